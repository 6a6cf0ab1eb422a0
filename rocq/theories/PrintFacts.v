(** What Print.v writes. *)
From Coq Require Import String ZArith List Bool Ascii Lia Reals Lra Psatz.
From Flocq Require Import Core.Core IEEE754.BinarySingleNaN.
From Verif Require Import Base Dim Matrix View Num Expr Spec Iter MatFacts Batch BatchThms Kernel Connected Float32 Pooling Activation Softmax FloatFacts Chars Double DoubleFacts
  Bar BarFacts Decimal DecimalFacts Stream StreamFacts Text TextFacts Model Report ReportFacts Print.
Import ListNotations.
Local Open Scope Z_scope.

(** ** Texts of equal length one after the other *)
Definition slice (a l : Z) (t : text) : text := firstn (Z.to_nat l) (skipn (Z.to_nat a) t).
Definition len (t : text) : Z := Z.of_nat (length t).
Lemma len_app : forall a b, len (a ++ b) = len a + len b.
Proof. intros. unfold len. rewrite app_length. lia. Qed.
Lemma cat_n_len : forall L g n a, (forall i, a <= i < a + Z.of_nat n -> len (g i) = L) -> len (cat_n n a g) = Z.of_nat n * L.
Proof.
  induction n; intros a H; [cbn; lia|]. cbn [cat_n]. rewrite len_app, (H a) by lia. rewrite IHn by (intros; apply H; lia). lia.
Qed.
Lemma cat_len : forall L g n, 0 <= n -> (forall i, 0 <= i < n -> len (g i) = L) -> len (cat n g) = n * L.
Proof. intros. unfold cat. rewrite (cat_n_len L) by (intros; apply H0; lia). rewrite Z2Nat.id by lia. reflexivity. Qed.
Lemma slice_mid : forall a b c, slice (len a) (len b) (a ++ b ++ c) = b.
Proof.
  intros. unfold slice, len. rewrite !Nat2Z.id. rewrite skipn_app, skipn_all, Nat.sub_diag. cbn [app skipn].
  rewrite firstn_app, firstn_all, Nat.sub_diag. cbn [firstn]. apply app_nil_r.
Qed.
Lemma cat_n_split : forall g n a k, a <= k < a + Z.of_nat n -> exists r, cat_n n a g = cat_n (Z.to_nat (k - a)) a g ++ g k ++ r.
Proof.
  induction n; intros a k H; [lia|]. destruct (Z.eq_dec k a) as [->|NE].
  - replace (a - a) with 0 by lia. cbn [Z.to_nat cat_n app]. eauto.
  - destruct (IHn (a + 1) k ltac:(lia)) as (r & E). exists r. replace (Z.to_nat (k - a)) with (S (Z.to_nat (k - (a + 1)))) by lia.
    cbn [cat_n]. rewrite E, <- app_assoc. reflexivity.
Qed.
(** Text number k, inside a longer text *)
Lemma cat_slice_in : forall L g n k pre post o l, 0 <= k < n -> (forall i, 0 <= i < n -> len (g i) = L) -> 0 <= o -> 0 <= l -> o + l <= L ->
  slice (len pre + k * L + o) l (pre ++ cat n g ++ post) = slice o l (g k).
Proof.
  intros L g n k pre post o l K H O0 L0 OL. unfold cat. destruct (cat_n_split g (Z.to_nat n) 0 k ltac:(lia)) as (r & ->).
  assert (LK : len (cat_n (Z.to_nat (k - 0)) 0 g) = k * L) by (rewrite (cat_n_len L) by (intros; apply H; lia); rewrite Z2Nat.id by lia; f_equal; lia).
  set (c := cat_n _ _ _) in *. clearbody c. pose proof (H k K) as HK. set (b := g k) in *. clearbody b.
  unfold slice, len in *. replace (Z.to_nat (Z.of_nat (length pre) + k * L + o)) with (length (pre ++ c) + Z.to_nat o)%nat by (rewrite app_length; lia).
  rewrite <- !app_assoc. rewrite (app_assoc pre c). rewrite skipn_app. rewrite skipn_all2 by lia. cbn [app].
  replace (length (pre ++ c) + Z.to_nat o - length (pre ++ c))%nat with (Z.to_nat o) by lia.
  rewrite skipn_app. rewrite firstn_app. rewrite skipn_length.
  replace (Z.to_nat l - (length b - Z.to_nat o))%nat with O by lia. cbn [firstn]. apply app_nil_r.
Qed.

(** ** Matrices *)
Lemma write_loop : forall n body (g : Z -> text) t f o,
  (forall i t, 0 <= i < n -> body i (Streams t f o) = ORet (Streams (t ++ g i) f o) tt) ->
  mfor n body (Streams t f o) = ORet (Streams (t ++ cat n g) f o) tt.
Proof.
  intros n body g t f o H. unfold mfor, cat.
  assert (G : forall k a t, (forall i t, a <= i < a + Z.of_nat k -> body i (Streams t f o) = ORet (Streams (t ++ g i) f o) tt) ->
    mfor_n k a body (Streams t f o) = ORet (Streams (t ++ cat_n k a g) f o) tt).
  { induction k; intros a t0 B; [cbn; rewrite app_nil_r; reflexivity|]. cbn [mfor_n cat_n].
    rewrite (bind_ok _ _ _ (Streams (t0 ++ g a) f o) tt) by (apply B; lia). rewrite IHk by (intros; apply B; lia). rewrite app_assoc. reflexivity. }
  apply G. intros. apply H. lia.
Qed.

Section Matrix.
Context {S T : Type} (el : element T) (a : lz S T) (mem : S) (d : dim3) (f : Z -> Z -> Z -> T) (IL : is_lz a mem d f).
Definition num_width : Z := if el_float el then 7 else 4.
(** The format that is used for the elements *)
Definition used_format (s : streams) : format :=
  match s_other s with None => if el_float el then Format 2 Fixed else s_os s | Some _ => s_os s end.
(** The formats afterwards *)
Definition format_after (f : format) : format := Format (f_prec f) General.
Definition after (s : streams) (t : text) : streams :=
  match s_other s with None => Streams t (format_after (s_os s)) None | Some c => Streams t (s_os s) (Some (format_after c)) end.
(** One cell: the sign, and the absolute value [t], filled up with spaces *)
Definition cell_text (v : T) (t : text) : text := (if el_neg el v then lit "-" else lit " ") ++ padded (Z.to_nat num_width) t.
Context (tx : Z -> Z -> Z -> text).
Definition line (x : Z) : text :=
  cat (dz d) (fun z => lit "[" ++ cat (dy d) (fun y => cell_text (f x y z) (tx x y z) ++ (if y =? dy d - 1 then lit "]" else lit ",")) ++ lit "   ").

Theorem mat_print_ok : forall s, (forall x y z, inb d x y z -> el_abs el (used_format s) (f x y z) = Ok (tx x y z)) ->
  mat_print el a mem s = ORet (after s (s_text s ++ nl ++ cat (dx d) (fun x => line x ++ nl))) tt.
Proof.
  intros s H. destruct IL as [D V]. unfold mat_print. unfold bind at 1, mget at 1.
  assert (S1 : (if el_float el then set_cout (Format 2 Fixed) else ret tt) s =
    ORet (Streams (s_text s) (used_format s) (if el_float el then match s_other s with None => None | Some _ => Some (Format 2 Fixed) end else s_other s)) tt).
  { unfold used_format, set_cout, ret. destruct s as [t fo [c|]], (el_float el); reflexivity. }
  rewrite (bind_ok _ _ _ _ _ S1). clear S1. cbv zeta. unfold bind at 1, write at 1. cbn [s_text s_os s_other].
  set (fo := used_format s) in *. set (oth := if el_float el then match s_other s with None => None | Some _ => Some (Format 2 Fixed) end else s_other s). rewrite D.
  rewrite (bind_ok _ _ _ (Streams ((s_text s ++ nl) ++ cat (dx d) (fun x => line x ++ nl)) fo oth) tt).
  - unfold set_cout, after, cout_format, format_after. cbn [s_text s_os s_other]. rewrite <- app_assoc. subst oth fo. unfold used_format.
    destruct s as [t fo [c|]], (el_float el); cbn [s_text s_os s_other f_prec]; reflexivity.
  - apply write_loop. intros x t X.
    rewrite (bind_ok _ _ _ (Streams (t ++ line x) fo oth) tt); [unfold write; cbn [s_text s_os s_other]; rewrite app_assoc; reflexivity|].
    unfold line. apply write_loop. intros z t2 Zz. unfold bind at 1, write at 1. cbn [s_text s_os s_other].
    rewrite (bind_ok _ _ _ (Streams ((t2 ++ lit "[") ++ cat (dy d) (fun y => cell_text (f x y z) (tx x y z) ++ (if y =? dy d - 1 then lit "]" else lit ","))) fo oth) tt);
      [unfold write; cbn [s_text s_os s_other]; rewrite <- !app_assoc; reflexivity|].
    apply write_loop. intros y t3 Y. assert (J : inb d x y z) by (repeat split; lia).
    unfold bind at 1, lift at 1. rewrite (V _ _ _ J). unfold bind at 1, mget at 1. unfold bind at 1, lift at 1. cbn [s_os]. rewrite (H _ _ _ J).
    unfold write. cbn [s_text s_os s_other]. unfold cell_text, num_width. rewrite <- !app_assoc. destruct (el_float el); reflexivity.
Qed.

(** If no number is too long, all lines are equally long, and the cells stand in columns. *)
Context (HP : pos d) (HW : forall x y z, inb d x y z -> len (tx x y z) <= num_width).
Lemma num_width_pos : 0 <= num_width.
Proof. unfold num_width. destruct (el_float el); lia. Qed.
Lemma cell_len : forall x y z, inb d x y z -> len (cell_text (f x y z) (tx x y z)) = num_width + 1.
Proof.
  intros x y z J. specialize (HW _ _ _ J). pose proof num_width_pos. unfold cell_text. rewrite len_app. unfold padded. rewrite len_app.
  unfold len in *. rewrite repeat_length. destruct (el_neg el (f x y z)); cbn [length lit list_ascii_of_string]; lia.
Qed.
Definition block : Z := dy d * (num_width + 2) + 4.
Lemma block_len : forall x z, 0 <= x < dx d -> 0 <= z < dz d ->
  len (lit "[" ++ cat (dy d) (fun y => cell_text (f x y z) (tx x y z) ++ (if y =? dy d - 1 then lit "]" else lit ",")) ++ lit "   ") = block.
Proof.
  intros x z X Zz. rewrite !len_app. rewrite (cat_len (num_width + 2)).
  - change (len (lit "[")) with 1. change (len (lit "   ")) with 3. unfold block. lia.
  - destruct HP as (_ & P & _). lia.
  - intros y Y. rewrite len_app, cell_len by (repeat split; lia). destruct (y =? dy d - 1); [change (len (lit "]")) with 1|change (len (lit ",")) with 1]; lia.
Qed.
Lemma line_len : forall x, 0 <= x < dx d -> len (line x) = dz d * block.
Proof. intros x X. unfold line. apply cat_len; [destruct HP as (_ & _ & P); lia|]. intros z Zz. apply block_len; assumption. Qed.
Lemma line_cell : forall x y z, inb d x y z ->
  slice (z * block + 1 + y * (num_width + 2)) (num_width + 1) (line x) = cell_text (f x y z) (tx x y z).
Proof.
  intros x y z J. pose proof num_width_pos as NW. destruct J as (X & Y & Zz). unfold line.
  rewrite <- (app_nil_r (cat (dz d) _)). change (cat (dz d) ?g ++ []) with ([] ++ cat (dz d) g ++ []).
  replace (z * block + 1 + y * (num_width + 2)) with (len [] + z * block + (1 + y * (num_width + 2))) by (unfold len; cbn [length]; lia).
  assert (HB : 1 + y * (num_width + 2) + (num_width + 1) <= block) by (unfold block; nia).
  rewrite (cat_slice_in block) by (try assumption; try lia; intros i Hi; apply block_len; assumption).
  replace (1 + y * (num_width + 2)) with (len (lit "[") + y * (num_width + 2) + 0) by (change (len (lit "[")) with 1; lia).
  rewrite (cat_slice_in (num_width + 2)); try lia.
  - pose proof (cell_len x y z ltac:(repeat split; lia)) as CL. rewrite <- CL. apply (slice_mid []).
  - intros i Hi. rewrite len_app, cell_len by (repeat split; lia). destruct (i =? dy d - 1); [change (len (lit "]")) with 1|change (len (lit ",")) with 1]; lia.
Qed.
Lemma line_slice : forall x z o l, 0 <= x < dx d -> 0 <= z < dz d -> 0 <= o -> 0 <= l -> o + l <= block ->
  slice (z * block + o) l (line x) =
  slice o l (lit "[" ++ cat (dy d) (fun y => cell_text (f x y z) (tx x y z) ++ (if y =? dy d - 1 then lit "]" else lit ",")) ++ lit "   ").
Proof.
  intros x z o l X Zz O0 L0 OL. unfold line. rewrite <- (app_nil_r (cat (dz d) _)). change (cat (dz d) ?g ++ []) with ([] ++ cat (dz d) g ++ []).
  replace (z * block + o) with (len [] + z * block + o) by (unfold len; cbn [length]; lia).
  apply (cat_slice_in block); try assumption. intros i Hi; apply block_len; assumption.
Qed.
Lemma cells_len : forall x z, 0 <= x < dx d -> 0 <= z < dz d -> forall y, 0 <= y < dy d ->
  len (cell_text (f x y z) (tx x y z) ++ (if y =? dy d - 1 then lit "]" else lit ",")) = num_width + 2.
Proof.
  intros x z X Zz y Y. rewrite len_app, cell_len by (repeat split; lia). destruct (y =? dy d - 1); [change (len (lit "]")) with 1|change (len (lit ",")) with 1]; lia.
Qed.
Lemma line_open : forall x z, 0 <= x < dx d -> 0 <= z < dz d -> slice (z * block) 1 (line x) = lit "[".
Proof.
  intros x z X Zz. pose proof num_width_pos as NW. destruct HP as (_ & P & _). replace (z * block) with (z * block + 0) by lia. rewrite line_slice by (unfold block; nia).
  apply (slice_mid [] (lit "[")).
Qed.
Lemma line_sep : forall x y z, inb d x y z ->
  slice (z * block + 1 + y * (num_width + 2) + (num_width + 1)) 1 (line x) = if y =? dy d - 1 then lit "]" else lit ",".
Proof.
  intros x y z (X & Y & Zz). pose proof num_width_pos as NW.
  replace (z * block + 1 + y * (num_width + 2) + (num_width + 1)) with (z * block + (1 + y * (num_width + 2) + (num_width + 1))) by lia.
  rewrite line_slice by (unfold block; nia).
  replace (1 + y * (num_width + 2) + (num_width + 1)) with (len (lit "[") + y * (num_width + 2) + (num_width + 1)) by (change (len (lit "[")) with 1; lia).
  rewrite (cat_slice_in (num_width + 2)); try lia; [|apply cells_len; assumption].
  pose proof (cell_len x y z ltac:(repeat split; lia)) as CL. rewrite <- CL.
  set (sep := if y =? dy d - 1 then _ else _). replace 1 with (len sep) by (subst sep; destruct (y =? dy d - 1); reflexivity).
  rewrite <- (app_nil_r sep) at 2. apply slice_mid.
Qed.
Lemma line_gap : forall x z, 0 <= x < dx d -> 0 <= z < dz d -> slice (z * block + block - 3) 3 (line x) = lit "   ".
Proof.
  intros x z X Zz. pose proof num_width_pos as NW. pose proof HP as (_ & P & _). replace (z * block + block - 3) with (z * block + (block - 3)) by lia.
  rewrite line_slice by (unfold block; nia). rewrite app_assoc.
  set (pre := lit "[" ++ _). replace (block - 3) with (len pre); [change 3 with (len (lit "   ")); rewrite <- (app_nil_r (lit "   ")) at 2; apply slice_mid|].
  subst pre. rewrite len_app, (cat_len (num_width + 2)) by (try lia; apply cells_len; assumption). change (len (lit "[")) with 1. unfold block. lia.
Qed.
End Matrix.

(** [lines] show the elements: for every row one line, in it for every layer a block [dy d * (w + 2) + 4] wide: "[", for every
    column a cell of w + 1 characters with a comma or, after the last one, "]", and three spaces. *)
Definition shows {T} (d : dim3) (f : Z -> Z -> Z -> T) (w : Z) (P : T -> text -> Prop) (lines : list text) : Prop :=
  let b := dy d * (w + 2) + 4 in
  Z.of_nat (length lines) = dx d /\
  forall x l, 0 <= x -> nth_error lines (Z.to_nat x) = Some l ->
    len l = dz d * b /\
    (forall z, 0 <= z < dz d -> slice (z * b) 1 l = lit "[" /\ slice (z * b + b - 3) 3 l = lit "   ") /\
    (forall y z, inb d x y z -> let c := z * b + 1 + y * (w + 2) in
       P (f x y z) (slice c (w + 1) l) /\ slice (c + w + 1) 1 l = if y =? dy d - 1 then lit "]" else lit ",").

Lemma cat_lines : forall (g : Z -> text) n a, cat_n n a g = concat (map (fun i => g (a + Z.of_nat i)) (seq 0 n)).
Proof.
  induction n; intros a; [reflexivity|]. cbn [cat_n seq map concat]. f_equal; [f_equal; lia|]. rewrite IHn, <- seq_shift, map_map. f_equal. apply map_ext. intros i. f_equal. lia.
Qed.
Theorem mat_print_shows : forall {S T} (el : element T) (a : lz S T) (mem : S) d f s (P : T -> text -> Prop),
  is_lz a mem d f -> pos d ->
  (forall x y z, inb d x y z -> exists t, el_abs el (used_format el s) (f x y z) = Ok t /\ len t <= num_width el /\ P (f x y z) (cell_text el (f x y z) t)) ->
  exists lines, mat_print el a mem s = ORet (after s (s_text s ++ nl ++ concat (map (fun l => l ++ nl) lines))) tt /\ shows d f (num_width el) P lines.
Proof.
  intros S T el a mem d f s P IL HP H.
  set (tx := fun x y z => match el_abs el (used_format el s) (f x y z) with Ok t => t | _ => [] end).
  assert (HT : forall x y z, inb d x y z -> el_abs el (used_format el s) (f x y z) = Ok (tx x y z) /\ len (tx x y z) <= num_width el /\ P (f x y z) (cell_text el (f x y z) (tx x y z))).
  { intros x y z J. unfold tx. destruct (H x y z J) as (t & E & L & Q). rewrite E. auto. }
  clearbody tx. assert (HW : forall x y z, inb d x y z -> len (tx x y z) <= num_width el) by (intros; apply HT; assumption).
  exists (map (fun i => line el d f tx (Z.of_nat i)) (seq 0 (Z.to_nat (dx d)))). split.
  - rewrite (mat_print_ok el a mem d f IL tx) by (intros; apply HT; assumption). do 4 f_equal. unfold cat. rewrite cat_lines, map_map. reflexivity.
  - unfold shows. cbv zeta. fold (block el d). destruct HP as (P1 & P2 & P3). split; [rewrite map_length, seq_length; lia|]. intros x l X Q.
    assert (XL : x < dx d). { assert (nth_error (map (fun i => line el d f tx (Z.of_nat i)) (seq 0 (Z.to_nat (dx d)))) (Z.to_nat x) <> None) as NN by congruence. apply nth_error_Some in NN. rewrite map_length, seq_length in NN. lia. }
    rewrite nth_error_map in Q. destruct (nth_error (seq 0 (Z.to_nat (dx d))) (Z.to_nat x)) as [i|] eqn:QI; [|discriminate]. cbn in Q. injection Q as <-.
    apply nth_error_nth with (d := O) in QI. rewrite seq_nth in QI by lia. assert (EI : Z.of_nat i = x) by lia. rewrite EI.
    assert (HP : pos d) by (repeat split; lia).
    split; [apply line_len; auto; lia|]. split.
    + intros z Zz. split; [apply line_open|apply line_gap]; auto; lia.
    + intros y z J. split; [rewrite line_cell by assumption; apply HT; exact J|]. rewrite <- Z.add_assoc. apply line_sep; assumption.
Qed.

(** ** Cells *)
Lemma B2R_finite_pos : forall m e B, B2R (B754_finite (prec := prec) (emax := emax) false m e B) = (IZR (Z.pos m) * bpow radix2 e)%R.
Proof. reflexivity. Qed.
Lemma last_digits_len : forall n k, length (last_digits n k) = n.
Proof. induction n; intros k; cbn [last_digits]; [reflexivity|]. rewrite app_length, IHn. cbn. lia. Qed.
Lemma point_text_len : forall w k, 1 <= w -> 0 <= k < 10 ^ (w + 2) -> len (point_text 2 k) <= w + 3.
Proof.
  intros w k W K. unfold point_text. change (Z.of_nat 2) with 2. change (10 ^ 2) with 100.
  assert (Q : 0 <= k / 100 < 10 ^ w).
  { split; [apply Z.div_pos; lia|]. apply Z.div_lt_upper_bound; [lia|]. rewrite Z.pow_add_r in K by lia. change (10 ^ 2) with 100 in K. lia. }
  pose proof (width_le (k / 100) w W Q) as L. unfold width in L. rewrite !len_app. unfold len. rewrite last_digits_len.
  change (length (lit ".")) with 1%nat. lia.
Qed.
(** Two digits after the point *)
Lemma fixed2_text : forall y : double, is_finite y = true -> Bsign y = false -> (B2R y < 9999.995)%R ->
  len (put_num (Format 2 Fixed) y) <= 7 /\ exists v, denotes (put_num (Format 2 Fixed) y) v /\ (Rabs (v - B2R y) <= 0.005)%R.
Proof.
  intros y F S H. split.
  - destruct y as [s|s| |s m e B]; try discriminate F; cbn [Bsign] in S; subst s.
    + vm_compute. discriminate.
    + rewrite B2R_finite_pos in H. cbn [put_num sign_text app]. unfold pos_text. cbn [f_note f_prec]. change (Z.to_nat 2) with 2%nat. apply (point_text_len 4); [lia|].
      rewrite scaled_ok. change (bpow radix10 2) with 100%R. pose proof (Znearest_err (IZR (Z.pos m) * bpow radix2 e * 100)) as NE.
      assert (P : (0 <= IZR (Z.pos m) * bpow radix2 e)%R) by (apply Rmult_le_pos; [apply IZR_le; lia|apply bpow_ge_0]).
      set (v := (IZR (Z.pos m) * bpow radix2 e)%R) in *. clearbody v. split.
      * rewrite <- (near_Z 0). apply near_le. lra.
      * change (10 ^ (4 + 2)) with 1000000. apply lt_IZR. apply Rabs_le_inv in NE. lra.
  - destruct (put_num_ok (Format 2 Fixed) y) as (v & D & T); [cbn; lia|exact F|]. exists v. split; [exact D|].
    unfold tolerance in T. cbn [f_note f_prec] in T. replace (bpow radix10 (- (2))) with (/ 100)%R in T by (cbn; lra). lra.
Qed.
(** What stands in a cell: a sign, spaces, and a number *)
Definition cell_of (neg : bool) (w : Z) (t : text) (v : R) (err : R) : Prop :=
  len t = w + 1 /\ exists k n u, t = (if neg then lit "-" else lit " ") ++ repeat " "%char k ++ n /\ denotes n u /\ (Rabs (u - v) <= err)%R.
Lemma sign_pos : forall y : double, is_finite y = true -> (0 < B2R y)%R -> Bsign y = false.
Proof.
  intros [s|s| |s m e B] F H; try discriminate F; cbn [B2R Bsign] in *; [lra|]. destruct s; [|reflexivity].
  exfalso. unfold F2R in H. cbn [Fnum Fexp cond_Zopp] in H. assert (0 <= IZR (Z.pos m) * bpow radix2 e)%R by (apply Rmult_le_pos; [apply IZR_le; lia|apply bpow_ge_0]).
  rewrite opp_IZR in H. lra.
Qed.

Lemma cell_padded : forall {T} (el : element T) v t w r err, len t <= num_width el -> denotes t w -> (Rabs (w - r) <= err)%R ->
  cell_of (el_neg el v) (num_width el) (cell_text el v t) r err.
Proof.
  intros T el v t w r err H D A. unfold cell_of, cell_text. pose proof (num_width_pos el) as NP. split.
  - unfold padded. rewrite !len_app. unfold len in *. rewrite repeat_length. destruct (el_neg el v); cbn [length lit list_ascii_of_string]; lia.
  - unfold padded. exists (Z.to_nat (num_width el) - length t)%nat, t, w. auto.
Qed.
Lemma double_cell : forall x : double, is_finite x = true -> (Rabs (B2R x) < 9999.995)%R ->
  exists t, el_abs el_double (Format 2 Fixed) x = Ok t /\ len t <= 7 /\ cell_of (Rlt_bool (B2R x) 0) 7 (cell_text el_double x t) (Rabs (B2R x)) 0.005.
Proof.
  intros x F H. assert (F' : is_finite (Babs x) = true) by (destruct x; exact F).
  assert (S : Bsign (Babs x) = false) by (destruct x; reflexivity || discriminate F).
  destruct (fixed2_text (Babs x) F' S) as (L & v & D & A); [rewrite B2R_Babs; exact H|]. rewrite B2R_Babs in A.
  eexists. split; [reflexivity|]. split; [exact L|].
  assert (N : el_neg el_double x = Rlt_bool (B2R x) 0) by (cbn [el_neg el_double n0 NumD]; rewrite Bltb_correct by (assumption || reflexivity); reflexivity).
  rewrite <- N. eapply (cell_padded el_double); [exact L|exact D|exact A].
Qed.
Lemma f32_cell : forall x : f32, is_finite x = true -> (Rabs (B2R x) < 9999.995)%R ->
  exists t, el_abs el_f32 (Format 2 Fixed) x = Ok t /\ len t <= 7 /\ cell_of (Rlt_bool (B2R x) 0) 7 (cell_text el_f32 x t) (Rabs (B2R x)) 0.005.
Proof.
  intros x F H. assert (F' : is_finite (Babs x) = true) by (destruct x; exact F).
  destruct (d_of_f32_ok _ F') as [D1 D2]. rewrite B2R_Babs in D1.
  assert (S : Bsign (d_of_f32 (Babs x)) = false).
  { destruct x as [s|s| |s m e B]; try discriminate F; [reflexivity|]. apply sign_pos; [exact D2|]. rewrite D1. apply Rabs_pos_lt. intros Z0.
    apply eq_0_F2R in Z0. destruct s; discriminate Z0. }
  destruct (fixed2_text _ D2 S) as (L & v & D & A); [rewrite D1; exact H|]. rewrite D1 in A.
  eexists. split; [reflexivity|]. split; [exact L|].
  destruct (of_Z_exact 0) as [O1 O2]; [lia|].
  assert (N : el_neg el_f32 x = Rlt_bool (B2R x) 0) by (cbn [el_neg el_f32]; rewrite Bltb_correct by assumption; rewrite O1; reflexivity).
  rewrite <- N. eapply (cell_padded el_f32); [exact L|exact D|exact A].
Qed.
Lemma int_cell : forall fo v, Z.abs v <= 9999 ->
  exists t, el_abs el_int fo v = Ok t /\ len t <= 4 /\ cell_of (v <? 0) 4 (cell_text el_int v t) (IZR (Z.abs v)) 0.
Proof.
  intros fo v H. exists (dec (Z.abs v)). cbn [el_abs el_int]. unfold i32. replace ((- two31 <=? Z.abs v) && (Z.abs v <? two31)) with true by (symmetry; apply andb_true_intro; unfold two31; lia). cbn [rbind]. split; [reflexivity|].
  assert (EQ : dec (Z.abs v) = dec_pos (Z.abs v)) by (unfold dec; destruct (Z.abs v <? 0) eqn:Q; [lia|reflexivity]). rewrite EQ.
  pose proof (width_le (Z.abs v) 4 ltac:(lia) ltac:(change (10 ^ 4) with 10000; lia)) as W. split; [exact W|].
  eapply (cell_padded el_int v); [exact W|apply de_plain, plain_int, dec_pos_only; lia|]. rewrite dec_pos_num by lia. rewrite Rminus_eq_0, Rabs_R0. lra.
Qed.

(** ** The formats of the streams *)
Definition quiet {A} (c : M streams A) : Prop := forall s s' v, c s = ORet s' v -> s_os s' = s_os s /\ s_other s' = s_other s.
Lemma quiet_bind : forall {A B} (c : M streams A) (k : A -> M streams B), quiet c -> (forall v, quiet (k v)) -> quiet (bind c k).
Proof.
  intros A B c k H1 H2 s s' v H. unfold bind in H. destruct (c s) as [s1 v1| |] eqn:Q; try discriminate.
  destruct (H1 _ _ _ Q) as [P1 P2]. destruct (H2 _ _ _ _ H) as [P3 P4]. split; congruence.
Qed.
Lemma quiet_write : forall t, quiet (write t).
Proof. intros t s s' v H. injection H as <- <-. auto. Qed.
Lemma quiet_lift : forall {A} (r : res A), quiet (lift r).
Proof. intros A r s s' v H. unfold lift in H. destruct r; try discriminate. injection H as <- <-. auto. Qed.
Lemma quiet_mget : quiet mget.
Proof. intros s s' v H. injection H as <- <-. auto. Qed.
Lemma quiet_mfor : forall n (body : Z -> M streams unit), (forall i, quiet (body i)) -> quiet (mfor n body).
Proof.
  intros n body H. unfold mfor. generalize 0. induction (Z.to_nat n) as [|k IH]; intros a.
  - intros s s' v E. injection E as <- <-. auto.
  - cbn [mfor_n]. apply quiet_bind; [apply H|]. intros _. apply IH.
Qed.
Theorem mat_print_formats : forall {S T} (el : element T) (a : lz S T) (mem : S) s s', mat_print el a mem s = ORet s' tt ->
  cout_format s' = Format (f_prec (cout_format s)) General /\ (s_other s <> None -> s_os s' = s_os s) /\ (s_other s = None <-> s_other s' = None).
Proof.
  intros S T el a mem s s' H. unfold mat_print in H. unfold bind at 1, mget at 1 in H.
  assert (S1 : exists s1, (if el_float el then set_cout (Format 2 Fixed) else ret tt) s = ORet s1 tt /\ (s_other s <> None -> s_os s1 = s_os s) /\ (s_other s = None <-> s_other s1 = None)).
  { destruct s as [t f [c|]], (el_float el); cbn; eexists; (split; [reflexivity|]); cbn; split; try split; congruence. }
  destruct S1 as (s1 & E1 & K1 & K2). rewrite (bind_ok _ _ _ _ _ E1) in H. cbv zeta in H.
  unfold bind at 1, write at 1 in H. set (s2 := Streams _ (s_os s1) (s_other s1)) in H.
  unfold bind at 1 in H. destruct (mfor (dx (ldim a mem)) _ s2) as [s3 []| |] eqn:Q; try discriminate.
  assert (P : s_os s3 = s_os s2 /\ s_other s3 = s_other s2).
  { revert Q. apply quiet_mfor. intros i. apply quiet_bind; [|intros; apply quiet_write]. apply quiet_mfor. intros k. apply quiet_bind; [apply quiet_write|]. intros _.
    apply quiet_bind; [|intros; apply quiet_write]. apply quiet_mfor. intros j. apply quiet_bind; [apply quiet_lift|]. intros v. apply quiet_bind; [apply quiet_mget|]. intros s0.
    apply quiet_bind; [apply quiet_lift|]. intros t. apply quiet_write. }
  destruct P as [P1 P2]. cbn [s2 s_os s_other] in P1, P2. unfold set_cout in H. injection H as <-. unfold cout_format.
  destruct (s_other s3) as [c|] eqn:Q3; cbn [s_os s_other].
  - split; [reflexivity|]. split; [intros N; rewrite P1; apply K1; exact N|]. rewrite K2, <- P2. split; congruence.
  - split; [reflexivity|]. split; [intros N; exfalso; apply N; apply K2; congruence|]. rewrite K2, <- P2. split; congruence.
Qed.
