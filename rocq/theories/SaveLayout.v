(** The lines of a saved matrix (SimpleMatrix.tpp 224-239). *)
From Coq Require Import String ZArith List Bool Ascii Lia Reals Lra.
From Flocq Require Import Core.Core IEEE754.BinarySingleNaN.
From Verif Require Import Base Dim Matrix View Num Expr Spec Iter MatFacts Batch Kernel Connected Float32 Pooling Activation Softmax FloatFacts Chars Double DoubleFacts
  Stream StreamFacts Text TextFacts Model LayerText LoadThms LoadSafe Decimal DecimalFacts Report PrintFacts.
Import ListNotations.
Local Open Scope Z_scope.

(** A text in a field of 16 characters, to the right, and a blank *)
Definition field (t : text) : text := repeat " "%char (16 - length t) ++ t ++ lit " ".
(** Line number [k], from 0 *)
Definition line_no (t : text) (k : Z) (l : text) : Prop := 0 <= k /\ nth_error (lines t) (Z.to_nat k) = Some l.

Lemma no_nl_blanks : forall n, no_nl (repeat " "%char n).
Proof. induction n; [reflexivity|]. exact IHn. Qed.
Lemma no_nl_cat : forall g n a, (forall i, a <= i < a + Z.of_nat n -> no_nl (g i)) -> no_nl (cat_n n a g).
Proof. induction n; intros a H; [reflexivity|]. cbn [cat_n]. apply no_nl_app; [apply H; lia|]. apply IHn. intros. apply H. lia. Qed.

Lemma lines_step : forall a t, no_nl a -> line_no (a ++ nl ++ t) 0 a /\ forall k l, line_no t k l -> line_no (a ++ nl ++ t) (k + 1) l.
Proof.
  intros a t A. unfold line_no. rewrite (lines_app a t A). split; [split; [lia|reflexivity]|].
  intros k l [K H]. split; [lia|]. replace (Z.to_nat (k + 1)) with (S (Z.to_nat k)) by lia. exact H.
Qed.
(** Lines one after the other *)
Lemma lines_cat : forall g n a t, (forall i, a <= i < a + Z.of_nat n -> no_nl (g i)) ->
  let u := cat_n n a (fun i => g i ++ nl) ++ t in
  (forall i, a <= i < a + Z.of_nat n -> line_no u (i - a) (g i)) /\ (forall k l, line_no t k l -> line_no u (Z.of_nat n + k) l) /\
  length (lines u) = (n + length (lines t))%nat.
Proof.
  intros g. induction n as [|n IH]; intros a t H u; subst u; cbn [cat_n].
  - split; [intros; lia|]. split; [intros k l L; exact L|reflexivity].
  - rewrite <- !app_assoc. destruct (IH (a + 1) t) as (I1 & I2 & I3); [intros; apply H; lia|].
    set (v := cat_n n (a + 1) (fun i => g i ++ nl) ++ t) in *. clearbody v.
    destruct (lines_step (g a) v) as [S1 S2]; [apply H; lia|]. split; [|split].
    + intros i Hi. destruct (Z.eq_dec i a) as [->|NE]; [replace (a - a) with 0 by lia; exact S1|].
      replace (i - a) with (i - (a + 1) + 1) by lia. apply S2, I1. lia.
    + intros k l L. replace (Z.of_nat (S n) + k) with (Z.of_nat n + k + 1) by lia. apply S2, I2, L.
    + rewrite lines_app by (apply H; lia). cbn [length]. lia.
Qed.
(** Blocks of [h] lines *)
Lemma lines_blocks : forall h (b : Z -> text) (row : Z -> Z -> text), 0 <= h ->
  (forall i t, (forall j, 0 <= j < h -> line_no (b i ++ t) j (row i j)) /\ (forall k l, line_no t k l -> line_no (b i ++ t) (h + k) l) /\
     Z.of_nat (length (lines (b i ++ t))) = h + Z.of_nat (length (lines t))) ->
  forall n a t, let u := cat_n n a b ++ t in
  (forall i j, a <= i < a + Z.of_nat n -> 0 <= j < h -> line_no u ((i - a) * h + j) (row i j)) /\
  (forall k l, line_no t k l -> line_no u (Z.of_nat n * h + k) l) /\ Z.of_nat (length (lines u)) = Z.of_nat n * h + Z.of_nat (length (lines t)).
Proof.
  intros h b row Hh B. induction n as [|n IH]; intros a t u; subst u; cbn [cat_n].
  - split; [intros; lia|]. split; [intros k l L; exact L|reflexivity].
  - rewrite <- app_assoc. destruct (IH (a + 1) t) as (I1 & I2 & I3). set (v := cat_n n (a + 1) b ++ t) in *. clearbody v.
    destruct (B a v) as (B1 & B2 & B3). split; [|split].
    + intros i j Hi Hj. destruct (Z.eq_dec i a) as [->|NE]; [replace ((a - a) * h + j) with j by lia; apply B1; exact Hj|].
      replace ((i - a) * h + j) with (h + ((i - (a + 1)) * h + j)) by lia. apply B2, I1; lia.
    + intros k l L. replace (Z.of_nat (S n) * h + k) with (h + (Z.of_nat n * h + k)) by lia. apply B2, I2, L.
    + rewrite B3, I3. lia.
Qed.

Section Layout.
Context {T : Type} {N : Num T} (wr : T -> text).

Lemma elem_field : forall v, elem_text wr v = field (wr v).
Proof. intros. unfold elem_text, setw16, field. rewrite <- app_assoc. reflexivity. Qed.

(** Every line of the text of a matrix *)
Theorem mat_lines : forall m d f, is_mat m d f -> fits d -> (forall x y z, inb d x y z -> no_nl (wr (f x y z))) ->
  exists t, mat_text wr m = Ok t /\
    line_no t 0 (dec (dx d) ++ lit " " ++ dec (dy d) ++ lit " " ++ dec (dz d)) /\
    (forall x z, 0 <= x < dx d -> 0 <= z < dz d -> line_no t (1 + z * (dx d + 1) + x) (cat (dy d) (fun y => field (wr (f x y z))))) /\
    (forall z, 0 <= z < dz d -> line_no t (1 + z * (dx d + 1) + dx d) []) /\
    line_no t (1 + dz d * (dx d + 1)) [] /\ Z.of_nat (length (lines t)) = 2 + dz d * (dx d + 1).
Proof.
  intros m d f IM F NN. pose proof (fits_dims d F) as (DX & DY & DZ). eexists. split; [exact (mat_text_ok wr m d f IM F)|].
  set (row := fun z x => if x =? dx d then [] else cat (dy d) (fun y => field (wr (f x y z)))).
  assert (NR : forall z x, 0 <= z < dz d -> 0 <= x < dx d -> no_nl (cat (dy d) (fun y => elem_text wr (f x y z)))).
  { intros z x Hz Hx. apply no_nl_cat. intros y Hy. rewrite elem_field. unfold field. apply no_nl_app; [apply no_nl_blanks|]. apply no_nl_app; [|reflexivity].
    apply NN. repeat split; lia. }
  (* slices outside the matrix are not needed: cut the function off *)
  set (z0 := fun z => if (0 <=? z) && (z <? dz d) then z else 0).
  assert (BL : 0 < dz d -> forall i t, (forall j, 0 <= j < dx d + 1 -> line_no (slice_text wr d f (z0 i) ++ t) j (row (z0 i) j)) /\
     (forall k l, line_no t k l -> line_no (slice_text wr d f (z0 i) ++ t) (dx d + 1 + k) l) /\
     Z.of_nat (length (lines (slice_text wr d f (z0 i) ++ t))) = dx d + 1 + Z.of_nat (length (lines t))).
  { intros P i t. assert (HZ : 0 <= z0 i < dz d) by (unfold z0; destruct (0 <=? i) eqn:Q1, (i <? dz d) eqn:Q2; cbn [andb]; lia). set (z := z0 i) in *. clearbody z.
    assert (ES : slice_text wr d f z ++ t = cat_n (Z.to_nat (dx d)) 0 (fun x => cat (dy d) (fun y => elem_text wr (f x y z)) ++ nl) ++ nl ++ t).
    { unfold slice_text, row_text. rewrite <- app_assoc. reflexivity. }
    rewrite ES. clear ES.
    destruct (lines_cat (fun x => cat (dy d) (fun y => elem_text wr (f x y z))) (Z.to_nat (dx d)) 0 (nl ++ t)) as (L1 & L2 & L3).
    { intros x Hx. apply NR; lia. }
    destruct (lines_step [] t eq_refl) as [S1 S2]. cbn [app] in S1, S2. cbv zeta in L1, L2, L3.
    split; [|split].
    - intros j Hj. unfold row. destruct (j =? dx d) eqn:Q.
      + replace j with (Z.of_nat (Z.to_nat (dx d)) + 0) by lia. apply L2. exact S1.
      + replace j with (j - 0) at 1 by lia. erewrite (cat_ext _ (fun y => field _)); [apply L1; lia|]. intros y _. symmetry. apply elem_field.
    - intros k l L. replace (dx d + 1 + k) with (Z.of_nat (Z.to_nat (dx d)) + (k + 1)) by lia. apply L2, S2, L.
    - rewrite L3. change (nl ++ t) with ([] ++ nl ++ t). rewrite lines_app by reflexivity. cbn [length]. lia. }
  unfold head_text, rows_text. set (hd := dec (dx d) ++ lit " " ++ dec (dy d) ++ lit " " ++ dec (dz d)).
  replace ((dec (dx d) ++ lit " " ++ dec (dy d) ++ lit " " ++ dec (dz d) ++ nl) ++ cat (dz d) (slice_text wr d f)) with (hd ++ nl ++ cat (dz d) (slice_text wr d f) ++ [])
    by (unfold hd; rewrite <- !app_assoc, app_nil_r; reflexivity).
  assert (NH : no_nl hd) by (unfold hd; repeat apply no_nl_app; try apply no_nl_dec; reflexivity).
  destruct (lines_step hd (cat (dz d) (slice_text wr d f) ++ []) NH) as [H1 H2]. split; [exact H1|].
  assert (NIL : line_no [] 0 []) by (split; [lia|reflexivity]).
  destruct (Z.eq_dec (dz d) 0) as [E0|N0].
  { rewrite E0 in *. split; [intros; lia|]. split; [intros; lia|]. split; [apply (H2 0 []); exact NIL|]. rewrite lines_app by exact NH. reflexivity. }
  destruct (lines_blocks (dx d + 1) (fun i => slice_text wr d f (z0 i)) (fun i => row (z0 i)) ltac:(lia) (BL ltac:(lia)) (Z.to_nat (dz d)) 0 []) as (B1 & B2 & B3).
  fold (cat (dz d) (fun i => slice_text wr d f (z0 i))) in *.
  assert (EQ : forall z, 0 <= z < dz d -> z0 z = z) by (intros z Hz; unfold z0; destruct (0 <=? z) eqn:Q1, (z <? dz d) eqn:Q2; cbn [andb]; lia).
  rewrite (cat_ext (dz d) (fun i => slice_text wr d f (z0 i)) (slice_text wr d f)) in * by (intros i Hi; rewrite EQ by exact Hi; reflexivity).
  set (u := cat (dz d) (slice_text wr d f) ++ []) in *. clearbody u. split; [|split; [|split]].
  - intros x z Hx Hz. replace (1 + z * (dx d + 1) + x) with ((z - 0) * (dx d + 1) + x + 1) by lia. apply H2.
    specialize (B1 z x ltac:(lia) ltac:(lia)). cbv beta in B1. rewrite EQ in B1 by exact Hz. unfold row in B1. destruct (x =? dx d) eqn:Q; [lia|exact B1].
  - intros z Hz. replace (1 + z * (dx d + 1) + dx d) with ((z - 0) * (dx d + 1) + dx d + 1) by lia. apply H2.
    specialize (B1 z (dx d) ltac:(lia) ltac:(lia)). cbv beta in B1. unfold row in B1. rewrite Z.eqb_refl in B1. exact B1.
  - replace (1 + dz d * (dx d + 1)) with (Z.of_nat (Z.to_nat (dz d)) * (dx d + 1) + 0 + 1) by lia. apply H2, B2, NIL.
  - rewrite lines_app by exact NH. cbn [length lines] in *. lia.
Qed.
End Layout.

(** ** Elements of type double *)
Lemma no_nl_put : forall x, no_nl (put_double x).
Proof.
  assert (FX : forall k, 0 <= k -> no_nl (fixed6 k)).
  { intros k K. unfold fixed6. assert (0 < million) by reflexivity. apply no_nl_app; [apply no_nl_digits, dec_pos_digits, Z.div_pos; lia|].
    apply no_nl_app; [reflexivity|]. apply no_nl_digits. apply last_digits_ok. apply Z.mod_pos_bound. lia. }
  assert (SG : forall s, no_nl (sign_text s)) by (intros []; reflexivity).
  intros x. destruct (is_finite x) eqn:F.
  - rewrite put_double_fin by exact F. apply no_nl_app; [apply SG|]. apply FX, micros_nonneg.
  - destruct x as [s|s| |s m e B]; try discriminate F; try reflexivity; destruct s; reflexivity.
Qed.
(** Below 10^8 an element fits into its field *)
Lemma put_short : forall x, is_finite x = true -> (Rabs (B2R x) < 99999999.9999995)%R -> (length (put_double x) <= 16)%nat.
Proof.
  intros x F B. rewrite put_double_fin by exact F. pose proof (micros_nonneg x) as K.
  assert (U : micros_of x < 10 ^ 14).
  { rewrite micros_of_ok in * by exact F. assert (Z1 : ZnearestE (Rabs (B2R x) * 1000000) <= 99999999999999).
    { apply Z.lt_succ_r. apply lt_IZR. pose proof (Znearest_half (fun t => negb (Z.even t)) (Rabs (B2R x) * 1000000)) as NH.
      apply Rabs_le_inv in NH. change (Z.succ 99999999999999) with 100000000000000. lra. }
    change (10 ^ 14) with 100000000000000. lia. }
  set (k := micros_of x) in *. clearbody k. unfold fixed6. rewrite !app_length.
  destruct (last_digits_ok 6 (k mod million)) as (_ & _ & L3); [apply Z.mod_pos_bound; reflexivity|]. rewrite L3.
  pose proof (width_le (k / million) 8 ltac:(lia)) as W. unfold width in W. assert (Q : 0 <= k / million < 10 ^ 8).
  { split; [apply Z.div_pos; [exact K|reflexivity]|]. apply Z.div_lt_upper_bound; [reflexivity|]. change (million * 10 ^ 8) with (10 ^ 14). exact U. }
  specialize (W Q). destruct (Bsign x); cbn [sign_text lit list_ascii_of_string length]; lia.
Qed.
(** Then all lines of elements have the same length, and the fields are columns. *)
Lemma field_len : forall t, (length t <= 16)%nat -> len (field t) = 17.
Proof. intros t H. unfold field, len. rewrite !app_length, repeat_length. cbn [lit list_ascii_of_string length]. lia. Qed.
Lemma columns : forall (g : Z -> text) n, 0 <= n -> (forall y, 0 <= y < n -> (length (g y) <= 16)%nat) ->
  len (cat n (fun y => field (g y))) = n * 17 /\
  forall y, 0 <= y < n -> slice (y * 17) 16 (cat n (fun y => field (g y))) = repeat " "%char (16 - length (g y)) ++ g y /\ slice (y * 17 + 16) 1 (cat n (fun y => field (g y))) = lit " ".
Proof.
  intros g n Hn H. assert (HL : forall y, 0 <= y < n -> len (field (g y)) = 17) by (intros; apply field_len; auto).
  split; [apply cat_len; [exact Hn|exact HL]|]. intros y Hy.
  pose proof (cat_slice_in 17 (fun y => field (g y)) n y [] [] 0 16 Hy HL ltac:(lia) ltac:(lia) ltac:(lia)) as E1.
  pose proof (cat_slice_in 17 (fun y => field (g y)) n y [] [] 16 1 Hy HL ltac:(lia) ltac:(lia) ltac:(lia)) as E2.
  change (len []) with 0 in E1, E2. cbn [app] in E1, E2. rewrite app_nil_r in E1, E2.
  replace (0 + y * 17 + 0) with (y * 17) in E1 by lia. replace (0 + y * 17 + 16) with (y * 17 + 16) in E2 by lia. rewrite E1, E2.
  specialize (H y Hy). unfold field. rewrite app_assoc. set (a := repeat " "%char (16 - length (g y)) ++ g y).
  assert (LA : len a = 16) by (unfold a, len; rewrite app_length, repeat_length; lia). clearbody a.
  pose proof (slice_mid [] a (lit " ")) as M1. pose proof (slice_mid a (lit " ") []) as M2. rewrite LA in M1, M2. rewrite app_nil_r in M2.
  change (len []) with 0 in M1. change (len (lit " ")) with 1 in M2. cbn [app] in M1. auto.
Qed.
