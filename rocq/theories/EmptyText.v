(** Text of matrices without elements. *)
From Coq Require Import String ZArith List Bool Ascii Lia.
From Verif Require Import Base Dim Matrix View Num Expr Spec Iter MatFacts Batch Kernel Connected Chars Stream StreamFacts Text TextFacts LayerText FreeSize.
Import ListNotations.
Local Open Scope Z_scope.

(** [k] empty lines *)
Definition blank_lines (k : nat) : text := repeat newline k.
Lemma blank_app : forall a b, blank_lines a ++ blank_lines b = blank_lines (a + b).
Proof. intros. unfold blank_lines. symmetry. apply repeat_app. Qed.

Section Empty.
Context {T : Type} {N : Num T} (wr : T -> text) (rd : istream -> option T * istream).

Lemma mfor_blank : forall n a body k o, (forall i o, body i o = ORet (o ++ blank_lines k) tt) -> mfor_n n a body o = ORet (o ++ blank_lines (n * k)) tt.
Proof.
  induction n as [|n IH]; intros a body k o H; cbn [mfor_n].
  - cbn. rewrite app_nil_r. reflexivity.
  - unfold bind. rewrite H. rewrite (IH (a + 1) body k _ H). rewrite <- app_assoc, blank_app. reflexivity.
Qed.
Lemma bfor_blank : forall n a (body : Z -> M (mat T * istream) bool) k m t,
  (forall i t, body i (m, open_text (nl ++ blank_lines k ++ t)) = ORet (m, open_text (nl ++ t)) true) ->
  bfor_n n a body (m, open_text (nl ++ blank_lines (n * k) ++ t)) = ORet (m, open_text (nl ++ t)) true.
Proof.
  induction n as [|n IH]; intros a body k m t H; [reflexivity|]. cbn [bfor_n Nat.mul]. rewrite <- blank_app, <- app_assoc. unfold bind. rewrite H. apply IH. exact H.
Qed.

(** Lines after the first one: one for each row and one for each slice *)
Definition lines_of (d : dim3) : nat := (Z.to_nat (dz d) * (Z.to_nat (dx d) * 1 + 1))%nat.
Definition no_elem (d : dim3) : Prop := dx d = 0 \/ dy d = 0 \/ dz d = 0.

Theorem empty_text : forall m, no_elem (mdim m) -> mat_text wr m = Ok (head_text (mdim m) ++ blank_lines (lines_of (mdim m))).
Proof.
  intros m E. unfold mat_text. rewrite (bind_ok _ _ _ (head_text (mdim m)) tt) by reflexivity. unfold mfor at 1, lines_of. destruct (mdim m) as [X Y Z0] eqn:D. unfold no_elem in E. cbn [dx dy dz] in *.
  destruct E as [->|[->| ->]].
  - rewrite (mfor_blank _ _ _ 1). reflexivity. intros i o. reflexivity.
  - rewrite (mfor_blank _ _ _ (Z.to_nat X * 1 + 1)). reflexivity. intros i o. unfold bind at 1, mfor at 1. rewrite (mfor_blank _ _ _ 1) by (intros; reflexivity).
    unfold emit. rewrite <- blank_app, app_assoc. reflexivity.
  - cbn. rewrite app_nil_r. reflexivity.
Qed.

Theorem empty_load : forall m0 d t, fits d -> no_elem d ->
  mat_load rd (m0, open_text (head_text d ++ blank_lines (lines_of d) ++ t)) = ORet (Mat d [], open_text (nl ++ t)) true.
Proof.
  intros m0 d t F E. pose proof (fits_dims d F) as [DX [DY DZ]].
  unfold mat_load, head_text. rewrite <- !app_assoc. change (dec (dx d) ++ ?u) with ([] ++ dec (dx d) ++ u).
  erewrite bind_ok by (apply on_snd_ok; unfold stm; rewrite get_int_dec by (try assumption; try reflexivity; lia); reflexivity).
  cbn [is_nil lit app list_ascii_of_string]. erewrite bind_ok.
  2: { apply on_snd_ok. unfold stm.
       change (IS (" "%char :: ?u) false false) with (open_text (lit " " ++ u)).
       rewrite (get_int_dec (lit " ") (dy d)); [reflexivity|reflexivity|lia|reflexivity]. }
  cbn [is_nil]. erewrite bind_ok.
  2: { apply on_snd_ok. unfold stm.
       change (IS (" "%char :: ?u) false false) with (open_text (lit " " ++ u)).
       rewrite (get_int_dec (lit " ") (dz d)); [reflexivity|reflexivity|lia|reflexivity]. }
  cbn [nl app is_nil]. erewrite (bind_ok (on_snd mget)) by (apply on_snd_ok; reflexivity). cbn [failb].
  destruct d as [X Y Z0]. cbn [dx dy dz] in *. set (d := D3 X Y Z0) in *.
  destruct (resize_ok m0 d F) as [m1 [h1 [R1 I1]]].
  assert (M1 : m1 = Mat d []).
  { destruct I1 as (I2 & I3 & _). destruct m1 as [d1 l1]. cbn in I2, I3. subst d1. f_equal. destruct l1; [reflexivity|]. exfalso. cbn [length] in I3. unfold vol, d, no_elem in *. cbn [dx dy dz] in *. nia. }
  subst m1. rewrite (bind_ok _ _ _ _ _ (on_fst_ok _ _ _ _ _ R1)).
  change (IS (newline :: blank_lines (lines_of d) ++ t) false false) with (open_text (nl ++ blank_lines (lines_of d) ++ t)).
  assert (SK : forall u, skip_line (Mat d [], open_text (nl ++ u)) = ORet (Mat d ([] : list T), open_text u) true).
  { intros u. unfold skip_line. apply on_snd_ok. unfold stm. rewrite clear_line_nl. reflexivity. }
  unfold bfor at 1, lines_of. cbn [dx dz d]. unfold no_elem, d in E. cbn [dx dy dz] in E. destruct E as [->|[->| ->]].
  - apply bfor_blank. intros i u. unfold bfor. cbn [Z.to_nat bfor_n Nat.mul Nat.add]. unfold bind, ret. exact (SK (nl ++ u)).
  - apply bfor_blank. intros i u. rewrite <- blank_app, <- app_assoc. unfold bfor at 1. unfold bind at 1.
    rewrite bfor_blank; [exact (SK (nl ++ u))|]. intros j v. unfold bfor. cbn [Z.to_nat bfor_n]. unfold bind, ret. exact (SK (nl ++ v)).
  - reflexivity.
Qed.

(** Layers whose weights have no elements *)
Lemma empty_par : forall w b t (p : @params T), fits (mdim w) -> no_elem (mdim w) -> mvals w = [] ->
  exists s, par_load rd (p, open_text (lit "weights" ++ nl ++ (head_text (mdim w) ++ blank_lines (lines_of (mdim w))) ++ lit "biases" ++ nl ++ b ++ t)) =
    OThrow (Par w (p_b p) (p_wg p) (p_bg p), s) RuntimeError.
Proof.
  intros w b t p F E V. unfold par_load. erewrite bind_ok by (apply on_snd_ok; apply expect_void_ok). rewrite <- app_assoc.
  erewrite bind_ok; [|unfold par_w, on_field; rewrite (empty_load (p_w p) (mdim w) _ F E); reflexivity]. cbn [negb].
  replace (Mat (mdim w) []) with w by (destruct w as [d l]; cbn in *; subst l; reflexivity).
  apply snd_void_stuck; [split; [discriminate|]; apply (not_blank (lit "biase") "s"%char); discriminate|]. right. intros (r & Q). discriminate.
Qed.
Theorem empty_connected : forall (c c0 : connected T) txt t, fits (mdim (c_w c)) -> no_elem (mdim (c_w c)) -> mvals (c_w c) = [] -> c_text wr c = Ok txt ->
  exists s, c_load rd (c0, open_text (txt ++ t)) = OThrow (Conn (Par (c_w c) (p_b (c_par c0)) (p_wg (c_par c0)) (p_bg (c_par c0))) (c_in c0) (c_ready c0), s) RuntimeError.
Proof.
  intros c c0 txt t F E V Q. unfold c_text in Q. rewrite (empty_text (c_w c) E) in Q. cbn [rbind] in Q. destruct (mat_text wr (c_b c)) as [b| |]; try discriminate. cbn [rbind] in Q.
  match type of Q with Ok ?u = Ok ?v => assert (TX : v = u) by (inversion Q; reflexivity) end. clear Q. subst txt.
  pose proof (fits_dims _ F) as [DX [DY DZ]]. destruct (empty_par (c_w c) b t (c_par c0) F E V) as (s & P). exists s.
  rewrite <- !app_assoc in *. unfold c_load. erewrite bind_ok by (apply on_snd_ok; apply expect_void_ok).
  erewrite bind_ok by (apply on_snd_ok; apply expect_int_ok; unfold is_int; lia). erewrite bind_ok by (apply on_snd_ok; apply expect_int_ok; unfold is_int; lia).
  unfold bind at 1, on_field. rewrite P. reflexivity.
Qed.
Theorem empty_kernel : forall (k k0 : kernel T) txt t, is_int (dx (k_dim k)) -> is_int (dy (k_dim k)) -> is_int (dz (k_dim k)) -> 0 <= k_n k < two32 ->
  fits (mdim (k_w k)) -> no_elem (mdim (k_w k)) -> mvals (k_w k) = [] -> k_text wr k = Ok txt ->
  exists s, k_load rd (k0, open_text (txt ++ t)) = OThrow (Kern (Par (k_w k) (p_b (k_par k0)) (p_wg (k_par k0)) (p_bg (k_par k0))) (k_dim k) (k_stride k0) (k_n k), s) RuntimeError.
Proof.
  intros k k0 txt t X Y Z1 KN F E V Q. unfold k_text in Q. rewrite (empty_text (k_w k) E) in Q. cbn [rbind] in Q. destruct (mat_text wr (k_b k)) as [b| |]; try discriminate. cbn [rbind] in Q.
  match type of Q with Ok ?u = Ok ?v => assert (TX : v = u) by (inversion Q; reflexivity) end. clear Q. subst txt.
  destruct (empty_par (k_w k) b t (k_par k0) F E V) as (s & P). exists s.
  rewrite <- !app_assoc in *. unfold k_load. erewrite bind_ok by (apply on_snd_ok; apply expect_void_ok).
  erewrite bind_ok by (apply on_snd_ok; apply expect_int_ok; exact X). erewrite bind_ok by apply upd_fst_ok.
  erewrite bind_ok by (apply on_snd_ok; apply expect_int_ok; exact Y). erewrite bind_ok by apply upd_fst_ok.
  erewrite bind_ok by (apply on_snd_ok; apply expect_int_ok; exact Z1). erewrite bind_ok by apply upd_fst_ok.
  erewrite bind_ok by (apply on_snd_ok; apply expect_unsigned_ok; exact KN). erewrite bind_ok by apply upd_fst_ok.
  cbn [k_par k_dim k_stride k_n dx dy dz]. unfold on_field. cbn [k_par]. rewrite P. destruct (k_dim k). reflexivity.
Qed.
End Empty.
