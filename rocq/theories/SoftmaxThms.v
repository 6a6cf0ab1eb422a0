(** Softmax layer and loss function. *)
From Coq Require Import ZArith List Bool Lia Reals Lra.
From Coquelicot Require Import Coquelicot.
From Verif Require Import Base Dim Matrix View Num Expr Spec Iter MatFacts MatThms ViewThms ExprThms Sums Batch Softmax LayerFacts Calc PoolGrad.
Import ListNotations.
Local Open Scope Z_scope.

(** exp(f) / sum of exp(f) *)
Definition soft (d : dim3) (f : Z -> Z -> Z -> R) (x y z : Z) : R :=
  (exp (f x y z) / rsum3 d (fun a b c => exp (f a b c)))%R.

Lemma rsum3_nonneg : forall d f, (forall x y z, inb d x y z -> (0 <= f x y z)%R) -> (0 <= rsum3 d f)%R.
Proof. intros. unfold rsum3. apply rsum_nonneg; intros. apply rsum_nonneg; intros. apply rsum_nonneg; intros. apply H. unfold inb. lia. Qed.
Lemma rsum3_ge_term : forall d f x y z, inb d x y z -> (forall a b c, inb d a b c -> (0 <= f a b c)%R) -> (f x y z <= rsum3 d f)%R.
Proof.
  intros d f x y z (I1 & I2 & I3) H. unfold rsum3.
  eapply Rle_trans; [|apply (rsum_ge_term (dz d) _ z I3); intros; apply rsum_nonneg; intros; apply rsum_nonneg; intros; apply H; unfold inb; lia].
  cbn beta. eapply Rle_trans; [|apply (rsum_ge_term (dy d) _ y I2); intros; apply rsum_nonneg; intros; apply H; unfold inb; lia].
  cbn beta. apply (rsum_ge_term (dx d) (fun x => f x y z) x I1). intros. apply H. unfold inb. lia.
Qed.
Lemma exp_sum_pos : forall d f, pos d -> (0 < rsum3 d (fun a b c => exp (f a b c)))%R.
Proof.
  intros d f (A & B & C). eapply Rlt_le_trans; [apply (exp_pos (f 0 0 0))|].
  apply (rsum3_ge_term d (fun a b c => exp (f a b c)) 0 0 0); [unfold inb; lia|]. intros. left. apply exp_pos.
Qed.

Lemma soft_shift : forall d f c x y z, pos d -> soft d (fun a b e => f a b e + c)%R x y z = soft d f x y z.
Proof.
  intros d f c x y z P. unfold soft. pose proof (exp_sum_pos d f P).
  rewrite (rsum3_ext d (fun a b e => exp (f a b e + c)) (fun a b e => exp c * exp (f a b e))%R) by (intros; rewrite exp_plus; ring).
  rewrite rsum3_scal, exp_plus. pose proof (exp_pos c). field. split; lra.
Qed.

(** The layer computes softmax; all exponents are at most zero and one of them is zero. *)
Theorem sm_apply_ok : forall (x : mat R) d f, is_mat x d f -> fits d -> pos d ->
  exists o m, sm_apply exp x = Ok o /\ is_mat o d (soft d f) /\ mmax (l_val x) tt = Ok m /\
    (forall a b c, inb d a b c -> (exp (f a b c - m) <= 1)%R) /\ (exists a b c, inb d a b c /\ exp (f a b c - m) = 1%R).
Proof.
  intros x d f H F P. pose proof (pos_iterable d P) as IT.
  assert (HL : is_lz (l_val (S := unit) x) tt d f) by (split; [apply (is_mat_dim _ _ _ H)|intros; apply (is_mat_read x d f); assumption]).
  destruct (max_ok unit (l_val x) tt d f HL F P) as (px & py & pz & Ip & Em & _ & Mx & _).
  set (m := f px py pz) in *.
  unfold sm_apply. rewrite Em. cbn [rbind].
  destruct (mat_of_lz_ok n0 (fun t => t) (mk_apply (fun v => Ok (exp v)) (mk_scal_r op_sub (l_val x) m tt) tt) tt d (fun a b c => exp (f a b c - m)%R) F IT) as (e & Ee & He).
  { split; [apply (is_mat_dim _ _ _ H)|]. intros a b c I. cbn. rewrite (is_mat_read x d f a b c H F I). reflexivity. }
  rewrite Ee. cbn [rbind].
  assert (HE : is_lz (l_val (S := unit) e) tt d (fun a b c => exp (f a b c - m)%R)) by (split; [apply (is_mat_dim _ _ _ He)|intros; apply (is_mat_read e d _ x0 y z He); assumption]).
  rewrite (sum_ok _ tt d _ HE F IT). cbn [rbind]. change (@nsum R NumR) with rsum. rewrite rsum3_storage by exact F.
  destruct (mat_of_lz_ok n0 (fun t => t) (mk_scal_r op_div (l_val e) (rsum3 d (fun a b c => exp (f a b c - m)%R)) tt) tt d
     (fun a b c => exp (f a b c - m) / rsum3 d (fun a b c => exp (f a b c - m)))%R F IT) as (o & Eo & Ho).
  { split; [apply (is_mat_dim _ _ _ He)|]. intros a b c I. cbn. rewrite (is_mat_read e d _ a b c He F I). reflexivity. }
  rewrite Eo. exists o, m. split; [reflexivity|]. split; [|split; [reflexivity|split]].
  - eapply is_mat_ext; [exact Ho|]. intros a b c I. cbn beta.
    rewrite <- (soft_shift d f (- m) a b c P). reflexivity.
  - intros a b c I. rewrite <- exp_0. pose proof (Mx a b c I) as L. destruct (Rle_lt_or_eq_dec _ _ L) as [L'|L'].
    + left. apply exp_increasing. lra.
    + right. f_equal. lra.
  - exists px, py, pz. split; [exact Ip|]. unfold m. rewrite Rminus_diag_eq by reflexivity. apply exp_0.
Qed.

Theorem soft_props : forall d f, pos d ->
  (forall x y z, inb d x y z -> (0 < soft d f x y z <= 1)%R) /\
  rsum3 d (soft d f) = 1%R /\
  (forall x y z x' y' z', inb d x y z -> inb d x' y' z' -> (f x y z < f x' y' z' <-> soft d f x y z < soft d f x' y' z')%R) /\
  (forall c x y z, inb d x y z -> soft d (fun a b e => f a b e + c)%R x y z = soft d f x y z).
Proof.
  intros d f P. pose proof (exp_sum_pos d f P) as S. set (s := rsum3 d (fun a b c => exp (f a b c))) in *.
  assert (IS : (0 < / s)%R) by (apply Rinv_0_lt_compat; exact S).
  split; [|split; [|split]].
  - intros x y z I. unfold soft. fold s. pose proof (exp_pos (f x y z)). unfold Rdiv. split; [nra|].
    assert (E : (exp (f x y z) <= s)%R) by (apply (rsum3_ge_term d (fun a b c => exp (f a b c))); [exact I|intros; left; apply exp_pos]).
    apply (Rmult_le_reg_r s); [exact S|]. rewrite Rmult_assoc, Rinv_l by lra. lra.
  - rewrite (rsum3_ext d _ (fun x y z => / s * exp (f x y z))%R) by (intros; unfold soft; fold s; unfold Rdiv; ring).
    rewrite rsum3_scal. fold s. apply Rinv_l. lra.
  - intros x y z x' y' z' I I'. unfold soft. fold s. unfold Rdiv. split; intro L.
    + apply Rmult_lt_compat_r; [exact IS|]. apply exp_increasing. exact L.
    + apply Rmult_lt_reg_r in L; [|exact IS]. apply exp_lt_inv. exact L.
  - intros. apply soft_shift. exact P.
Qed.

(** ** Backward pass *)
Lemma sm_dx_ok : forall (y : mat R) d O a b c, is_mat y d O -> fits d -> inb d a b c ->
  exists r, sm_dx y (lin d a b c) = Ok r /\ is_mat r d (fupd O a b c (O a b c - 1)%R).
Proof.
  intros y d O a b c H F I. unfold sm_dx. rewrite (is_mat_flat y d O a b c H I). cbn [rbind].
  destruct (mwrite_is y d O a b c (O a b c - 1)%R H F I) as (r & E & Hr). exists r. split; [|exact Hr].
  unfold mwrite in E. rewrite (is_mat_dim _ _ _ H), get_index_lin in E by assumption.
  unfold run_state, mwrite_flat. rewrite (is_mat_dim _ _ _ H). cbn [n1 NumR nsub]. rewrite E. reflexivity.
Qed.

(** -ln of the probability of the label at (a,b,c) *)
Definition nll (d : dim3) (f : Z -> Z -> Z -> R) (a b c : Z) : R := (- ln (soft d f a b c))%R.

Lemma nll_eq : forall d f a b c, pos d -> nll d f a b c = (ln (rsum3 d (fun x y z => exp (f x y z))) - f a b c)%R.
Proof.
  intros d f a b c P. pose proof (exp_sum_pos d f P). unfold nll, soft. unfold Rdiv. rewrite ln_mult; [|apply exp_pos|apply Rinv_0_lt_compat; assumption].
  rewrite ln_exp, ln_Rinv by assumption. ring.
Qed.

Lemma nll_curve : forall d (It : R -> Z -> Z -> Z -> R) t0 I' a b c, pos d -> inb d a b c -> dcurve d It t0 I' ->
  is_derive (fun t => nll d (It t) a b c) t0
    (dotp d (fupd (soft d (It t0)) a b c (soft d (It t0) a b c - 1)%R) I').
Proof.
  intros d It t0 I' a b c P Ia D. pose proof (exp_sum_pos d (It t0) P) as SP.
  apply (is_derive_ext (fun t => ln (rsum3 d (fun x y z => exp (It t x y z))) - It t a b c)%R); [intros; symmetry; apply nll_eq; exact P|].
  assert (DS : is_derive (fun t => rsum3 d (fun x y z => exp (It t x y z))) t0 (rsum3 d (fun x y z => I' x y z * exp (It t0 x y z))%R)).
  { apply (is_derive_rsum3 d (fun t x y z => exp (It t x y z))). intros x y z I.
    apply (is_derive_comp exp (fun t => It t x y z) t0); [apply is_derive_exp|apply D; exact I]. }
  assert (DL : is_derive (fun t => ln (rsum3 d (fun x y z => exp (It t x y z)))) t0
     (rsum3 d (fun x y z => I' x y z * exp (It t0 x y z)) * / rsum3 d (fun x y z => exp (It t0 x y z)))%R).
  { apply (is_derive_comp ln (fun t => rsum3 d (fun x y z => exp (It t x y z))) t0); [apply is_derive_ln; exact SP|exact DS]. }
  match goal with |- is_derive _ _ ?v => replace v with
    (rsum3 d (fun x y z => I' x y z * exp (It t0 x y z)) * / rsum3 d (fun x y z => exp (It t0 x y z)) - I' a b c)%R end.
  - apply (@is_derive_minus R_AbsRing R_NormedModule); [exact DL|apply D; exact Ia].
  - rewrite Rmult_comm, <- rsum3_scal.
    rewrite (dotp_ext d _ I' (fun x y z => soft d (It t0) x y z + (- delta a b c x y z))%R I').
    + rewrite dotp_comm, dotp_plus, dotp_comm. unfold Rminus. f_equal.
      * apply rsum3_ext. intros. unfold soft. unfold Rdiv. ring.
      * rewrite (dotp_ext d I' _ I' (fun x y z => (-1) * delta a b c x y z)%R) by (try reflexivity; intros; ring).
        unfold dotp. rewrite (rsum3_ext d _ (fun x y z => (-1) * (I' x y z * delta a b c x y z))%R) by (intros; ring).
        rewrite rsum3_scal. fold (dotp d I' (delta a b c)). rewrite dotp_delta by exact Ia. ring.
    + intros x y z I. unfold fupd, delta. destruct (Z.eqb_spec x a), (Z.eqb_spec y b), (Z.eqb_spec z c); cbn; subst; ring.
    + reflexivity.
Qed.

(** Forward pass, then backward pass with the recorded output. *)
Theorem sm_backward_exact : forall (x : mat R) d f a b c, is_mat x d f -> fits d -> pos d -> inb d a b c ->
  forall n, exists o r D, sm_apply exp x = Ok o /\ sm_backward (Soft true (lin d a b c) n) o = Ok r /\ is_mat r d D /\
    rsum3 d D = 0%R /\
    forall i j k, inb d i j k -> is_derive (fun t => nll d (fupd f i j k t) a b c) (f i j k) (D i j k).
Proof.
  intros x d f a b c H F P I n. destruct (sm_apply_ok x d f H F P) as (o & m & E & Ho & _).
  destruct (sm_dx_ok o d (soft d f) a b c Ho F I) as (r & Er & Hr).
  exists o, r, (fupd (soft d f) a b c (soft d f a b c - 1)%R). split; [exact E|]. split; [exact Er|]. split; [exact Hr|]. split.
  - rewrite (rsum3_ext d _ (fun x y z => soft d f x y z + (-1) * delta a b c x y z)%R).
    + rewrite rsum3_plus, rsum3_scal. rewrite (proj1 (proj2 (soft_props d f P))).
      rewrite (rsum3_single d (delta a b c) a b c I).
      * unfold delta. rewrite !Z.eqb_refl. cbn. ring.
      * intros i j k _ NE. unfold delta. destruct (Z.eqb_spec i a), (Z.eqb_spec j b), (Z.eqb_spec k c); cbn; try reflexivity. congruence.
    + intros i j k _. unfold fupd, delta. destruct (Z.eqb_spec i a), (Z.eqb_spec j b), (Z.eqb_spec k c); cbn; subst; ring.
  - intros i j k Ii. pose proof (nll_curve d (fun t => fupd f i j k t) (f i j k) (delta i j k) a b c P I (dcurve_fupd d f i j k (f i j k))) as Q.
    rewrite dotp_delta in Q by exact Ii.
    assert (SE : forall u v w, soft d (fupd f i j k (f i j k)) u v w = soft d f u v w).
    { intros. unfold soft. rewrite fupd_same. f_equal. apply rsum3_ext. intros. rewrite fupd_same. reflexivity. }
    unfold fupd at 2 in Q. rewrite !SE in Q. exact Q.
Qed.

(** ** Label protocol *)
(** A history of assignTrueLabel calls, each of which may have raised an exception that was handled. *)
Fixpoint sm_history (ks : list Z) (s : softmax) : softmax :=
  match ks with
  | [] => s
  | k :: r => match sm_assign k s with ORet s' _ => sm_history r s' | OThrow s' _ => sm_history r s' | OUB => s end
  end.
(** The last acceptable label of a history. *)
Fixpoint last_valid (n : Z) (ks : list Z) (acc : option Z) : option Z :=
  match ks with [] => acc | k :: r => last_valid n r (if k <? n then Some k else acc) end.
Definition soft_of (n : Z) (l : option Z) (s : softmax) : Prop :=
  sm_count s = n /\ match l with Some k => sm_known s = true /\ sm_label s = k | None => sm_known s = false end.

Theorem sm_protocol : forall n ks, soft_of n (last_valid n ks None) (sm_history ks (sm_make n)).
Proof.
  intros n ks. assert (G : forall ks s l, soft_of n l s -> soft_of n (last_valid n ks l) (sm_history ks s)).
  { clear ks. induction ks as [|k ks IH]; intros s l H; [exact H|]. cbn [last_valid sm_history]. unfold sm_assign.
    destruct H as (C & L). rewrite C. destruct (Z.leb_spec n k); destruct (Z.ltb_spec k n); try lia.
    - apply IH. split; assumption.
    - apply IH. split; [reflexivity|]. cbn. split; reflexivity. }
  apply G. split; [reflexivity|]. reflexivity.
Qed.

Theorem sm_backward_protocol : forall n ks (y : mat R) d O, is_mat y d O -> fits d -> vol d = n ->
  match last_valid n ks None with
  | None => sm_backward (sm_history ks (sm_make n)) y = Throw LayerExn
  | Some k => sm_backward (sm_history ks (sm_make n)) y = sm_dx y k
  end.
Proof.
  intros n ks y d O H F V. pose proof (sm_protocol n ks) as (C & L). unfold sm_backward.
  destruct (last_valid n ks None) as [k|]; [destruct L as (K & L); rewrite K, L; reflexivity|rewrite L; reflexivity].
Qed.

Theorem sm_assign_reject : forall k s, sm_count s <= k -> sm_assign k s = OThrow s OutOfRange.
Proof. intros k s H. unfold sm_assign. destruct (Z.leb_spec (sm_count s) k); [reflexivity|lia]. Qed.

Theorem sm_forward_ok : forall s (x : mat R) d f, is_mat x d f -> fits d -> pos d ->
  (dz d = 1 /\ (dx d = 1 \/ dy d = 1) /\ vol d = sm_count s -> sm_forward exp s x = sm_apply exp x) /\
  (~ (dz d = 1 /\ (dx d = 1 \/ dy d = 1) /\ vol d = sm_count s) -> sm_forward exp s x = Throw LayerExn).
Proof.
  intros s x d f H F P. unfold sm_forward, sm_check. rewrite (is_mat_dim _ _ _ H). rewrite base_size_fits by exact F.
  unfold is_column, is_row, is_flat. split; intro Q.
  - destruct Q as (Q1 & Q2 & Q3). rewrite Q1, Q3. cbn [rbind]. rewrite !Z.eqb_refl.
    destruct Q2 as [Q2|Q2]; rewrite Q2, Z.eqb_refl; cbn; rewrite ?orb_true_r; cbn; reflexivity.
  - destruct (Z.eqb_spec (dz d) 1) as [Ez|Ez]; cbn [andb orb]; [|reflexivity].
    destruct (Z.eqb_spec (dy d) 1) as [Ey|Ey]; cbn [andb orb rbind].
    + destruct (Z.eqb_spec (vol d) (sm_count s)); [exfalso; apply Q; auto|reflexivity].
    + destruct (Z.eqb_spec (dx d) 1) as [Ex|Ex]; cbn [rbind]; [|reflexivity].
      destruct (Z.eqb_spec (vol d) (sm_count s)); [exfalso; apply Q; auto|reflexivity].
Qed.

(** ** Loss *)
Local Open Scope R_scope.
Definition log2 (x : R) : R := ln x / ln 2.
(** The float constant 1e-5: 10995116 * 2^-40. *)
Definition eps32 : R := 10995116 / 1099511627776.
Definition loss_R (p : R) : R := Rmax 0 (- log2 (p + eps32)).

Lemma ln2_pos : 0 < ln 2.
Proof. rewrite <- ln_1. apply ln_increasing; lra. Qed.

Theorem loss_ok : forall (m : mat R) d P a b c, is_mat m d P -> inb d a b c ->
  loss_fcn log2 eps32 (fun t => t) m (lin d a b c) = Ok (loss_R (P a b c)).
Proof.
  intros m d P a b c H I. unfold loss_fcn. rewrite (is_mat_flat m d P a b c H I). cbn [rbind]. f_equal.
  unfold loss_R. cbn [nmul nsub nadd n0 n1 nltb NumR].
  replace ((0 - 1) * log2 (P a b c + eps32)) with (- log2 (P a b c + eps32)) by ring.
  unfold Rltb. destruct (Rlt_dec _ _); [rewrite Rmax_left; lra|rewrite Rmax_right; lra].
Qed.

Lemma log2_incr : forall u v, 0 < u -> u < v -> log2 u < log2 v.
Proof. intros u v Hu H. unfold log2. apply Rmult_lt_compat_r; [apply Rinv_0_lt_compat, ln2_pos|apply ln_increasing; assumption]. Qed.
Lemma log2_1 : log2 1 = 0.
Proof. unfold log2. rewrite ln_1. unfold Rdiv. ring. Qed.

Theorem loss_props :
  (forall p, 0 <= p <= 1 -> 0 <= loss_R p <= - log2 eps32) /\
  (forall p q, 0 <= p -> p <= q -> loss_R q <= loss_R p) /\
  (forall p q, 0 <= p -> p < q -> q <= 1 - eps32 -> loss_R q < loss_R p) /\
  (forall p, 0 <= p -> (loss_R p = 0 <-> 1 - eps32 <= p)) /\
  loss_R 0 = - log2 eps32.
Proof.
  assert (EP : 0 < eps32) by (unfold eps32; lra).
  assert (LN : - log2 eps32 > 0) by (pose proof (log2_incr eps32 1 EP ltac:(unfold eps32; lra)); rewrite log2_1 in *; lra).
  assert (MON : forall p q, 0 <= p -> p <= q -> - log2 (q + eps32) <= - log2 (p + eps32)).
  { intros p q Hp [H| ->]; [|lra]. pose proof (log2_incr (p + eps32) (q + eps32) ltac:(lra) ltac:(lra)). lra. }
  split; [|split; [|split; [|split]]].
  - intros p Hp. split; [apply Rmax_l|]. apply Rmax_lub; [lra|]. pose proof (MON 0 p ltac:(lra) ltac:(lra)) as Q. rewrite Rplus_0_l in Q. exact Q.
  - intros p q Hp H. apply Rle_max_compat_l. apply MON; assumption.
  - intros p q Hp H Hq. unfold loss_R.
    pose proof (log2_incr (p + eps32) (q + eps32) ltac:(lra) ltac:(lra)).
    assert (log2 (q + eps32) <= 0).
    { destruct (Rle_lt_or_eq_dec (q + eps32) 1 ltac:(lra)) as [L|E]; [left; rewrite <- log2_1; apply log2_incr; lra|rewrite E, log2_1; lra]. }
    rewrite !Rmax_right; lra.
  - intros p Hp. unfold loss_R. split; intro H.
    + destruct (Rle_dec (1 - eps32) p) as [L|L]; [exact L|exfalso].
      pose proof (log2_incr (p + eps32) 1 ltac:(lra) ltac:(lra)) as Q. rewrite log2_1 in Q. rewrite Rmax_right in H; lra.
    + apply Rmax_left. destruct (Rle_lt_or_eq_dec 1 (p + eps32) ltac:(lra)) as [L|E].
      * pose proof (log2_incr 1 (p + eps32) ltac:(lra) L) as Q. rewrite log2_1 in Q. lra.
      * rewrite <- E, log2_1. lra.
  - unfold loss_R. rewrite Rplus_0_l. apply Rmax_right. lra.
Qed.

Lemma log2_inv : forall x, 0 < x -> - log2 x = log2 (/ x).
Proof. intros. unfold log2. rewrite ln_Rinv by assumption. unfold Rdiv. ring. Qed.

(** The stated bound log2(100000) is exceeded, because the float constant is below 1e-5; for the same reason the loss
    of 1 - 1e-5 is not zero. *)
Theorem loss_bound_exceeded : log2 100000 < loss_R 0 /\ 0 < loss_R (1 - 1 / 100000).
Proof.
  assert (EP : 0 < eps32) by (unfold eps32; lra). destruct loss_props as (_ & _ & _ & Z & L0). split.
  - rewrite L0, log2_inv by exact EP. apply log2_incr; [lra|]. unfold eps32. lra.
  - destruct (Rle_lt_or_eq_dec 0 (loss_R (1 - 1 / 100000)) (Rmax_l _ _)) as [L|E]; [exact L|exfalso].
    symmetry in E. apply Z in E; [|lra]. unfold eps32 in E. lra.
Qed.

(** Below 1 - eps the derivative of the reported loss is the returned gradient times p / ((p + eps) ln 2). *)
Local Open Scope Z_scope.
Theorem reported_gradient : forall d f a b c i j k, pos d -> inb d a b c -> inb d i j k ->
  (soft d f a b c < 1 - eps32)%R ->
  is_derive (fun t => loss_R (soft d (fupd f i j k t) a b c)) (f i j k)
    (soft d f a b c / ((soft d f a b c + eps32) * ln 2) * fupd (soft d f) a b c (soft d f a b c - 1) i j k)%R.
Proof.
  intros d f a b c i j k P Ia Ii L. set (p := soft d f a b c) in *.
  assert (PP : (0 < p <= 1)%R) by (apply (proj1 (soft_props d f P)); exact Ia).
  assert (EP : (0 < eps32)%R) by (unfold eps32; lra). pose proof ln2_pos as L2.
  pose proof (nll_curve d (fun t => fupd f i j k t) (f i j k) (delta i j k) a b c P Ia (dcurve_fupd d f i j k (f i j k))) as Q.
  rewrite dotp_delta in Q by exact Ii.
  assert (SE : forall u v w, soft d (fupd f i j k (f i j k)) u v w = soft d f u v w).
  { intros. unfold soft. rewrite fupd_same. f_equal. apply rsum3_ext. intros. rewrite fupd_same. reflexivity. }
  set (D := fupd (soft d f) a b c (p - 1)%R i j k).
  assert (QD : is_derive (fun t => nll d (fupd f i j k t) a b c) (f i j k) D).
  { unfold D, p. unfold fupd at 2 in Q. rewrite !SE in Q. exact Q. }
  (* soft = exp (- nll) *)
  assert (DS : is_derive (fun t => soft d (fupd f i j k t) a b c) (f i j k) (- D * p)%R).
  { apply (is_derive_ext (fun t => exp (- nll d (fupd f i j k t) a b c))).
    - intros t. unfold nll. rewrite Ropp_involutive. apply exp_ln. apply (proj1 (soft_props d (fupd f i j k t) P)). exact Ia.
    - replace p with (exp (- nll d (fupd f i j k (f i j k)) a b c))%R.
      + apply (is_derive_comp exp (fun t => - nll d (fupd f i j k t) a b c)%R); [apply is_derive_exp|]. apply (@is_derive_opp R_AbsRing R_NormedModule). exact QD.
      + unfold nll. rewrite Ropp_involutive, SE. apply exp_ln. lra. }
  assert (LOC : locally (f i j k) (fun t => (soft d (fupd f i j k t) a b c < 1 - eps32)%R)).
  { apply (locally_lt (fun t => soft d (fupd f i j k t) a b c) (fun _ => 1 - eps32)%R (f i j k) (- D * p)%R 0%R); [exact DS|apply @is_derive_const|].
    rewrite SE. exact L. }
  apply (is_derive_ext_loc (fun t => - (ln (soft d (fupd f i j k t) a b c + eps32) / ln 2))%R).
  - eapply filter_imp; [|exact LOC]. intros t Ht. unfold loss_R. symmetry. apply Rmax_right.
    pose proof (proj1 (proj1 (soft_props d (fupd f i j k t) P) a b c Ia)) as P0.
    pose proof (log2_incr (soft d (fupd f i j k t) a b c + eps32) 1 ltac:(lra) ltac:(lra)) as M. rewrite log2_1 in M. unfold log2 in M. lra.
  - assert (DL : is_derive (fun t => ln (soft d (fupd f i j k t) a b c + eps32)) (f i j k) ((- D * p) * / (p + eps32))%R).
    { apply (is_derive_comp ln (fun t => soft d (fupd f i j k t) a b c + eps32)%R).
      - rewrite SE. apply is_derive_ln. fold p. lra.
      - replace (- D * p)%R with (- D * p + 0)%R by ring. apply (@is_derive_plus R_AbsRing R_NormedModule); [exact DS|apply @is_derive_const]. }
    replace (p / ((p + eps32) * ln 2) * D)%R with (- (((- D * p) * / (p + eps32)) * / ln 2))%R by (field; lra).
    apply (@is_derive_opp R_AbsRing R_NormedModule).
    assert (EE : forall t, (/ ln 2 * ln (soft d (fupd f i j k t) a b c + eps32) = ln (soft d (fupd f i j k t) a b c + eps32) / ln 2)%R) by (intros; unfold Rdiv; ring).
    apply (is_derive_ext (fun t => / ln 2 * ln (soft d (fupd f i j k t) a b c + eps32))%R); [exact EE|].
    replace (- D * p * / (p + eps32) * / ln 2)%R with (/ ln 2 * (- D * p * / (p + eps32)))%R by ring.
    apply (is_derive_scal (fun t => ln (soft d (fupd f i j k t) a b c + eps32))). exact DL.
Qed.

Lemma ln2_lt : (ln 2 < 9 / 10)%R.
Proof.
  assert (E : (1 + 45 / 100 < exp (45 / 100))%R) by (apply exp_ineq1; lra).
  assert (S : (exp (9 / 10) = exp (45 / 100) * exp (45 / 100))%R) by (rewrite <- exp_plus; f_equal; lra).
  rewrite <- (ln_exp (9 / 10)). apply ln_increasing; [lra|]. rewrite S. nra.
Qed.

(** Two equal scores: the gradient returned for the true label is -1/2, which is not the derivative of the reported
    loss. *)
Theorem reported_gradient_wrong : exists (x : mat R) o r, is_mat x (D3 2 1 1) (fun _ _ _ => 0%R) /\
  sm_apply exp x = Ok o /\ sm_backward (Soft true 0 2) o = Ok r /\ cell r 0 = Some (- (1 / 2))%R /\
  ~ is_derive (fun t => loss_R (soft (D3 2 1 1) (fupd (fun _ _ _ => 0%R) 0 0 0 t) 0 0 0)) 0%R (- (1 / 2))%R.
Proof.
  set (d := D3 2 1 1). set (f := fun _ _ _ : Z => 0%R).
  assert (F : fits d) by (unfold fits, d, two31; cbn; lia).
  assert (P : pos d) by (unfold pos, d; cbn; lia).
  assert (I0 : inb d 0 0 0) by (unfold inb, d; cbn; lia).
  assert (HX : is_mat (Mat d [0%R; 0%R]) d f).
  { split; [reflexivity|]. split; [reflexivity|]. intros x y z (A & B & C). cbn in A, B, C.
    assert (y = 0) as -> by lia. assert (z = 0) as -> by lia. assert (x = 0 \/ x = 1) as [-> | ->] by lia; reflexivity. }
  assert (S0 : forall x y z, (soft d f x y z = 1 / 2)%R).
  { intros. unfold soft, f, rsum3, d. cbn [dx dy dz]. rewrite !rsum_const by lia. rewrite exp_0. field. }
  destruct (sm_apply_ok _ d f HX F P) as (o & m & Eo & Io & _).
  destruct (sm_dx_ok o d _ 0 0 0 Io F I0) as (r & Er & Ir).
  exists (Mat d [0%R; 0%R]), o, r. split; [exact HX|]. split; [exact Eo|]. split; [exact Er|]. split.
  - destruct Ir as (_ & _ & C). rewrite (C 0 0 0 I0 : cell r 0 = _). f_equal. rewrite S0. unfold fupd. cbn. lra.
  - intros D. assert (EP : (0 < eps32 < 1 / 10000)%R) by (unfold eps32; lra).
    pose proof (reported_gradient d f 0 0 0 0 0 0 P I0 I0 ltac:(rewrite S0; lra)) as Q.
    apply is_derive_unique in D. apply is_derive_unique in Q. unfold f at 2 in Q. rewrite D in Q. rewrite !S0 in Q.
    unfold fupd in Q. cbn in Q. pose proof ln2_lt. pose proof ln2_pos.
    assert (K : (1 / 2 / ((1 / 2 + eps32) * ln 2) = 1)%R) by lra.
    assert (V : (1 / 2 = (1 / 2 + eps32) * ln 2)%R).
    { apply (f_equal (fun v => (v * ((1 / 2 + eps32) * ln 2))%R)) in K. unfold Rdiv in K at 1.
      rewrite Rmult_assoc, Rinv_l in K; [lra|]. apply Rmult_integral_contrapositive_currified; lra. }
    nra.
Qed.
