(** Doubles that stay finite: bounds for sums, products, quotients, the activation functions and softmax in IEEE-754
    double precision. *)
From Coq Require Import ZArith Bool Lia Reals Lra Psatz List.
From Flocq Require Import Core BinarySingleNaN.
From Verif Require Import Base Dim Num Spec Iter Sums ExprThms Float32 FloatFacts Chars Double Bar BarFacts Activation.
Import ListNotations.
Local Open Scope Z_scope.

Local Notation fexp64 := (SpecFloat.fexp prec emax).
Local Notation rnd64 := (round radix2 fexp64 ZnearestE).
#[local] Instance valid64 : Valid_exp fexp64 := fexp_correct prec emax prec_pos.

(** A finite number of absolute value at most m * 2^e *)
Definition within (m e : Z) (v : double) : Prop := is_finite v = true /\ (Rabs (B2R v) <= IZR m * bpow radix2 e)%R.

Lemma bp : forall e, (0 < bpow radix2 e)%R.
Proof. intros. apply bpow_gt_0. Qed.

(** m * 2^e is a double *)
Definition scale (m e : Z) : Prop := 0 <= m < 2 ^ 53 /\ -1074 <= e <= 970.
Lemma scale_format : forall m e, scale m e -> generic_format radix2 fexp64 (IZR m * bpow radix2 e).
Proof. intros m e (M & E). apply dyadic_format; lia. Qed.
Lemma within_le : forall m e m' e' v, within m e v -> (IZR m * bpow radix2 e <= IZR m' * bpow radix2 e')%R -> within m' e' v.
Proof. intros m e m' e' v (F & A) H. split; [exact F|lra]. Qed.
Lemma within_more : forall m m' e v, within m e v -> m <= m' -> within m' e v.
Proof. intros m m' e v H L. apply (within_le _ _ _ _ _ H). apply Rmult_le_compat_r; [apply Rlt_le, bp|apply IZR_le; exact L]. Qed.
Lemma within_up : forall e e' v, within 1 e v -> e <= e' -> within 1 e' v.
Proof. intros e e' v H L. apply (within_le _ _ _ _ _ H). apply Rmult_le_compat_l; [lra|]. apply bpow_le. exact L. Qed.
(** m * 2^e <= 2^(e+k) if m <= 2^k *)
Lemma within_pow : forall m e k v, within m e v -> 0 <= k -> m <= 2 ^ k -> within 1 (e + k) v.
Proof.
  intros m e k v H K L. apply (within_le _ _ _ _ _ H). rewrite Rmult_1_l, bpow_plus, Rmult_comm.
  apply Rmult_le_compat_l; [apply Rlt_le, bp|]. rewrite <- IZR_Zpower by exact K. apply IZR_le. exact L.
Qed.
Lemma within_zero : forall m e, 0 <= m -> within m e (n0 : double).
Proof. intros m e M. split; [reflexivity|]. cbn [n0 NumD B2R]. rewrite Rabs_R0. apply Rmult_le_pos; [apply IZR_le; exact M|apply Rlt_le, bp]. Qed.
Lemma one_ok : is_finite (n1 : double) = true /\ B2R (n1 : double) = 1%R.
Proof. split; [apply is_finite_Bone|apply Bone_correct]. Qed.
Lemma within_one : within 1 0 (n1 : double).
Proof. destruct one_ok as (F & V). split; [exact F|]. rewrite V, Rabs_R1. cbn. lra. Qed.

(** A double B bounds the rounded value of all numbers that it bounds. *)
Definition cap (B : R) : Prop := generic_format radix2 fexp64 B /\ (B < bpow radix2 emax)%R.
Lemma cap_small : forall B x, cap B -> (Rabs x <= B)%R -> (Rabs (rnd64 x) <= B)%R /\ Rlt_bool (Rabs (rnd64 x)) (bpow radix2 emax) = true.
Proof.
  intros B x (G & L) H. assert (A : (Rabs (rnd64 x) <= B)%R) by (apply abs_round_le_generic; auto; typeclasses eauto).
  split; [exact A|]. apply Rlt_bool_true. lra.
Qed.
Lemma cap_scale : forall m e, scale m e -> cap (IZR m * bpow radix2 e).
Proof.
  intros m e S. split; [apply scale_format; exact S|]. destruct S as (M & E).
  apply Rlt_le_trans with (bpow radix2 53 * bpow radix2 e)%R.
  - apply Rmult_lt_compat_r; [apply bp|]. change (bpow radix2 53) with (IZR (2 ^ 53)). apply IZR_lt. lia.
  - rewrite <- bpow_plus. apply bpow_le. unfold emax. lia.
Qed.
Lemma cap_1 : cap 1.
Proof. pose proof (cap_scale 1 0 ltac:(unfold scale; lia)) as H. cbn [bpow] in H. rewrite Rmult_1_l in H. exact H. Qed.
Lemma cap_of : forall x : double, cap (Rabs (B2R x)).
Proof. intros x. split; [apply generic_format_abs, generic_format_B2R|apply abs_B2R_lt_emax]. Qed.

Section Ops.
Implicit Types x y : double.

Lemma add_exact : forall x y B, is_finite x = true -> is_finite y = true -> cap B -> (Rabs (B2R x + B2R y) <= B)%R ->
  is_finite (nadd x y) = true /\ B2R (nadd x y) = rnd64 (B2R x + B2R y).
Proof.
  intros x y B Fx Fy S H. cbn [nadd NumD]. pose proof (Bplus_correct prec emax prec_pos prec_emax mode_NE x y Fx Fy) as C. cbn [round_mode] in C.
  rewrite (proj2 (cap_small B _ S H)) in C. destruct C as (C1 & C2 & _). auto.
Qed.
Lemma sub_exact : forall x y B, is_finite x = true -> is_finite y = true -> cap B -> (Rabs (B2R x - B2R y) <= B)%R ->
  is_finite (nsub x y) = true /\ B2R (nsub x y) = rnd64 (B2R x - B2R y).
Proof.
  intros x y B Fx Fy S H. cbn [nsub NumD]. pose proof (Bminus_correct prec emax prec_pos prec_emax mode_NE x y Fx Fy) as C. cbn [round_mode] in C.
  rewrite (proj2 (cap_small B _ S H)) in C. destruct C as (C1 & C2 & _). auto.
Qed.
Lemma mul_exact : forall x y B, is_finite x = true -> is_finite y = true -> cap B -> (Rabs (B2R x * B2R y) <= B)%R ->
  is_finite (nmul x y) = true /\ B2R (nmul x y) = rnd64 (B2R x * B2R y).
Proof.
  intros x y B Fx Fy S H. cbn [nmul NumD]. pose proof (Bmult_correct prec emax prec_pos prec_emax mode_NE x y) as C. cbn [round_mode] in C.
  rewrite (proj2 (cap_small B _ S H)) in C. destruct C as (C1 & C2 & _). split; [rewrite C2, Fx, Fy; reflexivity|exact C1].
Qed.
Lemma div_exact : forall x y B, is_finite x = true -> B2R y <> 0%R -> cap B -> (Rabs (B2R x / B2R y) <= B)%R ->
  is_finite (ndiv x y) = true /\ B2R (ndiv x y) = rnd64 (B2R x / B2R y).
Proof.
  intros x y B Fx Ny S H. cbn [ndiv NumD]. pose proof (Bdiv_correct prec emax prec_pos prec_emax mode_NE x y Ny) as C. cbn [round_mode] in C.
  rewrite (proj2 (cap_small B _ S H)) in C. destruct C as (C1 & C2 & _). split; [rewrite C2; exact Fx|exact C1].
Qed.

Lemma within_add : forall a b e x y, within a e x -> within b e y -> scale (a + b) e -> within (a + b) e (nadd x y).
Proof.
  intros a b e x y (Fx & X) (Fy & Y) S.
  assert (H : (Rabs (B2R x + B2R y) <= IZR (a + b) * bpow radix2 e)%R).
  { apply Rle_trans with (1 := Rabs_triang _ _). rewrite plus_IZR. lra. }
  destruct (add_exact x y _ Fx Fy (cap_scale _ _ S) H) as (F & V). split; [exact F|]. rewrite V. apply cap_small; [apply cap_scale|]; assumption.
Qed.
Lemma within_sub : forall a b e x y, within a e x -> within b e y -> scale (a + b) e -> within (a + b) e (nsub x y).
Proof.
  intros a b e x y (Fx & X) (Fy & Y) S.
  assert (H : (Rabs (B2R x - B2R y) <= IZR (a + b) * bpow radix2 e)%R).
  { apply Rle_trans with (1 := Rabs_triang _ _). rewrite Rabs_Ropp, plus_IZR. lra. }
  destruct (sub_exact x y _ Fx Fy (cap_scale _ _ S) H) as (F & V). split; [exact F|]. rewrite V. apply cap_small; [apply cap_scale|]; assumption.
Qed.
Lemma within_mul : forall a b e d x y, within a e x -> within b d y -> scale (a * b) (e + d) -> within (a * b) (e + d) (nmul x y).
Proof.
  intros a b e d x y (Fx & X) (Fy & Y) S.
  assert (H : (Rabs (B2R x * B2R y) <= IZR (a * b) * bpow radix2 (e + d))%R).
  { rewrite Rabs_mult, mult_IZR, bpow_plus.
    replace (IZR a * IZR b * (bpow radix2 e * bpow radix2 d))%R with ((IZR a * bpow radix2 e) * (IZR b * bpow radix2 d))%R by ring.
    apply Rmult_le_compat; try apply Rabs_pos; assumption. }
  destruct (mul_exact x y _ Fx Fy (cap_scale _ _ S) H) as (F & V). split; [exact F|]. rewrite V. apply cap_small; [apply cap_scale|]; assumption.
Qed.
(** Division by a number of at least 1 does not enlarge, division by n of a number up to n * m * 2^e gives one up to m * 2^e. *)
Lemma within_div : forall n m e x y, within (n * m) e x -> 1 <= n -> (IZR n <= B2R y)%R -> scale m e -> within m e (ndiv x y).
Proof.
  intros n m e x y (Fx & X) N Y S. assert (P : (1 <= B2R y)%R) by (apply (IZR_le 1) in N; lra).
  assert (H : (Rabs (B2R x / B2R y) <= IZR m * bpow radix2 e)%R).
  { unfold Rdiv. rewrite Rabs_mult, (Rabs_pos_eq (/ B2R y)) by (apply Rlt_le, Rinv_0_lt_compat; lra).
    apply Rmult_le_reg_r with (B2R y); [lra|]. rewrite Rmult_assoc, Rinv_l, Rmult_1_r by lra.
    apply Rle_trans with (1 := X). rewrite mult_IZR. replace (IZR n * IZR m * bpow radix2 e)%R with ((IZR m * bpow radix2 e) * IZR n)%R by ring.
    apply Rmult_le_compat_l; [|exact Y]. apply Rmult_le_pos; [apply IZR_le; apply S|apply Rlt_le, bp]. }
  destruct (div_exact x y _ Fx ltac:(lra) (cap_scale _ _ S) H) as (F & V). split; [exact F|]. rewrite V. apply cap_small; [apply cap_scale|]; assumption.
Qed.
End Ops.

(** ** Sums *)
Lemma fold_within : forall n (f : Z -> double) m e a s, 0 <= n -> 0 <= m -> 0 <= a -> within a e s -> (forall k, 0 <= k < n -> within m e (f k)) ->
  scale (a + n * m) e -> within (a + n * m) e (fold_z (fun s k => nadd s (f k)) n s).
Proof.
  intros n f m e a s Hn Hm Ha Hs Hf S.
  assert (G : forall k, 0 <= k -> k <= n -> within (a + k * m) e (fold_z (fun s k => nadd s (f k)) k s)).
  { intros k. induction k using Zrange_ind; intros K L.
    - replace k with 0 by lia. rewrite fold_z_0 by lia. rewrite Z.mul_0_l, Z.add_0_r. exact Hs.
    - rewrite fold_z_snoc by lia. replace (a + (k + 1) * m) with ((a + k * m) + m) by ring. apply within_add; [apply IHk; lia|apply Hf; lia|].
      destruct S as (S1 & S2). split; [|exact S2]. nia. }
  apply G; lia.
Qed.
Lemma nsum_within : forall n (f : Z -> double) m e, 0 <= n -> 0 <= m -> (forall k, 0 <= k < n -> within m e (f k)) -> scale (n * m) e -> within (n * m) e (nsum n f).
Proof.
  intros n f m e Hn Hm Hf S. unfold nsum. replace (n * m) with (0 + n * m) by ring. apply fold_within; auto; try lia. apply within_zero. lia.
Qed.
Lemma nsum2_within : forall U V (h : Z -> Z -> double) m e, 0 <= U -> 0 <= V -> 0 <= m -> (forall a b, 0 <= a < U -> 0 <= b < V -> within m e (h a b)) ->
  scale (U * V * m) e -> within (U * V * m) e (nsum2 U V h).
Proof.
  intros U V h m e HU HV Hm Hh S. unfold nsum2.
  assert (G : forall k, 0 <= k -> k <= U -> within (k * V * m) e (fold_z (fun a x => fold_z (fun a y => nadd a (h x y)) V a) k n0)).
  { intros k. induction k using Zrange_ind; intros K L.
    - replace k with 0 by lia. rewrite fold_z_0 by lia. apply within_zero. lia.
    - rewrite fold_z_snoc by lia. replace ((k + 1) * V * m) with (k * V * m + V * m) by ring.
      assert (P : 0 <= k * V * m) by (apply Z.mul_nonneg_nonneg; [apply Z.mul_nonneg_nonneg|]; lia).
      apply fold_within; auto.
      + apply IHk; lia.
      + intros b B. apply Hh; lia.
      + destruct S as (S1 & S2). split; [|exact S2]. replace (k * V * m + V * m) with ((k + 1) * (V * m)) by ring.
        assert (0 <= V * m) by (apply Z.mul_nonneg_nonneg; lia). replace (U * V * m) with (U * (V * m)) in S1 by ring. nia. }
  apply G; lia.
Qed.

(** ** The activation functions *)
(** std::exp and std::tanh: no value is NaN, exp of a nonpositive number (or -inf) is in [0,1], of a nonnegative number
    at least 1 or infinite; tanh is in [-1,1]. *)
Definition neginf : double := B754_infinity true.
Definition posinf : double := B754_infinity false.
Definition exp_ok (e : double -> double) : Prop :=
  (forall v : double, is_finite v = true /\ (B2R v <= 0)%R \/ v = neginf -> is_finite (e v) = true /\ (0 <= B2R (e v) <= 1)%R) /\
  (forall v : double, is_finite v = true -> (0 <= B2R v)%R -> e v = posinf \/ is_finite (e v) = true /\ (1 <= B2R (e v))%R).
Definition tanh_ok (t : double -> double) : Prop := forall v : double, is_finite v = true -> is_finite (t v) = true /\ (-1 <= B2R (t v) <= 1)%R.

Lemma exp_zero : forall e, exp_ok e -> forall v : double, is_finite v = true -> B2R v = 0%R -> is_finite (e v) = true /\ B2R (e v) = 1%R.
Proof.
  intros e (D & U) v F V. destruct (D v) as (A & B); [left; split; [exact F|lra]|]. split; [exact A|].
  destruct (U v F ltac:(lra)) as [Q|(_ & Q)]; [rewrite Q in A; discriminate|lra].
Qed.

Lemma rnd_id : forall x : double, rnd64 (B2R x) = B2R x.
Proof. intros x. apply round_generic; [typeclasses eauto|apply generic_format_B2R]. Qed.
Lemma neg_ok : forall v : double, is_finite v = true -> is_finite (nneg v) = true /\ B2R (nneg v) = (- B2R v)%R.
Proof.
  intros v F. unfold nneg. assert (F0 : is_finite (n0 : double) = true) by reflexivity. destruct (sub_exact n0 v _ F0 F (cap_of v)) as (A & B).
  - cbn [n0 NumD B2R]. rewrite Rminus_0_l, Rabs_Ropp. apply Rle_refl.
  - split; [exact A|]. rewrite B. cbn [n0 NumD B2R]. rewrite Rminus_0_l, round_NE_opp, rnd_id. reflexivity.
Qed.

Lemma ltb_R : forall x y : double, is_finite x = true -> is_finite y = true -> nltb x y = Rlt_bool (B2R x) (B2R y).
Proof. intros. cbn [nltb NumD]. apply Bltb_correct; assumption. Qed.

Lemma rnd_le : forall a b, (a <= b)%R -> (rnd64 a <= rnd64 b)%R.
Proof. intros. apply round_le; [typeclasses eauto|typeclasses eauto|assumption]. Qed.
Lemma rnd_0 : rnd64 0 = 0%R.
Proof. apply round_0. typeclasses eauto. Qed.
Lemma rnd_1 : rnd64 1 = 1%R.
Proof. apply round_generic; [typeclasses eauto|apply cap_1]. Qed.
Lemma rnd_unit : forall x, (0 <= x <= 1)%R -> (0 <= rnd64 x <= 1)%R.
Proof. intros x H. split; [rewrite <- rnd_0|rewrite <- rnd_1]; apply rnd_le; apply H. Qed.
Lemma rnd_one : forall x, (1 <= x)%R -> (1 <= rnd64 x)%R.
Proof. intros x H. rewrite <- rnd_1. apply rnd_le. exact H. Qed.

(** 1 + w for w >= 0: a finite number of at least 1, or infinity *)
Lemma one_plus : forall w : double, w = posinf \/ is_finite w = true /\ (0 <= B2R w)%R ->
  nadd n1 w = posinf /\ (is_finite w = true -> bpow radix2 emax <= rnd64 (1 + B2R w))%R \/
  is_finite (nadd n1 w) = true /\ (1 <= B2R (nadd n1 w))%R /\ B2R (nadd n1 w) = rnd64 (1 + B2R w).
Proof.
  intros w [->|(F & P)]; [left; split; [reflexivity|discriminate]|]. destruct one_ok as (F1 & V1). assert (S1 : Bsign (n1 : double) = false) by reflexivity.
  revert F1 V1 S1. generalize (n1 : double). intros o F1 V1 S1. cbn [nadd NumD].
  pose proof (Bplus_correct prec emax prec_pos prec_emax mode_NE o w F1 F) as C. cbn [round_mode] in C. rewrite V1 in C.
  destruct (Rlt_bool_spec (Rabs (rnd64 (1 + B2R w))) (bpow radix2 emax)) as [O|O].
  - right. destruct C as (C1 & C2 & _). split; [exact C2|]. split; [|exact C1]. rewrite C1. apply rnd_one. lra.
  - left. destruct C as (C1 & _). rewrite S1 in C1. destruct (Bplus mode_NE o w) as [|s| |]; try discriminate C1.
    cbn in C1. injection C1 as ->. split; [reflexivity|]. intros _. rewrite Rabs_pos_eq in O; [exact O|]. pose proof (rnd_one (1 + B2R w)). lra.
Qed.
(** 1 / w for w >= 1 *)
Lemma one_over : forall w : double, w = posinf \/ is_finite w = true /\ (1 <= B2R w)%R ->
  is_finite (ndiv n1 w) = true /\ (0 <= B2R (ndiv n1 w) <= 1)%R /\ (w = posinf -> B2R (ndiv n1 w) = 0%R) /\
  (w <> posinf -> B2R (ndiv n1 w) = rnd64 (1 / B2R w)).
Proof.
  intros w [->|(F & P)].
  - split; [reflexivity|]. cbn. split; [lra|]. split; [reflexivity|]. congruence.
  - destruct one_ok as (F1 & V1). assert (H : (0 <= 1 / B2R w <= 1)%R).
    { unfold Rdiv. rewrite Rmult_1_l. split; [apply Rlt_le, Rinv_0_lt_compat; lra|]. rewrite <- Rinv_1. apply Rinv_le; lra. }
    destruct (div_exact n1 w _ F1 ltac:(lra) cap_1) as (A & B); [rewrite V1, Rabs_pos_eq; apply H|].
    rewrite V1 in B. split; [exact A|]. rewrite B. split; [apply rnd_unit; exact H|]. split; [|reflexivity]. intros ->. discriminate F.
Qed.

(** Values of exp that are not above those for larger arguments *)
Definition exp_mono (e : double -> double) : Prop := forall u v : double, is_finite u = true \/ u = neginf -> is_finite v = true \/ v = neginf ->
  Bleb u v = true -> e v = posinf \/ is_finite (e u) = true /\ is_finite (e v) = true /\ (B2R (e u) <= B2R (e v))%R.
Definition tanh_mono (t : double -> double) : Prop := forall u v : double, is_finite u = true -> is_finite v = true -> (B2R u <= B2R v)%R -> (B2R (t u) <= B2R (t v))%R.
Definition unit_const (c : double) : Prop := is_finite c = true /\ (0 <= B2R c <= 1)%R.

Section Act.
Context (expT tanhT : double -> double) (c01f c01 : double).
Hypothesis EX : exp_ok expT.
Hypothesis TH : tanh_ok tanhT.
Hypothesis CF : unit_const c01f.
Hypothesis CD : unit_const c01.

Lemma exp_nonneg : forall v : double, is_finite v = true -> expT v = posinf \/ is_finite (expT v) = true /\ (0 <= B2R (expT v))%R.
Proof.
  intros v F. destruct EX as (D & U). destruct (Rle_or_lt (B2R v) 0) as [L|L].
  - right. destruct (D v) as (A & B); [auto|]. split; [exact A|lra].
  - destruct (U v F ltac:(lra)) as [Q|(A & B)]; [left; exact Q|right; split; [exact A|lra]].
Qed.
Lemma sigmoid_unit : forall v : double, is_finite v = true -> is_finite (sigmoid_fcn expT v) = true /\ (0 <= B2R (sigmoid_fcn expT v) <= 1)%R.
Proof.
  intros v F. destruct (neg_ok v F) as (FN & _). unfold sigmoid_fcn. destruct (one_over (nadd n1 (expT (nneg v)))) as (A & B & _); [|auto].
  destruct (one_plus (expT (nneg v)) (exp_nonneg _ FN)) as [(Q & _)|(Q1 & Q2 & _)]; auto.
Qed.
Lemma relu_ok : forall v : double, is_finite v = true -> is_finite (relu_fcn v) = true /\ B2R (relu_fcn v) = Rmax 0 (B2R v).
Proof.
  intros v F. unfold relu_fcn. rewrite ltb_R by auto. change (B2R (n0 : double)) with 0%R. destruct (Rlt_bool_spec 0 (B2R v)) as [L|L].
  - split; [exact F|]. rewrite Rmax_right; lra.
  - split; [reflexivity|]. rewrite Rmax_left; [reflexivity|exact L].
Qed.
Lemma leaky_mul : forall v : double, is_finite v = true -> is_finite (nmul c01f v) = true /\ B2R (nmul c01f v) = rnd64 (B2R c01f * B2R v) /\ (Rabs (B2R (nmul c01f v)) <= Rabs (B2R v))%R.
Proof.
  intros v F. destruct CF as (FC & C). assert (H : (Rabs (B2R c01f * B2R v) <= Rabs (B2R v))%R).
  { rewrite Rabs_mult, (Rabs_pos_eq (B2R c01f)) by lra. pose proof (Rabs_pos (B2R v)). nra. }
  destruct (mul_exact c01f v _ FC F (cap_of v) H) as (A & B). split; [exact A|]. split; [exact B|]. rewrite B. apply cap_small; [apply cap_of|exact H].
Qed.
Lemma leaky_ok : forall v : double, is_finite v = true -> is_finite (leaky_fcn c01f v) = true /\
  B2R (leaky_fcn c01f v) = Rmax (rnd64 (B2R c01f * B2R v)) (B2R v) /\ (Rabs (B2R (leaky_fcn c01f v)) <= Rabs (B2R v))%R.
Proof.
  intros v F. destruct (leaky_mul v F) as (A & B & C). unfold leaky_fcn. rewrite ltb_R by auto. rewrite B.
  destruct (Rlt_bool_spec (rnd64 (B2R c01f * B2R v)) (B2R v)) as [L|L].
  - split; [exact F|]. rewrite Rmax_right by lra. split; [reflexivity|lra].
  - split; [exact A|]. rewrite Rmax_left by lra. auto.
Qed.

Theorem act_finite : forall a (v : double), is_finite v = true ->
  is_finite (act_fcn expT tanhT c01f a v) = true /\ (Rabs (B2R (act_fcn expT tanhT c01f a v)) <= Rmax 1 (Rabs (B2R v)))%R.
Proof.
  intros a v F. destruct a; cbn [act_fcn].
  - destruct (relu_ok v F) as (A & B). split; [exact A|]. rewrite B. apply Rle_trans with (Rabs (B2R v)); [|apply Rmax_r].
    unfold Rmax. destruct (Rle_dec 0 (B2R v)); [lra|]. rewrite Rabs_R0. apply Rabs_pos.
  - destruct (sigmoid_unit v F) as (A & B). split; [exact A|]. rewrite Rabs_pos_eq by apply B. pose proof (Rmax_l 1 (Rabs (B2R v))). lra.
  - split; [exact F|]. apply Rmax_r.
  - destruct (TH v F) as (A & B). split; [exact A|]. apply Rle_trans with 1%R; [|apply Rmax_l]. unfold tangent_fcn. apply Rabs_le. exact B.
  - destruct (leaky_ok v F) as (A & _ & B). split; [exact A|]. pose proof (Rmax_r 1 (Rabs (B2R v))). lra.
Qed.
Theorem act_ranges : forall v : double, is_finite v = true ->
  (0 <= B2R (act_fcn expT tanhT c01f Relu v))%R /\ (0 <= B2R (act_fcn expT tanhT c01f Sigmoid v) <= 1)%R /\
  (-1 <= B2R (act_fcn expT tanhT c01f Tangent v) <= 1)%R /\ act_fcn expT tanhT c01f Linear v = v.
Proof.
  intros v F. cbn [act_fcn]. split; [rewrite (proj2 (relu_ok v F)); apply Rmax_l|]. split; [apply sigmoid_unit; exact F|].
  split; [apply TH; exact F|]. reflexivity.
Qed.

Lemma unit_mul : forall x y : double, unit_const x -> unit_const y -> unit_const (nmul x y).
Proof.
  intros x y (Fx & X) (Fy & Y). assert (H : (0 <= B2R x * B2R y <= 1)%R) by nra.
  destruct (mul_exact x y 1 Fx Fy cap_1) as (A & B); [rewrite Rabs_pos_eq; apply H|]. split; [exact A|]. rewrite B. apply rnd_unit. exact H.
Qed.
Lemma unit_compl : forall x : double, unit_const x -> unit_const (nsub n1 x).
Proof.
  intros x (Fx & X). destruct one_ok as (F1 & V1). assert (H : (0 <= 1 - B2R x <= 1)%R) by lra.
  destruct (sub_exact n1 x 1 F1 Fx cap_1) as (A & B); [rewrite V1, Rabs_pos_eq; apply H|]. split; [exact A|]. rewrite B, V1. apply rnd_unit. exact H.
Qed.
Lemma unit_one : unit_const (n1 : double).
Proof. destruct one_ok as (F1 & V1). split; [exact F1|]. rewrite V1. lra. Qed.
Lemma unit_zero : unit_const (n0 : double).
Proof. split; [reflexivity|]. change (B2R (n0 : double)) with 0%R. lra. Qed.

(** The derivatives are in [0,1]. *)
Theorem act_grad_unit : forall a (v : double), is_finite v = true -> unit_const (act_grad expT tanhT c01 a v).
Proof.
  intros a v F. destruct a; cbn [act_grad].
  - unfold relu_grad. match goal with |- unit_const (if ?b then _ else _) => destruct b end; [apply unit_one|apply unit_zero].
  - unfold sigmoid_grad. pose proof (sigmoid_unit v F) as S. apply unit_mul; [exact S|apply unit_compl; exact S].
  - apply unit_one.
  - unfold tangent_grad, tangent_fcn. apply unit_compl. destruct (TH v F) as (A & B).
    assert (H : (0 <= B2R (tanhT v) * B2R (tanhT v) <= 1)%R) by nra.
    destruct (mul_exact (tanhT v) (tanhT v) 1 A A cap_1) as (C & D); [rewrite Rabs_pos_eq; apply H|]. split; [exact C|]. rewrite D. apply rnd_unit. exact H.
  - unfold leaky_grad. match goal with |- unit_const (if ?b then _ else _) => destruct b end; [apply unit_one|exact CD].
Qed.

Lemma sigmoid_mono : exp_mono expT -> forall u v : double, is_finite u = true -> is_finite v = true -> (B2R u <= B2R v)%R ->
  (B2R (sigmoid_fcn expT u) <= B2R (sigmoid_fcn expT v))%R.
Proof.
  intros EM u v Fu Fv L. destruct (neg_ok u Fu) as (FU & NU). destruct (neg_ok v Fv) as (FV & NV).
  assert (LB : Bleb (nneg v) (nneg u) = true).
  { rewrite Bleb_correct by assumption. apply Rle_bool_true. rewrite NU, NV. lra. }
  pose proof (sigmoid_unit v Fv) as (_ & SV). unfold sigmoid_fcn in *.
  destruct (one_plus _ (exp_nonneg _ FU)) as [(QU & _)|(QU1 & QU2 & QU3)].
  - destruct (one_over (nadd n1 (expT (nneg u)))) as (_ & _ & Z & _); [auto|]. rewrite Z by exact QU. apply SV.
  - destruct (EM (nneg v) (nneg u) (or_introl FV) (or_introl FU) LB) as [Q|(E1 & E2 & E3)].
    { rewrite Q in QU1. discriminate QU1. }
    destruct (one_plus _ (exp_nonneg _ FV)) as [(QV & QV')|(QV1 & QV2 & QV3)].
    + exfalso. specialize (QV' E1). assert (M : (rnd64 (1 + B2R (expT (nneg v))) <= rnd64 (1 + B2R (expT (nneg u))))%R) by (apply rnd_le; lra). rewrite <- QU3 in M.
      pose proof (abs_B2R_lt_emax prec emax (nadd n1 (expT (nneg u)))) as K. rewrite Rabs_pos_eq in K by lra. lra.
    + destruct (one_over (nadd n1 (expT (nneg u)))) as (_ & _ & _ & ZU); [auto|]. destruct (one_over (nadd n1 (expT (nneg v)))) as (_ & _ & _ & ZV); [auto|].
      rewrite ZU by (intros Q; rewrite Q in QU1; discriminate QU1). rewrite ZV by (intros Q; rewrite Q in QV1; discriminate QV1).
      apply rnd_le. unfold Rdiv. rewrite !Rmult_1_l. apply Rinv_le; [lra|]. rewrite QU3, QV3. apply rnd_le. lra.
Qed.
Theorem act_mono : exp_mono expT -> tanh_mono tanhT -> forall a (u v : double), is_finite u = true -> is_finite v = true -> (B2R u <= B2R v)%R ->
  (B2R (act_fcn expT tanhT c01f a u) <= B2R (act_fcn expT tanhT c01f a v))%R.
Proof.
  intros EM TM a u v Fu Fv L. destruct a; cbn [act_fcn].
  - rewrite (proj2 (relu_ok u Fu)), (proj2 (relu_ok v Fv)). apply Rle_max_compat_l. exact L.
  - apply sigmoid_mono; assumption.
  - exact L.
  - apply TM; assumption.
  - destruct (leaky_ok u Fu) as (_ & -> & _). destruct (leaky_ok v Fv) as (_ & -> & _).
    assert (M : (rnd64 (B2R c01f * B2R u) <= rnd64 (B2R c01f * B2R v))%R).
    { apply rnd_le. apply Rmult_le_compat_l; [apply CF|exact L]. }
    apply Rmax_lub; [apply Rle_trans with (1 := M); apply Rmax_l|apply Rle_trans with (1 := L); apply Rmax_r].
Qed.
End Act.
