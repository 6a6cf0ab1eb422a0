(** Rounding errors of sums and products of doubles. *)
From Coq Require Import ZArith Bool Lia Reals Lra Psatz List.
From Flocq Require Import Core BinarySingleNaN Relative Plus_error.
From Verif Require Import Base Num Spec Iter Sums ExprThms Double Bar BarFacts FiniteFacts.
Import ListNotations.
Local Open Scope Z_scope.

Local Notation fexp64 := (SpecFloat.fexp prec emax).
Local Notation rnd64 := (round radix2 fexp64 ZnearestE).
#[local] Instance valid64 : Valid_exp fexp64 := fexp_correct prec emax prec_pos.
Local Notation u := (bpow radix2 (-53)).
Local Notation tiny := (bpow radix2 (-1075)).

(** *** One operation *)
Lemma round_any : forall x, exists e h, (Rabs e <= u)%R /\ (Rabs h <= tiny)%R /\ rnd64 x = (x * (1 + e) + h)%R.
Proof.
  intros x. destruct (error_N_FLT radix2 (SpecFloat.emin prec emax) prec eq_refl (fun x => negb (Z.even x)) x) as (e & h & P & Q & _ & R). exists e, h.
  split; [|split; [|exact R]].
  - apply Rle_trans with (1 := P). change (/ 2)%R with (bpow radix2 (-1)). rewrite <- bpow_plus. apply bpow_le. unfold prec. lia.
  - apply Rle_trans with (1 := Q). change (/ 2)%R with (bpow radix2 (-1)). rewrite <- bpow_plus. apply bpow_le. unfold SpecFloat.emin, prec, emax. lia.
Qed.
Lemma round_sum : forall x y : double, is_finite x = true -> is_finite y = true -> exists e, (Rabs e <= u)%R /\ rnd64 (B2R x + B2R y) = ((B2R x + B2R y) * (1 + e))%R.
Proof.
  intros x y Fx Fy. destruct (FLT_plus_error_N_ex radix2 (SpecFloat.emin prec emax) prec (fun x => negb (Z.even x)) (B2R x) (B2R y)) as (e & P & Q).
  - apply generic_format_B2R.
  - apply generic_format_B2R.
  - exists e. split; [|exact Q]. apply Rle_trans with (1 := P).
    assert (U : u_ro radix2 prec = u) by (unfold u_ro; change (/ 2)%R with (bpow radix2 (-1)); rewrite <- bpow_plus; f_equal).
    rewrite U. assert (0 < u)%R by apply bpow_gt_0. apply Rle_trans with (u / 1)%R; [|lra]. apply Rmult_le_compat_l; [lra|]. apply Rinv_le; lra.
Qed.

(** A finite result has finite arguments, and it is the rounded one. *)
Lemma over_not_finite : forall s : bool, match binary_overflow prec emax mode_NE s with SpecFloat.S754_finite _ _ _ | SpecFloat.S754_zero _ => False | _ => True end.
Proof. intros s. exact I. Qed.
Lemma not_over : forall (z : double) s, is_finite z = true -> B2SF z = binary_overflow prec emax mode_NE s -> False.
Proof. intros z s F E. pose proof (over_not_finite s) as O. rewrite <- E in O. destruct z; cbn in *; try contradiction; discriminate. Qed.
Lemma add_fin : forall x y : double, is_finite (nadd x y) = true -> is_finite x = true /\ is_finite y = true /\ B2R (nadd x y) = rnd64 (B2R x + B2R y).
Proof.
  intros x y F. cbn [nadd NumD] in *.
  assert (A : is_finite x = true /\ is_finite y = true).
  { destruct x as [s|s| |s m e b]; destruct y as [s'|s'| |s' m' e' b']; try (split; reflexivity); exfalso; cbn in F; try discriminate F; destruct s, s'; discriminate F. }
  destruct A as [Fx Fy]. split; [exact Fx|]. split; [exact Fy|]. pose proof (Bplus_correct prec emax prec_pos prec_emax mode_NE x y Fx Fy) as C. cbn [round_mode] in C.
  destruct (Rlt_bool _ _) in C; [exact (proj1 C)|]. destruct C as [C _]. exfalso. exact (not_over _ _ F C).
Qed.
Lemma sub_fin : forall x y : double, is_finite (nsub x y) = true -> is_finite x = true /\ is_finite y = true /\ B2R (nsub x y) = rnd64 (B2R x - B2R y).
Proof.
  intros x y F. cbn [nsub NumD] in *.
  assert (A : is_finite x = true /\ is_finite y = true).
  { destruct x as [s|s| |s m e b]; destruct y as [s'|s'| |s' m' e' b']; try (split; reflexivity); exfalso; cbn in F; try discriminate F; destruct s, s'; discriminate F. }
  destruct A as [Fx Fy]. split; [exact Fx|]. split; [exact Fy|]. pose proof (Bminus_correct prec emax prec_pos prec_emax mode_NE x y Fx Fy) as C. cbn [round_mode] in C.
  destruct (Rlt_bool _ _) in C; [exact (proj1 C)|]. destruct C as [C _]. exfalso. exact (not_over _ _ F C).
Qed.
Lemma mul_fin : forall x y : double, is_finite (nmul x y) = true -> is_finite x = true /\ is_finite y = true /\ B2R (nmul x y) = rnd64 (B2R x * B2R y).
Proof.
  intros x y F. cbn [nmul NumD] in *.
  assert (A : is_finite x = true /\ is_finite y = true).
  { destruct x as [s|s| |s m e b]; destruct y as [s'|s'| |s' m' e' b']; try (split; reflexivity); exfalso; cbn in F; discriminate F. }
  destruct A as [Fx Fy]. split; [exact Fx|]. split; [exact Fy|]. pose proof (Bmult_correct prec emax prec_pos prec_emax mode_NE x y) as C. cbn [round_mode] in C.
  destruct (Rlt_bool _ _) in C; [exact (proj1 C)|]. exfalso. exact (not_over _ _ F C).
Qed.
Lemma div_fin : forall x y : double, B2R y <> 0%R -> is_finite (ndiv x y) = true -> is_finite x = true /\ B2R (ndiv x y) = rnd64 (B2R x / B2R y).
Proof.
  intros x y N F. cbn [ndiv NumD] in *. pose proof (Bdiv_correct prec emax prec_pos prec_emax mode_NE x y N) as C. cbn [round_mode] in C.
  destruct (Rlt_bool _ _) in C; [|exfalso; exact (not_over _ _ F C)]. destruct C as (C1 & C2 & _). split; [congruence|exact C1].
Qed.

(** *** Computed values near exact ones *)
(** [v] was computed with at most [p] roundings on top of each other; [x] is the exact value, [a] the sum of the absolute
    values of its terms, [r] the sum of the errors that do not depend on it. *)
Definition near (p : Z) (r : R) (v : double) (x a : R) : Prop :=
  (Rabs x <= a)%R /\ (0 <= r)%R /\ (Rabs (B2R v - x) <= IZR p * (2 * u) * a + (1 + IZR p * (2 * u)) * r)%R.

Lemma u_pos : (0 < u)%R.
Proof. apply bpow_gt_0. Qed.
Lemma tiny_pos : (0 < tiny)%R.
Proof. apply bpow_gt_0. Qed.
Lemma u_p : forall p, 0 <= p <= 2 ^ 52 -> (0 <= IZR p * (2 * u) <= 1)%R.
Proof.
  intros p [A B]. pose proof u_pos. apply IZR_le in A. apply IZR_le in B. split; [apply Rmult_le_pos; lra|].
  apply Rle_trans with (IZR (2 ^ 52) * (2 * u))%R; [apply Rmult_le_compat_r; lra|]. change (IZR (2 ^ 52)) with (bpow radix2 52). change 2%R with (bpow radix2 1). rewrite <- !bpow_plus. cbn. lra.
Qed.

(** The step of the error estimate: a rounding of a value with error at most [E] *)
Lemma error_step : forall p a r v x e h, 0 <= p < 2 ^ 52 -> (Rabs x <= a)%R -> (0 <= r)%R -> (Rabs (v - x) <= IZR p * (2 * u) * a + (1 + IZR p * (2 * u)) * r)%R ->
  (Rabs e <= u)%R -> (Rabs h <= tiny)%R -> 
  (Rabs (v * (1 + e) + h - x) <= IZR (p + 1) * (2 * u) * a + (1 + IZR (p + 1) * (2 * u)) * r + Rabs h)%R.
Proof.
  intros p a r v x e h Hp Hx Hr H He Hh. pose proof u_pos as U. destruct (u_p p ltac:(lia)) as (Q0 & Q1). set (q := (IZR p * (2 * u))%R) in *.
  rewrite plus_IZR. replace ((IZR p + 1) * (2 * u))%R with (q + 2 * u)%R by (unfold q; ring).
  assert (A0 : (0 <= a)%R) by (pose proof (Rabs_pos x); lra).
  assert (V : (Rabs v <= a + (q * a + (1 + q) * r))%R).
  { replace v with (x + (v - x))%R by ring. apply Rle_trans with (1 := Rabs_triang _ _). lra. }
  replace (v * (1 + e) + h - x)%R with ((v - x) + v * e + h)%R by ring.
  apply Rle_trans with (1 := Rabs_triang _ _). apply Rplus_le_compat_r. apply Rle_trans with (1 := Rabs_triang _ _). rewrite Rabs_mult.
  assert (M : (Rabs v * Rabs e <= (a + (q * a + (1 + q) * r)) * u)%R) by (apply Rmult_le_compat; auto using Rabs_pos).
  assert (M1 : (q * a * u <= 1 * a * u)%R) by (apply Rmult_le_compat_r; [lra|]; apply Rmult_le_compat_r; lra).
  assert (M2 : (q * r * u <= 1 * r * u)%R) by (apply Rmult_le_compat_r; [lra|]; apply Rmult_le_compat_r; lra).
  nra.
Qed.
Lemma near_up : forall p q r s v x a, near p r v x a -> p <= q -> (r <= s)%R -> 0 <= p -> near q s v x a.
Proof.
  intros p q r s v x a (A & B & C) L1 L2 P. split; [exact A|]. split; [lra|]. apply Rle_trans with (1 := C). pose proof u_pos. pose proof (Rabs_pos x).
  assert (IZR p * (2 * u) <= IZR q * (2 * u))%R by (apply Rmult_le_compat_r; [lra|apply IZR_le; exact L1]).
  assert (0 <= IZR p * (2 * u))%R by (apply Rmult_le_pos; [apply IZR_le; exact P|lra]).
  apply Rplus_le_compat; [apply Rmult_le_compat_r; lra|]. apply Rmult_le_compat; lra.
Qed.
Lemma near_exact : forall v : double, near 0 0 v (B2R v) (Rabs (B2R v)).
Proof. intros v. split; [lra|]. split; [lra|]. rewrite Rminus_diag_eq, Rabs_R0 by reflexivity. lra. Qed.
Lemma near_zero : near 0 0 n0 0 0.
Proof. split; [rewrite Rabs_R0; lra|]. split; [lra|]. cbn [n0 NumD B2R]. rewrite Rminus_diag_eq, Rabs_R0 by reflexivity. lra. Qed.
Lemma near_add : forall p r s (v w : double) x y a b, 0 <= p < 2 ^ 52 -> is_finite (nadd v w) = true -> near p r v x a -> near p s w y b -> near (p + 1) (r + s) (nadd v w) (x + y) (a + b).
Proof.
  intros p r s v w x y a b Hp F (A1 & A2 & A3) (B1 & B2 & B3). destruct (add_fin v w F) as (F1 & F2 & E). destruct (round_sum v w F1 F2) as (e & He & Q).
  assert (X : (Rabs (x + y) <= a + b)%R) by (apply Rle_trans with (1 := Rabs_triang _ _); lra).
  split; [exact X|]. split; [lra|]. rewrite E, Q.
  replace ((B2R v + B2R w) * (1 + e) - (x + y))%R with ((B2R v + B2R w) * (1 + e) + 0 - (x + y))%R by ring.
  pose proof tiny_pos. eapply Rle_trans; [apply (error_step p (a + b) (r + s)); auto; try lra|rewrite Rabs_R0; lra].
  - replace (B2R v + B2R w - (x + y))%R with ((B2R v - x) + (B2R w - y))%R by ring. apply Rle_trans with (1 := Rabs_triang _ _). lra.
  - rewrite Rabs_R0. lra.
Qed.
Lemma near_sub : forall p r s (v w : double) x y a b, 0 <= p < 2 ^ 52 -> is_finite (nsub v w) = true -> near p r v x a -> near p s w y b -> near (p + 1) (r + s) (nsub v w) (x - y) (a + b).
Proof.
  intros p r s v w x y a b Hp F (A1 & A2 & A3) (B1 & B2 & B3). destruct (sub_fin v w F) as (F1 & F2 & E).
  assert (FO : is_finite (Bopp w) = true) by (rewrite is_finite_Bopp; exact F2). destruct (round_sum v (Bopp w) F1 FO) as (e & He & Q). rewrite B2R_Bopp in Q.
  assert (X : (Rabs (x - y) <= a + b)%R) by (apply Rle_trans with (1 := Rabs_triang _ _); rewrite Rabs_Ropp; lra).
  split; [exact X|]. split; [lra|]. rewrite E. unfold Rminus at 2. rewrite Q.
  replace ((B2R v + - B2R w) * (1 + e) - (x - y))%R with ((B2R v - B2R w) * (1 + e) + 0 - (x - y))%R by ring.
  pose proof tiny_pos. eapply Rle_trans; [apply (error_step p (a + b) (r + s)); auto; try lra|rewrite Rabs_R0; lra].
  - replace (B2R v - B2R w - (x - y))%R with ((B2R v - x) - (B2R w - y))%R by ring. apply Rle_trans with (1 := Rabs_triang _ _). rewrite Rabs_Ropp. lra.
  - rewrite Rabs_R0. lra.
Qed.
(** Product with an exact factor *)
Lemma near_mul : forall p r (l v : double) x a, 0 <= p < 2 ^ 52 -> is_finite (nmul l v) = true -> near p r v x a ->
  near (p + 1) (Rabs (B2R l) * r + tiny) (nmul l v) (B2R l * x) (Rabs (B2R l) * a).
Proof.
  intros p r l v x a Hp F (A1 & A2 & A3). destruct (mul_fin l v F) as (F1 & F2 & E). destruct (round_any (B2R l * B2R v)) as (e & h & He & Hh & Q).
  pose proof tiny_pos as T. pose proof (Rabs_pos (B2R l)) as L. pose proof u_pos as U.
  split; [rewrite Rabs_mult; apply Rmult_le_compat_l; assumption|]. split; [apply Rplus_le_le_0_compat; [apply Rmult_le_pos; assumption|lra]|]. rewrite E, Q.
  eapply Rle_trans; [apply (error_step p (Rabs (B2R l) * a) (Rabs (B2R l) * r)); auto|].
  - rewrite Rabs_mult. apply Rmult_le_compat_l; assumption.
  - apply Rmult_le_pos; assumption.
  - replace (B2R l * B2R v - B2R l * x)%R with (B2R l * (B2R v - x))%R by ring. rewrite Rabs_mult.
    replace (IZR p * (2 * u) * (Rabs (B2R l) * a) + (1 + IZR p * (2 * u)) * (Rabs (B2R l) * r))%R with (Rabs (B2R l) * (IZR p * (2 * u) * a + (1 + IZR p * (2 * u)) * r))%R by ring.
    apply Rmult_le_compat_l; assumption.
  - assert (0 <= IZR (p + 1) * (2 * u))%R by (apply Rmult_le_pos; [apply IZR_le; lia|lra]). nra.
Qed.
Lemma near_product : forall l v : double, is_finite (nmul l v) = true -> near 1 tiny (nmul l v) (B2R l * B2R v) (Rabs (B2R l * B2R v)).
Proof.
  intros l v F. pose proof (near_mul 0 0 l v _ _ ltac:(lia) F (near_exact v)) as H. rewrite Rmult_0_r, Rplus_0_l in H. rewrite Rabs_mult. exact H.
Qed.
(** Quotient by an integer *)
Lemma near_div : forall p r (v : double) x a n, 0 <= p < 2 ^ 52 -> 1 <= n < 2 ^ 53 -> is_finite (ndiv v (nofZ n)) = true -> near p r v x a ->
  near (p + 1) (r / IZR n + tiny) (ndiv v (nofZ n)) (x / IZR n) (a / IZR n).
Proof.
  intros p r v x a n Hp Hn F (A1 & A2 & A3). assert (EN : B2R (nofZ n : double) = IZR n) by (change (@nofZ double NumD) with d_of_Z; destruct (d_of_Z_ok n) as (Q & _); [lia|exact Q]).
  assert (PN : (1 <= IZR n)%R) by (apply (IZR_le 1); lia). assert (PI : (0 < / IZR n)%R) by (apply Rinv_0_lt_compat; lra).
  destruct (div_fin v (nofZ n) ltac:(rewrite EN; lra) F) as (F1 & E). rewrite EN in E. destruct (round_any (B2R v / IZR n)) as (e & h & He & Hh & Q).
  pose proof tiny_pos as T. pose proof u_pos as U. unfold Rdiv in *.
  split; [rewrite Rabs_mult, (Rabs_pos_eq (/ IZR n)) by lra; apply Rmult_le_compat_r; lra|]. split; [apply Rplus_le_le_0_compat; [apply Rmult_le_pos; lra|lra]|]. rewrite E, Q.
  eapply Rle_trans; [apply (error_step p (a * / IZR n) (r * / IZR n)); auto|].
  - rewrite Rabs_mult, (Rabs_pos_eq (/ IZR n)) by lra. apply Rmult_le_compat_r; lra.
  - apply Rmult_le_pos; lra.
  - replace (B2R v * / IZR n - x * / IZR n)%R with ((B2R v - x) * / IZR n)%R by ring. rewrite Rabs_mult, (Rabs_pos_eq (/ IZR n)) by lra.
    replace (IZR p * (2 * u) * (a * / IZR n) + (1 + IZR p * (2 * u)) * (r * / IZR n))%R with ((IZR p * (2 * u) * a + (1 + IZR p * (2 * u)) * r) * / IZR n)%R by ring.
    apply Rmult_le_compat_r; lra.
  - assert (0 <= IZR (p + 1) * (2 * u))%R by (apply Rmult_le_pos; [apply IZR_le; lia|lra]). nra.
Qed.

(** *** Sums *)
Lemma fold_fin : forall n (f : Z -> double) s, is_finite (fold_z (fun s k => nadd s (f k)) n s) = true -> is_finite s = true /\ forall k, 0 <= k < n -> is_finite (f k) = true.
Proof.
  intros n f s. induction n using Zrange_ind; intros F.
  - rewrite fold_z_0 in F by lia. split; [exact F|lia].
  - rewrite fold_z_snoc in F by lia. destruct (add_fin _ _ F) as (F1 & F2 & _). destruct (IHn F1) as (G1 & G2). split; [exact G1|].
    intros k K. destruct (Z.eq_dec k n) as [->|]; [exact F2|apply G2; lia].
Qed.
Lemma near_fold : forall n (f : Z -> double) s p r x y c a b q, 0 <= n -> 0 <= p <= q -> q + n <= 2 ^ 52 -> (0 <= r)%R -> is_finite (fold_z (fun s k => nadd s (f k)) n s) = true ->
  near q b s x a -> (forall k, 0 <= k < n -> is_finite (f k) = true -> near p r (f k) (y k) (c k)) ->
  near (q + n) (b + IZR n * r) (fold_z (fun s k => nadd s (f k)) n s) (x + rsum n y) (a + rsum n c).
Proof.
  intros n f s p r x y c a b q Hn Hp Hq Hr. revert Hq. revert Hn. induction n using Zrange_ind; intros Hn Hq F Hs Hf.
  - assert (n = 0) by lia. subst n. rewrite fold_z_0, !rsum_neg, !Rplus_0_r by lia. rewrite Rmult_0_l, Rplus_0_r, Z.add_0_r. exact Hs.
  - rewrite fold_z_snoc in * by lia. destruct (add_fin _ _ F) as (F1 & F2 & _). rewrite !rsum_S by lia. rewrite <- !Rplus_assoc.
    replace (q + (n + 1)) with (q + n + 1) by ring. rewrite plus_IZR. replace (b + (IZR n + 1) * r)%R with (b + IZR n * r + r)%R by ring.
    apply near_add; [lia|exact F| |].
    + apply IHn; [lia|lia|exact F1|exact Hs|]. intros k K. apply Hf. lia.
    + apply near_up with p r; [apply Hf; [lia|exact F2]|lia|lra|lia].
Qed.
Lemma near_nsum : forall n (f : Z -> double) p r y c, 0 <= n -> 0 <= p -> p + n <= 2 ^ 52 -> (0 <= r)%R -> is_finite (nsum n f) = true ->
  (forall k, 0 <= k < n -> is_finite (f k) = true -> near p r (f k) (y k) (c k)) -> near (p + n) (IZR n * r) (nsum n f) (rsum n y) (rsum n c).
Proof.
  intros n f p r y c Hn Hp Hq Hr F Hf. pose proof (near_fold n f n0 p r 0 y c 0 0 p Hn ltac:(lia) Hq Hr F) as H. rewrite !Rplus_0_l in H. apply H; [|exact Hf].
  apply near_up with 0 0%R; [exact near_zero|lia|lra|lia].
Qed.
Lemma near_nsum2 : forall U V (h : Z -> Z -> double) p r y c, 0 <= U -> 0 <= V -> 0 <= p -> p + U * V <= 2 ^ 52 -> (0 <= r)%R -> is_finite (nsum2 U V h) = true ->
  (forall i j, 0 <= i < U -> 0 <= j < V -> is_finite (h i j) = true -> near p r (h i j) (y i j) (c i j)) ->
  near (p + U * V) (IZR (U * V) * r) (nsum2 U V h) (rsum U (fun i => rsum V (y i))) (rsum U (fun i => rsum V (c i))).
Proof.
  intros U V h p r y c HU HV Hp Hq Hr F Hh. unfold nsum2 in *. set (G := fun (s : double) i => fold_z (fun a y => nadd a (h i y)) V s) in *.
  assert (Q : forall k, 0 <= k -> k <= U -> is_finite (fold_z G k n0) = true -> near (p + k * V) (IZR (k * V) * r) (fold_z G k n0) (rsum k (fun i => rsum V (y i))) (rsum k (fun i => rsum V (c i)))).
  { intros k. induction k using Zrange_ind; intros K L FK.
    - assert (k = 0) by lia. subst k. rewrite fold_z_0, !rsum_neg by lia. cbn [Z.mul]. rewrite Rmult_0_l. apply near_up with 0 0%R; [exact near_zero|lia|lra|lia].
    - rewrite fold_z_snoc in * by lia. unfold G at 1 in FK. unfold G at 1. destruct (fold_fin _ _ _ FK) as [F1 _].
      rewrite !rsum_S by lia. replace (p + (k + 1) * V) with (p + k * V + V) by ring. replace (IZR ((k + 1) * V) * r)%R with (IZR (k * V) * r + IZR V * r)%R by (rewrite Z.mul_add_distr_r, plus_IZR; replace (1 * V) with V by ring; ring).
      apply (near_fold V (h k) (fold_z G k n0) p r); [lia|nia|nia|exact Hr|exact FK| |].
      + apply IHk; [lia|lia|exact F1].
      + intros j J. apply Hh; lia. }
  apply Q; [lia|lia|exact F].
Qed.
(** The estimate in closed form *)
Lemma near_bound : forall p r v x a, 0 <= p <= 2 ^ 52 -> near p r v x a -> (Rabs (B2R v - x) <= IZR p * bpow radix2 (-52) * a + 2 * r)%R.
Proof.
  intros p r v x a Hp (A & B & C). apply Rle_trans with (1 := C). destruct (u_p p Hp) as [Q0 Q1]. replace (bpow radix2 (-52)) with (2 * u)%R by (change 2%R with (bpow radix2 1); rewrite <- bpow_plus; reflexivity). nra.
Qed.
