(** The random initial parameters (Kernel.cpp 16-25, ConnectedLayer.cpp 58-67) in IEEE-754 double precision. *)
From Coq Require Import ZArith Bool Lia Reals Lra Psatz List.
From Flocq Require Import Core BinarySingleNaN Relative Plus_error.
From Verif Require Import Base Dim Matrix View Num Expr Spec Iter Sums MatFacts MatThms ViewThms ExprThms Batch Kernel Connected Float32
  FloatFacts Pooling Activation Softmax LayerFacts BatchThms PoolingThms SoftmaxThms LayerTotal Calc Chars Double Bar BarFacts Model Net NetPass
  NetGrad ModelThms Shapes ReportFacts FiniteFacts FiniteSoft.
Import ListNotations.
Local Open Scope Z_scope.

Local Notation fexp64 := (SpecFloat.fexp prec emax).
Local Notation rnd64 := (round radix2 fexp64 ZnearestE).
#[local] Instance valid64 : Valid_exp fexp64 := fexp_correct prec emax prec_pos.
#[local] Instance mono64 : Monotone_exp fexp64 := FLT_exp_monotone (SpecFloat.emin prec emax) prec.

(** std::sqrt: correctly rounded (IEEE 754) *)
Definition d_sqrt (x : double) : double := Bsqrt mode_NE x.
Lemma sqrt_ok : forall x : double, is_finite x = true -> (0 <= B2R x)%R -> is_finite (d_sqrt x) = true /\ B2R (d_sqrt x) = rnd64 (sqrt (B2R x)).
Proof.
  intros x F P. unfold d_sqrt. destruct (Bsqrt_correct prec emax prec_pos prec_emax mode_NE x) as (A & B & _). split; [|exact A]. rewrite B.
  destruct x as [s|s| |s m e b]; try discriminate F; [reflexivity|]. destruct s; [|reflexivity]. exfalso. cbn [B2R] in P.
  assert (N : (F2R (Float radix2 (SpecFloat.cond_Zopp true (Z.pos m)) e) < 0)%R) by (apply F2R_lt_0; cbn; lia). lra.
Qed.

(** *** Relative errors without underflow *)
Local Notation u := (bpow radix2 (-53)).
Lemma rel : forall x, (bpow radix2 (-1022) <= Rabs x)%R -> exists e, (- u <= e <= u)%R /\ rnd64 x = (x * (1 + e))%R.
Proof.
  intros x H. destruct (relative_error_N_FLT_ex radix2 (SpecFloat.emin prec emax) prec eq_refl (fun x => negb (Z.even x)) x) as (e & P & Q).
  - apply Rle_trans with (2 := H). apply bpow_le. unfold SpecFloat.emin, prec, emax. lia.
  - exists e. split; [|exact Q]. apply Rabs_le_inv. apply Rle_trans with (1 := P). unfold prec. change (/ 2)%R with (bpow radix2 (-1)). rewrite <- bpow_plus. apply bpow_le. lia.
Qed.
Lemma u_pos : (0 < u)%R.
Proof. apply bpow_gt_0. Qed.
Lemma u_tiny : (u <= / 1024)%R.
Proof. change (/ 1024)%R with (bpow radix2 (-10)). apply bpow_le. lia. Qed.

(** *** The square root of the rounded square of x is not below x. *)
Lemma sqrt_of_square : forall x, generic_format radix2 fexp64 x -> (bpow radix2 (-500) <= x)%R -> (x <= rnd64 (sqrt (rnd64 (x * x))))%R.
Proof.
  intros x Fx Lx. assert (Px : (0 < x)%R) by (pose proof (bpow_gt_0 radix2 (-500)); lra).
  destruct (Rle_or_lt (x * x) (rnd64 (x * x))) as [G|G].
  { apply round_ge_generic; [typeclasses eauto|typeclasses eauto|exact Fx|]. rewrite <- (sqrt_square x) at 1 by lra. apply sqrt_le_1_alt. exact G. }
  destruct (rel (x * x)) as (e & (E1 & E2) & ER).
  { rewrite Rabs_pos_eq by nra. apply Rle_trans with (bpow radix2 (-500) * bpow radix2 (-500))%R; [rewrite <- bpow_plus; apply bpow_le; lia|].
    apply Rmult_le_compat; try apply bpow_ge_0; assumption. }
  destruct (mag radix2 x) as (k & K). specialize (K ltac:(lra)). rewrite (Rabs_pos_eq x) in K by lra.
  assert (MK : mag radix2 x = k :> Z) by (apply mag_unique; rewrite Rabs_pos_eq by lra; exact K).
  assert (K0 : -499 <= k). { assert (B : (bpow radix2 (-500) < bpow radix2 k)%R) by lra. apply lt_bpow in B. lia. }
  assert (FE : fexp64 k = k - 53) by (rewrite fexp64_eq; lia).
  destruct (Req_dec x (bpow radix2 (k - 1))) as [P|P].
  { exfalso. rewrite P, <- bpow_plus in G. rewrite round_generic in G; [lra|typeclasses eauto|]. apply generic_format_bpow. rewrite fexp64_eq. lia. }
  apply round_N_ge_midp; [typeclasses eauto|exact Fx|].
  rewrite pred_eq_pos by lra. unfold pred_pos. rewrite MK. rewrite Req_bool_false by exact P.
  rewrite ulp_neq_0 by lra. unfold cexp. rewrite MK, FE.
  assert (H1 : bpow radix2 (k - 53) = (bpow radix2 k * u)%R) by (rewrite <- bpow_plus; f_equal; lia).
  rewrite H1. pose proof u_pos as U0. pose proof u_tiny as U1. set (v := bpow radix2 (-53)) in *.
  assert (UP : (x <= bpow radix2 k * (1 - v))%R).
  { rewrite Rmult_minus_distr_l, Rmult_1_r. rewrite <- H1. replace (bpow radix2 k - bpow radix2 (k - 53))%R with (pred radix2 fexp64 (bpow radix2 k)).
    - apply pred_ge_gt; [typeclasses eauto|exact Fx| |apply K]. apply generic_format_bpow. rewrite fexp64_eq. lia.
    - rewrite pred_bpow. rewrite FE. reflexivity. }
  set (B := bpow radix2 k) in *. assert (B0 : (0 < B)%R) by apply bpow_gt_0.
  apply Rlt_le_trans with (x * (1 - (v / 2 + v * v / 2)))%R.
  - assert (x * (v / 2 + v * v / 2) < B * v / 2)%R; [|lra].
    apply Rle_lt_trans with (B * (1 - v) * (v / 2 + v * v / 2))%R; [apply Rmult_le_compat_r; nra|].
    replace (B * (1 - v) * (v / 2 + v * v / 2))%R with (B * v / 2 - B * v / 2 * (v * v))%R by field.
    assert (0 < B * v / 2 * (v * v))%R; [|lra]. apply Rmult_lt_0_compat; [|nra]. assert (0 < B * v)%R by (apply Rmult_lt_0_compat; lra). lra.
  - rewrite ER. rewrite <- (sqrt_square (x * (1 - (v / 2 + v * v / 2)))).
    + apply sqrt_le_1_alt. replace (x * (1 - (v / 2 + v * v / 2)) * (x * (1 - (v / 2 + v * v / 2))))%R with ((x * x) * ((1 - (v / 2 + v * v / 2)) * (1 - (v / 2 + v * v / 2))))%R by ring.
      apply Rmult_le_compat_l; [nra|]. assert (v * v <= v / 1024)%R by nra. nra.
    + apply Rmult_le_pos; [lra|]. assert (v * v <= v)%R by nra. lra.
Qed.

(** *** One random value *)
Section Rand.
Variable rand : Z -> Z.
Variable rmax : Z.
Hypothesis HR : forall k, 0 <= rand k <= rmax.
Hypothesis OD : Z.odd rmax = true.
Hypothesis MX : 1 <= rmax < 2 ^ 31.

Lemma pow_fmt : forall e, -1074 <= e <= 970 -> generic_format radix2 fexp64 (bpow radix2 e).
Proof. intros e H. apply generic_format_bpow. rewrite fexp64_eq. lia. Qed.
(** 1 + 2^-31 and 1 - 2^-31 are doubles. *)
Lemma near_one : forall z, Z.abs z = 1 -> generic_format radix2 fexp64 (1 + IZR z * bpow radix2 (-31)).
Proof.
  intros z Hz. replace (1 + IZR z * bpow radix2 (-31))%R with (IZR (2 ^ 31 + z) * bpow radix2 (-31))%R.
  - apply dyadic_format; lia.
  - rewrite plus_IZR. change (IZR (2 ^ 31)) with (bpow radix2 31). rewrite Rmult_plus_distr_r, <- bpow_plus. reflexivity.
Qed.
Lemma rand_double : forall k, is_finite (rand_val (T := double) rand rmax k) = true /\
  (bpow radix2 (-31) <= Rabs (B2R (rand_val (T := double) rand rmax k)) <= 1)%R.
Proof.
  intros k. unfold rand_val. specialize (HR k). destruct (d_of_Z_ok 2) as (V2 & F2); [lia|].
  destruct (d_of_Z_ok (rand k)) as (Vr & Fr); [lia|]. destruct (d_of_Z_ok rmax) as (Vm & Fm); [lia|]. destruct one_ok as (F1 & V1).
  change (@nofZ double NumD) with d_of_Z.
  assert (PM : (1 <= IZR rmax)%R) by (apply IZR_le; lia). assert (LM : (IZR rmax < IZR (2 ^ 31))%R) by (apply IZR_lt; lia).
  assert (PR : (0 <= IZR (rand k) <= IZR rmax)%R) by (split; apply IZR_le; lia).
  assert (C0 : cap (IZR (2 * rand k))). { pose proof (cap_scale (2 * rand k) 0 ltac:(unfold scale; lia)) as C. cbn [bpow] in C. rewrite Rmult_1_r in C. exact C. }
  destruct (mul_exact (d_of_Z 2) (d_of_Z (rand k)) _ F2 Fr C0) as (A1 & A2).
  { rewrite V2, Vr, <- mult_IZR. rewrite Rabs_pos_eq; [lra|]. apply IZR_le. lia. }
  rewrite V2, Vr, <- mult_IZR in A2. rewrite round_generic in A2; [|typeclasses eauto|apply C0]. set (p := nmul (d_of_Z 2) (d_of_Z (rand k))) in *.
  assert (Q : (0 <= IZR (2 * rand k) / IZR rmax <= 2)%R).
  { rewrite mult_IZR. split.
    - apply Rmult_le_pos; [lra|]. apply Rlt_le, Rinv_0_lt_compat. lra.
    - apply Rmult_le_reg_r with (IZR rmax); [lra|]. unfold Rdiv. rewrite Rmult_assoc, Rinv_l by lra. lra. }
  assert (C2 : cap 2). { pose proof (cap_scale 2 0 ltac:(unfold scale; lia)) as C. cbn [bpow] in C. rewrite Rmult_1_r in C. exact C. }
  assert (NM : B2R (d_of_Z rmax) <> 0%R) by (rewrite Vm; lra).
  destruct (div_exact p (d_of_Z rmax) _ A1 NM C2) as (B1 & B2).
  { rewrite A2, Vm. rewrite Rabs_pos_eq; lra. }
  rewrite A2, Vm in B2. set (q := ndiv p (d_of_Z rmax)) in *.
  assert (LQ : (0 <= B2R q <= 2)%R).
  { rewrite B2. split; [rewrite <- rnd_0; apply rnd_le; lra|]. apply round_le_generic; [typeclasses eauto|typeclasses eauto|apply C2|lra]. }
  assert (E31 : (IZR (2 ^ 31) * bpow radix2 (-31) = 1)%R) by (change (IZR (2 ^ 31)) with (bpow radix2 31); rewrite <- bpow_plus; reflexivity).
  assert (P31 : (0 < bpow radix2 (-31))%R) by apply bpow_gt_0.
  assert (FAR : (B2R q <= 1 - bpow radix2 (-31) \/ 1 + bpow radix2 (-31) <= B2R q)%R).
  { destruct (Z_lt_le_dec (2 * rand k) rmax) as [L|L].
    - left. rewrite B2. replace (1 - bpow radix2 (-31))%R with (1 + IZR (-1) * bpow radix2 (-31))%R by (cbn [IZR IPR]; ring).
      apply round_le_generic; [typeclasses eauto|typeclasses eauto|apply near_one; reflexivity|].
      apply Rmult_le_reg_r with (IZR rmax); [lra|]. unfold Rdiv. rewrite Rmult_assoc, Rinv_l by lra.
      assert (H1 : (IZR (2 * rand k) <= IZR rmax - 1)%R) by (rewrite <- minus_IZR; apply IZR_le; lia). nra.
    - right. assert (NE : 2 * rand k <> rmax) by (intros E; rewrite <- E, Z.odd_mul in OD; discriminate OD).
      rewrite B2. replace (1 + bpow radix2 (-31))%R with (1 + IZR 1 * bpow radix2 (-31))%R by ring.
      apply round_ge_generic; [typeclasses eauto|typeclasses eauto|apply near_one; reflexivity|].
      apply Rmult_le_reg_r with (IZR rmax); [lra|]. unfold Rdiv. rewrite Rmult_assoc, Rinv_l by lra.
      assert (H1 : (IZR rmax + 1 <= IZR (2 * rand k))%R) by (rewrite <- plus_IZR; apply IZR_le; lia). nra. }
  assert (AB : (Rabs (1 - B2R q) <= 1)%R) by (apply Rabs_le; lra).
  destruct (sub_exact n1 q 1 F1 B1 cap_1) as (D1 & D2); [rewrite V1; exact AB|]. split; [exact D1|]. rewrite D2, V1. split.
  - apply abs_round_ge_generic; [typeclasses eauto|typeclasses eauto|apply pow_fmt; lia|].
    destruct FAR; [rewrite Rabs_pos_eq; lra|rewrite Rabs_left1; lra].
  - apply cap_small; [apply cap_1|exact AB].
Qed.

Lemma rsum_between : forall n f g a b, 0 <= n -> (forall k, 0 <= k < n -> (a * g k <= f k <= b * g k)%R) ->
  (a * rsum n g <= rsum n f <= b * rsum n g)%R.
Proof.
  intros n f g a b Hn H. rewrite <- !rsum_scal.
  assert (G : forall k, 0 <= k -> k <= n -> (rsum k (fun k => a * g k) <= rsum k f <= rsum k (fun k => b * g k))%R).
  { intros k. induction k using Zrange_ind; intros K L.
    - replace k with 0 by lia. rewrite !rsum_neg by lia. lra.
    - rewrite !rsum_S by lia. specialize (IHk ltac:(lia) ltac:(lia)). specialize (H k ltac:(lia)). lra. }
  apply G; lia.
Qed.

Lemma init_double : forall k0 d, fits d -> 1 <= vol d ->
  let f := init_val (T := double) rand rmax d_sqrt k0 d in
  (forall x y z, inb d x y z -> is_finite (f x y z) = true /\ (bpow radix2 (-47) <= Rabs (B2R (f x y z)) <= 1)%R) /\
  (Rabs (rsum3 d (fun x y z => B2R (f x y z) * B2R (f x y z)) - 1) <= IZR (vol d) * bpow radix2 (-50))%R.
Proof.
  intros k0 d F V f.
  set (r := fun x y z => rand_val (T := double) rand rmax (k0 + lin d x y z)).
  set (sq := fun x y z => nmul (r x y z) (r x y z)).
  assert (HF : 0 <= vol d < 2 ^ 31) by (pose proof (fits_vol d F) as VV; unfold two31 in VV; lia).
  assert (RD : forall x y z, is_finite (r x y z) = true /\ (bpow radix2 (-31) <= Rabs (B2R (r x y z)) <= 1)%R) by (intros; apply rand_double).
  assert (P31 : (0 < bpow radix2 (-31))%R) by apply bpow_gt_0.
  assert (RR : forall x y z, (bpow radix2 (-62) <= B2R (r x y z) * B2R (r x y z) <= 1)%R).
  { intros x y z. destruct (RD x y z) as (_ & A). replace (B2R (r x y z) * B2R (r x y z))%R with (Rabs (B2R (r x y z)) * Rabs (B2R (r x y z)))%R
      by (rewrite <- Rabs_mult; apply Rabs_pos_eq; nra).
    replace (bpow radix2 (-62)) with (bpow radix2 (-31) * bpow radix2 (-31))%R by (rewrite <- bpow_plus; reflexivity). nra. }
  assert (SQ : forall x y z, is_finite (sq x y z) = true /\ B2R (sq x y z) = rnd64 (B2R (r x y z) * B2R (r x y z))).
  { intros x y z. destruct (RD x y z) as (A & _). specialize (RR x y z). apply (mul_exact _ _ 1 A A cap_1).
    pose proof (bpow_gt_0 radix2 (-62)). rewrite Rabs_pos_eq; lra. }
  assert (SU : forall k, 0 <= k < vol d -> unit_const (elem_no d sq k)).
  { intros k _. unfold elem_no. destruct (SQ (k mod dx d) ((k / dx d) mod dy d) (k / (dx d * dy d))) as (A & B). split; [exact A|].
    rewrite B. apply rnd_unit. pose proof (RR (k mod dx d) ((k / dx d) mod dy d) (k / (dx d * dy d))). pose proof (bpow_gt_0 radix2 (-62)). lra. }
  destruct (sum_unit (vol d) (elem_no d sq) HF SU) as (S1 & S2 & S3 & S4).
  assert (FE : forall x y z, f x y z = ndiv (r x y z) (d_sqrt (nsum (vol d) (elem_no d sq)))) by reflexivity.
  set (S := nsum (vol d) (elem_no d sq)) in *.
  assert (LE : forall x y z, inb d x y z -> (rnd64 (B2R (r x y z) * B2R (r x y z)) <= B2R S)%R).
  { intros x y z I. pose proof (S3 (lin d x y z) (lin_range d x y z I)) as A. rewrite elem_no_lin in A by exact I. destruct (SQ x y z) as (_ & B). rewrite B in A. exact A. }
  destruct (sqrt_ok S S1 ltac:(lra)) as (N1 & N2). set (N := d_sqrt S) in *.
  assert (LN : forall x y z, inb d x y z -> (Rabs (B2R (r x y z)) <= B2R N)%R).
  { intros x y z I. rewrite N2. apply Rle_trans with (rnd64 (sqrt (rnd64 (Rabs (B2R (r x y z)) * Rabs (B2R (r x y z)))))).
    - apply sqrt_of_square; [apply generic_format_abs, generic_format_B2R|]. apply Rle_trans with (bpow radix2 (-31)); [apply bpow_le; lia|apply RD].
    - apply rnd_le. apply sqrt_le_1_alt. rewrite <- Rabs_mult. pose proof (RR x y z) as Q. pose proof (bpow_gt_0 radix2 (-62)). rewrite Rabs_pos_eq by lra. apply LE. exact I. }
  assert (exists x y z, inb d x y z) as (x0 & y0 & z0 & I0).
  { exists 0, 0, 0. pose proof (fits_dims d F). unfold vol in V. unfold inb. nia. }
  assert (PN : (bpow radix2 (-31) <= B2R N)%R). { pose proof (LN _ _ _ I0). destruct (RD x0 y0 z0) as (_ & Q). lra. }
  assert (UN : (B2R N <= bpow radix2 16)%R).
  { rewrite N2. apply round_le_generic; [typeclasses eauto|typeclasses eauto|apply pow_fmt; lia|].
    rewrite <- (sqrt_square (bpow radix2 16)) by apply bpow_ge_0. apply sqrt_le_1_alt. rewrite <- bpow_plus.
    apply Rle_trans with (IZR (vol d)); [apply S2|]. change (bpow radix2 (16 + 16)) with (IZR (2 ^ 32)). apply IZR_le. lia. }
  assert (FV : forall x y z, inb d x y z -> is_finite (f x y z) = true /\ B2R (f x y z) = rnd64 (B2R (r x y z) / B2R N) /\
     (bpow radix2 (-47) <= Rabs (B2R (r x y z) / B2R N) <= 1)%R).
  { intros x y z I. rewrite FE. destruct (RD x y z) as (A1 & A2). specialize (LN x y z I).
    assert (B : (bpow radix2 (-47) <= Rabs (B2R (r x y z) / B2R N) <= 1)%R).
    { unfold Rdiv. rewrite Rabs_mult, (Rabs_pos_eq (/ B2R N)) by (apply Rlt_le, Rinv_0_lt_compat; lra). split.
      - apply Rmult_le_reg_r with (B2R N); [lra|]. rewrite Rmult_assoc, Rinv_l by lra. rewrite Rmult_1_r.
        apply Rle_trans with (bpow radix2 (-47) * bpow radix2 16)%R; [apply Rmult_le_compat_l; [apply bpow_ge_0|exact UN]|].
        rewrite <- bpow_plus. apply A2.
      - apply Rmult_le_reg_r with (B2R N); [lra|]. rewrite Rmult_assoc, Rinv_l by lra. lra. }
    destruct (div_exact (r x y z) N 1 A1 ltac:(lra) cap_1) as (C1 & C2); [apply B|]. auto. }
  split.
  { intros x y z I. destruct (FV x y z I) as (A & B & C). split; [exact A|]. rewrite B. split.
    - apply abs_round_ge_generic; [typeclasses eauto|typeclasses eauto|apply pow_fmt; lia|apply C].
    - apply cap_small; [apply cap_1|apply C]. }
  (* the norm *)
  pose proof u_pos as U0. pose proof u_tiny as U1. set (v := bpow radix2 (-53)) in *.
  set (x := (IZR (vol d) * v)%R).
  assert (E50 : bpow radix2 (-50) = (8 * v)%R) by (change 8%R with (bpow radix2 3); unfold v; rewrite <- bpow_plus; reflexivity).
  assert (XV : (v <= x)%R). { assert (1 <= IZR (vol d))%R by (apply IZR_le; lia). unfold x. nra. }
  assert (X1 : (x <= / 1024)%R).
  { assert (A : (IZR (vol d) <= bpow radix2 31)%R) by (change (bpow radix2 31) with (IZR (2 ^ 31)); apply IZR_le; lia).
    unfold x. apply Rle_trans with (bpow radix2 31 * v)%R; [apply Rmult_le_compat_r; lra|]. unfold v. rewrite <- bpow_plus.
    change (/ 1024)%R with (bpow radix2 (-10)). apply bpow_le. lia. }
  set (Q := rsum (vol d) (elem_no d (fun a b c => (B2R (r a b c) * B2R (r a b c))%R))).
  assert (SB : ((1 - v) * Q <= rsum (vol d) (fun k => B2R (elem_no d sq k)) <= (1 + v) * Q)%R).
  { apply rsum_between; [lia|]. intros k _. unfold elem_no. set (a := k mod dx d). set (b := (k / dx d) mod dy d). set (c := k / (dx d * dy d)).
    destruct (SQ a b c) as (_ & E). rewrite E. pose proof (RR a b c) as G. pose proof (bpow_gt_0 radix2 (-62)) as G0.
    destruct (rel (B2R (r a b c) * B2R (r a b c))) as (e & E1 & E2).
    { rewrite Rabs_pos_eq by lra. apply Rle_trans with (bpow radix2 (-62)); [apply bpow_le; lia|apply G]. }
    rewrite E2. fold v in E1. nra. }
  set (SS := rsum (vol d) (fun k => B2R (elem_no d sq k))) in *.
  assert (S4' : (SS * (1 - x) <= B2R S <= SS * (1 + 2 * x))%R). { unfold x. rewrite <- Rmult_assoc. exact S4. }
  assert (PS : (bpow radix2 (-62) <= B2R S)%R).
  { apply Rle_trans with (2 := LE _ _ _ I0). apply round_ge_generic; [typeclasses eauto|typeclasses eauto|apply pow_fmt; lia|]. apply RR. }
  assert (PS0 : (0 < B2R S)%R) by (pose proof (bpow_gt_0 radix2 (-62)); lra).
  assert (NN : exists e, (- v <= e <= v)%R /\ (B2R N * B2R N = B2R S * ((1 + e) * (1 + e)))%R).
  { destruct (rel (sqrt (B2R S))) as (e & E1 & E2).
    - rewrite Rabs_pos_eq by apply sqrt_pos. apply Rle_trans with (bpow radix2 (-31)); [apply bpow_le; lia|].
      rewrite <- (sqrt_square (bpow radix2 (-31))) by apply bpow_ge_0. apply sqrt_le_1_alt. rewrite <- bpow_plus. exact PS.
    - exists e. split; [exact E1|]. rewrite N2, E2. replace (sqrt (B2R S) * (1 + e) * (sqrt (B2R S) * (1 + e)))%R with ((sqrt (B2R S) * sqrt (B2R S)) * ((1 + e) * (1 + e)))%R by ring.
      rewrite sqrt_sqrt by lra. reflexivity. }
  destruct NN as (e & E1 & E2).
  assert (WB : ((1 - v) * (1 - v) * (Q / (B2R N * B2R N)) <= rsum3 d (fun x y z => B2R (f x y z) * B2R (f x y z)) <= (1 + v) * (1 + v) * (Q / (B2R N * B2R N)))%R).
  { rewrite <- rsum3_storage by exact F.
    replace (Q / (B2R N * B2R N))%R with (rsum (vol d) (fun k => / (B2R N * B2R N) * elem_no d (fun a b c => (B2R (r a b c) * B2R (r a b c))%R) k))%R
      by (rewrite rsum_scal; unfold Q; field; lra).
    apply rsum_between; [lia|]. intros k K. destruct (position_case d k F K) as (a & b & c & I & EK & _). rewrite EK, !elem_no_lin by exact I.
    destruct (FV a b c I) as (_ & A & B). rewrite A. destruct (rel (B2R (r a b c) / B2R N)) as (e' & G1 & G2).
    { apply Rle_trans with (2 := proj1 B). apply bpow_le. lia. }
    rewrite G2. fold v in G1. replace (/ (B2R N * B2R N) * (B2R (r a b c) * B2R (r a b c)))%R with ((B2R (r a b c) / B2R N) * (B2R (r a b c) / B2R N))%R by (field; lra).
    set (t := (B2R (r a b c) / B2R N)%R) in *. replace (t * (1 + e') * (t * (1 + e')))%R with ((1 + e') * (1 + e') * (t * t))%R by ring.
    assert (T0 : (0 <= t * t)%R) by nra. split; apply Rmult_le_compat_r; auto; nra. }
  rewrite E50. replace (IZR (vol d) * (8 * v))%R with (8 * x)%R by (unfold x; ring).
  assert (PM : (0 < B2R N * B2R N)%R) by nra.
  assert (QQ : (Q / (B2R N * B2R N) * (B2R N * B2R N) = Q)%R) by (field; lra).
  set (G := (Q / (B2R N * B2R N))%R) in *. set (W := rsum3 d _) in *. set (M := (B2R N * B2R N)%R) in *.
  assert (Q0 : (0 < Q)%R).
  { assert (0 < SS)%R by nra. nra. }
  assert (L1 : ((1 - x) * (1 - x) * ((1 - x) * (1 - x)) * Q <= M)%R).
  { rewrite E2. apply Rle_trans with (((1 - x) * Q * (1 - x)) * ((1 - x) * (1 - x)))%R; [right; ring|].
    apply Rmult_le_compat; [apply Rmult_le_pos; nra|nra| |nra].
    apply Rle_trans with (SS * (1 - x))%R; [apply Rmult_le_compat_r; nra|apply S4']. }
  assert (L2 : (M <= (1 + x) * (1 + x) * ((1 + x) * (1 + 2 * x)) * Q)%R).
  { rewrite E2. apply Rle_trans with (((1 + x) * Q * (1 + 2 * x)) * ((1 + x) * (1 + x)))%R; [|right; ring].
    apply Rmult_le_compat; [lra|nra| |nra].
    apply Rle_trans with (SS * (1 + 2 * x))%R; [apply S4'|apply Rmult_le_compat_r; nra]. }
  assert (G0 : (0 < G)%R) by nra.
  assert (L3 : ((1 - x) * (1 - x) * ((1 - x) * (1 - x)) * G <= 1)%R).
  { apply Rmult_le_reg_r with Q; [exact Q0|]. rewrite Rmult_1_l. rewrite <- QQ at 2. apply (Rmult_le_compat_l G) in L1; [|lra]. lra. }
  assert (L4 : (1 <= (1 + x) * (1 + x) * ((1 + x) * (1 + 2 * x)) * G)%R).
  { apply Rmult_le_reg_r with Q; [exact Q0|]. rewrite Rmult_1_l. rewrite <- QQ at 1. apply (Rmult_le_compat_l G) in L2; [|lra]. lra. }
  assert (X0 : (0 < x)%R) by lra.
  apply Rabs_le. split.
  - assert (A : ((1 - 8 * x) * ((1 + x) * (1 + x) * ((1 + x) * (1 + 2 * x))) <= (1 - x) * (1 - x))%R).
    { assert (x * x <= x / 1024)%R by nra. assert (0 <= x * x)%R by nra. assert (0 <= x * x * x)%R by nra. assert (0 <= x * x * x * x)%R by nra.
      assert (0 <= x * x * x * x * x)%R by nra. lra. }
    assert (B : ((1 - x) * (1 - x) * G <= W)%R). { apply Rle_trans with (2 := proj1 WB). apply Rmult_le_compat_r; nra. }
    apply (Rmult_le_compat_r G) in A; [|lra]. apply (Rmult_le_compat_l (1 - 8 * x)) in L4; [|lra]. lra.
  - assert (A : ((1 + x) * (1 + x) <= (1 + 8 * x) * ((1 - x) * (1 - x) * ((1 - x) * (1 - x))))%R).
    { assert (x * x <= x / 1024)%R by nra. assert (0 <= x * x)%R by nra. assert (0 <= x * x * x <= x * x)%R by nra. assert (0 <= x * x * x * x <= x * x)%R by nra.
      assert (0 <= x * x * x * x * x)%R by nra. lra. }
    assert (B : (W <= (1 + x) * (1 + x) * G)%R). { apply Rle_trans with (1 := proj2 WB). apply Rmult_le_compat_r; nra. }
    apply (Rmult_le_compat_r G) in A; [|lra]. apply (Rmult_le_compat_l (1 + 8 * x)) in L3; [|lra]. lra.
Qed.
End Rand.
