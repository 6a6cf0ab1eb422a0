(** Facts about the numbers of Report.v: accuracy, sample numbers, brightness of printed pixels. *)
From Coq Require Import ZArith Bool Lia Reals Lra Psatz String Ascii List.
From Flocq Require Import Core BinarySingleNaN Plus_error.
From Verif Require Import Base Dim Matrix View Num Expr Spec Iter MatFacts MatThms ExprThms Batch Float32 FloatFacts Chars Double Bar BarFacts Stream Text TextFacts Model Mnist LayerFacts Report.
Import ListNotations.
Local Open Scope Z_scope.

Local Notation fexp32 := (SpecFloat.fexp 24 128).
Local Notation rnd32 := (round radix2 fexp32 ZnearestE).
Local Notation fexp64 := (SpecFloat.fexp prec emax).
Local Notation rnd64 := (round radix2 fexp64 ZnearestE).
#[local] Instance valid32 : Valid_exp fexp32 := fexp_correct 24 128 prec32.
#[local] Instance valid64 : Valid_exp fexp64 := fexp_correct prec emax prec_pos.

(** ** Operations whose results are not too large *)
Lemma mul64 : forall (x y : double) b, is_finite x = true -> is_finite y = true -> (0 <= B2R x * B2R y <= IZR b)%R -> 0 <= b < 2 ^ 53 ->
  is_finite (nmul x y) = true /\ B2R (nmul x y) = rnd64 (B2R x * B2R y).
Proof.
  intros x y b Fx Fy H B. cbn [nmul NumD]. pose proof (Bmult_correct prec emax prec_pos prec_emax mode_NE x y) as C. cbn [round_mode] in C.
  rewrite (small64 _ b) in C by assumption. destruct C as (C1 & C2 & _). split; [|exact C1]. rewrite C2, Fx, Fy. reflexivity.
Qed.
Lemma div64 : forall (x y : double) b, is_finite x = true -> B2R y <> 0%R -> (0 <= B2R x / B2R y <= IZR b)%R -> 0 <= b < 2 ^ 53 ->
  is_finite (ndiv x y) = true /\ B2R (ndiv x y) = rnd64 (B2R x / B2R y).
Proof.
  intros x y b Fx Ny H B. cbn [ndiv NumD]. pose proof (Bdiv_correct prec emax prec_pos prec_emax mode_NE x y Ny) as C. cbn [round_mode] in C.
  rewrite (small64 _ b) in C by assumption. destruct C as (C1 & C2 & _). split; [|exact C1]. rewrite C2. exact Fx.
Qed.
Lemma small32 : forall x, (Rabs x <= bpow radix2 64)%R -> Rlt_bool (Rabs (rnd32 x)) (bpow radix2 128) = true.
Proof.
  intros x H. apply Rlt_bool_true. apply Rle_lt_trans with (bpow radix2 64); [|apply bpow_lt; lia].
  apply abs_le32; [|exact H]. apply generic_format_bpow. rewrite fexp32_eq. lia.
Qed.
Lemma sub32 : forall (x y : f32), is_finite x = true -> is_finite y = true -> (Rabs (B2R x - B2R y) <= bpow radix2 64)%R ->
  is_finite (f32_sub x y) = true /\ B2R (f32_sub x y) = rnd32 (B2R x - B2R y).
Proof.
  intros x y Fx Fy H. unfold f32_sub. pose proof (Bminus_correct 24 128 prec32 emax32 mode_NE x y Fx Fy) as C. cbn [round_mode] in C.
  rewrite small32 in C by assumption. destruct C as (C1 & C2 & _). auto.
Qed.
Lemma mul32 : forall (x y : f32), is_finite x = true -> is_finite y = true -> (Rabs (B2R x * B2R y) <= bpow radix2 64)%R ->
  is_finite (f32_mul x y) = true /\ B2R (f32_mul x y) = rnd32 (B2R x * B2R y).
Proof.
  intros x y Fx Fy H. unfold f32_mul. pose proof (Bmult_correct 24 128 prec32 emax32 mode_NE x y) as C. cbn [round_mode] in C.
  rewrite small32 in C by assumption. destruct C as (C1 & C2 & _). split; [|exact C1]. rewrite C2, Fx, Fy. reflexivity.
Qed.
Lemma div32 : forall (x y : f32), is_finite x = true -> B2R y <> 0%R -> (Rabs (B2R x / B2R y) <= bpow radix2 64)%R ->
  is_finite (f32_div x y) = true /\ B2R (f32_div x y) = rnd32 (B2R x / B2R y).
Proof.
  intros x y Fx Ny H. unfold f32_div. pose proof (Bdiv_correct 24 128 prec32 emax32 mode_NE x y Ny) as C. cbn [round_mode] in C.
  rewrite small32 in C by assumption. destruct C as (C1 & C2 & _). split; [|exact C1]. rewrite C2. exact Fx.
Qed.
Lemma le64 : forall x, (Rabs x <= IZR (2 ^ 60))%R -> (Rabs x <= bpow radix2 64)%R.
Proof. intros x H. apply Rle_trans with (1 := H). change (bpow radix2 64) with (IZR (2 ^ 64)). apply IZR_le. lia. Qed.

(** ** Accuracy *)
Lemma four_format : forall z, Z.abs z <= 2 ^ 24 -> generic_format radix2 fexp32 (IZR (4 * z)).
Proof.
  intros z H. rewrite mult_IZR. change 4%R with (bpow radix2 2). rewrite Rmult_comm.
  destruct (Z.eq_dec (Z.abs z) (2 ^ 24)) as [D|D].
  - assert (G : generic_format radix2 fexp32 (bpow radix2 26)) by (apply generic_format_bpow; rewrite fexp32_eq; lia).
    assert (Hz : z = 2 ^ 24 \/ z = - 2 ^ 24) by lia. destruct Hz as [-> | ->].
    + change (IZR (2 ^ 24)) with (bpow radix2 24). rewrite <- bpow_plus. exact G.
    + rewrite opp_IZR. change (IZR (2 ^ 24)) with (bpow radix2 24). rewrite Ropp_mult_distr_l_reverse, <- bpow_plus. apply generic_format_opp. exact G.
  - change fexp32 with (FLT_exp (SpecFloat.emin 24 128) 24). apply generic_format_FLT. exists (Float radix2 z 2).
    + reflexivity.
    + cbn [Fnum]. change (radix2 ^ 24) with (2 ^ 24). lia.
    + cbn [Fexp]. unfold SpecFloat.emin. lia.
Qed.
Theorem accuracy_ok : forall c n, 0 <= c <= n -> 1 <= n -> 25 * n <= 2 ^ 24 ->
  is_finite (accuracy c n) = true /\ B2R (accuracy c n) = rnd32 (100 * IZR c / IZR n) /\ (0 <= B2R (accuracy c n) <= 100)%R.
Proof.
  intros c n Hc Hn B. change (2 ^ 24) with 16777216 in B. unfold accuracy.
  destruct (of_Z_exact 100) as [A1 A2]; [change (2 ^ 24) with 16777216; lia|]. destruct (of_Z_exact c) as [C1 C2]; [change (2 ^ 24) with 16777216; lia|].
  destruct (of_Z_exact n) as [N1 N2]; [change (2 ^ 24) with 16777216; lia|].
  assert (RC : (0 <= IZR c <= IZR n)%R) by (split; apply IZR_le; lia). assert (RN : (1 <= IZR n)%R) by (apply IZR_le; lia).
  assert (RM : (IZR n <= 16777216)%R) by (apply IZR_le; lia).
  destruct (mul32 (f32_of_Z 100) (f32_of_Z c) A2 C2) as [M1 M2].
  { apply le64. rewrite A1, C1, Rabs_pos_eq by lra. apply Rle_trans with (100 * 16777216)%R; [lra|]. rewrite <- mult_IZR. apply IZR_le. lia. }
  assert (M3 : B2R (f32_mul (f32_of_Z 100) (f32_of_Z c)) = (100 * IZR c)%R).
  { rewrite M2, A1, C1. apply round_generic; [typeclasses eauto|]. rewrite <- mult_IZR. replace (100 * c) with (4 * (25 * c)) by lia. apply four_format. change (2 ^ 24) with 16777216. lia. }
  assert (Q : (0 <= 100 * IZR c / IZR n <= 100)%R).
  { split; [apply Rmult_le_pos; [lra|]; apply Rlt_le, Rinv_0_lt_compat; lra|]. apply Rmult_le_reg_r with (IZR n); [lra|].
    unfold Rdiv. rewrite Rmult_assoc, Rinv_l by lra. lra. }
  destruct (div32 (f32_mul (f32_of_Z 100) (f32_of_Z c)) (f32_of_Z n) M1) as [D1 D2].
  - rewrite N1. lra.
  - apply le64. rewrite M3, N1, Rabs_pos_eq by lra. apply Rle_trans with 100%R; [lra|]. apply IZR_le. lia.
  - rewrite M3, N1 in D2. split; [exact D1|]. split; [exact D2|]. rewrite D2. apply rnd32_range; [apply generic_format_0| |exact Q].
    apply int_format. change (2 ^ 24) with 16777216. lia.
Qed.

(** ** Sample numbers *)
Section Index.
Context (rmax r n : Z) (RM : 1 <= rmax < 2 ^ 31) (HR : 0 <= r <= rmax) (HN : 0 <= n < 2 ^ 31).

Lemma quotient_ok : is_finite (ndiv (d_of_Z r) (d_of_Z rmax)) = true /\ B2R (ndiv (d_of_Z r) (d_of_Z rmax)) = rnd64 (IZR r / IZR rmax) /\ (0 <= IZR r / IZR rmax <= 1)%R.
Proof.
  destruct (d_of_Z_ok r) as [R1 R2]; [lia|]. destruct (d_of_Z_ok rmax) as [M1 M2]; [lia|].
  assert (P : (1 <= IZR rmax)%R) by (apply IZR_le; lia). assert (Q0 : (0 <= IZR r <= IZR rmax)%R) by (split; apply IZR_le; lia).
  assert (Q : (0 <= IZR r / IZR rmax <= 1)%R).
  { split; [apply Rmult_le_pos; [lra|]; apply Rlt_le, Rinv_0_lt_compat; lra|]. apply Rmult_le_reg_r with (IZR rmax); [lra|].
    unfold Rdiv. rewrite Rmult_assoc, Rinv_l by lra. lra. }
  destruct (div64 (d_of_Z r) (d_of_Z rmax) 1 R2) as [D1 D2]; [rewrite M1; lra|rewrite R1, M1; exact Q|lia|].
  rewrite R1, M1 in D2. auto.
Qed.
Lemma product_ok : let q := rnd64 (IZR r / IZR rmax) in
  (0 <= q <= 1)%R /\ sample_index rmax r n = Ok (Ztrunc (rnd64 (q * IZR n))) /\ (0 <= rnd64 (q * IZR n) <= IZR n)%R.
Proof.
  cbv zeta. destruct quotient_ok as (Q1 & Q2 & Q3). destruct (d_of_Z_ok n) as [N1 N2]; [lia|].
  assert (Q4 : (0 <= rnd64 (IZR r / IZR rmax) <= 1)%R).
  { apply rnd64_range; [apply generic_format_0| |exact Q3]. apply (int_format64 1). lia. }
  set (q := rnd64 (IZR r / IZR rmax)) in *. assert (PN : (0 <= IZR n)%R) by (apply IZR_le; lia).
  assert (B : (0 <= q * IZR n <= IZR n)%R) by nra.
  destruct (mul64 (ndiv (d_of_Z r) (d_of_Z rmax)) (d_of_Z n) n Q1 N2) as [M1 M2]; [rewrite Q2, N1; exact B|lia|].
  rewrite Q2, N1 in M2.
  assert (RB : (0 <= rnd64 (q * IZR n) <= IZR n)%R) by (apply rnd64_range; [apply generic_format_0|apply int_format64; lia|exact B]).
  split; [exact Q4|]. split; [|exact RB]. unfold sample_index, to_int. rewrite truncated_ok by exact M1. rewrite M2.
  destruct (trunc_range (rnd64 (q * IZR n)) 0 n RB) as [T1 T2]; [lia|]. apply i32_ok. unfold two31. lia.
Qed.

(** Every result of rand() below RAND_MAX gives the number of an image. *)
Theorem sample_index_ok : r < rmax -> 1 <= n -> exists k, sample_index rmax r n = Ok k /\ 0 <= k < n.
Proof.
  intros LT N1. destruct product_ok as (Q & SI & RB). eexists. split; [exact SI|].
  assert (P : (1 <= IZR rmax)%R) by (apply IZR_le; lia). assert (PM : (IZR rmax <= 2147483648)%R) by (apply IZR_le; lia).
  assert (PN : (1 <= IZR n)%R) by (apply IZR_le; lia).
  assert (D : (rnd64 (IZR r / IZR rmax) <= 1 - / 2147483648)%R).
  { apply round_le_generic; [typeclasses eauto..| |].
    - replace (1 - / 2147483648)%R with (IZR 2147483647 * bpow radix2 (-31))%R; [apply dyadic_format; lia|]. change (bpow radix2 (-31)) with (/ 2147483648)%R. lra.
    - assert (A : (IZR r <= IZR rmax - 1)%R) by (rewrite <- minus_IZR; apply IZR_le; lia).
      apply Rle_trans with ((IZR rmax - 1) / IZR rmax)%R.
      + apply Rmult_le_compat_r; [apply Rlt_le, Rinv_0_lt_compat; lra|exact A].
      + unfold Rdiv. rewrite Rmult_minus_distr_r, Rinv_r, Rmult_1_l by lra. assert (/ 2147483648 <= / IZR rmax)%R by (apply Rinv_le_contravar; lra). lra. }
  set (q := rnd64 (IZR r / IZR rmax)) in *.
  assert (S : exists b, (b < IZR n)%R /\ generic_format radix2 fexp64 b /\ (q * IZR n <= b)%R).
  { destruct (Z.lt_ge_cases n 512) as [L|L].
    - exists (IZR n - / 2147483648)%R. assert (L' : (IZR n <= 512)%R) by (apply IZR_le; lia). split; [lra|]. split.
      + replace (IZR n - / 2147483648)%R with (IZR (n * 2147483648 - 1) * bpow radix2 (-31))%R; [apply dyadic_format; lia|].
        rewrite minus_IZR, mult_IZR. change (bpow radix2 (-31)) with (/ 2147483648)%R. lra.
      + nra.
    - exists (IZR n - / 4194304)%R. assert (L' : (512 <= IZR n)%R) by (apply IZR_le; lia). split; [lra|]. split.
      + replace (IZR n - / 4194304)%R with (IZR (n * 4194304 - 1) * bpow radix2 (-22))%R; [apply dyadic_format; lia|].
        rewrite minus_IZR, mult_IZR. change (bpow radix2 (-22)) with (/ 4194304)%R. lra.
      + nra. }
  destruct S as (b & S1 & S2 & S3).
  assert (U : (rnd64 (q * IZR n) <= b)%R) by (apply round_le_generic; [typeclasses eauto..|exact S2|exact S3]).
  rewrite Ztrunc_floor by lra. split; [apply Zfloor_lub; lra|]. apply lt_IZR. apply Rle_lt_trans with (1 := Zfloor_lb _). lra.
Qed.
(** RAND_MAX itself gives a number that is one too large. *)
Theorem sample_index_max : r = rmax -> sample_index rmax r n = Ok n.
Proof.
  intros EQ. destruct product_ok as (Q & SI & RB). rewrite SI. clear Q SI RB. rewrite EQ.
  assert (P : (1 <= IZR rmax)%R) by (apply IZR_le; lia). replace (IZR rmax / IZR rmax)%R with 1%R by (field; lra).
  rewrite (round_generic radix2 fexp64 ZnearestE 1) by (apply (int_format64 1); lia). rewrite Rmult_1_l.
  rewrite round_generic; [rewrite Ztrunc_IZR; reflexivity|typeclasses eauto|apply int_format64; lia].
Qed.
(** For up to 2^20 images the number is that of exact arithmetic (if that is not on the border between two numbers). *)
Theorem sample_index_exact : n <= 2 ^ 20 -> r < rmax -> (r * n) mod rmax <> 0 -> sample_index rmax r n = Ok (r * n / rmax).
Proof.
  intros N20 LT ND. destruct product_ok as (Q & SI & RB). destruct quotient_ok as (_ & _ & Q3). rewrite SI. f_equal.
  assert (P : (1 <= IZR rmax)%R) by (apply IZR_le; lia). assert (PM : (IZR rmax <= 2147483647)%R) by (apply IZR_le; lia).
  assert (PN : (0 <= IZR n <= 1048576)%R) by (split; apply IZR_le; lia).
  set (x := (IZR r / IZR rmax)%R) in *. set (q := rnd64 x) in *.
  assert (UB : forall y, (0 <= y <= 1048576)%R -> (Rabs (rnd64 y - y) <= bpow radix2 (-33))%R).
  { intros y Hy. destruct (Req_dec y 0) as [->|NZ]; [rewrite round_0 by typeclasses eauto; rewrite Rminus_0_r, Rabs_R0; apply bpow_ge_0|].
    apply Rle_trans with (/ 2 * ulp radix2 fexp64 y)%R; [apply error_le_half_ulp; typeclasses eauto|].
    rewrite ulp_neq_0 by exact NZ. unfold cexp. change (/ 2)%R with (bpow radix2 (-1)). rewrite <- bpow_plus. apply bpow_le. rewrite fexp64_eq.
    assert (mag radix2 y <= 21)%Z; [|lia]. apply mag_le_bpow; [exact NZ|]. rewrite Rabs_pos_eq by lra. change (bpow radix2 21) with 2097152%R. lra. }
  assert (UQ : (Rabs (q - x) <= bpow radix2 (-54))%R).
  { destruct (Req_dec x 0) as [E|NZ]; [unfold q; rewrite E, round_0 by typeclasses eauto; rewrite Rminus_0_r, Rabs_R0; apply bpow_ge_0|].
    assert (LX : (x < 1)%R). { unfold x. apply Rmult_lt_reg_r with (IZR rmax); [lra|]. unfold Rdiv. rewrite Rmult_assoc, Rinv_l by lra. rewrite Rmult_1_r, Rmult_1_l. apply IZR_lt. lia. }
    apply Rle_trans with (/ 2 * ulp radix2 fexp64 x)%R; [apply error_le_half_ulp; typeclasses eauto|].
    rewrite ulp_neq_0 by exact NZ. unfold cexp. change (/ 2)%R with (bpow radix2 (-1)). rewrite <- bpow_plus. apply bpow_le. rewrite fexp64_eq.
    assert (mag radix2 x <= 0)%Z; [|lia]. apply mag_le_bpow; [exact NZ|]. rewrite Rabs_pos_eq by lra. exact LX. }
  assert (QN : (0 <= q * IZR n <= 1048576)%R) by nra. pose proof (UB _ QN) as UP.
  change (bpow radix2 (-33)) with (/ 8589934592)%R in UP. change (bpow radix2 (-54)) with (/ 18014398509481984)%R in UQ.
  apply Rabs_le_inv in UP. apply Rabs_le_inv in UQ.
  assert (XN : (x * IZR n = IZR (r * n) / IZR rmax)%R) by (unfold x; rewrite mult_IZR; field; lra).
  pose proof (Z.div_mod (r * n) rmax ltac:(lia)) as DM. pose proof (Z.mod_pos_bound (r * n) rmax ltac:(lia)) as MB.
  set (k := r * n / rmax) in *. set (m := (r * n) mod rmax) in *.
  assert (K0 : 0 <= k) by (apply Z.div_pos; nia).
  assert (XK : (IZR (r * n) / IZR rmax = IZR k + IZR m / IZR rmax)%R) by (rewrite DM, plus_IZR, mult_IZR; field; lra).
  assert (M1 : (1 <= IZR m <= IZR rmax - 1)%R) by (split; [apply IZR_le; lia|rewrite <- minus_IZR; apply IZR_le; lia]).
  assert (F : (/ 2147483647 <= IZR m / IZR rmax <= 1 - / 2147483647)%R).
  { assert (I : (/ 2147483647 <= / IZR rmax)%R) by (apply Rinv_le_contravar; lra). assert (I0 : (0 < / IZR rmax)%R) by (apply Rinv_0_lt_compat; lra).
    assert (IM : (IZR rmax * / IZR rmax = 1)%R) by (apply Rinv_r; lra). unfold Rdiv. split; nra. }
  apply trunc_nonneg; [|exact K0]. rewrite XK in XN.
  assert (E1 : (- / 17179869184 <= q * IZR n - x * IZR n <= / 17179869184)%R) by (split; nra). rewrite XN in E1. lra.
Qed.
End Index.

(** ** Brightness *)
(** The code of a pixel with value [v] in exact terms, when the range of values is [m] to [M] *)
Definition gcode (M m v : R) : Z :=
  Ztrunc (rnd64 (rnd64 (rnd32 (M * rnd32 (1 - rnd32 (rnd32 (M - v) / rnd32 (M - m)))) / M) * 255)).

Section Gray.
Context (maxv minv : f32) (F1 : is_finite maxv = true) (F2 : is_finite minv = true).
Local Notation M := (B2R maxv).
Local Notation m := (B2R minv).
Context (HM : (1 <= M <= 16777216)%R) (Hm : (- 16777216 <= m < M)%R).

Lemma range_pos : (0 < rnd32 (M - m) <= 33554432)%R.
Proof.
  assert (B : (0 <= M - m <= 33554432)%R) by lra.
  assert (R0 : (0 <= rnd32 (M - m) <= 33554432)%R).
  { apply rnd32_range; [apply generic_format_0| |exact B]. change 33554432%R with (bpow radix2 25). apply generic_format_bpow. rewrite fexp32_eq. lia. }
  assert (NZ : rnd32 (M - m) <> 0%R); [|lra].
  unfold Rminus. apply round_plus_neq_0; try typeclasses eauto.
  - change (generic_format radix2 fexp32 M). apply generic_format_B2R.
  - change (generic_format radix2 fexp32 (- m)). apply generic_format_opp, generic_format_B2R.
  - lra.
Qed.

Lemma quot_range : forall v, (m <= v <= M)%R -> (0 <= rnd32 (rnd32 (M - v) / rnd32 (M - m)) <= 1)%R /\ (0 <= rnd32 (M - v) / rnd32 (M - m) <= 1)%R
  /\ (0 <= rnd32 (M - v) <= rnd32 (M - m))%R.
Proof.
  intros v Hv. pose proof range_pos as RP.
  assert (D : (0 <= rnd32 (M - v) <= rnd32 (M - m))%R).
  { split; [apply round_ge_generic; [typeclasses eauto..|apply generic_format_0|lra]|apply round_le; [typeclasses eauto..|lra]]. }
  assert (Q : (0 <= rnd32 (M - v) / rnd32 (M - m) <= 1)%R).
  { split; [apply Rmult_le_pos; [lra|]; apply Rlt_le, Rinv_0_lt_compat; lra|]. apply Rmult_le_reg_r with (rnd32 (M - m)); [lra|].
    unfold Rdiv. rewrite Rmult_assoc, Rinv_l by lra. lra. }
  split; [|auto]. apply rnd32_range; [apply generic_format_0|apply (int_format 1); lia|exact Q].
Qed.

Lemma share_range : forall v, (m <= v <= M)%R -> (0 <= rnd32 (1 - rnd32 (rnd32 (M - v) / rnd32 (M - m))) <= 1)%R.
Proof. intros v Hv. destruct (quot_range v Hv) as (Q & _). apply rnd32_range; [apply generic_format_0|apply (int_format 1); lia|lra]. Qed.

Lemma mapped_range : forall v, (m <= v <= M)%R -> let s := rnd32 (1 - rnd32 (rnd32 (M - v) / rnd32 (M - m))) in
  (0 <= M * s <= M)%R /\ (0 <= rnd32 (M * s) <= M)%R /\ (0 <= rnd32 (M * s) / M <= 1)%R /\ (0 <= rnd64 (rnd32 (M * s) / M) <= 1)%R /\
  (0 <= rnd64 (rnd64 (rnd32 (M * s) / M) * 255) <= 255)%R.
Proof.
  intros v Hv s. pose proof (share_range v Hv) as S. fold s in S.
  assert (A1 : (0 <= M * s <= M)%R) by nra. assert (A2 : (0 <= rnd32 (M * s) <= M)%R) by (apply rnd32_range; [apply generic_format_0|apply generic_format_B2R|exact A1]).
  assert (A3 : (0 <= rnd32 (M * s) / M <= 1)%R).
  { split; [apply Rmult_le_pos; [lra|]; apply Rlt_le, Rinv_0_lt_compat; lra|]. apply Rmult_le_reg_r with M; [lra|].
    unfold Rdiv. rewrite Rmult_assoc, Rinv_l by lra. lra. }
  assert (A4 : (0 <= rnd64 (rnd32 (M * s) / M) <= 1)%R) by (apply rnd64_range; [apply generic_format_0|apply (int_format64 1); lia|exact A3]).
  repeat (match goal with |- _ /\ _ => split end); try lra; apply (rnd64_range _ 0 255); try apply generic_format_0; try (apply (int_format64 255); lia); lra.
Qed.

Lemma gray_code_ok : forall v, is_finite v = true -> (m <= B2R v <= M)%R ->
  gray_code maxv minv v = Ok (gcode M m (B2R v)) /\ 0 <= gcode M m (B2R v) <= 255.
Proof.
  intros v FV Hv. pose proof range_pos as RP. destruct (quot_range _ Hv) as (Q1 & Q2 & Q3). pose proof (share_range _ Hv) as S1.
  destruct (mapped_range _ Hv) as (A1 & A2 & A3 & A4 & A5).
  assert (GB : 0 <= gcode M m (B2R v) <= 255) by (unfold gcode; apply trunc_range; [exact A5|lia]). split; [|exact GB].
  unfold gray_code. cbv zeta.
  destruct (sub32 maxv minv F1 F2) as [R1 R2]; [apply le64; rewrite Rabs_pos_eq by lra; apply Rle_trans with 33554432%R; [lra|apply IZR_le; lia]|].
  destruct (sub32 maxv v F1 FV) as [D1 D2]; [apply le64; rewrite Rabs_pos_eq by lra; apply Rle_trans with 33554432%R; [lra|apply IZR_le; lia]|].
  destruct (div32 (f32_sub maxv v) (f32_sub maxv minv) D1) as [E1 E2]; [rewrite R2; lra|rewrite D2, R2; apply le64; rewrite Rabs_pos_eq by lra; apply Rle_trans with 1%R; [lra|apply IZR_le; lia]|].
  rewrite D2, R2 in E2. destruct (of_Z_exact 1) as [O1 O2]; [lia|].
  destruct (sub32 (f32_of_Z 1) _ O2 E1) as [S2 S3]; [rewrite O1, E2; apply le64; rewrite Rabs_pos_eq by lra; apply Rle_trans with 1%R; [lra|apply IZR_le; lia]|].
  rewrite O1, E2 in S3.
  destruct (mul32 maxv _ F1 S2) as [M1 M2]; [rewrite S3; apply le64; rewrite Rabs_pos_eq by lra; apply Rle_trans with 16777216%R; [lra|apply IZR_le; lia]|].
  rewrite S3 in M2. set (mapped := f32_mul maxv _) in *.
  destruct (d_of_f32_ok mapped M1) as [P1 P2]. destruct (d_of_f32_ok maxv F1) as [T1 T2]. rewrite M2 in P1.
  destruct (div64 (d_of_f32 mapped) (d_of_f32 maxv) 1) as [G1 G2]; [assumption|rewrite T1; lra|rewrite P1, T1; exact A3|lia|]. rewrite P1, T1 in G2.
  destruct (d_of_Z_ok 255) as [K1 K2]; [lia|].
  destruct (mul64 (ndiv (d_of_f32 mapped) (d_of_f32 maxv)) (d_of_Z 255) 255 G1 K2) as [H1 H2]; [rewrite G2, K1; lra|lia|]. rewrite G2, K1 in H2.
  unfold min255. rewrite Bltb_correct by assumption. rewrite Rlt_bool_false by (rewrite H2, K1; lra).
  unfold to_uchar. rewrite truncated_ok by exact H1. rewrite H2. change (Ztrunc _) with (gcode M m (B2R v)).
  destruct (0 <=? gcode M m (B2R v)) eqn:L1; [|lia]. destruct (gcode M m (B2R v) <? 256) eqn:L2; [|lia]. reflexivity.
Qed.

(** Brighter pixels have no smaller codes; the smallest value is black, the value [M] is white. *)
Lemma gcode_mono : forall v w, (m <= v <= w)%R -> (w <= M)%R -> gcode M m v <= gcode M m w.
Proof.
  intros v w H1 H2. pose proof range_pos as RP. assert (HI : (0 <= / M)%R) by (apply Rlt_le, Rinv_0_lt_compat; lra).
  assert (RI : (0 <= / rnd32 (M - m))%R) by (apply Rlt_le, Rinv_0_lt_compat; lra).
  unfold gcode. apply Ztrunc_le. apply round_le; [typeclasses eauto..|]. apply Rmult_le_compat_r; [lra|]. apply round_le; [typeclasses eauto..|].
  apply Rmult_le_compat_r; [exact HI|]. apply round_le; [typeclasses eauto..|]. apply Rmult_le_compat_l; [lra|]. apply round_le; [typeclasses eauto..|].
  apply Rplus_le_compat_l, Ropp_le_contravar. apply round_le; [typeclasses eauto..|]. apply Rmult_le_compat_r; [exact RI|]. apply round_le; [typeclasses eauto..|]. lra.
Qed.
Lemma gcode_min : gcode M m m = 0.
Proof.
  pose proof range_pos as RP. unfold gcode. unfold Rdiv at 2. rewrite Rinv_r by lra.
  rewrite (round_generic radix2 fexp32 ZnearestE 1) by (apply (int_format 1); lia).
  rewrite Rminus_eq_0, round_0 by typeclasses eauto. rewrite Rmult_0_r, round_0 by typeclasses eauto. unfold Rdiv. rewrite Rmult_0_l, round_0 by typeclasses eauto.
  rewrite Rmult_0_l, round_0 by typeclasses eauto. apply (Ztrunc_IZR 0).
Qed.
Lemma gcode_max : gcode M m M = 255.
Proof.
  pose proof range_pos as RP. unfold gcode. rewrite Rminus_eq_0, round_0 by typeclasses eauto. unfold Rdiv. rewrite Rmult_0_l, round_0 by typeclasses eauto.
  rewrite Rminus_0_r, (round_generic radix2 fexp32 ZnearestE 1) by (apply (int_format 1); lia). rewrite Rmult_1_r.
  rewrite (round_generic radix2 fexp32 ZnearestE M) by apply generic_format_B2R. rewrite Rinv_r by lra.
  rewrite (round_generic radix2 fexp64 ZnearestE 1) by (apply (int_format64 1); lia). rewrite Rmult_1_l.
  rewrite round_generic; [apply (Ztrunc_IZR 255)|typeclasses eauto|apply (int_format64 255); lia].
Qed.
End Gray.

(** An image whose largest and smallest values coincide and are at least 1 has no brightness: 0 is divided by 0. *)
Lemma gray_code_const : forall (v : f32), is_finite v = true -> gray_code v v v = UB.
Proof.
  intros v F. unfold gray_code. cbv zeta.
  assert (Z0 : exists s, f32_sub v v = B754_zero s).
  { destruct (sub32 v v F F) as [A1 A2]; [rewrite Rminus_eq_0, Rabs_R0; apply bpow_ge_0|]. rewrite Rminus_eq_0, round_0 in A2 by typeclasses eauto.
    destruct (f32_sub v v) as [s|s| |s k e p]; [eauto|discriminate|discriminate|]. exfalso. cbn [B2R] in A2.
    apply eq_0_F2R in A2. cbn in A2. destruct s; discriminate. }
  destruct Z0 as [s ->]. destruct v as [s'|s'| |s' k e p]; try discriminate; destruct s; destruct s'; reflexivity.
Qed.

(** ** Largest and smallest element of an image without NaNs and infinities *)
Lemma extremum_key : forall {S T} {N : Num T} (better : T -> T -> bool) (key : T -> R) (a : lz S T) s d f, is_lz a s d f -> fits d -> pos d ->
  (forall x y z x' y' z', inb d x y z -> inb d x' y' z' -> better (f x y z) (f x' y' z') = Rlt_bool (key (f x' y' z')) (key (f x y z))) ->
  exists x y z, inb d x y z /\ extremum better a s = Ok (Some (lin d x y z, D3 x y z, f x y z)) /\
    (forall x' y' z', inb d x' y' z' -> (key (f x' y' z') <= key (f x y z))%R) /\
    (forall x' y' z', inb d x' y' z' -> lin d x' y' z' < lin d x y z -> (key (f x' y' z') < key (f x y z))%R).
Proof.
  intros S T N better key a s d f (D & V) HF HP BK. unfold extremum. rewrite D. rewrite it_loop_iter by (apply pos_iterable; assumption).
  set (E := elem_no d f).
  assert (BE : forall i j, 0 <= i < vol d -> 0 <= j < vol d -> better (E i) (E j) = Rlt_bool (key (E j)) (key (E i))).
  { intros i j Hi Hj. destruct (position_case d i HF Hi) as (x & y & z & I1 & -> & _). destruct (position_case d j HF Hj) as (x' & y' & z' & I2 & -> & _).
    unfold E. rewrite !elem_no_lin by assumption. auto. }
  destruct (mfor_inv (fun k (b : option (Z * dim3 * T)) =>
      (k = 0 /\ b = None) \/ (0 < k /\ exists j, 0 <= j < k /\ b = Some (j, idx_of (dx d) (dy d) j, E j) /\
         (forall i, 0 <= i < k -> (key (E i) <= key (E j))%R) /\ (forall i, 0 <= i < j -> (key (E i) < key (E j))%R)))
    (fun k => (fun k i => fun best =>
     match lget a s i with
     | Ok x => match best with
               | None => ORet (Some (k, i, x)) tt
               | Some (k0, i0, b) => if better x b then ORet (Some (k, i, x)) tt else ORet best tt
               end
     | Throw e => OThrow best e
     | UB => OUB
     end) k (idx_of (dx d) (dy d) k)) (vol d) None) as (r & R1 & R2).
  - apply fits_vol. assumption.
  - intros k b Hk HI. destruct (position_case d k HF Hk) as (x & y & z & Hi & Hl & Ei). rewrite Ei. cbv beta. rewrite V by assumption.
    assert (EK : E k = f x y z) by (subst k; unfold E; apply elem_no_lin; assumption).
    destruct HI as [(-> & ->)|(Hk0 & j & Hj & -> & Mx & Fi)].
    + eexists. split; [reflexivity|]. right. split; [lia|]. exists 0. rewrite Ei, EK. split; [lia|]. split; [reflexivity|].
      split; [intros i Hi0; replace i with 0 by lia; rewrite EK; lra|intros; lia].
    + rewrite <- EK. rewrite BE by lia. destruct (Rlt_bool_spec (key (E j)) (key (E k))) as [B|B].
      * eexists. split; [reflexivity|]. right. split; [lia|]. exists k. rewrite Ei. split; [lia|]. split; [reflexivity|].
        split; [intros i Hi0; destruct (Z.eq_dec i k) as [->|]; [lra|]; specialize (Mx i ltac:(lia)); lra|]. intros i Hi0. specialize (Mx i ltac:(lia)). lra.
      * eexists. split; [reflexivity|]. right. split; [lia|]. exists j. split; [lia|]. split; [reflexivity|].
        split; [intros i Hi0; destruct (Z.eq_dec i k) as [->|]; [assumption|]; apply Mx; lia|exact Fi].
  - left. auto.
  - assert (HV : 0 < vol d). { unfold vol. destruct HP as (A & B & C). assert (0 < dx d * dy d) by nia. nia. }
    destruct R2 as [(H0 & _)|(_ & j & Hj & -> & Mx & Fi)]; [lia|].
    destruct (position_case d j HF Hj) as (x & y & z & Hi & -> & Ei).
    exists x, y, z. split; [assumption|]. rewrite Ei in R1. unfold E in R1, Mx, Fi. rewrite elem_no_lin in R1 by assumption.
    split; [cbv beta in R1; rewrite R1; reflexivity|].
    split; intros x' y' z' Hi'.
    + specialize (Mx (lin d x' y' z') (lin_range _ _ _ _ Hi')). rewrite !elem_no_lin in Mx by assumption. exact Mx.
    + intros L. pose proof (lin_range _ _ _ _ Hi'). specialize (Fi (lin d x' y' z') ltac:(lia)). rewrite !elem_no_lin in Fi by assumption. exact Fi.
Qed.

Section Image.
Context (m : mat f32) (d : dim3) (f : Z -> Z -> Z -> f32) (IM : is_mat m d f) (HF : fits d) (HP : pos d)
  (FIN : forall x y z, inb d x y z -> is_finite (f x y z) = true).

Lemma mmax_f32 : exists x y z, inb d x y z /\ mmax (l_val m) tt = Ok (f x y z) /\ forall x' y' z', inb d x' y' z' -> (B2R (f x' y' z') <= B2R (f x y z))%R.
Proof.
  destruct (extremum_key (T := f32) lt_max B2R (l_val m) tt d f (is_mat_lz m d f tt IM HF) HF HP) as (x & y & z & I & Q & Mx & _).
  - intros. unfold lt_max. cbn [nltb NumF]. apply Bltb_correct; auto.
  - exists x, y, z. split; [exact I|]. split; [unfold mmax; rewrite Q; reflexivity|exact Mx].
Qed.
Lemma mmin_f32 : exists x y z, inb d x y z /\ mmin (l_val m) tt = Ok (f x y z) /\ forall x' y' z', inb d x' y' z' -> (B2R (f x y z) <= B2R (f x' y' z'))%R.
Proof.
  destruct (extremum_key (T := f32) lt_min (fun v => - B2R v)%R (l_val m) tt d f (is_mat_lz m d f tt IM HF) HF HP) as (x & y & z & I & Q & Mx & _).
  - intros. unfold lt_min. cbn [nltb NumF]. rewrite Bltb_correct by auto. destruct (Rlt_bool_spec (B2R (f x y z)) (B2R (f x' y' z'))), (Rlt_bool_spec (- B2R (f x' y' z')) (- B2R (f x y z))); try reflexivity; exfalso; lra.
  - exists x, y, z. split; [exact I|]. split; [unfold mmin; rewrite Q; reflexivity|]. intros x' y' z' I'. specialize (Mx x' y' z' I'). lra.
Qed.

(** The largest value is at least 1 for printImage. *)
Lemma white : exists maxv, is_finite maxv = true /\ (forall o, print_image m o = (if dz d =? 3 then print_color m maxv else print_bw m maxv) o) /\
  (forall x y z, inb d x y z -> (B2R (f x y z) <= B2R maxv)%R) /\ (1 <= B2R maxv)%R /\
  (B2R maxv = 1%R \/ exists x y z, inb d x y z /\ maxv = f x y z).
Proof.
  destruct mmax_f32 as (x & y & z & I & Q & Mx). destruct (of_Z_exact 1) as [O1 O2]; [lia|].
  assert (LT : Bltb (f x y z) (f32_of_Z 1) = Rlt_bool (B2R (f x y z)) 1) by (rewrite Bltb_correct by auto; rewrite O1; reflexivity).
  destruct (Rlt_bool_spec (B2R (f x y z)) 1) as [L|L].
  - exists (f32_of_Z 1). split; [exact O2|]. split; [intros o; unfold print_image, bind, lift; rewrite Q; cbv zeta; rewrite LT, (is_mat_dim _ _ _ IM); reflexivity|]. rewrite O1.
    split; [intros x' y' z' I'; specialize (Mx x' y' z' I'); lra|]. split; [lra|auto].
  - exists (f x y z). split; [auto|]. split; [intros o; unfold print_image, bind, lift; rewrite Q; cbv zeta; rewrite LT, (is_mat_dim _ _ _ IM); reflexivity|].
    split; [exact Mx|]. split; [exact L|]. right. eauto 6.
Qed.

(** The lines of a picture with the brightness [c x y] of row [x] and column [y] *)
Definition picture (c : Z -> Z -> Z) : text :=
  cat (dx d) (fun x =>
    cat (dy d) (fun y => esc ++ lit "[48;2;" ++ dec (c x y) ++ lit ";" ++ dec (c x y) ++ lit ";" ++ dec (c x y) ++ lit "m  ") ++
    esc ++ lit "[0m" ++ nl).

Lemma first_layer : forall x y, 0 <= x < dx d -> 0 <= y < dy d -> inb d x y 0.
Proof. intros x y X Y. destruct HP as (_ & _ & H). repeat split; lia. Qed.

Theorem print_gray_ok : forall o, dz d <> 3 -> (forall x y z, inb d x y z -> (Rabs (B2R (f x y z)) <= 16777216)%R) ->
  (exists x y z, inb d x y z /\ (B2R (f x y z) < 1 \/ exists x' y' z', inb d x' y' z' /\ (B2R (f x y z) < B2R (f x' y' z')))%R) ->
  exists c, print_image m o = ORet (o ++ picture c) tt /\
    (forall x y, 0 <= x < dx d -> 0 <= y < dy d -> 0 <= c x y <= 255) /\
    (forall x y x' y', 0 <= x < dx d -> 0 <= y < dy d -> 0 <= x' < dx d -> 0 <= y' < dy d -> (B2R (f x y 0) <= B2R (f x' y' 0))%R -> c x y <= c x' y') /\
    (forall x y, 0 <= x < dx d -> 0 <= y < dy d -> (forall x' y' z', inb d x' y' z' -> B2R (f x y 0) <= B2R (f x' y' z'))%R -> c x y = 0) /\
    (forall x y, 0 <= x < dx d -> 0 <= y < dy d -> (1 <= B2R (f x y 0))%R -> (forall x' y' z', inb d x' y' z' -> B2R (f x' y' z') <= B2R (f x y 0))%R -> c x y = 255).
Proof.
  intros o D3' BD NC. destruct white as (maxv & FM & K & Mx & M1 & ME). destruct mmin_f32 as (a & b & e & I & Q & Mn).
  assert (MB : (B2R maxv <= 16777216)%R).
  { destruct ME as [-> |(x & y & z & J & ->)]; [lra|]. specialize (BD _ _ _ J). apply Rabs_le_inv in BD. lra. }
  assert (LT : (B2R (f a b e) < B2R maxv)%R).
  { destruct NC as (x & y & z & J & [L|(x' & y' & z' & J' & L)]); [specialize (Mn _ _ _ J); lra|]. specialize (Mn _ _ _ J). specialize (Mx _ _ _ J'). lra. }
  assert (LB : (- 16777216 <= B2R (f a b e))%R) by (specialize (BD _ _ _ I); apply Rabs_le_inv in BD; lra).
  pose proof (FIN _ _ _ I) as FM2.
  exists (fun x y => gcode (B2R maxv) (B2R (f a b e)) (B2R (f x y 0))).
  assert (R : forall x y z, inb d x y z -> (B2R (f a b e) <= B2R (f x y z) <= B2R maxv)%R) by (intros x y z J; split; auto).
  split.
  { rewrite K. destruct (dz d =? 3) eqn:DZ; [lia|].
    unfold print_bw. rewrite (is_mat_dim _ _ _ IM). unfold bind at 1, lift at 1. rewrite Q. unfold picture. apply mfor_emit.
    intros x o' X. unfold bind at 1. rewrite (mfor_emit (dy d) _ (fun y => gray_cell (gcode (B2R maxv) (B2R (f a b e)) (B2R (f x y 0))))).
    - unfold emit. rewrite app_assoc. reflexivity.
    - intros y o2 Y. pose proof (first_layer x y X Y) as J. unfold bind, lift. rewrite (is_mat_read m d f x y 0 IM HF J).
      destruct (gray_code_ok maxv (f a b e) FM FM2 ltac:(lra) ltac:(lra) (f x y 0) (FIN _ _ _ J) (R _ _ _ J)) as [-> _]. reflexivity. }
  split; [intros x y X Y; apply (gray_code_ok maxv (f a b e) FM FM2 ltac:(lra) ltac:(lra) (f x y 0)); [apply FIN|apply R]; apply first_layer; assumption|].
  split; [|split].
  - intros x y x' y' X Y X' Y' L. apply gcode_mono; try lra; try assumption; pose proof (R _ _ _ (first_layer x y X Y)); pose proof (R _ _ _ (first_layer x' y' X' Y')); lra.
  - intros x y X Y L. assert (Q0 : B2R (f x y 0) = B2R (f a b e)) by (apply Rle_antisym; [apply L; assumption|apply Mn, first_layer; assumption]). rewrite Q0. apply gcode_min; try assumption; lra.
  - intros x y X Y L1 L. assert (Q0 : B2R (f x y 0) = B2R maxv).
    { apply Rle_antisym; [apply Mx, first_layer; assumption|]. destruct ME as [-> |(x' & y' & z' & J & ->)]; [exact L1|apply L; exact J]. }
    rewrite Q0. apply gcode_max; try assumption; lra.
Qed.

(** If all values are the same and at least 1, printing is undefined. *)
Theorem print_gray_const : forall o v, dz d <> 3 -> (forall x y z, inb d x y z -> f x y z = v) -> (1 <= B2R v)%R -> print_image m o = OUB.
Proof.
  intros o v D3' EQ V1. destruct white as (maxv & FM & K & Mx & M1 & ME). destruct mmin_f32 as (a & b & e & I & Q & Mn).
  rewrite (EQ _ _ _ I) in Q. assert (FV : is_finite v = true) by (rewrite <- (EQ _ _ _ I); auto).
  unfold print_image.
  assert (MX : mmax (l_val m) tt = Ok v) by (destruct mmax_f32 as (x & y & z & J & -> & _); rewrite (EQ _ _ _ J); reflexivity).
  unfold bind at 1, lift at 1. rewrite MX. cbv zeta. destruct (of_Z_exact 1) as [O1 O2]; [lia|].
  rewrite Bltb_correct by assumption. rewrite Rlt_bool_false by (rewrite O1; exact V1). rewrite (is_mat_dim _ _ _ IM). destruct (dz d =? 3) eqn:DZ; [lia|].
  unfold print_bw. rewrite (is_mat_dim _ _ _ IM). unfold bind at 1, lift at 1. rewrite Q.
  destruct HP as (P1 & P2 & P3). unfold mfor. destruct (Z.to_nat (dx d)) as [|nx] eqn:NX; [lia|]. cbn [mfor_n]. unfold bind at 1.
  unfold bind at 1. destruct (Z.to_nat (dy d)) as [|ny] eqn:NY; [lia|]. cbn [mfor_n]. unfold bind at 1. unfold bind at 1. unfold lift at 1.
  assert (J : inb d 0 0 0) by (repeat split; lia). rewrite (is_mat_read m d f 0 0 0 IM HF J). rewrite (EQ _ _ _ J). unfold bind at 1, lift at 1.
  rewrite gray_code_const by exact FV. reflexivity.
Qed.

(** Colour images: the first three layers are the parts of red, green and blue. *)
Definition colour_cell (c : Z -> Z) : text := (esc ++ lit "[48;2") ++ cat 3 (fun z => lit ";" ++ dec (c z)) ++ lit "m   ".
Definition colour_picture (c : Z -> Z -> Z -> Z) : text := cat (dx d) (fun x => cat (dy d) (fun y => colour_cell (c x y)) ++ esc ++ lit "[0m" ++ nl).

Theorem print_color_ok : forall o, dz d = 3 -> (forall x y z, inb d x y z -> (0 <= B2R (f x y z))%R) ->
  exists c, print_image m o = ORet (o ++ colour_picture c) tt /\
    (forall x y z, inb d x y z -> 0 <= c x y z <= 255) /\
    (forall x y z x' y' z', inb d x y z -> inb d x' y' z' -> (B2R (f x y z) <= B2R (f x' y' z'))%R -> c x y z <= c x' y' z') /\
    (forall x y z, inb d x y z -> B2R (f x y z) = 0%R -> c x y z = 0) /\
    (forall x y z, inb d x y z -> (1 <= B2R (f x y z))%R -> (forall x' y' z', inb d x' y' z' -> B2R (f x' y' z') <= B2R (f x y z))%R -> c x y z = 255).
Proof.
  intros o D3' NN. destruct white as (maxv & FM & K & Mx & M1 & ME).
  pose (g := fun v : R => rnd64 (rnd64 (v / B2R maxv) * 255)). exists (fun x y z => Ztrunc (g (B2R (f x y z)))).
  assert (HI : (0 < / B2R maxv)%R) by (apply Rinv_0_lt_compat; lra). assert (II : (B2R maxv * / B2R maxv = 1)%R) by (apply Rinv_r; lra).
  assert (A3 : forall x y z, inb d x y z -> (0 <= B2R (f x y z) / B2R maxv <= 1)%R).
  { intros x y z J. specialize (NN _ _ _ J). specialize (Mx _ _ _ J). unfold Rdiv. split; nra. }
  assert (A4 : forall x y z, inb d x y z -> (0 <= rnd64 (B2R (f x y z) / B2R maxv) <= 1)%R).
  { intros x y z J. apply rnd64_range; [apply generic_format_0|apply (int_format64 1); lia|auto]. }
  assert (A5 : forall x y z, inb d x y z -> (0 <= g (B2R (f x y z)) <= 255)%R).
  { intros x y z J. specialize (A4 _ _ _ J). apply (rnd64_range _ 0 255); [apply generic_format_0|apply (int_format64 255); lia|lra]. }
  assert (A6 : forall x y z, inb d x y z -> 0 <= Ztrunc (g (B2R (f x y z))) <= 255) by (intros x y z J; apply trunc_range; [exact (A5 _ _ _ J)|lia]).
  assert (CC : forall x y z, inb d x y z -> color_code maxv (f x y z) = Ok (Ztrunc (g (B2R (f x y z))))).
  { intros x y z J. specialize (A3 _ _ _ J). specialize (A4 _ _ _ J). specialize (A5 _ _ _ J). specialize (A6 _ _ _ J). pose proof (FIN _ _ _ J) as FV. unfold color_code.
    destruct (d_of_f32_ok _ FV) as [P1 P2]. destruct (d_of_f32_ok maxv FM) as [T1 T2].
    destruct (div64 (d_of_f32 (f x y z)) (d_of_f32 maxv) 1) as [G1 G2]; [assumption|rewrite T1; lra|rewrite P1, T1; exact A3|lia|]. rewrite P1, T1 in G2.
    destruct (d_of_Z_ok 255) as [K1 K2]; [lia|].
    destruct (mul64 (ndiv (d_of_f32 (f x y z)) (d_of_f32 maxv)) (d_of_Z 255) 255 G1 K2) as [H1 H2]; [rewrite G2, K1; lra|lia|]. rewrite G2, K1 in H2.
    change (B2R (nmul (ndiv (d_of_f32 (f x y z)) (d_of_f32 maxv)) (d_of_Z 255)) = g (B2R (f x y z))) in H2.
    unfold min255. rewrite Bltb_correct by assumption. rewrite Rlt_bool_false by (rewrite H2, K1; lra).
    unfold to_uchar. rewrite truncated_ok by exact H1. rewrite H2.
    destruct (0 <=? Ztrunc (g (B2R (f x y z)))) eqn:L1; [|lia]. destruct (Ztrunc (g (B2R (f x y z))) <? 256) eqn:L2; [|lia]. reflexivity. }
  split; [|split; [exact A6|split; [|split]]].
  - rewrite K. destruct (dz d =? 3) eqn:DZ; [|lia]. unfold print_color. rewrite (is_mat_dim _ _ _ IM). apply mfor_emit.
    intros x o1 X. unfold bind at 1. rewrite (mfor_emit (dy d) _ (fun y => colour_cell (fun z => Ztrunc (g (B2R (f x y z)))))); [unfold emit; rewrite app_assoc; reflexivity|].
    intros y o2 Y. unfold bind at 1, emit at 1. unfold bind at 1.
    rewrite (mfor_emit 3 _ (fun z => lit ";" ++ dec (Ztrunc (g (B2R (f x y z)))))); [unfold emit, colour_cell; rewrite <- !app_assoc; reflexivity|].
    intros z o3 Zz. assert (J : inb d x y z) by (unfold inb; rewrite D3'; auto). unfold bind, lift. rewrite (is_mat_read m d f x y z IM HF J), (CC _ _ _ J). reflexivity.
  - intros x y z x' y' z' J J' L. apply Ztrunc_le. unfold g. apply round_le; [typeclasses eauto..|]. apply Rmult_le_compat_r; [lra|].
    apply round_le; [typeclasses eauto..|]. apply Rmult_le_compat_r; [lra|exact L].
  - intros x y z J E0. unfold g. rewrite E0. unfold Rdiv. rewrite Rmult_0_l, round_0 by typeclasses eauto. rewrite Rmult_0_l, round_0 by typeclasses eauto. apply (Ztrunc_IZR 0).
  - intros x y z J L1 L. assert (Q0 : B2R (f x y z) = B2R maxv).
    { apply Rle_antisym; [apply Mx; assumption|]. destruct ME as [-> |(x' & y' & z' & J' & ->)]; [exact L1|apply L; exact J']. }
    rewrite Q0. unfold g, Rdiv. rewrite II. rewrite (round_generic radix2 fexp64 ZnearestE 1) by (apply (int_format64 1); lia). rewrite Rmult_1_l.
    rewrite round_generic; [apply (Ztrunc_IZR 255)|typeclasses eauto|apply (int_format64 255); lia].
Qed.
End Image.

(** ** The images of MnistReader: all values are below 1, so that the largest value is taken to be 1. *)
Lemma dyadic32 : forall z k, Z.abs z < 2 ^ 24 -> -149 <= k <= 0 -> generic_format radix2 fexp32 (IZR z * bpow radix2 k).
Proof.
  intros z k H Hk. change fexp32 with (FLT_exp (SpecFloat.emin 24 128) 24). apply generic_format_FLT. exists (Float radix2 z k).
  - reflexivity.
  - cbn [Fnum]. change (radix2 ^ 24) with (2 ^ 24). exact H.
  - cbn [Fexp]. unfold SpecFloat.emin. lia.
Qed.
Lemma part16 : forall z, Z.abs z < 2 ^ 24 -> generic_format radix2 fexp32 (IZR z / 65536).
Proof. intros z H. change (/ 65536)%R with (bpow radix2 (-16)). apply (dyadic32 z (-16)); lia. Qed.

Theorem dim_picture : forall (m : mat f32) d (f : Z -> Z -> Z -> f32) o, is_mat m d f -> fits d -> pos d -> dz d <> 3 ->
  (forall x y z, inb d x y z -> is_finite (f x y z) = true /\ (- 32897 / 65536 <= B2R (f x y z) <= 32640 / 65536)%R) ->
  exists c, print_image m o = ORet (o ++ picture d c) tt /\
    (forall x y, 0 <= x < dx d -> 0 <= y < dy d -> 0 <= c x y <= 169) /\
    (forall x y x' y', 0 <= x < dx d -> 0 <= y < dy d -> 0 <= x' < dx d -> 0 <= y' < dy d -> (B2R (f x y 0%Z) <= B2R (f x' y' 0%Z))%R -> c x y <= c x' y') /\
    (forall x y, 0 <= x < dx d -> 0 <= y < dy d -> (forall x' y' z', inb d x' y' z' -> B2R (f x y 0%Z) <= B2R (f x' y' z'))%R -> c x y = 0).
Proof.
  intros m d f o IM HF HP D3' B.
  assert (FIN : forall x y z, inb d x y z -> is_finite (f x y z) = true) by (intros x y z J; apply (B _ _ _ J)).
  destruct (white m d f IM HF HP FIN) as (maxv & FM & K & Mx & M1 & ME). destruct (mmin_f32 m d f IM HF HP FIN) as (a & b & e & I & Q & Mn).
  assert (ME' : B2R maxv = 1%R).
  { destruct ME as [H|(x & y & z & J & EQ)]; [exact H|]. exfalso. destruct (B _ _ _ J) as [_ U]. rewrite EQ in M1. lra. }
  destruct (B _ _ _ I) as [FM2 BM].
  assert (R : forall x y z, inb d x y z -> (B2R (f a b e) <= B2R (f x y z) <= B2R maxv)%R) by (intros x y z J; split; auto).
  exists (fun x y => gcode (B2R maxv) (B2R (f a b e)) (B2R (f x y 0))).
  split.
  { rewrite K. destruct (dz d =? 3) eqn:DZ; [lia|].
    unfold print_bw. rewrite (is_mat_dim _ _ _ IM). unfold bind at 1, lift at 1. rewrite Q. unfold picture. apply mfor_emit.
    intros x o' X. unfold bind at 1. rewrite (mfor_emit (dy d) _ (fun y => gray_cell (gcode (B2R maxv) (B2R (f a b e)) (B2R (f x y 0))))).
    - unfold emit. rewrite app_assoc. reflexivity.
    - intros y o2 Y. pose proof (first_layer d HP x y X Y) as J. unfold bind, lift. rewrite (is_mat_read m d f x y 0 IM HF J).
      destruct (gray_code_ok maxv (f a b e) FM FM2 ltac:(lra) ltac:(lra) (f x y 0) (FIN _ _ _ J) (R _ _ _ J)) as [-> _]. reflexivity. }
  split; [|split].
  - intros x y X Y. pose proof (first_layer d HP x y X Y) as J. destruct (B _ _ _ J) as [FV BV].
    destruct (gray_code_ok maxv (f a b e) FM FM2 ltac:(lra) ltac:(lra) (f x y 0) FV (R _ _ _ J)) as [_ G]. split; [lia|].
    destruct (quot_range maxv (f a b e) ltac:(lra) ltac:(lra) _ (R _ _ _ J)) as (Q1 & Q2 & Q3). destruct (mapped_range maxv (f a b e) ltac:(lra) ltac:(lra) _ (R _ _ _ J)) as (_ & W2 & _).
    destruct (range_pos maxv (f a b e) ltac:(lra) ltac:(lra)) as [RP _].
    unfold gcode. rewrite ME' in *. set (v := B2R (f x y 0)) in *. set (mn := B2R (f a b e)) in *.
    assert (H1 : (32896 / 65536 <= rnd32 (1 - v))%R) by (apply round_ge_generic; [typeclasses eauto..|apply (part16 32896); lia|lra]).
    assert (H2 : (rnd32 (1 - mn) <= 98433 / 65536)%R) by (apply round_le_generic; [typeclasses eauto..|apply (part16 98433); lia|lra]).
    assert (H3 : (21901 / 65536 <= rnd32 (rnd32 (1 - v) / rnd32 (1 - mn)))%R).
    { apply round_ge_generic; [typeclasses eauto..|apply (part16 21901); lia|]. apply Rmult_le_reg_r with (rnd32 (1 - mn)); [exact RP|].
      unfold Rdiv at 2. rewrite Rmult_assoc, Rinv_l by lra. nra. }
    set (qq := rnd32 (rnd32 (1 - v) / rnd32 (1 - mn))) in *.
    assert (H4 : (rnd32 (1 - qq) <= 43635 / 65536)%R) by (apply round_le_generic; [typeclasses eauto..|apply (part16 43635); lia|lra]).
    rewrite Rmult_1_l in *. set (s := rnd32 (1 - qq)) in *. assert (H5 : (rnd32 s <= 43635 / 65536)%R) by (apply round_le_generic; [typeclasses eauto..|apply (part16 43635); lia|lra]).
    assert (D64 : generic_format radix2 fexp64 (43635 / 65536)) by (change (/ 65536)%R with (bpow radix2 (-16)); apply (dyadic_format 43635 (-16)); lia).
    assert (E64 : generic_format radix2 fexp64 (43635 * 255 / 65536)) by (rewrite <- mult_IZR; change (/ 65536)%R with (bpow radix2 (-16)); apply (dyadic_format (43635 * 255) (-16)); lia).
    assert (H6 : (rnd64 (rnd32 s / 1) <= 43635 / 65536)%R) by (apply round_le_generic; [typeclasses eauto..|exact D64|lra]).
    assert (H7 : (rnd64 (rnd64 (rnd32 s / 1) * 255) <= 43635 * 255 / 65536)%R) by (apply round_le_generic; [typeclasses eauto..|exact E64|lra]).
    assert (H8 : (0 <= rnd64 (rnd64 (rnd32 s / 1) * 255))%R).
    { apply round_ge_generic; [typeclasses eauto..|apply generic_format_0|]. apply Rmult_le_pos; [|lra]. apply round_ge_generic; [typeclasses eauto..|apply generic_format_0|lra]. }
    rewrite Ztrunc_floor by exact H8. assert (L : Zfloor (rnd64 (rnd64 (rnd32 s / 1) * 255)) < 170); [|lia].
    apply lt_IZR. apply Rle_lt_trans with (1 := Zfloor_lb _). lra.
  - intros x y x' y' X Y X' Y' L. apply gcode_mono; try lra; pose proof (R _ _ _ (first_layer d HP x y X Y)); pose proof (R _ _ _ (first_layer d HP x' y' X' Y')); lra.
  - intros x y X Y L. assert (Q0 : B2R (f x y 0) = B2R (f a b e)) by (apply Rle_antisym; [apply L; assumption|apply Mn, first_layer; assumption]). rewrite Q0. apply gcode_min; lra.
Qed.
