(** How far the single-precision sizes of Float32.v are from the exact ones, for all ints. *)
From Coq Require Import ZArith Reals Lia Lra Psatz.
From Flocq Require Import Core BinarySingleNaN Relative.
From Verif Require Import Base Float32 Iter FloatFacts.
Local Open Scope Z_scope.

Local Notation fexp32 := (SpecFloat.fexp 24 128).
Local Notation rnd32 := (round radix2 fexp32 ZnearestE).
#[local] Instance valid32b : Valid_exp fexp32 := fexp_correct 24 128 prec32.

Lemma rel32 : forall x, (/ 4294967296 <= x)%R -> exists e, rnd32 x = (x * (1 + e))%R /\ (- / 16777216 <= e <= / 16777216)%R.
Proof.
  intros x H. assert (P : (0 < x)%R) by (apply Rlt_le_trans with (2 := H); lra).
  assert (Q : (Rabs (rnd32 x - x) <= / 2 * bpow radix2 (- (24) + 1) * Rabs x)%R).
  { change fexp32 with (FLT_exp (-149) 24). apply relative_error_N_FLT; [lia|]. rewrite Rabs_pos_eq by lra.
    apply Rle_trans with (2 := H). replace (/ 4294967296)%R with (bpow radix2 (-32)) by (change (bpow radix2 (-32)) with (/ 4294967296)%R; reflexivity). apply bpow_le. lia. }
  change (bpow radix2 (- (24) + 1)) with (/ 8388608)%R in Q. rewrite (Rabs_pos_eq x) in Q by lra. apply Rabs_le_inv in Q.
  exists ((rnd32 x - x) / x)%R. split; [field; lra|]. assert (I : (0 < / x)%R) by (apply Rinv_0_lt_compat; exact P). assert (XI : (x * / x = 1)%R) by (apply Rinv_r; lra).
  unfold Rdiv. set (i := (/ x)%R) in *. split; nra.
Qed.

(** The quotient: relative error below 2^-22 *)
Lemma quot32 : forall a n s, (rnd32 (IZR n) = a)%R -> 1 <= n <= two31 -> 1 <= s < two31 ->
  exists r, B2R (f32_div (f32_of_Z n) (f32_of_Z s)) = r /\ is_finite (f32_div (f32_of_Z n) (f32_of_Z s)) = true /\ r = rnd32 (a / rnd32 (IZR s)) /\
    (Rabs (r - IZR n / IZR s) <= IZR n / IZR s * / 4194304)%R.
Proof.
  intros a n s A N S. unfold two31 in *. assert (N1 : (1 <= IZR n <= 2147483648)%R) by (split; apply IZR_le; lia). assert (S1 : (1 <= IZR s <= 2147483648)%R) by (split; apply IZR_le; lia).
  destruct (of_Z_correct n) as [NB NF]; [unfold two31; lia|]. destruct (of_Z_correct s) as [SB SF]; [unfold two31; lia|].
  destruct (rel32 (IZR n) ltac:(lra)) as (e1 & E1 & B1). destruct (rel32 (IZR s) ltac:(lra)) as (e2 & E2 & B2).
  destruct (div_correct (f32_of_Z n) (f32_of_Z s) NF) as [DF DB].
  - rewrite NB. apply Rle_trans with (1 := two31_format n ltac:(unfold two31; lia)). apply bpow_le. lia.
  - rewrite SB. apply round_ge_generic; [typeclasses eauto..|apply (int_format 1); lia|lra].
  - rewrite NB, SB, A in DB. eexists. split; [exact DB|]. split; [exact DF|]. split; [reflexivity|].
    rewrite <- A in *. rewrite E1, E2 in *. set (q := (IZR n / IZR s)%R).
    assert (Q0 : (/ 2147483648 <= q)%R).
    { unfold q. apply Rle_trans with (1 * / IZR s)%R; [rewrite Rmult_1_l; apply Rinv_le_contravar; lra|]. apply Rmult_le_compat_r; [apply Rlt_le, Rinv_0_lt_compat; lra|lra]. }
    set (g := ((1 + e1) * / (1 + e2))%R).
    assert (QG : (IZR n * (1 + e1) / (IZR s * (1 + e2)) = q * g)%R) by (unfold q, g; field; lra).
    assert (I : ((1 + e2) * / (1 + e2) = 1)%R) by (apply Rinv_r; lra). assert (I0 : (0 < / (1 + e2))%R) by (apply Rinv_0_lt_compat; lra).
    assert (GB : (1 - 21 / 167772160 <= g <= 1 + 21 / 167772160)%R).
    { unfold g. set (i := (/ (1 + e2))%R) in *. split; nra. }
    rewrite QG. destruct (rel32 (q * g)) as (e3 & E3 & B3); [nra|]. rewrite E3.
    assert (W : (- / 4194304 <= g * (1 + e3) - 1 <= / 4194304)%R) by (split; nra). replace (q * g * (1 + e3) - q)%R with (q * (g * (1 + e3) - 1))%R by ring.
    set (w := (g * (1 + e3) - 1)%R) in *. clearbody w g. apply Rabs_le. split; nra.
Qed.

Lemma zceil_div : forall n s, 1 <= s -> Zceil (IZR n / IZR s) = (n + s - 1) / s.
Proof.
  intros n s S. assert (S1 : (1 <= IZR s)%R) by (apply IZR_le; lia). unfold Zceil. replace (- (IZR n / IZR s))%R with (IZR (- n) / IZR s)%R by (rewrite opp_IZR; field; lra).
  rewrite Zfloor_div by lia. pose proof (Z.div_mod (n + s - 1) s ltac:(lia)). pose proof (Z.mod_pos_bound (n + s - 1) s ltac:(lia)).
  set (c := (n + s - 1) / s) in *. set (m := (n + s - 1) mod s) in *.
  assert (D : - n / s = - c) by (symmetry; apply (Z.div_unique _ _ _ (s - 1 - m)); [left; lia|nia]). lia.
Qed.

(** (uint/int) ceil((float)n / s): off by at most one plus n / (2^22 s). Up to 2^31 - 128 the conversion to int is defined. *)
Theorem ceil_div_near : forall n s, 0 <= n < two31 -> 1 <= s < two31 ->
  exists k, ceil_div n s = i32 k /\ Z.abs (k - (n + s - 1) / s) <= 1 + n / (2 ^ 22 * s) /\ (n <= two31 - 128 -> ceil_div n s = Ok k).
Proof.
  intros n s N S. destruct (Z.eq_dec n 0) as [->|N0].
  - exists 0. assert (E : ceil_div 0 s = Ok 0).
    { unfold ceil_div. destruct (of_Z_correct s) as [SB SF]; [unfold two31 in *; lia|]. destruct (of_Z_exact 0) as [ZB ZF]; [lia|].
      assert (S1 : (1 <= IZR s)%R) by (apply IZR_le; lia).
      destruct (div_correct (f32_of_Z 0) (f32_of_Z s) ZF) as [DF DB]; [rewrite ZB, Rabs_R0; apply bpow_ge_0|rewrite SB; apply round_ge_generic; [typeclasses eauto..|apply (int_format 1); lia|lra]|].
      rewrite ceil_correct by exact DF. rewrite DB, ZB. unfold Rdiv. rewrite Rmult_0_l, round_0 by typeclasses eauto. rewrite Zceil_IZR. reflexivity. }
    rewrite E. split; [reflexivity|]. split; [|auto]. rewrite (Z.div_small (0 + s - 1) s) by lia. rewrite Z.div_0_l by lia. cbn. lia.
  - destruct (quot32 _ n s eq_refl) as (r & R1 & R2 & R3 & R4); [unfold two31 in *; lia|exact S|].
    assert (E : ceil_div n s = i32 (Zceil r)) by (unfold ceil_div; rewrite ceil_correct by exact R2; rewrite R1; reflexivity).
    exists (Zceil r). split; [exact E|]. unfold two31 in *. assert (S1 : (1 <= IZR s)%R) by (apply IZR_le; lia). assert (N1 : (1 <= IZR n)%R) by (apply IZR_le; lia). split.
    + rewrite <- (zceil_div n s) by lia. set (q := (IZR n / IZR s)%R) in *. apply Rabs_le_inv in R4.
      pose proof (Zceil_ub r) as U1. pose proof (Zceil_lb r) as L1. pose proof (Zceil_ub q) as U2. pose proof (Zceil_lb q) as L2.
      assert (B : Z.abs (Zceil r - Zceil q) < 2 + n / (2 ^ 22 * s)); [|lia].
      assert (F : (q * / 4194304 < IZR (n / (2 ^ 22 * s)) + 1)%R).
      { replace (q * / 4194304)%R with (IZR n / IZR (2 ^ 22 * s))%R by (change (2 ^ 22) with 4194304; rewrite mult_IZR; unfold q; field; lra).
        rewrite <- Zfloor_div by lia. apply Zfloor_ub. }
      apply lt_IZR. rewrite abs_IZR, minus_IZR, plus_IZR. apply Rabs_lt. lra.
    + intro L. rewrite E. apply i32_ok. unfold two31.
      assert (RB : (0 <= r <= IZR 2147483520)%R).
      { rewrite R3. assert (D1 : (1 <= rnd32 (IZR s))%R) by (apply round_ge_generic; [typeclasses eauto..|apply (int_format 1); lia|lra]).
        assert (G : generic_format radix2 fexp32 (IZR 2147483520)).
        { replace (IZR 2147483520) with (IZR 16777215 * bpow radix2 7)%R by (change (bpow radix2 7) with (IZR 128); rewrite <- mult_IZR; reflexivity).
          change fexp32 with (FLT_exp (SpecFloat.emin 24 128) 24). apply generic_format_FLT. exists (Float radix2 16777215 7); [reflexivity|cbn; lia|cbn; lia]. }
        assert (D2 : (0 <= rnd32 (IZR n) <= IZR 2147483520)%R).
        { split; [apply round_ge_generic; [typeclasses eauto..|apply generic_format_0|lra]|apply round_le_generic; [typeclasses eauto..|exact G|apply IZR_le; lia]]. }
        assert (I0 : (0 < / rnd32 (IZR s) <= 1)%R) by (split; [apply Rinv_0_lt_compat; lra|rewrite <- Rinv_1; apply Rinv_le_contravar; lra]).
        unfold Rdiv. set (i := (/ rnd32 (IZR s))%R) in *. set (a := rnd32 (IZR n)) in *.
        assert (A0 : (0 <= a * i)%R) by (apply Rmult_le_pos; lra). assert (A1 : (a * i <= a * 1)%R) by (apply Rmult_le_compat_l; lra).
        clearbody a i. clear - A0 A1 D2 G.
        split; [apply round_ge_generic; [typeclasses eauto..|apply generic_format_0|lra]|apply round_le_generic; [typeclasses eauto..|exact G|apply Rle_trans with (1 := A1); rewrite Rmult_1_r; apply D2]]. }
      pose proof (Zceil_ub r) as U1. pose proof (Zceil_lb r) as L1. split.
      * assert (-1 < Zceil r) by (apply lt_IZR; lra). lia.
      * assert (Zceil r < 2147483520 + 1) by (apply lt_IZR; rewrite plus_IZR; lra). lia.
Qed.
(** If the quotient is below 2^22, it is off by at most one. *)
Corollary ceil_div_near_one : forall n s, 0 <= n < two31 -> 1 <= s < two31 -> n < 2 ^ 22 * s ->
  exists k, ceil_div n s = i32 k /\ Z.abs (k - (n + s - 1) / s) <= 1.
Proof.
  intros n s N S L. destruct (ceil_div_near n s N S) as (k & E & B & _). exists k. split; [exact E|]. rewrite (Z.div_small n (2 ^ 22 * s)) in B by lia. lia.
Qed.

(** ceil(((float)a + 1) / s), the number of rows or columns of a pooling layer: off by at most one plus (a + 1) / (2^21 s) *)
Lemma quot32b : forall (x : f32) n s e, is_finite x = true -> B2R x = (IZR n * (1 + e))%R -> (- (5 / 33554432) <= e <= 5 / 33554432)%R -> 1 <= n <= two31 -> 1 <= s < two31 ->
  exists r, B2R (f32_div x (f32_of_Z s)) = r /\ is_finite (f32_div x (f32_of_Z s)) = true /\ (Rabs (r - IZR n / IZR s) <= IZR n / IZR s * / 2097152)%R.
Proof.
  intros x n s e XF XB XE N S. unfold two31 in *. assert (N1 : (1 <= IZR n <= 2147483648)%R) by (split; apply IZR_le; lia). assert (S1 : (1 <= IZR s <= 2147483648)%R) by (split; apply IZR_le; lia).
  destruct (of_Z_correct s) as [SB SF]; [unfold two31; lia|]. destruct (rel32 (IZR s) ltac:(lra)) as (e2 & E2 & B2).
  destruct (div_correct x (f32_of_Z s) XF) as [DF DB].
  - rewrite XB. change (bpow radix2 32) with (IZR 4294967296). rewrite Rabs_pos_eq; nra.
  - rewrite SB. apply round_ge_generic; [typeclasses eauto..|apply (int_format 1); lia|lra].
  - eexists. split; [exact DB|]. split; [exact DF|]. rewrite SB, XB, E2. set (q := (IZR n / IZR s)%R).
    assert (Q0 : (/ 2147483648 <= q)%R).
    { unfold q. apply Rle_trans with (1 * / IZR s)%R; [rewrite Rmult_1_l; apply Rinv_le_contravar; lra|]. apply Rmult_le_compat_r; [apply Rlt_le, Rinv_0_lt_compat; lra|lra]. }
    set (g := ((1 + e) * / (1 + e2))%R).
    assert (QG : (IZR n * (1 + e) / (IZR s * (1 + e2)) = q * g)%R) by (unfold q, g; field; lra).
    assert (I : ((1 + e2) * / (1 + e2) = 1)%R) by (apply Rinv_r; lra). assert (I0 : (0 < / (1 + e2))%R) by (apply Rinv_0_lt_compat; lra).
    assert (GB : (1 - 36 / 167772160 <= g <= 1 + 36 / 167772160)%R).
    { unfold g. set (i := (/ (1 + e2))%R) in *. split; nra. }
    rewrite QG. destruct (rel32 (q * g)) as (e3 & E3 & B3); [nra|]. rewrite E3.
    assert (W : (- / 2097152 <= g * (1 + e3) - 1 <= / 2097152)%R) by (split; nra). replace (q * g * (1 + e3) - q)%R with (q * (g * (1 + e3) - 1))%R by ring.
    set (w := (g * (1 + e3) - 1)%R) in *. clearbody w g. apply Rabs_le. split; nra.
Qed.
Theorem ceil_div1_near : forall a s, 0 <= a < two31 -> 1 <= s < two31 ->
  exists k, ceil_div1 a s = i32 k /\ Z.abs (k - (a + s) / s) <= 1 + (a + 1) / (2 ^ 21 * s).
Proof.
  intros a s A S. destruct (add_correct a 1) as [AF AB]; [unfold two31 in *; lia|lia|].
  assert (A1 : (0 <= IZR a)%R) by (apply IZR_le; lia).
  assert (X : exists e, rnd32 (rnd32 (IZR a) + IZR 1) = (IZR (a + 1) * (1 + e))%R /\ (- (5 / 33554432) <= e <= 5 / 33554432)%R).
  { rewrite plus_IZR. assert (Y : exists e, (rnd32 (IZR a) + 1 = (IZR a + 1) * (1 + e))%R /\ (- / 16777216 <= e <= / 16777216)%R).
    { destruct (Z.eq_dec a 0) as [->|A0]; [exists 0%R; rewrite round_0 by typeclasses eauto; split; lra|].
      assert (A2 : (1 <= IZR a)%R) by (apply IZR_le; lia). destruct (rel32 (IZR a) ltac:(lra)) as (e & E & B). rewrite E.
      exists (e * (IZR a / (IZR a + 1)))%R. split; [field; lra|].
      assert (F : (0 <= IZR a / (IZR a + 1) <= 1)%R).
      { split; [apply Rmult_le_pos; [lra|apply Rlt_le, Rinv_0_lt_compat; lra]|]. apply Rmult_le_reg_r with (IZR a + 1)%R; [lra|]. unfold Rdiv. rewrite Rmult_assoc, Rinv_l by lra. lra. }
      set (f := (IZR a / (IZR a + 1))%R) in *. split; nra. }
    destruct Y as (e & -> & B). assert (P : (/ 4294967296 <= (IZR a + 1) * (1 + e))%R) by nra.
    destruct (rel32 _ P) as (e' & -> & B'). exists (e + e' + e * e')%R. split; [ring|]. split; nra. }
  destruct X as (e & X1 & X2).
  destruct (quot32b (f32_add (f32_of_Z a) (f32_of_Z 1)) (a + 1) s e) as (r & R1 & R2 & R4); [exact AF|rewrite AB; exact X1|exact X2|unfold two31 in *; lia|exact S|].
  exists (Zceil r). split; [unfold ceil_div1; rewrite ceil_correct by exact R2; rewrite R1; reflexivity|].
  assert (S1 : (1 <= IZR s)%R) by (apply IZR_le; lia).
  replace ((a + s) / s) with (Zceil (IZR (a + 1) / IZR s)) by (rewrite zceil_div by lia; f_equal; lia).
  set (q := (IZR (a + 1) / IZR s)%R) in *. apply Rabs_le_inv in R4.
  pose proof (Zceil_ub r) as U1. pose proof (Zceil_lb r) as L1. pose proof (Zceil_ub q) as U2. pose proof (Zceil_lb q) as L2.
  assert (B : Z.abs (Zceil r - Zceil q) < 2 + (a + 1) / (2 ^ 21 * s)); [|lia].
  assert (F : (q * / 2097152 < IZR ((a + 1) / (2 ^ 21 * s)) + 1)%R).
  { replace (q * / 2097152)%R with (IZR (a + 1) / IZR (2 ^ 21 * s))%R by (change (2 ^ 21) with 2097152; rewrite mult_IZR; unfold q; field; lra).
    rewrite <- Zfloor_div by lia. apply Zfloor_ub. }
  apply lt_IZR. rewrite abs_IZR, minus_IZR, plus_IZR. apply Rabs_lt. lra.
Qed.
