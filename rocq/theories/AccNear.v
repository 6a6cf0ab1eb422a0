(** The accuracy that validate prints, for any number of images. *)
From Coq Require Import ZArith Reals Lia Lra Psatz.
From Flocq Require Import Core BinarySingleNaN.
From Verif Require Import Base Num Float32 FloatFacts CeilBound Bar Report ReportFacts.
Local Open Scope Z_scope.

Local Notation fexp32 := (SpecFloat.fexp 24 128).
Local Notation rnd32 := (round radix2 fexp32 ZnearestE).
#[local] Instance valid32 : Valid_exp fexp32 := fexp_correct 24 128 prec32.

(** Relative error at most 5 * 2^-24 *)
Theorem accuracy_near : forall c n, 0 <= c <= n -> 1 <= n < two31 ->
  is_finite (accuracy c n) = true /\ (Rabs (B2R (accuracy c n) - 100 * IZR c / IZR n) <= 100 * IZR c / IZR n * (5 / 16777216))%R.
Proof.
  intros c n C N. unfold two31 in N. unfold accuracy.
  destruct (of_Z_exact 100) as [A1 A2]; [lia|]. destruct (of_Z_correct c) as [C1 C2]; [unfold two31; lia|]. destruct (of_Z_correct n) as [N1 N2]; [unfold two31; lia|].
  assert (RN : (1 <= IZR n <= 2147483648)%R) by (split; apply IZR_le; lia).
  destruct (rel32 (IZR n) ltac:(lra)) as (e2 & E2 & B2).
  assert (NP : (/ 2 <= B2R (f32_of_Z n))%R) by (rewrite N1, E2; nra).
  destruct (Z.eq_dec c 0) as [->|C0].
  - rewrite round_0 in C1 by typeclasses eauto.
    destruct (mul32 (f32_of_Z 100) (f32_of_Z 0) A2 C2) as [M1 M2]; [rewrite C1, Rmult_0_r, Rabs_R0; apply bpow_ge_0|]. rewrite C1, Rmult_0_r, round_0 in M2 by typeclasses eauto.
    destruct (div32 (f32_mul (f32_of_Z 100) (f32_of_Z 0)) (f32_of_Z n) M1) as [D1 D2]; [lra|rewrite M2; unfold Rdiv; rewrite Rmult_0_l, Rabs_R0; apply bpow_ge_0|].
    split; [exact D1|]. rewrite D2, M2. unfold Rdiv. rewrite Rmult_0_l, round_0 by typeclasses eauto. rewrite Rmult_0_r, Rmult_0_l, Rmult_0_l. rewrite Rminus_0_r, Rabs_R0. lra.
  - assert (RC : (1 <= IZR c <= 2147483648)%R) by (split; apply IZR_le; lia). destruct (rel32 (IZR c) ltac:(lra)) as (e1 & E1 & B1).
    destruct (mul32 (f32_of_Z 100) (f32_of_Z c) A2 C2) as [M1 M2].
    { apply le64. rewrite A1, C1, E1. rewrite Rabs_pos_eq by nra. apply Rle_trans with (IZR 1000000000000); [nra|apply IZR_le; lia]. }
    rewrite A1, C1, E1 in M2.
    assert (P : (/ 4294967296 <= 100 * (IZR c * (1 + e1)))%R) by nra. destruct (rel32 _ P) as (e3 & E3 & B3). rewrite E3 in M2.
    set (q := (100 * IZR c / IZR n)%R). set (f := ((1 + e1) * (1 + e3))%R) in *. assert (FB : (1 - 21 / 167772160 <= f <= 1 + 21 / 167772160)%R) by (unfold f; split; nra).
    set (g := (f * / (1 + e2))%R).
    assert (I : ((1 + e2) * / (1 + e2) = 1)%R) by (apply Rinv_r; lra). assert (I0 : (0 < / (1 + e2))%R) by (apply Rinv_0_lt_compat; lra).
    assert (GB : (1 - 32 / 167772160 <= g <= 1 + 32 / 167772160)%R).
    { unfold g. set (i := (/ (1 + e2))%R) in *. split; nra. }
    assert (QG : (100 * (IZR c * (1 + e1)) * (1 + e3) / (IZR n * (1 + e2)) = q * g)%R) by (unfold q, g, f; field; lra).
    assert (IN : (/ 2147483648 <= / IZR n <= 1)%R) by (split; [apply Rinv_le_contravar; lra|rewrite <- Rinv_1; apply Rinv_le_contravar; lra]).
    assert (QP : (/ 2147483648 <= q)%R) by (unfold q, Rdiv; set (i := (/ IZR n)%R) in *; nra).
    assert (QB : (q <= 100)%R).
    { unfold q. apply Rmult_le_reg_r with (IZR n); [lra|]. unfold Rdiv. rewrite Rmult_assoc, Rinv_l by lra. assert (IZR c <= IZR n)%R by (apply IZR_le; lia). lra. }
    destruct (div32 (f32_mul (f32_of_Z 100) (f32_of_Z c)) (f32_of_Z n) M1) as [D1 D2]; [lra| |].
    + apply le64. rewrite M2, N1, E2, QG. rewrite Rabs_pos_eq by nra. apply Rle_trans with 1000%R; [nra|apply IZR_le; lia].
    + split; [exact D1|]. rewrite D2, M2, N1, E2, QG. destruct (rel32 (q * g)) as (e4 & E4 & B4); [nra|]. rewrite E4.
      assert (W : (- (5 / 16777216) <= g * (1 + e4) - 1 <= 5 / 16777216)%R) by (split; nra). replace (q * g * (1 + e4) - q)%R with (q * (g * (1 + e4) - 1))%R by ring.
      set (w := (g * (1 + e4) - 1)%R) in *. clearbody w g. apply Rabs_le. split; nra.
Qed.
(** So it is never above 100.00003. *)
Corollary accuracy_below : forall c n, 0 <= c <= n -> 1 <= n < two31 -> (0 <= B2R (accuracy c n) <= 100 + 3 / 100000)%R.
Proof.
  intros c n C N. destruct (accuracy_near c n C N) as [_ H]. unfold two31 in N. apply Rabs_le_inv in H.
  assert (RN : (1 <= IZR n)%R) by (apply IZR_le; lia). assert (RC : (0 <= IZR c <= IZR n)%R) by (split; apply IZR_le; lia).
  assert (Q : (0 <= 100 * IZR c / IZR n <= 100)%R).
  { split; [apply Rmult_le_pos; [lra|]; apply Rlt_le, Rinv_0_lt_compat; lra|]. apply Rmult_le_reg_r with (IZR n); [lra|].
    unfold Rdiv. rewrite Rmult_assoc, Rinv_l by lra. lra. }
  set (q := (100 * IZR c / IZR n)%R) in *. split; nra.
Qed.
