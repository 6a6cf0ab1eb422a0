(** Facts about the progress bar of Bar.v. *)
From Coq Require Import ZArith Bool Lia Reals Lra Psatz String Ascii List.
From Flocq Require Import Core BinarySingleNaN.
From Verif Require Import Base Batch Num Float32 FloatFacts LayerFacts Iter Chars Double Bar.
Import ListNotations.
Local Open Scope Z_scope.

Local Notation fexp32 := (SpecFloat.fexp 24 128).
Local Notation rnd32 := (round radix2 fexp32 ZnearestE).
Local Notation fexp64 := (SpecFloat.fexp prec emax).
Local Notation rnd64 := (round radix2 fexp64 ZnearestE).
#[local] Instance valid32 : Valid_exp fexp32 := fexp_correct 24 128 prec32.
#[local] Instance valid64 : Valid_exp fexp64 := fexp_correct prec emax prec_pos.

(** ** Conversions *)

Lemma truncated_ok : forall p em (x : binary_float p em), is_finite x = true -> truncated x = Some (Ztrunc (B2R x)).
Proof.
  intros p em x H. destruct x as [s|s| |s m e b]; try discriminate H.
  - cbn. change 0%R with (IZR 0). rewrite Ztrunc_IZR. reflexivity.
  - cbn [truncated B2R]. f_equal.
    assert (T : (if 0 <=? e then Z.pos m * 2 ^ e else Z.pos m / 2 ^ (- e)) = Ztrunc (IZR (Z.pos m) * bpow radix2 e)).
    { destruct (Z.leb_spec 0 e) as [He|He].
      - rewrite <- IZR_Zpower by lia. rewrite <- mult_IZR. rewrite Ztrunc_IZR. reflexivity.
      - assert (P : 0 < 2 ^ (- e)) by (apply Z.pow_pos_nonneg; lia).
        replace (IZR (Z.pos m) * bpow radix2 e)%R with (IZR (Z.pos m) / IZR (2 ^ (- e)))%R.
        + rewrite Ztrunc_floor; [rewrite Zfloor_div by lia; reflexivity|].
          apply Rmult_le_pos; [apply IZR_le; lia|]. apply Rlt_le, Rinv_0_lt_compat. apply IZR_lt. lia.
        + replace e with (- - e) at 2 by lia. rewrite bpow_opp. rewrite <- IZR_Zpower by lia.
          change (radix2 ^ (- e)) with (2 ^ (- e)). reflexivity. }
    rewrite T. unfold F2R. cbn [Fnum Fexp]. destruct s; cbn [SpecFloat.cond_Zopp]; [|reflexivity].
    rewrite opp_IZR, Ropp_mult_distr_l_reverse, Ztrunc_opp. reflexivity.
Qed.

Lemma trunc_nonneg : forall x k, (IZR k <= x < IZR k + 1)%R -> 0 <= k -> Ztrunc x = k.
Proof.
  intros x k H K. rewrite Ztrunc_floor.
  - apply Zfloor_imp. rewrite plus_IZR. lra.
  - apply IZR_le in K. lra.
Qed.
Lemma trunc_range : forall x a b, (IZR a <= x <= IZR b)%R -> 0 <= a -> a <= Ztrunc x <= b.
Proof.
  intros x a b H A. pose proof (IZR_le 0 a A).
  rewrite Ztrunc_floor by lra. split; [apply Zfloor_lub; lra|]. apply le_IZR. pose proof (Zfloor_lb x). lra.
Qed.

Lemma fexp64_eq : forall e, fexp64 e = Z.max (e - 53) (-1074).
Proof. intros. unfold SpecFloat.fexp, SpecFloat.emin, prec, emax. f_equal; lia. Qed.

(** Integers times a power of two are doubles. *)
Lemma dyadic_format : forall z e, Z.abs z < 2 ^ 53 -> -1074 <= e -> generic_format radix2 fexp64 (IZR z * bpow radix2 e).
Proof.
  intros z e H E. change fexp64 with (FLT_exp (SpecFloat.emin prec emax) prec).
  apply generic_format_FLT. exists (Float radix2 z e).
  - reflexivity.
  - exact H.
  - exact E.
Qed.
Lemma int_format64 : forall z, Z.abs z < 2 ^ 53 -> generic_format radix2 fexp64 (IZR z).
Proof. intros z H. replace (IZR z) with (IZR z * bpow radix2 0)%R by (cbn; ring). apply dyadic_format; lia. Qed.

Lemma rnd64_range : forall x a b, generic_format radix2 fexp64 a -> generic_format radix2 fexp64 b ->
  (a <= x <= b)%R -> (a <= rnd64 x <= b)%R.
Proof. intros x a b A B H. split; [apply round_ge_generic|apply round_le_generic]; auto; try typeclasses eauto; apply H. Qed.
Lemma rnd32_range : forall x a b, generic_format radix2 fexp32 a -> generic_format radix2 fexp32 b ->
  (a <= x <= b)%R -> (a <= rnd32 x <= b)%R.
Proof. intros x a b A B H. split; [apply round_ge_generic|apply round_le_generic]; auto; try typeclasses eauto; apply H. Qed.

Lemma small64 : forall x b, (0 <= x <= IZR b)%R -> 0 <= b < 2 ^ 53 -> Rlt_bool (Rabs (rnd64 x)) (bpow radix2 emax) = true.
Proof.
  intros x b H B. apply Rlt_bool_true. apply Rle_lt_trans with (IZR b).
  - destruct (rnd64_range x 0 (IZR b)) as [A C].
    + apply generic_format_0.
    + apply int_format64. lia.
    + exact H.
    + rewrite Rabs_pos_eq; assumption.
  - apply Rlt_le_trans with (bpow radix2 53).
    + change (bpow radix2 53) with (IZR (2 ^ 53)). apply IZR_lt. lia.
    + apply bpow_le. unfold emax. lia.
Qed.

Lemma d_of_Z_ok : forall z, 0 <= z < 2 ^ 53 -> B2R (d_of_Z z) = IZR z /\ is_finite (d_of_Z z) = true.
Proof.
  intros z H. unfold d_of_Z. pose proof (binary_normalize_correct prec emax prec_pos prec_emax mode_NE z 0 false) as C.
  cbn zeta in C. assert (E : F2R (Float radix2 z 0) = IZR z) by (unfold F2R; cbn [Fnum Fexp bpow]; ring).
  rewrite E in C. cbn [round_mode] in C. rewrite (small64 (IZR z) z) in C.
  - destruct C as (C1 & C2 & _). split; [|exact C2]. rewrite C1. apply round_generic; [typeclasses eauto|]. apply int_format64. lia.
  - split; [apply IZR_le; lia|lra].
  - lia.
Qed.

Lemma format_32_64 : forall x, generic_format radix2 fexp32 x -> generic_format radix2 fexp64 x.
Proof.
  intros x H. apply (generic_inclusion_mag radix2 fexp32 fexp64); [|exact H].
  intros _. rewrite fexp64_eq, fexp32_eq. lia.
Qed.

Lemma d_of_f32_ok : forall x : f32, is_finite x = true -> B2R (d_of_f32 x) = B2R x /\ is_finite (d_of_f32 x) = true.
Proof.
  intros x H. destruct x as [s|s| |s m e b] eqn:X; try discriminate H; [split; reflexivity|].
  rewrite <- X. unfold d_of_f32. rewrite X.
  pose proof (binary_normalize_correct prec emax prec_pos prec_emax mode_NE (SpecFloat.cond_Zopp s (Z.pos m)) e s) as C.
  cbn zeta in C. cbn [round_mode] in C.
  set (v := F2R (Float radix2 (SpecFloat.cond_Zopp s (Z.pos m)) e)) in *.
  assert (V : B2R x = v) by (rewrite X; reflexivity).
  assert (G : rnd64 v = v).
  { apply round_generic; [typeclasses eauto|]. apply format_32_64. rewrite <- V. apply generic_format_B2R. }
  rewrite G in C. rewrite Rlt_bool_true in C.
  - destruct C as (C1 & C2 & _). split; [rewrite C1; reflexivity|exact C2].
  - rewrite <- V. apply Rlt_trans with (bpow radix2 128).
    + apply abs_B2R_lt_emax.
    + apply bpow_lt. unfold emax. lia.
Qed.

(** ** The numbers shown. [val] and [total] are the two arguments of the bar. *)

Lemma mul32_correct : forall (x y : f32) b, is_finite x = true -> is_finite y = true ->
  (0 <= B2R x * B2R y <= IZR b)%R -> 0 <= b <= 2 ^ 24 ->
  is_finite (f32_mul x y) = true /\ B2R (f32_mul x y) = rnd32 (B2R x * B2R y).
Proof.
  intros x y b Fx Fy H B. unfold f32_mul. pose proof (Bmult_correct 24 128 prec32 emax32 mode_NE x y) as C. cbn [round_mode] in C.
  rewrite Rlt_bool_true in C.
  - destruct C as (C1 & C2 & _). split; [|exact C1]. rewrite C2, Fx, Fy. reflexivity.
  - apply Rle_lt_trans with (IZR b).
    + apply abs_le32; [apply int_format; lia|]. rewrite Rabs_pos_eq by lra. lra.
    + apply Rle_lt_trans with (bpow radix2 24).
      * change (bpow radix2 24) with (IZR (2 ^ 24)). apply IZR_le. lia.
      * apply bpow_lt. lia.
Qed.

Section Bar.
Context (val total : f32) (Fv : is_finite val = true) (Ft : is_finite total = true).
Context (V : (0 <= B2R val <= B2R total)%R) (T : (1 <= B2R total <= IZR two31)%R).

Lemma ratio_range : (0 <= B2R val / B2R total <= 1)%R.
Proof.
  split.
  - apply Rmult_le_pos; [lra|]. apply Rlt_le, Rinv_0_lt_compat. lra.
  - apply Rmult_le_reg_r with (B2R total); [lra|]. unfold Rdiv. rewrite Rmult_assoc, Rinv_l by lra. lra.
Qed.

Lemma ratio32 : is_finite (f32_div val total) = true /\ B2R (f32_div val total) = rnd32 (B2R val / B2R total).
Proof.
  apply div_correct; [exact Fv| |lra]. rewrite Rabs_pos_eq by lra.
  apply Rle_trans with (IZR two31); [lra|]. change (bpow radix2 32) with (IZR (2 ^ 32)). apply IZR_le. unfold two31. lia.
Qed.

Lemma ratio_le : forall b, generic_format radix2 fexp32 b -> (B2R val / B2R total <= b)%R ->
  (0 <= B2R (f32_div val total) <= b)%R.
Proof.
  intros b G H. destruct ratio32 as [_ E]. rewrite E. apply rnd32_range; auto.
  - apply generic_format_0.
  - pose proof ratio_range. lra.
Qed.

Lemma fifty : B2R (f32_of_Z 50) = 50%R /\ is_finite (f32_of_Z 50) = true.
Proof. destruct (of_Z_exact 50) as [A B]; [lia|]. split; assumption. Qed.

Lemma occupied_eq : bar_occupied val total 50 = Ok (Ztrunc (rnd32 (B2R (f32_div val total) * 50))) /\
  0 <= Ztrunc (rnd32 (B2R (f32_div val total) * 50)) <= 50.
Proof.
  destruct ratio32 as [F E]. destruct fifty as [A B].
  destruct (ratio_le 1) as [R1 R2]; [change 1%R with (IZR 1); apply int_format; lia|apply ratio_range|].
  destruct (mul32_correct (f32_div val total) (f32_of_Z 50) 50 F B) as [F' E'].
  - rewrite A. lra.
  - lia.
  - assert (X : 0 <= Ztrunc (rnd32 (B2R (f32_div val total) * 50)) <= 50).
    { apply (trunc_range _ 0 50); [|lia]. apply rnd32_range.
      - change 0%R with (IZR 0). apply int_format. lia.
      - apply int_format. lia.
      - lra. }
    split; [|exact X]. unfold bar_occupied, to_size. rewrite truncated_ok by exact F'. rewrite E', A.
    rewrite (proj2 (Z.leb_le _ _)) by lia. rewrite (proj2 (Z.ltb_lt _ _)) by (unfold two64; lia). reflexivity.
Qed.


(** If the bar is not complete, less than the whole width is occupied. *)
Lemma occupied_lt : (B2R val / B2R total <= 1 - bpow radix2 (-24))%R ->
  0 <= Ztrunc (rnd32 (B2R (f32_div val total) * 50)) <= 49.
Proof.
  intros H.
  (* the largest float below one, times fifty, rounded *)
  set (x := f32_div (f32_of_Z 16777215) (f32_of_Z 16777216)).
  assert (X : B2R x = (1 - bpow radix2 (-24))%R).
  { unfold x. rewrite <- SF2R_B2SF. match goal with |- context [B2SF ?u] => let v := eval vm_compute in (B2SF u) in change (B2SF u) with v end. unfold SF2R, F2R. cbn. lra. }
  assert (G : generic_format radix2 fexp32 (1 - bpow radix2 (-24))) by (rewrite <- X; apply generic_format_B2R).
  destruct (ratio_le _ G H) as [R1 R2].
  assert (Y : rnd32 ((1 - bpow radix2 (-24)) * 50) = (50 - bpow radix2 (-18))%R).
  { destruct fifty as [A B]. destruct (mul32_correct x (f32_of_Z 50) 50) as [_ E].
    - reflexivity.
    - exact B.
    - rewrite X, A. cbn. lra.
    - lia.
    - rewrite X, A in E. rewrite <- E. unfold x. rewrite <- SF2R_B2SF. match goal with |- context [B2SF ?u] => let v := eval vm_compute in (B2SF u) in change (B2SF u) with v end. unfold SF2R, F2R. cbn. lra. }
  assert (Z1 : (rnd32 (B2R (f32_div val total) * 50) <= 50 - bpow radix2 (-18))%R).
  { rewrite <- Y. apply round_le; try typeclasses eauto. lra. }
  assert (Z0 : (0 <= rnd32 (B2R (f32_div val total) * 50))%R).
  { apply round_ge_generic; try typeclasses eauto; [apply generic_format_0|lra]. }
  rewrite Ztrunc_floor by exact Z0. split.
  - apply Zfloor_lub. exact Z0.
  - assert (Zfloor (rnd32 (B2R (f32_div val total) * 50)) < 50); [|lia].
    apply lt_IZR. pose proof (Zfloor_lb (rnd32 (B2R (f32_div val total) * 50))). 
    assert (0 < bpow radix2 (-18))%R by apply bpow_gt_0. lra.
Qed.

Context (a b : Z) (A : B2R val = IZR a) (B : B2R total = IZR b).

Lemma percent_eq : bar_percent val total = Ok (100 * a / b + 1).
Proof.
  assert (Ha : 0 <= a <= b) by (rewrite A, B in V; destruct V; split; apply le_IZR; assumption).
  assert (Hb : 1 <= b <= two31) by (rewrite B in T; destruct T; split; apply le_IZR; assumption).
  assert (Rb : (1 <= IZR b)%R) by (apply IZR_le; lia).
  assert (K : 0 <= 100 * a / b <= 100).
  { split; [apply Z.div_pos; lia|]. apply Z.div_le_upper_bound; lia. }
  set (k := 100 * a / b) in *.
  assert (Q : (IZR k <= IZR (100 * a) / IZR b <= IZR (k + 1) - bpow radix2 (-31))%R).
  { pose proof (Z.div_mod (100 * a) b ltac:(lia)) as D. pose proof (Z.mod_pos_bound (100 * a) b ltac:(lia)) as M.
    fold k in D. set (m := (100 * a) mod b) in *.
    assert (E : (IZR (100 * a) / IZR b = IZR k + IZR m / IZR b)%R).
    { rewrite D, plus_IZR, mult_IZR. field. lra. }
    rewrite E. assert (I : (0 < / IZR b)%R) by (apply Rinv_0_lt_compat; lra).
    assert (M0 : (0 <= IZR m)%R) by (apply IZR_le; lia).
    assert (M1 : (IZR m <= IZR b - 1)%R) by (rewrite <- minus_IZR; apply IZR_le; lia).
    split.
    - assert (0 <= IZR m / IZR b)%R by (apply Rmult_le_pos; lra). lra.
    - assert (S : (IZR m / IZR b <= 1 - / IZR b)%R).
      { apply Rmult_le_reg_r with (IZR b); [lra|]. unfold Rdiv. rewrite Rmult_assoc, Rinv_l by lra.
        rewrite Rmult_minus_distr_r, Rinv_l by lra. lra. }
      assert (S' : (bpow radix2 (-31) <= / IZR b)%R).
      { change (bpow radix2 (-31)) with (/ IZR two31)%R. apply Rinv_le_contravar; [lra|]. apply IZR_le. lia. }
      rewrite plus_IZR. lra. }
  assert (U : forall z, 0 <= z <= 102 -> generic_format radix2 fexp64 (IZR z - bpow radix2 (-31))).
  { intros z Hz. replace (IZR z - bpow radix2 (-31))%R with (IZR (z * two31 - 1) * bpow radix2 (-31))%R.
    - apply dyadic_format; unfold two31; lia.
    - rewrite minus_IZR, mult_IZR, Rmult_minus_distr_r, Rmult_assoc.
      replace (IZR two31 * bpow radix2 (-31))%R with 1%R by (change (bpow radix2 (-31)) with (/ IZR two31)%R; field; apply IZR_neq; unfold two31; lia).
      lra. }
  assert (E31 : (0 < bpow radix2 (-31) < 1)%R) by (cbn; lra).
  unfold bar_percent. cbn [nadd ndiv nmul NumD].
  destruct (d_of_f32_ok val Fv) as [Dv Dvf]. destruct (d_of_f32_ok total Ft) as [Dt Dtf].
  destruct (d_of_Z_ok 100) as [H1 H1f]; [lia|]. destruct (d_of_Z_ok 1) as [O1 O1f]; [lia|].
  assert (PB : 0 <= 100 * a < 2 ^ 53) by (unfold two31 in *; lia).
  (* the product *)
  pose proof (Bmult_correct prec emax prec_pos prec_emax mode_NE (d_of_Z 100) (d_of_f32 val)) as C. cbn [round_mode] in C.
  rewrite H1, Dv, A, <- mult_IZR in C.
  rewrite (small64 (IZR (100 * a)) (100 * a)) in C; [|split; [apply IZR_le; lia|lra]|exact PB].
  destruct C as (C1 & C2 & _). rewrite H1f, Dvf in C2. cbn [andb] in C2.
  rewrite (round_generic radix2 fexp64 ZnearestE (IZR (100 * a))) in C1 by (apply int_format64; lia).
  set (p := Bmult mode_NE (d_of_Z 100) (d_of_f32 val)) in *.
  (* the quotient *)
  pose proof (Bdiv_correct prec emax prec_pos prec_emax mode_NE p (d_of_f32 total)) as C. cbn [round_mode] in C.
  rewrite Dt, B, C1 in C. specialize (C ltac:(lra)).
  assert (K0 : (0 <= IZR k)%R) by (apply IZR_le; lia).
  assert (K1 : (IZR (k + 1) <= 101)%R) by (apply IZR_le; lia).
  rewrite (small64 (IZR (100 * a) / IZR b) 101) in C; [|lra|lia].
  destruct C as (D1 & D2 & _). rewrite C2 in D2.
  destruct (rnd64_range (IZR (100 * a) / IZR b) (IZR k) (IZR (k + 1) - bpow radix2 (-31))) as [Q1 Q2];
    [apply int_format64; lia|apply U; lia|exact Q|].
  set (q := Bdiv mode_NE p (d_of_f32 total)) in *. rewrite <- D1 in Q1, Q2.
  (* the sum *)
  pose proof (Bplus_correct prec emax prec_pos prec_emax mode_NE q (d_of_Z 1) D2 O1f) as C. cbn [round_mode] in C.
  rewrite O1 in C. rewrite (small64 (B2R q + 1) 102) in C; [|rewrite plus_IZR in *; lra|lia].
  destruct C as (S1 & S2 & _).
  destruct (rnd64_range (B2R q + 1) (IZR (k + 1)) (IZR (k + 2) - bpow radix2 (-31))) as [W1 W2];
    [apply int_format64; lia|apply U; lia|rewrite !plus_IZR in *; lra|].
  rewrite <- S1 in W1, W2.
  unfold to_int. rewrite truncated_ok by exact S2.
  rewrite (trunc_nonneg _ (k + 1)); [|rewrite !plus_IZR in *; lra|lia].
  apply i32_ok. unfold two31. lia.
Qed.
End Bar.

(** ** Batch numbers *)

(** A rounded int is an integer. *)
Lemma rnd32_int : forall z, exists z', rnd32 (IZR z) = IZR z'.
Proof.
  intros z. destruct (Z_le_gt_dec (Z.abs z) (2 ^ 24)) as [H|H].
  - exists z. apply round_generic; [typeclasses eauto|]. apply int_format. assumption.
  - set (c := cexp radix2 fexp32 (IZR z)).
    assert (C : 0 <= c).
    { unfold c, cexp. rewrite fexp32_eq.
      assert (25 <= mag radix2 (IZR z))%Z; [|lia].
      apply mag_ge_bpow. change (bpow radix2 (25 - 1)) with (IZR (2 ^ 24)). rewrite <- abs_IZR. apply IZR_le. lia. }
    unfold round, F2R. cbn [Fnum Fexp]. fold c. rewrite <- IZR_Zpower by exact C. rewrite <- mult_IZR. eexists. reflexivity.
Qed.

(** The bar of batch [n] of [nb] *)
Lemma batch_facts : forall n nb, 0 <= n < nb -> nb <= two31 -> exists a b,
  B2R (f32_of_Z n) = IZR a /\ B2R (f32_of_Z nb) = IZR b /\ 0 <= a <= b /\ 1 <= b <= two31 /\
  is_finite (f32_of_Z n) = true /\ is_finite (f32_of_Z nb) = true /\ (nb <= 2 ^ 24 -> a = n /\ b = nb).
Proof.
  intros n nb H L. destruct (of_Z_correct n) as [A FA]; [lia|]. destruct (of_Z_correct nb) as [B FB]; [lia|].
  destruct (rnd32_int n) as [a Ea]. destruct (rnd32_int nb) as [b Eb].
  exists a, b. rewrite A, B. repeat split; auto; try apply le_IZR; try rewrite <- Ea; try rewrite <- Eb.
  - apply round_ge_generic; try typeclasses eauto; [apply generic_format_0|apply IZR_le; lia].
  - apply round_le; try typeclasses eauto. apply IZR_le. lia.
  - apply round_ge_generic; try typeclasses eauto; [apply int_format; lia|apply IZR_le; lia].
  - apply round_le_generic; try typeclasses eauto; [|apply IZR_le; lia].
    change (IZR two31) with (bpow radix2 31). apply generic_format_bpow. rewrite fexp32_eq. lia.
  - apply eq_IZR. rewrite <- Ea. apply round_generic; [typeclasses eauto|]. apply int_format. lia.
  - apply eq_IZR. rewrite <- Eb. apply round_generic; [typeclasses eauto|]. apply int_format. lia.
Qed.

Definition esc : ascii := "027"%char.
Definition cr : ascii := "013"%char.
(** What is written: the cursor is hidden, the line is overwritten, the cursor is shown again. *)
Definition framed (line : text) : text := [esc] ++ lit "[?25l" ++ [cr] ++ line ++ [esc] ++ lit "[?25h".

(** A line with [o] signs =, the percentage [p] and, between them, blanks up to the width *)
Definition bar_of (o p : Z) : text :=
  lit "[" ++ repeat "="%char (Z.to_nat o) ++ repeat " "%char (Z.to_nat (49 - o)) ++ lit "] " ++ pad_left " " 3 (dec p) ++ lit "%".

Lemma bar_line_eq : forall o p, 0 <= o <= 50 -> bar_line o (u64 (50 - o)) p = bar_of o p.
Proof.
  intros o p H. unfold bar_line, bar_of. rewrite !u64_id by (unfold two64; lia). rewrite !s32_id by (unfold two31; lia).
  unfold pad_right, pad_left at 1. cbn [lit list_ascii_of_string length]. rewrite <- !app_assoc. cbn [app]. f_equal.
  replace (Z.to_nat (o + 1) - 1)%nat with (Z.to_nat o) by lia. f_equal.
  replace (Z.to_nat (50 - o) - 1)%nat with (Z.to_nat (49 - o)) by lia. reflexivity.
Qed.

Lemma percent_width : forall p, 0 <= p <= 101 -> length (pad_left " " 3 (dec p)) = 3%nat.
Proof.
  intros p H. assert (X : forallb (fun k => Nat.eqb (length (pad_left " " 3 (dec (Z.of_nat k)))) 3) (seq 0 102) = true) by (vm_compute; reflexivity).
  rewrite forallb_forall in X. specialize (X (Z.to_nat p)). rewrite Z2Nat.id in X by lia.
  apply Nat.eqb_eq, X, in_seq. lia.
Qed.
Lemma bar_width : forall o p, 0 <= o <= 50 -> 0 <= p <= 101 -> length (bar_of o p) = if o =? 50 then 57%nat else 56%nat.
Proof.
  intros o p H P. unfold bar_of. rewrite !app_length, !repeat_length, percent_width by lia. cbn [lit list_ascii_of_string length].
  destruct (Z.eqb_spec o 50); lia.
Qed.

(** The bar that is written for a batch *)
Lemma batch_bar_eq : forall n nb, 0 <= n < nb -> nb <= two31 -> exists o p,
  batch_bar n nb = Ok (framed (bar_of o p)) /\ 0 <= o <= 50 /\ 1 <= p <= 101 /\
  (nb <= 2 ^ 24 -> o <= 49 /\ p = 100 * n / nb + 1).
Proof.
  intros n nb H L. destruct (batch_facts n nb H L) as (a & b & A & B & Ha & Hb & Fa & Fb & X).
  assert (V : (0 <= B2R (f32_of_Z n) <= B2R (f32_of_Z nb))%R) by (rewrite A, B; split; apply IZR_le; lia).
  assert (T : (1 <= B2R (f32_of_Z nb) <= IZR two31)%R) by (rewrite B; split; apply IZR_le; lia).
  destruct (occupied_eq _ _ Fa V T) as [E O]. pose proof (percent_eq _ _ Fa Fb V T a b A B) as P.
  eexists _, _. split.
  - unfold batch_bar, loading_bar. rewrite E, P. cbn [rbind]. rewrite bar_line_eq by exact O. reflexivity.
  - split; [exact O|]. split.
    + split; [assert (0 <= 100 * a / b) by (apply Z.div_pos; lia); lia|]. assert (100 * a / b <= 100) by (apply Z.div_le_upper_bound; lia). lia.
    + intros S. destruct (X S) as (-> & ->). split; [|reflexivity].
      apply occupied_lt; auto. rewrite A, B.
      apply Rmult_le_reg_r with (IZR nb); [apply IZR_lt; lia|]. unfold Rdiv. rewrite Rmult_assoc, Rinv_l by (apply IZR_neq; lia).
      rewrite Rmult_1_r, Rmult_minus_distr_r, Rmult_1_l.
      assert (N : (IZR n <= IZR nb - 1)%R) by (rewrite <- minus_IZR; apply IZR_le; lia).
      assert (M : (bpow radix2 (-24) * IZR nb <= 1)%R); [|lra].
      apply Rmult_le_reg_l with (bpow radix2 24); [apply bpow_gt_0|]. rewrite <- Rmult_assoc, <- bpow_plus. cbn [Z.add Z.pos_sub bpow]. 
      rewrite Rmult_1_l, Rmult_1_r. apply IZR_le. exact S.
Qed.
