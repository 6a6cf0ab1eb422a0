(** Facts about the single-precision size computations of Float32.v. *)
From Coq Require Import ZArith Reals Lia Lra Bool Psatz.
From Flocq Require Import Core BinarySingleNaN.
From Verif Require Import Base Float32 Iter.
Local Open Scope Z_scope.

Local Notation fexp32 := (SpecFloat.fexp 24 128).
Local Notation rnd32 := (round radix2 fexp32 ZnearestE).

#[local] Instance valid32 : Valid_exp fexp32 := fexp_correct 24 128 prec32.

Lemma fexp32_eq : forall e, fexp32 e = Z.max (e - 24) (-149).
Proof. intros. unfold SpecFloat.fexp, SpecFloat.emin. f_equal; lia. Qed.

Lemma int_format : forall z, Z.abs z <= 2 ^ 24 -> generic_format radix2 fexp32 (IZR z).
Proof.
  intros z H.
  change fexp32 with (FLT_exp (SpecFloat.emin 24 128) 24).
  destruct (Z.eq_dec (Z.abs z) (2 ^ 24)) as [E|E].
  - assert (Hz : z = 2 ^ 24 \/ z = - 2 ^ 24) by lia.
    assert (G : generic_format radix2 (FLT_exp (SpecFloat.emin 24 128) 24) (bpow radix2 24)).
    { apply generic_format_bpow. unfold FLT_exp, SpecFloat.emin. lia. }
    destruct Hz as [-> | ->].
    + exact G.
    + rewrite opp_IZR. apply generic_format_opp. exact G.
  - apply generic_format_FLT. exists (Float radix2 z 0).
    + unfold F2R. cbn [Fnum Fexp bpow]. ring.
    + cbn [Fnum]. change (radix2 ^ 24) with (2 ^ 24). lia.
    + cbn [Fexp]. unfold SpecFloat.emin. lia.
Qed.

Lemma abs_le32 : forall x y, generic_format radix2 fexp32 y -> (Rabs x <= y)%R -> (Rabs (rnd32 x) <= y)%R.
Proof. intros. apply (abs_round_le_generic radix2 fexp32 ZnearestE); auto. Qed.

Lemma two31_format : forall z, - two31 <= z <= two31 -> (Rabs (rnd32 (IZR z)) <= bpow radix2 31)%R.
Proof.
  intros z H. apply abs_le32.
  - apply generic_format_bpow. rewrite fexp32_eq. lia.
  - change (bpow radix2 31) with (IZR two31). rewrite <- abs_IZR. apply IZR_le. unfold two31 in *. lia.
Qed.

Lemma of_Z_correct : forall z, - two31 <= z <= two31 ->
  B2R (f32_of_Z z) = rnd32 (IZR z) /\ is_finite (f32_of_Z z) = true.
Proof.
  intros z H. unfold f32_of_Z.
  pose proof (binary_normalize_correct 24 128 prec32 emax32 mode_NE z 0 false) as C.
  cbn zeta in C.
  assert (E : F2R (Float radix2 z 0) = IZR z) by (unfold F2R; cbn [Fnum Fexp bpow]; ring).
  rewrite E in C. cbn [round_mode] in C.
  assert (B : Rlt_bool (Rabs (rnd32 (IZR z))) (bpow radix2 128) = true).
  { apply Rlt_bool_true. apply Rle_lt_trans with (1 := two31_format z H). apply bpow_lt. lia. }
  rewrite B in C. destruct C as [C1 [C2 _]]. auto.
Qed.

Lemma of_Z_exact : forall z, Z.abs z <= 2 ^ 24 -> B2R (f32_of_Z z) = IZR z /\ is_finite (f32_of_Z z) = true.
Proof.
  intros z H. destruct (of_Z_correct z) as [A B]. { unfold two31. lia. }
  split; auto. rewrite A. apply round_generic; [ typeclasses eauto | apply int_format; auto ].
Qed.

Lemma ceil_correct : forall x : f32, is_finite x = true -> f32_ceil x = i32 (Zceil (B2R x)).
Proof.
  intros x H. destruct x as [s|s| |s m e p]; try discriminate H.
  - cbn. change 0%R with (IZR 0). rewrite Zceil_IZR. reflexivity.
  - cbn [f32_ceil B2R]. f_equal. unfold F2R. cbn [Fnum Fexp].
    replace (if s then Z.neg m else Z.pos m) with (SpecFloat.cond_Zopp s (Z.pos m)) by (destruct s; reflexivity).
    generalize (SpecFloat.cond_Zopp s (Z.pos m)) as n. intros n.
    destruct (Z.leb_spec 0 e) as [He|He].
    + rewrite <- IZR_Zpower by lia. rewrite <- mult_IZR. rewrite Zceil_IZR. reflexivity.
    + assert (P : 0 < 2 ^ (- e)) by (apply Z.pow_pos_nonneg; lia).
      replace (IZR n * bpow radix2 e)%R with (- (IZR (- n) / IZR (2 ^ (- e))))%R.
      * unfold Zceil. rewrite Ropp_involutive. rewrite Zfloor_div by lia. reflexivity.
      * replace e with (- - e) at 2 by lia. rewrite bpow_opp. rewrite <- IZR_Zpower by lia.
        change (radix2 ^ (- e)) with (2 ^ (- e)). rewrite opp_IZR. field. apply IZR_neq. lia.
Qed.

Lemma div_correct : forall x y : f32, is_finite x = true -> (Rabs (B2R x) <= bpow radix2 32)%R ->
  (1 <= B2R y)%R -> is_finite (f32_div x y) = true /\ B2R (f32_div x y) = rnd32 (B2R x / B2R y).
Proof.
  intros x y Fx Bx Hy. unfold f32_div.
  pose proof (Bdiv_correct 24 128 prec32 emax32 mode_NE x y) as C.
  assert (Ny : B2R y <> 0%R) by lra. specialize (C Ny).
  cbn [round_mode] in C.
  assert (A : (Rabs (B2R x / B2R y) <= bpow radix2 32)%R).
  { unfold Rdiv. rewrite Rabs_mult. rewrite (Rabs_right (/ B2R y)).
    - apply Rle_trans with (2 := Bx). rewrite <- (Rmult_1_r (Rabs (B2R x))) at 2.
      apply Rmult_le_compat_l; [ apply Rabs_pos | ]. rewrite <- Rinv_1. apply Rinv_le_contravar; lra.
    - left. apply Rinv_0_lt_compat. lra. }
  assert (B : Rlt_bool (Rabs (rnd32 (B2R x / B2R y))) (bpow radix2 128) = true).
  { apply Rlt_bool_true. apply Rle_lt_trans with (bpow radix2 32).
    - apply abs_le32; auto. apply generic_format_bpow. rewrite fexp32_eq. lia.
    - apply bpow_lt. lia. }
  rewrite B in C. destruct C as [C1 [C2 _]]. split; auto. rewrite C2. exact Fx.
Qed.

(** The rounded quotient of two integers below 2^24 has the same ceiling as the exact one. *)
Lemma round_ceil : forall n s, 0 <= n < 2 ^ 24 -> 1 <= s -> s <= 2 ^ 24 ->
  Zceil (rnd32 (IZR n / IZR s)) = (n + s - 1) / s.
Proof.
  intros n s Hn Hs Hs2.
  assert (Ps : (0 < IZR s)%R) by (apply IZR_lt; lia).
  pose proof (Z.div_mod n s ltac:(lia)) as DM. pose proof (Z.mod_pos_bound n s ltac:(lia)) as MB.
  set (q := n / s) in *. set (r := n mod s) in *.
  assert (Hq : 0 <= q) by (apply Z.div_pos; lia).
  assert (Hsq : 0 <= (s - 1) * q) by (apply Z.mul_nonneg_nonneg; lia).
  assert (Hqn : q <= n) by lia.
  destruct (Z.eq_dec r 0) as [Er|Er].
  - assert (E : (IZR n / IZR s = IZR q)%R).
    { rewrite DM, Er, Z.add_0_r, mult_IZR. field. lra. }
    rewrite E. rewrite round_generic; [ | typeclasses eauto | apply int_format; lia ].
    rewrite Zceil_IZR. apply Z.div_unique with (s - 1); lia.
  - replace ((n + s - 1) / s) with (q + 1) by (apply Z.div_unique with (r - 1); lia).
    assert (S2 : 2 <= s) by lia.
    assert (Q1 : q + 1 <= 2 ^ 24) by lia.
    assert (Ex : (IZR n / IZR s = IZR q + IZR r / IZR s)%R).
    { rewrite DM at 1. rewrite plus_IZR, mult_IZR. field. lra. }
    set (x := (IZR n / IZR s)%R) in *.
    assert (R1 : (1 <= IZR r)%R) by (apply IZR_le; lia).
    assert (R2 : (IZR r <= IZR s - 1)%R) by (rewrite <- minus_IZR; apply IZR_le; lia).
    assert (Lx : (IZR q + / IZR s <= x)%R).
    { rewrite Ex. apply Rplus_le_compat_l. unfold Rdiv. rewrite <- (Rmult_1_l (/ IZR s)) at 1.
      apply Rmult_le_compat_r; auto. left. apply Rinv_0_lt_compat; auto. }
    assert (Ux : (x <= IZR (q + 1))%R).
    { rewrite Ex, plus_IZR. apply Rplus_le_compat_l. apply Rle_trans with ((IZR s) / IZR s)%R.
      - unfold Rdiv. apply Rmult_le_compat_r; [ left; apply Rinv_0_lt_compat; auto | lra ].
      - right. field. lra. }
    assert (Hx0 : (0 < x)%R).
    { apply Rlt_le_trans with (2 := Lx). apply Rplus_le_lt_0_compat; [ apply IZR_le; lia | apply Rinv_0_lt_compat; auto ]. }
    apply Zceil_imp. split.
    + replace (q + 1 - 1) with q by lia.
      (* the error is less than 1/s *)
      assert (Err : (Rabs (rnd32 x - x) <= / 2 * ulp radix2 fexp32 x)%R) by (apply error_le_half_ulp; typeclasses eauto).
      assert (Hulp : (/ 2 * ulp radix2 fexp32 x < / IZR s)%R).
      { rewrite ulp_neq_0 by lra. unfold cexp. rewrite fexp32_eq.
        destruct (mag radix2 x) as [e He]. cbn [mag_val]. specialize (He ltac:(lra)).
        rewrite Rabs_right in He by lra. destruct He as [He1 He2].
        assert (Hs3 : (IZR s < bpow radix2 (25 - e))%R).
        { assert (Hm : (IZR s * bpow radix2 (e - 1) < bpow radix2 24)%R).
          { apply Rle_lt_trans with (IZR s * x)%R.
            - apply Rmult_le_compat_l; lra.
            - unfold x. replace (IZR s * (IZR n / IZR s))%R with (IZR n) by (field; lra).
              change (bpow radix2 24) with (IZR (2 ^ 24)). apply IZR_lt. lia. }
          replace (25 - e) with (24 - (e - 1)) by lia. unfold Zminus at 1. rewrite bpow_plus, bpow_opp.
          apply Rmult_lt_reg_r with (bpow radix2 (e - 1)). apply bpow_gt_0.
          rewrite Rmult_assoc, Rinv_l, Rmult_1_r; auto. apply Rgt_not_eq, bpow_gt_0. }
        assert (He3 : -23 <= e).
        { assert (L : (bpow radix2 (-24) < bpow radix2 e)%R).
          { apply Rle_lt_trans with (2 := He2). apply Rle_trans with (/ IZR s)%R.
            - change (-24) with (- (24)). rewrite bpow_opp. apply Rinv_le_contravar; auto.
              change (bpow radix2 24) with (IZR (2 ^ 24)). apply IZR_le. lia.
            - apply Rle_trans with (2 := Lx). assert (0 <= IZR q)%R by (apply IZR_le; lia). lra. }
          apply lt_bpow in L. lia. }
        rewrite Z.max_l by lia.
        replace (/ 2)%R with (bpow radix2 (-1)) by (cbn; lra).
        rewrite <- bpow_plus. replace (-1 + (e - 24)) with (- (25 - e)) by lia. rewrite bpow_opp.
        apply Rinv_lt_contravar; auto. apply Rmult_lt_0_compat; auto. apply bpow_gt_0. }
      apply Rabs_le_inv in Err. lra.
    + apply round_le_generic; [ typeclasses eauto | typeclasses eauto | apply int_format; lia | exact Ux ].
Qed.

Lemma ceil_div_exact : forall n s, 0 <= n < 2 ^ 24 -> 1 <= s -> s <= 2 ^ 24 -> ceil_div n s = Ok ((n + s - 1) / s).
Proof.
  intros n s Hn Hs Hs2. unfold ceil_div.
  destruct (of_Z_exact n ltac:(lia)) as [En Fn]. destruct (of_Z_exact s ltac:(lia)) as [Es Fs].
  destruct (div_correct (f32_of_Z n) (f32_of_Z s)) as [Fd Ed]; auto.
  - rewrite En, <- abs_IZR. change (bpow radix2 32) with (IZR (2 ^ 32)). apply IZR_le. lia.
  - rewrite Es. apply IZR_le. lia.
  - rewrite ceil_correct by auto. rewrite Ed, En, Es, round_ceil by lia.
    apply i32_ok. unfold two31.
    assert (0 <= (n + s - 1) / s) by (apply Z.div_pos; lia).
    assert ((n + s - 1) / s <= n + s - 1) by (apply Z.div_le_upper_bound; nia). lia.
Qed.

Lemma add_correct : forall a b, - two31 <= a <= two31 -> Z.abs b <= 2 ^ 24 ->
  let s := f32_add (f32_of_Z a) (f32_of_Z b) in
  is_finite s = true /\ B2R s = rnd32 (rnd32 (IZR a) + IZR b).
Proof.
  intros a b Ha Hb. cbv zeta. destruct (of_Z_correct a Ha) as [Ea Fa]. destruct (of_Z_exact b Hb) as [Eb Fb].
  pose proof (Bplus_correct 24 128 prec32 emax32 mode_NE _ _ Fa Fb) as C.
  cbn [round_mode] in C. rewrite Ea, Eb in C.
  assert (B : Rlt_bool (Rabs (rnd32 (rnd32 (IZR a) + IZR b))) (bpow radix2 128) = true).
  { apply Rlt_bool_true. apply Rle_lt_trans with (bpow radix2 32).
    - apply abs_le32. apply generic_format_bpow. rewrite fexp32_eq. lia.
      eapply Rle_trans. apply Rabs_triang. pose proof (two31_format a Ha).
      assert (Rabs (IZR b) <= IZR (2 ^ 24))%R by (rewrite <- abs_IZR; apply IZR_le; lia).
      change (bpow radix2 32) with (IZR (2 ^ 31 + 2 ^ 31)). rewrite plus_IZR.
      change (bpow radix2 31) with (IZR (2 ^ 31)) in *.
      assert (IZR (2 ^ 24) <= IZR (2 ^ 31))%R by (apply IZR_le; lia). lra.
    - apply bpow_lt. lia. }
  rewrite B in C. destruct C as [C1 [C2 _]]. unfold f32_add. auto.
Qed.

Lemma add_bound : forall a b, - two31 <= a <= two31 -> Z.abs b <= 2 ^ 24 ->
  (Rabs (B2R (f32_add (f32_of_Z a) (f32_of_Z b))) <= bpow radix2 32)%R.
Proof.
  intros a b Ha Hb. destruct (add_correct a b Ha Hb) as [_ E]. rewrite E.
  apply abs_le32. apply generic_format_bpow. rewrite fexp32_eq. lia.
  eapply Rle_trans. apply Rabs_triang. pose proof (two31_format a Ha).
  assert (Rabs (IZR b) <= IZR (2 ^ 24))%R by (rewrite <- abs_IZR; apply IZR_le; lia).
  change (bpow radix2 32) with (IZR (2 ^ 31 + 2 ^ 31)). rewrite plus_IZR.
  change (bpow radix2 31) with (IZR (2 ^ 31)) in *.
  assert (IZR (2 ^ 24) <= IZR (2 ^ 31))%R by (apply IZR_le; lia). lra.
Qed.

Lemma ceil_div1_exact : forall a s, -1 <= a < 2 ^ 24 - 1 -> 1 <= s -> s <= 2 ^ 24 ->
  ceil_div1 a s = Ok ((a + s) / s).
Proof.
  intros a s Ha Hs Hs2. unfold ceil_div1.
  destruct (of_Z_exact s ltac:(lia)) as [Es Fs].
  assert (R1 : - two31 <= a <= two31) by (unfold two31; lia).
  destruct (add_correct a 1 R1 ltac:(lia)) as [Fa Ea]. cbv zeta in *.
  assert (Ea' : B2R (f32_add (f32_of_Z a) (f32_of_Z 1)) = IZR (a + 1)).
  { rewrite Ea. rewrite (round_generic radix2 fexp32 ZnearestE (IZR a)) by (apply int_format; lia).
    rewrite <- plus_IZR. apply round_generic; [ typeclasses eauto | apply int_format; lia ]. }
  destruct (div_correct (f32_add (f32_of_Z a) (f32_of_Z 1)) (f32_of_Z s)) as [Fd Ed]; auto.
  - apply add_bound; auto; lia.
  - rewrite Es. apply IZR_le. lia.
  - rewrite ceil_correct by auto. rewrite Ed, Ea', Es, round_ceil by lia.
    replace (a + 1 + s - 1) with (a + s) by lia.
    apply i32_ok. unfold two31.
    assert (0 <= (a + s) / s) by (apply Z.div_pos; lia).
    assert ((a + s) / s <= a + s) by (apply Z.div_le_upper_bound; nia). lia.
Qed.

(** A pool that does not fit gives a size that is not positive, whatever the magnitudes. *)
Lemma ceil_div1_neg : forall a s, - two31 <= a <= -1 -> 1 <= s < two31 ->
  exists c, ceil_div1 a s = Ok c /\ c <= 0.
Proof.
  intros a s Ha Hs. unfold ceil_div1.
  destruct (of_Z_correct s ltac:(lia)) as [Es Fs].
  assert (R1 : - two31 <= a <= two31) by (unfold two31 in *; lia).
  destruct (add_correct a 1 R1 ltac:(lia)) as [Fa Ea]. cbv zeta in *.
  assert (S1 : (1 <= B2R (f32_of_Z s))%R).
  { rewrite Es. apply round_ge_generic; [ typeclasses eauto | typeclasses eauto | apply (int_format 1); lia | ].
    apply IZR_le. lia. }
  destruct (div_correct (f32_add (f32_of_Z a) (f32_of_Z 1)) (f32_of_Z s)) as [Fd Ed]; auto.
  { apply add_bound; auto; lia. }
  assert (Na : (B2R (f32_add (f32_of_Z a) (f32_of_Z 1)) <= 0)%R).
  { rewrite Ea. apply round_le_generic; [ typeclasses eauto | typeclasses eauto | apply generic_format_0 | ].
    assert (rnd32 (IZR a) <= IZR (-1))%R; [ | lra ].
    apply round_le_generic; [ typeclasses eauto | typeclasses eauto | apply int_format; lia | apply IZR_le; lia ]. }
  assert (Nd : (B2R (f32_add (f32_of_Z a) (f32_of_Z 1)) / B2R (f32_of_Z s) <= 0)%R).
  { assert (0 < / B2R (f32_of_Z s))%R by (apply Rinv_0_lt_compat; lra). unfold Rdiv. nra. }
  assert (Ld : (- IZR two31 <= B2R (f32_add (f32_of_Z a) (f32_of_Z 1)) / B2R (f32_of_Z s))%R).
  { assert (L1 : (- IZR two31 <= B2R (f32_add (f32_of_Z a) (f32_of_Z 1)))%R).
    { rewrite Ea. change (IZR two31) with (bpow radix2 31).
      apply round_ge_generic; [ typeclasses eauto | typeclasses eauto | | ].
      - apply generic_format_opp, generic_format_bpow. rewrite fexp32_eq. lia.
      - pose proof (two31_format a R1) as H. apply Rabs_le_inv in H. lra. }
    assert (0 < / B2R (f32_of_Z s))%R by (apply Rinv_0_lt_compat; lra).
    assert (/ B2R (f32_of_Z s) <= 1)%R by (rewrite <- Rinv_1; apply Rinv_le_contravar; lra).
    assert (0 < IZR two31)%R by (apply IZR_lt; unfold two31; lia).
    unfold Rdiv. nra. }
  exists (Zceil (B2R (f32_div (f32_add (f32_of_Z a) (f32_of_Z 1)) (f32_of_Z s)))).
  rewrite ceil_correct by auto. rewrite Ed.
  assert (U : (rnd32 (B2R (f32_add (f32_of_Z a) (f32_of_Z 1)) / B2R (f32_of_Z s)) <= 0)%R).
  { apply round_le_generic; [ typeclasses eauto | typeclasses eauto | apply generic_format_0 | exact Nd ]. }
  assert (L : (- IZR two31 <= rnd32 (B2R (f32_add (f32_of_Z a) (f32_of_Z 1)) / B2R (f32_of_Z s)))%R).
  { change (IZR two31) with (bpow radix2 31).
    apply round_ge_generic; [ typeclasses eauto | typeclasses eauto | | exact Ld ].
    apply generic_format_opp, generic_format_bpow. rewrite fexp32_eq. lia. }
  assert (C0 : Zceil (rnd32 (B2R (f32_add (f32_of_Z a) (f32_of_Z 1)) / B2R (f32_of_Z s))) <= 0)
    by (apply Zceil_glb; exact U).
  split; auto. apply i32_ok. split; [ | unfold two31; lia ].
  apply le_IZR. rewrite opp_IZR. eapply Rle_trans. exact L. apply Zceil_ub.
Qed.

(** A lower bound for sizes that are exact in single precision. *)
Lemma ceil_div1_neg_low : forall a s, - 2 ^ 24 <= a <= -1 -> 1 <= s < two31 ->
  exists c, ceil_div1 a s = Ok c /\ a + 1 <= c <= 0.
Proof.
  intros a s Ha Hs. destruct (ceil_div1_neg a s) as (c & E & C0); [unfold two31; lia|exact Hs|].
  exists c. split; [exact E|]. split; [|exact C0]. revert E. unfold ceil_div1.
  destruct (of_Z_correct s ltac:(lia)) as [Es Fs].
  assert (R1 : - two31 <= a <= two31) by (unfold two31 in *; lia).
  destruct (add_correct a 1 R1 ltac:(lia)) as [Fa Ea]. cbv zeta in *.
  assert (S1 : (1 <= B2R (f32_of_Z s))%R).
  { rewrite Es. apply round_ge_generic; [ typeclasses eauto | typeclasses eauto | apply (int_format 1); lia | ].
    apply IZR_le. lia. }
  destruct (div_correct (f32_add (f32_of_Z a) (f32_of_Z 1)) (f32_of_Z s)) as [Fd Ed]; auto.
  { apply add_bound; auto; lia. }
  assert (Ga : rnd32 (IZR a) = IZR a) by (apply round_generic; [typeclasses eauto|apply int_format; lia]).
  assert (Gb : B2R (f32_add (f32_of_Z a) (f32_of_Z 1)) = IZR (a + 1)).
  { rewrite Ea, Ga. rewrite <- plus_IZR. apply round_generic; [typeclasses eauto|apply int_format; lia]. }
  rewrite ceil_correct by auto. rewrite Ed, Gb.
  assert (Ld : (IZR (a + 1) <= IZR (a + 1) / B2R (f32_of_Z s))%R).
  { assert (0 < / B2R (f32_of_Z s))%R by (apply Rinv_0_lt_compat; lra).
    assert (/ B2R (f32_of_Z s) <= 1)%R by (rewrite <- Rinv_1; apply Rinv_le_contravar; lra).
    assert (IZR (a + 1) <= 0)%R by (apply IZR_le; lia). unfold Rdiv. nra. }
  assert (L : (IZR (a + 1) <= rnd32 (IZR (a + 1) / B2R (f32_of_Z s)))%R).
  { apply round_ge_generic; [ typeclasses eauto | typeclasses eauto | apply int_format; lia | exact Ld ]. }
  unfold i32. intro E. match type of E with (if ?b then _ else _) = _ => destruct b; [injection E as <-|discriminate] end.
  apply le_IZR. eapply Rle_trans; [exact L|apply Zceil_ub].
Qed.
