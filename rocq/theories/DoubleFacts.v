(** Facts about Double.v: what is written is the value rounded to millionths, what is read is the decimal value rounded
    to a double, and reading and writing again gives the same text. *)
From Coq Require Import ZArith List Bool String Ascii Reals Lia Lra Psatz SpecFloat.
From Flocq Require Import Core.Core IEEE754.BinarySingleNaN Calc.Bracket Relative.
From Verif Require Import Base Num Chars Double.
Import ListNotations.
Local Open Scope Z_scope.

Lemma sf_double_valid : forall s, valid_binary prec emax s = true -> B2SF (sf_double s) = s.
Proof.
  destruct s; intros H; try reflexivity. cbn [valid_binary] in H. unfold sf_double.
  destruct (bool_dec (bounded prec emax m e) true) as [H'|H']; [reflexivity|congruence].
Qed.

Definition radix10 : radix := Build_radix 10 eq_refl.

(** The value of the decimal m*10^x *)
Definition dec_val (neg : bool) (m x : Z) : R := ((if neg then -1 else 1) * (IZR m * bpow radix10 x))%R.

Definition rnd64 (x : R) : R := round radix2 (fexp prec emax) ZnearestE x.

Lemma place_in_ok : forall a d, 0 <= a -> 0 < d ->
  inbetween (IZR (a / d)) (IZR (a / d + 1)) (IZR a / IZR d) (place_in (a mod d) d).
Proof.
  intros a d A D. pose proof (Z.div_mod a d ltac:(lia)) as E. pose proof (Z.mod_pos_bound a d D) as M.
  assert (RD : (0 < IZR d)%R) by (apply IZR_lt; assumption).
  assert (V : (IZR a / IZR d = IZR (a / d) + IZR (a mod d) / IZR d)%R).
  { rewrite E at 1. rewrite plus_IZR, mult_IZR. field. lra. }
  unfold place_in. destruct (a mod d =? 0) eqn:Q.
  - apply inbetween_Exact. rewrite V. apply Z.eqb_eq in Q. rewrite Q. field. lra.
  - apply Z.eqb_neq in Q. assert (RM : (0 < IZR (a mod d) < IZR d)%R) by (split; apply IZR_lt; lia).
    assert (F : (0 < IZR (a mod d) / IZR d < 1)%R).
    { split; [apply Rdiv_lt_0_compat; lra|]. apply Rmult_lt_reg_r with (IZR d); [lra|]. unfold Rdiv. rewrite Rmult_assoc, Rinv_l by lra. lra. }
    apply inbetween_Inexact.
    + rewrite V, plus_IZR. lra.
    + rewrite V, plus_IZR.
      destruct (Z.compare_spec (2 * (a mod d)) d) as [C|C|C].
      * apply Rcompare_Eq. apply (f_equal IZR) in C. rewrite mult_IZR in C. rewrite <- C. field. lra.
      * apply Rcompare_Lt. apply IZR_lt in C. rewrite mult_IZR in C.
        assert (IZR (a mod d) / IZR d < / 2)%R; [|lra].
        apply Rmult_lt_reg_r with (IZR d); [lra|]. unfold Rdiv. rewrite Rmult_assoc, Rinv_l by lra. lra.
      * apply Rcompare_Gt. apply IZR_lt in C. rewrite mult_IZR in C.
        assert (/ 2 < IZR (a mod d) / IZR d)%R; [|lra].
        apply Rmult_lt_reg_r with (IZR d); [lra|]. unfold Rdiv. rewrite Rmult_assoc, Rinv_l by lra. lra.
Qed.

Lemma inbetween_scale : forall d u x l k, (0 < k)%R -> inbetween d u x l -> inbetween (d * k) (u * k) (x * k) l.
Proof.
  intros d u x l k K H. destruct H as [E|c E C].
  - apply inbetween_Exact. rewrite E. reflexivity.
  - apply inbetween_Inexact; [nra|]. rewrite <- C. replace ((d * k + u * k) / 2)%R with (((d + u) / 2) * k)%R by field.
    rewrite 2!(Rmult_comm _ k). apply Rcompare_mult_l. assumption.
Qed.

Lemma bpow10_pos : forall x, 0 <= x -> bpow radix10 x = IZR (10 ^ x).
Proof. intros. rewrite <- (IZR_Zpower radix10) by assumption. reflexivity. Qed.
Lemma bpow10_neg : forall x, x <= 0 -> bpow radix10 x = (/ IZR (10 ^ (- x)))%R.
Proof. intros. rewrite <- (Z.opp_involutive x) at 1. rewrite bpow_opp, bpow10_pos by lia. reflexivity. Qed.

Lemma double_of_dec_ok : forall neg m x, 0 < m ->
  let v := dec_val neg m x in
  let y := double_of_dec neg m x in
  if Rlt_bool (Rabs (rnd64 v)) (bpow radix2 emax)
  then B2R y = rnd64 v /\ is_finite y = true /\ Bsign y = neg
  else B2SF y = S754_infinity neg.
Proof.
  intros neg m x M v y. subst y. unfold double_of_dec. destruct (m =? 0) eqn:Q; [lia|]. clear Q.
  set (a := (if 0 <=? x then m * 10 ^ x else m) * 2 ^ 1074).
  set (d := if 0 <=? x then 1 else 10 ^ (- x)).
  assert (D : 0 < d) by (subst d; destruct (0 <=? x) eqn:Q; [lia|apply Z.pow_pos_nonneg; lia]).
  assert (PX : 0 <= x -> 0 < 10 ^ x) by (intros; apply Z.pow_pos_nonneg; lia).
  assert (A : 0 < a).
  { subst a. assert (0 < 2 ^ 1074) by (apply Z.pow_pos_nonneg; lia).
    destruct (0 <=? x) eqn:Q; [|nia]. specialize (PX ltac:(lia)). nia. }
  assert (RD : (0 < IZR d)%R) by (apply IZR_lt; assumption).
  assert (RM : (0 < IZR m)%R) by (apply IZR_lt; assumption).
  assert (V : Rabs v = (IZR a / IZR d * bpow radix2 (-1074))%R).
  { assert (P : (0 < bpow radix10 x)%R) by apply bpow_gt_0.
    assert (W : Rabs v = (IZR m * bpow radix10 x)%R).
    { subst v. unfold dec_val. assert (0 < IZR m * bpow radix10 x)%R by nra.
      destruct neg; [rewrite Rabs_left|rewrite Rabs_right]; lra. }
    rewrite W. subst a d. rewrite mult_IZR. replace (IZR (2 ^ 1074)) with (bpow radix2 1074) by (rewrite <- (IZR_Zpower radix2) by lia; reflexivity).
    assert (B : (bpow radix2 1074 * bpow radix2 (-1074) = 1)%R) by (rewrite <- bpow_plus; reflexivity).
    destruct (0 <=? x) eqn:Q.
    - rewrite mult_IZR, <- (bpow10_pos x) by lia. unfold Rdiv. rewrite Rinv_1.
      replace (IZR m * bpow radix10 x * bpow radix2 1074 * 1 * bpow radix2 (-1074))%R with
        (IZR m * bpow radix10 x * (bpow radix2 1074 * bpow radix2 (-1074)))%R by ring. rewrite B. ring.
    - rewrite (bpow10_neg x) by lia.
      replace (IZR m * bpow radix2 1074 / IZR (10 ^ - x) * bpow radix2 (-1074))%R with
        (IZR m * / IZR (10 ^ - x) * (bpow radix2 1074 * bpow radix2 (-1074)))%R by (unfold Rdiv; ring). rewrite B. ring. }
  assert (NZ : v <> 0%R).
  { intro Z0. rewrite Z0, Rabs_R0 in V. assert (0 < IZR a)%R by (apply IZR_lt; assumption).
    assert (0 < IZR a / IZR d)%R by (apply Rdiv_lt_0_compat; assumption). pose proof (bpow_gt_0 radix2 (-1074)). nra. }
  assert (SG : Rlt_bool v 0 = neg).
  { subst v. unfold dec_val. pose proof (bpow_gt_0 radix10 x). assert (0 < IZR m * bpow radix10 x)%R by nra.
    destruct neg; [apply Rlt_bool_true|apply Rlt_bool_false]; lra. }
  assert (I : inbetween_float radix2 (a / d) (-1074) (Rabs v) (place_in (a mod d) d)).
  { unfold inbetween_float, F2R. cbn [Fnum Fexp]. rewrite V. apply inbetween_scale; [apply bpow_gt_0|].
    apply place_in_ok; lia. }
  assert (C : -1074 <= cexp radix2 (fexp prec emax) v).
  { unfold cexp, fexp. change (SpecFloat.emin prec emax) with (-1074). apply Z.le_max_r. }
  pose proof (binary_round_aux_correct' prec emax prec_pos prec_emax mode_NE v (a / d) (-1074) _ NZ I C) as H.
  rewrite SG in H. cbv zeta in H. destruct H as [VB H].
  assert (E : B2SF (sf_double (binary_round_aux prec emax mode_NE neg (a / d) (-1074) (place_in (a mod d) d)))
              = binary_round_aux prec emax mode_NE neg (a / d) (-1074) (place_in (a mod d) d)) by (apply sf_double_valid; assumption).
  cbn [round_mode] in H. fold (rnd64 v) in H.
  destruct (Rlt_bool (Rabs (rnd64 v)) (bpow radix2 emax)).
  - rewrite <- E in H. destruct H as [H1 [H2 H3]]. rewrite SF2R_B2SF in H1.
    clear E VB. set (y := sf_double _) in *. clearbody y. repeat split; [assumption| |].
    + destruct y; (reflexivity || discriminate H2).
    + destruct y; (assumption || discriminate H2).
  - rewrite E, H. reflexivity.
Qed.

(** Rounding to millionths *)
Lemma rne_div_ok : forall a b, 0 <= a -> 0 < b -> rne_div a b = ZnearestE (IZR a / IZR b).
Proof.
  intros a b A B. pose proof (place_in_ok a b A B) as I. pose proof (Z.mod_pos_bound a b B) as M.
  assert (F : Zfloor (IZR a / IZR b) = a / b) by (apply Zfloor_div; lia).
  assert (V : (IZR a / IZR b - IZR (a / b) = IZR (a mod b) / IZR b)%R).
  { assert (0 < IZR b)%R by (apply IZR_lt; assumption).
    rewrite (Z.div_mod a b) at 1 by lia. rewrite plus_IZR, mult_IZR. field. lra. }
  assert (RB : (0 < IZR b)%R) by (apply IZR_lt; assumption).
  assert (CE : a mod b <> 0 -> Zceil (IZR a / IZR b) = a / b + 1).
  { intros NZ. apply Zceil_imp. replace (a / b + 1 - 1) with (a / b) by lia.
    assert (0 < IZR (a mod b) < IZR b)%R by (split; apply IZR_lt; lia).
    assert (0 < IZR (a mod b) / IZR b < 1)%R.
    { split; [apply Rdiv_lt_0_compat; lra|]. apply Rmult_lt_reg_r with (IZR b); [lra|]. unfold Rdiv. rewrite Rmult_assoc, Rinv_l by lra. lra. }
    rewrite plus_IZR. lra. }
  unfold rne_div, Znearest. rewrite F, V.
  assert (C : Rcompare (IZR (a mod b) / IZR b) (/ 2) = (2 * (a mod b) ?= b)).
  { destruct (Z.compare_spec (2 * (a mod b)) b) as [C|C|C].
    - apply Rcompare_Eq. apply (f_equal IZR) in C. rewrite mult_IZR in C. rewrite <- C. field. lra.
    - apply Rcompare_Lt. apply IZR_lt in C. rewrite mult_IZR in C.
      apply Rmult_lt_reg_r with (IZR b); [lra|]. unfold Rdiv. rewrite Rmult_assoc, Rinv_l by lra. lra.
    - apply Rcompare_Gt. apply IZR_lt in C. rewrite mult_IZR in C.
      apply Rmult_lt_reg_r with (IZR b); [lra|]. unfold Rdiv. rewrite Rmult_assoc, Rinv_l by lra. lra. }
  rewrite C. destruct (Z.compare_spec (2 * (a mod b)) b) as [C'|C'|C'].
  - rewrite CE by lia. destruct (Z.even (a / b)); reflexivity.
  - reflexivity.
  - rewrite CE by lia. reflexivity.
Qed.

Lemma micros_ok : forall m e, micros m e = ZnearestE (IZR (Z.pos m) * bpow radix2 e * 1000000).
Proof.
  intros m e. unfold micros. destruct (0 <=? e) eqn:Q.
  - assert (P : bpow radix2 e = IZR (2 ^ e)) by (rewrite <- (IZR_Zpower radix2) by lia; reflexivity).
    rewrite P, <- 2 mult_IZR. replace (Z.pos m * million * 2 ^ e) with (Z.pos m * 2 ^ e * 1000000) by (unfold million; ring).
    symmetry. apply Znearest_imp. rewrite Rminus_diag_eq, Rabs_R0 by reflexivity. lra.
  - rewrite rne_div_ok; [|unfold million; lia|apply Z.pow_pos_nonneg; lia]. f_equal.
    assert (P : bpow radix2 e = (/ IZR (2 ^ (- e)))%R).
    { rewrite <- (Z.opp_involutive e) at 1. rewrite bpow_opp. f_equal. rewrite <- (IZR_Zpower radix2) by lia. reflexivity. }
    rewrite P. unfold million. rewrite mult_IZR. unfold Rdiv. ring.
Qed.

(** Number of millionths written for a finite double *)
Definition micros_of (x : double) : Z := match x with B754_finite _ m e _ => micros m e | _ => 0 end.

Lemma micros_of_ok : forall x, is_finite x = true -> micros_of x = ZnearestE (Rabs (B2R x) * 1000000).
Proof.
  intros x H. destruct x as [s|s| |s m e B]; try discriminate H.
  - cbn. rewrite Rabs_R0, Rmult_0_l. symmetry. apply (Znearest_imp _ 0%R 0). rewrite Rminus_0_r, Rabs_R0. lra.
  - cbn [micros_of]. rewrite micros_ok. do 2 f_equal. cbn [B2R]. unfold F2R. cbn [Fnum Fexp].
    rewrite Rabs_mult, (Rabs_pos_eq (bpow _ _)) by apply bpow_ge_0. f_equal.
    rewrite <- abs_IZR. rewrite abs_cond_Zopp. reflexivity.
Qed.

Lemma put_double_fin : forall x, is_finite x = true -> put_double x = sign_text (Bsign x) ++ fixed6 (micros_of x).
Proof. intros x H. destruct x; try discriminate H; reflexivity. Qed.

Lemma Znearest_err : forall x, (Rabs (x - IZR (ZnearestE x)) <= / 2)%R.
Proof. intros x. rewrite Rabs_minus_sym. pose proof (Znearest_half (fun z => negb (Z.even z)) x). rewrite Rabs_minus_sym. assumption. Qed.

Lemma ZnearestE_tie : forall x k, Z.even k = true -> Rabs (x - IZR k) = (/ 2)%R -> ZnearestE x = k.
Proof.
  intros x k K H. unfold Rabs in H. destruct (Rcase_abs (x - IZR k)) as [N|N].
  - (* x = k - 1/2 *)
    assert (F : Zfloor x = k - 1). { apply Zfloor_imp. rewrite plus_IZR, minus_IZR. lra. }
    unfold Znearest. rewrite F, minus_IZR. rewrite Rcompare_Eq by lra.
    replace (Z.even (k - 1)) with false by (rewrite Z.even_sub, K; reflexivity). cbn [negb].
    apply Zceil_imp. rewrite minus_IZR. lra.
  - assert (F : Zfloor x = k). { apply Zfloor_imp. rewrite plus_IZR. lra. }
    unfold Znearest. rewrite F, Rcompare_Eq by lra. rewrite K. reflexivity.
Qed.

Lemma ZnearestE_tie_even : forall x, Rabs (x - IZR (ZnearestE x)) = (/ 2)%R -> Z.even (ZnearestE x) = true.
Proof.
  intros x. unfold Znearest.
  set (f := Zfloor x). destruct (Rcompare_spec (x - IZR f) (/ 2)) as [L|E|G]; intros H.
  - assert (0 <= x - IZR f)%R by (subst f; pose proof (Zfloor_lb x); lra). rewrite Rabs_pos_eq in H by assumption. lra.
  - assert (C : Zceil x = f + 1). { apply Zceil_imp. replace (f + 1 - 1) with f by lia. rewrite plus_IZR. lra. }
    destruct (Z.even f) eqn:Q; cbn [negb]; [assumption|]. rewrite C, Z.even_add, Q. reflexivity.
  - assert (C : Zceil x = f + 1). { apply Zceil_imp. replace (f + 1 - 1) with f by lia. pose proof (Zfloor_ub x). fold f in H0. rewrite plus_IZR. lra. }
    rewrite C, plus_IZR in H. rewrite Rabs_minus_sym in H.
    pose proof (Zfloor_ub x) as U. fold f in U. rewrite Rabs_pos_eq in H by lra. lra.
Qed.

Lemma rnd64_nearest : forall v (x : double), (Rabs (rnd64 v - v) <= Rabs (B2R x - v))%R.
Proof.
  intros. unfold rnd64. assert (VE : Valid_exp (fexp prec emax)) by (apply fexp_correct; exact prec_pos).
  apply (round_N_pt radix2 (fexp prec emax) (fun z => negb (Z.even z)) v). apply generic_format_B2R.
Qed.

(** The decimal value that is written *)
Definition shown (x : double) : R := dec_val (Bsign x) (micros_of x) (-6).

Lemma dec_val6 : forall s k, dec_val s k (-6) = ((if s then -1 else 1) * (IZR k / 1000000))%R.
Proof. intros. unfold dec_val. rewrite bpow10_neg by lia. reflexivity. Qed.

Lemma Bsign_val : forall x : double, is_finite x = true -> B2R x = ((if Bsign x then -1 else 1) * Rabs (B2R x))%R.
Proof.
  intros x H. destruct x as [s|s| |s m e B]; try discriminate H.
  - cbn. rewrite Rabs_R0. lra.
  - cbn [Bsign B2R]. unfold F2R. cbn [Fnum Fexp]. rewrite Rabs_mult, (Rabs_pos_eq (bpow _ _)) by apply bpow_ge_0.
    rewrite <- abs_IZR, abs_cond_Zopp. destruct s; cbn [cond_Zopp Z.abs]; [|ring]. rewrite opp_IZR. ring.
Qed.

Lemma shown_err : forall x : double, is_finite x = true -> (Rabs (shown x - B2R x) <= 5 / 10000000)%R.
Proof.
  intros x H. unfold shown. rewrite dec_val6, (micros_of_ok x H). rewrite (Bsign_val x H) at 2.
  pose proof (Znearest_err (Rabs (B2R x) * 1000000)) as E.
  set (k := IZR (ZnearestE (Rabs (B2R x) * 1000000))) in *. set (a := Rabs (B2R x)) in *. clearbody k a.
  replace ((if Bsign x then -1 else 1) * (k / 1000000) - (if Bsign x then -1 else 1) * a)%R
    with ((if Bsign x then -1 else 1) * ((k - a * 1000000) / 1000000))%R by field.
  rewrite Rabs_mult. replace (Rabs (if Bsign x then -1 else 1)) with 1%R by (destruct (Bsign x); [rewrite Rabs_left; lra|rewrite Rabs_right; lra]).
  rewrite Rmult_1_l. unfold Rdiv at 1. rewrite Rabs_mult, (Rabs_pos_eq (/ 1000000)) by lra. rewrite Rabs_minus_sym in E. lra.
Qed.

(** What is read back from the text of [x] *)
Definition reread (x : double) : double := double_of_dec (Bsign x) (micros_of x) (-6).

Lemma micros_nonneg : forall x, 0 <= micros_of x.
Proof.
  intros x. destruct x as [s|s| |s m e B]; cbn [micros_of]; try lia.
  unfold micros. destruct (0 <=? e) eqn:Q.
  - assert (0 < 2 ^ e) by (apply Z.pow_pos_nonneg; lia). unfold million. nia.
  - assert (P : 0 < 2 ^ (- e)) by (apply Z.pow_pos_nonneg; lia).
    pose proof (Z.div_pos (Z.pos m * million) (2 ^ (- e)) ltac:(unfold million; lia) P).
    unfold rne_div. destruct (_ ?= _); [destruct (Z.even _)| |]; lia.
Qed.

Lemma reread_val : forall x, is_finite x = true ->
  is_finite (reread x) = true /\ Bsign (reread x) = Bsign x /\ B2R (reread x) = rnd64 (shown x).
Proof.
  intros x H. pose proof (micros_nonneg x) as K. destruct (Z.eq_dec (micros_of x) 0) as [Z|NZ].
  - unfold reread, double_of_dec, shown. rewrite Z. cbn [Z.eqb]. split; [reflexivity|]. split; [reflexivity|].
    rewrite dec_val6. unfold rnd64. replace ((if Bsign x then -1 else 1) * (0 / 1000000))%R with 0%R by field.
    rewrite round_0; [reflexivity|apply valid_rnd_N].
  - pose proof (double_of_dec_ok (Bsign x) (micros_of x) (-6) ltac:(lia)) as D. cbv zeta in D.
    fold (reread x) in D. fold (shown x) in D. rewrite Rlt_bool_true in D.
    + destruct D as [D1 [D2 D3]]. auto.
    + pose proof (rnd64_nearest (shown x) x) as E1. pose proof (shown_err x H) as E2.
      pose proof (abs_B2R_le_emax_minus_prec prec emax prec_pos x) as E3.
      assert (E4 : (1 <= bpow radix2 (emax - prec))%R) by (change 1%R with (bpow radix2 0); apply bpow_le; unfold emax, prec; lia).
      rewrite Rabs_minus_sym in E2. set (w := shown x) in *. clearbody w.
      unfold Rabs in *. repeat destruct Rcase_abs; lra.
Qed.

Theorem reread_same : forall x, is_finite x = true ->
  is_finite (reread x) = true /\ Bsign (reread x) = Bsign x /\ micros_of (reread x) = micros_of x.
Proof.
  intros x H. destruct (reread_val x H) as [F [S V]]. split; [assumption|]. split; [assumption|].
  rewrite (micros_of_ok (reread x) F).
  pose proof (rnd64_nearest (shown x) x) as E1. rewrite <- V in E1.
  assert (W : (Rabs (Rabs (B2R (reread x)) * 1000000 - IZR (micros_of x)) = Rabs (B2R (reread x) - shown x) * 1000000)%R).
  { rewrite (Bsign_val (reread x) F) at 2. rewrite S. unfold shown. rewrite dec_val6.
    set (k := IZR (micros_of x)). set (a := Rabs (B2R (reread x))). clearbody k a.
    replace ((if Bsign x then -1 else 1) * a - (if Bsign x then -1 else 1) * (k / 1000000))%R
      with ((if Bsign x then -1 else 1) * ((a * 1000000 - k) / 1000000))%R by field.
    rewrite Rabs_mult. replace (Rabs (if Bsign x then -1 else 1)) with 1%R by (destruct (Bsign x); [rewrite Rabs_left; lra|rewrite Rabs_right; lra]).
    rewrite Rmult_1_l. unfold Rdiv. rewrite Rabs_mult, (Rabs_pos_eq (/ 1000000)) by lra. field. }
  assert (W' : (Rabs (Rabs (B2R x) * 1000000 - IZR (micros_of x)) = Rabs (B2R x - shown x) * 1000000)%R).
  { rewrite (Bsign_val x H) at 2. unfold shown. rewrite dec_val6.
    set (k := IZR (micros_of x)). set (a := Rabs (B2R x)). clearbody k a.
    replace ((if Bsign x then -1 else 1) * a - (if Bsign x then -1 else 1) * (k / 1000000))%R
      with ((if Bsign x then -1 else 1) * ((a * 1000000 - k) / 1000000))%R by field.
    rewrite Rabs_mult. replace (Rabs (if Bsign x then -1 else 1)) with 1%R by (destruct (Bsign x); [rewrite Rabs_left; lra|rewrite Rabs_right; lra]).
    rewrite Rmult_1_l. unfold Rdiv. rewrite Rabs_mult, (Rabs_pos_eq (/ 1000000)) by lra. field. }
  pose proof (Znearest_err (Rabs (B2R x) * 1000000)) as T. rewrite <- (micros_of_ok x H), W' in T.
  destruct (Rlt_or_le (Rabs (B2R (reread x) - shown x) * 1000000) (/ 2)) as [L|G].
  - apply Znearest_imp. rewrite W. assumption.
  - assert (T' : (Rabs (B2R x - shown x) * 1000000 = / 2)%R) by lra.
    apply ZnearestE_tie.
    + rewrite (micros_of_ok x H). apply ZnearestE_tie_even. rewrite <- (micros_of_ok x H), W'. assumption.
    + rewrite W. lra.
Qed.

(** Writing what was read gives the same text *)
Theorem put_reread : forall x, is_finite x = true -> put_double (reread x) = put_double x.
Proof.
  intros x H. destruct (reread_same x H) as [F [S M]]. rewrite 2 put_double_fin by assumption. rewrite S, M. reflexivity.
Qed.

Theorem reread_err : forall x, is_finite x = true ->
  (Rabs (B2R (reread x) - B2R x) <= 5 / 10000000 + Rabs (shown x) * bpow radix2 (-53))%R
  /\ (Rabs (B2R (reread x) - B2R x) <= 1 / 1000000)%R.
Proof.
  intros x H. destruct (reread_val x H) as [F [S V]]. pose proof (shown_err x H) as E.
  split.
  - assert (R : (Rabs (B2R (reread x) - shown x) <= Rabs (shown x) * bpow radix2 (-53))%R).
    { rewrite V. pose proof (micros_nonneg x) as K. destruct (Z.eq_dec (micros_of x) 0) as [Z|NZ].
      - assert (W0 : shown x = 0%R).
        { unfold shown. rewrite dec_val6, Z. destruct (Bsign x); field. }
        rewrite W0. unfold rnd64. rewrite round_0 by apply valid_rnd_N. rewrite Rminus_0_r, Rabs_R0. lra.
      - assert (A : (1 / 1000000 <= Rabs (shown x))%R).
        { unfold shown. rewrite dec_val6, Rabs_mult.
          replace (Rabs (if Bsign x then -1 else 1)) with 1%R by (destruct (Bsign x); [rewrite Rabs_left; lra|rewrite Rabs_right; lra]).
          assert (1 <= IZR (micros_of x))%R by (apply IZR_le; lia). rewrite Rabs_pos_eq; lra. }
        pose proof (relative_error_N_FLT radix2 (-1074) 53 eq_refl (fun z => negb (Z.even z)) (shown x)) as Q.
        replace (/ 2 * bpow radix2 (- (53) + 1))%R with (bpow radix2 (-53)) in Q.
        2: { change (/ 2)%R with (bpow radix2 (-1)). rewrite <- bpow_plus. reflexivity. }
        rewrite Rmult_comm. apply Q. apply Rle_trans with (2 := A).
        apply Rle_trans with (bpow radix2 (-20)); [apply bpow_le; lia|]. cbn. lra. }
    unfold Rabs in *. repeat destruct Rcase_abs; lra.
  - pose proof (rnd64_nearest (shown x) x) as E1. rewrite <- V in E1.
    unfold Rabs in *. repeat destruct Rcase_abs; lra.
Qed.
