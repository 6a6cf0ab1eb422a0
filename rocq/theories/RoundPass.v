(** Accuracy of softmax and of a whole forward pass with doubles. *)
From Coq Require Import ZArith Bool Lia Reals Lra Psatz List.
From Flocq Require Import Core BinarySingleNaN.
From Verif Require Import Base Dim Matrix View Num Expr Spec Iter Sums MatFacts MatThms ViewThms ExprThms Batch Kernel Connected Float32
  FloatFacts Pooling Activation Softmax LayerFacts KernelThms KernelGrad BatchThms ConnectedThms PoolingThms PoolGrad ActivationThms SoftmaxThms LayerTotal Calc Chars
  Double Bar BarFacts Model Net NetThms NetPass NetGrad ModelThms TrainNet TrainSgd Shapes ShapeNet Main ReportFacts FiniteFacts FiniteSoft FiniteInit FiniteNet FiniteReal
  FiniteMain Rounding RoundLayers RoundNet.
Import ListNotations.
Local Open Scope Z_scope.

Local Notation fexp64 := (SpecFloat.fexp prec emax).
Local Notation rnd64 := (round radix2 fexp64 ZnearestE).
#[local] Instance valid64 : Valid_exp fexp64 := fexp_correct prec emax prec_pos.
Local Notation fexp32 := (SpecFloat.fexp 24 128).
Local Notation rnd32 := (round radix2 fexp32 ZnearestE).
Local Notation pw := (bpow radix2).

(** *** Sums *)
Lemma rsum3_le : forall d f g, (forall x y z, inb d x y z -> (f x y z <= g x y z)%R) -> (rsum3 d f <= rsum3 d g)%R.
Proof.
  intros d f g H. assert (Q : (0 <= rsum3 d (fun x y z => g x y z + -1 * f x y z))%R) by (apply rsum3_nonneg; intros x y z I; specialize (H x y z I); lra).
  rewrite rsum3_plus, rsum3_scal in Q. lra.
Qed.
Lemma rsum3_top : forall d f c, fits d -> (forall x y z, inb d x y z -> (f x y z <= c)%R) -> (rsum3 d f <= IZR (vol d) * c)%R.
Proof.
  intros d f c F H. rewrite <- rsum3_storage by exact F. pose proof (fits_box d F). apply rsum_top; [lia|]. intros k Hk.
  destruct (position_case d k F Hk) as (x & y & z & I & -> & _). rewrite elem_no_lin by exact I. apply H. exact I.
Qed.
Lemma exp_step : forall t, (0 <= t <= / 2)%R -> (exp t <= 1 + 2 * t)%R.
Proof.
  intros t H. assert (A : (1 - t <= exp (- t))%R).
  { destruct (Req_dec t 0) as [->|N]; [rewrite Ropp_0, exp_0; lra|]. left. apply (exp_ineq1 (- t)). lra. }
  rewrite <- (Ropp_involutive t) at 1. rewrite exp_Ropp. apply Rle_trans with (/ (1 - t))%R; [apply Rinv_le; lra|].
  apply Rmult_le_reg_l with (1 - t)%R; [lra|]. rewrite Rinv_r by lra. nra.
Qed.

(** *** Softmax is not sensitive to changes of its arguments, or to a number added to all of them *)
Lemma soft_shift : forall d f m x y z, soft d (fun a b c => f a b c + m)%R x y z = soft d f x y z.
Proof.
  intros. unfold soft. rewrite (rsum3_ext d _ (fun a b c => exp m * exp (f a b c))%R) by (intros; rewrite exp_plus; ring).
  rewrite rsum3_scal, exp_plus. unfold Rdiv. rewrite Rinv_mult. pose proof (exp_pos m).
  transitivity (exp (f x y z) * / rsum3 d (fun a b c => exp (f a b c)) * (exp m * / exp m))%R; [ring|]. rewrite Rinv_r by lra. ring.
Qed.
Lemma soft_sens : forall d f g u x y z, inb d x y z -> (0 <= u <= / 4)%R -> (forall a b c, inb d a b c -> (Rabs (f a b c - g a b c) <= u)%R) ->
  (Rabs (soft d f x y z - soft d g x y z) <= 4 * u)%R.
Proof.
  intros d f g u x y z I U H.
  assert (G : forall f g, (forall a b c, inb d a b c -> (Rabs (f a b c - g a b c) <= u)%R) -> (soft d f x y z <= soft d g x y z + 4 * u)%R).
  { clear f g H. intros f g H. unfold soft. set (A := rsum3 d (fun a b c => exp (f a b c))). set (B := rsum3 d (fun a b c => exp (g a b c))).
    assert (B0 : (exp (g x y z) <= B)%R) by (apply (rsum3_ge_term d (fun a b c => exp (g a b c))); [exact I|intros; left; apply exp_pos]).
    assert (A0 : (exp (f x y z) <= A)%R) by (apply (rsum3_ge_term d (fun a b c => exp (f a b c))); [exact I|intros; left; apply exp_pos]).
    pose proof (exp_pos (g x y z)) as G0. pose proof (exp_pos (f x y z)) as F0. pose proof (exp_pos u) as U0.
    assert (BA : (B <= exp u * A)%R).
    { unfold B, A. rewrite <- rsum3_scal. apply rsum3_le. intros a b c Ia. rewrite <- exp_plus. apply exp_le. specialize (H a b c Ia). apply Rabs_le_inv in H. lra. }
    assert (FG : (exp (f x y z) <= exp u * exp (g x y z))%R) by (rewrite <- exp_plus; apply exp_le; specialize (H x y z I); apply Rabs_le_inv in H; lra).
    assert (Q : (exp (f x y z) / A <= exp (2 * u) * (exp (g x y z) / B))%R).
    { replace (2 * u)%R with (u + u)%R by ring. rewrite exp_plus. apply (div_le _ A); [lra|].
      replace (exp u * exp u * (exp (g x y z) / B) * A)%R with ((exp u * exp (g x y z)) * ((exp u * A) / B))%R by (unfold Rdiv; ring).
      rewrite <- (Rmult_1_r (exp (f x y z))). apply Rmult_le_compat; [lra|lra|exact FG|]. apply (le_div (exp u * A) B 1); lra. }
    assert (P : (0 <= exp (g x y z) / B <= 1)%R) by (split; [apply Rmult_le_pos; [lra|left; apply Rinv_0_lt_compat; lra]|apply (div_le _ B); lra]).
    pose proof (exp_step (2 * u) ltac:(lra)) as S. set (q := (exp (g x y z) / B)%R) in *. assert (exp (2 * u) * q <= (1 + 2 * (2 * u)) * q)%R by (apply Rmult_le_compat_r; lra).
    assert (4 * u * q <= 4 * u * 1)%R by (apply Rmult_le_compat_l; lra). lra. }
  pose proof (G f g H) as G1. assert (G2 : (soft d g x y z <= soft d f x y z + 4 * u)%R) by (apply G; intros a b c Ia; rewrite Rabs_minus_sym; apply H; exact Ia).
  apply Rabs_le. lra.
Qed.

(** *** Softmax of doubles *)
Theorem softmax_close : forall expT : double -> double, exp_ok expT -> exp_acc expT -> forall s (x : mat double) d f e, is_mat x d f -> fits d -> pos d -> labels_ok d (sm_count s) ->
  0 <= e <= 49 -> (forall a b c, inb d a b c -> within 1 e (f a b c)) ->
  exists o P, sm_forward expT s x = Ok o /\ is_mat o d P /\
    forall a b c, inb d a b c -> (Rabs (B2R (P a b c) - soft d (fun a b c => B2R (f a b c)) a b c) <= pw (e - 50) + IZR (vol d + 3) * pw (-51))%R.
Proof.
  intros expT EX EA s x d f e H F PO LO He WI. assert (FI : forall a b c, inb d a b c -> is_finite (f a b c) = true) by (intros; apply WI; assumption).
  destruct (mmax_double x d f H F PO FI) as (a0 & b0 & c0 & I0 & EM & _ & Mx & _).
  destruct (sm_forward_form _ _ expT s x d f (f a0 b0 c0) H F PO LO EM) as (o & Eo & Ho).
  set (m := f a0 b0 c0) in *. set (E := fun a b c => expT (nsub (f a b c) m)) in *. set (n := vol d) in *.
  change (fun a b c => expT (nsub (f a b c) m)) with E in Ho.
  eexists o, _. split; [exact Eo|]. split; [exact Ho|]. cbv beta.
  assert (FM : is_finite m = true) by (apply FI; exact I0).
  assert (N31 : 0 < n < 2 ^ 31).
  { split; [apply vol_pos_of; exact PO|]. pose proof (fits_vol d F) as V. unfold two31 in V. unfold n. lia. }
  set (u := pw (-53)). assert (U0 : (0 < u)%R) by apply pw_pos. assert (U1 : (u <= / 16)%R) by (unfold u; change (/ 16)%R with (pw (-4)); apply bpow_le; lia).
  (* the arguments of exp *)
  assert (TV : forall a b c, inb d a b c -> is_finite (nsub (f a b c) m) = true /\ (B2R (nsub (f a b c) m) <= 0)%R /\
    (Rabs (B2R (nsub (f a b c) m) - (B2R (f a b c) - B2R m)) <= pw (e - 52))%R).
  { intros a b c I. destruct (WI _ _ _ I) as (F1 & W1). destruct (WI _ _ _ I0) as (F2 & W2). fold m in W2. rewrite Rmult_1_l in W1, W2.
    assert (B1 : (Rabs (B2R (f a b c) - B2R m) <= pw (e + 1))%R).
    { rewrite bpow_plus. change (pw 1) with 2%R. apply Rabs_le_inv in W1. apply Rabs_le_inv in W2. apply Rabs_le. lra. }
    destruct (round_sum (f a b c) (Bopp m) F1 ltac:(rewrite is_finite_Bopp; exact FM)) as (r & R1 & R2). rewrite B2R_Bopp in R2.
    change (B2R (f a b c) + - B2R m)%R with (B2R (f a b c) - B2R m)%R in R2. fold u in R1.
    assert (B2 : (Rabs (rnd64 (B2R (f a b c) - B2R m) - (B2R (f a b c) - B2R m)) <= pw (e - 52))%R).
    { rewrite R2. replace ((B2R (f a b c) - B2R m) * (1 + r) - (B2R (f a b c) - B2R m))%R with ((B2R (f a b c) - B2R m) * r)%R by ring.
      rewrite Rabs_mult. replace (e - 52) with ((e + 1) + (-53)) by lia. rewrite bpow_plus. apply Rmult_le_compat; auto using Rabs_pos. }
    destruct (sub_low (f a b c) m F1 FM (Mx a b c I)) as [(A & B & C)|(_ & B)].
    - rewrite B in C |- *. auto.
    - exfalso. assert (pw (e + 1) <= pw 50)%R by (apply bpow_le; lia). assert (pw (e - 52) <= pw 50)%R by (apply bpow_le; lia). pose proof (pw_pos 50).
      assert (pw emax >= 8 * pw 50)%R by (change 8%R with (pw 3); rewrite pw_mul; apply Rle_ge, bpow_le; unfold emax; lia).
      apply Rabs_le_inv in B1. apply Rabs_le_inv in B2. lra. }
  set (t := fun a b c => B2R (nsub (f a b c) m)). set (A := rsum3 d (fun a b c => exp (t a b c))).
  assert (UE : forall a b c, inb d a b c -> unit_const (E a b c)).
  { intros a b c I. destruct (TV a b c I) as (T1 & T2 & _). apply (proj1 EX). left. auto. }
  assert (ER : forall a b c, inb d a b c -> (Rabs (B2R (E a b c) - exp (t a b c)) <= 2 * u * exp (t a b c) + pw (-1074))%R).
  { intros a b c I. destruct (TV a b c I) as (T1 & _ & _). destruct (UE a b c I) as (U & _). destruct (EA _ T1) as (Q & _). specialize (Q U). fold (t a b c) in Q.
    replace (2 * u)%R with (pw (-52)) by (unfold u; change 2%R with (pw 1); rewrite pw_mul; reflexivity). exact Q. }
  assert (A1 : forall a b c, inb d a b c -> (0 < exp (t a b c) <= 1)%R).
  { intros a b c I. destruct (TV a b c I) as (_ & T2 & _). split; [apply exp_pos|]. rewrite <- exp_0. apply exp_le. exact T2. }
  destruct (sum_unit n (elem_no d E) ltac:(lia)) as (_ & _ & T3 & T4).
  { intros k K. destruct (position_case d k F K) as (a & b & c & I & -> & _). rewrite elem_no_lin by exact I. apply UE. exact I. }
  set (S := nsum n (elem_no d E)) in *.
  assert (UM : B2R (E a0 b0 c0) = 1%R) by (destruct (sub_zero m m FM FM eq_refl) as (Z1 & Z2); apply exp_zero; assumption).
  assert (SG : (1 <= B2R S)%R).
  { specialize (T3 (lin d a0 b0 c0) (lin_range _ _ _ _ I0)). rewrite elem_no_lin in T3 by exact I0. rewrite UM in T3. exact T3. }
  assert (ES : rsum n (fun k => B2R (elem_no d E k)) = rsum3 d (fun a b c => B2R (E a b c))).
  { rewrite <- rsum3_storage by exact F. apply rsum_ext. intros k K. destruct (position_case d k F K) as (a & b & c & I & -> & _). rewrite !elem_no_lin by exact I. reflexivity. }
  rewrite ES in T4. set (SE := rsum3 d (fun a b c => B2R (E a b c))) in *. fold u in T4.
  set (N := IZR n) in *. assert (N1 : (1 <= N)%R) by (apply IZR_le; lia).
  assert (NU : (N * u <= / 4)%R).
  { assert (KL : (N <= IZR (2 ^ 31))%R) by (apply IZR_le; lia). apply Rle_trans with (IZR (2 ^ 31) * u)%R; [apply Rmult_le_compat_r; lra|].
    change (IZR (2 ^ 31)) with (pw 31). unfold u. rewrite pw_mul. change (/ 4)%R with (pw (-2)). apply bpow_le. lia. }
  assert (NT : (0 < N * pw (-1074) <= u)%R).
  { split; [apply Rmult_lt_0_compat; [lra|apply pw_pos]|]. assert (KL : (N <= IZR (2 ^ 31))%R) by (apply IZR_le; lia).
    apply Rle_trans with (IZR (2 ^ 31) * pw (-1074))%R; [apply Rmult_le_compat_r; [left; apply pw_pos|exact KL]|].
    change (IZR (2 ^ 31)) with (pw 31). rewrite pw_mul. apply bpow_le. lia. }
  assert (TT : (0 < pw (-1074) <= u)%R) by (split; [apply pw_pos|apply bpow_le; lia]).
  assert (A0 : (0 <= A)%R) by (apply rsum3_nonneg; intros; left; apply exp_pos).
  assert (E0 : (0 <= SE)%R) by (apply rsum3_nonneg; intros; apply UE; assumption).
  assert (TP : (rsum3 d (fun _ _ _ => pw (-1074)) <= N * pw (-1074))%R) by (apply rsum3_top; [exact F|intros; lra]).
  assert (AE : (SE <= A + (2 * u * A + N * pw (-1074)) /\ A <= SE + (2 * u * A + N * pw (-1074)))%R).
  { assert (K1 : (SE <= rsum3 d (fun a b c => exp (t a b c) + (2 * u * exp (t a b c) + pw (-1074))))%R).
    { apply rsum3_le. intros a b c I. pose proof (ER a b c I) as Q. apply Rabs_le_inv in Q. lra. }
    assert (K2 : (A <= rsum3 d (fun a b c => B2R (E a b c) + (2 * u * exp (t a b c) + pw (-1074))))%R).
    { apply rsum3_le. intros a b c I. pose proof (ER a b c I) as Q. apply Rabs_le_inv in Q. lra. }
    rewrite !rsum3_plus, rsum3_scal in K1, K2. fold A in K1, K2. fold SE in K2. lra. }
  assert (AP : (0 < A)%R).
  { apply Rlt_le_trans with (exp (t a0 b0 c0)); [apply exp_pos|]. apply (rsum3_ge_term d (fun a b c => exp (t a b c))); [exact I0|intros; left; apply exp_pos]. }
  assert (SU : (SE <= 4 / 3 * B2R S)%R).
  { assert (K : (SE * (3 / 4) <= SE * (1 - N * u))%R) by (apply Rmult_le_compat_l; lra). lra. }
  assert (NUp : (0 <= N * u)%R) by (apply Rmult_le_pos; lra).
  assert (SD : (Rabs (B2R S - SE) <= 8 / 3 * (N * u) * B2R S)%R).
  { assert (K : (SE * (N * u) <= 4 / 3 * B2R S * (N * u))%R) by (apply Rmult_le_compat_r; lra).
    assert (K0 : (0 <= SE * (N * u))%R) by (apply Rmult_le_pos; lra). apply Rabs_le. lra. }
  assert (A2 : (A <= 2 * B2R S)%R).
  { assert (K : (A * u <= A * / 16)%R) by (apply Rmult_le_compat_l; lra). lra. }
  assert (UA : (u * A <= u * (2 * B2R S))%R) by (apply Rmult_le_compat_l; lra).
  assert (US : (u * 1 <= u * B2R S)%R) by (apply Rmult_le_compat_l; lra).
  assert (DS : (Rabs (A - B2R S) <= (8 / 3 * (N * u) + 5 * u) * B2R S)%R) by (apply Rabs_le_inv in SD; apply Rabs_le; lra).
  intros a b c I. specialize (A1 a b c I). specialize (ER a b c I). destruct (UE a b c I) as (UF & UU). pose proof (TV a b c I) as (T1 & T2 & T5).
  assert (IS : (0 < / B2R S <= 1)%R) by (split; [apply Rinv_0_lt_compat; lra|rewrite <- Rinv_1; apply Rinv_le; lra]).
  assert (QE : (0 <= B2R (E a b c) / B2R S <= 1)%R) by (unfold Rdiv; split; [apply Rmult_le_pos; lra|nra]).
  assert (PV : B2R (ndiv (E a b c) S) = rnd64 (B2R (E a b c) / B2R S)).
  { apply (div_exact (E a b c) S 1); [exact UF|lra|exact cap_1|]. rewrite Rabs_pos_eq; apply QE. }
  destruct (round_any (B2R (E a b c) / B2R S)) as (r & h & Hr & Hh & RQ). fold u in Hr.
  set (q := (B2R (E a b c) / B2R S)%R) in *. set (p := (exp (t a b c) / A)%R).
  assert (AT : (exp (t a b c) <= A)%R) by (apply (rsum3_ge_term d (fun a b c => exp (t a b c))); [exact I|intros; left; apply exp_pos]).
  assert (PB : (0 <= p <= 1)%R) by (unfold p; split; [apply Rmult_le_pos; [lra|left; apply Rinv_0_lt_compat; exact AP]|apply (div_le _ A); lra]).
  assert (D1 : (Rabs (B2R (ndiv (E a b c) S) - q) <= 2 * u)%R).
  { rewrite PV, RQ. replace (q * (1 + r) + h - q)%R with (q * r + h)%R by ring. apply Rle_trans with (1 := Rabs_triang _ _). rewrite Rabs_mult, (Rabs_pos_eq q) by lra.
    assert (q * Rabs r <= 1 * u)%R by (apply Rmult_le_compat; auto using Rabs_pos; lra). assert (pw (-1075) <= u)%R by (apply bpow_le; lia). lra. }
  assert (D2 : (Rabs (q - p) <= 3 * u + (8 / 3 * (N * u) + 5 * u))%R).
  { assert (EQ : (q - p = (B2R (E a b c) - exp (t a b c)) * / B2R S + p * ((A - B2R S) * / B2R S))%R) by (unfold q, p; field; lra).
    rewrite EQ. apply Rle_trans with (1 := Rabs_triang _ _). apply Rplus_le_compat.
    - rewrite Rabs_mult, (Rabs_pos_eq (/ B2R S)) by lra. apply Rle_trans with ((3 * u) * 1)%R; [|lra]. apply Rmult_le_compat; [apply Rabs_pos|lra| |lra].
      assert (2 * u * exp (t a b c) <= 2 * u * 1)%R by (apply Rmult_le_compat_l; lra). lra.
    - rewrite !Rabs_mult, (Rabs_pos_eq p), (Rabs_pos_eq (/ B2R S)) by lra. set (K := (8 / 3 * (N * u) + 5 * u)%R) in *.
      assert (K1 : (Rabs (A - B2R S) * / B2R S <= K)%R) by (apply (div_le _ (B2R S)); lra).
      assert (K2 : (0 <= Rabs (A - B2R S) * / B2R S)%R) by (apply Rmult_le_pos; [apply Rabs_pos|lra]).
      rewrite <- (Rmult_1_l K). apply Rmult_le_compat; lra. }
  assert (D3 : (Rabs (p - soft d (fun a b c => B2R (f a b c)) a b c) <= pw (e - 50))%R).
  { change p with (soft d t a b c). rewrite <- (soft_shift d (fun a b c => B2R (f a b c)) (- B2R m)). replace (pw (e - 50)) with (4 * pw (e - 52))%R by (change 4%R with (pw 2); rewrite pw_mul; f_equal; lia).
    apply soft_sens; [exact I| |].
    - split; [left; apply pw_pos|]. change (/ 4)%R with (pw (-2)). apply bpow_le. lia.
    - intros a' b' c' I'. apply TV. exact I'. }
  replace (B2R (ndiv (E a b c) S) - soft d (fun a b c => B2R (f a b c)) a b c)%R with ((p - soft d (fun a b c => B2R (f a b c)) a b c) + ((B2R (ndiv (E a b c) S) - q) + (q - p)))%R by ring.
  apply Rle_trans with (1 := Rabs_triang _ _). apply Rplus_le_compat; [exact D3|]. apply Rle_trans with (1 := Rabs_triang _ _).
  replace (pw (-51)) with (4 * u)%R by (unfold u; change 4%R with (pw 2); rewrite pw_mul; reflexivity). rewrite plus_IZR. fold N. lra.
Qed.

(** *** All layers *)
Lemma real_out : forall s l d, s_out (real_layer s l) d = h_out s d.
Proof. intros [| | |] [] d; reflexivity. Qed.

Section Pass.
Variable E : env double.
Hypothesis EX : exp_ok (e_exp E).
Hypothesis EA : exp_acc (e_exp E).
Hypothesis TH : tanh_ok (e_tanh E).
Hypothesis TA : tanh_acc (e_tanh E).
Hypothesis CF : unit_const (e_c01f E).
Hypothesis CV : B2R (e_c01f E) = f01.
Hypothesis SQ : e_sqrt E = d_sqrt.
Hypothesis HR : forall k, 0 <= e_rand E k <= e_rmax E.
Hypothesis OD : Z.odd (e_rmax E) = true.
Hypothesis MX : 1 <= e_rmax E < 2 ^ 31.
Hypothesis RN : e_rnd E = d_float.

Theorem fwd_net_close : forall w ls ss d i x e g I F, net_fit ls ss d -> List.Forall (fun l => index_slot l i) ls -> h_net_ok ss d ->
  is_mat x d I -> (forall a b c, inb d a b c -> within 1 e (I a b c)) -> nearby g d I F ->
  net_small w ls ss d -> 0 <= w -> 0 <= e -> h_net_lim 127 w ss d e ->
  exists ls' rs o O, fwd_layers E ls x i = ORet ls' (rs, o) /\ is_mat o (h_net_out ss d) O /\
    (forall a b c, inb (h_net_out ss d) a b c -> within 1 (h_net_exp w ss d e) (O a b c)) /\
    nearby (h_net_err w ss d e g) (h_net_out ss d) O (net_sem (real_net ss ls') d F).
Proof.
  intros w. induction ls as [|l ls IH]; intros ss d i x e g I F HN HS OK HX BI CI HW Hw He HL; destruct ss as [|s ss]; cbn in HN; try contradiction.
  - exists [], [], x, I. cbn. auto.
  - destruct HN as [H1 H2]. destruct OK as [O1 O2]. inversion HS as [|? ? S1 S2]; subst. destruct HW as [W1 W2].
    cbn [h_net_lim] in HL. destruct HL as (L1 & L2). pose proof (FiniteNet.h_net_lim_head E MX _ _ _ _ _ L2) as L3. pose proof (h_exp_nonneg w s d e Hw He) as L4.
    destruct (fwd_close E EX EA TH TA CF CV SQ HR OD MX w l s d i x e g I F H1 S1 O1 HX BI CI W1 He Hw ltac:(lia) ltac:(lia)) as (l' & y & Y & Ey & Hy & By & Cy & _).
    destruct (h_ok_out _ _ O1) as [P2 F2]. destruct (record_small E RN _ y _ (ex_intro _ Y (conj Hy By)) P2 F2 ltac:(lia)) as (r & Er & _).
    destruct (IH ss (h_out s d) i y _ _ Y _ H2 S2 O2 Hy By Cy W2 Hw L4 L2) as (ls' & rs & o & O & Eo & Ho & Bo & Co).
    exists (l' :: ls'), (r :: rs), o, O. split; [cbn [fwd_layers]; rewrite Ey, Er, Eo; reflexivity|]. cbn [h_net_exp h_net_out h_net_err real_net net_sem].
    rewrite real_out. auto.
Qed.

(** The bound for the probabilities: errors of the last layer, of softmax, and of the conversion to float *)
Definition prob_err (w : Z) (ss : list shape) (d : dim3) (e g : Z) : R :=
  (pw (h_net_err w ss d e g + 2) + pw (h_net_exp w ss d e - 50) + IZR (vol (h_net_out ss d) + 3) * pw (-51) + pw (-25))%R.

Theorem pass_close : forall w body sm ss d n i e g U (cast : U -> double) (input : mat U) J F,
  net_fit body ss d -> sm_count sm = n -> List.Forall (fun l => index_slot l i) body -> h_net_ok ss d -> labels_ok (h_net_out ss d) n ->
  is_mat input d J -> (forall a b c, inb d a b c -> within 1 e (cast (J a b c))) -> nearby g d (fun a b c => cast (J a b c)) F ->
  net_small w body ss d -> 0 <= w -> 0 <= e -> h_net_lim 127 w ss d e -> h_net_exp w ss d e <= 49 -> h_net_err w ss d e g <= -2 ->
  exists body' x0 rs p r P, forward_pass E cast n input i (body ++ [LSoft sm]) = ORet (body' ++ [LSoft sm]) r /\
    r_inputs r = x0 :: rs ++ [p] /\ is_mat p (h_net_out ss d) P /\
    let X := net_sem (real_net ss body') d F in
    (forall a b c, inb (h_net_out ss d) a b c -> (Rabs (B2R (P a b c) - soft (h_net_out ss d) X a b c) <= prob_err w ss d e g)%R) /\
    exists a b c, inb (h_net_out ss d) a b c /\ r_label r = lin (h_net_out ss d) a b c /\ r_conf r = P a b c /\
      (exp_mono (e_exp E) -> exp_gap (e_exp E) ->
       forall a' b' c', inb (h_net_out ss d) a' b' c' -> (X a' b' c' <= X a b c + pw (h_net_err w ss d e g + 1) + pw (-50))%R).
Proof.
  intros w body sm ss d n i e g U cast input J F HN HC HS OK LO HJ BJ CJ HW Hw He HL LE LG.
  destruct (h_net_head _ _ OK) as [Pd Fd]. destruct (h_net_end _ _ OK) as [Po Fo].
  destruct (mat_of_lz_ok (n0 : double) cast (l_val input) tt d J Fd (pos_iterable d Pd) (is_mat_lz input d J tt HJ Fd)) as (x & Ex & Hx).
  pose proof (FiniteNet.h_net_lim_head E MX _ _ _ _ _ HL) as LH.
  destruct (record_small E RN e x d (ex_intro _ _ (conj Hx BJ)) Pd Fd ltac:(lia)) as (x0 & Ex0 & Hx0).
  destruct (fwd_net_close w body ss d i x e g _ F HN HS OK Hx BJ CJ HW Hw He HL) as (body' & rs & o & fo & Ef & Hfo & Bo & Co).
  set (od := h_net_out ss d) in *. set (X := net_sem (real_net ss body') d F) in *. set (G := h_net_err w ss d e g) in *.
  pose proof (h_net_exp_nonneg w ss d e Hw He) as E0.
  destruct (softmax_finite (e_exp E) EX sm o od fo Hfo Fo Po ltac:(rewrite HC; exact LO)) as (p & P & Ep & Hp & P1 & _).
  { intros. apply Bo. assumption. }
  destruct (softmax_close (e_exp E) EX EA sm o od fo (h_net_exp w ss d e) Hfo Fo Po ltac:(rewrite HC; exact LO) (conj E0 LE) Bo) as (p' & P' & Ep' & Hp' & Q).
  rewrite Ep in Ep'. injection Ep' as <-.
  destruct (float_copy_small E RN p od P Hp Po Fo) as (p0 & Ep0 & Hp0).
  assert (Ef2 : fwd_layers E (body ++ [LSoft sm]) x i = ORet (body' ++ [LSoft sm]) (rs ++ [p0], p)).
  { eapply fwd_layers_app; [exact Ef|]. cbn [fwd_layers l_forward]. rewrite Ep. cbn [lift]. rewrite Ep0. reflexivity. }
  destruct (mmax_double p od P Hp Fo Po ltac:(intros; apply P1; assumption)) as (a & b & c & Hi & _ & EI & Mx & _).
  assert (FE : forall a b c, inb od a b c -> B2R (d_float (P a b c)) = rnd32 (B2R (P a b c))).
  { intros a' b' c' I'. apply (d_float_ok _ 0); [lia|]. destruct (P1 _ _ _ I') as (A & B). split; [exact A|]. rewrite Rabs_pos_eq by lra. cbn [bpow]. lra. }
  pose proof LO as (_ & _ & LV).
  exists body', x0, rs, p0, (Results (lin od a b c) 0 (nsub n0 n1) (e_rnd E (P a b c)) (x0 :: rs ++ [p0])), (fun a b c => d_float (P a b c)).
  split.
  { unfold forward_pass, bind. rewrite Ex. cbn [lift]. rewrite Ex0. cbn [lift]. rewrite Ef2. cbn [snd fst].
    rewrite (is_mat_dim _ _ _ Hp), base_size_fits by exact Fo. cbn [lift].
    rewrite LV, Z.eqb_refl. cbn [ret]. rewrite EI. cbn [lift]. rewrite (is_mat_flat p _ _ a b c Hp Hi). reflexivity. }
  split; [reflexivity|]. split; [exact Hp0|]. cbv zeta. fold X. split.
  - intros a' b' c' I'. rewrite FE by exact I'. pose proof (rnd32_unit_error (B2R (P a' b' c')) (proj2 (P1 _ _ _ I'))) as Q1.
    specialize (Q a' b' c' I'). rewrite <- (is_mat_eq p od P P' Hp Hp' Fo _ _ _ I') in Q.
    assert (Q2 : (Rabs (soft od (fun a b c => B2R (fo a b c)) a' b' c' - soft od X a' b' c') <= pw (G + 2))%R).
    { replace (pw (G + 2)) with (4 * pw G)%R by (change 4%R with (pw 2); rewrite pw_mul; f_equal; lia). apply soft_sens; [exact I'| |exact Co].
      split; [left; apply pw_pos|]. change (/ 4)%R with (pw (-2)). apply bpow_le. exact LG. }
    unfold prob_err. fold od. fold G. set (k1 := (IZR (vol od + 3) * pw (-51))%R) in *. set (k2 := pw (h_net_exp w ss d e - 50)) in *. set (k3 := pw (-25)) in *. set (k4 := pw (G + 2)) in *.
    set (v1 := soft od X a' b' c') in *. set (v2 := soft od _ a' b' c') in *. set (v3 := rnd32 _) in *. set (v4 := B2R (P a' b' c')) in *. apply Rabs_le_inv in Q. apply Rabs_le_inv in Q1. apply Rabs_le_inv in Q2. apply Rabs_le. lra.
  - exists a, b, c. cbn [r_label r_conf]. rewrite RN. split; [exact Hi|]. split; [reflexivity|]. split; [reflexivity|]. intros EMo EG a' b' c' I'.
    destruct (label_soft (e_exp E) EX EMo sm o od fo Hfo Fo Po ltac:(rewrite HC; exact LO)) as (p2 & P2 & a2 & b2 & c2 & Ep2 & _ & EI2 & I2 & _ & _ & GP).
    { intros. apply Bo. assumption. }
    rewrite Ep in Ep2. injection Ep2 as <-. rewrite EI in EI2. injection EI2 as EL. apply lin_inj in EL; [|exact Hi|exact I2]. destruct EL as (-> & -> & ->).
    specialize (GP EG a' b' c' I'). pose proof (Co _ _ _ I') as C1. pose proof (Co _ _ _ I2) as C2. apply Rabs_le_inv in C1. apply Rabs_le_inv in C2.
    rewrite bpow_plus. change (pw 1) with 2%R. lra.
Qed.
End Pass.

(** The environment with correctly rounded functions *)
Lemma c_01f_val : B2R c_01f = f01.
Proof.
  unfold c_01f. rewrite lit_val. unfold f01. change (bpow radix2 (-56)) with (/ IZR (2 ^ 56))%R. change (2 ^ 56) with 72057594037927936.
  apply Rmult_eq_reg_r with (IZR 72057594037927936); [|apply not_0_IZR; lia]. lra.
Qed.
Definition acc_ok (E : env double) : Prop :=
  env_ok E /\ exp_acc (e_exp E) /\ tanh_acc (e_tanh E) /\ B2R (e_c01f E) = f01 /\ exp_mono (e_exp E) /\ exp_gap (e_exp E).
Lemma d_env_acc : forall rand, (forall k, 0 <= rand k <= 2 ^ 31 - 1) -> acc_ok (d_env rand).
Proof.
  intros rand H. split; [apply d_env_ok; exact H|]. cbn [d_env e_exp e_tanh e_c01f].
  split; [exact r_exp_acc|]. split; [exact r_tanh_acc|]. split; [exact c_01f_val|]. split; [exact r_exp_mono|exact r_exp_gap].
Qed.

(** ** The network of main.cpp with its initial parameters: probabilities within 2^-15 of those of exact arithmetic *)
Theorem main_close : forall E, acc_ok E -> forall u (cast : f32 -> double) (input : mat f32) J, is_mat input (D3 28 28 1) J ->
  (forall x y, 0 <= x < 28 -> 0 <= y < 28 -> within 1 8 (cast (J x y 0))) ->
  exists m body r pre p P, main_model E u = Ok m /\ forward_pass E cast 10 input 0 (map snd (m_layers m)) = ORet (body ++ [LSoft (sm_make 10)]) r /\
    r_inputs r = pre ++ [p] /\ is_mat p (D3 10 1 1) P /\
    let X := net_sem (real_net main_shapes body) (D3 28 28 1) (fun x y z => B2R (cast (J x y z))) in
    (forall k, 0 <= k < 10 -> (Rabs (B2R (P k 0%Z 0%Z) - soft (D3 10 1 1) X k 0 0) <= bpow radix2 (-15))%R) /\
    0 <= r_label r < 10 /\ r_conf r = P (r_label r) 0 0 /\ forall k, 0 <= k < 10 -> (X k 0%Z 0%Z <= X (r_label r) 0%Z 0%Z + bpow radix2 (-16))%R.
Proof.
  intros E ((EX & TH & LG & CF & CD & EP & SQ & RN & HR & OD & MX) & EA & TA & CV & EMo & EG) u cast input J HJ BJ.
  destruct (main_small E SQ HR OD MX u) as (m & body & EM & _ & LL & NF & IX & NS). destruct main_fits as (F1 & _ & F3).
  destruct (pass_close E EX EA TH TA CF CV SQ HR OD MX RN 0 body (sm_make 10) main_shapes (D3 28 28 1) 10 0 8 (-60) _ cast input J (fun x y z => B2R (cast (J x y z))) NF eq_refl IX F1 F3 HJ) as
    (body' & x0 & rs & p & r & P & EF & RI & HP & Q1 & a & b & c & Hi & LB & RC & Mx).
  - intros a b c (A & B & C). cbn [dx dy dz] in *. replace c with 0 by lia. apply BJ; lia.
  - intros a b c _. rewrite Rminus_diag_eq, Rabs_R0 by reflexivity. left. apply pw_pos.
  - exact NS.
  - lia.
  - lia.
  - vm_compute. intuition congruence.
  - vm_compute. congruence.
  - vm_compute. congruence.
  - specialize (Mx EMo EG). unfold prob_err in Q1. change (h_net_out main_shapes (D3 28 28 1)) with (D3 10 1 1) in *.
    change (h_net_err 0 main_shapes (D3 28 28 1) 8 (-60)) with (-18) in *. change (h_net_exp 0 main_shapes (D3 28 28 1) 8) with 12 in *.
    destruct Hi as (H1 & H2 & H3). cbn [dx dy dz] in *. assert (b = 0) by lia. assert (c = 0) by lia. subst b c.
    assert (LA : lin (D3 10 1 1) a 0 0 = a) by (unfold lin; cbn [dx dy dz]; lia). rewrite LA in LB.
    assert (IN : forall k, 0 <= k < 10 -> inb (D3 10 1 1) k 0 0) by (intros; unfold inb; cbn [dx dy dz]; lia).
    exists m, body', r, (x0 :: rs), p, P. rewrite LL. split; [exact EM|]. split; [exact EF|]. split; [exact RI|]. split; [exact HP|]. cbv zeta. split; [|split; [lia|split]].
    + intros k Hk. apply Rle_trans with (1 := Q1 k 0 0 (IN k Hk)). change (-18 + 2) with (-16). change (12 - 50) with (-38). change (vol (D3 10 1 1) + 3) with 13.
      assert (A1 : (pw (-38) <= pw (-18))%R) by (apply bpow_le; lia). assert (A2 : (13 * pw (-51) <= pw (-18))%R).
      { apply Rle_trans with (16 * pw (-51))%R; [pose proof (pw_pos (-51)); lra|]. change 16%R with (pw 4). rewrite pw_mul. apply bpow_le. lia. }
      assert (A3 : (pw (-25) <= pw (-18))%R) by (apply bpow_le; lia). pose proof (pw_pos (-18)).
      assert (A4 : (pw (-16) = 4 * pw (-18))%R) by (change 4%R with (pw 2); rewrite pw_mul; reflexivity).
      assert (A5 : (pw (-15) = 8 * pw (-18))%R) by (change 8%R with (pw 3); rewrite pw_mul; reflexivity). lra.
    + rewrite LB. exact RC.
    + intros k Hk. rewrite LB. apply Rle_trans with (1 := Mx k 0 0 (IN k Hk)). change (-18 + 1) with (-17).
      assert (A1 : (pw (-50) <= pw (-17))%R) by (apply bpow_le; lia). assert (A4 : (pw (-16) = 2 * pw (-17))%R) by (change 2%R with (pw 1); rewrite pw_mul; reflexivity). lra.
Qed.

(** ** Forms for the properties *)
Lemma extremes_finite : forall S (a : lz S double) s d f, is_lz a s d f -> fits d -> pos d -> (forall x y z, inb d x y z -> is_finite (f x y z) = true) ->
  (exists x y z, inb d x y z /\ mmax a s = Ok (f x y z) /\ max_index3 a s = Ok (D3 x y z) /\
    (forall x' y' z', inb d x' y' z' -> (B2R (f x' y' z') <= B2R (f x y z))%R) /\
    (forall x' y' z', inb d x' y' z' -> lin d x' y' z' < lin d x y z -> (B2R (f x' y' z') < B2R (f x y z))%R)) /\
  (exists x y z, inb d x y z /\ mmin a s = Ok (f x y z) /\ min_index3 a s = Ok (D3 x y z) /\
    (forall x' y' z', inb d x' y' z' -> (B2R (f x y z) <= B2R (f x' y' z'))%R) /\
    (forall x' y' z', inb d x' y' z' -> lin d x' y' z' < lin d x y z -> (B2R (f x y z) < B2R (f x' y' z'))%R)).
Proof.
  intros S a s d f H F P FI. split.
  - destruct (extremum_on (fun v : double => is_finite v = true) lt_max a s d f (double_order PMax) H F P FI) as (x & y & z & I & Q & A & B).
    exists x, y, z. split; [exact I|]. split; [unfold mmax; rewrite Q; reflexivity|]. split; [unfold max_index3; rewrite Q; reflexivity|]. split.
    + intros x' y' z' I'. specialize (A x' y' z' I'). unfold lt_max in A. rewrite ltb_R in A by auto. destruct (Rlt_bool_spec (B2R (f x y z)) (B2R (f x' y' z'))); [discriminate|lra].
    + intros x' y' z' I' L. specialize (B x' y' z' I' L). unfold lt_max in B. rewrite ltb_R in B by auto. destruct (Rlt_bool_spec (B2R (f x' y' z')) (B2R (f x y z))); [lra|discriminate].
  - destruct (extremum_on (fun v : double => is_finite v = true) lt_min a s d f (double_order PMin) H F P FI) as (x & y & z & I & Q & A & B).
    exists x, y, z. split; [exact I|]. split; [unfold mmin; rewrite Q; reflexivity|]. split; [unfold min_index3; rewrite Q; reflexivity|]. split.
    + intros x' y' z' I'. specialize (A x' y' z' I'). unfold lt_min in A. rewrite ltb_R in A by auto. destruct (Rlt_bool_spec (B2R (f x' y' z')) (B2R (f x y z))); [discriminate|lra].
    + intros x' y' z' I' L. specialize (B x' y' z' I' L). unfold lt_min in B. rewrite ltb_R in B by auto. destruct (Rlt_bool_spec (B2R (f x y z)) (B2R (f x' y' z'))); [lra|discriminate].
Qed.
Lemma pool_history_finite : forall t q1 q2 (x gr : mat double) sl1 sl2 s1 s2 g I G,
  geom_ok g -> has_geom q1 g -> q_type q1 = t -> vget (q_idx q1) sl1 = Ok s1 -> consistent s1 ->
  has_geom q2 g -> q_type q2 = t -> vget (q_idx q2) sl2 = Ok s2 -> consistent s2 ->
  is_mat x (xdim g) I -> (forall a b c, inb (xdim g) a b c -> is_finite (I a b c) = true) -> is_mat gr (odim g) G ->
  exists q1' q2' o r, q_forward x sl1 q1 = ORet q1' o /\ q_forward x sl2 q2 = ORet q2' o /\
    q_dx q1' x gr sl1 = Ok r /\ q_dx q2' x gr sl2 = Ok r /\
    (forall k, k <> sl1 -> 0 <= sl1 -> vget (q_idx q1') k = vget (q_idx q1) k).
Proof.
  intros t q1 q2 x gr sl1 sl2 s1 s2 g I G GO H1 T1 E1 C1 H2 T2 E2 C2 HX FI Hgr.
  exact (pool_history_on double _ (fun v : double => is_finite v = true) t q1 q2 x gr sl1 sl2 s1 s2 g I G (double_order t) GO H1 T1 E1 C1 H2 T2 E2 C2 HX FI Hgr).
Qed.
Lemma sigmoid_accuracy : forall e, exp_ok e -> exp_acc e -> forall v : double, is_finite v = true ->
  (Rabs (B2R (sigmoid_fcn e v) - / (1 + exp (- B2R v))) <= bpow radix2 (-50))%R.
Proof. intros e EX EA v F. rewrite <- sigmoid_R. apply sigmoid_close; assumption. Qed.
Lemma layer_close : forall E, acc_ok E -> forall w l s d i x e g I F, l_fit l s d -> index_slot l i -> h_ok s d -> is_mat x d I ->
  (forall a b c, inb d a b c -> within 1 e (I a b c)) -> nearby g d I F -> l_small w l s d -> 0 <= e -> 0 <= w -> e <= 970 -> h_exp w s d e <= 970 ->
  exists l' o O, l_forward E x i l = ORet l' o /\ is_mat o (h_out s d) O /\
    (forall a b c, inb (h_out s d) a b c -> within 1 (h_exp w s d e) (O a b c)) /\ nearby (h_err w s d e g) (h_out s d) O (sem (real_layer s l') d F).
Proof.
  intros E ((EX & TH & LG & CF & CD & EP & SQ & RN & HR & OD & MX) & EA & TA & CV & EMo & EG) w l s d i x e g I F H1 H2 H3 H4 H5 H6 H7 H8 H9 H10 H11.
  destruct (fwd_close E EX EA TH TA CF CV SQ HR OD MX w l s d i x e g I F H1 H2 H3 H4 H5 H6 H7 H8 H9 H10 H11) as (l' & o & O & A & B & C & D & _). exists l', o, O. auto.
Qed.
Lemma pass_accuracy : forall E, acc_ok E -> forall w body sm ss d n i e g U (cast : U -> double) (input : mat U) J F,
  net_fit body ss d -> sm_count sm = n -> List.Forall (fun l => index_slot l i) body -> h_net_ok ss d -> labels_ok (h_net_out ss d) n ->
  is_mat input d J -> (forall a b c, inb d a b c -> within 1 e (cast (J a b c))) -> nearby g d (fun a b c => cast (J a b c)) F ->
  net_small w body ss d -> 0 <= w -> 0 <= e -> h_net_lim 127 w ss d e -> h_net_exp w ss d e <= 49 -> h_net_err w ss d e g <= -2 ->
  exists body' x0 rs p r P, forward_pass E cast n input i (body ++ [LSoft sm]) = ORet (body' ++ [LSoft sm]) r /\
    r_inputs r = x0 :: rs ++ [p] /\ is_mat p (h_net_out ss d) P /\
    let X := net_sem (real_net ss body') d F in
    (forall a b c, inb (h_net_out ss d) a b c -> (Rabs (B2R (P a b c) - soft (h_net_out ss d) X a b c) <=
       bpow radix2 (h_net_err w ss d e g + 2) + bpow radix2 (h_net_exp w ss d e - 50) + IZR (vol (h_net_out ss d) + 3) * bpow radix2 (-51) + bpow radix2 (-25))%R) /\
    exists a b c, inb (h_net_out ss d) a b c /\ r_label r = lin (h_net_out ss d) a b c /\ r_conf r = P a b c /\
      forall a' b' c', inb (h_net_out ss d) a' b' c' -> (X a' b' c' <= X a b c + bpow radix2 (h_net_err w ss d e g + 1) + bpow radix2 (-50))%R.
Proof.
  intros E ((EX & TH & LG & CF & CD & EP & SQ & RN & HR & OD & MX) & EA & TA & CV & EMo & EG) w body sm ss d n i e g U cast input J F HN HC HS OK LO HJ BJ CJ HW Hw He HL LE LG2.
  destruct (pass_close E EX EA TH TA CF CV SQ HR OD MX RN w body sm ss d n i e g U cast input J F HN HC HS OK LO HJ BJ CJ HW Hw He HL LE LG2) as
    (body' & x0 & rs & p & r & P & A1 & A2 & A3 & A4 & a & b & c & B1 & B2 & B3 & B4).
  exists body', x0, rs, p, r, P. split; [exact A1|]. split; [exact A2|]. split; [exact A3|]. split; [exact A4|]. exists a, b, c. auto.
Qed.
Lemma label_accuracy : forall E, acc_ok E -> forall w body sm ss d n i e g U (cast : U -> double) (input : mat U) J F,
  net_fit body ss d -> sm_count sm = n -> List.Forall (fun l => index_slot l i) body -> h_net_ok ss d -> labels_ok (h_net_out ss d) n ->
  is_mat input d J -> (forall a b c, inb d a b c -> within 1 e (cast (J a b c))) -> nearby g d (fun a b c => cast (J a b c)) F ->
  net_small w body ss d -> 0 <= w -> 0 <= e -> h_net_lim 127 w ss d e -> h_net_exp w ss d e <= 49 -> h_net_err w ss d e g <= -2 ->
  exists body' r, forward_pass E cast n input i (body ++ [LSoft sm]) = ORet (body' ++ [LSoft sm]) r /\
    forall a b c, inb (h_net_out ss d) a b c ->
      (forall a' b' c', inb (h_net_out ss d) a' b' c' -> (a', b', c') <> (a, b, c) ->
        (net_sem (real_net ss body') d F a' b' c' + bpow radix2 (h_net_err w ss d e g + 1) + bpow radix2 (-50) < net_sem (real_net ss body') d F a b c)%R) ->
      r_label r = lin (h_net_out ss d) a b c.
Proof.
  intros E HE w body sm ss d n i e g U cast input J F HN HC HS OK LO HJ BJ CJ HW Hw He HL LE LG2.
  destruct (pass_accuracy E HE w body sm ss d n i e g U cast input J F HN HC HS OK LO HJ BJ CJ HW Hw He HL LE LG2) as
    (body' & x0 & rs & p & r & P & A1 & _ & _ & _ & a & b & c & B1 & B2 & _ & B4). cbv zeta in B4.
  exists body', r. split; [exact A1|]. intros a1 b1 c1 I1 Far. rewrite B2.
  destruct (Z.eq_dec a a1) as [->|N]; [destruct (Z.eq_dec b b1) as [->|N]; [destruct (Z.eq_dec c c1) as [->|N]; [reflexivity|]|]|];
    exfalso; specialize (Far _ _ _ B1 ltac:(congruence)); specialize (B4 _ _ _ I1); pose proof (pw_pos (h_net_err w ss d e g + 1)); pose proof (pw_pos (-50)); lra.
Qed.
Lemma main_black : forall u, let E := d_env (fun _ => 0) in exists m body r, main_model E u = Ok m /\
  forward_pass E d_of_f32 10 (Mat (D3 28 28 1) (repeat (B754_zero false) (Z.to_nat 784))) 0 (map snd (m_layers m)) = ORet (body ++ [LSoft (sm_make 10)]) r /\ 0 <= r_label r < 10.
Proof.
  intros u E.
  destruct (main_close E (d_env_acc (fun _ => 0) ltac:(intros; lia)) u d_of_f32 (Mat (D3 28 28 1) (repeat (B754_zero false) (Z.to_nat 784))) (fun _ _ _ => B754_zero false)) as (m & body & r & pre & p & P & A & B & _ & _ & _ & C & _).
  - assert (F0 : fits (D3 28 28 1)) by (vm_compute; intuition congruence). destruct (mat_fill_ok (D3 28 28 1) (B754_zero false : f32) F0) as (m & M1 & M2).
    rewrite mat_fill_eq in M1 by exact F0. injection M1 as <-. exact M2.
  - intros x y _ _. split; [reflexivity|]. cbn [d_of_f32 B2R]. rewrite Rabs_R0. apply Rmult_le_pos; [lra|left; apply pw_pos].
  - exists m, body, r. auto.
Qed.
