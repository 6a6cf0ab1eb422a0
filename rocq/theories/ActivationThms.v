(** Activation layer. *)
From Coq Require Import ZArith List Bool Lia Reals Lra String.
From Coquelicot Require Import Coquelicot.
From Verif Require Import Base Dim Matrix View Num Expr Spec Iter MatFacts MatThms Batch Activation LayerFacts Calc PoolGrad.
Import ListNotations.
Local Open Scope Z_scope.

Section Generic.
Context {T : Type} {N : Num T} (expT tanhT : T -> T) (c01f c01 : T).

Theorem a_forward_ok : forall a (x : mat T) d f, is_mat x d f -> fits d -> iterable d ->
  exists o, a_forward expT tanhT c01f a x = Ok o /\ is_mat o d (fun i j k => act_fcn expT tanhT c01f a (f i j k)).
Proof.
  intros a x d f H F IT. unfold a_forward.
  apply (mat_of_lz_ok n0 (fun t => t) _ tt d (fun i j k => act_fcn expT tanhT c01f a (f i j k)) F IT). split.
  - cbn. apply (is_mat_dim _ _ _ H).
  - intros i j k I. cbn. rewrite (is_mat_read x d f i j k H F I). reflexivity.
Qed.

Lemma a_gradient_ok : forall a (z : mat T) d f, is_mat z d f -> fits d -> iterable d ->
  exists o, a_gradient expT tanhT c01 a z = Ok o /\ is_mat o d (fun i j k => act_grad expT tanhT c01 a (f i j k)).
Proof.
  intros a x d f H F IT. unfold a_gradient.
  apply (mat_of_lz_ok n0 (fun t => t) _ tt d (fun i j k => act_grad expT tanhT c01 a (f i j k)) F IT). split.
  - cbn. apply (is_mat_dim _ _ _ H).
  - intros i j k I. cbn. rewrite (is_mat_read x d f i j k H F I). reflexivity.
Qed.

Theorem a_backward_ok : forall a (z g : mat T) d f G, is_mat z d f -> is_mat g d G -> fits d -> iterable d ->
  exists r, a_backward expT tanhT c01 a z g = Ok r /\
    is_mat r d (fun i j k => nmul (G i j k) (act_grad expT tanhT c01 a (f i j k))).
Proof.
  intros a z g d f G HZ HG F IT. unfold a_backward. destruct (a_gradient_ok a z d f HZ F IT) as (e & E & HE). rewrite E. cbn [rbind].
  unfold mk_elem. cbn [ldim l_val]. rewrite (is_mat_dim _ _ _ HG), (is_mat_dim _ _ _ HE). unfold check_size. rewrite dim_eqb_refl. cbn [rbind].
  apply (mat_of_lz_ok n0 (fun t => t) _ tt d (fun i j k => nmul (G i j k) (act_grad expT tanhT c01 a (f i j k))) F IT). split.
  - reflexivity.
  - intros i j k I. cbn. rewrite (is_mat_read g d G i j k HG F I), (is_mat_read e d _ i j k HE F I). reflexivity.
Qed.

Theorem a_backward_size : forall a (z g : mat T) d e f G, is_mat z d f -> is_mat g e G -> fits d -> iterable d -> d <> e ->
  a_backward expT tanhT c01 a z g = Throw MatrixSize.
Proof.
  intros a z g d e f G HZ HG F IT NE. unfold a_backward. destruct (a_gradient_ok a z d f HZ F IT) as (m & E & HE). rewrite E. cbn [rbind].
  unfold mk_elem. cbn [ldim l_val]. rewrite (is_mat_dim _ _ _ HG), (is_mat_dim _ _ _ HE). unfold check_size.
  destruct (dim_eqb e d) eqn:Q; [|reflexivity]. apply dim_eqb_eq in Q. congruence.
Qed.
End Generic.

(** The functions over the real numbers. 0.1f is the single-precision number next to 0.1. *)
Local Open Scope R_scope.
Definition f01 : R := 13421773 / 134217728.
Definition d01 : R := 3602879701896397 / 36028797018963968.
Definition act_R : act -> R -> R := act_fcn exp tanh f01.
Definition actg_R : act -> R -> R := act_grad exp tanh d01.

Lemma Rltb_true : forall a b, Rltb a b = true <-> a < b.
Proof. intros. unfold Rltb. destruct (Rlt_dec a b); split; intros; try discriminate; try reflexivity; lra. Qed.
Lemma Rltb_false : forall a b, Rltb a b = false <-> b <= a.
Proof. intros. unfold Rltb. destruct (Rlt_dec a b); split; intros; try discriminate; try reflexivity; lra. Qed.

Lemma relu_R : forall v, act_R Relu v = Rmax 0 v.
Proof.
  intros. unfold act_R. cbn. unfold relu_fcn. cbn. destruct (Rltb 0 v) eqn:E.
  - apply Rltb_true in E. rewrite Rmax_right; lra.
  - apply Rltb_false in E. rewrite Rmax_left; lra.
Qed.
Lemma sigmoid_R : forall v, act_R Sigmoid v = / (1 + exp (- v)).
Proof. intros. unfold act_R. cbn. unfold sigmoid_fcn, nneg. cbn. unfold Rdiv. rewrite Rmult_1_l. replace (0 - v) with (- v) by ring. reflexivity. Qed.
Lemma leaky_R : forall v, act_R LeakyRelu v = Rmax (f01 * v) v.
Proof.
  intros. unfold act_R. cbn. unfold leaky_fcn. cbn. destruct (Rltb (f01 * v) v) eqn:E.
  - apply Rltb_true in E. rewrite Rmax_right; lra.
  - apply Rltb_false in E. rewrite Rmax_left; lra.
Qed.
Lemma leaky_cases : forall v, (0 <= v -> act_R LeakyRelu v = v) /\ (v <= 0 -> act_R LeakyRelu v = f01 * v).
Proof.
  intros v. rewrite leaky_R. unfold f01. split; intros.
  - apply Rmax_right. nra.
  - apply Rmax_left. nra.
Qed.

Lemma tanh_exp : forall v, tanh v = 1 - 2 / (exp (2 * v) + 1).
Proof.
  intros. unfold tanh, sinh, cosh. pose proof (exp_pos v). pose proof (exp_pos (2 * v)).
  rewrite exp_Ropp. replace (2 * v) with (v + v) in * by ring. rewrite exp_plus in *. field. split; nra.
Qed.
Lemma tanh_incr : forall u v, u < v -> tanh u < tanh v.
Proof.
  intros u v H. rewrite !tanh_exp. assert (exp (2 * u) < exp (2 * v)) by (apply exp_increasing; lra).
  pose proof (exp_pos (2 * u)). assert (2 / (exp (2 * v) + 1) < 2 / (exp (2 * u) + 1)); [|lra].
  apply Rmult_lt_compat_l; [lra|]. apply Rinv_lt_contravar; nra.
Qed.
Lemma tanh_bounds : forall v, -1 < tanh v < 1.
Proof.
  intros v. rewrite tanh_exp. pose proof (exp_pos (2 * v)).
  assert (0 < 2 / (exp (2 * v) + 1)) by (apply Rdiv_lt_0_compat; lra).
  assert (2 / (exp (2 * v) + 1) < 2); [|lra].
  apply (Rmult_lt_reg_r (exp (2 * v) + 1)); [lra|]. unfold Rdiv. rewrite Rmult_assoc, Rinv_l by lra. lra.
Qed.
Lemma sigmoid_bounds : forall v, 0 < act_R Sigmoid v < 1.
Proof.
  intros. rewrite sigmoid_R. pose proof (exp_pos (- v)). split; [apply Rinv_0_lt_compat; lra|].
  rewrite <- Rinv_1 at 2. apply Rinv_lt_contravar; lra.
Qed.

(** C35: ranges and monotonicity. *)
Theorem act_shape : forall a u v, u <= v -> act_R a u <= act_R a v.
Proof.
  intros a u v H. destruct a.
  - rewrite !relu_R. apply Rle_max_compat_l. exact H.
  - rewrite !sigmoid_R. pose proof (exp_pos (- u)). pose proof (exp_pos (- v)). apply Rinv_le_contravar; [lra|].
    apply Rplus_le_compat_l. destruct H as [H| ->]; [left; apply exp_increasing; lra|right; reflexivity].
  - exact H.
  - change (tanh u <= tanh v). destruct H as [H| ->]; [left; apply tanh_incr; exact H|right; reflexivity].
  - destruct (leaky_cases u) as (A & B). destruct (leaky_cases v) as (C & D). unfold f01 in *.
    destruct (Rle_dec 0 u), (Rle_dec 0 v); [rewrite A, C by lra; exact H|lra|rewrite B, C by lra; lra|rewrite B, D by lra; lra].
Qed.

Theorem act_ranges : forall v, 0 <= act_R Relu v /\ 0 < act_R Sigmoid v < 1 /\ -1 < act_R Tangent v < 1 /\ act_R Linear v = v /\
  (0 <= v -> act_R Relu v = v /\ act_R LeakyRelu v = v) /\ (v <= 0 -> act_R Relu v = 0 /\ act_R LeakyRelu v = f01 * v).
Proof.
  intros v. split; [rewrite relu_R; apply Rmax_l|]. split; [apply sigmoid_bounds|]. split; [apply tanh_bounds|]. split; [reflexivity|].
  split; intros H; (split; [rewrite relu_R|apply leaky_cases; exact H]); [apply Rmax_right|apply Rmax_left]; exact H.
Qed.

(** The derivative table is right at every input where the function is differentiable, except for the leaky slope. *)
Lemma tanh_derive : forall v, is_derive tanh v (1 - tanh v * tanh v).
Proof.
  intros v. unfold tanh, sinh, cosh. pose proof (exp_pos v). pose proof (exp_pos (- v)).
  auto_derive; [lra|]. field. lra.
Qed.
Lemma sigmoid_derive : forall v, is_derive (act_R Sigmoid) v (act_R Sigmoid v * (1 - act_R Sigmoid v)).
Proof.
  intros v. apply (is_derive_ext (fun v => / (1 + exp (- v)))); [intros; symmetry; apply sigmoid_R|].
  rewrite sigmoid_R. pose proof (exp_pos (- v)). auto_derive; [lra|]. field. lra.
Qed.
Lemma locally_pos : forall v : R, 0 < v -> locally v (fun t => 0 < t).
Proof. intros. apply (open_gt 0). exact H. Qed.
Lemma locally_neg : forall v : R, v < 0 -> locally v (fun t => t < 0).
Proof. intros. apply (open_lt 0). exact H. Qed.

Theorem act_table : forall a v, (a = Relu -> v <> 0) -> (a = LeakyRelu -> 0 < v) -> is_derive (act_R a) v (actg_R a v).
Proof.
  intros a v NR NL. destruct a.
  - specialize (NR eq_refl). change (actg_R Relu v) with (if Rltb 0 v then 1 else 0). destruct (Rltb 0 v) eqn:E.
    + apply Rltb_true in E. apply (is_derive_ext_loc (fun t => t)); [|apply @is_derive_id].
      eapply filter_imp; [|apply (locally_pos v E)]. intros t Ht. rewrite relu_R, Rmax_right; lra.
    + apply Rltb_false in E. apply (is_derive_ext_loc (fun t => 0)); [|apply @is_derive_const].
      eapply filter_imp; [|apply (locally_neg v); lra]. intros t Ht. rewrite relu_R, Rmax_left; lra.
  - apply sigmoid_derive.
  - apply @is_derive_id.
  - apply tanh_derive.
  - specialize (NL eq_refl). change (actg_R LeakyRelu v) with (if Rltb 0 v then 1 else d01). rewrite (proj2 (Rltb_true 0 v) NL).
    apply (is_derive_ext_loc (fun t => t)); [|apply @is_derive_id].
    eapply filter_imp; [|apply (locally_pos v NL)]. intros t Ht. symmetry. apply leaky_cases. lra.
Qed.

Lemma leaky_derive_neg : forall v, v < 0 -> is_derive (act_R LeakyRelu) v f01.
Proof.
  intros v H. apply (is_derive_ext_loc (fun t => f01 * t)).
  - eapply filter_imp; [|apply (locally_neg v H)]. intros t Ht. symmetry. apply leaky_cases. lra.
  - auto_derive; [trivial|ring].
Qed.

(** What the backward pass multiplies with: the table at the output of the layer. *)
Definition act_smooth (a : act) (v : R) : Prop :=
  match a with Relu => v <> 0 | Linear => True | LeakyRelu => 0 < v | _ => False end.

Theorem act_output_derive : forall a v, act_smooth a v -> is_derive (act_R a) v (actg_R a (act_R a v)).
Proof.
  intros a v S. destruct a; cbn in S; try contradiction.
  - replace (actg_R Relu (act_R Relu v)) with (actg_R Relu v); [apply act_table; [intros _; exact S|discriminate]|].
    rewrite relu_R. unfold actg_R. cbn. unfold relu_grad. cbn. destruct (Rlt_dec 0 v).
    + rewrite Rmax_right by lra. reflexivity.
    + rewrite Rmax_left by lra. rewrite (proj2 (Rltb_false 0 v)) by lra. rewrite (proj2 (Rltb_false 0 0)) by lra. reflexivity.
  - apply act_table; discriminate.
  - replace (act_R LeakyRelu v) with v by (symmetry; apply leaky_cases; lra). apply act_table; [discriminate|intros _; exact S].
Qed.

(** Negative side of the leaky function: the factor 0.1 is used, the slope is 0.1f. *)
Theorem leaky_output_error : forall v, v < 0 ->
  is_derive (act_R LeakyRelu) v f01 /\ actg_R LeakyRelu (act_R LeakyRelu v) = d01 /\ 0 < f01 - d01 < 2 / 1000000000.
Proof.
  intros v H. split; [apply leaky_derive_neg; exact H|]. split.
  - rewrite (proj2 (leaky_cases v)) by lra. unfold actg_R. cbn. unfold leaky_grad. cbn. rewrite (proj2 (Rltb_false 0 (f01 * v))); [reflexivity|]. unfold f01. lra.
  - unfold f01, d01. lra.
Qed.

Theorem sigmoid_output_wrong : exists v d, is_derive (act_R Sigmoid) v d /\ actg_R Sigmoid (act_R Sigmoid v) <> d.
Proof.
  exists 0, (1 / 4). split.
  - replace (1 / 4) with (act_R Sigmoid 0 * (1 - act_R Sigmoid 0)); [apply sigmoid_derive|]. rewrite sigmoid_R, Ropp_0, exp_0. field.
  - rewrite (sigmoid_R 0), Ropp_0, exp_0. change (act_R Sigmoid (/ (1 + 1)) * (1 - act_R Sigmoid (/ (1 + 1))) <> 1 / 4).
    assert (L : / 2 < act_R Sigmoid (/ (1 + 1))).
    { rewrite sigmoid_R. assert (exp (- / (1 + 1)) < exp 0) by (apply exp_increasing; lra). rewrite exp_0 in H.
      pose proof (exp_pos (- / (1 + 1))). apply Rinv_lt_contravar; nra. }
    nra.
Qed.

Theorem tanh_output_wrong : exists v d, is_derive (act_R Tangent) v d /\ actg_R Tangent (act_R Tangent v) <> d.
Proof.
  exists 1, (1 - tanh 1 * tanh 1). split; [apply tanh_derive|].
  change (1 - tanh (tanh 1) * tanh (tanh 1) <> 1 - tanh 1 * tanh 1).
  assert (Z0 : tanh 0 = 0) by (rewrite tanh_exp, Rmult_0_r, exp_0; field).
  assert (P : 0 < tanh 1) by (rewrite <- Z0; apply tanh_incr; lra).
  pose proof (tanh_bounds 1) as (_ & B). pose proof (tanh_incr _ _ P) as Q. rewrite Z0 in Q. pose proof (tanh_incr _ _ B). nra.
Qed.

(** Curves, for whole networks. *)
Lemma act_curve : forall a d (It Ot : R -> Z -> Z -> Z -> R) t0 I' G, dcurve d It t0 I' ->
  (forall x y z, inb d x y z -> act_smooth a (It t0 x y z)) ->
  locally t0 (fun t => forall x y z, inb d x y z -> Ot t x y z = act_R a (It t x y z)) ->
  exists O', dcurve d Ot t0 O' /\ dotp d G O' = dotp d (fun x y z => G x y z * actg_R a (Ot t0 x y z)) I'.
Proof.
  intros a d It Ot t0 I' G DI SM HL.
  assert (H0 : forall x y z, inb d x y z -> Ot t0 x y z = act_R a (It t0 x y z)) by (apply (locally_singleton _ _ HL)).
  exists (fun x y z => I' x y z * actg_R a (Ot t0 x y z)). split.
  - intros x y z I. apply (is_derive_ext_loc (fun t => act_R a (It t x y z))).
    + eapply filter_imp; [|exact HL]. intros t Ht. symmetry. apply Ht. exact I.
    + rewrite (H0 x y z I). apply (is_derive_comp (act_R a) (fun t => It t x y z) t0); [apply act_output_derive; apply SM; exact I|apply DI; exact I].
  - unfold dotp. apply rsum3_ext. intros. ring.
Qed.

(** Activation names. *)
Local Open Scope Z_scope.
Theorem names_roundtrip : forall k s, to_string k = Ok s -> from_string s = Ok k.
Proof. intros [] s H; injection H as <-; reflexivity. Qed.
Theorem names_total : forall k, exists s, to_string k = Ok s.
Proof. intros []; eexists; reflexivity. Qed.
Theorem names_inj : forall k l, to_string k = to_string l -> k = l.
Proof. intros [] [] H; try reflexivity; discriminate. Qed.
Theorem names_reject : forall s, (forall k, to_string k <> Ok s) -> from_string s = Throw RuntimeError.
Proof.
  intros s H. unfold from_string.
  destruct (String.eqb_spec s "RELU"); [subst; destruct (H Relu eq_refl)|].
  destruct (String.eqb_spec s "SIGMOID"); [subst; destruct (H Sigmoid eq_refl)|].
  destruct (String.eqb_spec s "LINEAR"); [subst; destruct (H Linear eq_refl)|].
  destruct (String.eqb_spec s "TANGENT"); [subst; destruct (H Tangent eq_refl)|].
  destruct (String.eqb_spec s "LEAKY_RELU"); [subst; destruct (H LeakyRelu eq_refl)|]. reflexivity.
Qed.
Theorem names_range : forall n, (0 <= n < 5 -> exists k, act_number k = n /\ to_string_num n = to_string k) /\
  (n < 0 \/ 5 <= n -> to_string_num n = Throw RuntimeError).
Proof.
  intros n. split; intros H.
  - assert (n = 0 \/ n = 1 \/ n = 2 \/ n = 3 \/ n = 4) as Q by lia.
    destruct Q as [->|[->|[->|[->| ->]]]]; [exists Relu|exists Sigmoid|exists Linear|exists Tangent|exists LeakyRelu]; split; reflexivity.
  - unfold to_string_num. destruct (Z.ltb_spec n 0); [reflexivity|].
    assert (nth_error act_strings (Z.to_nat n) = None) as -> by (apply nth_error_None; cbn; lia). reflexivity.
Qed.
