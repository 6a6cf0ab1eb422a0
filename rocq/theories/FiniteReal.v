(** Correctly rounded versions of exp, tanh and log2 meet the requirements that the theorems about doubles make. *)
From Coq Require Import ZArith Bool Lia Reals Lra Psatz List.
From Flocq Require Import Core BinarySingleNaN.
From Verif Require Import Base Num Float32 FloatFacts Double Bar BarFacts FiniteFacts FiniteInit FiniteNet.
Local Open Scope Z_scope.

Local Notation fexp64 := (SpecFloat.fexp prec emax).
Local Notation rnd64 := (round radix2 fexp64 ZnearestE).
#[local] Instance valid64 : Valid_exp fexp64 := fexp_correct prec emax prec_pos.

(** The double nearest to a real number; numbers that are too large give an infinity *)
Definition d_of_R (x : R) : double :=
  if Rlt_bool (Rabs (rnd64 x)) (bpow radix2 emax)
  then binary_normalize prec emax prec_pos prec_emax mode_NE (Ztrunc (scaled_mantissa radix2 fexp64 (rnd64 x))) (cexp radix2 fexp64 (rnd64 x)) false
  else B754_infinity (Rlt_bool x 0).
Lemma d_of_R_ok : forall x B, cap B -> (Rabs x <= B)%R -> is_finite (d_of_R x) = true /\ B2R (d_of_R x) = rnd64 x.
Proof.
  intros x B C H. unfold d_of_R. destruct (cap_small B x C H) as (_ & L). rewrite L.
  pose proof (binary_normalize_correct prec emax prec_pos prec_emax mode_NE (Ztrunc (scaled_mantissa radix2 fexp64 (rnd64 x))) (cexp radix2 fexp64 (rnd64 x)) false) as Q.
  cbn zeta in Q. cbn [round_mode] in Q.
  assert (G : generic_format radix2 fexp64 (rnd64 x)) by (apply generic_format_round; typeclasses eauto).
  unfold generic_format in G. rewrite <- G in Q. rewrite (round_generic radix2 fexp64 ZnearestE (rnd64 x)) in Q by (apply generic_format_round; typeclasses eauto).
  rewrite L in Q. destruct Q as (Q1 & Q2 & _). auto.
Qed.
Lemma d_of_R_cases : forall x, is_finite (d_of_R x) = true /\ B2R (d_of_R x) = rnd64 x \/
  (bpow radix2 emax <= Rabs (rnd64 x))%R /\ d_of_R x = B754_infinity (Rlt_bool x 0).
Proof.
  intros x. destruct (Rlt_bool_spec (Rabs (rnd64 x)) (bpow radix2 emax)) as [L|L].
  - left. unfold d_of_R. rewrite (Rlt_bool_true _ _ L).
    pose proof (binary_normalize_correct prec emax prec_pos prec_emax mode_NE (Ztrunc (scaled_mantissa radix2 fexp64 (rnd64 x))) (cexp radix2 fexp64 (rnd64 x)) false) as Q.
    cbn zeta in Q. cbn [round_mode] in Q.
    assert (G : generic_format radix2 fexp64 (rnd64 x)) by (apply generic_format_round; typeclasses eauto).
    unfold generic_format in G. rewrite <- G in Q. rewrite (round_generic radix2 fexp64 ZnearestE (rnd64 x)) in Q by (apply generic_format_round; typeclasses eauto).
    rewrite (Rlt_bool_true _ _ L) in Q. destruct Q as (Q1 & Q2 & _). auto.
  - right. split; [exact L|]. unfold d_of_R. rewrite Rlt_bool_false by exact L. reflexivity.
Qed.

Definition r_exp (v : double) : double :=
  match v with B754_nan => B754_nan | B754_infinity true => B754_zero false | B754_infinity false => posinf | _ => d_of_R (exp (B2R v)) end.
Definition r_tanh (v : double) : double :=
  match v with B754_nan => B754_nan | B754_infinity s => (if s then Bopp n1 else n1) | _ => d_of_R (tanh (B2R v)) end.
Definition r_log2 (v : double) : double :=
  match v with B754_finite false _ _ _ => d_of_R (ln (B2R v) / ln 2) | B754_zero _ => neginf | B754_infinity false => posinf | _ => B754_nan end.

Lemma r_exp_fin : forall v : double, is_finite v = true -> r_exp v = d_of_R (exp (B2R v)).
Proof. intros [s|s| |s m e b] F; try discriminate F; reflexivity. Qed.
Lemma r_tanh_fin : forall v : double, is_finite v = true -> r_tanh v = d_of_R (tanh (B2R v)).
Proof. intros [s|s| |s m e b] F; try discriminate F; reflexivity. Qed.
Lemma r_log2_fin : forall v : double, is_finite v = true -> (0 < B2R v)%R -> r_log2 v = d_of_R (ln (B2R v) / ln 2).
Proof.
  intros [s|s| |s m e b] F P; try discriminate F; [cbn in P; lra|]. destruct s; [|reflexivity]. exfalso. revert P.
  cbn [B2R SpecFloat.cond_Zopp]. intros P. apply gt_0_F2R in P. cbn in P. lia.
Qed.

Lemma r_exp_ok : exp_ok r_exp.
Proof.
  split.
  - intros v [(F & L)| ->].
    + assert (B : (0 <= exp (B2R v) <= 1)%R).
      { pose proof (exp_pos (B2R v)). split; [lra|]. rewrite <- exp_0. destruct (Req_dec (B2R v) 0) as [->|]; [lra|]. left. apply exp_increasing. lra. }
      rewrite r_exp_fin by exact F. destruct (d_of_R_ok (exp (B2R v)) 1 cap_1) as (A & C); [rewrite Rabs_pos_eq; lra|].
      split; [exact A|]. rewrite C. apply rnd_unit. exact B.
    + split; [reflexivity|]. cbn. lra.
  - intros v F L. rewrite r_exp_fin by exact F. pose proof (exp_pos (B2R v)) as P.
    assert (B : (1 <= exp (B2R v))%R). { rewrite <- exp_0. destruct (Req_dec (B2R v) 0) as [->|]; [lra|]. left. apply exp_increasing. lra. }
    destruct (d_of_R_cases (exp (B2R v))) as [(A & C)|(A & C)].
    + right. split; [exact A|]. rewrite C. apply rnd_one. exact B.
    + left. rewrite C. rewrite Rlt_bool_false by lra. reflexivity.
Qed.
Lemma exp_le : forall x y, (x <= y)%R -> (exp x <= exp y)%R.
Proof. intros x y H. destruct (Req_dec x y) as [->|]; [lra|]. left. apply exp_increasing. lra. Qed.
Lemma fin_pos : forall v : double, is_finite (r_exp v) = true -> (0 <= B2R (r_exp v))%R.
Proof.
  intros v F. assert (G : forall x, (0 < x)%R -> is_finite (d_of_R x) = true -> (0 <= B2R (d_of_R x))%R).
  { intros x P Q. destruct (d_of_R_cases x) as [(_ & C)|(_ & C)]; [|rewrite C in Q; discriminate]. rewrite C. rewrite <- rnd_0. apply rnd_le. lra. }
  destruct v as [s|[|]| |s m e b]; cbn [r_exp] in *; try discriminate F; try (apply G; [apply exp_pos|exact F]). cbn. lra.
Qed.
Lemma r_exp_mono : exp_mono r_exp.
Proof.
  intros u v [Fu| ->] [Fv| ->] L.
  - assert (Q : (B2R u <= B2R v)%R). { rewrite (Bleb_correct prec emax u v Fu Fv) in L. destruct (Rle_bool_spec (B2R u) (B2R v)); [assumption|discriminate]. }
    rewrite (r_exp_fin u Fu), (r_exp_fin v Fv). pose proof (exp_pos (B2R u)). pose proof (exp_pos (B2R v)). pose proof (exp_le _ _ Q) as EL. pose proof (rnd_le _ _ EL) as RL.
    assert (N : (0 <= rnd64 (exp (B2R u)))%R) by (rewrite <- rnd_0; apply rnd_le; lra).
    destruct (d_of_R_cases (exp (B2R v))) as [(A & C)|(A & C)]; [|left; rewrite C, Rlt_bool_false by lra; reflexivity]. right.
    destruct (d_of_R_cases (exp (B2R u))) as [(A' & C')|(A' & C')]; [rewrite C, C'; auto|]. exfalso.
    pose proof (abs_B2R_lt_emax prec emax (d_of_R (exp (B2R v)))) as X. rewrite C in X. rewrite Rabs_pos_eq in A', X by lra. lra.
  - destruct u as [s|[|]| |s m e b]; discriminate.
  - destruct (is_finite (r_exp v)) eqn:F.
    + right. split; [reflexivity|]. split; [reflexivity|]. cbn [r_exp neginf B2R]. apply fin_pos. exact F.
    + left. rewrite (r_exp_fin v Fv) in *. destruct (d_of_R_cases (exp (B2R v))) as [(A & _)|(_ & C)]; [rewrite A in F; discriminate|].
      rewrite C, Rlt_bool_false by (pose proof (exp_pos (B2R v)); lra). reflexivity.
  - right. split; [reflexivity|]. split; [reflexivity|]. lra.
Qed.

Lemma div_le : forall a b c, (0 < b)%R -> (a <= c * b)%R -> (a / b <= c)%R.
Proof. intros a b c B H. replace c with (c * b / b)%R by (field; lra). apply Rmult_le_compat_r; [left; apply Rinv_0_lt_compat; exact B|exact H]. Qed.
Lemma le_div : forall a b c, (0 < b)%R -> (c * b <= a)%R -> (c <= a / b)%R.
Proof. intros a b c B H. replace c with (c * b / b)%R by (field; lra). apply Rmult_le_compat_r; [left; apply Rinv_0_lt_compat; exact B|exact H]. Qed.

(** tanh x = 1 - 2/(e^2x + 1) *)
Lemma tanh_form : forall x, tanh x = (1 - 2 / (exp (2 * x) + 1))%R.
Proof.
  intros x. unfold tanh, sinh, cosh. replace (2 * x)%R with (x + x)%R by ring. rewrite exp_plus, exp_Ropp. pose proof (exp_pos x) as P.
  field. assert (0 < exp x * exp x)%R by (apply Rmult_lt_0_compat; exact P). lra.
Qed.
Lemma tanh_unit : forall x, (-1 <= tanh x <= 1)%R.
Proof.
  intros x. rewrite tanh_form. pose proof (exp_pos (2 * x)) as P. set (y := exp (2 * x)) in *.
  assert (0 <= 2 / (y + 1) <= 2)%R; [|lra]. split; [apply Rle_mult_inv_pos; lra|]. apply div_le; [lra|]. lra.
Qed.
Lemma tanh_le : forall x y, (x <= y)%R -> (tanh x <= tanh y)%R.
Proof.
  intros x y L. rewrite !tanh_form. pose proof (exp_pos (2 * x)) as P. assert (Q : (exp (2 * x) <= exp (2 * y))%R) by (apply exp_le; lra).
  assert (2 / (exp (2 * y) + 1) <= 2 / (exp (2 * x) + 1))%R; [|lra]. apply Rmult_le_compat_l; [lra|]. apply Rinv_le; lra.
Qed.
Lemma rnd_m1 : rnd64 (-1) = (-1)%R.
Proof. change (-1)%R with (- (1))%R. pose proof (round_NE_opp radix2 fexp64 1) as Q. rewrite rnd_1 in Q. exact Q. Qed.
Lemma r_tanh_val : forall v : double, is_finite v = true -> is_finite (r_tanh v) = true /\ B2R (r_tanh v) = rnd64 (tanh (B2R v)).
Proof. intros v F. rewrite r_tanh_fin by exact F. apply (d_of_R_ok _ 1 cap_1). pose proof (tanh_unit (B2R v)). apply Rabs_le. lra. Qed.
Lemma r_tanh_ok : tanh_ok r_tanh.
Proof.
  intros v F. destruct (r_tanh_val v F) as (A & B). split; [exact A|]. rewrite B. pose proof (tanh_unit (B2R v)) as (L & U). split.
  - rewrite <- rnd_m1. apply rnd_le. exact L.
  - rewrite <- rnd_1. apply rnd_le. exact U.
Qed.
Lemma r_tanh_mono : tanh_mono r_tanh.
Proof. intros u v Fu Fv L. rewrite (proj2 (r_tanh_val u Fu)), (proj2 (r_tanh_val v Fv)). apply rnd_le, tanh_le, L. Qed.

Lemma ln2_pos : (0 < ln 2)%R.
Proof. rewrite <- ln_1. apply ln_increasing; lra. Qed.
Lemma log2_ge : forall k x, (bpow radix2 k <= x)%R -> (IZR k <= ln x / ln 2)%R.
Proof.
  intros k x H. pose proof ln2_pos. pose proof (bpow_gt_0 radix2 k). apply le_div; [lra|].
  replace (IZR k * ln 2)%R with (ln (bpow radix2 k)) by (rewrite bpow_exp, ln_exp; reflexivity).
  destruct (Req_dec (bpow radix2 k) x) as [->|]; [lra|]. left. apply ln_increasing; lra.
Qed.
Lemma log2_le : forall k x, (0 < x)%R -> (x <= bpow radix2 k)%R -> (ln x / ln 2 <= IZR k)%R.
Proof.
  intros k x P H. pose proof ln2_pos. apply div_le; [lra|].
  replace (IZR k * ln 2)%R with (ln (bpow radix2 k)) by (rewrite bpow_exp, ln_exp; reflexivity).
  destruct (Req_dec x (bpow radix2 k)) as [->|]; [lra|]. left. apply ln_increasing; lra.
Qed.
Lemma r_log2_ok : log2_ok r_log2.
Proof.
  intros v F P. rewrite r_log2_fin by assumption. set (x := B2R v) in *.
  assert (U : (x <= bpow radix2 1024)%R). { pose proof (abs_B2R_lt_emax prec emax v) as A. fold x in A. rewrite Rabs_pos_eq in A by lra. left. exact A. }
  assert (L : (bpow radix2 (-1074) <= x)%R).
  { pose proof (generic_format_B2R prec emax v) as G. fold x in G. pose proof (generic_format_ge_bpow radix2 fexp64 (-1074)) as Q. apply Q; [|exact P|exact G].
    intros e. rewrite fexp64_eq. lia. }
  pose proof (log2_ge _ _ L) as L1. pose proof (log2_le _ _ P U) as U1.
  assert (C : cap 2048). { pose proof (cap_scale 2048 0 ltac:(unfold scale; lia)) as C. cbn [bpow] in C. rewrite Rmult_1_r in C. exact C. }
  destruct (d_of_R_ok (ln x / ln 2) 2048 C) as (A & B); [apply Rabs_le; lra|]. split; [exact A|]. rewrite B.
  assert (I : forall k, -1074 <= k <= 1024 -> rnd64 (IZR k) = IZR k) by (intros k K; apply round_generic; [typeclasses eauto|apply int_format64; lia]).
  split; intros k K.
  - destruct (Z_le_gt_dec (-1074) k) as [Q|Q].
    + assert (k <= 1024). { apply (le_bpow radix2). lra. } rewrite <- (I k) by lia. apply rnd_le. apply log2_ge. exact K.
    + apply Rle_trans with (IZR (-1074)); [apply IZR_le; lia|]. rewrite <- (I (-1074)) by lia. apply rnd_le. exact L1.
  - destruct (Z_le_gt_dec k 1024) as [Q|Q].
    + assert (-1074 <= k). { apply (le_bpow radix2). lra. } rewrite <- (I k) by lia. apply rnd_le. apply log2_le; assumption.
    + apply Rle_trans with (IZR 1024); [|apply IZR_le; lia]. rewrite <- (I 1024) by lia. apply rnd_le. exact U1.
Qed.
