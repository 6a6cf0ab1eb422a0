(** Softmax (Softmax.cpp 44-62) in IEEE-754 double precision. *)
From Coq Require Import ZArith Bool Lia Reals Lra Psatz List.
From Flocq Require Import Core BinarySingleNaN Relative Plus_error.
From Verif Require Import Base Dim Matrix View Num Expr Spec Iter Sums MatFacts MatThms ViewThms ExprThms Batch Kernel Connected Float32
  FloatFacts Pooling Activation Softmax LayerFacts BatchThms PoolingThms SoftmaxThms LayerTotal Calc Chars Double Bar BarFacts Model Net NetPass
  NetGrad ModelThms Shapes ReportFacts FiniteFacts.
Import ListNotations.
Local Open Scope Z_scope.

Local Notation fexp64 := (SpecFloat.fexp prec emax).
Local Notation rnd64 := (round radix2 fexp64 ZnearestE).
#[local] Instance valid64 : Valid_exp fexp64 := fexp_correct prec emax prec_pos.

(** ** The result for any type of numbers, given the largest element *)
Lemma sm_forward_form : forall T (N : Num T) expT s (x : mat T) d f m, is_mat x d f -> fits d -> pos d -> labels_ok d (sm_count s) ->
  mmax (l_val x) tt = Ok m ->
  exists o, sm_forward expT s x = Ok o /\
    is_mat o d (fun a b c => ndiv (expT (nsub (f a b c) m)) (nsum (vol d) (elem_no d (fun a b c => expT (nsub (f a b c) m))))).
Proof.
  intros T N expT s x d f m H F P (Q1 & Q2 & Q3) EM. pose proof (pos_iterable d P) as IT.
  unfold sm_forward, sm_check. rewrite (is_mat_dim _ _ _ H). rewrite base_size_fits by exact F.
  unfold is_column, is_row, is_flat. rewrite Q1, Q3, Z.eqb_refl. cbn [rbind].
  assert (CK : ((true && (dy d =? 1)) || (true && (dx d =? 1))) = true) by (destruct Q2 as [Q2|Q2]; rewrite Q2; cbn; rewrite ?orb_true_r; reflexivity).
  rewrite CK. cbn [rbind]. rewrite Z.eqb_refl. unfold sm_apply. rewrite EM. cbn [rbind].
  destruct (mat_of_lz_ok n0 (fun t => t) (mk_apply (fun v => Ok (expT v)) (mk_scal_r op_sub (l_val x) m tt) tt) tt d (fun a b c => expT (nsub (f a b c) m)) F IT) as (e & Ee & He).
  { split; [apply (is_mat_dim _ _ _ H)|]. intros a' b' c' I'. cbn. rewrite (is_mat_read x d f a' b' c' H F I'). reflexivity. }
  rewrite Ee. cbn [rbind].
  rewrite (sum_ok _ tt d _ (is_mat_lz e d _ tt He F) F IT). cbn [rbind].
  set (t := nsum (vol d) (elem_no d (fun a0 b0 c0 : Z => expT (nsub (f a0 b0 c0) m)))).
  destruct (mat_of_lz_ok n0 (fun t => t) (mk_scal_r op_div (l_val e) t tt) tt d
     (fun a b c => ndiv (expT (nsub (f a b c) m)) t) F IT) as (o & Eo & Ho).
  { split; [apply (is_mat_dim _ _ _ He)|]. intros a' b' c' I'. cbn. rewrite (is_mat_read e d _ a' b' c' He F I'). reflexivity. }
  rewrite Eo. exists o. split; [reflexivity|]. rewrite <- Q3. exact Ho.
Qed.

(** ** The largest of finite doubles *)
Lemma mmax_double : forall (x : mat double) d f, is_mat x d f -> fits d -> pos d -> (forall a b c, inb d a b c -> is_finite (f a b c) = true) ->
  exists a b c, inb d a b c /\ mmax (l_val x) tt = Ok (f a b c) /\ max_index x = Ok (lin d a b c) /\
    (forall a' b' c', inb d a' b' c' -> (B2R (f a' b' c') <= B2R (f a b c))%R) /\
    (forall a' b' c', inb d a' b' c' -> lin d a' b' c' < lin d a b c -> (B2R (f a' b' c') < B2R (f a b c))%R).
Proof.
  intros x d f H F P FI.
  destruct (extremum_key (T := double) lt_max B2R (l_val x) tt d f (is_mat_lz x d f tt H F) F P) as (a & b & c & I & Q & Mx & Fi).
  - intros. unfold lt_max. apply ltb_R; auto.
  - exists a, b, c. split; [exact I|]. split; [unfold mmax; rewrite Q; reflexivity|]. split; [|auto].
    unfold max_index. rewrite Q. cbn [rbind]. rewrite (is_mat_dim _ _ _ H). apply it_diff_idx; assumption.
Qed.

(** ** Sums of numbers in [0,1] *)
Lemma sum_unit : forall n (f : Z -> double), 0 <= n < 2 ^ 31 -> (forall k, 0 <= k < n -> unit_const (f k)) ->
  is_finite (nsum n f) = true /\ (0 <= B2R (nsum n f) <= IZR n)%R /\ (forall k, 0 <= k < n -> (B2R (f k) <= B2R (nsum n f))%R) /\
  (rsum n (fun k => B2R (f k)) * (1 - IZR n * bpow radix2 (-53)) <= B2R (nsum n f) <= rsum n (fun k => B2R (f k)) * (1 + 2 * IZR n * bpow radix2 (-53)))%R.
Proof.
  intros n f Hn Hf. set (u := bpow radix2 (-53)).
  assert (G : forall k, 0 <= k -> k <= n -> is_finite (nsum k f) = true /\ (0 <= B2R (nsum k f) <= IZR k)%R /\
     (forall j, 0 <= j < k -> (B2R (f j) <= B2R (nsum k f))%R) /\ (0 <= rsum k (fun k => B2R (f k)))%R /\
     (rsum k (fun k => B2R (f k)) * (1 - IZR k * u) <= B2R (nsum k f) <= rsum k (fun k => B2R (f k)) * (1 + 2 * IZR k * u))%R).
  { intros k. induction k using Zrange_ind; intros K L.
    - replace k with 0 by lia. unfold nsum. rewrite fold_z_0 by lia. rewrite rsum_neg by lia. split; [reflexivity|].
      change (B2R (n0 : double)) with 0%R. split; [lra|]. split; [intros; lia|]. split; lra.
    - destruct IHk as (A1 & A2 & A3 & A4 & A5); [lia|lia|]. destruct (Hf k ltac:(lia)) as (B1 & B2).
      assert (EN : nsum (k + 1) f = nadd (nsum k f) (f k)) by (unfold nsum; rewrite fold_z_snoc by lia; reflexivity).
      assert (C : cap (IZR (k + 1))).
      { pose proof (cap_scale (k + 1) 0 ltac:(unfold scale; lia)) as C. cbn [bpow] in C. rewrite Rmult_1_r in C. exact C. }
      assert (BD : (0 <= B2R (nsum k f) + B2R (f k) <= IZR (k + 1))%R) by (rewrite plus_IZR; lra).
      destruct (add_exact (nsum k f) (f k) _ A1 B1 C) as (D1 & D2); [rewrite Rabs_pos_eq; lra|]. rewrite EN. split; [exact D1|].
      assert (E0 : (B2R (nsum k f) <= B2R (nadd (nsum k f) (f k)))%R) by (rewrite D2, <- (rnd_id (nsum k f)) at 1; apply rnd_le; lra).
      assert (E1 : (B2R (f k) <= B2R (nadd (nsum k f) (f k)))%R) by (rewrite D2, <- (rnd_id (f k)) at 1; apply rnd_le; lra).
      split; [split; [lra|]|].
      { rewrite D2. apply Rle_trans with (rnd64 (IZR (k + 1))); [apply rnd_le; lra|]. rewrite round_generic; [lra|typeclasses eauto|apply C]. }
      split. { intros j J. destruct (Z.eq_dec j k) as [->|]; [exact E1|]. specialize (A3 j ltac:(lia)). lra. }
      rewrite rsum_S by lia. set (S := rsum k (fun k => B2R (f k))) in *. split; [lra|].
      destruct (FLT_plus_error_N_ex radix2 (SpecFloat.emin prec emax) prec (fun x => negb (Z.even x)) (B2R (nsum k f)) (B2R (f k))
        (generic_format_B2R _ _ _) (generic_format_B2R _ _ _)) as (eps & EP & ER).
      assert (EU : (Rabs eps <= u)%R).
      { apply Rle_trans with (1 := EP). apply Rle_trans with (1 := u_rod1pu_ro_le_u_ro radix2 prec). unfold u_ro, prec, u.
        change (/ 2)%R with (bpow radix2 (-1)). rewrite <- bpow_plus. apply bpow_le. lia. }
      apply Rabs_le_inv in EU. assert (ED : B2R (nadd (nsum k f) (f k)) = ((B2R (nsum k f) + B2R (f k)) * (1 + eps))%R) by (rewrite D2; exact ER).
      assert (U0 : (0 < u)%R) by apply bpow_gt_0. assert (U1 : (u <= 1)%R) by (change 1%R with (bpow radix2 0); apply bpow_le; lia).
      assert (KU : (0 <= 2 * IZR k * u <= 1)%R).
      { assert (KL : (0 <= IZR k <= IZR (2 ^ 31))%R) by (split; apply IZR_le; lia).
        assert (UU : (IZR (2 ^ 31) * u <= / 2)%R).
        { change (IZR (2 ^ 31)) with (bpow radix2 31). unfold u. rewrite <- bpow_plus. change (/ 2)%R with (bpow radix2 (-1)). apply bpow_le. lia. }
        split; nra. }
      rewrite ED, plus_IZR. set (s := B2R (nsum k f)) in *. set (v := B2R (f k)) in *. set (K' := IZR k) in *.
      assert (K0 : (0 <= K')%R) by (apply IZR_le; exact H).
      split.
      + apply Rle_trans with ((S + v) * (1 - K' * u) * (1 - u))%R.
        * assert (0 <= (S + v) * (K' * u * u))%R by (apply Rmult_le_pos; [lra|]; apply Rmult_le_pos; [|lra]; apply Rmult_le_pos; lra). lra.
        * apply Rmult_le_compat; [apply Rmult_le_pos; lra|lra| |lra].
          assert (0 <= v * (K' * u))%R by (apply Rmult_le_pos; lra). lra.
      + apply Rle_trans with ((S + v) * (1 + 2 * K' * u) * (1 + u))%R.
        * apply Rmult_le_compat; [lra|lra| |lra]. assert (0 <= v * (2 * K' * u))%R by (apply Rmult_le_pos; lra). lra.
        * assert (0 <= (S + v) * (u * (1 - 2 * K' * u)))%R by (apply Rmult_le_pos; [lra|]; apply Rmult_le_pos; lra). lra. }
  destruct (G n) as (A1 & A2 & A3 & A4 & A5); [lia|lia|]. auto.
Qed.

(** ** Differences to the largest element *)
Definition low (v : double) : Prop := is_finite v = true /\ (B2R v <= 0)%R \/ v = neginf.
Lemma low_any : forall v, low v -> is_finite v = true \/ v = neginf.
Proof. intros v [(H & _)|H]; auto. Qed.

Lemma sub_low : forall x m : double, is_finite x = true -> is_finite m = true -> (B2R x <= B2R m)%R ->
  is_finite (nsub x m) = true /\ B2R (nsub x m) = rnd64 (B2R x - B2R m) /\ (B2R (nsub x m) <= 0)%R \/
  nsub x m = neginf /\ (rnd64 (B2R x - B2R m) <= - bpow radix2 emax)%R.
Proof.
  intros x m Fx Fm L. cbn [nsub NumD]. pose proof (Bminus_correct prec emax prec_pos prec_emax mode_NE x m Fx Fm) as C. cbn [round_mode] in C.
  assert (R0 : (rnd64 (B2R x - B2R m) <= 0)%R) by (rewrite <- rnd_0; apply rnd_le; lra).
  destruct (Rlt_bool_spec (Rabs (rnd64 (B2R x - B2R m))) (bpow radix2 emax)) as [O|O].
  - left. destruct C as (C1 & C2 & _). split; [exact C2|]. split; [exact C1|]. rewrite C1. exact R0.
  - right. rewrite Rabs_left1 in O by exact R0. split; [|lra]. destruct C as (C1 & CS).
    assert (S : Bsign x = true).
    { destruct (Bsign x) eqn:Sx; [reflexivity|exfalso]. symmetry in CS. apply negb_false_iff in CS.
      assert (Px : (0 <= B2R x)%R).
      { destruct x as [s|s| |s mm ee bb]; try discriminate Fx; cbn in Sx; subst s; cbn [B2R]; [lra|]. apply F2R_ge_0. cbn. lia. }
      assert (Pm : (B2R m <= 0)%R).
      { destruct m as [s|s| |s mm ee bb]; try discriminate Fm; cbn in CS; subst s; cbn [B2R]; [lra|]. apply F2R_le_0. cbn. lia. }
      replace (B2R x - B2R m)%R with 0%R in O by lra. rewrite rnd_0 in O. pose proof (bpow_gt_0 radix2 emax). lra. }
    rewrite S in C1. destruct (Bminus mode_NE x m) as [|s| |]; try discriminate C1. cbn in C1. injection C1 as ->. reflexivity.
Qed.
Lemma sub_is_low : forall x m : double, is_finite x = true -> is_finite m = true -> (B2R x <= B2R m)%R -> low (nsub x m).
Proof. intros x m A B C. destruct (sub_low x m A B C) as [(P & _ & Q)|(P & _)]; [left; auto|right; exact P]. Qed.
Lemma sub_zero : forall x m : double, is_finite x = true -> is_finite m = true -> B2R x = B2R m -> is_finite (nsub x m) = true /\ B2R (nsub x m) = 0%R.
Proof.
  intros x m Fx F Q. assert (Z : rnd64 (B2R x - B2R m) = 0%R) by (rewrite Q, Rminus_diag_eq, rnd_0; reflexivity).
  destruct (sub_low x m Fx F ltac:(lra)) as [(A & B & _)|(_ & B)].
  - split; [exact A|]. lra.
  - pose proof (bpow_gt_0 radix2 emax). lra.
Qed.
Lemma sub_mono : forall x y m : double, is_finite x = true -> is_finite y = true -> is_finite m = true -> (B2R x <= B2R y)%R -> (B2R y <= B2R m)%R ->
  Bleb (nsub x m) (nsub y m) = true.
Proof.
  intros x y m Fx Fy Fm L1 L2. assert (R : (rnd64 (B2R x - B2R m) <= rnd64 (B2R y - B2R m))%R) by (apply rnd_le; lra).
  destruct (sub_low x m Fx Fm ltac:(lra)) as [(A1 & A2 & _)|(A1 & _)]; destruct (sub_low y m Fy Fm L2) as [(B1 & B2 & _)|(B1 & B2)].
  - rewrite Bleb_correct by assumption. apply Rle_bool_true. lra.
  - exfalso. pose proof (abs_B2R_lt_emax prec emax (nsub x m)) as K. rewrite A2 in K. apply Rabs_lt_inv in K. lra.
  - rewrite A1. destruct (nsub y m) as [s|s| |s mm ee bb]; try discriminate B1; reflexivity.
  - rewrite A1, B1. reflexivity.
Qed.

(** exp is clearly below 1 for arguments clearly below 0. *)
Definition exp_gap (e : double -> double) : Prop := forall v : double, v = neginf \/ is_finite v = true /\ (B2R v <= - bpow radix2 (-50))%R -> (B2R (e v) <= 1 - bpow radix2 (-51))%R.
Lemma sub_gap : forall x m : double, is_finite x = true -> is_finite m = true -> (B2R x <= B2R m - bpow radix2 (-50))%R ->
  nsub x m = neginf \/ is_finite (nsub x m) = true /\ (B2R (nsub x m) <= - bpow radix2 (-50))%R.
Proof.
  intros x m Fx Fm L. pose proof (bpow_gt_0 radix2 (-50)). destruct (sub_low x m Fx Fm ltac:(lra)) as [(A & B & _)|(A & _)]; [right|left; exact A].
  split; [exact A|]. rewrite B. apply round_le_generic; [typeclasses eauto|typeclasses eauto| |lra].
  apply generic_format_opp, generic_format_bpow. rewrite fexp64_eq. lia.
Qed.
(** Quotients that differ enough are rounded to different numbers. *)
Lemma rnd_apart : forall x y, (bpow radix2 (-31) <= y)%R -> (0 <= x <= y * (1 - bpow radix2 (-51)))%R -> (rnd64 x < rnd64 y)%R.
Proof.
  intros x y Y (X0 & X1). pose proof (bpow_gt_0 radix2 (-31)) as P31. set (u := bpow radix2 (-53)) in *.
  assert (U0 : (0 < u)%R) by apply bpow_gt_0. assert (EU : (bpow radix2 (-51) = 4 * u)%R) by (unfold u; change 4%R with (bpow radix2 2); rewrite <- bpow_plus; reflexivity).
  assert (U1 : (u <= / 16)%R) by (unfold u; change (/ 16)%R with (bpow radix2 (-4)); apply bpow_le; lia).
  rewrite EU in X1. set (z := (y * (1 - 4 * u))%R) in *.
  assert (R : forall v, (bpow radix2 (-32) <= v)%R -> (v * (1 - u) <= rnd64 v <= v * (1 + u))%R).
  { intros v V. pose proof (relative_error_N_FLT radix2 (SpecFloat.emin prec emax) prec eq_refl (fun x => negb (Z.even x)) v) as Q.
    change (FLT_exp (SpecFloat.emin prec emax) prec) with fexp64 in Q. pose proof (bpow_gt_0 radix2 (-32)). rewrite (Rabs_pos_eq v) in Q by lra.
    assert (Q0 : (/ 2 * bpow radix2 (- prec + 1) = u)%R) by (change (/ 2)%R with (bpow radix2 (-1)); rewrite <- bpow_plus; reflexivity). rewrite Q0 in Q.
    assert (Q1 : (Rabs (rnd64 v - v) <= u * v)%R). { apply Q. apply Rle_trans with (2 := V). apply bpow_le. unfold SpecFloat.emin, prec, emax. lia. }
    apply Rabs_le_inv in Q1. lra. }
  assert (B32 : (bpow radix2 (-31) = 2 * bpow radix2 (-32))%R) by (change 2%R with (bpow radix2 1); rewrite <- bpow_plus; reflexivity).
  assert (Y2 : (y * / 2 <= z)%R) by (unfold z; apply Rmult_le_compat_l; lra).
  apply Rle_lt_trans with (rnd64 z); [apply rnd_le; exact X1|]. destruct (R z) as (_ & Z1); [lra|]. destruct (R y) as (Y1 & _); [lra|].
  apply Rle_lt_trans with (1 := Z1). apply Rlt_le_trans with (2 := Y1). unfold z. rewrite Rmult_assoc. apply Rmult_lt_compat_l; [lra|].
  assert (0 < u * u)%R by (apply Rmult_lt_0_compat; exact U0). lra.
Qed.

(** ** Softmax *)
Section Soft.
Context (expT : double -> double).
Hypothesis EX : exp_ok expT.

Theorem softmax_finite : forall s (x : mat double) d f, is_mat x d f -> fits d -> pos d -> labels_ok d (sm_count s) ->
  (forall a b c, inb d a b c -> is_finite (f a b c) = true) ->
  exists o P, sm_forward expT s x = Ok o /\ is_mat o d P /\
    (forall a b c, inb d a b c -> is_finite (P a b c) = true /\ (0 <= B2R (P a b c) <= 1)%R) /\
    (Rabs (rsum3 d (fun a b c => B2R (P a b c)) - 1) <= IZR (vol d) * bpow radix2 (-51))%R /\
    (forall a b c, inb d a b c -> (forall a' b' c', inb d a' b' c' -> (B2R (f a' b' c') <= B2R (f a b c))%R) ->
       (bpow radix2 (-31) <= B2R (P a b c))%R /\ forall a' b' c', inb d a' b' c' -> (B2R (P a' b' c') <= B2R (P a b c))%R) /\
    (exp_mono expT -> forall a b c a' b' c', inb d a b c -> inb d a' b' c' -> (B2R (f a b c) <= B2R (f a' b' c'))%R -> (B2R (P a b c) <= B2R (P a' b' c'))%R) /\
    (exp_gap expT -> forall a b c a' b' c', inb d a b c -> inb d a' b' c' -> (forall a' b' c', inb d a' b' c' -> (B2R (f a' b' c') <= B2R (f a b c))%R) ->
       (B2R (f a' b' c') <= B2R (f a b c) - bpow radix2 (-50))%R -> (B2R (P a' b' c') < B2R (P a b c))%R).
Proof.
  intros s x d f H F PO LO FI. destruct (mmax_double x d f H F PO FI) as (a0 & b0 & c0 & I0 & EM & _ & Mx & _).
  destruct (sm_forward_form _ _ expT s x d f (f a0 b0 c0) H F PO LO EM) as (o & Eo & Ho).
  set (m := f a0 b0 c0) in *. set (E := fun a b c => expT (nsub (f a b c) m)) in *. set (n := vol d) in *.
  change (fun a b c => expT (nsub (f a b c) m)) with E in Ho.
  assert (FM : is_finite m = true) by (apply FI; exact I0).
  assert (UE : forall a b c, inb d a b c -> unit_const (E a b c)).
  { intros a b c I. apply (proj1 EX). apply sub_is_low; auto. }
  assert (UM : forall a b c, inb d a b c -> B2R (f a b c) = B2R m -> B2R (E a b c) = 1%R).
  { intros a b c I Q. destruct (sub_zero (f a b c) m (FI _ _ _ I) FM Q) as (A & B). apply exp_zero; assumption. }
  assert (N31 : 0 < n < 2 ^ 31).
  { split; [apply vol_pos_of; exact PO|]. pose proof (fits_vol d F) as V. unfold two31 in V. unfold n. lia. }
  destruct (sum_unit n (elem_no d E) ltac:(lia)) as (T1 & T2 & T3 & T4).
  { intros k K. destruct (position_case d k F K) as (a & b & c & I & -> & _). rewrite elem_no_lin by exact I. apply UE. exact I. }
  set (t := nsum n (elem_no d E)) in *.
  assert (TG : (1 <= B2R t)%R).
  { specialize (T3 (lin d a0 b0 c0) (lin_range _ _ _ _ I0)). rewrite elem_no_lin in T3 by exact I0. rewrite UM in T3 by auto. exact T3. }
  assert (TI : (0 < / B2R t <= 1)%R) by (split; [apply Rinv_0_lt_compat; lra|rewrite <- Rinv_1; apply Rinv_le; lra]).
  assert (QE : forall a b c, inb d a b c -> (0 <= B2R (E a b c) / B2R t <= 1)%R).
  { intros a b c I. destruct (UE a b c I) as (_ & U). unfold Rdiv. split; [apply Rmult_le_pos; lra|]. nra. }
  assert (PV : forall a b c, inb d a b c -> is_finite (ndiv (E a b c) t) = true /\ B2R (ndiv (E a b c) t) = rnd64 (B2R (E a b c) / B2R t)).
  { intros a b c I. specialize (QE a b c I). apply (div_exact (E a b c) t 1); [apply UE; exact I|lra|exact cap_1|]. rewrite Rabs_pos_eq; apply QE. }
  exists o, (fun a b c => ndiv (E a b c) t). split; [exact Eo|]. split; [exact Ho|].
  split. { intros a b c I. destruct (PV a b c I) as (A & B). split; [exact A|]. rewrite B. apply rnd_unit. apply QE. exact I. }
  split.
  { rewrite (rsum3_ext d _ (fun a b c => rnd64 (B2R (E a b c) / B2R t))) by (intros; apply PV; assumption).
    rewrite <- rsum3_storage by exact F. fold n.
    set (S := rsum n (fun k => B2R (elem_no d E k))) in *. set (u := bpow radix2 (-53)) in *.
    assert (R1 : (rsum n (elem_no d (fun a b c => rnd64 (B2R (E a b c) / B2R t))) - S / B2R t <= u * (S / B2R t) + IZR n * bpow radix2 (-1075))%R /\
                 (S / B2R t - rsum n (elem_no d (fun a b c => rnd64 (B2R (E a b c) / B2R t))) <= u * (S / B2R t) + IZR n * bpow radix2 (-1075))%R).
    { assert (G : forall k, 0 <= k -> k <= n ->
        (Rabs (rsum k (elem_no d (fun a b c => rnd64 (B2R (E a b c) / B2R t))) - rsum k (fun k => B2R (elem_no d E k)) / B2R t) <= u * (rsum k (fun k => B2R (elem_no d E k)) / B2R t) + IZR k * bpow radix2 (-1075))%R).
      { intros k. induction k using Zrange_ind; intros K L.
        - replace k with 0 by lia. rewrite !rsum_neg by lia. unfold Rdiv. rewrite Rmult_0_l, Rmult_0_r, Rmult_0_l, Rminus_0_r, Rabs_R0. lra.
        - rewrite !rsum_S by lia. specialize (IHk ltac:(lia) ltac:(lia)). destruct (position_case d k F ltac:(fold n; lia)) as (a & b & c & I & EK & _).
          rewrite EK at 2 4 6. rewrite !elem_no_lin by exact I.
          destruct (error_N_FLT radix2 (SpecFloat.emin prec emax) prec eq_refl (fun x => negb (Z.even x)) (B2R (E a b c) / B2R t)) as (eps & eta & P1 & P2 & _ & P4).
          change (FLT_exp (SpecFloat.emin prec emax) prec) with fexp64 in P4. specialize (QE a b c I). rewrite plus_IZR.
          assert (P1' : (Rabs eps <= u)%R). { apply Rle_trans with (1 := P1). unfold u, prec. change (/ 2)%R with (bpow radix2 (-1)). rewrite <- bpow_plus. apply bpow_le. lia. }
          assert (P2' : (Rabs eta <= bpow radix2 (-1075))%R). { apply Rle_trans with (1 := P2). change (/ 2)%R with (bpow radix2 (-1)). rewrite <- bpow_plus. apply bpow_le. unfold SpecFloat.emin, prec, emax. lia. }
          rewrite P4. set (q := (B2R (E a b c) / B2R t)%R) in *. set (S1 := rsum k _) in *. set (S2 := rsum k (fun k0 => B2R (elem_no d E k0))) in *.
          replace ((S2 + B2R (E a b c)) / B2R t)%R with (S2 / B2R t + q)%R by (unfold q, Rdiv; ring).
          replace (S1 + (q * (1 + eps) + eta) - (S2 / B2R t + q))%R with ((S1 - S2 / B2R t) + (q * eps + eta))%R by ring.
          apply Rle_trans with (1 := Rabs_triang _ _). assert (Rabs (q * eps + eta) <= u * q + bpow radix2 (-1075))%R; [|lra].
          apply Rle_trans with (1 := Rabs_triang _ _). rewrite Rabs_mult, (Rabs_pos_eq q) by lra. assert (q * Rabs eps <= q * u)%R by (apply Rmult_le_compat_l; lra). lra. }
      specialize (G n ltac:(lia) ltac:(lia)). fold S in G. apply Rabs_le_inv in G. lra. }
    assert (U0 : (0 < u)%R) by apply bpow_gt_0. set (N := IZR n) in *.
    assert (N1 : (1 <= N)%R) by (apply IZR_le; lia).
    assert (NU : (N * u <= / 4)%R).
    { assert (KL : (N <= IZR (2 ^ 31))%R) by (apply IZR_le; lia). apply Rle_trans with (IZR (2 ^ 31) * u)%R; [apply Rmult_le_compat_r; lra|].
      change (IZR (2 ^ 31)) with (bpow radix2 31). unfold u. rewrite <- bpow_plus. change (/ 4)%R with (bpow radix2 (-2)). apply bpow_le. lia. }
    assert (EU : (bpow radix2 (-51) = 4 * u)%R) by (unfold u; change 4%R with (bpow radix2 2); rewrite <- bpow_plus; reflexivity).
    assert (TU : (bpow radix2 (-1075) <= / 4 * u)%R) by (unfold u; change (/ 4)%R with (bpow radix2 (-2)); rewrite <- bpow_plus; apply bpow_le; lia).
    rewrite EU. set (r := (S / B2R t)%R) in *.
    assert (SR : S = (r * B2R t)%R) by (unfold r, Rdiv; rewrite Rmult_assoc, Rinv_l, Rmult_1_r by lra; reflexivity).
    assert (R2 : (r * (1 - N * u) <= 1 <= r * (1 + 2 * N * u))%R).
    { rewrite SR in T4. split.
      - apply Rmult_le_reg_r with (B2R t); [lra|]. apply Rle_trans with (r * B2R t * (1 - N * u))%R; [right; ring|]. rewrite Rmult_1_l. apply T4.
      - apply Rmult_le_reg_r with (B2R t); [lra|]. apply Rle_trans with (r * B2R t * (1 + 2 * N * u))%R; [rewrite Rmult_1_l; apply T4|right; ring]. }
    assert (R3 : (r <= 1 + 2 * N * u)%R).
    { apply Rnot_lt_le. intros C. assert ((1 + 2 * N * u) * (1 - N * u) < r * (1 - N * u))%R by (apply Rmult_lt_compat_r; lra).
      assert (0 <= N * u * (1 - 2 * (N * u)))%R by (apply Rmult_le_pos; [apply Rmult_le_pos; lra|lra]). lra. }
    assert (R4 : (1 - 2 * N * u <= r)%R).
    { apply Rnot_lt_le. intros C. assert (0 <= N * u)%R by (apply Rmult_le_pos; lra). assert (r * (1 + 2 * N * u) < (1 - 2 * N * u) * (1 + 2 * N * u))%R by (apply Rmult_lt_compat_r; lra).
      assert (0 <= (2 * N * u) * (2 * N * u))%R by (apply Rmult_le_pos; lra). lra. }
    assert (R5 : (u * r <= 3 / 2 * u)%R) by (rewrite Rmult_comm; apply Rmult_le_compat_r; lra).
    assert (R6 : (N * bpow radix2 (-1075) <= N * (/ 4 * u))%R) by (apply Rmult_le_compat_l; lra).
    assert (R7 : (u <= N * u)%R) by (rewrite <- (Rmult_1_l u) at 1; apply Rmult_le_compat_r; lra).
    apply Rabs_le. lra. }
  split.
  { intros a b c I Mx2. assert (Q : B2R (f a b c) = B2R m) by (apply Rle_antisym; [apply Mx; exact I|apply Mx2; exact I0]).
    destruct (PV a b c I) as (A & B). rewrite B, (UM a b c I Q). split.
    - apply Rle_trans with (rnd64 (bpow radix2 (-31))).
      + right. symmetry. apply round_generic; [typeclasses eauto|]. apply generic_format_bpow. rewrite fexp64_eq. lia.
      + apply rnd_le. unfold Rdiv. rewrite Rmult_1_l. change (bpow radix2 (-31)) with (/ IZR (2 ^ 31))%R. apply Rinv_le; [lra|].
        apply Rle_trans with (IZR n); [apply T2|]. apply IZR_le. lia.
    - intros a' b' c' I'. destruct (PV a' b' c' I') as (_ & ->). apply rnd_le. apply Rmult_le_compat_r; [lra|]. apply UE. exact I'. }
  split.
  { intros EMo a b c a' b' c' I I' L. destruct (PV a b c I) as (_ & ->). destruct (PV a' b' c' I') as (_ & ->). apply rnd_le. apply Rmult_le_compat_r; [lra|].
  destruct (EMo (nsub (f a b c) m) (nsub (f a' b' c') m)) as [Q|(_ & _ & Q)]; [| | | |exact Q].
  - apply low_any. apply sub_is_low; auto.
  - apply low_any. apply sub_is_low; auto.
  - apply sub_mono; auto.
  - exfalso. destruct (UE a' b' c' I') as (A & _). unfold E in A. rewrite Q in A. discriminate A. }
  intros EG a b c a' b' c' I I' Mx2 L. assert (Q : B2R (f a b c) = B2R m) by (apply Rle_antisym; [apply Mx; exact I|apply Mx2; exact I0]).
  destruct (PV a b c I) as (_ & ->). destruct (PV a' b' c' I') as (_ & ->). rewrite (UM a b c I Q). unfold Rdiv. rewrite Rmult_1_l.
  apply rnd_apart.
  - change (bpow radix2 (-31)) with (/ IZR (2 ^ 31))%R. apply Rinv_le; [lra|]. apply Rle_trans with (IZR n); [apply T2|]. apply IZR_le. lia.
  - split; [apply (QE a' b' c' I')|]. rewrite Rmult_comm. apply Rmult_le_compat_l; [lra|]. apply EG. apply sub_gap; auto. lra.
Qed.
End Soft.
