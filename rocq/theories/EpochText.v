(** The accuracies that are printed: after an epoch and after the validation. *)
From Coq Require Import String ZArith List Bool Ascii Lia Reals Lra Psatz.
From Flocq Require Import Core.Core IEEE754.BinarySingleNaN Relative.
From Verif Require Import Base Dim Matrix View Num Expr Spec Iter MatFacts Batch Kernel Connected Float32 Pooling Activation Softmax FloatFacts Chars Double DoubleFacts
  Bar BarFacts Decimal DecimalFacts Stream StreamFacts Text Model Report ReportFacts Net ModelThms Train TrainLocal TrainRest TrainInv TrainData TrainEnd TrainThms TrainCount TrainEpoch Print.
Import ListNotations.
Local Open Scope Z_scope.

Local Notation fexp64 := (SpecFloat.fexp 53 1024).
Local Notation rnd64 := (round radix2 fexp64 ZnearestE).
Local Notation fexp32 := (SpecFloat.fexp 24 128).
Local Notation rnd32 := (round radix2 fexp32 ZnearestE).

(** ** The count of an epoch *)
Section Count.
Context {T : Type} {N : Num T} (E : env T).
Context {U L : Type} (cast : U -> T) (eqL : L -> L -> bool) (labels : list L).
Local Notation shared := (shared (T := T) (U := U) (L := L)).
Local Notation idx := (label_idx eqL labels).
Local Notation estate := (estate (T := T) (U := U) (L := L)).
Local Notation entry := (entry (U := U) (L := L)).
Local Notation tex := (texec E cast eqL labels).

(** A batch with the data points taken and their results: the elements of batch_results at the end of the batch *)
Definition batch_results (P : shared -> Prop) (wc bs : Z) (nt : nat) (lr : T) (e e' : estate) (log : list entry) (rs : list (results T)) : Prop :=
  exists pcs g ls, spawn nt 0 wc = Ok pcs /\ tex P wc bs (start e pcs) g log /\ finished g /\
    apply_all lr (g_layers g) = ORet ls tt /\ e' = with_layers (est_of g) ls /\
    Forall2 (fun x r => nth_error (g_results g) (Z.to_nat (snd (fst x))) = Some (Some r) /\ r_true r = idx (snd x)) log rs.
Fixpoint batches_results (P : shared -> Prop) (wc bs : Z) (nt : nat) (lr : T) (bl : list (list entry * list (results T))) (e e' : estate) : Prop :=
  match bl with
  | [] => e' = e
  | (log, rs) :: r => exists e1, batch_results P wc bs nt lr e e1 log rs /\ batches_results P wc bs nt lr r e1 e'
  end.
(** How many of the results have the label of the data point *)
Definition hits (ps : list (point U L)) (rs : list (results T)) : Z :=
  Z.of_nat (length (filter (fun x => r_label (snd x) =? idx (fst x)) (combine ps rs))).
Lemma combine_app : forall {A B} (a a' : list A) (b b' : list B), length a = length b -> combine (a ++ a') (b ++ b') = combine a b ++ combine a' b'.
Proof. induction a; intros a' [|y b] b' H; cbn in *; try discriminate; [reflexivity|]. f_equal. apply IHa. congruence. Qed.
Lemma hits_app : forall a a' b b', length a = length b -> hits (a ++ a') (b ++ b') = hits a b + hits a' b'.
Proof. intros. unfold hits. rewrite combine_app, filter_app, app_length by assumption. lia. Qed.
Lemma filter_le : forall {A} (p : A -> bool) l, (length (filter p l) <= length l)%nat.
Proof. induction l; cbn; [lia|]. destruct (p a); cbn; lia. Qed.
Lemma hits_bound : forall a b, 0 <= hits a b <= Z.of_nat (length a).
Proof. intros. unfold hits. pose proof (filter_le (fun x => r_label (snd x) =? idx (fst x)) (combine a b)). rewrite combine_length in H. lia. Qed.
Lemma F2_length : forall {A B} (R : A -> B -> Prop) l l', Forall2 R l l' -> length l = length l'.
Proof. intros A B R l l' H. induction H; cbn; congruence. Qed.

Section Sizes.
Context (wc bs : Z) (nt : nat) (HW : 0 <= wc) (HB : 0 <= bs) (HB2 : bs < two31).
Lemma batches_hits : forall P lr logs e e', Z.of_nat (length (s_results e)) = bs ->
  batches_log E cast eqL labels P wc bs nt lr logs e e' ->
  exists bl, map fst bl = logs /\ batches_results P wc bs nt lr bl e e' /\
    length (concat (map (map snd) logs)) = length (concat (map snd bl)) /\
    s_success e' = s_success e + hits (concat (map (map snd) logs)) (concat (map snd bl)).
Proof.
  intros P lr. induction logs as [|log logs IH]; intros e e' RL H; cbn [batches_log] in H.
  - subst e'. exists []. cbn. repeat split; unfold hits; cbn; lia.
  - destruct H as (e1 & B & H). destruct B as (pcs & g & ls & S & X & F & A & E1).
    destruct (batch_count_any E cast eqL labels wc bs nt e pcs HW HB HB2 S RL P g log X F) as (rs & R1 & R2).
    assert (RL1 : Z.of_nat (length (s_results e1)) = bs).
    { rewrite E1. cbn [with_layers est_of s_results]. apply (batch_invA E cast eqL labels wc bs nt e pcs HW HB HB2 S RL) in X. exact (a_res _ _ _ _ _ _ X). }
    destruct (IH e1 e' RL1 H) as (bl & B1 & B2 & B3 & B4). exists ((log, rs) :: bl).
    assert (LR : length (map snd log) = length rs) by (rewrite map_length; eapply F2_length; exact R1).
    split; [cbn; congruence|]. split; [exists e1; split; [exists pcs, g, ls; auto 10|exact B2]|]. cbn [map concat snd]. split.
    + rewrite !app_length. lia.
    + rewrite hits_app by exact LR. rewrite B4, E1. cbn [with_layers est_of s_success]. rewrite R2. unfold hits. lia.
Qed.
End Sizes.

Theorem epoch_hits : forall P h size ls src e, 1 <= h_nt h < 2 ^ 24 -> 1 <= h_bs h < 2 ^ 24 -> size = Z.of_nat (length src) -> size < 2 ^ 24 ->
  epoch E cast eqL labels P h size ls src (ORet e tt) ->
  exists wc bl, batches_results P wc (h_bs h) (Z.to_nat (h_nt h)) (h_lr h) bl (Est ls src (repeat None (Z.to_nat (h_bs h))) 0) e /\
    concat (map (fun b => map snd (fst b)) bl) = src /\ length (concat (map snd bl)) = length src /\
    s_success e = hits src (concat (map snd bl)) /\ 0 <= s_success e <= size.
Proof.
  intros P h size ls src e Hn Hb HS HS2 H. inversion H as [wc nb o N0 B0 C1 C2 BT EQ|X EQ|wc N0 X1 X EQ|N0 X EQ]. subst o.
  pose proof C1 as C1'. rewrite ceil_div_exact in C1' by lia. injection C1' as WC.
  assert (WP : 0 <= wc) by (rewrite <- WC; apply Z.div_pos; lia).
  assert (CV : h_bs h <= h_nt h * wc).
  { rewrite <- WC. pose proof (Z.div_mod (h_bs h + h_nt h - 1) (h_nt h) ltac:(lia)). pose proof (Z.mod_pos_bound (h_bs h + h_nt h - 1) (h_nt h) ltac:(lia)). lia. }
  rewrite ceil_div_exact in C2 by lia. injection C2 as NB.
  assert (CV2 : size <= h_bs h * nb /\ 0 <= nb).
  { rewrite <- NB. pose proof (Z.div_mod (size + h_bs h - 1) (h_bs h) ltac:(lia)). pose proof (Z.mod_pos_bound (size + h_bs h - 1) (h_bs h) ltac:(lia)).
    split; [lia|]. apply Z.div_pos; lia. }
  destruct (batches_have_logs E cast eqL labels _ _ _ _ _ _ _ _ _ BT eq_refl) as (logs & HL & BL).
  assert (RL : Z.of_nat (length (s_results (Est ls src (repeat None (Z.to_nat (h_bs h))) 0 : estate))) = h_bs h) by (cbn [s_results]; rewrite repeat_length; lia).
  destruct (batches_taken E cast eqL labels wc (h_bs h) (Z.to_nat (h_nt h)) WP ltac:(lia) ltac:(unfold two31; lia) ltac:(lia) P (h_lr h) logs _ _ RL BL) as [TK _].
  destruct (batches_hits wc (h_bs h) (Z.to_nat (h_nt h)) WP ltac:(lia) ltac:(unfold two31; lia) P (h_lr h) logs _ _ RL BL) as (bl & B1 & B2 & B3 & B4).
  cbn [s_source] in TK. rewrite firstn_all2 in TK by (apply Nat2Z.inj_le; rewrite Nat2Z.inj_mul, HL, !Z2Nat.id by lia; lia).
  rewrite TK in B3, B4. cbn [s_success] in B4. exists wc, bl. split; [exact B2|].
  split; [rewrite <- TK, <- B1, map_map; reflexivity|]. split; [congruence|]. split; [lia|]. pose proof (hits_bound src (concat (map snd bl))). lia.
Qed.
End Count.

(** ** The printed numbers *)
Lemma rel64 : forall x, (bpow radix2 (-1022) <= Rabs x)%R -> (Rabs (rnd64 x - x) <= bpow radix2 (-53) * Rabs x)%R.
Proof.
  intros x H. replace (bpow radix2 (-53)) with (/ 2 * bpow radix2 (- 53 + 1))%R by (change (-53 + 1) with (1 + -53); rewrite bpow_plus; change (bpow radix2 1) with 2%R; lra).
  change fexp64 with (FLT_exp (-1074) 53). apply relative_error_N_FLT; [lia|exact H].
Qed.
Lemma rel32 : forall x, (bpow radix2 (-126) <= Rabs x)%R -> (Rabs (rnd32 x - x) <= bpow radix2 (-24) * Rabs x)%R.
Proof.
  intros x H. replace (bpow radix2 (-24)) with (/ 2 * bpow radix2 (- 24 + 1))%R by (change (-24 + 1) with (1 + -24); rewrite bpow_plus; change (bpow radix2 1) with 2%R; lra).
  change fexp32 with (FLT_exp (-149) 24). apply relative_error_N_FLT; [lia|exact H].
Qed.

Section Epoch.
Context (c n : Z) (HC : 0 <= c <= n) (HN : 1 <= n < 2 ^ 31).
Let p := (100 * IZR c / IZR n)%R.
Lemma part_range : (0 <= p <= 100)%R /\ (c = 0 \/ (/ 2147483648 <= p)%R).
Proof.
  unfold p. assert (P1 : (1 <= IZR n)%R) by (apply IZR_le; lia). assert (P2 : (0 <= IZR c <= IZR n)%R) by (split; apply IZR_le; lia).
  assert (P3 : (IZR n <= 2147483648)%R) by (apply IZR_le; lia). assert (I : (0 < / IZR n)%R) by (apply Rinv_0_lt_compat; lra). assert (II : (IZR n * / IZR n = 1)%R) by (apply Rinv_r; lra).
  unfold Rdiv. split; [split; nra|]. destruct (Z.eq_dec c 0); [left; assumption|right]. assert (P4 : (1 <= IZR c)%R) by (apply IZR_le; lia).
  assert (I2 : (/ 2147483648 <= / IZR n)%R) by (apply Rinv_le_contravar; lra). nra.
Qed.
Lemma epoch_accuracy_val : is_finite (epoch_accuracy c n) = true /\ B2R (epoch_accuracy c n) = rnd64 p /\ (0 <= B2R (epoch_accuracy c n) <= 100)%R.
Proof.
  destruct part_range as [PR _]. unfold epoch_accuracy. destruct (d_of_Z_ok 100) as [A1 A2]; [lia|]. destruct (d_of_Z_ok c) as [C1 C2]; [lia|]. destruct (d_of_Z_ok n) as [N1 N2]; [lia|].
  destruct (mul64 (d_of_Z 100) (d_of_Z c) (100 * c) A2 C2) as [M1 M2]; [rewrite A1, C1, <- mult_IZR; split; [apply IZR_le; lia|lra]|lia|].
  rewrite A1, C1, <- mult_IZR in M2. rewrite round_generic in M2 by (try typeclasses eauto; apply int_format64; lia).
  rewrite mult_IZR in M2. destruct (div64 (nmul (d_of_Z 100) (d_of_Z c)) (d_of_Z n) 100 M1) as [D1 D2].
  - rewrite N1. apply not_0_IZR. lia.
  - rewrite M2, N1. exact PR.
  - lia.
  - rewrite M2, N1 in D2. split; [exact D1|]. split; [exact D2|]. rewrite D2. apply (rnd64_range _ 0 100); [apply generic_format_0|apply (int_format64 100); lia|exact PR].
Qed.
(** The text is right to six digits *)
Theorem epoch_accuracy_text : exists v, denotes (put_num default_format (epoch_accuracy c n)) v /\ (Rabs (v - p) <= 0.000005001 * p)%R.
Proof.
  destruct epoch_accuracy_val as (F & V & R). destruct part_range as [PR SM].
  destruct (put_num_ok default_format (epoch_accuracy c n)) as (v & D & A); [cbn; lia|exact F|]. exists v. split; [exact D|].
  unfold tolerance, default_format in A. cbn [f_note f_prec] in A. change (1 - Z.max 1 6) with (-5) in A. replace (bpow radix10 (-5)) with (/ 100000)%R in A by (cbn; lra).
  rewrite (Rabs_pos_eq (B2R _)) in A by lra. destruct SM as [C0|SM].
  - assert (P0 : p = 0%R) by (unfold p; rewrite C0; unfold Rdiv; ring). rewrite P0 in *. rewrite round_0 in V by typeclasses eauto. rewrite V in A. lra.
  - assert (E : (Rabs (rnd64 p - p) <= bpow radix2 (-53) * Rabs p)%R).
    { apply rel64. rewrite Rabs_pos_eq by lra. apply Rle_trans with (2 := SM). change (/ 2147483648)%R with (bpow radix2 (-31)). apply bpow_le. lia. }
    rewrite <- V in E. rewrite (Rabs_pos_eq p) in E by lra.
    assert (B : (bpow radix2 (-53) <= / 1000000000000)%R) by (change (bpow radix2 (-53)) with (/ IZR (2 ^ 53))%R; apply Rinv_le_contravar; [lra|apply IZR_le; lia]).
    assert (E2 : (Rabs (B2R (epoch_accuracy c n) - p) <= / 1000000000000 * p)%R) by (eapply Rle_trans; [exact E|]; apply Rmult_le_compat_r; lra).
    apply Rabs_le_inv in A. apply Rabs_le_inv in E2. apply Rabs_le. lra.
Qed.
(** The float after the validation: counts, product and quotient are rounded *)
Lemma step32 : forall x, (bpow radix2 (-126) <= x)%R -> ((1 - / 16777216) * x <= rnd32 x <= (1 + / 16777216) * x)%R.
Proof.
  intros x H. assert (P : (0 < x)%R) by (pose proof (bpow_gt_0 radix2 (-126)); lra). pose proof (rel32 x) as R. rewrite (Rabs_pos_eq x) in R by lra. specialize (R H).
  change (bpow radix2 (-24)) with (/ 16777216)%R in R. apply Rabs_le_inv in R. lra.
Qed.
Lemma accuracy_near : is_finite (accuracy c n) = true /\ (Rabs (B2R (accuracy c n) - p) <= 0.00000025 * p)%R.
Proof.
  destruct part_range as [PR _]. assert (T31 : 2 ^ 31 = two31) by reflexivity.
  destruct (of_Z_exact 100) as [A1 A2]; [lia|]. destruct (of_Z_correct c) as [C1 C2]; [lia|]. destruct (of_Z_correct n) as [N1 N2]; [lia|].
  unfold accuracy. assert (Rn : (1 <= IZR n <= 2147483648)%R) by (split; apply IZR_le; lia).
  assert (SM : (bpow radix2 (-126) <= / 2147483648)%R) by (change (/ 2147483648)%R with (bpow radix2 (-31)); apply bpow_le; lia).
  pose proof (step32 (IZR n) ltac:(lra)) as SN. rewrite <- N1 in SN.
  assert (B64 : (bpow radix2 64 = 18446744073709551616)%R) by reflexivity.
  destruct (Z.eq_dec c 0) as [C0|CP].
  - assert (CZ : B2R (f32_of_Z c) = 0%R) by (rewrite C1, C0; apply round_0; typeclasses eauto). clear C1. rename CZ into C1.
    destruct (mul32 _ _ A2 C2) as [M1 M2]; [rewrite A1, C1, Rmult_0_r, Rabs_R0; apply bpow_ge_0|]. rewrite A1, C1, Rmult_0_r, round_0 in M2 by typeclasses eauto.
    destruct (div32 _ (f32_of_Z n) M1) as [D1 D2]; [lra|rewrite M2; unfold Rdiv; rewrite Rmult_0_l, Rabs_R0; apply bpow_ge_0|].
    rewrite M2 in D2. unfold Rdiv in D2. rewrite Rmult_0_l, round_0 in D2 by typeclasses eauto. split; [exact D1|]. rewrite D2.
    assert (P0 : p = 0%R) by (unfold p; rewrite C0; unfold Rdiv; ring). rewrite P0. rewrite Rminus_0_r, Rabs_R0. lra.
  - assert (Rc : (1 <= IZR c <= 2147483648)%R) by (split; apply IZR_le; lia).
    pose proof (step32 (IZR c) ltac:(lra)) as SC. rewrite <- C1 in SC. set (cf := B2R (f32_of_Z c)) in *. set (nf := B2R (f32_of_Z n)) in *.
    destruct (mul32 _ _ A2 C2) as [M1 M2]; [fold cf; rewrite A1, B64, Rabs_pos_eq by lra; lra|]. fold cf in M2. rewrite A1 in M2.
    pose proof (step32 (100 * cf) ltac:(lra)) as SP. rewrite <- M2 in SP. set (pf := B2R (f32_mul (f32_of_Z 100) (f32_of_Z c))) in *.
    assert (NP : (0 < / nf)%R) by (apply Rinv_0_lt_compat; lra). assert (IN : (nf * / nf = 1)%R) by (apply Rinv_r; lra).
    assert (IL : (/ 4294967296 <= / nf <= 2)%R).
    { split; [apply Rinv_le_contravar; lra|]. replace 2%R with (/ / 2)%R by lra. apply Rinv_le_contravar; lra. }
    assert (PB : (1 <= pf <= 1000000000000)%R) by lra. assert (QB : (/ 4294967296 <= pf / nf <= 2000000000000)%R) by (unfold Rdiv; split; nra).
    destruct (div32 _ (f32_of_Z n) M1) as [D1 D2]; [fold nf; lra|fold pf nf; rewrite Rabs_pos_eq by lra; rewrite B64; lra|]. fold pf nf in D2.
    assert (SQ0 : (bpow radix2 (-126) <= pf / nf)%R) by (apply Rle_trans with (/ 4294967296)%R; [change (/ 4294967296)%R with (bpow radix2 (-32)); apply bpow_le; lia|lra]).
    pose proof (step32 (pf / nf) SQ0) as SQ. rewrite <- D2 in SQ. split; [exact D1|]. set (q := B2R (f32_div _ _)) in *.
    assert (NI : ((1 - 0.0000000597) * / IZR n <= / nf <= (1 + 0.0000000597) * / IZR n)%R).
    { assert (I0 : (0 < / IZR n)%R) by (apply Rinv_0_lt_compat; lra). assert (I1 : (IZR n * / IZR n = 1)%R) by (apply Rinv_r; lra).
      split; apply Rmult_le_reg_r with nf; try lra; rewrite (Rmult_comm (/ nf)), IN; nra. }
    assert (PC : ((1 - 0.0000001193) * (100 * IZR c) <= pf <= (1 + 0.0000001193) * (100 * IZR c))%R) by lra.
    assert (I0 : (0 < / IZR n)%R) by (apply Rinv_0_lt_compat; lra).
    assert (QP : ((1 - 0.00000018) * p <= pf / nf <= (1 + 0.00000018) * p)%R).
    { unfold p, Rdiv. set (u := (100 * IZR c)%R) in *. set (w := (/ IZR n)%R) in *. assert (U : (0 < u)%R) by (subst u; lra).
      assert (UW : (0 < u * w)%R) by (apply Rmult_lt_0_compat; assumption). clearbody u w. clear - PC NI U I0 UW NP PB. split.
      - apply Rle_trans with ((1 - 0.0000001193) * u * ((1 - 0.0000000597) * w))%R; [nra|]. apply Rmult_le_compat; try lra; nra.
      - apply Rle_trans with ((1 + 0.0000001193) * u * ((1 + 0.0000000597) * w))%R; [|nra]. apply Rmult_le_compat; lra. }
    apply Rabs_le. lra.
Qed.
Theorem accuracy_text : exists v, denotes (put_f32 default_format (accuracy c n)) v /\ (Rabs (v - p) <= 0.0000053 * p)%R.
Proof.
  destruct accuracy_near as (F & V). destruct part_range as [PR _]. destruct (d_of_f32_ok _ F) as [D1 D2].
  destruct (put_num_ok default_format (d_of_f32 (accuracy c n))) as (v & D & A); [cbn; lia|exact D2|]. exists v. split; [exact D|].
  rewrite D1 in A. apply Rabs_le_inv in V.
  unfold tolerance, default_format in A. cbn [f_note f_prec] in A. change (1 - Z.max 1 6) with (-5) in A. replace (bpow radix10 (-5)) with (/ 100000)%R in A by (cbn; lra).
  rewrite (Rabs_pos_eq (B2R _)) in A by lra. apply Rabs_le_inv in A. apply Rabs_le. lra.
Qed.
End Epoch.

(** All recognised: 100; none: 0 *)
Lemma whole_accuracy : forall n, 1 <= n < 2 ^ 31 -> put_num default_format (epoch_accuracy n n) = lit "100".
Proof.
  intros n H. destruct (epoch_accuracy_val n n ltac:(lia) H) as (F & V & _). assert (P : (100 * IZR n / IZR n)%R = 100%R) by (field; apply not_0_IZR; lia).
  rewrite P in V. rewrite round_generic in V by (try typeclasses eauto; apply (int_format64 100); lia).
  destruct (d_of_Z_ok 100) as [K1 K2]; [lia|].
  replace (epoch_accuracy n n) with (d_of_Z 100); [vm_compute; reflexivity|]. apply B2R_inj.
  - vm_compute. reflexivity.
  - destruct (epoch_accuracy n n); try discriminate F; [cbn [B2R] in V; lra|reflexivity].
  - rewrite V. exact K1.
Qed.
(** A confidence between 0 and 1 *)
Theorem confidence_text : forall x : double, is_finite x = true -> (0 <= B2R x <= 1)%R ->
  exists v, denotes (put_num default_format x) v /\ (Rabs (v - B2R x) <= 0.000005 * B2R x)%R.
Proof.
  intros x F H. destruct (put_num_ok default_format x) as (v & D & A); [cbn; lia|exact F|]. exists v. split; [exact D|].
  unfold tolerance, default_format in A. cbn [f_note f_prec] in A. change (1 - Z.max 1 6) with (-5) in A. replace (bpow radix10 (-5)) with (/ 100000)%R in A by (cbn; lra).
  rewrite (Rabs_pos_eq (B2R _)) in A by lra. lra.
Qed.
