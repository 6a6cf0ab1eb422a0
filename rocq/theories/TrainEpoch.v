(** Batches one after the other, epochs; every execution without overlapping hand-overs can be completed. *)
From Coq Require Import ZArith List Bool Lia.
From Verif Require Import Base Dim Matrix View Num Expr Iter MatFacts Batch Kernel Connected Float32 FloatFacts Pooling Activation Softmax
  Chars Model Net ModelThms Train TrainLocal TrainRest TrainInv TrainData TrainEnd TrainThms.
Import ListNotations.
Local Open Scope Z_scope.

Section Epoch.
Context {T : Type} {N : Num T} (E : env T).
Context {U L : Type} (cast : U -> T) (eqL : L -> L -> bool) (labels : list L).
Local Notation shared := (shared (T := T) (U := U) (L := L)).
Local Notation pc := (pc (T := T) (U := U) (L := L)).
Local Notation idx := (label_idx eqL labels).
Local Notation nl := (Z.of_nat (length labels)).
Local Notation fwd p := (forward_pass E cast nl (pt_data (L := L) p)).
Local Notation estate := (estate (T := T) (U := U) (L := L)).
Local Notation entry := (entry (U := U) (L := L)).
Local Notation exc := (exec E cast eqL labels).
Local Notation tex := (texec E cast eqL labels).

Lemma exec_trans : forall P wc bs g g' g'', exc P wc bs g g' -> exc P wc bs g' g'' -> exc P wc bs g g''.
Proof. intros P wc bs g g' g'' H H'. induction H' as [g'|g' t g1 g2 H1 IH ST HP]; [exact H|]. eapply exec_step; [apply IH; exact H|exact ST|exact HP]. Qed.

(** A batch together with the list of the data points taken *)
Definition batch_log (P : shared -> Prop) (wc bs : Z) (nt : nat) (lr : T) (e e' : estate) (log : list entry) : Prop :=
  exists pcs g ls, spawn nt 0 wc = Ok pcs /\ tex P wc bs (start e pcs) g log /\ finished g /\
    apply_all lr (g_layers g) = ORet ls tt /\ e' = with_layers (est_of g) ls.
Fixpoint batches_log (P : shared -> Prop) (wc bs : Z) (nt : nat) (lr : T) (logs : list (list entry)) (e e' : estate) : Prop :=
  match logs with
  | [] => e' = e
  | log :: r => exists e1, batch_log P wc bs nt lr e e1 log /\ batches_log P wc bs nt lr r e1 e'
  end.

Lemma batch_has_log : forall P wc bs nt lr e e', batch E cast eqL labels P wc bs nt lr e (ORet e' tt) -> exists log, batch_log P wc bs nt lr e e' log.
Proof.
  intros P wc bs nt lr e e' H. inversion H as [pcs g S X F Q| | |].
  apply exec_texec in X. destruct X as [log X]. destruct (apply_all lr (g_layers g)) as [ls []| |] eqn:A; cbn in Q; try discriminate.
  injection Q as <-. exists log, pcs, g, ls. auto.
Qed.
Lemma batches_have_logs : forall P wc bs nt lr n e o e', batches E cast eqL labels P wc bs nt lr n e o -> o = ORet e' tt ->
  exists logs, length logs = n /\ batches_log P wc bs nt lr logs e e'.
Proof.
  intros P wc bs nt lr n e o e' H. induction H as [e|n e e1 o B H IH|n e o B NR]; intros EQ.
  - injection EQ as ->. exists []. split; reflexivity.
  - destruct (IH EQ) as (logs & HL & HB). destruct (batch_has_log _ _ _ _ _ _ _ B) as [log BL]. exists (log :: logs). split; [cbn; congruence|].
    exists e1. auto.
  - subst o. exfalso. eapply NR. reflexivity.
Qed.

Section Sizes.
Context (wc bs : Z) (nt : nat).
Hypothesis HW : 0 <= wc.
Hypothesis HB : 0 <= bs.
Hypothesis HB2 : bs < two31.
Hypothesis CV : bs <= Z.of_nat nt * wc.

Lemma batch_log_taken : forall P lr e e' log, Z.of_nat (length (s_results e)) = bs -> batch_log P wc bs nt lr e e' log ->
  map snd log = firstn (Z.to_nat bs) (s_source e) /\ s_source e' = skipn (Z.to_nat bs) (s_source e) /\ Z.of_nat (length (s_results e')) = bs.
Proof.
  intros P lr e e' log RL (pcs & g & ls & S & X & F & A & ->). cbn [with_layers est_of s_source s_results].
  destruct (batch_taken E cast eqL labels wc bs nt e pcs HW HB HB2 S RL _ _ _ X) as (_ & _ & _ & H). destruct (H F CV) as [H1 H2].
  repeat split; auto. apply (batch_invA E cast eqL labels wc bs nt e pcs HW HB HB2 S RL) in X. exact (a_res _ _ _ _ _ _ X).
Qed.

Lemma firstn_skipn_add : forall {A} a b (l : list A), firstn a l ++ firstn b (skipn a l) = firstn (a + b) l.
Proof.
  induction a as [|a IH]; intros b l; [reflexivity|]. destruct l as [|x l]; [cbn; rewrite !firstn_nil; reflexivity|]. cbn. f_equal. apply IH.
Qed.
Lemma skipn_add : forall {A} a b (l : list A), skipn b (skipn a l) = skipn (a + b) l.
Proof. induction a as [|a IH]; intros b l; [reflexivity|]. destruct l as [|x l]; [cbn; rewrite !skipn_nil; reflexivity|]. cbn. apply IH. Qed.

Theorem batches_taken : forall P lr logs e e', Z.of_nat (length (s_results e)) = bs -> batches_log P wc bs nt lr logs e e' ->
  concat (map (map snd) logs) = firstn (length logs * Z.to_nat bs) (s_source e) /\ s_source e' = skipn (length logs * Z.to_nat bs) (s_source e).
Proof.
  intros P lr. induction logs as [|log logs IH]; intros e e' RL H; cbn [batches_log] in H.
  - subst e'. split; reflexivity.
  - destruct H as (e1 & B & H). destruct (batch_log_taken _ _ _ _ _ RL B) as (B1 & B2 & B3). destruct (IH _ _ B3 H) as [I1 I2].
    cbn [map concat length Nat.mul]. rewrite I1, I2, B1, B2. rewrite firstn_skipn_add, skipn_add. auto.
Qed.
End Sizes.

(** A whole epoch: each data point of the source is taken exactly once, in the order of the source. *)
Theorem epoch_taken : forall P h size ls src e, 1 <= h_nt h < 2 ^ 24 -> 1 <= h_bs h < 2 ^ 24 -> size = Z.of_nat (length src) -> size < 2 ^ 24 ->
  epoch E cast eqL labels P h size ls src (ORet e tt) ->
  exists wc logs, batches_log P wc (h_bs h) (Z.to_nat (h_nt h)) (h_lr h) logs (Est ls src (repeat None (Z.to_nat (h_bs h))) 0) e /\
    concat (map (map snd) logs) = src /\ s_source e = [].
Proof.
  intros P h size ls src e Hn Hb HS HS2 H. inversion H as [wc nb o N0 B0 C1 C2 BT EQ|X EQ|wc N0 X1 X EQ|N0 X EQ]. subst o.
  rewrite ceil_div_exact in C1 by lia. injection C1 as <-. rewrite ceil_div_exact in C2 by lia. injection C2 as <-.
  assert (CV : forall a s, 1 <= s -> 0 <= a -> a <= s * ((a + s - 1) / s) /\ 0 <= (a + s - 1) / s).
  { intros a s H1 H2. pose proof (Z.div_mod (a + s - 1) s ltac:(lia)). pose proof (Z.mod_pos_bound (a + s - 1) s ltac:(lia)).
    split; [lia|]. apply Z.div_pos; lia. }
  destruct (CV (h_bs h) (h_nt h) ltac:(lia) ltac:(lia)) as [V1 V2]. destruct (CV size (h_bs h) ltac:(lia) ltac:(lia)) as [V3 V4].
  destruct (batches_have_logs _ _ _ _ _ _ _ _ _ BT eq_refl) as (logs & HL & BL). exists ((h_bs h + h_nt h - 1) / h_nt h), logs.
  split; [exact BL|]. destruct (batches_taken ((h_bs h + h_nt h - 1) / h_nt h) (h_bs h) (Z.to_nat (h_nt h))) with (6 := BL) as [A B]; auto.
  - unfold two31. lia.
  - rewrite Z2Nat.id by lia. exact V1.
  - cbn [s_results]. rewrite repeat_length. lia.
  - assert (LE : (length src <= length logs * Z.to_nat (h_bs h))%nat).
    { apply Nat2Z.inj_le. rewrite Nat2Z.inj_mul, HL, !Z2Nat.id by lia. lia. }
    cbn [s_source] in A, B. rewrite firstn_all2 in A by exact LE. rewrite skipn_all2 in B by exact LE. auto.
Qed.

(** ** Completing an execution *)
Section Complete.
Context (wc bs : Z) (nt : nat) (e : estate) (pcs : list pc).
Hypothesis HW : 0 <= wc.
Hypothesis HB : 0 <= bs.
Hypothesis HB2 : bs < two31.
Hypothesis SP : spawn nt 0 wc = Ok pcs.
Hypothesis RL : Z.of_nat (length (s_results e)) = bs.
Hypothesis RD : List.Forall ready (s_layers e).
Context (body : list (layer T)) (s : softmax).
Hypothesis HS0 : s_layers e = body ++ [LSoft s].
Hypothesis HI : forall p, In p (s_source e) -> idx p < sm_count s.
Hypothesis OKP : forall b p, 0 <= b < bs -> In p (s_source e) ->
  exists ls1 r1 ls2 r, fwd p b (s_layers e) = ORet ls1 r1 /\ backward_pass E r1 (idx p) b ls1 = ORet ls2 r.
Local Notation gst := (gstep E cast eqL labels wc bs).

Lemma rest_own : forall b p ls1 r1 ls2 r, fwd p b (s_layers e) = ORet ls1 r1 -> backward_pass E r1 (idx p) b ls1 = ORet ls2 r ->
  rest E cast eqL labels b p (idx p) WStart (s_layers e) = ORet ls2 r.
Proof.
  intros b p ls1 r1 ls2 r A B. cbn [rest]. unfold bind at 1. rewrite A. unfold back. unfold backward_pass in B. exact B.
Qed.

Theorem calm_no_stop : forall g t, exc calm wc bs (start e pcs) g -> (forall x, gst t g <> GStop x) /\ gst t g <> GUB.
Proof.
  intros g t H. apply exec_texec in H. destruct H as [log H].
  eapply no_stop with (P := calm) (nt := nt) (K := fun p k => k = idx p) (ls0 := s_layers e) (src0 := s_source e) (cnt := sm_count s)
    (res0 := s_results e) (succ0 := s_success e) (pcs0 := pcs) (log := log); try eassumption; auto.
  - intros body' s' EQ. rewrite HS0 in EQ. apply app_inj_tail in EQ. destruct EQ as [_ EQ]. congruence.
  - intros g0 t1 t' b b' p p' CA NE W1 W2. exfalso. apply NE. eapply CA; eassumption.
  - intros p k HP ->. auto.
  - eauto.
  - intros b p k Hb HP ->. destruct (OKP b p Hb HP) as (ls1 & r1 & ls2 & r & A & B). exists ls2, r. eapply rest_own; eassumption.
Qed.

Lemma gs_windows : forall t g g' a b p, gs E cast eqL labels wc bs t g g' -> window g' a b p -> a <> t -> window g a b p.
Proof.
  intros t g g' a b p ST (gr & r & W) NE. pose proof (gs_length E cast eqL labels wc bs _ _ _ ST) as HL. destruct (gs_pcs E cast eqL labels wc bs _ _ _ ST) as (c & c' & _ & HP).
  rewrite HL, HP, nth_upd_other in W by congruence. exists gr, r. exact W.
Qed.

Theorem calm_completes : forall g, exc calm wc bs (start e pcs) g -> exists g', exc calm wc bs g g' /\ finished g'.
Proof.
  intros g H. remember (meas wc bs nt (length (s_layers e)) g) as m eqn:QM. revert g H QM.
  induction m as [m IH] using lt_wf_ind. intros g H QM.
  destruct (finished_dec g) as [F|F]; [exists g; split; [constructor|exact F]|].
  assert (ST : exists t g1, gst t g = GNext g1 /\ calm g1).
  { pose proof H as HX. apply exec_texec in HX. destruct HX as [log HX].
    pose proof (batch_invA E cast eqL labels wc bs nt e pcs HW HB HB2 SP RL _ _ _ HX) as A.
    destruct (Nat.eq_dec (length (g_layers g)) 0) as [Z0|Z0].
    { exfalso. pose proof (proj1 (batch_agree E cast eqL labels wc bs nt e pcs HW HB HB2 SP RL RD _ _ _ HX)) as LL. rewrite Z0, HS0, app_length in LL. cbn in LL. lia. }
    assert (GO : forall t, gst t g <> GBlocked -> exists g1, gst t g = GNext g1).
    { intros t NB. destruct (calm_no_stop g t H) as [N1 N2]. destruct (gst t g) as [g1| |x|]; try congruence; eauto; exfalso; eapply N1; reflexivity. }
    assert (CW : calm g).
    { inversion H as [|? ? ? ? H1 H2 H3]; subst; [|assumption].
      intros t t' b b' p p' (gr & r & W). exfalso. cbn [start g_pcs] in W. destruct (spawn_nth wc HW nt 0 pcs SP) as [L1 L2].
      assert (t < nt)%nat by (rewrite <- L1; apply nth_error_Some; congruence). destruct (L2 t H0) as [L3 _]. congruence. }
    destruct (existsb (fun c : pc => match c with PWork _ _ (WBwd n _ _) => Nat.eqb n (length (g_layers g)) | _ => false end) (g_pcs g)) eqn:EX.
    - apply existsb_exists in EX. destruct EX as (c & HC & EX). apply In_nth_error in HC. destruct HC as [t HC].
      destruct c as [b|b|b|b|b p|b p [|i x recs|r|r|n gr r|r]|b|b]; try discriminate EX. apply Nat.eqb_eq in EX. subst n.
      destruct (GO t) as [g1 G1].
      { unfold gstep. rewrite HC. destruct (wstep E cast eqL labels b p (WBwd (length (g_layers g)) gr r) (g_layers g)); try discriminate. destruct (keep_result b a (g_results g)); discriminate. }
      exists t, g1. split; [exact G1|]. pose proof (gstep_gs E cast eqL labels wc bs _ _ _ G1) as GS.
      assert (NW : forall b' p', ~ window g1 t b' p').
      { intros b' p' (gr' & r' & W). pose proof (gs_length E cast eqL labels wc bs _ _ _ GS) as HL. rewrite HL in W.
        assert (TL : (t < length (g_pcs g))%nat) by (apply nth_error_Some; congruence).
        inversion GS; subst; try congruence. cbn [set_pc g_pcs] in W. rewrite nth_upd_same in W by exact TL.
        rewrite HC in H0. injection H0 as <- <- <-. injection W as -> -> ->.
        destruct (length (g_layers g)) as [|n] eqn:LN; [congruence|]. cbn [wstep] in H2.
        repeat (apply bind_inv in H2; destruct H2 as (? & ? & ? & H2)). injection H2 as _ H2. lia. }
      intros a a' b1 b2 p1 p2 W1 W2. destruct (Nat.eq_dec a t) as [->|D1]; [exfalso; eapply NW; exact W1|]. destruct (Nat.eq_dec a' t) as [->|D2]; [exfalso; eapply NW; exact W2|].
      eapply CW; [exact (gs_windows _ _ _ _ _ _ GS W1 D1)|exact (gs_windows _ _ _ _ _ _ GS W2 D2)].
    - destruct (no_deadlock E cast eqL labels wc bs nt (s_source e) log g A F) as [t NB]. destruct (GO t NB) as [g1 G1].
      exists t, g1. split; [exact G1|]. pose proof (gstep_gs E cast eqL labels wc bs _ _ _ G1) as GS.
      assert (NW : forall a b p, ~ window g a b p).
      { intros a b p (gr & r & W). enough (existsb (fun c : pc => match c with PWork _ _ (WBwd n _ _) => Nat.eqb n (length (g_layers g)) | _ => false end) (g_pcs g) = true) by congruence.
        apply existsb_exists. eexists. split; [eapply nth_error_In; exact W|]. cbn. apply Nat.eqb_refl. }
      intros a a' b1 b2 p1 p2 W1 W2. destruct (Nat.eq_dec a t) as [->|D1].
      + destruct (Nat.eq_dec a' t) as [->|D2]; [reflexivity|]. exfalso. eapply NW. exact (gs_windows _ _ _ _ _ _ GS W2 D2).
      + exfalso. eapply NW. exact (gs_windows _ _ _ _ _ _ GS W1 D1). }
  destruct ST as (t & g1 & G1 & C1). pose proof H as HX. apply exec_texec in HX. destruct HX as [log HX].
  pose proof (batch_invA E cast eqL labels wc bs nt e pcs HW HB HB2 SP RL _ _ _ HX) as A.
  assert (LT : (meas wc bs nt (length (s_layers e)) g1 < m)%nat).
  { subst m. eapply meas_lt with (cast := cast) (eqL := eqL) (labels := labels) (E := E); try eassumption; [|apply gstep_gs; exact G1].
    exact (proj1 (batch_agree E cast eqL labels wc bs nt e pcs HW HB HB2 SP RL RD _ _ _ HX)). }
  destruct (IH _ LT g1) as (g' & X & F'); [eapply exec_step; eassumption|reflexivity|].
  exists g'. split; [|exact F']. eapply exec_trans; [|exact X]. eapply exec_step; [constructor|exact G1|exact C1].
Qed.
End Complete.
End Epoch.
