(** Training with two or more threads can use the label of one data point for the gradient of another one: for every
    network, not only for an example. *)
From Coq Require Import ZArith List Bool Lia.
From Verif Require Import Base Dim Matrix View Num Expr Spec Iter Sums MatFacts MatThms Batch Kernel Connected Float32 FloatFacts Pooling Activation Softmax
  LayerFacts KernelThms ConnectedThms PoolingThms PoolGrad LayerTotal SoftmaxThms Chars Model Net NetPass NetGrad ModelThms Train TrainLocal TrainRest TrainInv TrainData TrainThms
  TrainMore Shapes ShapeNet TrainSafe TrainRace NetWrong.
Import ListNotations.
Local Open Scope Z_scope.

Section Mix.
Context {T : Type} {N : Num T} (E : env T).
Hypothesis ORD : e_moved E = false.
Context {U L : Type} (cast : U -> T) (eqL : L -> L -> bool) (labels : list L).
Local Notation shared := (shared (T := T) (U := U) (L := L)).
Local Notation pc := (pc (T := T) (U := U) (L := L)).
Local Notation estate := (estate (T := T) (U := U) (L := L)).
Local Notation idx := (label_idx eqL labels).
Local Notation nl := (Z.of_nat (length labels)).
Local Notation gst := (gstep E cast eqL labels).
Local Notation wst := (wstep E cast eqL labels).
Local Notation ex := (exec E cast eqL labels (fun _ => True)).
Local Notation prv := (priv E cast eqL labels).
Local Notation mvs := (moves E cast eqL labels).

Lemma exec_run : forall wc bs g g', ex wc bs g g' -> exists sched, run E cast eqL labels wc bs sched g = GNext g'.
Proof.
  intros wc bs g g' X. induction X as [g|g t g1 g2 X (sched & IH) ST _]; [exists []; reflexivity|].
  exists (sched ++ [t]). rewrite run_app, IH. cbn [run]. rewrite ST. reflexivity.
Qed.

(** The backward pass of one thread, while the others wait *)
Lemma back_alone : forall wc bs ls0 k b p, 0 <= b -> (exists lsf rf, rest E cast eqL labels b p k WStart ls0 = ORet lsf rf) ->
  forall n t g gr r lsp, nth_error (g_pcs g) t = Some (PWork b p (WBwd n gr r)) -> b < Z.of_nat (length (g_results g)) ->
  (n < length (g_layers g))%nat -> prv b p k ls0 lsp (WBwd n gr r) -> agreeL (Z.to_nat b) (g_layers g) lsp ->
  exists g' lsp', mvs wc bs t g g' /\ nth_error (g_pcs g') t = Some (PWork b p (WEnd r)) /\ prv b p k ls0 lsp' (WEnd r) /\ agreeL (Z.to_nat b) (g_layers g') lsp'.
Proof.
  intros wc bs ls0 k b p Hb (lsf & rf & RT). induction n as [|n IH]; intros t g gr r lsp Q Hr HL PV AG.
  - destruct (work_step E cast eqL labels wc bs t g b p (WBwd 0 gr r) (g_layers g) (WEnd r) Q ltac:(lia) ltac:(discriminate) eq_refl) as (g' & _ & MV & GL & _ & Q').
    exists g', lsp. split; [exact MV|]. split; [exact Q'|]. split; [|rewrite GL; exact AG]. eapply priv_step; [exact PV|reflexivity].
  - edestruct priv_progress with (1 := RT) (2 := PV) as (ls1 & w1 & ST). cbn [pstep] in ST.
    assert (HW1 : exists gr', w1 = WBwd n gr' r).
    { pose proof ST as ST'. cbn [wstep] in ST'. repeat (apply bind_inv in ST'; destruct ST' as (? & ? & ? & ST')). injection ST' as _ <-. eauto. }
    destruct HW1 as (gr' & ->).
    pose proof (wstep_local E cast eqL labels b p (WBwd (S n) gr r) _ _ Hb AG ltac:(discriminate) ltac:(intros g1 r1 HE; injection HE as HE _ _; lia)) as BO.
    rewrite ST in BO. destruct (wst b p (WBwd (S n) gr r) (g_layers g)) as [ls2 w2| |] eqn:S2; cbn in BO; try contradiction. destruct BO as [AG2 ->].
    pose proof (wstep_length _ _ _ _ _ _ _ _ _ _ S2) as LL.
    destruct (work_step E cast eqL labels wc bs t g b p (WBwd (S n) gr r) ls2 (WBwd n gr' r) Q ltac:(lia) ltac:(discriminate) S2) as (g1 & _ & MV & GL & _ & Q').
    destruct (IH t g1 gr' r ls1 Q') as (g' & lsp' & M2 & A1 & A2 & A3).
    + rewrite (mv_res _ _ _ _ _ _ _ _ _ MV). exact Hr.
    + rewrite GL. lia.
    + eapply priv_step; [exact PV|exact ST].
    + rewrite GL. exact AG2.
    + exists g', lsp'. split; [eapply moves_trans; eassumption|]. auto.
Qed.

(** *** A connected layer before the output layer stores the gradient of the output layer. *)
Lemma bwd_keeps : forall n recs g slot ls ls' g', bwd_layers E n recs g slot ls = ORet ls' g' -> forall j, (n <= j)%nat -> nth_error ls' j = nth_error ls j.
Proof.
  induction n as [|n IH]; intros recs g slot ls ls' g' H j Hj. { injection H as <- _. reflexivity. }
  cbn [bwd_layers] in H. do 4 (apply bind_inv in H; let s1 := fresh "st" in let a := fresh "a" in let S1 := fresh "SS" in destruct H as (s1 & a & S1 & H); apply lift_inv in S1; destruct S1 as [-> _]).
  apply bind_inv in H. destruct H as (ls1 & g1 & H1 & H). rewrite (IH _ _ _ _ _ _ H j) by lia.
  unfold on_nth in H1. destruct (nth_error ls n) as [l|]; [|discriminate]. destruct (l_backward E _ _ g slot (Nat.eqb n 0) l); cbn in H1; try discriminate.
  injection H1 as <- _. apply nth_upd_other. lia.
Qed.
Lemma last_bias : forall recs k b b1 c sm ls, backward_tail E recs k b (b1 ++ [LConn c; LSoft sm]) = ORet ls tt ->
  exists z z1 g c', vat recs (S (S (length b1))) = Ok z /\ double_copy z = Ok z1 /\ sm_dx z1 k = Ok g /\ nth_error ls (length b1) = Some (LConn c') /\
    nth_error (p_bg (c_par c')) (Z.to_nat b) = Some g.
Proof.
  intros recs k b b1 c sm ls H. unfold backward_tail in H. apply bind_inv in H. destruct H as (ls1 & u & H1 & H). apply hand_over_ok in H1.
  destruct H1 as (bd & s & EQ & HK & ->). change [LConn c; LSoft sm] with ([LConn c] ++ [LSoft (T := T) sm]) in EQ. rewrite app_assoc in EQ. apply app_inj_tail in EQ. destruct EQ as [<- EQ].
  injection EQ as <-. unfold mget, bind at 1 in H. apply bind_inv in H. destruct H as (ls2 & g2 & H & HR). injection HR as <-.
  replace (length ((b1 ++ [LConn c]) ++ [LSoft (T := T) (Soft true k (sm_count sm))])) with (S (S (length b1))) in H by (rewrite !app_length; cbn; lia).
  rewrite <- app_assoc in H. cbn [app] in H. remember (S (length b1)) as m eqn:EM.
  cbn [bwd_layers] in H. apply bind_inv in H. destruct H as (l1 & x & X1 & H). apply lift_inv in X1. destruct X1 as [-> X1].
  apply bind_inv in H. destruct H as (l1 & z & X2 & H). apply lift_inv in X2. destruct X2 as [-> X2].
  apply bind_inv in H. destruct H as (l1 & x1 & X3 & H). apply lift_inv in X3. destruct X3 as [-> X3].
  apply bind_inv in H. destruct H as (l1 & z1 & X4 & H). apply lift_inv in X4. destruct X4 as [-> X4].
  apply bind_inv in H. destruct H as (l1 & g & X5 & H). unfold on_nth in X5.
  assert (QM : nth_error (b1 ++ [LConn c; LSoft (Soft true k (sm_count sm))]) m = Some (LSoft (T := T) (Soft true k (sm_count sm)))).
  { subst m. rewrite nth_error_app2 by lia. replace (S (length b1) - length b1)%nat with 1%nat by lia. reflexivity. }
  rewrite QM in X5. cbn [l_backward sm_backward sm_known sm_label] in X5. unfold sm_backward in X5. cbn [sm_known sm_label] in X5.
  destruct (sm_dx z1 k) as [g0| |] eqn:QD; cbn in X5; try discriminate. injection X5 as <- <-.
  assert (UP : upd (b1 ++ [LConn c; LSoft (Soft true k (sm_count sm))]) m (LSoft (Soft true k (sm_count sm))) = b1 ++ [LConn c; LSoft (T := T) (Soft true k (sm_count sm))]).
  { change [LConn c; LSoft (T := T) (Soft true k (sm_count sm))] with ([LConn c] ++ [LSoft (T := T) (Soft true k (sm_count sm))]). rewrite app_assoc.
    replace m with (length (b1 ++ [LConn c])) by (rewrite app_length; cbn; lia). apply upd_last. }
  rewrite UP in H. subst m. cbn [bwd_layers] in H.
  do 4 (apply bind_inv in H; let s1 := fresh "st" in let a := fresh "a" in let S1 := fresh "SS" in destruct H as (s1 & a & S1 & H); apply lift_inv in S1; destruct S1 as [-> _]).
  apply bind_inv in H. destruct H as (l1 & g1 & X6 & H). pose proof (bwd_keeps _ _ _ _ _ _ _ H (length b1) (Nat.le_refl _)) as KP.
  unfold on_nth in X6. rewrite nth_error_mid in X6. cbn [l_backward] in X6.
  match type of X6 with map_out _ (map_out _ ?o) = _ => destruct o as [c' o1| |] eqn:QC end; cbn in X6; try discriminate. injection X6 as <- <-.
  exists z, z1, g0, c'. split; [exact X2|]. split; [exact X4|]. split; [exact QD|]. split.
  { rewrite KP. rewrite upd_mid. apply nth_error_mid. }
  unfold c_backward in QC. apply bind_inv in QC. destruct QC as (c1 & dw & Y1 & QC). apply lift_inv in Y1. destruct Y1 as [-> _].
  apply bind_inv in QC. destruct QC as (c2 & u2 & Y2 & QC). apply bind_inv in QC. destruct QC as (c3 & u3 & Y3 & QC).
  assert (C3 : c' = c3). { unfold bind, mget in QC. destruct (Nat.eqb (length b1) 0); [injection QC as <- _; reflexivity|]. destruct (c_dx _ c3 g0); cbn in QC; try discriminate. injection QC as <- _. reflexivity. }
  subst c3. unfold on_cpar, store_bg, c_db in Y3. destruct (vset (p_bg (c_par c2)) b g0) as [bg| |] eqn:V; try discriminate. injection Y3 as <- _. cbn [c_par p_bg].
  unfold vset in V. destruct ((0 <=? b) && (b <? Z.of_nat (length (p_bg (c_par c2))))) eqn:QB; [|discriminate]. injection V as <-. apply nth_upd_same. lia.
Qed.
Lemma other_label : (forall v : T, nsub v n1 <> v) -> forall z k k' g, k <> k' -> sm_dx z k = Ok g -> sm_dx z k' = Ok g -> False.
Proof.
  intros NE z k k' g D H H'. unfold sm_dx in H, H'. unfold mread_flat in *.
  destruct (vget (mvals z) k) as [v| |] eqn:V; cbn in H; try discriminate. destruct (vget (mvals z) k') as [v'| |] eqn:V'; cbn in H'; try discriminate.
  unfold mwrite_flat, run_state in H, H'. destruct (vset (mvals z) k (nsub v n1)) as [l| |] eqn:S1; try discriminate. destruct (vset (mvals z) k' (nsub v' n1)) as [l'| |] eqn:S2; try discriminate.
  injection H as <-. injection H' as H'. unfold vget in V, V'. unfold vset in S1, S2.
  destruct ((0 <=? k) && (k <? Z.of_nat (length (mvals z)))) eqn:B1; [|discriminate]. destruct ((0 <=? k') && (k' <? Z.of_nat (length (mvals z)))) eqn:B2; [|discriminate].
  injection S1 as <-. injection S2 as <-. apply (f_equal (fun l => nth_error l (Z.to_nat k))) in H'.
  rewrite nth_upd_other in H' by lia. rewrite nth_upd_same in H' by lia. rewrite H' in V. injection V as V. eapply NE. exact V.
Qed.

Section Batch.
Context (wc bs : Z) (ss : list shape) (d : dim3) (nt : nat) (pcs : list pc) (e : estate) (p0 p1 : point U L) (s : list (point U L)).
Hypothesis NT : (2 <= nt)%nat.
Hypothesis WB : 1 <= wc < bs.
Hypothesis B31 : bs < two31.
Hypothesis CV : bs <= Z.of_nat nt * wc.
Hypothesis SP : spawn nt 0 wc = Ok pcs.
Hypothesis RL : Z.of_nat (length (s_results e)) = bs.
Hypothesis HR : h_ready ss d nl.
Hypothesis SU : set_up labels (s_layers e) ss d bs.
Hypothesis RD : List.Forall ready (s_layers e).
Hypothesis SR : s_source e = p0 :: p1 :: s.
Hypothesis GP : forall p, In p (s_source e) -> pt_ok eqL labels d p.

(** The first data point has been worked on, with the label of the second one. *)
Lemma mixed_point : exists g r lsp, ex wc bs (start e pcs) g /\ nth_error (g_pcs g) 0 = Some (PWork 0 p0 (WEnd r)) /\
  prv 0 p0 (idx p1) (s_layers e) lsp (WEnd r) /\ agreeL 0 (g_layers g) lsp.
Proof.
  pose proof SU as (body & sm & EL & HF & HC & NS & SO). pose proof HR as (OK & BK & LO).
  assert (G0 : pt_ok eqL labels d p0) by (apply GP; rewrite SR; left; reflexivity).
  assert (G1 : pt_ok eqL labels d p1) by (apply GP; rewrite SR; right; left; reflexivity).
  assert (SL : TrainRace.slots bs body).
  { exact SO. }
  destruct (race_label E cast eqL labels wc bs ss d OK LO nt pcs e p0 p1 s body sm) as (g & r0 & r1 & X & LK & _ & Q0 & Q1 & T0 & T1 & body' & GB); auto.
  destruct (exec_texec _ _ _ _ _ _ _ _ _ X) as (log & X').
  destruct (safe_inv E ORD cast eqL labels (fun _ => True) wc bs nt ss d ltac:(lia) ltac:(lia) B31 HR e pcs g log SP RL SU RD GP X') as [D _].
  pose proof (batch_invA E cast eqL labels wc bs nt e pcs ltac:(lia) ltac:(lia) B31 SP RL _ _ _ X') as A.
  pose proof (a_res _ _ _ _ _ _ A) as RS.
  destruct G1 as [HX1 HI1]. destruct G0 as [HX0 HI0].
  pose proof (d_own _ _ _ _ _ _ _ _ _ _ D _ _ _ _ Q0) as HI.
  pose proof (d_ent _ _ _ _ _ _ _ _ _ _ D _ _ _ _ HI Q0) as HE. unfold ent in HE. cbn [phase] in HE. rewrite Z.eqb_refl in HE. destruct HE as (_ & HE & _).
  unfold at_ in HE. cbn [pre handed] in HE. destruct (HE (idx p1) ltac:(lia)) as (lsp & PV & AG & _).
  (* the two steps of line 202 *)
  assert (CB : sm_count sm = nl) by exact HC.
  assert (XB : exists b2 s2, g_layers g = b2 ++ [LSoft s2] /\ sm_count s2 = nl /\ b2 = body').
  { exists body', sm. auto. }
  destruct XB as (b2 & s2 & GB2 & C2 & EB2). 
  destruct (work_step E cast eqL labels wc bs 0 g 0 p0 (WHand r0) (b2 ++ [LSoft (Soft true (idx p0) nl)]) (WBwd (length (g_layers g)) mat_empty r0) Q0 ltac:(lia) ltac:(discriminate))
    as (g1 & _ & M1 & GL1 & _ & P1).
  { cbn [wstep]. unfold bind. rewrite GB2, T0, hand_over_at by lia. unfold mget, ret. rewrite !app_length, C2. reflexivity. }
  assert (Q1' : nth_error (g_pcs g1) 1 = Some (PWork wc p1 (WHand r1))) by (rewrite (mv_pcs _ _ _ _ _ _ _ _ _ M1) by lia; exact Q1).
  destruct (work_step E cast eqL labels wc bs 1 g1 wc p1 (WHand r1) (b2 ++ [LSoft (Soft true (idx p1) nl)]) (WBwd (length (g_layers g)) mat_empty r1) Q1') as (g2 & _ & M2 & GL2 & _ & P2).
  { rewrite (mv_res _ _ _ _ _ _ _ _ _ M1). lia. }
  { discriminate. }
  { cbn [wstep]. unfold bind. rewrite GL1, T1, hand_over_at by (cbn; lia). unfold mget, ret. rewrite GB2, !app_length. reflexivity. }
  assert (P1' : nth_error (g_pcs g2) 0 = Some (PWork 0 p0 (WBwd (length (g_layers g2)) mat_empty r0))).
  { rewrite (mv_pcs _ _ _ _ _ _ _ _ _ M2) by lia. rewrite P1, GL2, GB2, !app_length. reflexivity. }
  assert (R2 : Z.of_nat (length (g_results g2)) = bs) by (rewrite (mv_res _ _ _ _ _ _ _ _ _ M2), (mv_res _ _ _ _ _ _ _ _ _ M1); exact RS).
  (* the private copy with the other label *)
  pose proof AG as AG'. rewrite GB2 in AG'. apply agreeL_sym in AG'. destruct (agreeL_soft _ _ _ _ AG') as (b3 & s3 & E3 & C3 & L3). subst lsp.
  assert (PV2 : prv 0 p0 (idx p1) (s_layers e) (b3 ++ [LSoft (Soft true (idx p1) nl)]) (WBwd (length (g_layers g2)) mat_empty r0)).
  { eapply priv_step; [exact PV|]. cbn [pstep]. unfold bind. rewrite hand_over_at by lia. unfold mget, ret. rewrite GL2, !app_length. cbn [length]. rewrite L3, C3, C2. reflexivity. }
  pose proof (TrainLocal.agreeL_ready _ _ _ AG') as RB3. apply Forall_app in RB3. destruct RB3 as [RB3 _].
  pose proof (TrainLocal.agreeL_ready _ _ _ AG) as RB2. rewrite GB2 in RB2. apply Forall_app in RB2. destruct RB2 as [RB2 _].
  assert (AG2 : agreeL 0 (g_layers g2) (b3 ++ [LSoft (Soft true (idx p1) nl)])).
  { rewrite GL2. eapply agreeL_trans; [apply (agreeL_last 0 b2 _ s2 RB2); cbn; congruence|].
    eapply agreeL_trans; [apply agreeL_sym; exact AG'|]. apply agreeL_last; [exact RB3|cbn; congruence]. }
  assert (SA1 : soft_at nl (g_layers g2) (idx p1)) by (apply soft_at_app; exists b2; exact GL2).
  assert (SA2 : soft_at nl (b3 ++ [LSoft (Soft true (idx p1) nl)]) (idx p1)) by (apply soft_at_app; eauto).
  assert (RT : exists lsf rf, rest E cast eqL labels 0 p0 (idx p1) WStart (s_layers e) = ORet lsf rf).
  { rewrite EL. destruct (point_total E ORD cast eqL labels body sm ss d p0 0 (idx p1) HF HC HR (SO 0 ltac:(lia)) HX0 HI0 HI1) as (bb & rr & RT & _). eauto. }
  pose proof (wstep_local_soft E cast eqL labels 0 p0 mat_empty r0 _ _ nl (idx p1) ltac:(lia) AG2 SA1 SA2) as BO.
  destruct RT as (lsf & rf & RT). edestruct priv_progress with (1 := RT) (2 := PV2) as (ls4 & w4 & ST4). cbn [pstep] in ST4.
  rewrite ST4 in BO. destruct (wst 0 p0 (WBwd (length (g_layers g2)) mat_empty r0) (g_layers g2)) as [ls5 w5| |] eqn:ST5; cbn in BO; try contradiction. destruct BO as [AG5 ->].
  assert (LN : exists n, length (g_layers g2) = S n) by (rewrite GL2, app_length; cbn; exists (length b2); lia). destruct LN as (n & LN).
  assert (HW5 : exists gr', w4 = WBwd n gr' r0).
  { pose proof ST5 as ST'. rewrite LN in ST'. cbn [wstep] in ST'. repeat (apply bind_inv in ST'; destruct ST' as (? & ? & ? & ST')). injection ST' as _ <-. eauto. }
  destruct HW5 as (gr' & ->). pose proof (wstep_length _ _ _ _ _ _ _ _ _ _ ST5) as LL5.
  destruct (work_step E cast eqL labels wc bs 0 g2 0 p0 _ ls5 _ P1' ltac:(lia) ltac:(discriminate) ST5) as (g3 & _ & M3 & GL3 & _ & P3).
  destruct (back_alone wc bs (s_layers e) (idx p1) 0 p0 ltac:(lia) (ex_intro _ lsf (ex_intro _ rf RT)) n 0%nat g3 gr' r0 ls4 P3) as (g4 & lsp4 & M4 & Q4 & PV4 & AG4).
  - rewrite (mv_res _ _ _ _ _ _ _ _ _ M3). lia.
  - rewrite GL3. lia.
  - eapply priv_step; [exact PV2|exact ST4].
  - rewrite GL3. exact AG5.
  - exists g4, r0, lsp4. split; [|auto].
    eapply exec_app; [exact X|]. eapply exec_app; [exact (mv_exec _ _ _ _ _ _ _ _ _ M1)|]. eapply exec_app; [exact (mv_exec _ _ _ _ _ _ _ _ _ M2)|].
    eapply exec_app; [exact (mv_exec _ _ _ _ _ _ _ _ _ M3)|]. exact (mv_exec _ _ _ _ _ _ _ _ _ M4).
Qed.

(** Afterwards nobody writes to that slot. *)
Definition past (c : pc) : Prop := (exists r, c = PWork 0 p0 (WEnd r)) \/ c = PCount 0 \/ 1 <= cur c.
Lemma past_step : forall t g g' lsp, ex wc bs (start e pcs) g -> gst wc bs t g = GNext g' ->
  (exists c, nth_error (g_pcs g) 0 = Some c /\ past c) -> agreeL 0 (g_layers g) lsp -> (exists c, nth_error (g_pcs g') 0 = Some c /\ past c) /\ agreeL 0 (g_layers g') lsp.
Proof.
  intros t g g' lsp X ST (c & QC & PC) AG. destruct (exec_texec _ _ _ _ _ _ _ _ _ X) as (log & X').
  pose proof (batch_invA E cast eqL labels wc bs nt e pcs ltac:(lia) ltac:(lia) B31 SP RL _ _ _ X') as A.
  assert (K : forall c' ls so lk rs su, (t = 0%nat -> past c') -> nth_error (g_pcs g) t <> None ->
    exists c0, nth_error (g_pcs (set_pc t c' (Shared (T := T) (U := U) (L := L) ls so lk rs su (g_pcs g)))) 0 = Some c0 /\ past c0).
  { intros c' ls so lk rs su HP HN. cbn [set_pc g_pcs]. rewrite nth_upd. destruct (Nat.eqb t 0) eqn:QT.
    - apply Nat.eqb_eq in QT. subst t. rewrite QC. eauto.
    - eauto. }
  assert (Z0 : forall c0, nth_error (g_pcs g) t = Some c0 -> t = 0%nat -> past c0) by (intros c0 H0 ->; congruence).
  apply gstep_gs in ST.
  destruct ST as [b Q C|b Q C|b Q QL|b Q QS|b p s0 Q QS|b p s0 Q QS|b p Q|b p r Q|b p w ls w' rs Q NE QW QK|b r Q QV]; pose proof (Z0 _ Q) as Z1;
    (assert (QN : nth_error (g_pcs g) t <> None) by congruence).
  1-8,10: split; [|exact AG];
    first [apply (K _ (g_layers g) (g_source g) (g_lock g) (g_results g) (g_success g))
          |apply (K (PHas b) (g_layers g) (g_source g) (Some t) (g_results g) (g_success g))
          |apply (K _ (g_layers g) _ (g_lock g) (g_results g) _)]; try exact QN;
    intros HT; specialize (Z1 HT); destruct Z1 as [[r9 Z1]|[Z1|Z1]]; try discriminate; cbn [cur] in Z1;
    try (injection Z1 as ->; right; left; reflexivity); try (injection Z1 as -> _ _; right; left; reflexivity); try (right; right; cbn [cur]; first [exact Z1|injection Z1 as ->; lia|lia]).
  assert (RDY : List.Forall ready (g_layers g)) by (eapply TrainLocal.agreeL_ready; exact AG).
  destruct (a_rng _ _ _ _ _ _ A _ _ Q) as [R1 R2]. cbn [cur inloop] in R1, R2. unfold lo in R1.
  assert (Hb : 1 <= b).
  { destruct t as [|t]; [|nia]. destruct (Z1 eq_refl) as [[r9 Z2]|[Z2|Z2]]; [|discriminate|exact Z2]. injection Z2 as _ _ Z2. exfalso. eapply NE. exact Z2. }
  split.
  - apply K; [|exact QN]. intros _. right. right. exact Hb.
  - cbn [set_pc g_layers]. eapply agreeL_trans; [apply agreeL_sym|exact AG]. change 0%nat with (Z.to_nat 0). eapply wstep_frame with (b := b); try eassumption; lia.
Qed.

Theorem mixed_labels : exists g log ls1 r1 r ls2, texec E cast eqL labels (fun _ => True) wc bs (start e pcs) g log /\ finished g /\ In (0%nat, 0, p0) log /\
  forward_pass E cast nl (pt_data p0) 0 (s_layers e) = ORet ls1 r1 /\ assign_loss E r1 (idx p0) = Ok r /\
  backward_tail E (r_inputs r) (idx p1) 0 ls1 = ORet ls2 tt /\ map (slot_data 0) (g_layers g) = map (slot_data 0) ls2.
Proof.
  destruct mixed_point as (g & r & lsp & X & Q & PV & AG).
  destruct (exec_texec _ _ _ _ _ _ _ _ _ X) as (log0 & X0).
  destruct (safe_inv E ORD cast eqL labels (fun _ => True) wc bs nt ss d ltac:(lia) ltac:(lia) B31 HR e pcs g log0 SP RL SU RD GP X0) as [D0 _].
  pose proof (d_own _ _ _ _ _ _ _ _ _ _ D0 _ _ _ _ Q) as HI0.
  assert (FIN : exists g' log, texec E cast eqL labels (fun _ => True) wc bs (start e pcs) g' log /\ finished g' /\ agreeL 0 (g_layers g') lsp /\ In (0%nat, 0, p0) log).
  { destruct (batch_bounded E cast eqL labels wc bs nt e pcs ltac:(lia) ltac:(lia) B31 SP RL) as [B HBD].
    assert (K : forall n sched g1 log, run E cast eqL labels wc bs sched (start e pcs) = GNext g1 -> texec E cast eqL labels (fun _ => True) wc bs (start e pcs) g1 log ->
      In (0%nat, 0, p0) log -> agreeL 0 (g_layers g1) lsp -> (exists c, nth_error (g_pcs g1) 0 = Some c /\ past c) ->
      (B < length sched + n)%nat -> exists g' log, texec E cast eqL labels (fun _ => True) wc bs (start e pcs) g' log /\ finished g' /\ agreeL 0 (g_layers g') lsp /\ In (0%nat, 0, p0) log).
    { induction n as [|n IH]; intros sched g1 log HRN X1' HIN AG1 PC HL. { pose proof (HBD _ _ HRN). lia. }
      pose proof (run_exec _ _ _ _ _ _ _ _ _ HRN) as X1.
      destruct (safe_inv E ORD cast eqL labels (fun _ => True) wc bs nt ss d ltac:(lia) ltac:(lia) B31 HR e pcs g1 log SP RL SU RD GP X1') as [_ SAFE].
      destruct (batch_no_deadlock E cast eqL labels wc bs nt e pcs ltac:(lia) ltac:(lia) B31 SP RL _ _ X1) as [F|[t F]]; [exists g1, log; auto|].
      destruct (SAFE t) as [S1 S2].
      destruct (gst wc bs t g1) as [g2| |x|] eqn:ST; [|congruence|exfalso; eapply S1; reflexivity|congruence].
      destruct (past_step t g1 g2 lsp X1 ST PC AG1) as [PC2 AG2].
      apply (IH (sched ++ [t]) g2 (log ++ took t g1)); auto.
      - rewrite run_app, HRN. cbn [run]. rewrite ST. reflexivity.
      - eapply tx_step; [exact X1'|exact ST|exact Logic.I].
      - apply in_or_app. auto.
      - rewrite app_length. cbn. lia. }
    destruct (exec_run _ _ _ _ X) as (sched & HRN). apply (K (S B) sched g log0 HRN X0 HI0 AG); [|lia]. eexists. split; [exact Q|]. left. eauto. }
  destruct FIN as (g' & log & TX & F & AG' & HIN).
  destruct (priv_end _ _ _ _ _ _ _ _ _ _ PV) as (ls1 & r1 & A1 & A2 & A3).
  exists g', log, ls1, r1, r, lsp. split; [exact TX|]. split; [exact F|]. split; [exact HIN|split; [exact A1|split; [exact A2|split; [exact A3|]]]].
  apply agreeL_slot; [lia|exact AG'].
Qed.

(** If a connected layer is before the output layer and the labels differ then it is not the gradient for the own label. *)
Theorem wrong_gradient : forall ss' m, (forall v : T, nsub v n1 <> v) -> ss = ss' ++ [HConn m] -> idx p0 <> idx p1 ->
  exists g log ls1 r1 ls2 r, texec E cast eqL labels (fun _ => True) wc bs (start e pcs) g log /\ finished g /\ In (0%nat, 0, p0) log /\
    forward_pass E cast nl (pt_data p0) 0 (s_layers e) = ORet ls1 r1 /\ backward_pass E r1 (idx p0) 0 ls1 = ORet ls2 r /\
    map (slot_data 0) (g_layers g) <> map (slot_data 0) ls2.
Proof.
  intros ss' m NE ES ND. destruct mixed_labels as (g & log & ls1 & r1 & r & ls3 & TX & F & HI & EF & EA & EB & MS).
  pose proof SU as (body & sm & EL & HF & HC & NS & SO). pose proof HR as (OK & BK & LO).
  assert (G0 : pt_ok eqL labels d p0) by (apply GP; rewrite SR; left; reflexivity). destruct G0 as [HX0 HI0].
  destruct (forward_total E body sm ss d nl 0 U cast (pt_data p0) HF HC ltac:(eapply Forall_impl; [intros l0; apply slot_index|apply SO; lia]) OK LO HX0)
    as (b1 & x0 & rs & q & r9 & EF' & RI & X0 & RA & IQ & _ & N1 & N2 & N3 & _). specialize (N3 (SO 0 ltac:(lia))).
  rewrite <- EL, EF in EF'. injection EF' as -> <-.
  destruct (assign_total E ss d nl r1 x0 rs q (idx p0) OK LO RI IQ HI0) as (r' & EA' & RI' & _). rewrite EA in EA'. injection EA' as <-.
  destruct (backward_total E ORD b1 sm ss d nl 0 (idx p0) x0 rs q (r_inputs r) N1 N2 N3 HC OK BK LO ltac:(rewrite RI'; exact RI) X0 RA IQ HI0) as (b2 & EB2 & _).
  exists g, log, (b1 ++ [LSoft sm]), r1, (b2 ++ [LSoft (Soft true (idx p0) nl)]), r. split; [exact TX|]. split; [exact F|]. split; [exact HI|]. split; [exact EF|].
  split. { unfold backward_pass, bind. rewrite EA. cbn [lift]. rewrite EB2. reflexivity. }
  intros EQ. rewrite ES in N1. destruct (net_fit_split _ _ _ _ _ N1) as (a1 & l & a2 & EB1 & La & Fl & F2).
  assert (a2 = []) by (destruct a2; [reflexivity|contradiction]). subst a2. destruct l as [|c| | |]; cbn in Fl; try contradiction.
  assert (EB1' : b1 ++ [LSoft sm] = a1 ++ [LConn c; LSoft sm]) by (rewrite EB1, <- app_assoc; reflexivity). rewrite EB1' in EB, EB2.
  destruct (last_bias _ _ _ _ _ _ _ EB) as (z & z1 & g1 & c1 & Z1 & Z2 & Z3 & Z4 & Z5). destruct (last_bias _ _ _ _ _ _ _ EB2) as (y & y1 & g2 & c2 & Y1 & Y2 & Y3 & Y4 & Y5).
  rewrite Z1 in Y1. injection Y1 as <-. rewrite Z2 in Y2. injection Y2 as <-.
  rewrite MS in EQ. apply (f_equal (fun l => nth_error l (length a1))) in EQ. rewrite !nth_error_map, Z4, Y4 in EQ. cbn in EQ. cbn in Z5, Y5.
  injection EQ as _ EQ. rewrite Z5, Y5 in EQ. injection EQ as <-. eapply (other_label NE); [|exact Z3|exact Y3]. congruence.
Qed.
End Batch.
End Mix.
