(** Training with two threads: states in which two threads are about to access the same object without a lock, and one of
    the accesses is a write. *)
From Coq Require Import ZArith List Bool Lia.
From Verif Require Import Base Dim Matrix View Num Expr Spec Iter Sums MatFacts MatThms Batch Kernel Connected Float32 FloatFacts Pooling Activation Softmax
  LayerFacts KernelThms ConnectedThms PoolingThms PoolGrad LayerTotal SoftmaxThms Chars Model Net NetPass NetGrad ModelThms Mnist MnistFacts Validate ValidateFacts ValidateStep Train TrainLocal TrainRest TrainInv TrainThms TrainEpoch TrainNet TrainSgd Shapes ShapeNet TrainSafe TrainOne Main.
Import ListNotations.
Local Open Scope Z_scope.

Section Race.
Context {T : Type} {N : Num T} (E : env T).
Context {U L : Type} (cast : U -> T) (eqL : L -> L -> bool) (labels : list L).
Local Notation shared := (shared (T := T) (U := U) (L := L)).
Local Notation pc := (pc (T := T) (U := U) (L := L)).
Local Notation estate := (estate (T := T) (U := U) (L := L)).
Local Notation idx := (label_idx eqL labels).
Local Notation nl := (Z.of_nat (length labels)).
Local Notation gst := (gstep E cast eqL labels).
Local Notation ex := (exec E cast eqL labels (fun _ => True)).

(** The next step of thread [t] is line 202 of ModelDescription.tpp: it writes the label of the output layer (Softmax.cpp
    30-39), which all threads share, to [k]. The mutex of line 234 is not held. *)
Definition writes_label (wc bs : Z) (g : shared) (t : nat) (k : Z) : Prop :=
  exists b p r g' sm, nth_error (g_pcs g) t = Some (PWork b p (WHand r)) /\ g_lock g = None /\
    gst wc bs t g = GNext g' /\ nth_error (g_layers g') (length (g_layers g) - 1) = Some (LSoft sm) /\ sm_label sm = k /\ sm_known sm = true.
(** The next step of thread [t] calls propagateForward (ModelDescription.tpp 173) of layer [j], a fully connected layer that
    has not been used: it will read and write its members (ConnectedLayer.cpp 49-91). *)
Definition first_use (j : nat) (g : shared) (t : nat) : Prop :=
  exists b p x recs c, nth_error (g_pcs g) t = Some (PWork b p (WFwd j x recs)) /\ nth_error (g_layers g) j = Some (LConn c) /\ c_ready c = false /\ g_lock g = None.

Lemma exec_app : forall wc bs g g' g'', ex wc bs g g' -> ex wc bs g' g'' -> ex wc bs g g''.
Proof. intros wc bs g g' g'' X Y. induction Y as [g1|g1 t' g2 g3 Y IHY ST]; [exact X|]. eapply exec_step; [apply IHY; exact X|exact ST|exact Logic.I]. Qed.

Section Batch.
Context (wc bs : Z).
(** Thread [t] alone runs from [g] to [g']. *)
Record moves (t : nat) (g g' : shared) : Prop := {
  mv_exec : ex wc bs g g';
  mv_lock : g_lock g' = g_lock g;
  mv_res : length (g_results g') = length (g_results g);
  mv_len : length (g_pcs g') = length (g_pcs g);
  mv_pcs : forall t', t' <> t -> nth_error (g_pcs g') t' = nth_error (g_pcs g) t' }.
Lemma moves_trans : forall t g g' g'', moves t g g' -> moves t g' g'' -> moves t g g''.
Proof.
  intros t g g' g'' [A1 A2 A4 A5 A6] [B1 B2 B4 B5 B6]. constructor; try congruence.
  - eapply exec_app; eassumption.
  - intros t' D. rewrite B6, A6 by exact D. reflexivity.
Qed.
Lemma moves_refl : forall t g, moves t g g.
Proof. intros. constructor; auto. apply exec_nil. Qed.

Lemma keep_fine : forall b (w : work) rs, 0 <= b < Z.of_nat (length rs) -> exists rs', keep_result (T := T) b w rs = Ok rs' /\ length rs' = length rs.
Proof.
  intros b w rs Hb. unfold keep_result, vset. rewrite (proj2 (Z.leb_le _ _)), (proj2 (Z.ltb_lt _ _)) by lia. cbn [andb].
  destruct w; eauto using upd_length.
Qed.

Lemma work_step : forall t g b p w ls w', nth_error (g_pcs g) t = Some (PWork b p w) -> 0 <= b < Z.of_nat (length (g_results g)) -> (forall r, w <> WEnd r) ->
  wstep E cast eqL labels b p w (g_layers g) = ORet ls w' ->
  exists g', gst wc bs t g = GNext g' /\ moves t g g' /\ g_layers g' = ls /\ g_source g' = g_source g /\ nth_error (g_pcs g') t = Some (PWork b p w').
Proof.
  intros t g b p w ls w' Q Hb NE ES. destruct (keep_fine b w' (g_results g) Hb) as (rs & EK & LK).
  assert (TL : (t < length (g_pcs g))%nat) by (apply nth_error_Some; congruence).
  set (g' := set_pc t (PWork b p w') (Shared ls (g_source g) (g_lock g) rs (g_success g) (g_pcs g))).
  assert (ST : gst wc bs t g = GNext g').
  { unfold gstep. rewrite Q. destruct w; try (rewrite ES, EK; reflexivity). exfalso. eapply NE. reflexivity. }
  exists g'. split; [exact ST|]. split; [|split; [reflexivity|split; [reflexivity|cbn; apply nth_upd_same; exact TL]]].
  constructor.
  - eapply exec_step; [apply exec_nil|exact ST|exact Logic.I].
  - reflexivity.
  - exact LK.
  - cbn. apply upd_length.
  - intros t' D. cbn. apply nth_upd_other. auto.
Qed.

(** From the loop to the data point *)
Lemma to_point : forall t g b p s, nth_error (g_pcs g) t = Some (PLoop b) -> u64 b < u64 (cutoff wc bs t) -> g_lock g = None -> g_source g = p :: s ->
  exists g', moves t g g' /\ g_layers g' = g_layers g /\ g_source g' = s /\ nth_error (g_pcs g') t = Some (PWork b p WStart).
Proof.
  intros t g b p s Q Hb LK SR. assert (TL : (t < length (g_pcs g))%nat) by (apply nth_error_Some; congruence).
  set (g1 := set_pc t (PLock b) g).
  assert (S1 : gst wc bs t g = GNext g1) by (unfold gstep; rewrite Q, (proj2 (Z.ltb_lt _ _) Hb); reflexivity).
  assert (L1 : (t < length (g_pcs g1))%nat) by (cbn; rewrite upd_length; exact TL).
  assert (Q1 : nth_error (g_pcs g1) t = Some (PLock b)) by (cbn; apply nth_upd_same; exact TL).
  set (g2 := with_lock (Some t) (set_pc t (PHas b) g1)).
  assert (S2 : gst wc bs t g1 = GNext g2) by (unfold gstep; rewrite Q1; change (g_lock g1) with (g_lock g); rewrite LK; reflexivity).
  assert (L2 : (t < length (g_pcs g2))%nat) by (cbn [g2 with_lock set_pc g_pcs]; rewrite upd_length; exact L1).
  assert (Q2 : nth_error (g_pcs g2) t = Some (PHas b)) by (cbn [g2 with_lock set_pc g_pcs]; apply nth_upd_same; exact L1).
  set (g3 := set_pc t (PNext b) g2).
  assert (S3 : gst wc bs t g2 = GNext g3) by (unfold gstep; rewrite Q2; change (g_source g2) with (g_source g); rewrite SR; reflexivity).
  assert (L3 : (t < length (g_pcs g3))%nat) by (cbn [g3 set_pc g_pcs]; rewrite upd_length; exact L2).
  assert (Q3 : nth_error (g_pcs g3) t = Some (PNext b)) by (cbn [g3 set_pc g_pcs]; apply nth_upd_same; exact L2).
  set (g4 := set_pc t (PFree b p) (Shared (g_layers g3) s (g_lock g3) (g_results g3) (g_success g3) (g_pcs g3))).
  assert (S4 : gst wc bs t g3 = GNext g4) by (unfold gstep; rewrite Q3; change (g_source g3) with (g_source g); rewrite SR; reflexivity).
  assert (L4 : (t < length (g_pcs g4))%nat) by (cbn [g4 set_pc g_pcs]; rewrite upd_length; exact L3).
  assert (Q4 : nth_error (g_pcs g4) t = Some (PFree b p)) by (cbn [g4 set_pc g_pcs]; apply nth_upd_same; exact L3).
  set (g5 := with_lock None (set_pc t (PWork b p WStart) g4)).
  assert (S5 : gst wc bs t g4 = GNext g5) by (unfold gstep; rewrite Q4; reflexivity).
  exists g5. split; [|split; [reflexivity|split; [reflexivity|cbn [g5 with_lock set_pc g_pcs]; apply nth_upd_same; exact L4]]].
  constructor.
  - eapply exec_step; [|exact S5|exact Logic.I]. eapply exec_step; [|exact S4|exact Logic.I]. eapply exec_step; [|exact S3|exact Logic.I].
    eapply exec_step; [|exact S2|exact Logic.I]. eapply exec_step; [|exact S1|exact Logic.I]. apply exec_nil.
  - cbn. congruence.
  - reflexivity.
  - cbn [g5 g4 g3 g2 g1 with_lock set_pc g_pcs]. rewrite !upd_length. reflexivity.
  - intros t' D. cbn [g5 g4 g3 g2 g1 with_lock set_pc g_pcs]. rewrite !nth_upd_other by auto. reflexivity.
Qed.

(** *** The layers while a forward pass is under way *)
Context (ss : list shape) (d : dim3).
Hypothesis OK : h_net_ok ss d.
Hypothesis LO : labels_ok (h_net_out ss d) nl.

Lemma net_fit_at : forall body (ss0 : list shape) d0 j s, net_fit body ss0 d0 -> nth_error ss0 j = Some s ->
  exists l, nth_error body j = Some l /\ l_fit (T := T) l s (h_net_out (firstn j ss0) d0) /\
    forall l', l_fit l' s (h_net_out (firstn j ss0) d0) -> net_fit (upd body j l') ss0 d0.
Proof.
  induction body as [|b body IH]; intros [|s0 ss0] d0 j s H Q; cbn in H; try contradiction; [destruct j; discriminate|].
  destruct H as [H1 H2]. destruct j as [|j]; cbn in Q.
  - injection Q as ->. exists b. cbn. auto.
  - destruct (IH ss0 (h_out s0 d0) j s H2 Q) as (l & A & B & C). exists l. cbn. split; [exact A|]. split; [exact B|]. intros l' HL. split; [exact H1|apply C; exact HL].
Qed.
Lemma upd_app1 : forall {A} (a b : list A) j v, (j < length a)%nat -> upd (a ++ b) j v = upd a j v ++ b.
Proof. induction a as [|x a IH]; intros b [|j] v H; cbn in *; try lia; [reflexivity|]. f_equal. apply IH. lia. Qed.
Lemma Forall_upd : forall {A} (P : A -> Prop) l j v, List.Forall P l -> P v -> List.Forall P (upd l j v).
Proof. induction l as [|a l IH]; intros [|j] v H HV; cbn; auto; inversion H; subst; constructor; auto. Qed.

(** The layers [ls'] are [ls] after some forward passes; those from number [j] on have not changed. *)
Definition same_from (j : nat) (body body' : list (layer T)) : Prop := forall k, (j <= k)%nat -> nth_error body' k = nth_error body k.
Definition slots (body : list (layer T)) : Prop := forall i, 0 <= i < bs -> List.Forall (fun l => slot_ok l i) body.

Lemma to_layer : forall j t g b p body sm, (j <= length ss)%nat -> nth_error (g_pcs g) t = Some (PWork b p WStart) -> 0 <= b < bs -> Z.of_nat (length (g_results g)) = bs ->
  g_layers g = body ++ [LSoft sm] -> net_fit body ss d -> slots body -> has (pt_data p) d ->
  exists g' body' x recs, moves t g g' /\ g_source g' = g_source g /\ nth_error (g_pcs g') t = Some (PWork b p (WFwd j x recs)) /\
    g_layers g' = body' ++ [LSoft sm] /\ net_fit body' ss d /\ slots body' /\ same_from j body body' /\ has x (dim_at ss d j).
Proof.
  induction j as [|j IH]; intros t g b p body sm Hj Q Hb RL GL NF SL HX.
  - destruct (h_net_head _ _ OK) as [Pd Fd]. destruct (has_is _ d HX Pd Fd) as (J & HJ).
    destruct (mat_of_lz_ok (n0 : T) cast (l_val (pt_data p)) tt d J Fd (pos_iterable d Pd) (is_mat_lz _ d J tt HJ Fd)) as (x & Ex & Hx).
    destruct (copies E x d (is_has _ _ _ Hx) Pd Fd) as [(x0 & Ex0 & _) _].
    destruct (work_step t g b p WStart (g_layers g) (WFwd 0 x [x0]) Q ltac:(lia) ltac:(discriminate)) as (g' & ST & MV & G1 & G2 & G3).
    { cbn [wstep]. unfold bind. rewrite Ex. cbn [lift]. rewrite Ex0. reflexivity. }
    exists g', body, x, [x0]. split; [exact MV|]. split; [exact G2|]. split; [exact G3|]. split; [congruence|]. split; [exact NF|]. split; [exact SL|].
    split; [intros k _; reflexivity|]. eapply is_has. exact Hx.
  - destruct (IH t g b p body sm ltac:(lia) Q Hb RL GL NF SL HX) as (g1 & b1 & x & recs & MV & G1 & G2 & G3 & NF1 & SL1 & SF & HXj). clear IH.
    destruct (nth_error ss j) as [s|] eqn:QS. 2:{ apply nth_error_None in QS. lia. }
    destruct (net_fit_at b1 ss d j s NF1 QS) as (l & QL & FL & FU). destruct (dim_at_ok ss d OK j s QS) as [O1 O2]. fold (dim_at ss d j) in FL, FU.
    assert (BL : (j < length b1)%nat) by (apply nth_error_Some; congruence).
    pose proof (SL1 b Hb) as SLb. pose proof (proj1 (Forall_forall _ _) SLb l (nth_error_In _ _ QL)) as SLl.
    destruct (fwd_total E l s (dim_at ss d j) b x FL (slot_index _ _ SLl) O1 HXj) as (l' & y & Ey & Hy & L1 & L2 & L3 & L4 & L5 & L6).
    rewrite <- O2 in Hy. destruct (dim_at_good ss d OK (S j)) as [Pj Fj]. destruct (copies E y _ Hy Pj Fj) as [(r & Er & _) _].
    destruct (work_step t g1 b p (WFwd j x recs) (upd b1 j l' ++ [LSoft sm]) (WFwd (S j) y (recs ++ [r])) G2) as (g2 & ST & MV2 & H1 & H2 & H3).
    { rewrite (mv_res _ _ _ MV). lia. }
    { discriminate. }
    { cbn [wstep]. rewrite G3, nth_error_app1, QL by exact BL. unfold bind, on_nth. rewrite nth_error_app1, QL by exact BL. rewrite Ey. cbn [map_out]. rewrite Er. cbn [lift ret].
      rewrite upd_app1 by exact BL. reflexivity. }
    exists g2, (upd b1 j l'), y, (recs ++ [r]). split; [eapply moves_trans; eassumption|]. split; [congruence|]. split; [exact H3|]. split; [exact H1|]. split; [apply FU; exact L1|].
    split; [|split; [|exact Hy]].
    + intros i Hi. apply Forall_upd; [apply SL1; exact Hi|]. apply L5. exact (proj1 (Forall_forall _ _) (SL1 i Hi) l (nth_error_In _ _ QL)).
    + intros k Hk. rewrite nth_upd_other by lia. apply SF. lia.
Qed.

(** From the output layer to the label *)
Lemma to_hand : forall t g b p body sm x recs, nth_error (g_pcs g) t = Some (PWork b p (WFwd (length body) x recs)) -> 0 <= b < bs -> Z.of_nat (length (g_results g)) = bs ->
  g_layers g = body ++ [LSoft sm] -> net_fit body ss d -> sm_count sm = nl -> 0 <= idx p < nl -> has x (h_net_out ss d) ->
  exists g' r, moves t g g' /\ g_source g' = g_source g /\ g_layers g' = g_layers g /\ nth_error (g_pcs g') t = Some (PWork b p (WHand r)) /\ r_true r = idx p.
Proof.
  intros t g b p body sm x recs Q Hb RL GL NF HC HI HX. destruct (h_net_end _ _ OK) as [Po Fo]. pose proof LO as (_ & _ & LV).
  destruct (has_is x _ HX Po Fo) as (fx & Hfx). destruct (sm_forward_total (e_exp E) sm x _ fx Hfx Fo Po ltac:(rewrite HC; exact LO)) as (q & Eq & Hq).
  destruct (has_is q _ Hq Po Fo) as (fq & Hfq). destruct (copies E q _ Hq Po Fo) as [(q0 & Eq0 & Hq0) _].
  destruct (work_step t g b p (WFwd (length body) x recs) (g_layers g) (WFwd (S (length body)) q (recs ++ [q0])) Q ltac:(lia) ltac:(discriminate)) as (g1 & ST1 & MV1 & A1 & A2 & A3).
  { cbn [wstep]. rewrite GL, nth_error_mid. unfold bind. rewrite (on_nth_ret (l_forward E x b) body [] (LSoft sm) (LSoft sm) q); [|cbn [l_forward]; rewrite Eq; reflexivity].
    rewrite Eq0. reflexivity. }
  destruct (max_index_total q _ fq Hfq Fo Po) as (a & a2 & a3 & Hi & EI).
  set (r := Results (lin (h_net_out ss d) a a2 a3) 0 (nsub n0 n1) (e_rnd E (fq a a2 a3)) (recs ++ [q0])).
  destruct (work_step t g1 b p (WFwd (S (length body)) q (recs ++ [q0])) (g_layers g) (WBack r) A3) as (g2 & ST2 & MV2 & B1 & B2 & B3).
  { rewrite (mv_res _ _ _ MV1). lia. }
  { discriminate. }
  { cbn [wstep]. rewrite A1. rewrite (proj2 (nth_error_None _ _)) by (rewrite GL, app_length; cbn; lia).
    unfold bind. rewrite (is_mat_dim _ _ _ Hfq), base_size_fits by exact Fo. cbn [lift].
    rewrite LV, Z.eqb_refl. cbn [ret]. rewrite EI. cbn [lift]. rewrite (is_mat_flat q _ _ a a2 a3 Hfq Hi). reflexivity. }
  destruct (copies E q0 _ Hq0 Po Fo) as [_ (q1 & Eq1 & Hq1)]. destruct (has_is q1 _ Hq1 Po Fo) as (fq1 & Hfq1).
  destruct (loss_total (e_log2 E) (e_eps E) (e_rnd E) q1 _ fq1 (idx p) Hfq1 Fo Po ltac:(rewrite LV; exact HI)) as (v & Ev).
  destruct (work_step t g2 b p (WBack r) (g_layers g) (WHand (Results (r_label r) (idx p) v (r_conf r) (r_inputs r))) B3) as (g3 & ST3 & MV3 & C1 & C2 & C3).
  { rewrite (mv_res _ _ _ MV2), (mv_res _ _ _ MV1). lia. }
  { discriminate. }
  { rewrite B1. cbn [wstep]. unfold bind, assign_loss. cbn [r r_inputs r_label r_conf]. rewrite last_rev. rewrite Eq1. cbn [rbind]. rewrite Ev. reflexivity. }
  eexists g3, _. split; [eapply moves_trans; [exact MV1|eapply moves_trans; eassumption]|]. split; [congruence|]. split; [exact C1|]. split; [exact C3|reflexivity].
Qed.

(** *** Two threads *)
Context (nt : nat) (pcs : list pc) (e : estate) (p0 p1 : point U L) (s : list (point U L)) (body : list (layer T)) (sm : softmax).
Hypothesis NT : (2 <= nt)%nat.
Hypothesis WB : 1 <= wc < bs.
Hypothesis B31 : bs < two31.
Hypothesis SP : spawn nt 0 wc = Ok pcs.
Hypothesis RL : Z.of_nat (length (s_results e)) = bs.
Hypothesis SR : s_source e = p0 :: p1 :: s.
Hypothesis GL : s_layers e = body ++ [LSoft sm].
Hypothesis NF : net_fit body ss d.
Hypothesis SL : slots body.
Hypothesis HC : sm_count sm = nl.
Hypothesis G0 : has (pt_data p0) d /\ 0 <= idx p0 < nl.
Hypothesis G1 : has (pt_data p1) d /\ 0 <= idx p1 < nl.

Lemma pcs_start : nth_error (g_pcs (start e pcs)) 0 = Some (PLoop 0) /\ nth_error (g_pcs (start e pcs)) 1 = Some (PLoop wc).
Proof.
  cbn [start g_pcs]. destruct nt as [|[|n]]; try lia. cbn [spawn] in SP.
  change (Z.of_nat 0 * wc) with 0 in SP. change (Z.of_nat 1 * wc) with (match wc with 0 => 0 | Z.pos y' => Z.pos y' | Z.neg y' => Z.neg y' end) in SP.
  replace (match wc with 0 => 0 | Z.pos y' => Z.pos y' | Z.neg y' => Z.neg y' end) with wc in SP by (destruct wc; reflexivity).
  change (i32 0) with (Ok 0) in SP. cbn [rbind] in SP. destruct (i32 ((Z.of_nat 0 + 1) * wc)); try discriminate. cbn [rbind] in SP.
  assert (I : i32 wc = Ok wc) by (apply i32_ok; unfold two31 in *; lia). rewrite I in SP. cbn [rbind] in SP.
  destruct (i32 ((Z.of_nat 1 + 1) * wc)); try discriminate. cbn [rbind] in SP. destruct (spawn n 2 wc); try discriminate. cbn [rbind] in SP. injection SP as <-. auto.
Qed.
Lemma cut0 : u64 0 < u64 (cutoff wc bs 0).
Proof. unfold cutoff, u64. rewrite !Z.mod_small by (unfold two31, two64 in *; lia). lia. Qed.
Lemma cut1 : u64 wc < u64 (cutoff wc bs 1).
Proof. unfold cutoff, u64. rewrite !Z.mod_small by (unfold two31, two64 in *; lia). lia. Qed.

(** Both threads are before line 202. *)
Theorem race_label : exists g r0 r1, ex wc bs (start e pcs) g /\ g_lock g = None /\ g_source g = s /\
  nth_error (g_pcs g) 0 = Some (PWork 0 p0 (WHand r0)) /\ nth_error (g_pcs g) 1 = Some (PWork wc p1 (WHand r1)) /\ r_true r0 = idx p0 /\ r_true r1 = idx p1 /\
  exists body', g_layers g = body' ++ [LSoft sm].
Proof.
  destruct pcs_start as [Q0 Q1]. pose proof (net_fit_length _ _ _ NF) as LN.
  destruct (to_point 0 (start e pcs) 0 p0 (p1 :: s) Q0 cut0 eq_refl SR) as (g1 & M1 & A1 & A2 & A3).
  assert (R1 : Z.of_nat (length (g_results g1)) = bs) by (rewrite (mv_res _ _ _ M1); exact RL).
  destruct (to_layer (length ss) 0 g1 0 p0 body sm (Nat.le_refl _) A3 ltac:(lia) R1 ltac:(rewrite A1; exact GL) NF SL (proj1 G0)) as (g2 & b2 & x & recs & M2 & B1 & B2 & B3 & NF2 & SL2 & _ & HX).
  rewrite dim_at_end in HX by lia. rewrite <- (net_fit_length _ _ _ NF2) in B2.
  assert (R2 : Z.of_nat (length (g_results g2)) = bs) by (rewrite (mv_res _ _ _ M2); exact R1).
  destruct (to_hand 0 g2 0 p0 b2 sm x recs B2 ltac:(lia) R2 B3 NF2 HC (proj2 G0) HX) as (g3 & r0 & M3 & C1 & C2 & C3 & C4).
  assert (Q1' : nth_error (g_pcs g3) 1 = Some (PLoop wc)) by (rewrite (mv_pcs _ _ _ M3), (mv_pcs _ _ _ M2), (mv_pcs _ _ _ M1) by lia; exact Q1).
  assert (LK3 : g_lock g3 = None) by (rewrite (mv_lock _ _ _ M3), (mv_lock _ _ _ M2), (mv_lock _ _ _ M1); reflexivity).
  destruct (to_point 1 g3 wc p1 s Q1' cut1 LK3 ltac:(congruence)) as (g4 & M4 & D1 & D2 & D3').
  assert (R4 : Z.of_nat (length (g_results g4)) = bs) by (rewrite (mv_res _ _ _ M4), (mv_res _ _ _ M3); exact R2).
  destruct (to_layer (length ss) 1 g4 wc p1 b2 sm (Nat.le_refl _) D3' ltac:(lia) R4 ltac:(congruence) NF2 SL2 (proj1 G1)) as (g5 & b5 & x5 & recs5 & M5 & E1 & E2 & E3 & NF5 & SL5 & _ & HX5).
  rewrite dim_at_end in HX5 by lia. rewrite <- (net_fit_length _ _ _ NF5) in E2.
  assert (R5 : Z.of_nat (length (g_results g5)) = bs) by (rewrite (mv_res _ _ _ M5); exact R4).
  destruct (to_hand 1 g5 wc p1 b5 sm x5 recs5 E2 ltac:(lia) R5 E3 NF5 HC (proj2 G1) HX5) as (g6 & r1 & M6 & F1 & F2 & F3 & F4).
  exists g6, r0, r1. split; [|split; [|split; [|split; [|split; [|split; [|split]]]]]].
  - eapply exec_app; [exact (mv_exec _ _ _ M1)|]. eapply exec_app; [exact (mv_exec _ _ _ M2)|]. eapply exec_app; [exact (mv_exec _ _ _ M3)|].
    eapply exec_app; [exact (mv_exec _ _ _ M4)|]. eapply exec_app; [exact (mv_exec _ _ _ M5)|]. exact (mv_exec _ _ _ M6).
  - rewrite (mv_lock _ _ _ M6), (mv_lock _ _ _ M5), (mv_lock _ _ _ M4). exact LK3.
  - congruence.
  - rewrite (mv_pcs _ _ _ M6), (mv_pcs _ _ _ M5), (mv_pcs _ _ _ M4) by lia. exact C3.
  - exact F3.
  - exact C4.
  - exact F4.
  - exists b5. congruence.
Qed.

(** Both threads are before the first use of layer [j]. *)
Theorem race_first_use : forall j c, nth_error body j = Some (LConn c) -> c_ready c = false ->
  exists g x0 x1 rc0 rc1, ex wc bs (start e pcs) g /\ g_lock g = None /\ g_source g = s /\ nth_error (g_layers g) j = Some (LConn c) /\
    nth_error (g_pcs g) 0 = Some (PWork 0 p0 (WFwd j x0 rc0)) /\ nth_error (g_pcs g) 1 = Some (PWork wc p1 (WFwd j x1 rc1)).
Proof.
  intros j c QJ RC. destruct pcs_start as [Q0 Q1]. pose proof (net_fit_length _ _ _ NF) as LN.
  assert (JL : (j < length body)%nat) by (apply nth_error_Some; congruence).
  destruct (to_point 0 (start e pcs) 0 p0 (p1 :: s) Q0 cut0 eq_refl SR) as (g1 & M1 & A1 & A2 & A3).
  assert (R1 : Z.of_nat (length (g_results g1)) = bs) by (rewrite (mv_res _ _ _ M1); exact RL).
  destruct (to_layer j 0 g1 0 p0 body sm ltac:(lia) A3 ltac:(lia) R1 ltac:(rewrite A1; exact GL) NF SL (proj1 G0)) as (g2 & b2 & x & recs & M2 & B1 & B2 & B3 & NF2 & SL2 & SF2 & HX).
  assert (Q1' : nth_error (g_pcs g2) 1 = Some (PLoop wc)) by (rewrite (mv_pcs _ _ _ M2), (mv_pcs _ _ _ M1) by lia; exact Q1).
  assert (LK2 : g_lock g2 = None) by (rewrite (mv_lock _ _ _ M2), (mv_lock _ _ _ M1); reflexivity).
  destruct (to_point 1 g2 wc p1 s Q1' cut1 LK2 ltac:(congruence)) as (g4 & M4 & D1 & D2 & D3').
  assert (R4 : Z.of_nat (length (g_results g4)) = bs) by (rewrite (mv_res _ _ _ M4), (mv_res _ _ _ M2); exact R1).
  destruct (to_layer j 1 g4 wc p1 b2 sm ltac:(lia) D3' ltac:(lia) R4 ltac:(congruence) NF2 SL2 (proj1 G1)) as (g5 & b5 & x5 & recs5 & M5 & E1 & E2 & E3 & NF5 & SL5 & SF5 & HX5).
  exists g5, x, x5, recs, recs5. split; [|split; [|split; [|split; [|split]]]].
  - eapply exec_app; [exact (mv_exec _ _ _ M1)|]. eapply exec_app; [exact (mv_exec _ _ _ M2)|]. eapply exec_app; [exact (mv_exec _ _ _ M4)|]. exact (mv_exec _ _ _ M5).
  - rewrite (mv_lock _ _ _ M5), (mv_lock _ _ _ M4). exact LK2.
  - congruence.
  - assert (Q5 : nth_error b5 j = Some (LConn c)) by (rewrite SF5, SF2 by lia; exact QJ).
    rewrite E3, nth_error_app1; [exact Q5|]. apply nth_error_Some. congruence.
  - rewrite (mv_pcs _ _ _ M5), (mv_pcs _ _ _ M4) by lia. exact B2.
  - exact E2.
Qed.

Theorem race_writes : exists g, ex wc bs (start e pcs) g /\ writes_label wc bs g 0 (idx p0) /\ writes_label wc bs g 1 (idx p1).
Proof.
  destruct race_label as (g & r0 & r1 & X & LK & _ & Q0 & Q1 & T0 & T1 & body' & GB). exists g. split; [exact X|].
  assert (K : forall t b p r, nth_error (g_pcs g) t = Some (PWork b p (WHand r)) -> 0 <= b < bs -> r_true r = idx p -> 0 <= idx p < nl -> writes_label wc bs g t (idx p)).
  { intros t b p r Q Hb TR HI.
    assert (R : Z.of_nat (length (g_results g)) = bs).
    { clear - X RL. enough (length (g_results g) = length (g_results (start e pcs))) by (cbn [start g_results] in *; lia).
      induction X as [|? t g1 g2 X IH ST]; [reflexivity|]. rewrite <- IH by exact RL. clear - ST.
      unfold gstep in ST. destruct (nth_error (g_pcs g1) t) as [c|]; [|discriminate].
      destruct c as [b|b|b|b|b p|b p w|b|b]; try discriminate.
      + injection ST as <-. reflexivity.
      + destruct (g_lock g1); [discriminate|]. injection ST as <-. reflexivity.
      + destruct (g_source g1); injection ST as <-; reflexivity.
      + destruct (g_source g1); [discriminate|]. injection ST as <-. reflexivity.
      + injection ST as <-. reflexivity.
      + assert (H : g2 = set_pc t (PCount b) g1 \/ exists ls w' rs, keep_result b w' (g_results g1) = Ok rs /\ g2 = set_pc t (PWork b p w') (Shared ls (g_source g1) (g_lock g1) rs (g_success g1) (g_pcs g1))).
        { destruct w; try (injection ST as <-; left; reflexivity); right;
            (destruct (wstep E cast eqL labels b p _ (g_layers g1)) as [ls w'| |]; try discriminate; destruct (keep_result b w' (g_results g1)) as [rs| |] eqn:QK; try discriminate;
             injection ST as <-; exists ls, w', rs; auto). }
        destruct H as [->|(ls & w' & rs & QK & ->)]; [reflexivity|]. cbn. eapply keep_length. exact QK.
      + destruct (vget (g_results g1) b) as [[r|]| |]; try discriminate. injection ST as <-. reflexivity. }
    destruct (work_step t g b p (WHand r) (body' ++ [LSoft (Soft true (idx p) nl)]) (WBwd (S (length body')) mat_empty r) Q ltac:(lia) ltac:(discriminate)) as (g' & ST & _ & GL' & _).
    { cbn [wstep]. unfold bind. rewrite GB, TR, hand_over_at by lia. unfold mget, ret. rewrite app_length. cbn [length]. rewrite Nat.add_1_r, HC. reflexivity. }
    exists b, p, r, g', (Soft true (idx p) nl). split; [exact Q|]. split; [exact LK|]. split; [exact ST|]. split; [|split; reflexivity].
    rewrite GL', GB, app_length. cbn [length]. rewrite Nat.add_sub. apply nth_error_mid. }
  split; [apply (K 0%nat 0 p0 r0)|apply (K 1%nat wc p1 r1)]; auto; lia.
Qed.
Theorem race_init : forall j c, nth_error body j = Some (LConn c) -> c_ready c = false -> exists g, ex wc bs (start e pcs) g /\ first_use j g 0 /\ first_use j g 1.
Proof.
  intros j c QJ RC. destruct (race_first_use j c QJ RC) as (g & x0 & x1 & rc0 & rc1 & X & LK & _ & QL & Q0 & Q1). exists g. split; [exact X|].
  split; [exists 0, p0, x0, rc0, c|exists wc, p1, x1, rc1, c]; auto.
Qed.
End Batch.

(** *** The first batch of a training *)
(** [g] is a state of the first batch that train (ModelDescription.tpp 280-295) works on. *)
Definition in_first_batch (h : hyper (T := T)) (src : list (point U L)) (ls : list (layer T)) (wc : Z) (g : shared) : Prop :=
  exists ls' pcs, set_batch_all (h_bs h) ls = ORet ls' tt /\ ceil_div (h_bs h) (h_nt h) = Ok wc /\ spawn (Z.to_nat (h_nt h)) 0 wc = Ok pcs /\
    ex wc (h_bs h) (start (Est ls' src (repeat None (Z.to_nat (h_bs h))) 0) pcs) g.

Lemma set_batch_conn : forall bs ls ls' j c, set_batch_all (T := T) bs ls = ORet ls' tt -> nth_error ls j = Some (LConn c) ->
  exists c', nth_error ls' j = Some (LConn c') /\ c_ready c' = c_ready c.
Proof.
  intros bs. unfold set_batch_all. induction ls as [|l ls IH]; intros ls' j c H Q; [destruct j; discriminate|]. cbn [each_layer] in H.
  destruct (l_set_batch bs l) as [l' []| |] eqn:QL; try discriminate. destruct (each_layer (l_set_batch bs) ls) as [r []| |] eqn:QR; cbn in H; try discriminate. injection H as <-.
  destruct j as [|j]; cbn in Q |- *; [|eapply IH; [reflexivity|exact Q]]. injection Q as ->. cbn in QL. destruct (bs <? 0); [discriminate|]. injection QL as <-. eauto.
Qed.

Theorem train_race : forall (h : hyper (T := T)) ss d body sm src p0 p1 s, 2 <= h_nt h < 2 ^ 24 -> 2 <= h_bs h < 2 ^ 24 -> src = p0 :: p1 :: s ->
  h_net_ok ss d -> labels_ok (h_net_out ss d) nl -> net_fit body ss d -> List.Forall idx_ok body -> sm_count sm = nl ->
  has (pt_data p0) d /\ 0 <= idx p0 < nl -> has (pt_data p1) d /\ 0 <= idx p1 < nl ->
  (exists wc g, in_first_batch h src (body ++ [LSoft sm]) wc g /\ writes_label wc (h_bs h) g 0 (idx p0) /\ writes_label wc (h_bs h) g 1 (idx p1)) /\
  (forall j c, nth_error body j = Some (LConn c) -> c_ready c = false ->
     exists wc g, in_first_batch h src (body ++ [LSoft sm]) wc g /\ first_use j g 0 /\ first_use j g 1).
Proof.
  intros h ss d body sm src p0 p1 s Hn Hb HS OK LO NF IX HC G0 G1.
  assert (P24 : 2 ^ 24 = 16777216) by reflexivity. rewrite P24 in *.
  destruct (ceil_facts (h_bs h) (h_nt h)) as [C1 C2]; [lia|lia|].
  assert (E1 : ceil_div (h_bs h) (h_nt h) = Ok ((h_bs h + h_nt h - 1) / h_nt h)) by (apply ceil_div_exact; rewrite ?P24; lia).
  assert (C3 : (h_bs h + h_nt h - 1) / h_nt h < h_bs h) by (apply Z.div_lt_upper_bound; nia).
  set (wc := (h_bs h + h_nt h - 1) / h_nt h) in *.
  destruct (spawn_fine (U := U) (L := L) (T := T) (Z.to_nat (h_nt h)) 0 wc C2 ltac:(unfold two31; lia)) as [pcs SP].
  destruct (set_batch_shapes (h_bs h) body ss d ltac:(lia) NF IX) as (b' & EB & NF' & _ & SL' & _).
  assert (EB2 : set_batch_all (h_bs h) (body ++ [LSoft sm]) = ORet (b' ++ [LSoft sm]) tt) by (unfold set_batch_all in *; apply each_app; [exact EB|reflexivity]).
  assert (W : 1 <= wc) by nia.
  split.
  - destruct (race_writes wc (h_bs h) ss d OK LO (Z.to_nat (h_nt h)) pcs (Est (b' ++ [LSoft sm]) src (repeat None (Z.to_nat (h_bs h))) 0) p0 p1 s b' sm) as (g & X & W0 & W1); auto; try lia.
    + unfold two31. lia.
    + cbn [s_results]. rewrite repeat_length. lia.
    + exists wc, g. split; [|auto]. exists (b' ++ [LSoft sm]), pcs. auto.
  - intros j c QJ RC. destruct (set_batch_conn _ _ _ _ _ EB QJ) as (c' & QJ' & RC').
    destruct (race_init wc (h_bs h) ss d OK (Z.to_nat (h_nt h)) pcs (Est (b' ++ [LSoft sm]) src (repeat None (Z.to_nat (h_bs h))) 0) p0 p1 s b' sm) with (j := j) (c := c') as (g & X & W0 & W1); auto; try lia; try congruence.
    + unfold two31. lia.
    + cbn [s_results]. rewrite repeat_length. lia.
    + exists wc, g. split; [|auto]. exists (b' ++ [LSoft sm]), pcs. auto.
Qed.

(** *** What is not shared *)
Theorem shared_use : forall wc bs nt (e : estate) pcs P g, 0 <= wc -> 0 <= bs -> bs < two31 -> spawn nt 0 wc = Ok pcs -> Z.of_nat (length (s_results e)) = bs ->
  exec E cast eqL labels P wc bs (start e pcs) g ->
  (forall t t' c c', nth_error (g_pcs g) t = Some c -> nth_error (g_pcs g) t' = Some c' -> TrainInv.holds c = true -> TrainInv.holds c' = true -> t = t') /\
  (forall t t' c c', nth_error (g_pcs g) t = Some c -> nth_error (g_pcs g) t' = Some c' -> TrainInv.inloop c = true -> TrainInv.inloop c' = true -> TrainInv.cur c = TrainInv.cur c' -> t = t') /\
  (List.Forall ready (s_layers e) -> map params_of (g_layers g) = map params_of (s_layers e)).
Proof.
  intros wc bs nt e pcs P g HW HB HB2 SP RL X. apply exec_texec in X. destruct X as [log X].
  pose proof (batch_invA E cast eqL labels wc bs nt e pcs HW HB HB2 SP RL _ _ _ X) as A. split; [|split].
  - intros t t' c c' Q Q' H H'. apply (a_lock _ _ _ _ _ _ A _ _ Q) in H. apply (a_lock _ _ _ _ _ _ A _ _ Q') in H'. congruence.
  - intros t t' c c' Q Q' H H' EC. destruct (a_rng _ _ _ _ _ _ A _ _ Q) as [R1 R2]. destruct (a_rng _ _ _ _ _ _ A _ _ Q') as [R1' R2']. rewrite H in R2. rewrite H' in R2'.
    apply (range_thread wc bs HW t t' (cur c)); [lia|rewrite EC; lia].
  - intros RD. eapply (batch_params E cast eqL labels wc bs nt e pcs HW HB HB2 SP RL RD). exact X.
Qed.
End Race.

(** *** main.cpp 147-176 *)
Theorem main_race : forall {T : Type} {N : Num T} (E : env T) (cast : f32 -> T) big limit n fi fl u lr threads, mnist limit n 28 28 fi fl -> 33 <= n <= 2 ^ 24 ->
  (forall i, 1 <= i < n -> f_byte fl (8 + i) < 10) -> 2 <= threads < 2 ^ 24 ->
  exists r ps m, gen_open big limit (Readable fi) (Readable fl) = Ok r /\ delivers big r ps /\ main_model E u = Ok m /\
    (exists wc g, in_first_batch E cast text_eqb (m_labels m) (main_params lr threads) ps (map snd (m_layers m)) wc g /\
       writes_label E cast text_eqb (m_labels m) wc 32 g 0 (f_byte fl 9) /\ writes_label E cast text_eqb (m_labels m) wc 32 g 1 (f_byte fl 10)) /\
    (exists wc g, in_first_batch E cast text_eqb (m_labels m) (main_params lr threads) ps (map snd (m_layers m)) wc g /\ first_use 6 g 0 /\ first_use 6 g 1).
Proof.
  intros T N E cast big limit n fi fl u lr threads HM Hn HL HT. assert (P24 : 2 ^ 24 = 16777216) by reflexivity. rewrite P24 in *.
  destruct (gen_open_ok big limit n 28 28 fi fl HM ltac:(lia)) as (r & ER & _ & EQ).
  destruct (delivers_rest big limit n 28 28 fi fl HM ltac:(lia)) as (ps & D & LN & PN).
  destruct (k_make_ok (e_rand E) (e_rmax E) (e_sqrt E) 5 5 1 2 1) as (k1 & K1 & I1 & S1 & _); [lia..|vm_compute; intuition congruence|vm_compute; intuition congruence|].
  destruct (k_make_ok (e_rand E) (e_rmax E) (e_sqrt E) 3 3 2 4 1) as (k2 & K2 & I2 & S2 & _); [lia..|vm_compute; intuition congruence|vm_compute; intuition congruence|].
  destruct (c_make_fresh (T := T) 10) as (c & C1 & C2 & _); [lia|unfold two31; lia|].
  destruct (main_model_layers E u k1 k2 c K1 K2 C1) as (m & EM & ML & LL).
  destruct (main_body_ok u k1 k2 c) as (NF & IX & _); [eauto|exact S1|eauto|exact S2|exact C2|].
  assert (GP : forall k p, nth_error ps k = Some p -> has (pt_data p) (D3 28 28 1) /\ label_idx text_eqb main_labels p = f_byte fl (8 + (Z.of_nat k + 1)) /\ 0 <= label_idx text_eqb main_labels p < 10).
  { intros k p HK. pose proof (PN k p HK) as [G1 G2].
    assert (KL : (k < length ps)%nat) by (apply nth_error_Some; congruence).
    split; [eapply is_has; exact G1|]. unfold label_idx. rewrite G2.
    assert (B : 0 <= f_byte fl (8 + (Z.of_nat k + 1)) < 10) by (split; [apply (mn_bytes _ _ _ _ _ _ HM)|apply HL; lia]).
    rewrite digit_label by exact B. auto. }
  destruct ps as [|p0 [|p1 s]]; [cbn in LN; lia|cbn in LN; lia|].
  destruct (GP 0%nat p0 eq_refl) as (A1 & A2 & A3). destruct (GP 1%nat p1 eq_refl) as (B1 & B2 & B3). clear GP.
  change (8 + (Z.of_nat 0 + 1)) with 9 in A2. change (8 + (Z.of_nat 1 + 1)) with 10 in B2.
  exists r, (p0 :: p1 :: s), m. split; [exact ER|]. split; [rewrite EQ; exact D|]. split; [exact EM|]. rewrite ML, LL.
  destruct main_fits as (OK & _ & LO).
  destruct (train_race E cast text_eqb main_labels (main_params lr threads) main_shapes (D3 28 28 1) (main_body u k1 k2 c) (sm_make 10) (p0 :: p1 :: s) p0 p1 s) as [R1 R2];
    [rewrite P24; exact HT|rewrite P24; cbn; lia|reflexivity|exact OK|exact LO|exact NF|exact IX|reflexivity|exact (conj A1 A3)|exact (conj B1 B3)|].
  rewrite A2, B2 in R1. split; [exact R1|]. apply (R2 6%nat c); [reflexivity|]. apply C2.
Qed.
