(** Whole networks by their shapes, for any type of numbers: forwardPropagation, backwardsPropagation, setBatchSize and
    applyBatch succeed for all inputs of the right size. *)
From Coq Require Import ZArith List Bool Lia.
From Verif Require Import Base Dim Matrix View Num Expr Spec Iter Sums MatFacts MatThms ViewThms ExprThms Batch Kernel Connected Float32
  FloatFacts Pooling Activation Softmax LayerFacts KernelThms KernelGrad BatchThms ConnectedThms PoolingThms PoolGrad ActivationThms
  SoftmaxThms LayerTotal Chars Model Net NetPass NetGrad ModelThms Train TrainLocal TrainRest TrainNet TrainSgd Shapes.
Import ListNotations.
Local Open Scope Z_scope.

Section ShapeNet.
Context {T : Type} {N : Num T} (E : env T).
Hypothesis ORD : e_moved E = false.

(** The layers have the configurations [ss], for inputs of dimensions [d]. *)
Fixpoint net_fit (ls : list (layer T)) (ss : list shape) (d : dim3) : Prop :=
  match ls, ss with
  | [], [] => True
  | l :: ls', s :: ss' => l_fit l s d /\ net_fit ls' ss' (h_out s d)
  | _, _ => False
  end.
Fixpoint net_filled (ls : list (layer T)) (ss : list shape) (d : dim3) (i : Z) : Prop :=
  match ls, ss with l :: ls', s :: ss' => filled l s d i /\ net_filled ls' ss' (h_out s d) i | _, _ => True end.
Fixpoint net_marked (ls : list (layer T)) (ss : list shape) (d : dim3) (i : Z) : Prop :=
  match ls, ss with l :: ls', s :: ss' => marked l s d i /\ net_marked ls' ss' (h_out s d) i | _, _ => True end.
(** The recorded matrices, one for each layer *)
Fixpoint recs_has (rs : list (mat T)) (ss : list shape) (d : dim3) : Prop :=
  match rs, ss with
  | [], [] => True
  | r :: rs', s :: ss' => has r (h_out s d) /\ recs_has rs' ss' (h_out s d)
  | _, _ => False
  end.
(** The slots of the layers [ls] are still there in [ls']. *)
Definition keeps (ls ls' : list (layer T)) (ss : list shape) (d : dim3) : Prop :=
  (forall j, List.Forall (fun l => slot_ok l j) ls -> List.Forall (fun l => slot_ok l j) ls') /\
  (forall b, List.Forall (nslots b) ls -> List.Forall (nslots b) ls') /\
  (forall j, net_filled ls ss d j -> net_filled ls' ss d j).

Lemma keeps_refl : forall ls ss d, keeps ls ls ss d.
Proof. intros. split; [|split]; auto. Qed.
Lemma keeps_trans : forall a b c ss d, keeps a b ss d -> keeps b c ss d -> keeps a c ss d.
Proof. intros a b c ss d (A1 & A2 & A3) (B1 & B2 & B3). split; [|split]; auto. Qed.
Lemma keeps_cons : forall (l l' : layer T) ls ls' s ss d, (forall j, slot_ok l j -> slot_ok l' j) -> (forall b, nslots b l -> nslots b l') ->
  (forall j, filled l s d j -> filled l' s d j) -> keeps ls ls' ss (h_out s d) -> keeps (l :: ls) (l' :: ls') (s :: ss) d.
Proof.
  intros l l' ls ls' s ss d H1 H2 H3 (K1 & K2 & K3). split; [|split].
  - intros j H. inversion H; subst. constructor; auto.
  - intros b H. inversion H; subst. constructor; auto.
  - intros j [H H']. split; auto.
Qed.
Lemma net_fit_length : forall ls ss d, net_fit ls ss d -> length ls = length ss.
Proof. induction ls; intros [|s ss] d H; cbn in *; try contradiction; [reflexivity|]. f_equal. eapply IHls. apply H. Qed.
Lemma recs_length : forall rs ss d, recs_has rs ss d -> length rs = length ss.
Proof. induction rs; intros [|s ss] d H; cbn in *; try contradiction; [reflexivity|]. f_equal. eapply IHrs. apply H. Qed.

Lemma grads_keep : forall (l l' : layer T) s d, l_fit l s d -> l_fit l' s d -> grads_of l' = grads_of l ->
  (forall j, filled l s d j -> filled l' s d j) /\ (forall b, nslots b l -> nslots b l').
Proof.
  intros l l' s d H H' G. destruct l, s; cbn in H; try contradiction; destruct l'; cbn in H'; try contradiction; cbn in G; try (injection G as G1 G2);
    split; intros j HJ; cbn in *; rewrite ?G1, ?G2; exact HJ.
Qed.

Lemma fwd_net : forall ls ss d i x, net_fit ls ss d -> List.Forall (fun l => index_slot l i) ls -> h_net_ok ss d -> has x d ->
  exists ls' rs o, fwd_layers E ls x i = ORet ls' (rs, o) /\ has o (h_net_out ss d) /\ net_fit ls' ss d /\ List.Forall ready ls' /\
    (List.Forall (fun l => slot_ok l i) ls -> net_marked ls' ss d i) /\ recs_has rs ss d /\ keeps ls ls' ss d /\
    (forall j, List.Forall (fun l => index_slot l j) ls -> List.Forall (fun l => index_slot l j) ls').
Proof.
  induction ls as [|l ls IH]; intros ss d i x HN HS OK HX; destruct ss as [|s ss]; cbn in HN; try contradiction.
  - exists [], [], x. cbn. auto 8 using keeps_refl.
  - destruct HN as [H1 H2]. destruct OK as [O1 O2]. inversion HS as [|? ? S1 S2]; subst.
    destruct (fwd_total E l s d i x H1 S1 O1 HX) as (l' & y & Ey & Hy & L1 & L2 & L3 & L4 & L5 & L6).
    destruct (h_ok_out _ _ O1) as [P2 F2]. destruct (copies E y _ Hy P2 F2) as [(r & Er & Hr) _].
    destruct (IH ss (h_out s d) i y H2 S2 O2 Hy) as (ls' & rs & o & Eo & Ho & N1 & N2 & N3 & N4 & N5 & N6).
    destruct (grads_keep l l' s d H1 L1 L4) as [G1 G2].
    exists (l' :: ls'), (r :: rs), o. split; [cbn [fwd_layers]; rewrite Ey, Er, Eo; reflexivity|]. cbn [net_fit net_marked recs_has h_net_out].
    assert (K : keeps (l :: ls) (l' :: ls') (s :: ss) d) by (apply keeps_cons; auto).
    repeat (split; [solve [auto]|]). split; [intros HF; inversion HF; subst; auto|]. repeat (split; [solve [auto]|]). intros j HF; inversion HF; subst; auto.
Qed.

Lemma bwd_net : forall ls ss d i pre post precs x rs prs g, net_fit ls ss d -> List.Forall ready ls -> h_net_ok ss d -> net_marked ls ss d i ->
  has x d -> recs_has rs ss d -> length precs = length pre -> has g (h_net_out ss d) -> h_net_bkc (Nat.eqb (length pre) 0) ss d ->
  exists ls' gin,
    bwd_layers E (length pre + length ls) (precs ++ x :: rs ++ prs) g i (pre ++ ls ++ post) =
    bwd_layers E (length pre) (precs ++ x :: rs ++ prs) gin i (pre ++ ls' ++ post) /\
    (ls = [] \/ pre <> [] -> has gin d) /\ net_fit ls' ss d /\ List.Forall ready ls' /\ net_filled ls' ss d i /\ keeps ls ls' ss d.
Proof.
  induction ls as [|l ls IH]; intros ss d i pre post precs x rs prs g HN HRd OK HR HX RS HL HG BK; destruct ss as [|s ss]; cbn in HN; try contradiction.
  - exists [], g. rewrite Nat.add_0_r. cbn. auto 8 using keeps_refl.
  - destruct HN as [H1 H2]. destruct OK as [O1 O2]. cbn [net_marked] in HR. destruct HR as [R1 R2]. inversion HRd as [|? ? Q1 Q2]; subst.
    destruct rs as [|z rs]; cbn in RS; [contradiction|]. destruct RS as [Z1 Z2]. destruct BK as [B1 B2].
    destruct (IH ss (h_out s d) i (pre ++ [l]) post (precs ++ [x]) z rs prs g H2 Q2 O2 R2 Z1 Z2
               ltac:(rewrite !app_length; cbn; lia) HG ltac:(apply h_net_bk_bkc; exact B2)) as (ls' & g1 & E1 & G1 & N1 & N2 & N3 & N4).
    rewrite app_length in E1. cbn [length] in E1. rewrite <- !app_assoc in E1. cbn [app] in E1.
    assert (HG1 : has g1 (h_out s d)) by (apply G1; right; destruct pre; discriminate).
    destruct (h_ok_out _ _ O1) as [P2 F2]. pose proof O1 as (P1 & F1 & _).
    destruct (copies E x d HX P1 F1) as [_ (x' & Ex & Hx)]. destruct (copies E z _ Z1 P2 F2) as [_ (z' & Ez & Hz)].
    destruct (bwd_total E ORD l s d i x' z' g1 (Nat.eqb (length pre) 0) H1 Q1 O1 R1 B1 Hx Hz HG1) as (l' & gin & EB & GB & L1 & L2 & L3 & L4 & L5 & L6).
    exists (l' :: ls'), gin. split.
    + cbn [length app] in *. replace (length pre + S (length ls))%nat with (length pre + 1 + length ls)%nat by lia. rewrite E1.
      rewrite Nat.add_1_r. apply (bwd_step E) with (x' := x') (z' := z'); assumption.
    + split.
      * intros [C|C]; [discriminate|]. apply GB. apply Nat.eqb_neq. destruct pre; [congruence|discriminate].
      * cbn [net_fit net_filled].
        assert (K : keeps (l :: ls) (l' :: ls') (s :: ss) d) by (apply keeps_cons; auto). auto 10.
Qed.

(** *** A network with its output layer *)
(** Layers [ls] of configuration [ss] with a softmax layer for [n] labels *)
Definition shaped (ls : list (layer T)) (ss : list shape) (d : dim3) (n : Z) : Prop :=
  exists body sm, ls = body ++ [LSoft sm] /\ net_fit body ss d /\ sm_count sm = n.
Definition h_ready (ss : list shape) (d : dim3) (n : Z) : Prop := h_net_ok ss d /\ h_net_bkc true ss d /\ labels_ok (h_net_out ss d) n.

Lemma last_rev : forall {A} (l : list A) a, rev (l ++ [a]) = a :: rev l.
Proof. intros. rewrite rev_app_distr. reflexivity. Qed.

Theorem forward_total : forall body sm ss d n i U (cast : U -> T) (input : mat U),
  net_fit body ss d -> sm_count sm = n -> List.Forall (fun l => index_slot l i) body -> h_net_ok ss d -> labels_ok (h_net_out ss d) n -> has input d ->
  exists body' x0 rs p r, forward_pass E cast n input i (body ++ [LSoft sm]) = ORet (body' ++ [LSoft sm]) r /\
    r_inputs r = x0 :: rs ++ [p] /\ has x0 d /\ recs_has rs ss d /\ has p (h_net_out ss d) /\ 0 <= r_label r < n /\
    net_fit body' ss d /\ List.Forall ready body' /\ (List.Forall (fun l => slot_ok l i) body -> net_marked body' ss d i) /\ keeps body body' ss d /\
    (forall j, List.Forall (fun l => index_slot l j) body -> List.Forall (fun l => index_slot l j) body').
Proof.
  intros body sm ss d n i U cast input HN HC HS OK LO HX.
  destruct (h_net_head _ _ OK) as [Pd Fd]. destruct (h_net_end _ _ OK) as [Po Fo].
  destruct (has_is input d HX Pd Fd) as (J & HJ).
  destruct (mat_of_lz_ok (n0 : T) cast (l_val input) tt d J Fd (pos_iterable d Pd) (is_mat_lz input d J tt HJ Fd)) as (x & Ex & Hx).
  destruct (copies E x d (is_has _ _ _ Hx) Pd Fd) as [(x0 & Ex0 & Hx0) _].
  destruct (fwd_net body ss d i x HN HS OK (is_has _ _ _ Hx)) as (body' & rs & o & Ef & Ho & N1 & N2 & N3 & N4 & N5 & N6).
  destruct (has_is o _ Ho Po Fo) as (fo & Hfo).
  destruct (sm_forward_total (e_exp E) sm o _ fo Hfo Fo Po ltac:(rewrite HC; exact LO)) as (p & Ep & Hp).
  destruct (has_is p _ Hp Po Fo) as (fp & Hfp). destruct (copies E p _ Hp Po Fo) as [(p0 & Ep0 & Hp0) _].
  assert (Ef2 : fwd_layers E (body ++ [LSoft sm]) x i = ORet (body' ++ [LSoft sm]) (rs ++ [p0], p)).
  { eapply fwd_layers_app; [exact Ef|]. cbn [fwd_layers l_forward]. rewrite Ep. cbn [lift]. rewrite Ep0. reflexivity. }
  destruct (max_index_total p _ fp Hfp Fo Po) as (a & b & c & Hi & EI).
  pose proof LO as (_ & _ & LV).
  exists body', x0, rs, p0, (Results (lin (h_net_out ss d) a b c) 0 (nsub n0 n1) (e_rnd E (fp a b c)) (x0 :: rs ++ [p0])).
  split.
  { unfold forward_pass, bind. rewrite Ex. cbn [lift]. rewrite Ex0. cbn [lift]. rewrite Ef2. cbn [snd fst].
    rewrite (is_mat_dim _ _ _ Hfp), base_size_fits by exact Fo. cbn [lift].
    rewrite LV, Z.eqb_refl. cbn [ret]. rewrite EI. cbn [lift]. rewrite (is_mat_flat p _ _ a b c Hfp Hi). reflexivity. }
  split; [reflexivity|]. split; [exact Hx0|]. split; [exact N4|]. split; [exact Hp0|]. split; [cbn [r_label]; rewrite <- LV; apply lin_range; exact Hi|].
  auto.
Qed.

Theorem backward_total : forall body sm ss d n i k x0 rs p recs,
  net_fit body ss d -> List.Forall ready body -> net_marked body ss d i -> sm_count sm = n -> h_net_ok ss d -> h_net_bkc true ss d -> labels_ok (h_net_out ss d) n ->
  recs = x0 :: rs ++ [p] -> has x0 d -> recs_has rs ss d -> has p (h_net_out ss d) -> 0 <= k < n ->
  exists body', backward_tail E recs k i (body ++ [LSoft sm]) = ORet (body' ++ [LSoft (Soft true k n)]) tt /\
    net_fit body' ss d /\ List.Forall ready body' /\ net_filled body' ss d i /\ keeps body body' ss d.
Proof.
  intros body sm ss d n i k x0 rs p recs HN HRd HR HC OK BK LO -> HX RS HP Hk.
  destruct (h_net_head _ _ OK) as [Pd Fd]. destruct (h_net_end _ _ OK) as [Po Fo]. pose proof LO as (_ & _ & LV).
  destruct (copies E p _ HP Po Fo) as [_ (q & Eq & Hq)]. destruct (has_is q _ Hq Po Fo) as (fq & Hfq).
  assert (E2 : hand_over k (body ++ [LSoft sm]) = ORet (body ++ [LSoft (Soft true k n)]) tt) by (rewrite hand_over_at by lia; rewrite HC; reflexivity).
  assert (LR : length rs = length body) by (rewrite (recs_length _ _ _ RS), (net_fit_length _ _ _ HN); reflexivity).
  destruct (sm_dx_total q _ fq k Hfq Fo Po ltac:(rewrite LV; exact Hk)) as (g & Eg & Hg).
  assert (Z0 : exists z z', nth_error (x0 :: rs) (length body) = Some z /\ double_copy z = Ok z').
  { rewrite <- LR. clear - RS HX Pd Fd OK E. revert rs d x0 RS HX Pd Fd OK.
    induction ss as [|s ss IH]; intros rs d x0 RS HX Pd Fd OK; destruct rs as [|r0 rs]; cbn in RS; try contradiction.
    - exists x0. destruct (copies E x0 d HX Pd Fd) as [_ (z' & Ez & _)]. exists z'. split; [reflexivity|exact Ez].
    - destruct OK as [O1 O2]. destruct (h_ok_out _ _ O1) as [P2 F2]. cbn [length nth_error]. apply (IH rs (h_out s d) r0); tauto. }
  destruct Z0 as (z & z' & Nz & Ez).
  assert (SP : exists zs, x0 :: rs = zs ++ [z] /\ length zs = length body).
  { clear - Nz LR. destruct (nth_error_split _ _ Nz) as (l1 & l2 & E & L). exists l1. split; [|exact L].
    assert (l2 = []) as ->; [|exact E]. apply (f_equal (@length _)) in E. rewrite app_length in E. cbn in E. destruct l2; [reflexivity|cbn in E; lia]. }
  destruct SP as (zs & Ezs & Lzs).
  assert (E3 : bwd_layers E (S (length body)) (zs ++ z :: p :: []) mat_empty i (body ++ LSoft (Soft true k n) :: []) =
               bwd_layers E (length body) (zs ++ z :: p :: []) g i (body ++ LSoft (Soft true k n) :: [])).
  { apply (bwd_step E) with (x' := z') (z' := q); [exact Lzs|exact Ez|exact Eq|]. cbn [l_backward sm_backward sm_known sm_label]. rewrite Eg. reflexivity. }
  destruct (bwd_net body ss d i [] [LSoft (Soft true k n)] [] x0 rs [p] g HN HRd OK HR HX RS eq_refl Hg BK) as (body' & gin & E4 & _ & N1 & N2 & N3 & N4).
  cbn [length app Nat.add] in E4.
  exists body'. split; [|auto].
  unfold backward_tail, bind. rewrite E2. unfold mget. rewrite app_length. cbn [length]. rewrite Nat.add_1_r.
  replace (x0 :: rs ++ [p]) with (zs ++ z :: [p]) by (change (x0 :: rs ++ [p]) with ((x0 :: rs) ++ [p]); rewrite Ezs, <- app_assoc; reflexivity).
  rewrite E3. replace (zs ++ z :: [p]) with (x0 :: rs ++ [p]) by (change (x0 :: rs ++ [p]) with ((x0 :: rs) ++ [p]); rewrite Ezs, <- app_assoc; reflexivity).
  rewrite E4. reflexivity.
Qed.

Lemma assign_total : forall ss d n r x0 rs p k, h_net_ok ss d -> labels_ok (h_net_out ss d) n -> r_inputs r = x0 :: rs ++ [p] -> has p (h_net_out ss d) ->
  0 <= k < n -> exists r', assign_loss E r k = Ok r' /\ r_inputs r' = r_inputs r /\ r_label r' = r_label r /\ r_true r' = k.
Proof.
  intros ss d n r x0 rs p k OK (_ & _ & LV) RI HP Hk. destruct (h_net_end _ _ OK) as [Po Fo].
  destruct (copies E p _ HP Po Fo) as [_ (q & Eq & Hq)]. destruct (has_is q _ Hq Po Fo) as (fq & Hfq).
  destruct (loss_total (e_log2 E) (e_eps E) (e_rnd E) q _ fq k Hfq Fo Po ltac:(rewrite LV; exact Hk)) as (v & Ev).
  exists (Results (r_label r) k v (r_conf r) (r_inputs r)). split; [|auto]. unfold assign_loss.
  replace (rev (r_inputs r)) with (p :: rev (x0 :: rs)) by (rewrite RI; change (x0 :: rs ++ [p]) with ((x0 :: rs) ++ [p]); rewrite last_rev; reflexivity).
  rewrite Eq. cbn [rbind]. rewrite Ev. reflexivity.
Qed.

(** Both passes in a row *)
Theorem passes_total : forall body sm ss d n i k U (cast : U -> T) (input : mat U),
  net_fit body ss d -> sm_count sm = n -> List.Forall (fun l => slot_ok l i) body -> h_ready ss d n -> has input d -> 0 <= k < n ->
  exists l1 r body' r', forward_pass E cast n input i (body ++ [LSoft sm]) = ORet l1 r /\
    backward_pass E r k i l1 = ORet (body' ++ [LSoft (Soft true k n)]) r' /\
    r_label r' = r_label r /\ r_true r' = k /\ net_fit body' ss d /\ List.Forall ready body' /\ net_filled body' ss d i /\ keeps body body' ss d.
Proof.
  intros body sm ss d n i k U cast input HN HC HS (OK & BK & LO) HX Hk.
  destruct (forward_total body sm ss d n i U cast input HN HC ltac:(eapply Forall_impl; [intros l0; apply slot_index|exact HS]) OK LO HX)
    as (b1 & x0 & rs & q & r & EF & RI & X0 & RA & IQ & _ & N1 & N2 & N3 & K1 & _). specialize (N3 HS).
  destruct (assign_total ss d n r x0 rs q k OK LO RI IQ Hk) as (r' & EA & RI' & RL & RT).
  destruct (backward_total b1 sm ss d n i k x0 rs q (r_inputs r') N1 N2 N3 HC OK BK LO ltac:(rewrite RI'; exact RI) X0 RA IQ Hk) as (b2 & EB & M1 & M2 & M3 & K2).
  exists (b1 ++ [LSoft sm]), r, b2, r'. split; [exact EF|]. split; [unfold backward_pass, bind; rewrite EA; cbn [lift]; rewrite EB; reflexivity|].
  split; [exact RL|]. split; [exact RT|]. split; [exact M1|split; [exact M2|split; [exact M3|eapply keeps_trans; eassumption]]].
Qed.

(** *** One data point, with any label handed over *)
Section Point.
Context {U L : Type} (cast : U -> T) (eqL : L -> L -> bool) (labels : list L).
Local Notation idx := (label_idx eqL labels).
Local Notation nl := (Z.of_nat (length labels)).

Theorem point_total : forall body sm ss d (p : point U L) b k, net_fit body ss d -> sm_count sm = nl -> h_ready ss d nl ->
  List.Forall (fun l => slot_ok l b) body -> has (pt_data p) d -> 0 <= idx p < nl -> 0 <= k < nl ->
  exists body' r, rest E cast eqL labels b p k WStart (body ++ [LSoft sm]) = ORet (body' ++ [LSoft (Soft true k nl)]) r /\
    net_fit body' ss d /\ List.Forall ready body' /\ net_filled body' ss d b /\ keeps body body' ss d.
Proof.
  intros body sm ss d p b k HN HC (OK & BK & LO) HS HX HI Hk.
  destruct (forward_total body sm ss d nl b U cast (pt_data p) HN HC ltac:(eapply Forall_impl; [intros l0; apply slot_index|exact HS]) OK LO HX)
    as (b1 & x0 & rs & q & r & EF & RI & X0 & RA & IQ & _ & N1 & N2 & N3 & K1 & _). specialize (N3 HS).
  destruct (assign_total ss d nl r x0 rs q (idx p) OK LO RI IQ HI) as (r' & EA & RI' & _).
  destruct (backward_total b1 sm ss d nl b k x0 rs q (r_inputs r') N1 N2 N3 HC OK BK LO ltac:(rewrite RI'; exact RI) X0 RA IQ Hk) as (b2 & EB & M1 & M2 & M3 & K2).
  exists b2, r'. split; [|split; [exact M1|split; [exact M2|split; [exact M3|eapply keeps_trans; eassumption]]]].
  cbn [rest]. unfold bind. rewrite EF. unfold back, bind. rewrite EA. cbn [lift]. rewrite EB. reflexivity.
Qed.
End Point.

(** *** setBatchSize *)
Lemma set_batch_shape : forall bs (l : layer T) s d, 0 <= bs -> l_fit l s d -> idx_ok l ->
  exists l', l_set_batch bs l = ORet l' tt /\ l_fit l' s d /\ nslots bs l' /\ idx_ok l' /\ (forall i, 0 <= i < bs -> slot_ok l' i) /\ (ready l -> ready l').
Proof.
  intros bs l s d Hb HL HI. destruct l as [k|c|q|a|sm], s as [fx fy C n|n|t qx qy sx sy|k0]; cbn in HL; try contradiction; cbn [l_set_batch].
  - destruct (Z.ltb_spec bs 0); [lia|]. eexists. split; [reflexivity|]. split; [exact HL|]. cbn. rewrite repeat_length. repeat split; auto; lia.
  - destruct (Z.ltb_spec bs 0); [lia|]. eexists. split; [reflexivity|]. split; [exact HL|]. cbn. rewrite repeat_length. repeat split; auto; lia.
  - unfold q_batch, vec_resize. destruct (Z.ltb_spec bs 0); [lia|]. cbn [rbind]. eexists. split; [reflexivity|]. split; [exact HL|]. split; [exact Logic.I|].
    assert (FC : List.Forall consistent (firstn (Z.to_nat bs) (q_idx q) ++ repeat mat_empty (Z.to_nat bs - length (q_idx q)))).
    { apply Forall_app. split.
      - cbn in HI. rewrite Forall_forall in *. intros x HX. apply HI. rewrite <- (firstn_skipn (Z.to_nat bs)). apply in_or_app. auto.
      - apply Forall_forall. intros x HX. apply repeat_spec in HX. subst x. reflexivity. }
    split; [exact FC|]. split; [|auto]. intros i Hi. cbn [slot_ok q_idx]. destruct (slot_vget (firstn (Z.to_nat bs) (q_idx q) ++ repeat mat_empty (Z.to_nat bs - length (q_idx q))) i) as [v Hv].
    { rewrite app_length, firstn_length, repeat_length. lia. }
    exists v. split; [exact Hv|]. rewrite Forall_forall in FC. apply FC. unfold vget in Hv. destruct (_ && _); [|discriminate].
    destruct (nth_error _ _) eqn:Q; [|discriminate]. injection Hv as <-. eapply nth_error_In. exact Q.
  - eexists. split; [reflexivity|]. split; [exact HL|]. cbn. auto.
Qed.
Lemma set_batch_shapes : forall bs ls ss d, 0 <= bs -> net_fit ls ss d -> List.Forall idx_ok ls ->
  exists ls', set_batch_all bs ls = ORet ls' tt /\ net_fit ls' ss d /\ List.Forall (nslots bs) ls' /\ (forall i, 0 <= i < bs -> List.Forall (fun l => slot_ok l i) ls') /\
    (List.Forall ready ls -> List.Forall ready ls').
Proof.
  intros bs. induction ls as [|l ls IH]; intros ss d Hb HN HI; destruct ss as [|s ss]; cbn in HN; try contradiction.
  - exists []. cbn. repeat split; auto.
  - destruct HN as [H1 H2]. inversion HI; subst. destruct (set_batch_shape bs l s d Hb H1 H3) as (l' & E1 & L1 & L2 & _ & L4 & L5).
    destruct (IH ss _ Hb H2 H4) as (ls' & E2 & M1 & M2 & M3 & M4). exists (l' :: ls'). unfold set_batch_all in *. cbn [each_layer]. rewrite E1, E2. cbn.
    repeat split; auto. intros HR. inversion HR; subst. constructor; auto.
Qed.

(** *** applyBatch *)
Lemma apply_shape : forall lr bs (l : layer T) s d, 1 <= bs -> l_fit l s d -> ready l -> h_ok s d -> nslots bs l -> (forall i, 0 <= i < bs -> filled l s d i) ->
  exists l', l_apply lr l = ORet l' tt /\ l_fit l' s d /\ ready l' /\ (forall b, nslots b l -> nslots b l') /\ (forall i, slot_ok l i -> slot_ok l' i) /\
    (forall i, filled l s d i -> filled l' s d i).
Proof.
  intros lr bs l s d Hb HL RD (P & F & OK) NS ST.
  destruct l as [k|c|q|a|sm]; destruct s as [fx fy C n|n|t qx qy sx sy|ac]; cbn in HL; try contradiction; cbn [l_apply].
  - destruct HL as ((W & B & HK) & HT). destruct OK as (A1 & A2 & A3 & A4 & F1 & F2 & F3). cbn in NS. destruct NS as [N1 N2].
    assert (KK := HK). destruct KK as (K1 & K2 & K3 & K4 & K5 & K6 & K7 & K8 & K9 & K10). cbn in ST.
    assert (P1 : pos (D3 fx fy (C * n))) by (unfold pos in *; cbn; nia). assert (P2 : pos (D3 n 1 1)) by (unfold pos; cbn; lia).
    set (GW := fun i x y z => match vget (p_wg (k_par k)) i with Ok m => match mread m (D3 x y z) with Ok v => v | _ => n0 end | _ => n0 end).
    set (GB := fun i x y z => match vget (p_bg (k_par k)) i with Ok m => match mread m (D3 x y z) with Ok v => v | _ => n0 end | _ => n0 end).
    destruct (apply_batch_ok lr (p_wg (k_par k)) (p_bg (k_par k)) (k_w k) (k_b k) _ _ W B GW GB bs K5 (pos_iterable _ P1) K6 (pos_iterable _ P2) (eq_sym N1) (eq_sym N2)) as (w' & b' & E1 & W1 & B1); auto.
    { intros i Hi. rewrite N1 in Hi. destruct (ST i Hi) as (gw & gb & Q1 & Q2 & _). exists gw. split; [exact Q1|]. destruct (has_is _ _ Q2 P1 K5) as (f & Hf).
      eapply is_mat_ext; [exact Hf|]. intros x y z I. unfold GW. rewrite Q1. rewrite (is_mat_read _ _ _ x y z Hf K5 I). reflexivity. }
    { intros i Hi. rewrite N2 in Hi. destruct (ST i Hi) as (gw & gb & _ & _ & Q1 & Q2). exists gb. split; [exact Q1|]. destruct (has_is _ _ Q2 P2 K6) as (f & Hf).
      eapply is_mat_ext; [exact Hf|]. intros x y z I. unfold GB. rewrite Q1. rewrite (is_mat_read _ _ _ x y z Hf K6 I). reflexivity. }
    unfold on_par, p_apply. unfold k_w, k_b in E1. rewrite E1. cbn [map_out with_par]. eexists. split; [reflexivity|]. split.
    + split; [|exact HT]. eexists _, _. exact (conj K1 (conj K2 (conj K3 (conj K4 (conj K5 (conj K6 (conj W1 (conj B1 (conj K9 K10))))))))).
    + split; [exact Logic.I|]. split; [cbn; auto|]. split; auto.
  - cbn in RD. assert (HL' : (exists W B, conn_is c n (vol d) W B) /\ c_in c = d) by (destruct HL as [H|H]; [exact H|destruct H as (H & _); congruence]).
    destruct HL' as ((W & B & HK) & HT). destruct OK as (A1 & F1 & F2). cbn in NS. destruct NS as [N1 N2].
    assert (KK := HK). destruct KK as (K1 & K2 & K3 & K4 & K5 & K6 & K7). cbn in ST.
    assert (P1 : pos (D3 n (vol d) 1)) by (pose proof (vol_pos1 d P); unfold pos; cbn; lia). assert (P2 : pos (D3 n 1 1)) by (unfold pos; cbn; lia).
    set (GW := fun i x y z => match vget (p_wg (c_par c)) i with Ok m => match mread m (D3 x y z) with Ok v => v | _ => n0 end | _ => n0 end).
    set (GB := fun i x y z => match vget (p_bg (c_par c)) i with Ok m => match mread m (D3 x y z) with Ok v => v | _ => n0 end | _ => n0 end).
    destruct (apply_batch_ok lr (p_wg (c_par c)) (p_bg (c_par c)) (c_w c) (c_b c) _ _ W B GW GB bs K6 (pos_iterable _ P1) K7 (pos_iterable _ P2) (eq_sym N1) (eq_sym N2)) as (w' & b' & E1 & W1 & B1); auto.
    { intros i Hi. rewrite N1 in Hi. destruct (ST i Hi) as (gw & gb & Q1 & Q2 & _). exists gw. split; [exact Q1|]. destruct (has_is _ _ Q2 P1 K6) as (f & Hf).
      eapply is_mat_ext; [exact Hf|]. intros x y z I. unfold GW. rewrite Q1. rewrite (is_mat_read _ _ _ x y z Hf K6 I). reflexivity. }
    { intros i Hi. rewrite N2 in Hi. destruct (ST i Hi) as (gw & gb & _ & _ & Q1 & Q2). exists gb. split; [exact Q1|]. destruct (has_is _ _ Q2 P2 K7) as (f & Hf).
      eapply is_mat_ext; [exact Hf|]. intros x y z I. unfold GB. rewrite Q1. rewrite (is_mat_read _ _ _ x y z Hf K7 I). reflexivity. }
    unfold on_cpar, p_apply. unfold c_w, c_b in E1. rewrite E1. cbn [map_out]. eexists. split; [reflexivity|]. split.
    + left. split; [|exact HT]. eexists _, _. exact (conj K1 (conj W1 (conj B1 (conj K4 (conj K5 (conj K6 K7)))))).
    + split; [exact RD|]. split; [cbn; auto|]. split; auto.
  - eexists. split; [reflexivity|]. cbn. auto 8.
  - eexists. split; [reflexivity|]. cbn. auto 8.
Qed.
Lemma apply_shapes : forall lr bs ls ss d, 1 <= bs -> net_fit ls ss d -> List.Forall ready ls -> h_net_ok ss d -> List.Forall (nslots bs) ls ->
  (forall i, 0 <= i < bs -> net_filled ls ss d i) ->
  exists ls', apply_all lr ls = ORet ls' tt /\ net_fit ls' ss d /\ List.Forall ready ls' /\ keeps ls ls' ss d.
Proof.
  intros lr bs. induction ls as [|l ls IH]; intros ss d Hb HN RD OK NS ST; destruct ss as [|s ss]; cbn in HN; try contradiction.
  - exists []. cbn. auto using keeps_refl.
  - destruct HN as [H1 H2]. destruct OK as [O1 O2]. inversion NS as [|? ? S1 S2]; subst. inversion RD as [|? ? R1 R2]; subst.
    destruct (apply_shape lr bs l s d Hb H1 R1 O1 S1) as (l' & E1 & L1 & L2 & L3 & L4 & L5). { intros i Hi. apply (ST i Hi). }
    destruct (IH ss (h_out s d) Hb H2 R2 O2 S2) as (ls' & E2 & M1 & M2 & M3). { intros i Hi. apply (ST i Hi). }
    exists (l' :: ls'). unfold apply_all in *. cbn [each_layer]. rewrite E1, E2. cbn [map_out net_fit].
    split; [reflexivity|]. split; [auto|]. split; [constructor; assumption|]. apply keeps_cons; auto.
Qed.
End ShapeNet.
