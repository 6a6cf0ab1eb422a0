(** Training with one worker thread never fails, also for layers that are new (fully connected layers without weights). *)
From Coq Require Import ZArith List Bool Lia.
From Verif Require Import Base Dim Matrix View Num Expr Spec Iter MatFacts Batch Kernel Connected Float32 Pooling Activation Softmax
  FloatFacts Chars Model Net NetGrad ModelThms Train TrainLocal TrainRest TrainInv TrainData TrainEnd TrainThms TrainEpoch TrainNet TrainSgd TrainMore Shapes ShapeNet
  TrainSafe.
Import ListNotations.
Local Open Scope Z_scope.

Section OneThread.
Context {T : Type} {N : Num T} (E : env T).
Hypothesis ORD : e_moved E = false.
Context {U L : Type} (cast : U -> T) (eqL : L -> L -> bool) (labels : list L).
Local Notation shared := (shared (T := T) (U := U) (L := L)).
Local Notation pc := (pc (T := T) (U := U) (L := L)).
Local Notation estate := (estate (T := T) (U := U) (L := L)).
Local Notation idx := (label_idx eqL labels).
Local Notation nl := (Z.of_nat (length labels)).
Local Notation gst wc bs := (gstep E cast eqL labels wc bs).

(** The layers when slots below [b] have been used. [F0]: all slots were used before. *)
Definition used (bs : Z) (ss : list shape) (d : dim3) (F0 : Prop) (b : Z) (ls : list (layer T)) : Prop :=
  exists body sm, ls = body ++ [LSoft sm] /\ net_fit body ss d /\ sm_count sm = nl /\
    List.Forall (nslots bs) body /\ (forall i, 0 <= i < bs -> List.Forall (fun l => slot_ok l i) body) /\
    (forall i, 0 <= i < bs -> F0 \/ i < b -> net_filled body ss d i) /\ (F0 \/ 0 < b -> List.Forall ready body).

Lemma point_used : forall bs ss d F0, h_ready ss d nl -> forall b p ls, used bs ss d F0 b ls -> 0 <= b < bs -> pt_ok eqL labels d p ->
  exists ls' r, rest E cast eqL labels b p (idx p) WStart ls = ORet ls' r /\ used bs ss d F0 (b + 1) ls'.
Proof.
  intros bs ss d F0 HR b p ls (body & sm & -> & HF & HC & NS & SO & FL & RD) Hb [G1 G2].
  destruct (point_total E ORD cast eqL labels body sm ss d p b (idx p) HF HC HR (SO b Hb) G1 G2 G2) as (body' & r & Q & N1 & N2 & N3 & (N4 & N5 & N6)).
  eexists _, r. split; [exact Q|]. exists body', (Soft true (idx p) nl). split; [reflexivity|]. split; [exact N1|]. split; [reflexivity|].
  split; [apply N5; exact NS|]. split; [intros i Hi; apply N4; apply SO; exact Hi|]. split; [|auto].
  intros i Hi D. destruct (Z.eq_dec i b) as [->|NE]; [exact N3|]. apply N6. apply FL; [exact Hi|]. destruct D; [auto|right; lia].
Qed.

(** One worker thread, for any property [used b] of the layers that holds when slots below [b] have been used, and any
    properties [good] and [bad] of the data points; the use of bad ones is undefined *)
Section One.
Context (P : shared -> Prop) (wc bs : Z) (e : estate) (used : Z -> list (layer T) -> Prop) (good bad : point U L -> Prop).
Hypothesis HB : 1 <= bs.
Hypothesis HB2 : bs < two31.
Hypothesis HW : bs <= wc.
Hypothesis GP : forall p, In p (s_source e) -> good p \/ bad p.
Hypothesis bad_ub : forall b p ls, bad p -> wstep E cast eqL labels b p WStart ls = OUB.
Hypothesis point_used : forall b p ls, used b ls -> 0 <= b < bs -> good p ->
  exists ls' r, rest E cast eqL labels b p (idx p) WStart ls = ORet ls' r /\ used (b + 1) ls'.

Definition left_of (b : Z) : list (point U L) := skipn (Z.to_nat b) (s_source e).
(** The data points before number [b] are not bad. *)
Definition clean (b : Z) : Prop := forall i p, 0 <= i < b -> nth_error (s_source e) (Z.to_nat i) = Some p -> good p.
Definition point_at (b : Z) (p : point U L) : Prop := nth_error (s_source e) (Z.to_nat b) = Some p.
Definition state_ok (c : pc) (g : shared) : Prop :=
  match c with
  | PLoop b => 0 <= b <= bs /\ used b (g_layers g) /\ g_source g = left_of b /\ clean b
  | PLock b | PHas b => 0 <= b < bs /\ used b (g_layers g) /\ g_source g = left_of b /\ clean b
  | PNext b => 0 <= b < bs /\ used b (g_layers g) /\ g_source g = left_of b /\ g_source g <> [] /\ clean b
  | PFree b p => 0 <= b < bs /\ used b (g_layers g) /\ g_source g = left_of (b + 1) /\ point_at b p /\ clean b
  | PWork b p w => 0 <= b < bs /\ (exists ls1, used b ls1 /\ priv E cast eqL labels b p (idx p) ls1 (g_layers g) w) /\ g_source g = left_of (b + 1) /\
      kept b w (g_results g) /\ point_at b p /\ clean b
  | PCount b => 0 <= b < bs /\ used (b + 1) (g_layers g) /\ g_source g = left_of (b + 1) /\ (exists r, nth_error (g_results g) (Z.to_nat b) = Some (Some r)) /\ clean (b + 1)
  | PDone b => 0 <= b <= bs /\ used b (g_layers g) /\ g_source g = left_of b /\ (b = bs \/ g_source g = []) /\ clean b
  end.
Definition invS (g : shared) : Prop := exists c, g_pcs g = [c] /\ Z.of_nat (length (g_results g)) = bs /\ state_ok c g.

Lemma left_next : forall b p s, 0 <= b -> left_of b = p :: s -> s = left_of (b + 1) /\ point_at b p.
Proof.
  intros b p s Hb H. unfold left_of, point_at in *. rewrite Z2Nat.inj_add by lia. rewrite Nat.add_1_r.
  assert (K : forall n (l : list (point U L)), skipn n l = p :: s -> s = skipn (S n) l /\ nth_error l n = Some p).
  { induction n as [|n IH]; intros l Q; destruct l as [|a l]; try discriminate.
    - cbn in Q. injection Q as -> ->. cbn. auto.
    - cbn [skipn] in Q. cbn [nth_error]. apply IH. exact Q. }
  apply K. exact H.
Qed.
Lemma clean_next : forall b p, 0 <= b -> clean b -> point_at b p -> good p -> clean (b + 1).
Proof.
  intros b p Hb H K G i q Hi Q. destruct (Z.eq_dec i b) as [->|]; [|apply (H i q); [lia|exact Q]]. unfold point_at in K. rewrite K in Q. injection Q as <-. exact G.
Qed.
Lemma bad_priv : forall b p k ls1 ls w, bad p -> priv E cast eqL labels b p k ls1 ls w -> w = WStart.
Proof.
  intros b p k ls1 ls w B H. induction H as [|ls w ls' w' H IH ST]; [reflexivity|]. rewrite IH in ST. cbn [pstep] in ST. rewrite (bad_ub b p ls B) in ST. discriminate ST.
Qed.

Lemma cut_one : cutoff wc bs 0 = bs.
Proof. unfold cutoff. lia. Qed.

Lemma wstep_priv : forall b p w ls1 ls, priv E cast eqL labels b p (idx p) ls1 ls w -> (forall r, w <> WEnd r) ->
  wstep E cast eqL labels b p w ls = pstep E cast eqL labels b p (idx p) w ls.
Proof.
  intros b p w ls1 ls H NE. destruct w as [|i x recs|r|r|n g r|r]; try reflexivity.
  cbn [wstep pstep]. rewrite (priv_hand E cast eqL labels b p (idx p) ls1 ls (WHand r) r H (or_introl eq_refl)). reflexivity.
Qed.

Lemma invS_next : forall t g g', invS g -> gst wc bs t g = GNext g' -> invS g'.
Proof.
  intros t g g' (c & HP & HL & HS) H. unfold gstep in H. rewrite HP in H.
  destruct t as [|t]; [|destruct t; discriminate]. cbn [nth_error] in H.
  destruct c as [b|b|b|b|b p|b p w|b|b]; cbn [state_ok] in HS.
  - destruct HS as (Hb & HU & SR & CL). injection H as <-. rewrite cut_one. rewrite u64_cmp by lia.
    unfold invS. cbn [set_pc g_pcs g_results g_layers g_source]. rewrite ?HP. cbn [upd].
    destruct (Z.ltb_spec b bs); eexists; (split; [reflexivity|]); (split; [exact HL|]); cbn [state_ok g_layers g_source set_pc].
    + split; [lia|]. auto.
    + split; [lia|]. split; [exact HU|]. split; [exact SR|]. split; [left; lia|exact CL].
  - destruct (g_lock g); [discriminate|]. injection H as <-. unfold invS. cbn [with_lock set_pc g_pcs g_results g_layers g_source]. rewrite ?HP. cbn [upd].
    eexists. split; [reflexivity|]. split; [exact HL|]. exact HS.
  - destruct HS as (Hb & HU & SR & CL). destruct (g_source g) as [|p s] eqn:QS; injection H as <-; unfold invS; cbn [with_lock set_pc g_pcs g_results g_layers g_source]; rewrite ?HP; cbn [upd];
      (eexists; split; [reflexivity|]; split; [exact HL|]); cbn [state_ok g_layers g_source with_lock set_pc]; rewrite QS.
    + split; [lia|]. auto.
    + split; [lia|]. split; [exact HU|]. split; [exact SR|]. split; [discriminate|exact CL].
  - destruct HS as (Hb & HU & SR & NE & CL). destruct (g_source g) as [|p s] eqn:QS; [discriminate|]. injection H as <-.
    symmetry in SR. destruct (left_next b p s (proj1 Hb) SR) as (S1 & S2).
    unfold invS. cbn [set_pc g_pcs g_results g_layers g_source]. rewrite ?HP. cbn [upd]. eexists. split; [reflexivity|]. split; [exact HL|]. cbn [state_ok g_layers g_source set_pc].
    split; [exact Hb|]. split; [exact HU|]. split; [exact S1|]. split; [exact S2|exact CL].
  - destruct HS as (Hb & HU & SR & PA & CL). injection H as <-.
    unfold invS. cbn [with_lock set_pc g_pcs g_results g_layers g_source]. rewrite ?HP. cbn [upd]. eexists. split; [reflexivity|]. split; [exact HL|]. cbn [state_ok g_layers g_source with_lock set_pc].
    split; [exact Hb|]. split; [exists (g_layers g); split; [exact HU|apply priv_start]|]. split; [exact SR|]. split; [|split; [exact PA|exact CL]]. intros r HS. discriminate.
  - destruct HS as (Hb & (ls1 & HU & PV) & SR & KP & PA & CL).
    assert (CS : (exists r, w = WEnd r) \/ forall r, w <> WEnd r) by (destruct w; try (right; intros; discriminate); left; eauto).
    destruct CS as [[r ->]|NE].
    + injection H as <-. unfold invS. cbn [set_pc g_pcs g_results g_layers g_source]. rewrite ?HP. cbn [upd]. eexists. split; [reflexivity|]. split; [exact HL|]. cbn [state_ok g_layers g_source g_results set_pc].
      assert (G : good p). { destruct (GP p) as [G|B]; [eapply nth_error_In; exact PA|exact G|]. pose proof (bad_priv _ _ _ _ _ _ B PV) as Q. discriminate Q. }
      split; [exact Hb|]. destruct (point_used b p ls1 HU Hb G) as (ls' & r' & Q & HU'). apply priv_rest in PV. rewrite Q in PV. cbn [rest] in PV. injection PV as -> ->.
      split; [exact HU'|]. split; [exact SR|]. split; [|apply (clean_next b p (proj1 Hb) CL PA G)]. exists r. apply KP. reflexivity.
    + assert (H' : match wstep E cast eqL labels b p w (g_layers g) with
          | ORet ls w' => match keep_result b w' (g_results g) with
              | Ok rs => GNext (set_pc 0 (PWork b p w') (Shared ls (g_source g) (g_lock g) rs (g_success g) [PWork b p w]))
              | Throw x => GStop x | UB => GUB end
          | OThrow _ x => GStop x | OUB => GUB end = GNext g') by (destruct w; try exact H; exfalso; eapply NE; reflexivity).
      destruct (wstep E cast eqL labels b p w (g_layers g)) as [ls w'| |] eqn:QW; try discriminate.
      destruct (keep_result b w' (g_results g)) as [rs| |] eqn:QK; try discriminate. injection H' as <-.
      unfold invS. cbn [set_pc g_pcs g_results g_layers g_source]. rewrite ?HP. cbn [upd]. eexists. split; [reflexivity|].
      split; [rewrite (keep_length _ _ _ _ QK); exact HL|]. cbn [state_ok g_layers g_source g_results set_pc].
      split; [exact Hb|]. split; [exists ls1; split; [exact HU|]|].
      { eapply priv_step; [exact PV|]. rewrite <- (wstep_priv b p w ls1 _ PV NE). exact QW. }
      split; [exact SR|]. split; [|split; [exact PA|exact CL]]. eapply (keep_same E cast eqL labels []); [|exact QW|exact KP|exact QK]. lia.
  - destruct HS as (Hb & HU & SR & (r & RV) & CL). destruct (vget (g_results g) b) as [[r'|]| |] eqn:QV; try discriminate. injection H as <-.
    unfold invS. cbn [set_pc g_pcs g_results g_layers g_source]. rewrite ?HP. cbn [upd]. eexists. split; [reflexivity|]. split; [exact HL|]. cbn [state_ok g_layers g_source set_pc].
    split; [lia|]. auto.
  - discriminate.
Qed.

(** No exception is raised, and only bad data points are undefined. *)
Lemma invS_safe : forall t g, invS g -> (forall x, gst wc bs t g <> GStop x) /\ (gst wc bs t g = GUB -> exists b p, 0 <= b < bs /\ point_at b p /\ bad p).
Proof.
  intros t g (c & HP & HL & HS). unfold gstep. rewrite HP. destruct t as [|t]; [|destruct t; split; discriminate]. cbn [nth_error].
  destruct c as [b|b|b|b|b p|b p w|b|b]; cbn [state_ok] in HS; try (split; discriminate).
  - destruct (g_lock g); split; discriminate.
  - destruct (g_source g); split; discriminate.
  - destruct HS as (_ & _ & _ & NE & _). destruct (g_source g); [congruence|split; discriminate].
  - destruct HS as (Hb & (ls1 & HU & PV) & SR & KP & PA & CL).
    assert (CS : (exists r, w = WEnd r) \/ forall r, w <> WEnd r) by (destruct w; try (right; intros; discriminate); left; eauto).
    destruct CS as [[r ->]|NE]; [split; discriminate|].
    destruct (GP p) as [G|B]; [eapply nth_error_In; exact PA| |].
    2:{ pose proof (bad_priv _ _ _ _ _ _ B PV) as ->. rewrite (bad_ub b p _ B). split; [discriminate|]. intros _. eauto. }
    destruct (point_used b p ls1 HU Hb G) as (ls' & r' & Q & _).
    destruct (priv_progress E cast eqL labels b p (idx p) ls1 (g_layers g) w ls' r' Q PV) as (ls2 & w2 & Q2).
    rewrite <- (wstep_priv b p w ls1 _ PV NE) in Q2.
    assert (KR : exists rs, keep_result b w2 (g_results g) = Ok rs).
    { unfold keep_result, vset. destruct ((0 <=? b) && (b <? Z.of_nat (length (g_results g)))) eqn:QB; [destruct w2; eauto|]. apply andb_false_iff in QB. lia. }
    destruct KR as [rs KR].
    destruct w; try (rewrite Q2, KR; split; discriminate). split; discriminate.
  - destruct HS as (Hb & _ & _ & (r & RV) & _). unfold vget. destruct ((0 <=? b) && (b <? Z.of_nat (length (g_results g)))) eqn:QB; [rewrite RV; split; discriminate|].
    apply andb_false_iff in QB. lia.
Qed.

Lemma spawn_one : forall pcs : list pc, spawn 1 0 wc = Ok pcs -> pcs = [PLoop 0].
Proof.
  intros pcs H. cbn [spawn] in H. change (Z.of_nat 0 * wc) with 0 in H. change (i32 0) with (Ok 0) in H. cbn [rbind] in H.
  destruct (i32 _); try discriminate. cbn [rbind] in H. injection H as <-. reflexivity.
Qed.
Lemma invS_exec : forall pcs g, spawn 1 0 wc = Ok pcs -> Z.of_nat (length (s_results e)) = bs -> used 0 (s_layers e) ->
  exec E cast eqL labels P wc bs (start e pcs) g -> invS g.
Proof.
  intros pcs g SP RL HU X.
  assert (I0 : invS (start e pcs)).
  { apply spawn_one in SP. subst pcs. exists (PLoop 0). split; [reflexivity|]. split; [exact RL|]. cbn. split; [lia|]. split; [exact HU|]. split; [reflexivity|]. intros i p Hi. lia. }
  remember (start e pcs) as g0 eqn:E0. clear E0. induction X as [g|g t g1 g2 X IH ST HPt]; [exact I0|]. eapply invS_next; [apply IH; exact I0|exact ST].
Qed.
End One.

(** The state of the layers once a batch has been trained *)
Definition warm (ls : list (layer T)) (ss : list shape) (d : dim3) (bs : Z) : Prop := all_filled ls ss d bs /\ List.Forall ready ls.

(** One batch; [bad] data points are undefined, all others have the right sizes. *)
Theorem batch_mixed : forall P wc bs ss d (bad : point U L -> Prop) (e : estate) lr o, 1 <= bs < two31 -> bs <= wc < two31 -> h_ready ss d nl ->
  Z.of_nat (length (s_results e)) = bs -> set_up labels (s_layers e) ss d bs -> (forall p, In p (s_source e) -> pt_ok eqL labels d p \/ bad p) ->
  (forall b p ls, bad p -> wstep E cast eqL labels b p WStart ls = OUB) ->
  warm (s_layers e) ss d bs \/ bs <= Z.of_nat (length (s_source e)) \/ (exists p, In p (s_source e) /\ bad p /\ ~ pt_ok eqL labels d p) ->
  batch E cast eqL labels P wc bs 1 lr e o ->
  (exists e', o = ORet e' tt /\ set_up labels (s_layers e') ss d bs /\ warm (s_layers e') ss d bs /\
    Z.of_nat (length (s_results e')) = bs /\ s_source e' = skipn (Z.to_nat bs) (s_source e) /\
    forall i p, (i < Z.to_nat bs)%nat -> nth_error (s_source e) i = Some p -> pt_ok eqL labels d p) \/
  (o = OUB /\ exists p, In p (s_source e) /\ bad p).
Proof.
  intros P wc bs ss d bad e lr o HB HW HR RL SU GP BU FL H. set (F0 := warm (s_layers e) ss d bs).
  assert (HU : used bs ss d F0 0 (s_layers e)).
  { destruct SU as (body & sm & EL & HF & HC & NS & SO). exists body, sm. rewrite EL. split; [reflexivity|]. split; [exact HF|]. split; [exact HC|]. split; [exact NS|]. split; [exact SO|].
    split; [intros i Hi [[(b2 & sm2 & EL2 & Q) _]|C]; [|lia]|intros [[_ Q]|C]; [|lia]].
    - rewrite EL in EL2. apply app_inj_tail in EL2. destruct EL2 as [<- _]. apply Q. exact Hi.
    - rewrite EL in Q. apply Forall_app in Q. apply Q. }
  assert (IN : forall pcs g, spawn 1 0 wc = Ok pcs -> exec E cast eqL labels P wc bs (start e pcs) g -> invS bs e (used bs ss d F0) (pt_ok eqL labels d) g).
  { intros pcs g SP X. eapply invS_exec with (P := P) (wc := wc) (bad := bad); try eassumption; [lia..|]. apply point_used. exact HR. }
  inversion H as [pcs g SP X F Q|pcs g t x SP X Q|pcs g t SP X Q|Q]; clear H.
  - left. destruct (IN pcs g SP X) as (c & HP & HL & HS). destruct (F c) as [b ->]; [rewrite HP; left; reflexivity|]. cbn [state_ok] in HS.
    destruct HS as (Hb & (body & sm & EG & HF & HC & NS & SO & FI & RD) & SR & EX & CL).
    assert (LEFT : b = bs \/ (length (s_source e) <= Z.to_nat b)%nat).
    { destruct EX as [EX|EX]; [left; exact EX|right]. rewrite EX in SR. unfold left_of in SR.
      assert (LN : length (skipn (Z.to_nat b) (s_source e)) = O) by (rewrite <- SR; reflexivity). rewrite skipn_length in LN. lia. }
    assert (CLN : forall i p, (i < Z.to_nat bs)%nat -> nth_error (s_source e) i = Some p -> pt_ok eqL labels d p).
    { intros i p Hi Q0. apply (CL (Z.of_nat i)); [|rewrite Nat2Z.id; exact Q0]. assert (i < length (s_source e))%nat by (apply nth_error_Some; congruence). lia. }
    assert (CO : F0 \/ b = bs).
    { destruct FL as [FL|[FL|(p & I & B & NP)]]; [left; exact FL|right; lia|right]. destruct LEFT as [LEFT|LEFT]; [exact LEFT|exfalso]. apply NP.
      apply In_nth_error in I. destruct I as [i I]. apply (CL (Z.of_nat i)); [|rewrite Nat2Z.id; exact I]. assert (i < length (s_source e))%nat by (apply nth_error_Some; congruence). lia. }
    assert (AF : forall i, 0 <= i < bs -> net_filled body ss d i). { intros i Hi. apply FI; [exact Hi|]. destruct CO; [auto|right; lia]. }
    assert (RD' : List.Forall ready body). { apply RD. destruct CO; [auto|right; lia]. }
    destruct (apply_shapes lr bs body ss d (proj1 HB) HF RD' (proj1 HR) NS AF) as (ls' & EA & L1 & L2 & (L3 & L4 & L5)).
    rewrite EG. assert (EB : apply_all lr (body ++ [LSoft sm]) = ORet (ls' ++ [LSoft sm]) tt) by (unfold apply_all in *; apply each_app; [exact EA|reflexivity]).
    rewrite EB. cbn [map_out]. eexists. split; [reflexivity|]. cbn [with_layers est_of s_layers s_source s_results].
    split; [|split; [split|split; [|split]]].
    + exists ls', sm. split; [reflexivity|]. split; [exact L1|]. split; [exact HC|]. split; [apply L4; exact NS|]. intros i Hi. apply L3. apply SO. exact Hi.
    + exists ls', sm. split; [reflexivity|]. intros i Hi. apply L5. apply AF. exact Hi.
    + apply Forall_app. split; [exact L2|]. constructor; [exact Logic.I|constructor].
    + exact HL.
    + rewrite SR. unfold left_of. destruct LEFT as [->|LEFT]; [reflexivity|]. rewrite !skipn_all2 by lia. reflexivity.
    + exact CLN.
  - exfalso. apply (proj1 (invS_safe wc bs e _ _ bad GP BU (point_used bs ss d F0 HR) t g (IN pcs g SP X)) x). exact Q.
  - right. split; [reflexivity|]. destruct (proj2 (invS_safe wc bs e _ _ bad GP BU (point_used bs ss d F0 HR) t g (IN pcs g SP X)) Q) as (b & p & _ & PA & B).
    exists p. split; [eapply nth_error_In; exact PA|exact B].
  - exfalso. cbn [spawn] in Q. change (Z.of_nat 0 * wc) with 0 in Q. change (i32 0) with (Ok 0) in Q. cbn [rbind] in Q.
    replace ((Z.of_nat 0 + 1) * wc) with wc in Q by lia. unfold i32 in Q.
    destruct ((- two31 <=? wc) && (wc <? two31)) eqn:QB; [discriminate|]. apply andb_false_iff in QB. unfold two31 in *. lia.
Qed.

Theorem batch_one : forall P wc bs ss d (e : estate) lr o, 1 <= bs < two31 -> bs <= wc < two31 -> h_ready ss d nl ->
  Z.of_nat (length (s_results e)) = bs -> set_up labels (s_layers e) ss d bs -> (forall p, In p (s_source e) -> pt_ok eqL labels d p) ->
  warm (s_layers e) ss d bs \/ bs <= Z.of_nat (length (s_source e)) ->
  batch E cast eqL labels P wc bs 1 lr e o ->
  exists e', o = ORet e' tt /\ set_up labels (s_layers e') ss d bs /\ warm (s_layers e') ss d bs /\
    Z.of_nat (length (s_results e')) = bs /\ s_source e' = skipn (Z.to_nat bs) (s_source e).
Proof.
  intros P wc bs ss d e lr o HB HW HR RL SU GP FL H.
  destruct (batch_mixed P wc bs ss d (fun _ => False) e lr o HB HW HR RL SU (fun p I => or_introl (GP p I)) ltac:(intros; contradiction) ltac:(tauto) H)
    as [(e' & A & B & C & D & F & _)|(_ & p & _ & [])]. exists e'. auto.
Qed.

Theorem batches_one : forall P wc bs ss d lr, 1 <= bs < two31 -> bs <= wc < two31 -> h_ready ss d nl ->
  forall n (e : estate) o, Z.of_nat (length (s_results e)) = bs -> set_up labels (s_layers e) ss d bs -> (forall p, In p (s_source e) -> pt_ok eqL labels d p) ->
  n = O \/ warm (s_layers e) ss d bs \/ bs <= Z.of_nat (length (s_source e)) ->
  batches E cast eqL labels P wc bs 1 lr n e o ->
  exists e', o = ORet e' tt /\ set_up labels (s_layers e') ss d bs /\ (n = O /\ e' = e \/ warm (s_layers e') ss d bs) /\ Z.of_nat (length (s_results e')) = bs.
Proof.
  intros P wc bs ss d lr HB HW HR. induction n as [|n IH]; intros e o RL SU GP FL H.
  - revert RL. inversion H; subst. intros RL. eexists. split; [reflexivity|]. auto 8.
  - assert (FL' : warm (s_layers e) ss d bs \/ bs <= Z.of_nat (length (s_source e))) by (destruct FL as [FL|FL]; [discriminate|exact FL]).
    inversion H as [|n' e1 e' o' B1 B2 Q1 Q2 Q3|n' e1 o' B1 B2 Q1 Q2 Q3].
    + destruct (batch_one P wc bs ss d e lr _ HB HW HR RL SU GP FL' B1) as (e2 & Q & S1 & S2 & S3 & S4). injection Q as <-.
      destruct (IH e' o S3 S1) as (e3 & Q4 & U1 & U2 & U3); auto.
      { intros p HP. apply GP. rewrite S4 in HP. rewrite <- (firstn_skipn (Z.to_nat bs)). apply in_or_app. auto. }
      exists e3. split; [exact Q4|]. split; [exact U1|]. split; [|exact U3]. right. destruct U2 as [[_ ->]|U2]; assumption.
    + exfalso. destruct (batch_one P wc bs ss d e lr _ HB HW HR RL SU GP FL' B1) as (e2 & Q & _). eapply B2. rewrite Q. reflexivity.
Qed.

Theorem epoch_one : forall P h d size ss ls src o, h_nt h = 1 -> 1 <= h_bs h < 2 ^ 24 -> size = Z.of_nat (length src) -> size < 2 ^ 24 ->
  h_ready ss d nl -> set_up labels ls ss d (h_bs h) -> (forall p, In p src -> pt_ok eqL labels d p) ->
  size = 0 \/ warm ls ss d (h_bs h) \/ h_bs h <= size ->
  epoch E cast eqL labels P h size ls src o ->
  exists e, o = ORet e tt /\ set_up labels (s_layers e) ss d (h_bs h) /\ (size = 0 \/ warm (s_layers e) ss d (h_bs h)).
Proof.
  intros P h d size ss ls src o Hn Hb HS HS2 HRd SU GP FL H.
  assert (P24 : 2 ^ 24 = 16777216) by reflexivity. rewrite P24 in *.
  destruct (ceil_facts size (h_bs h)) as [D1 D2]; [lia|lia|].
  assert (E1 : ceil_div (h_bs h) (h_nt h) = Ok (h_bs h)). { rewrite ceil_div_exact by (rewrite ?P24; lia). rewrite Hn. f_equal. rewrite Z.div_1_r. lia. }
  assert (E2 : ceil_div size (h_bs h) = Ok ((size + h_bs h - 1) / h_bs h)) by (apply ceil_div_exact; rewrite ?P24; lia).
  inversion H as [wc' nb o' N0 B0 W1 W2 BT EQ|X EQ|wc' N0 X1 X EQ|N0 [X|[_ X]] EQ]; subst o; try congruence; [|lia|lia].
  rewrite E1 in W1. injection W1 as <-. rewrite E2 in W2. injection W2 as <-. rewrite Hn in BT.
  set (nb := (size + h_bs h - 1) / h_bs h) in *.
  destruct (batches_one P (h_bs h) (h_bs h) ss d (h_lr h) ltac:(unfold two31; lia) ltac:(unfold two31; lia) HRd (Z.to_nat nb)
    (Est ls src (repeat None (Z.to_nat (h_bs h))) 0) o') as (e' & Q & S1 & S3 & _); auto.
  - cbn [s_results]. rewrite repeat_length. lia.
  - cbn [s_layers s_source]. destruct FL as [FL|[FL|FL]]; [left|right; left; exact FL|right; right; lia].
    assert (nb = 0) by (unfold nb; rewrite FL; apply Z.div_small; lia). lia.
  - exists e'. split; [exact Q|]. split; [exact S1|]. destruct S3 as [[Z0 _]|S3]; [left|right; exact S3].
    assert (nb = 0) by lia. nia.
Qed.
Theorem epochs_one : forall P h d size ss src, h_nt h = 1 -> 1 <= h_bs h < 2 ^ 24 -> size = Z.of_nat (length src) -> size < 2 ^ 24 ->
  h_ready ss d nl -> (forall p, In p src -> pt_ok eqL labels d p) ->
  forall n ls o, set_up labels ls ss d (h_bs h) -> size = 0 \/ warm ls ss d (h_bs h) \/ h_bs h <= size ->
  epochs E cast eqL labels P h size src n ls src o ->
  exists ls', o = ORet ls' tt /\ set_up labels ls' ss d (h_bs h) /\ (n = O \/ size = 0 \/ List.Forall ready ls').
Proof.
  intros P h d size ss src Hn Hb HS HS2 HRd GP. induction n as [|n IH]; intros ls o SU FL H.
  - inversion H; subst. eauto 6.
  - inversion H as [|? ? ? e ? B1 B2|? ? ? e x B1|? ? ? B1]; subst o;
      destruct (epoch_one P h d size ss ls src _ Hn Hb HS HS2 HRd SU GP FL B1) as (e1 & Q & S1 & S3); try discriminate.
    injection Q as <-. destruct (IH (s_layers e) o0 S1 ltac:(tauto) B2) as (ls' & Q & T1 & T2). exists ls'. split; [exact Q|]. split; [exact T1|]. right.
    destruct T2 as [->|T2]; [|exact T2]. assert (EQ : ls' = s_layers e) by (inversion B2; congruence). rewrite EQ. destruct S3 as [S3|S3]; [auto|right; apply S3].
Qed.
Theorem epochs_one_total : forall h d size ss src, h_nt h = 1 -> 1 <= h_bs h < 2 ^ 24 -> size = Z.of_nat (length src) -> size < 2 ^ 24 ->
  h_ready ss d nl -> (forall p, In p src -> pt_ok eqL labels d p) ->
  forall n ls, set_up labels ls ss d (h_bs h) -> size = 0 \/ warm ls ss d (h_bs h) \/ h_bs h <= size ->
  exists o, epochs E cast eqL labels (fun _ => True) h size src n ls src o.
Proof.
  intros h d size ss src Hn Hb HS HS2 HRd GP. induction n as [|n IH]; intros ls SU FL; [eexists; constructor|].
  destruct (epoch_total E cast eqL labels h size ls src ltac:(lia) Hb ltac:(lia)) as [o H].
  destruct (epoch_one _ h d size ss ls src _ Hn Hb HS HS2 HRd SU GP FL H) as (e1 & -> & S1 & S3).
  destruct (IH (s_layers e1) S1 ltac:(tauto)) as [o' H']. exists o'. eapply epochs_cons; eassumption.
Qed.

(** Training with one thread *)
Theorem train_one : forall P h d size ss body sm src o, h_nt h = 1 -> 1 <= h_bs h < 2 ^ 24 -> size = Z.of_nat (length src) -> size < 2 ^ 24 ->
  h_ready ss d nl -> net_fit body ss d -> List.Forall idx_ok body -> sm_count sm = nl ->
  (forall p, In p src -> pt_ok eqL labels d p) -> size = 0 \/ h_bs h <= size ->
  train E cast eqL labels P h size src (body ++ [LSoft sm]) src o ->
  exists ls', o = ORet ls' tt /\ set_up labels ls' ss d (h_bs h) /\ (h_epochs h <= 0 \/ size = 0 \/ List.Forall ready ls').
Proof.
  intros P h d size ss body sm src o Hn Hb HS HS2 HRd HF HI HC GP FL H.
  destruct (set_batch_shapes (h_bs h) body ss d ltac:(lia) HF HI) as (body' & EB & N1 & N2 & N3 & N4).
  assert (EA : set_batch_all (h_bs h) (body ++ [LSoft sm]) = ORet (body' ++ [LSoft sm]) tt) by (unfold set_batch_all in *; apply each_app; [exact EB|reflexivity]).
  inversion H as [ls1 s1 o1 Q H1|ls1 s1 x Q|s1 Q]; subst s1; rewrite EA in Q; try discriminate. injection Q as <-.
  destruct (epochs_one P h d size ss src Hn Hb HS HS2 HRd GP (Z.to_nat (h_epochs h)) (body' ++ [LSoft sm]) o) as (ls' & Q & T1 & T2); [|tauto|exact H1|].
  - exists body', sm. auto 8.
  - exists ls'. split; [exact Q|]. split; [exact T1|]. destruct T2 as [T2|T2]; [left; lia|auto].
Qed.
Theorem train_one_runs : forall h d size ss body sm src, h_nt h = 1 -> 1 <= h_bs h < 2 ^ 24 -> size = Z.of_nat (length src) -> size < 2 ^ 24 ->
  h_ready ss d nl -> net_fit body ss d -> List.Forall idx_ok body -> sm_count sm = nl ->
  (forall p, In p src -> pt_ok eqL labels d p) -> size = 0 \/ h_bs h <= size ->
  exists o, train E cast eqL labels (fun _ => True) h size src (body ++ [LSoft sm]) src o.
Proof.
  intros h d size ss body sm src Hn Hb HS HS2 HRd HF HI HC GP FL.
  destruct (set_batch_shapes (h_bs h) body ss d ltac:(lia) HF HI) as (body' & EB & N1 & N2 & N3 & N4).
  assert (EA : set_batch_all (h_bs h) (body ++ [LSoft sm]) = ORet (body' ++ [LSoft sm]) tt) by (unfold set_batch_all in *; apply each_app; [exact EB|reflexivity]).
  destruct (epochs_one_total h d size ss src Hn Hb HS HS2 HRd GP (Z.to_nat (h_epochs h)) (body' ++ [LSoft sm])) as [o H].
  - exists body', sm. auto 8.
  - tauto.
  - exists o. eapply train_run; eassumption.
Qed.
End OneThread.
