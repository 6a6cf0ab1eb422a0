(** The count of successes, for all interleavings and all states of the layers. *)
From Coq Require Import ZArith List Bool Lia.
From Verif Require Import Base Dim Matrix View Num Expr Spec Iter MatFacts Batch Kernel Connected Float32 Pooling Activation Softmax LayerFacts Chars Model Net
  Train TrainLocal TrainRest TrainInv TrainData TrainEnd TrainThms.
Import ListNotations.
Local Open Scope Z_scope.

Section Count.
Context {T : Type} {N : Num T} (E : env T).
Context {U L : Type} (cast : U -> T) (eqL : L -> L -> bool) (labels : list L).
Local Notation shared := (shared (T := T) (U := U) (L := L)).
Local Notation pc := (pc (T := T) (U := U) (L := L)).
Local Notation work := (work (T := T)).
Local Notation idx := (label_idx eqL labels).
Local Notation estate := (estate (T := T) (U := U) (L := L)).
Local Notation entry := (entry (U := U) (L := L)).
Local Notation wst := (wstep E cast eqL labels).

(** The true label of a result is that of the data point. *)
Definition wres (w : work) : option (results T) := match w with WHand r | WBwd _ _ r | WEnd r => Some r | _ => None end.
Definition marked (p : point U L) (w : work) : Prop := forall r, wres w = Some r -> r_true r = idx p.

Lemma marked_step : forall b p w ls ls' w', wst b p w ls = ORet ls' w' -> marked p w -> marked p w'.
Proof.
  intros b p w ls ls' w' ST HM r HS. destruct w as [|i x recs|r1|r1|[|m] g1 r1|r1]; cbn [wstep] in ST.
  - repeat (apply bind_inv in ST; destruct ST as (? & ? & ? & ST)). injection ST as _ <-. discriminate.
  - destruct (nth_error ls i); repeat (apply bind_inv in ST; destruct ST as (? & ? & ? & ST)); injection ST as _ <-; discriminate.
  - apply bind_inv in ST; destruct ST as (? & r' & QL & ST). apply lift_inv in QL. destruct QL as [_ QL]. injection ST as _ <-. cbn in HS. injection HS as <-.
    eapply assign_true. exact QL.
  - apply bind_inv in ST; destruct ST as (? & ? & _ & ST). cbn in ST. injection ST as _ <-. cbn in HS. injection HS as <-. apply HM. reflexivity.
  - injection ST as _ <-. cbn in HS. injection HS as <-. apply HM. reflexivity.
  - repeat (apply bind_inv in ST; destruct ST as (? & ? & ? & ST)). injection ST as _ <-. cbn in HS. injection HS as <-. apply HM. reflexivity.
  - injection ST as _ <-. exact (HM r HS).
Qed.

Definition entc (b : Z) (p : point U L) (c : pc) (rs : list (option (results T))) : Prop :=
  match phase c b with
  | Some (p', w) => p' = p /\ marked p w /\ kept b w rs
  | None => exists r, nth_error rs (Z.to_nat b) = Some (Some r) /\ r_true r = idx p
  end.
Record invC (log : list entry) (g : shared) : Prop := {
  c_ent : forall t b p c, In (t, b, p) log -> nth_error (g_pcs g) t = Some c -> entc b p c (g_results g);
  c_own : forall t b p w, nth_error (g_pcs g) t = Some (PWork b p w) -> In (t, b, p) log;
  c_own2 : forall t b p, nth_error (g_pcs g) t = Some (PFree b p) -> In (t, b, p) log }.

Context (wc bs : Z) (nt : nat) (e : estate) (pcs : list pc).
Hypothesis HW : 0 <= wc.
Hypothesis HB : 0 <= bs.
Hypothesis HB2 : bs < two31.
Hypothesis SP : spawn nt 0 wc = Ok pcs.
Hypothesis RL : Z.of_nat (length (s_results e)) = bs.
Local Notation src0 := (s_source e).
Local Notation tex P := (texec E cast eqL labels P wc bs (start e pcs)).

Lemma invC_move : forall log g g' t c c', invC log g -> nth_error (g_pcs g) t = Some c -> g_pcs g' = upd (g_pcs g) t c' -> g_results g' = g_results g ->
  (forall b p, In (t, b, p) log -> entc b p c (g_results g) -> entc b p c' (g_results g)) ->
  (forall b p w, c' = PWork b p w -> In (t, b, p) log) -> (forall b p, c' = PFree b p -> In (t, b, p) log) -> invC log g'.
Proof.
  intros log g g' t c c' D Q HP HR HE HO HF. constructor.
  - intros t' b p c0 HI HN. rewrite HR. rewrite HP, nth_upd in HN. destruct (Nat.eqb t t') eqn:QT.
    + apply Nat.eqb_eq in QT. subst t'. rewrite Q in HN. injection HN as <-. apply HE; [exact HI|]. eapply c_ent; eassumption.
    + eapply c_ent; eassumption.
  - intros t' b p w HN. rewrite HP, nth_upd in HN. destruct (Nat.eqb t t') eqn:QT.
    + apply Nat.eqb_eq in QT. subst t'. rewrite Q in HN. injection HN as ->. apply (HO _ _ _ eq_refl).
    + eapply c_own; eassumption.
  - intros t' b p HN. rewrite HP, nth_upd in HN. destruct (Nat.eqb t t') eqn:QT.
    + apply Nat.eqb_eq in QT. subst t'. rewrite Q in HN. injection HN as ->. apply HF. reflexivity.
    + eapply c_own2; eassumption.
Qed.

Lemma invC_step : forall t g g' log, invA wc bs nt src0 log g -> invC log g -> gs E cast eqL labels wc bs t g g' -> invC (log ++ took t g) g'.
Proof.
  intros t g g' log A D ST.
  assert (TN : forall c, nth_error (g_pcs g) t = Some c -> (forall b, c <> PNext b) -> took t g = []).
  { intros c H DD. unfold took. rewrite H. destruct c; auto. exfalso. eapply DD. reflexivity. }
  destruct ST as [b Q C|b Q C|b Q QL|b Q QS|b p s Q QS|b p s Q QS|b p Q|b p r Q|b p w ls w' rs Q NE QW QK|b r Q QV];
    try (rewrite (TN _ Q) by (intros; discriminate); rewrite app_nil_r).
  - apply invC_move with (1 := D) (2 := Q) (c' := PLock b); auto; try (intros; discriminate).
  - apply invC_move with (1 := D) (2 := Q) (c' := PDone b); auto; try (intros; discriminate).
  - apply invC_move with (1 := D) (2 := Q) (c' := PHas b); auto; try (intros; discriminate).
  - apply invC_move with (1 := D) (2 := Q) (c' := PDone b); auto; try (intros; discriminate).
  - apply invC_move with (1 := D) (2 := Q) (c' := PNext b); auto; try (intros; discriminate).
  - unfold took. rewrite Q, QS.
    destruct (a_rng _ _ _ _ _ _ A t _ Q) as [R1 R2]. cbn in R1, R2. pose proof (lo_nonneg wc HW t).
    assert (NW : forall t' p', ~ In (t', b, p') log).
    { intros t' p' HI. destruct (invA_entry _ _ _ _ _ _ _ _ _ A HI) as [A1 (c & A2 & A3)].
      assert (t' = t) by (eapply (range_thread wc bs HW); [exact A1|lia]). subst t'. rewrite Q in A2. injection A2 as <-. cbn in A3. lia. }
    constructor; cbn [set_pc g_pcs g_layers g_results].
    + intros t' b0 p0 c0 HI HN. rewrite nth_upd in HN. apply in_app_or in HI. destruct (Nat.eqb t t') eqn:QT.
      * apply Nat.eqb_eq in QT. subst t'. rewrite Q in HN. injection HN as <-. destruct HI as [HI|[HI|[]]].
        -- pose proof (c_ent _ _ D _ _ _ _ HI Q) as HE. unfold entc in *. cbn in *. destruct (b =? b0) eqn:QB; [|exact HE].
           apply Z.eqb_eq in QB. subst b0. exfalso. eapply NW. exact HI.
        -- injection HI as <- <-. unfold entc. cbn [phase]. rewrite Z.eqb_refl. split; [reflexivity|]. split; intros r; discriminate.
      * apply Nat.eqb_neq in QT. destruct HI as [HI|[HI|[]]]; [eapply c_ent; eassumption|congruence].
    + intros t' b0 p0 w HN. rewrite nth_upd in HN. destruct (Nat.eqb t t') eqn:QT; [rewrite Q in HN; discriminate|].
      apply in_or_app. left. eapply c_own; eassumption.
    + intros t' b0 p0 HN. rewrite nth_upd in HN. apply in_or_app. destruct (Nat.eqb t t') eqn:QT.
      * apply Nat.eqb_eq in QT. subst t'. rewrite Q in HN. injection HN as -> ->. right. left. reflexivity.
      * left. eapply c_own2; eassumption.
  - pose proof (c_own2 _ _ D _ _ _ Q) as HI.
    apply invC_move with (1 := D) (2 := Q) (c' := PWork b p WStart); auto; try (intros; discriminate).
    intros b0 p0 w0 EQ. injection EQ as <- <- _. exact HI.
  - pose proof (c_own _ _ D _ _ _ _ Q) as HI.
    apply invC_move with (1 := D) (2 := Q) (c' := PCount b); auto; try (intros; discriminate).
    intros b0 p0 HI0 HE. unfold entc in *. cbn [phase] in *. destruct (b =? b0) eqn:QB; [|exact HE]. apply Z.eqb_eq in QB. subst b0.
    destruct HE as (-> & HM & HK). exists r. split; [apply HK; reflexivity|apply HM; reflexivity].
  - pose proof (c_own _ _ D _ _ _ _ Q) as HI.
    pose proof (c_ent _ _ D _ _ _ _ HI Q) as HE. unfold entc in HE. cbn [phase] in HE. rewrite Z.eqb_refl in HE. destruct HE as (_ & HM & HK).
    destruct (a_rng _ _ _ _ _ _ A t _ Q) as [R1 R2]. cbn in R1, R2. pose proof (lo_nonneg wc HW t).
    assert (OT : forall t' b0 p0 c0, In (t', b0, p0) log -> b0 <> b -> entc b0 p0 c0 (g_results g) -> entc b0 p0 c0 rs).
    { intros t' b0 p0 c0 HI0 NB HE0. destruct (invA_entry _ _ _ _ _ _ _ _ _ A HI0) as [R _]. pose proof (lo_nonneg wc HW t').
      assert (K : nth_error rs (Z.to_nat b0) = nth_error (g_results g) (Z.to_nat b0)) by (eapply keep_other with (b := b) (w := w'); [lia|lia|congruence|exact QK]).
      unfold entc, kept in *. rewrite K. exact HE0. }
    constructor; cbn [set_pc g_pcs g_layers g_results].
    + intros t' b0 p0 c0 HI0 HN. rewrite nth_upd in HN. destruct (Nat.eqb t t') eqn:QT.
      * apply Nat.eqb_eq in QT. subst t'. rewrite Q in HN. injection HN as <-. destruct (Z.eq_dec b0 b) as [->|NB].
        -- destruct (invA_unique _ _ _ _ HW _ _ _ _ _ _ _ A HI HI0) as [_ <-]. unfold entc. cbn [phase]. rewrite Z.eqb_refl.
           split; [reflexivity|]. split; [eapply marked_step; eassumption|]. eapply keep_same; try eassumption. lia.
        -- eapply OT; [exact HI0|exact NB|]. pose proof (c_ent _ _ D _ _ _ _ HI0 Q) as HE0. unfold entc in *. cbn [phase] in *.
           destruct (b =? b0) eqn:QB; [lia|exact HE0].
      * apply Nat.eqb_neq in QT. assert (NB : b0 <> b). { intros ->. destruct (invA_unique _ _ _ _ HW _ _ _ _ _ _ _ A HI HI0) as [X _]. contradiction. }
        eapply OT; [exact HI0|exact NB|]. eapply c_ent; eassumption.
    + intros t' b0 p0 w0 HN. rewrite nth_upd in HN. destruct (Nat.eqb t t') eqn:QT; [|eapply c_own; eassumption].
      apply Nat.eqb_eq in QT. subst t'. rewrite Q in HN. injection HN as <- <- _. exact HI.
    + intros t' b0 p0 HN. rewrite nth_upd in HN. destruct (Nat.eqb t t') eqn:QT; [|eapply c_own2; eassumption]. rewrite Q in HN. discriminate.
  - apply invC_move with (1 := D) (2 := Q) (c' := PLoop (b + 1)); auto; try (intros; discriminate).
Qed.

Lemma invC_exec : forall P g log, tex P g log -> invC log g.
Proof.
  intros P g log H. induction H as [|t g g' log H IH ST HP].
  - assert (PCS : forall t c, nth_error pcs t = Some c -> exists b, c = PLoop b).
    { intros t c H. destruct (spawn_nth (T := T) (U := U) (L := L) wc HW _ _ _ SP) as [L1 L2].
      assert (t < nt)%nat by (rewrite <- L1; apply nth_error_Some; congruence). destruct (L2 t H0) as [A B]. rewrite A in H. injection H as <-. eauto. }
    constructor; cbn [start g_pcs].
    + intros t b p c [].
    + intros t b p w H. destruct (PCS _ _ H) as [? ?]. discriminate.
    + intros t b p H. destruct (PCS _ _ H) as [? ?]. discriminate.
  - eapply invC_step; [eapply (batch_invA E cast eqL labels wc bs nt e pcs HW HB HB2 SP RL); exact H|exact IH|apply gstep_gs; exact ST].
Qed.

(** The result object of every data point taken, and the count *)
Theorem batch_count_any : forall P g log, tex P g log -> finished g ->
  exists rs, Forall2 (fun x r => nth_error (g_results g) (Z.to_nat (snd (fst x))) = Some (Some r) /\ r_true r = idx (snd x)) log rs /\
    g_success g = s_success e + Z.of_nat (length (filter (fun x => r_label (snd x) =? idx (fst x)) (combine (map snd log) rs))).
Proof.
  intros P g log H F. pose proof (count_exec E cast eqL labels wc bs nt e pcs HW HB HB2 SP RL _ _ _ H) as HC. pose proof (invC_exec _ _ _ H) as D.
  apply (batch_invA E cast eqL labels wc bs nt e pcs HW HB HB2 SP RL) in H. rewrite HC. clear HC.
  assert (G : forall l, incl l log -> exists rs, Forall2 (fun x r => nth_error (g_results g) (Z.to_nat (snd (fst x))) = Some (Some r) /\ r_true r = idx (snd x)) l rs /\
    sumZ (map (counted g) l) = Z.of_nat (length (filter (fun x => r_label (snd x) =? idx (fst x)) (combine (map snd l) rs)))).
  { induction l as [|[[t b] p] l IH]; intros HL. { exists []. split; [constructor|reflexivity]. }
    destruct IH as (rs & IH1 & IH2). { intros x HX. apply HL. right. exact HX. }
    assert (HI : In (t, b, p) log) by (apply HL; left; reflexivity).
    destruct (invA_entry _ _ _ _ _ _ _ _ _ H HI) as [_ (c & Q & Q2)]. pose proof (c_ent _ _ D _ _ _ _ HI Q) as HE. destruct (F c (nth_error_In _ _ Q)) as [b' ->].
    cbn [entc phase] in HE. destruct HE as (r & C & B). cbn [upto] in Q2. exists (r :: rs). split; [constructor; [cbn; auto|exact IH1]|].
    cbn [map sumZ fold_right]. change (fold_right Z.add 0 (map (counted g) l)) with (sumZ (map (counted g) l)). rewrite IH2. cbn [snd combine filter fst].
    unfold counted at 1. cbn [e_thread e_slot fst snd]. rewrite Q. cbn [cur]. replace (b <? b') with true by (symmetry; apply Z.ltb_lt; exact Q2).
    unfold hit. rewrite C, B. destruct (r_label r =? idx p); cbn [length]; lia. }
  destruct (G log (fun x h => h)) as (rs & G1 & G2). exists rs. rewrite G2. auto.
Qed.
End Count.
