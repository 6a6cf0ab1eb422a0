(** What the layers and the results contain while the worker threads run. *)
From Coq Require Import ZArith List Bool Lia Permutation.
From Verif Require Import Base Dim Matrix View Num Expr Iter MatFacts Batch Kernel Connected Float32 Pooling Activation Softmax
  Chars Model Net ModelThms Train TrainLocal TrainRest TrainInv.
Import ListNotations.
Local Open Scope Z_scope.

Section Label.
Context {T : Type} {N : Num T} (E : env T).
Context {U L : Type} (cast : U -> T) (eqL : L -> L -> bool) (labels : list L).
Local Notation wst := (wstep E cast eqL labels).

(** The output layer knows the label [k] *)
Definition soft_at (cnt : Z) (ls : list (layer T)) (k : Z) : Prop := nth_error ls (pred (length ls)) = Some (LSoft (Soft true k cnt)).

Lemma soft_at_app : forall cnt ls k, soft_at cnt ls k <-> exists body, ls = body ++ [LSoft (Soft true k cnt)].
Proof.
  intros cnt ls k. unfold soft_at. split.
  - intros H. destruct (rev ls) as [|x r] eqn:Q. { apply (f_equal (@rev _)) in Q. rewrite rev_involutive in Q. subst ls. discriminate. }
    assert (EQ : ls = rev r ++ [x]) by (rewrite <- (rev_involutive ls), Q; reflexivity). subst ls. exists (rev r).
    rewrite app_length in H. cbn [length] in H. replace (pred (length (rev r) + 1)) with (length (rev r)) in H by lia.
    rewrite nth_error_app2, Nat.sub_diag in H by lia. injection H as ->. reflexivity.
  - intros [body ->]. rewrite app_length. cbn [length]. replace (pred (length body + 1)) with (length body) by lia.
    rewrite nth_error_app2, Nat.sub_diag by lia. reflexivity.
Qed.

Lemma on_nth_soft : forall {A} i (c : M (layer T) A) ls ls' a j s, (forall l' x, c (LSoft s) = ORet l' x -> l' = LSoft s) ->
  on_nth i c ls = ORet ls' a -> nth_error ls j = Some (LSoft s) -> length ls' = length ls /\ nth_error ls' j = Some (LSoft s).
Proof.
  intros A i c ls ls' a j s HC H HN. unfold on_nth in H. destruct (nth_error ls i) as [l|] eqn:Q; [|discriminate].
  destruct (c l) as [l' x| |] eqn:QC; cbn in H; try discriminate. injection H as <- <-. split; [apply upd_length|].
  destruct (Nat.eq_dec i j) as [<-|D]; [|rewrite nth_upd_other by exact D; exact HN].
  rewrite nth_upd_same by (apply nth_error_Some; congruence). rewrite HN in Q. injection Q as <-. f_equal. eapply HC. exact QC.
Qed.
Lemma on_nth_length : forall {A} i (c : M (layer T) A) ls ls' a, on_nth i c ls = ORet ls' a -> length ls' = length ls.
Proof.
  intros A i c ls ls' a H. unfold on_nth in H. destruct (nth_error ls i) as [l|]; [|discriminate].
  destruct (c l); cbn in H; try discriminate. injection H as <- <-. apply upd_length.
Qed.

Ltac lifts ST := repeat (apply bind_inv in ST; let s1 := fresh in let a := fresh in let S1 := fresh in destruct ST as (s1 & a & S1 & ST);
   first [apply lift_inv in S1; destruct S1 as [-> _] | destruct (_ =? _) in S1; [injection S1 as <- <-|discriminate]]).

(** A step touches one layer or none; only handing over the label changes the output layer *)
Lemma wstep_shape : forall b p w ls ls' w', wst b p w ls = ORet ls' w' -> (forall r, w <> WHand r) ->
  length ls' = length ls /\ (forall j s, nth_error ls j = Some (LSoft s) -> nth_error ls' j = Some (LSoft s)).
Proof.
  intros b p w ls ls' w' ST NH. destruct w as [|i x recs|r|r|[|n] g r|r]; cbn [wstep] in ST.
  - lifts ST. injection ST as <- _. auto.
  - destruct (nth_error ls i) as [l|] eqn:Q.
    + apply bind_inv in ST. destruct ST as (s1 & a & ST1 & ST). lifts ST. injection ST as <- _.
      split; [eapply on_nth_length; exact ST1|]. intros j s HJ. eapply on_nth_soft; [|exact ST1|exact HJ].
      intros l' y HL. cbn in HL. destruct (sm_forward _ _ _); cbn in HL; try discriminate. injection HL as <- _. reflexivity.
    + lifts ST. injection ST as <- _. auto.
  - lifts ST. injection ST as <- _. auto.
  - exfalso. eapply NH. reflexivity.
  - injection ST as <- _. auto.
  - do 4 (apply bind_inv in ST; let s1 := fresh in let a := fresh in let S1 := fresh in destruct ST as (s1 & a & S1 & ST); apply lift_inv in S1; destruct S1 as [-> _]).
    apply bind_inv in ST. destruct ST as (s1 & a & ST1 & ST). injection ST as <- _.
    split; [eapply on_nth_length; exact ST1|]. intros j s HJ. eapply on_nth_soft; [|exact ST1|exact HJ].
    intros l' y HL. cbn in HL. destruct (sm_backward _ _); cbn in HL; try discriminate. injection HL as <- _. reflexivity.
  - injection ST as <- _. auto.
Qed.
Lemma wstep_hand : forall b p r ls ls' w', wst b p (WHand r) ls = ORet ls' w' ->
  exists body s, ls = body ++ [LSoft s] /\ r_true r < sm_count s /\ ls' = body ++ [LSoft (Soft true (r_true r) (sm_count s))] /\ w' = WBwd (length ls) mat_empty r.
Proof.
  intros b p r ls ls' w' ST. cbn [wstep] in ST. apply bind_inv in ST. destruct ST as (s1 & a & ST1 & ST). apply hand_over_ok in ST1.
  destruct ST1 as (body & s & -> & K & ->). cbn in ST. injection ST as <- <-. exists body, s. repeat split; auto. rewrite !app_length. reflexivity.
Qed.
Lemma wstep_length : forall b p w ls ls' w', wst b p w ls = ORet ls' w' -> length ls' = length ls.
Proof.
  intros b p w ls ls' w' ST. destruct w as [|i x recs|r|r|n g r|r];
    try (apply wstep_shape in ST; [apply ST|intros; discriminate]).
  apply wstep_hand in ST. destruct ST as (body & s & -> & _ & -> & _). rewrite !app_length. reflexivity.
Qed.

(** The step of the output layer, if both copies have the same label *)
Lemma wstep_local_soft : forall b p g r ls ls' cnt k, 0 <= b -> agreeL (Z.to_nat b) ls ls' -> soft_at cnt ls k -> soft_at cnt ls' k ->
  both (agreeL (Z.to_nat b)) (wst b p (WBwd (length ls) g r) ls) (wst b p (WBwd (length ls) g r) ls').
Proof.
  intros b p g r ls ls' cnt k Hb AG S1 S2. destruct (length ls) as [|n] eqn:QL.
  { unfold soft_at in S1. rewrite QL in S1. destruct ls; discriminate. }
  cbn [wstep]. unfold bind at 1 2 3 4 6 7 8 9. destruct (vat (r_inputs r) n) as [x| |]; cbn [lift]; [|exact eq_refl|exact I].
  destruct (vat (r_inputs r) (S n)) as [z| |]; cbn [lift]; [|exact eq_refl|exact I].
  destruct (double_copy x) as [x1| |]; cbn [lift]; [|exact eq_refl|exact I].
  destruct (double_copy z) as [z1| |]; cbn [lift]; [|exact eq_refl|exact I].
  apply both_bind; [|intros; split; auto].
  apply on_nth_local; [exact AG|]. intros l1 l2 H1 H2 HA. unfold soft_at in S1, S2. rewrite QL in S1. rewrite <- (proj1 AG), QL in S2. cbn [pred] in S1, S2.
  rewrite S1 in H1. rewrite S2 in H2. injection H1 as <-. injection H2 as <-. cbn. destruct (sm_dx z1 k); cbn; auto.
Qed.
End Label.

Section Data.
Context {T : Type} {N : Num T} (E : env T).
Context {U L : Type} (cast : U -> T) (eqL : L -> L -> bool) (labels : list L).
Context (wc bs : Z).
Local Notation wst := (wstep E cast eqL labels).
Local Notation gst := (gstep E cast eqL labels wc bs).
Local Notation shared := (shared (T := T) (U := U) (L := L)).
Local Notation pc := (pc (T := T) (U := U) (L := L)).
Local Notation work := (work (T := T)).
Local Notation idx := (label_idx eqL labels).
Local Notation prv := (priv E cast eqL labels).

Context (nt : nat) (ls0 : list (layer T)) (src0 : list (point U L)) (res0 : list (option (results T))) (succ0 : Z) (pcs0 : list pc).
Hypothesis HW : 0 <= wc.
Hypothesis HB : 0 <= bs.
Hypothesis HB2 : bs < two31.
Hypothesis SP : spawn nt 0 wc = Ok pcs0.
Hypothesis RL : Z.of_nat (length res0) = bs.
Hypothesis RD : List.Forall ready ls0.
Context (cnt : Z).
Hypothesis HC : forall body s, ls0 = body ++ [LSoft s] -> sm_count s = cnt.
Local Notation g00 := (Shared ls0 src0 None res0 succ0 pcs0).

Context (P : shared -> Prop) (K : point U L -> Z -> Prop).
Hypothesis KO : forall p, In p src0 -> K p (idx p).
Hypothesis KX : forall g t t' b b' p p', P g -> t <> t' -> window g t b p -> window g t' b' p' -> In p src0 -> In p' src0 -> K p' (idx p).

Definition pre (n : nat) (w : work) : bool := match w with WBwd m _ _ => Nat.eqb m n | WEnd _ => false | _ => true end.
Definition handed (w : work) : bool := match w with WBwd _ _ _ => true | _ => false end.
Definition stored (w : work) : option (results T) := match w with WBack r | WHand r | WBwd _ _ r | WEnd r => Some r | _ => None end.

(** The part of the layers that belongs to slot [b] is that of a run without other threads. Up to the step of the output
    layer this is so for each label that could be handed over. *)
Definition at_ (b : Z) (p : point U L) (w : work) (ls : list (layer T)) : Prop :=
  if pre (length ls) w
  then forall k, k < cnt -> exists lsp, prv b p k ls0 lsp w /\ agreeL (Z.to_nat b) ls lsp /\ (handed w = true -> soft_at cnt lsp k)
  else exists k lsp, K p k /\ prv b p k ls0 lsp w /\ agreeL (Z.to_nat b) ls lsp.
Definition kept (b : Z) (w : work) (rs : list (option (results T))) : Prop :=
  forall r, stored w = Some r -> nth_error rs (Z.to_nat b) = Some (Some r).
Definition fin (b : Z) (p : point U L) (ls : list (layer T)) (rs : list (option (results T))) : Prop :=
  exists k lsp r, K p k /\ prv b p k ls0 lsp (WEnd r) /\ agreeL (Z.to_nat b) ls lsp /\ nth_error rs (Z.to_nat b) = Some (Some r).

Definition phase (c : pc) (b : Z) : option (point U L * work) :=
  match c with
  | PFree b' p => if b' =? b then Some (p, WStart) else None
  | PWork b' p w => if b' =? b then Some (p, w) else None
  | _ => None
  end.
Definition ent (b : Z) (p : point U L) (c : pc) (g : shared) : Prop :=
  match phase c b with
  | Some (p', w) => p' = p /\ at_ b p w (g_layers g) /\ kept b w (g_results g)
  | None => fin b p (g_layers g) (g_results g)
  end.

Record invD (log : list (entry (U := U) (L := L))) (g : shared) : Prop := {
  d_ent : forall t b p c, In (t, b, p) log -> nth_error (g_pcs g) t = Some c -> ent b p c g;
  d_free : forall b, 0 <= b -> (forall t p, ~ In (t, b, p) log) -> agreeL (Z.to_nat b) (g_layers g) ls0 /\ nth_error (g_results g) (Z.to_nat b) = nth_error res0 (Z.to_nat b);
  d_own : forall t b p w, nth_error (g_pcs g) t = Some (PWork b p w) -> In (t, b, p) log;
  d_own2 : forall t b p, nth_error (g_pcs g) t = Some (PFree b p) -> In (t, b, p) log;
  d_soft : forall t b p, window g t b p -> exists k, K p k /\ k < cnt /\ soft_at cnt (g_layers g) k }.

Lemma invD_start : invD [] g00.
Proof.
  assert (PCS : forall t c, nth_error pcs0 t = Some c -> exists b, c = PLoop b).
  { intros t c H. destruct (spawn_nth (T := T) (U := U) (L := L) wc HW _ _ _ SP) as [L1 L2].
    assert (t < nt)%nat by (rewrite <- L1; apply nth_error_Some; congruence). destruct (L2 t H0) as [A B]. rewrite A in H. injection H as <-. eauto. }
  constructor; cbn [g_pcs g_layers g_results].
  - intros t b p c [].
  - intros b Hb _. split; [apply agreeL_refl; exact RD|reflexivity].
  - intros t b p w H. destruct (PCS _ _ H) as [? ?]. discriminate.
  - intros t b p H. destruct (PCS _ _ H) as [? ?]. discriminate.
  - intros t b p (gr & r & H). destruct (PCS _ _ H) as [? ?]. discriminate.
Qed.

Lemma free_bs : forall log g, invA wc bs nt src0 log g -> invD log g -> agreeL (Z.to_nat bs) (g_layers g) ls0.
Proof.
  intros log g A D. apply (d_free _ _ D bs HB). intros t p HI. destruct (invA_entry _ _ _ _ _ _ _ _ _ A HI) as [R _].
  pose proof (cut_bs wc bs t). lia.
Qed.

(** Steps that do not touch layers or results *)
Lemma ent_same : forall b p c g g', ent b p c g -> g_layers g' = g_layers g -> g_results g' = g_results g -> ent b p c g'.
Proof. intros b p c g g' H H1 H2. unfold ent in *. rewrite H1, H2. exact H. Qed.

(** What another slot sees of a step *)
Lemma at_frame : forall b p w ls ls', length ls' = length ls -> agreeL (Z.to_nat b) ls ls' -> at_ b p w ls -> at_ b p w ls'.
Proof.
  intros b p w ls ls' HL AG H. unfold at_ in *. rewrite HL. destruct (pre (length ls) w).
  - intros k Hk. destruct (H k Hk) as (lsp & A & B & C). exists lsp. split; [exact A|]. split; [|exact C]. eapply agreeL_trans; [apply agreeL_sym; exact AG|exact B].
  - destruct H as (k & lsp & HK & A & B). exists k, lsp. split; [exact HK|]. split; [exact A|]. eapply agreeL_trans; [apply agreeL_sym; exact AG|exact B].
Qed.
Lemma fin_frame : forall b p ls ls' rs rs', agreeL (Z.to_nat b) ls ls' -> nth_error rs' (Z.to_nat b) = nth_error rs (Z.to_nat b) -> fin b p ls rs -> fin b p ls' rs'.
Proof.
  intros b p ls ls' rs rs' AG HR (k & lsp & r & A & B & C & D). exists k, lsp, r. split; [exact A|]. split; [exact B|].
  split; [|rewrite HR; exact D]. eapply agreeL_trans; [apply agreeL_sym; exact AG|exact C].
Qed.
Lemma keep_other : forall b b' w rs rs', 0 <= b -> 0 <= b' -> b <> b' -> keep_result (T := T) b w rs = Ok rs' -> nth_error rs' (Z.to_nat b') = nth_error rs (Z.to_nat b').
Proof.
  intros b b' w rs rs' H H' D Q. unfold keep_result in Q. destruct w; try (injection Q as <-; reflexivity);
    symmetry; apply (vset_frame b b' _ _ _ H H' D Q).
Qed.
Lemma keep_same : forall b w w' rs rs' ls ls' p, 0 <= b -> wst b p w ls = ORet ls' w' -> kept b w rs -> keep_result b w' rs = Ok rs' -> kept b w' rs'.
Proof.
  intros b w w' rs rs' ls ls' p Hb ST KP Q r HS. unfold keep_result in Q.
  assert (V : forall r, vset rs b (Some r) = Ok rs' -> nth_error rs' (Z.to_nat b) = Some (Some r)).
  { intros r0 HV. unfold vset in HV. destruct ((0 <=? b) && (b <? Z.of_nat (length rs))) eqn:QB; [|discriminate]. injection HV as <-.
    apply andb_true_iff in QB. apply nth_upd_same. lia. }
  destruct w' as [|i x recs|r0|r0|n g r0|r0]; cbn in HS; try discriminate; injection HS as ->.
  - apply V. exact Q.
  - apply V. exact Q.
  - injection Q as <-. apply KP. destruct w as [|i x recs|r1|r1|[|m] g1 r1|r1]; cbn [wstep] in ST.
    + repeat (apply bind_inv in ST; destruct ST as (? & ? & ? & ST)). discriminate.
    + destruct (nth_error ls i); repeat (apply bind_inv in ST; destruct ST as (? & ? & ? & ST)); discriminate.
    + repeat (apply bind_inv in ST; destruct ST as (? & ? & ? & ST)). discriminate.
    + apply bind_inv in ST; destruct ST as (? & ? & ? & ST). cbn in ST. injection ST as _ _ _ <-. reflexivity.
    + discriminate.
    + repeat (apply bind_inv in ST; destruct ST as (? & ? & ? & ST)). injection ST as _ _ _ <-. reflexivity.
    + discriminate.
  - injection Q as <-. apply KP. destruct w as [|i x recs|r1|r1|[|m] g1 r1|r1]; cbn [wstep] in ST.
    + repeat (apply bind_inv in ST; destruct ST as (? & ? & ? & ST)). discriminate.
    + destruct (nth_error ls i); repeat (apply bind_inv in ST; destruct ST as (? & ? & ? & ST)); discriminate.
    + repeat (apply bind_inv in ST; destruct ST as (? & ? & ? & ST)). discriminate.
    + apply bind_inv in ST; destruct ST as (? & ? & ? & ST). discriminate.
    + injection ST as _ <-. reflexivity.
    + repeat (apply bind_inv in ST; destruct ST as (? & ? & ? & ST)). discriminate.
    + injection ST as _ <-. reflexivity.
Qed.

(** A step of a worker on its data point, seen from its own slot *)
Lemma at_step : forall log g t b p w ls w', invA wc bs nt src0 log g -> invD log g -> nth_error (g_pcs g) t = Some (PWork b p w) ->
  (forall r, w <> WEnd r) -> wst b p w (g_layers g) = ORet ls w' -> 0 <= b -> at_ b p w (g_layers g) -> at_ b p w' ls.
Proof.
  intros log g t b p w ls w' A D Q NE ST Hb AT.
  pose proof (wstep_length _ _ _ _ _ _ _ _ _ _ ST) as HL.
  assert (CS : (exists r, w = WHand r) \/ (exists gr r, w = WBwd (length (g_layers g)) gr r) \/
    ((forall r, w <> WHand r) /\ (forall gr r, w <> WBwd (length (g_layers g)) gr r))).
  { destruct w as [|i x recs|r|r|n gr r|r]; try (right; right; split; intros; discriminate); [left; eauto|].
    destruct (Nat.eq_dec n (length (g_layers g))) as [->|DN]; [right; left; eauto|]. right; right. split; intros; congruence. }
  destruct CS as [[r ->]|[(gr & r & ->)|[N1 N2]]].
  - (* the hand-over *)
    destruct (wstep_hand _ _ _ _ _ _ _ _ _ _ ST) as (body & s & HG & HK & -> & ->). unfold at_ in AT. cbn [pre handed] in AT.
    unfold at_. cbn [pre handed]. rewrite HL, Nat.eqb_refl. intros k Hk. destruct (AT k Hk) as (lsp & P1 & P2 & _).
    pose proof P2 as P3. rewrite HG in P3. apply agreeL_sym in P3. destruct (agreeL_soft _ _ _ _ P3) as (body' & s' & -> & HS & HLb).
    pose proof (agreeL_ready _ _ _ P2) as R1. rewrite HG in R1. apply Forall_app in R1. destruct R1 as [R1 _].
    pose proof (agreeL_ready _ _ _ P3) as R2. apply Forall_app in R2. destruct R2 as [R2 _].
    assert (CN : sm_count s = cnt).
    { pose proof (free_bs _ _ A D) as FB. rewrite HG in FB. apply agreeL_sym in FB. destruct (agreeL_soft _ _ _ _ FB) as (b0 & s0 & HE & HS0 & _).
      rewrite <- HS0. eapply HC. exact HE. }
    exists (body' ++ [LSoft (Soft true k (sm_count s'))]). split; [|split].
    + eapply priv_step; [exact P1|]. cbn [pstep]. unfold bind. rewrite hand_over_at by lia. cbn. rewrite HG, !app_length. cbn. rewrite HLb. reflexivity.
    + eapply agreeL_trans; [apply agreeL_last; [exact R1|]|]. 2: eapply agreeL_trans; [exact (agreeL_sym _ _ _ P3)|apply agreeL_last; [exact R2|reflexivity]]. reflexivity.
    + intros _. apply soft_at_app. exists body'. rewrite HS, CN. reflexivity.
  - (* the step of the output layer *)
    destruct (d_soft _ _ D t b p) as (k & K1 & K2 & K3); [exists gr, r; exact Q|].
    unfold at_ in AT. cbn [pre handed] in AT. rewrite Nat.eqb_refl in AT. destruct (AT k K2) as (lsp & P1 & P2 & P3). specialize (P3 eq_refl).
    pose proof (wstep_local_soft E cast eqL labels b p gr r _ _ cnt k Hb P2 K3 P3) as BO. destruct (both_ret _ _ _ _ _ BO ST) as (lsp' & Q1 & Q2).
    assert (NP : pre (length ls) w' = false).
    { destruct (length (g_layers g)) as [|n] eqn:QL. { unfold soft_at in K3. rewrite QL in K3. destruct (g_layers g); discriminate. }
      cbn [wstep] in ST. repeat (apply bind_inv in ST; destruct ST as (? & ? & ? & ST)). injection ST as _ <-. cbn [pre]. rewrite HL. apply Nat.eqb_neq. lia. }
    unfold at_. rewrite NP. exists k, lsp'. split; [exact K1|]. split; [|exact Q2]. eapply priv_step; [exact P1|exact Q1].
  - (* all other steps *)
    assert (PS : forall k, pstep E cast eqL labels b p k w = wst b p w) by (intros k; destruct w; try reflexivity; exfalso; eapply N1; reflexivity).
    unfold at_ in AT. destruct (pre (length (g_layers g)) w) eqn:QP.
    + assert (HD : handed w' = false).
      { destruct w as [|i x recs|r|r|[|n] gr r|r]; cbn [wstep] in ST; try (exfalso; eapply N1; reflexivity); try (exfalso; eapply NE; reflexivity).
        - repeat (apply bind_inv in ST; destruct ST as (? & ? & ? & ST)). injection ST as _ <-. reflexivity.
        - destruct (nth_error (g_layers g) i); repeat (apply bind_inv in ST; destruct ST as (? & ? & ? & ST)); injection ST as _ <-; reflexivity.
        - repeat (apply bind_inv in ST; destruct ST as (? & ? & ? & ST)). injection ST as _ <-. reflexivity.
        - exfalso. cbn [pre] in QP. apply Nat.eqb_eq in QP. eapply N2. rewrite <- QP. reflexivity.
        - exfalso. cbn [pre] in QP. apply Nat.eqb_eq in QP. eapply N2. rewrite <- QP. reflexivity. }
      assert (PR : pre (length ls) w' = true).
      { destruct w as [|i x recs|r|r|[|n] gr r|r]; cbn [wstep] in ST; try (exfalso; eapply N1; reflexivity); try (exfalso; eapply NE; reflexivity).
        - repeat (apply bind_inv in ST; destruct ST as (? & ? & ? & ST)). injection ST as _ <-. reflexivity.
        - destruct (nth_error (g_layers g) i); repeat (apply bind_inv in ST; destruct ST as (? & ? & ? & ST)); injection ST as _ <-; reflexivity.
        - repeat (apply bind_inv in ST; destruct ST as (? & ? & ? & ST)). injection ST as _ <-. reflexivity.
        - exfalso. cbn [pre] in QP. apply Nat.eqb_eq in QP. eapply N2. rewrite <- QP. reflexivity.
        - exfalso. cbn [pre] in QP. apply Nat.eqb_eq in QP. eapply N2. rewrite <- QP. reflexivity. }
      unfold at_. rewrite PR. intros k Hk. destruct (AT k Hk) as (lsp & P1 & P2 & P3).
      pose proof (wstep_local E cast eqL labels b p w _ _ Hb P2 N1 N2) as BO. destruct (both_ret _ _ _ _ _ BO ST) as (lsp' & Q1 & Q2).
      exists lsp'. split; [eapply priv_step; [exact P1|]; rewrite PS; exact Q1|]. split; [exact Q2|]. rewrite HD. discriminate.
    + destruct AT as (k & lsp & HK & P1 & P2).
      assert (PR : pre (length ls) w' = false).
      { destruct w as [|i x recs|r|r|[|n] gr r|r]; cbn [pre] in QP; try discriminate; cbn [wstep] in ST.
        - injection ST as _ <-. reflexivity.
        - repeat (apply bind_inv in ST; destruct ST as (? & ? & ? & ST)). injection ST as _ <-. cbn [pre]. rewrite HL.
          match goal with HO : on_nth n _ _ = ORet _ _ |- _ => unfold on_nth in HO; destruct (nth_error _ n) eqn:QN in HO; [|discriminate] end.
          repeat match goal with HO : lift _ _ = ORet _ _ |- _ => apply lift_inv in HO; destruct HO as [-> _] end.
          apply Nat.eqb_neq. apply Nat.lt_neq. apply nth_error_Some. congruence.
        - exfalso. eapply NE. reflexivity. }
      pose proof (wstep_local E cast eqL labels b p w _ _ Hb P2 N1 N2) as BO. destruct (both_ret _ _ _ _ _ BO ST) as (lsp' & Q1 & Q2).
      unfold at_. rewrite PR. exists k, lsp'. split; [exact HK|]. split; [eapply priv_step; [exact P1|]; rewrite PS; exact Q1|exact Q2].
Qed.

Lemma invD_move : forall log g g' t c c', invD log g -> nth_error (g_pcs g) t = Some c -> g_pcs g' = upd (g_pcs g) t c' ->
  g_layers g' = g_layers g -> g_results g' = g_results g ->
  (forall b p, In (t, b, p) log -> ent b p c g -> ent b p c' g) ->
  (forall b p w, c' = PWork b p w -> In (t, b, p) log /\ handed w = false) -> (forall b p, c' = PFree b p -> In (t, b, p) log) -> invD log g'.
Proof.
  intros log g g' t c c' D Q HP HL HR HE HO HF. constructor.
  - intros t' b p c0 HI HN. apply ent_same with g; auto. rewrite HP, nth_upd in HN. destruct (Nat.eqb t t') eqn:QT.
    + apply Nat.eqb_eq in QT. subst t'. rewrite Q in HN. injection HN as <-. apply HE; [exact HI|]. eapply d_ent; eassumption.
    + eapply d_ent; eassumption.
  - intros b Hb HN. rewrite HL, HR. apply (d_free _ _ D); assumption.
  - intros t' b p w HN. rewrite HP, nth_upd in HN. destruct (Nat.eqb t t') eqn:QT.
    + apply Nat.eqb_eq in QT. subst t'. rewrite Q in HN. injection HN as ->. apply (HO _ _ _ eq_refl).
    + eapply d_own; eassumption.
  - intros t' b p HN. rewrite HP, nth_upd in HN. destruct (Nat.eqb t t') eqn:QT.
    + apply Nat.eqb_eq in QT. subst t'. rewrite Q in HN. injection HN as ->. apply HF. reflexivity.
    + eapply d_own2; eassumption.
  - intros t' b p (gr & r & HN). rewrite HP, nth_upd, HL in HN. destruct (Nat.eqb t t') eqn:QT.
    + apply Nat.eqb_eq in QT. subst t'. rewrite Q in HN. injection HN as ->. destruct (HO _ _ _ eq_refl) as [_ HH]. discriminate HH.
    + rewrite HL. apply (d_soft _ _ D t' b p). exists gr, r. exact HN.
Qed.

Lemma ent_none : forall b p c c' g, phase c b = None -> phase c' b = None -> ent b p c g -> ent b p c' g.
Proof. intros b p c c' g H1 H2 H. unfold ent in *. rewrite H1 in H. rewrite H2. exact H. Qed.

Lemma invD_step : forall t g g' log, invA wc bs nt src0 log g -> invD log g -> gs E cast eqL labels wc bs t g g' -> P g' -> invD (log ++ took t g) g'.
Proof.
  intros t g g' log A D ST HP.
  assert (TN : forall c, nth_error (g_pcs g) t = Some c -> (forall b, c <> PNext b) -> took t g = []).
  { intros c H DD. unfold took. rewrite H. destruct c; auto. exfalso. eapply DD. reflexivity. }
  destruct ST as [b Q C|b Q C|b Q QL|b Q QS|b p s Q QS|b p s Q QS|b p Q|b p r Q|b p w ls w' rs Q NE QW QK|b r Q QV];
    try (rewrite (TN _ Q) by (intros; discriminate); rewrite app_nil_r).
  - apply invD_move with (1 := D) (2 := Q) (c' := PLock b); auto; try (intros; discriminate).
  - apply invD_move with (1 := D) (2 := Q) (c' := PDone b); auto; try (intros; discriminate).
  - apply invD_move with (1 := D) (2 := Q) (c' := PHas b); auto; try (intros; discriminate).
  - apply invD_move with (1 := D) (2 := Q) (c' := PDone b); auto; try (intros; discriminate).
  - apply invD_move with (1 := D) (2 := Q) (c' := PNext b); auto; try (intros; discriminate).
  - (* a data point is taken *)
    unfold took. rewrite Q, QS.
    destruct (a_rng _ _ _ _ _ _ A t _ Q) as [R1 R2]. cbn in R1, R2. pose proof (lo_nonneg wc HW t).
    assert (NW : forall t' p', ~ In (t', b, p') log).
    { intros t' p' HI. destruct (invA_entry _ _ _ _ _ _ _ _ _ A HI) as [A1 (c & A2 & A3)].
      assert (t' = t) by (eapply (range_thread wc bs HW); [exact A1|lia]). subst t'. rewrite Q in A2. injection A2 as <-. cbn in A3. lia. }
    constructor; cbn [set_pc g_pcs g_layers g_results].
    + intros t' b0 p0 c0 HI HN. apply ent_same with g; auto. rewrite nth_upd in HN. apply in_app_or in HI. destruct (Nat.eqb t t') eqn:QT.
      * apply Nat.eqb_eq in QT. subst t'. rewrite Q in HN. injection HN as <-. destruct HI as [HI|[HI|[]]].
        -- pose proof (d_ent _ _ D _ _ _ _ HI Q) as HE. unfold ent in *. cbn in *. destruct (b =? b0) eqn:QB; [|exact HE].
           apply Z.eqb_eq in QB. subst b0. exfalso. eapply NW. exact HI.
        -- injection HI as <- <-. unfold ent. cbn [phase]. rewrite Z.eqb_refl. split; [reflexivity|]. split; [|intros r; discriminate].
           unfold at_. cbn [pre handed]. intros k _. exists ls0. split; [constructor|]. split; [|discriminate].
           apply (d_free _ _ D); [lia|exact NW].
      * apply Nat.eqb_neq in QT. destruct HI as [HI|[HI|[]]]; [eapply d_ent; eassumption|congruence].
    + intros b0 Hb0 HN. apply (d_free _ _ D); [exact Hb0|]. intros t' p' HI. apply (HN t' p'). apply in_or_app. auto.
    + intros t' b0 p0 w HN. rewrite nth_upd in HN. destruct (Nat.eqb t t') eqn:QT; [rewrite Q in HN; discriminate|].
      apply in_or_app. left. eapply d_own; eassumption.
    + intros t' b0 p0 HN. rewrite nth_upd in HN. apply in_or_app. destruct (Nat.eqb t t') eqn:QT.
      * apply Nat.eqb_eq in QT. subst t'. rewrite Q in HN. injection HN as -> ->. right. left. reflexivity.
      * left. eapply d_own2; eassumption.
    + intros t' b0 p0 (gr & r & HN). cbn [set_pc g_layers g_pcs] in HN. rewrite nth_upd in HN. destruct (Nat.eqb t t') eqn:QT; [rewrite Q in HN; discriminate|].
      apply (d_soft _ _ D t' b0 p0). exists gr, r. exact HN.
  - pose proof (d_own2 _ _ D _ _ _ Q) as HI.
    apply invD_move with (1 := D) (2 := Q) (c' := PWork b p WStart); auto; try (intros; discriminate).
    intros b0 p0 w0 HW0. injection HW0 as <- <- <-. auto.
  - pose proof (d_own _ _ D _ _ _ _ Q) as HI.
    apply invD_move with (1 := D) (2 := Q) (c' := PCount b); auto; try (intros; discriminate).
    intros b0 p0 HI0 HE. unfold ent in *. cbn [phase] in *. destruct (b =? b0) eqn:QB; [|exact HE]. apply Z.eqb_eq in QB. subst b0.
    destruct HE as (-> & (k & lsp & H1 & H2 & H3) & HK). exists k, lsp, r. split; [exact H1|]. split; [exact H2|]. split; [exact H3|]. apply HK. reflexivity.
  - (* work on a data point *)
    pose proof (d_own _ _ D _ _ _ _ Q) as HI. destruct (invA_entry _ _ _ _ _ _ _ _ _ A HI) as [RG _]. pose proof (lo_nonneg wc HW t).
    assert (Hb : 0 <= b) by lia.
    assert (RDY : List.Forall ready (g_layers g)) by (eapply agreeL_ready; eapply free_bs; eassumption).
    pose proof (wstep_length _ _ _ _ _ _ _ _ _ _ QW) as HL.
    pose proof (d_ent _ _ D _ _ _ _ HI Q) as HE. unfold ent in HE. cbn [phase] in HE. rewrite Z.eqb_refl in HE. destruct HE as (_ & HE1 & HE2).
    assert (FR : forall b', 0 <= b' -> b <> b' -> agreeL (Z.to_nat b') (g_layers g) ls) by (intros b' Hb' DB; eapply wstep_frame with (5 := QW); auto).
    assert (FR2 : forall b', 0 <= b' -> b <> b' -> nth_error rs (Z.to_nat b') = nth_error (g_results g) (Z.to_nat b')) by (intros b' Hb' DB; apply (keep_other b b' w' _ _ Hb Hb' DB QK)).
    constructor; cbn [set_pc g_pcs g_layers g_results].
    + intros t' b0 p0 c0 HI0 HN. rewrite nth_upd in HN.
      assert (OT : b0 <> b -> forall c1, phase c1 b0 = phase c0 b0 -> ent b0 p0 c1 g -> ent b0 p0 c0 (set_pc t (PWork b p w') (Shared ls (g_source g) (g_lock g) rs (g_success g) (g_pcs g)))).
      { intros DB c1 PH HE. destruct (invA_entry _ _ _ _ _ _ _ _ _ A HI0) as [RG0 _]. pose proof (lo_nonneg wc HW t').
        assert (AGR : agreeL (Z.to_nat b0) (g_layers g) ls) by (apply FR; [lia|congruence]).
        assert (RSS : nth_error rs (Z.to_nat b0) = nth_error (g_results g) (Z.to_nat b0)) by (apply FR2; [lia|congruence]).
        unfold ent in *. cbn [set_pc g_layers g_results]. rewrite <- PH. destruct (phase c1 b0) as [[p1 w1]|].
        - destruct HE as (X1 & X2 & X3). split; [exact X1|]. split; [eapply at_frame; [exact HL|exact AGR|exact X2]|].
          intros r0 HS. rewrite RSS. apply X3. exact HS.
        - eapply fin_frame; [exact AGR|exact RSS|exact HE]. }
      destruct (Nat.eqb t t') eqn:QT.
      * apply Nat.eqb_eq in QT. subst t'. rewrite Q in HN. injection HN as <-. destruct (Z.eq_dec b0 b) as [->|DB].
        -- destruct (invA_unique _ _ _ _ HW _ _ _ _ _ _ _ A HI HI0) as [_ <-]. unfold ent. cbn [phase]. rewrite Z.eqb_refl. cbn [set_pc g_layers g_results].
           split; [reflexivity|]. split; [eapply at_step; eassumption|]. eapply keep_same; eassumption.
        -- apply OT with (c1 := PWork b p w); [exact DB| |eapply d_ent; eassumption]. cbn [phase]. destruct (b =? b0) eqn:QB; [lia|reflexivity].
      * apply Nat.eqb_neq in QT. assert (DB : b0 <> b).
        { intros ->. destruct (invA_unique _ _ _ _ HW _ _ _ _ _ _ _ A HI HI0) as [X _]. contradiction. }
        apply OT with (c1 := c0); [exact DB|reflexivity|eapply d_ent; eassumption].
    + intros b0 Hb0 HN. assert (DB : b <> b0) by (intros ->; eapply HN; exact HI).
      destruct (d_free _ _ D b0 Hb0 HN) as [F1 F2]. split; [|rewrite FR2 by assumption; exact F2].
      eapply agreeL_trans; [apply agreeL_sym; apply FR; assumption|exact F1].
    + intros t' b0 p0 w0 HN. rewrite nth_upd in HN. destruct (Nat.eqb t t') eqn:QT.
      * apply Nat.eqb_eq in QT. subst t'. rewrite Q in HN. injection HN as <- <- <-. exact HI.
      * eapply d_own; eassumption.
    + intros t' b0 p0 HN. rewrite nth_upd in HN. destruct (Nat.eqb t t') eqn:QT; [rewrite Q in HN; discriminate|]. eapply d_own2; eassumption.
    + (* the label in the output layer *)
      intros t' b0 p0 WN. pose proof WN as (gr & r & HN). cbn [set_pc g_layers g_pcs] in HN. cbn [set_pc g_layers].
      assert (INS : forall t1 b1 p1, In (t1, b1, p1) log -> In p1 src0).
      { intros t1 b1 p1 H1. rewrite (a_src _ _ _ _ _ _ A). apply in_or_app. left. apply in_map_iff. exists (t1, b1, p1). auto. }
      destruct (nth_error (g_pcs g) t) as [cc|] eqn:QQ; [|discriminate]. injection Q as ->.
      assert (HCASE : (exists r1, w = WHand r1) \/ (forall r1, w <> WHand r1)) by (destruct w; try (right; intros; discriminate); left; eauto).
      destruct HCASE as [[r1 ->]|NH].
      * destruct (wstep_hand _ _ _ _ _ _ _ _ _ _ QW) as (body & s & HG & HK & HLS & HW').
        assert (TR : r_true r1 = idx p).
        { unfold at_ in HE1. cbn [pre] in HE1. destruct (HE1 (cnt - 1) ltac:(lia)) as (lsp & X1 & _ & _).
          eapply priv_hand with (1 := X1). auto. }
        assert (CN : sm_count s = cnt).
        { pose proof (free_bs _ _ A D) as FB. rewrite HG in FB. apply agreeL_sym in FB. destruct (agreeL_soft _ _ _ _ FB) as (b9 & s9 & HE & HS9 & _).
          rewrite <- HS9. eapply HC. exact HE. }
        exists (idx p). split; [|split; [lia|]].
        -- rewrite nth_upd, QQ in HN. destruct (Nat.eqb t t') eqn:QT.
           ++ injection HN as _ <- _. apply KO. eapply INS. exact HI.
           ++ apply Nat.eqb_neq in QT. apply (KX _ t t' b b0 p p0 HP).
              ** exact QT.
              ** exists mat_empty, r1. cbn [set_pc g_layers g_pcs]. rewrite HL, <- HW', nth_upd, Nat.eqb_refl, QQ. reflexivity.
              ** exact WN.
              ** eapply INS. exact HI.
              ** eapply INS. eapply (d_own _ _ D). exact HN.
        -- rewrite HLS. apply soft_at_app. exists body. rewrite TR, CN. reflexivity.
      * destruct (wstep_shape _ _ _ _ _ _ _ _ _ _ QW NH) as [_ SH].
        assert (KEEP : forall k, soft_at cnt (g_layers g) k -> soft_at cnt ls k) by (intros k; unfold soft_at; rewrite HL; apply SH).
        rewrite nth_upd, QQ in HN. destruct (Nat.eqb t t') eqn:QT.
        -- (* this thread is not in the window after another step *)
           exfalso. injection HN as _ _ ->. rewrite HL in QW. destruct w as [|i x recs|r1|r1|[|n] gr1 r1|r1]; cbn [wstep] in QW;
             try (exfalso; eapply NH; reflexivity); try (exfalso; eapply NE; reflexivity); try discriminate.
           ++ repeat (apply bind_inv in QW; destruct QW as (? & ? & ? & QW)). discriminate.
           ++ destruct (nth_error (g_layers g) i); repeat (apply bind_inv in QW; destruct QW as (? & ? & ? & QW)); discriminate.
           ++ repeat (apply bind_inv in QW; destruct QW as (? & ? & ? & QW)). discriminate.
           ++ repeat (apply bind_inv in QW; destruct QW as (? & ? & ? & QW)). injection QW as _ QN _ _.
              match goal with HO : on_nth n _ _ = ORet _ _ |- _ => unfold on_nth in HO; destruct (nth_error _ n) eqn:QN2 in HO; [|discriminate] end.
              repeat match goal with HO : lift _ _ = ORet _ _ |- _ => apply lift_inv in HO; destruct HO as [-> _] end.
              apply (Nat.lt_neq n (length (g_layers g))); [apply nth_error_Some; congruence|exact QN].
        -- destruct (d_soft _ _ D t' b0 p0) as (k & K1 & K2 & K3); [exists gr, r; rewrite <- HL; exact HN|]. exists k. auto.
  - apply invD_move with (1 := D) (2 := Q) (c' := PLoop (b + 1)); auto; try (intros; discriminate).
Qed.

Theorem invD_exec : forall g log, texec E cast eqL labels P wc bs g00 g log -> invA wc bs nt src0 log g /\ invD log g.
Proof.
  intros g log H. split; [eapply invA_exec; eassumption|]. induction H as [|t g g' log H IH ST HP]; [apply invD_start|].
  apply invD_step; auto; [eapply invA_exec; eassumption|]. apply gstep_gs. exact ST.
Qed.

(** If the run on its own succeeds for each data point, slot and possible label, then no step fails. *)
Hypothesis KC : forall p k, In p src0 -> K p k -> k < cnt.
Hypothesis HS0 : exists body s, ls0 = body ++ [LSoft s].
Hypothesis OKP : forall b p k, 0 <= b < bs -> In p src0 -> K p k -> exists lsf r, rest E cast eqL labels b p k WStart ls0 = ORet lsf r.

Theorem no_stop : forall g log t, texec E cast eqL labels P wc bs g00 g log ->
  (forall e, gst t g <> GStop e) /\ gst t g <> GUB.
Proof.
  intros g log t H. destruct (invD_exec _ _ H) as [A D]. unfold gstep.
  destruct (nth_error (g_pcs g) t) as [c|] eqn:Q; [|split; discriminate].
  destruct c as [b|b|b|b|b p|b p w|b|b]; try (split; discriminate).
  - destruct (g_lock g); split; discriminate.
  - destruct (g_source g); split; discriminate.
  - pose proof (a_next _ _ _ _ _ _ A t b Q) as HN. destruct (g_source g); [contradiction|split; discriminate].
  - pose proof (d_own _ _ D _ _ _ _ Q) as HI. destruct (invA_entry _ _ _ _ _ _ _ _ _ A HI) as [RG _]. pose proof (lo_nonneg wc HW t). pose proof (cut_bs wc bs t).
    assert (INS : In p src0) by (rewrite (a_src _ _ _ _ _ _ A); apply in_or_app; left; apply in_map_iff; exists (t, b, p); auto).
    pose proof (d_ent _ _ D _ _ _ _ HI Q) as HE. unfold ent in HE. cbn [phase] in HE. rewrite Z.eqb_refl in HE. destruct HE as (_ & HE1 & HE2).
    assert (Hb : 0 <= b) by lia.
    assert (GO : (forall r, w <> WEnd r) -> exists ls w', wst b p w (g_layers g) = ORet ls w').
    { intros NE. assert (KB : forall k, K p k -> k < cnt) by (intros; eapply KC; eassumption).
      assert (CS : (exists r, w = WHand r) \/ (exists gr r, w = WBwd (length (g_layers g)) gr r) \/
        ((forall r, w <> WHand r) /\ (forall gr r, w <> WBwd (length (g_layers g)) gr r))).
      { destruct w as [|i x recs|r|r|n gr r|r]; try (right; right; split; intros; discriminate); [left; eauto|].
        destruct (Nat.eq_dec n (length (g_layers g))) as [->|DN]; [right; left; eauto|]. right; right. split; intros; congruence. }
      destruct CS as [[r ->]|[(gr & r & ->)|[N1 N2]]].
      - unfold at_ in HE1. cbn [pre handed] in HE1. destruct (HE1 (idx p) (KB _ (KO _ INS))) as (lsp & P1 & P2 & _).
        assert (TR : r_true r = idx p) by (eapply priv_hand with (1 := P1); auto).
        pose proof (free_bs _ _ A D) as FB. destruct HS0 as (body & s & EQ). pose proof (HC _ _ EQ) as HCN. rewrite EQ in FB.
        destruct (agreeL_soft _ _ _ _ FB) as (b1 & s1 & -> & C1 & _).
        cbn [wstep]. unfold bind. rewrite hand_over_at by (rewrite TR, C1, HCN; apply KB, KO, INS). do 2 eexists. reflexivity.
      - destruct (d_soft _ _ D t b p) as (k & K1 & K2 & K3); [exists gr, r; exact Q|].
        unfold at_ in HE1. cbn [pre handed] in HE1. rewrite Nat.eqb_refl in HE1. destruct (HE1 k K2) as (lsp & P1 & P2 & P3). specialize (P3 eq_refl).
        pose proof (wstep_local_soft E cast eqL labels b p gr r _ _ cnt k Hb P2 K3 P3) as BO.
        destruct (OKP b p k ltac:(lia) INS K1) as (lsf & rf & OK1). edestruct priv_progress with (1 := OK1) (2 := P1) as (l1 & w1 & ST1). cbn [pstep] in ST1.
        rewrite ST1 in BO. destruct (wst b p (WBwd (length (g_layers g)) gr r) (g_layers g)); cbn in BO; try contradiction. eauto.
      - assert (PS : forall k, pstep E cast eqL labels b p k w = wst b p w) by (intros k; destruct w; try reflexivity; exfalso; eapply N1; reflexivity).
        assert (PRV : exists k lsp, K p k /\ prv b p k ls0 lsp w /\ agreeL (Z.to_nat b) (g_layers g) lsp).
        { unfold at_ in HE1. destruct (pre (length (g_layers g)) w).
          - destruct (HE1 (idx p) (KB _ (KO _ INS))) as (lsp & P1 & P2 & _). exists (idx p), lsp. auto.
          - exact HE1. }
        destruct PRV as (k & lsp & K1 & P1 & P2).
        pose proof (wstep_local E cast eqL labels b p w _ _ Hb P2 N1 N2) as BO.
        destruct (OKP b p k ltac:(lia) INS K1) as (lsf & rf & OK1). edestruct priv_progress with (1 := OK1) (2 := P1) as (l1 & w1 & ST1). rewrite PS in ST1.
        rewrite ST1 in BO. destruct (wst b p w (g_layers g)); cbn in BO; try contradiction. eauto. }
    assert (KEEP : forall w', exists rs, keep_result b w' (g_results g) = Ok rs).
    { intros w'. pose proof (a_res _ _ _ _ _ _ A) as RES. unfold keep_result, vset. replace ((0 <=? b) && (b <? Z.of_nat (length (g_results g)))) with true by lia.
      destruct w'; eauto. }
    destruct w as [|i x recs|r|r|n gr r|r]; try (split; discriminate);
      destruct GO as (ls & w' & ->); try (intros; discriminate); destruct (KEEP w') as [rs ->]; split; discriminate.
  - destruct (proj2 (a_log _ _ _ _ _ _ A t b)) as [p HI]. { exists (PCount b). destruct (a_rng _ _ _ _ _ _ A t _ Q) as [R1 R2]. cbn in *. split; [exact Q|lia]. }
    pose proof (d_ent _ _ D _ _ _ _ HI Q) as HE. cbn in HE. destruct HE as (k & lsp & r & _ & _ & _ & HR).
    destruct (a_rng _ _ _ _ _ _ A t _ Q) as [R1 R2]. cbn in R1, R2. pose proof (lo_nonneg wc HW t).
    pose proof (a_res _ _ _ _ _ _ A) as RES. pose proof (cut_bs wc bs t).
    unfold vget. rewrite HR. replace ((0 <=? b) && (b <? Z.of_nat (length (g_results g)))) with true by lia. split; discriminate.
Qed.
End Data.
