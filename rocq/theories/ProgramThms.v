(** The whole program with one thread. *)
From Coq Require Import String ZArith List Bool Lia.
From Verif Require Import Base Dim Matrix View Num Expr Spec Iter MatFacts Batch Kernel Connected Float32 Pooling Activation Softmax
  LayerFacts KernelThms ConnectedThms PoolingThms LayerTotal FloatFacts Chars Model Net NetGrad ModelThms Train TrainLocal TrainRest TrainSgd Shapes ShapeNet TrainSafe TrainOne
  Double Stream Text TextFacts Mnist MnistFacts Main Validate ValidateFacts ValidateStep ValidateRun ValidateThms Bar Report ReportFacts ReportThms Program ProgramFeed.
Import ListNotations.
Local Open Scope Z_scope.

Lemma combine_map_snd : forall {A B} (a : list A) (b : list B), length a = length b -> map snd (combine a b) = b.
Proof. induction a as [|x a IH]; intros [|y b] H; cbn in *; try discriminate; [reflexivity|]. rewrite IH by congruence. reflexivity. Qed.

Section Saved.
Context {T : Type} {N : Num T} (wr : T -> text).
(** The text of a layer does not depend on the slots; layers with parameters of matching sizes have a text. *)
Lemma text_sim : forall l l' : layer T, simL l l' -> l_text wr l = l_text wr l'.
Proof. intros l l' H. destruct H; reflexivity. Qed.
Lemma sims_length : forall ls ls' : list (layer T), sims ls ls' -> length ls = length ls'.
Proof. intros ls ls' H. induction H; cbn; congruence. Qed.
Lemma texts_sim : forall (ls ls' : list (layer T)) i, sims ls ls' -> layers_text wr i ls = layers_text wr i ls'.
Proof. intros ls ls' i H. revert i. induction H as [|l l' ls ls' H1 H2 IH]; intros i; [reflexivity|]. cbn [layers_text]. rewrite (text_sim _ _ H1), IH. reflexivity. Qed.
Lemma text_total : forall (l : layer T) s d, l_fit l s d -> ready l -> exists t, l_text wr l = Ok t.
Proof.
  intros l s d H R. destruct l as [k|c|q|a|sm], s; cbn in H; try contradiction; cbn [l_text]; try (eexists; reflexivity).
  - destruct H as ((W & B & (_ & _ & _ & _ & F1 & F2 & IW & IB & _)) & _). unfold k_text. rewrite (mat_text_ok wr _ _ _ IW F1), (mat_text_ok wr _ _ _ IB F2). eexists. reflexivity.
  - destruct H as [((W & B & (_ & IW & IB & _ & _ & F1 & F2)) & _)|(NR & _)]; [|cbn in R; congruence].
    unfold c_text. rewrite (mat_text_ok wr _ _ _ IW F1), (mat_text_ok wr _ _ _ IB F2). eexists. reflexivity.
  - unfold a_text. destruct (a_kind a); eexists; reflexivity.
Qed.
Lemma texts_total : forall (body : list (layer T)) ss d i sm, net_fit body ss d -> List.Forall ready body -> exists t, layers_text wr i (body ++ [LSoft sm]) = Ok t.
Proof.
  induction body as [|l body IH]; intros [|s ss] d i sm NF RD; cbn in NF; try contradiction; cbn [app layers_text].
  - eexists. reflexivity.
  - destruct NF as [H NF]. inversion RD; subst. destruct (text_total l s d) as (t & ->); [assumption..|]. destruct (IH ss _ (i + 1) sm NF) as (t' & ->); [assumption|].
    eexists. reflexivity.
Qed.
End Saved.

Section Program.
Context {T : Type} {N : Num T} (E : env T) (ORD : e_moved E = false) (cast : f32 -> T) (show : T -> text) (showf : f32 -> text) (wr : T -> text) (big : bool) (limit rmax : Z).
Context (RM : 1 <= rmax < 2 ^ 31).

Lemma set_usable : forall (ls : list (layer T)), set_up main_labels ls main_shapes (D3 28 28 1) 32 -> List.Forall ready ls -> usable_net main_labels ls main_shapes (D3 28 28 1).
Proof.
  intros ls (body & sm & -> & NF & C & _ & SL) R. destruct main_fits as (H1 & _ & H2). split; [|exact H1|exact H2].
  exists body, sm. split; [reflexivity|]. split; [exact C|]. split; [exact NF|]. split; [apply Forall_app in R; apply R|].
  specialize (SL 0 ltac:(lia)). eapply Forall_impl; [|exact SL]. intros l. apply slot_index.
Qed.

Context (n k : Z) (ti tl vi vl : file) (TR : mnist limit n 28 28 ti tl) (VA : mnist limit k 28 28 vi vl) (Hn : 33 <= n <= 2 ^ 24) (Hk : 1 <= k)
  (DG : forall i, 1 <= i < n -> f_byte tl (8 + i) < 10).

(** The counted images: those whose label is the one of the largest output *)
Definition recognised (res : Z -> results T) : Z := tally k (hit main_labels vl res).

Lemma validate_layers : forall ls ls' r, usable_net main_labels ls main_shapes (D3 28 28 1) ->
  validation E cast main_labels big limit (Readable vi) (Readable vl) 1 ls (ORet ls' r) -> sims ls ls'.
Proof.
  intros ls ls' r U V. pose proof (mn_n _ _ _ _ _ _ VA) as KB.
  destruct (opened 28 28 big limit k vi vl VA) as (rd & ER & UR & SN).
  destruct (alone_exists E cast main_labels ls main_shapes 28 28 limit k vi vl U VA) as (res & A & _). pose proof (un_fit _ _ _ _ U) as F. destruct U as [_ OK LO].
  inversion V as [rd' g N0 ER' n' X FIN EQ| | | | |]. rewrite ER in ER'. injection ER' as <-. assert (EN : n' = k) by exact SN. clearbody n'. rewrite EN in X.
  assert (NN : k + 1 <= two31) by (unfold two31 in *; lia).
  apply (run_count E cast main_labels main_shapes 28 28 OK LO big limit k vi vl (mn_n _ _ _ _ _ _ VA) none (get_all big limit k 28 28 vi vl VA) 1 ltac:(lia) NN ls F res (fun i m Hi _ => A i m Hi) rd g UR X FIN).
Qed.

Lemma after_training : forall u m ls ms rs save o, main_model E u = Ok m -> m_labels m = main_labels -> length (m_layers m) = length ls ->
  set_up main_labels ls main_shapes (D3 28 28 1) 32 -> List.Forall ready ls ->
  List.Forall (fun r => 0 <= r < rmax) rs -> validation E cast main_labels big limit (Readable vi) (Readable vl) 1 ls o ->
  exists res ts, alone E cast main_labels 28 28 vi vl k ls res /\ Forall2 (shown main_labels show 28 28 k vi vl res rmax) rs ts /\
    exists f, save_model wr word_io (with_layers m ls) = Ok (true, f) /\
    report E cast show showf wr big limit rmax m ms rs save o =
      Done (recognised res) k (count_text showf ms (recognised res) k ++ concat ts) (if save then Some f else None).
Proof.
  intros u m ls ms rs save o EM ML LEN SU RD HR V. pose proof (set_usable ls SU RD) as US.
  destruct (alone_exists E cast main_labels ls main_shapes 28 28 limit k vi vl US VA) as (res & A & RL). exists res.
  pose proof (mn_n _ _ _ _ _ _ VA) as KB. unfold two31 in KB.
  destruct (validate_ends E cast main_labels ls main_shapes 28 28 big limit k vi vl 1 US VA ltac:(lia) ltac:(lia) res o A V) as (ls' & rd & -> & _ & UR & US' & A').
  pose proof (un_fit _ _ _ _ US) as FT. pose proof (un_fit _ _ _ _ US') as FT'.
  assert (S' : sims ls' ls') by (eapply fit_sims; exact FT').
  destruct (samples_ok E cast main_labels show main_shapes 28 28 big limit k vi vl VA ltac:(lia) res RL ls' A' rmax RM Hk rs ls' rd
    (count_text showf ms (recognised res) k) HR S' UR) as (ls2 & rd2 & ts & ES & S2 & U2 & SH).
  exists ts. split; [exact A|]. split; [exact SH|].
  pose proof (validate_layers ls ls' _ US V) as SV.
  destruct SU as (body & sm & EL & NF & _). rewrite EL in RD. apply Forall_app in RD. destruct RD as [RD _].
  destruct (texts_total wr body main_shapes _ 0 sm NF RD) as (t & TT). rewrite <- EL in TT.
  assert (L2 : length ls2 = length ls) by (apply sims_length in SV; apply sims_length in S2; congruence).
  assert (SND : forall l : list (layer T), length l = length ls -> map snd (m_layers (with_layers m l)) = l).
  { intros l HL. cbn [with_layers m_layers]. rewrite combine_map_snd; [reflexivity|]. rewrite map_length. congruence. }
  assert (EQ : save_model wr word_io (with_layers m ls2) = save_model wr word_io (with_layers m ls)).
  { unfold save_model. rewrite (SND ls2 L2), (SND ls eq_refl). rewrite (texts_sim wr ls ls2 0) by (eapply sims_trans; eassumption). reflexivity. }
  eexists. split.
  - unfold save_model. rewrite (SND ls eq_refl), TT. reflexivity.
  - unfold report. rewrite ML. fold (recognised res). rewrite ES. destruct save; [|reflexivity]. rewrite EQ. unfold save_model. rewrite (SND ls eq_refl), TT. reflexivity.
Qed.

Theorem main_ok : forall P u lr rs save e, List.Forall (fun r => 0 <= r < rmax) rs ->
  main_run E cast show showf wr big limit rmax P (Readable ti) (Readable tl) (Readable vi) (Readable vl) u lr 1 rs save e ->
  exists m r ps ls ms res ts f, main_model E u = Ok m /\ gen_open big limit (Readable ti) (Readable tl) = Ok r /\ delivers big r ps /\
    train E cast text_eqb main_labels P (main_params lr 1) (gen_size r) ps (map snd (m_layers m)) ps (ORet ls tt) /\
    alone E cast main_labels 28 28 vi vl k ls res /\ Forall2 (shown main_labels show 28 28 k vi vl res rmax) rs ts /\
    save_model wr word_io (with_layers m ls) = Ok (true, f) /\
    e = Done (recognised res) k (count_text showf ms (recognised res) k ++ concat ts) (if save then Some f else None).
Proof.
  intros P u lr rs save e HR H.
  destruct (main_trains E ORD cast big limit n ti tl u lr TR Hn DG) as (r & ps & m & ER & D & _ & EM & TA & _).
  destruct (main_model_ok E u) as (m0 & body & EM0 & ML & LL & NF & _). rewrite EM in EM0. injection EM0 as <-.
  destruct H as [e ER'|ER'|r' e ER' EM'|r' ER' EM'|r' m' ps' ls e ER' EM' D' TN|r' m' ps' ER' EM' D' TN|r' m' ps' ls o ms ER' EM' D' TN V L5]; rewrite ER in ER'.
  - discriminate ER'.
  - discriminate ER'.
  - rewrite EM in EM'. discriminate EM'.
  - rewrite EM in EM'. discriminate EM'.
  - injection ER' as <-. rewrite EM in EM'. injection EM' as <-. rewrite (feed_fun _ _ _ _ D' (delivers_feed _ _ _ D)) in TN. destruct (TA P _ TN) as (ls0 & Q & _). discriminate Q.
  - injection ER' as <-. rewrite EM in EM'. injection EM' as <-. rewrite (feed_fun _ _ _ _ D' (delivers_feed _ _ _ D)) in TN. destruct (TA P _ TN) as (ls0 & Q & _). discriminate Q.
  - injection ER' as <-. rewrite EM in EM'. injection EM' as <-. rewrite (feed_fun _ _ _ _ D' (delivers_feed _ _ _ D)) in TN. destruct (TA P _ TN) as (ls0 & Q & SU & RD). injection Q as <-.
    rewrite ML in V, TN.
    assert (LEN : length (m_layers m) = length ls).
    { rewrite <- (map_length snd (m_layers m)), LL, app_length, (net_fit_length _ _ _ NF). destruct SU as (b & sm & -> & NF' & _). rewrite app_length, (net_fit_length _ _ _ NF'). reflexivity. }
    destruct (after_training u m ls ms rs save o EM ML LEN SU RD HR V) as (res & ts & A & SH & f & SV & EQ).
    exists m, r, ps, ls, ms, res, ts, f.
    split; [exact EM|]. split; [exact ER|]. split; [exact D|]. split; [exact TN|]. split; [exact A|]. split; [exact SH|]. split; [exact SV|exact EQ].
Qed.
Theorem main_runs : forall u lr rs save, length rs = 5%nat ->
  exists e, main_run E cast show showf wr big limit rmax (fun _ => True) (Readable ti) (Readable tl) (Readable vi) (Readable vl) u lr 1 rs save e.
Proof.
  intros u lr rs save L5. destruct (main_trains E ORD cast big limit n ti tl u lr TR Hn DG) as (r & ps & m & ER & D & _ & EM & TA & (o & TN)).
  destruct (TA _ _ TN) as (ls & -> & SU & RD). pose proof (set_usable ls SU RD) as US. pose proof (mn_n _ _ _ _ _ _ VA) as KB. unfold two31 in KB.
  destruct (validate_runs E cast main_labels ls main_shapes 28 28 big limit k vi vl 1 US VA ltac:(lia) ltac:(lia)) as (o & V).
  destruct (main_model_ok E u) as (m0 & body & EM0 & ML & _). rewrite EM in EM0. injection EM0 as <-.
  exists (report E cast show showf wr big limit rmax m 0 rs save o).
  apply (run_all E cast show showf wr big limit rmax _ _ _ _ _ u lr 1 rs save r m ps ls o 0); [exact ER|exact EM|apply delivers_feed; exact D|exact TN|rewrite ML; exact V|exact L5].
Qed.

(** If rand() returns RAND_MAX for one of the samples, the program does not return from main. *)
Theorem main_max : forall P u lr pre post save e, List.Forall (fun r => 0 <= r < rmax) pre ->
  main_run E cast show showf wr big limit rmax P (Readable ti) (Readable tl) (Readable vi) (Readable vl) u lr 1 (pre ++ rmax :: post) save e -> e = Failed RuntimeError.
Proof.
  intros P u lr pre post save e HR H. remember (pre ++ rmax :: post) as rs eqn:ERS.
  destruct (main_trains E ORD cast big limit n ti tl u lr TR Hn DG) as (r & ps & m & ER & D & _ & EM & TA & _).
  destruct (main_model_ok E u) as (m0 & body & EM0 & ML & _). rewrite EM in EM0. injection EM0 as <-.
  destruct H as [e ER'|ER'|r' e ER' EM'|r' ER' EM'|r' m' ps' ls e ER' EM' D' TN|r' m' ps' ER' EM' D' TN|r' m' ps' ls o ms ER' EM' D' TN V L5]; rewrite ER in ER'.
  - discriminate ER'.
  - discriminate ER'.
  - rewrite EM in EM'. discriminate EM'.
  - rewrite EM in EM'. discriminate EM'.
  - injection ER' as <-. rewrite EM in EM'. injection EM' as <-. rewrite (feed_fun _ _ _ _ D' (delivers_feed _ _ _ D)) in TN. destruct (TA P _ TN) as (ls0 & Q & _). discriminate Q.
  - injection ER' as <-. rewrite EM in EM'. injection EM' as <-. rewrite (feed_fun _ _ _ _ D' (delivers_feed _ _ _ D)) in TN. destruct (TA P _ TN) as (ls0 & Q & _). discriminate Q.
  - injection ER' as <-. rewrite EM in EM'. injection EM' as <-. rewrite (feed_fun _ _ _ _ D' (delivers_feed _ _ _ D)) in TN. destruct (TA P _ TN) as (ls0 & Q & SU & RD). injection Q as <-.
    rewrite ML in V. pose proof (set_usable ls SU RD) as US. pose proof (mn_n _ _ _ _ _ _ VA) as KB. unfold two31 in KB.
    destruct (alone_exists E cast main_labels ls main_shapes 28 28 limit k vi vl US VA) as (res & A & RL).
    destruct (validate_ends E cast main_labels ls main_shapes 28 28 big limit k vi vl 1 US VA ltac:(lia) ltac:(lia) res o A V) as (ls' & rd & -> & _ & UR & US' & A').
    assert (S' : sims ls' ls') by (eapply fit_sims; eapply un_fit; exact US').
    unfold report. rewrite ML, ERS.
    destruct (samples_max E cast main_labels show main_shapes 28 28 big limit k vi vl VA ltac:(lia) res RL ls' A' rmax RM Hk pre post ls' rd
      (count_text showf ms (tally k (hit main_labels vl res)) k) HR S' UR) as (st & ->). reflexivity.
Qed.
End Program.
