(** The theorems about validate, from the layers and files at its start. *)
From Coq Require Import ZArith List Bool Lia.
From Verif Require Import Base Dim Matrix View Num Expr Spec Iter Sums MatFacts MatThms Batch Kernel Connected Float32 FloatFacts Pooling Activation Softmax
  LayerFacts KernelThms ConnectedThms PoolingThms PoolGrad LayerTotal Chars Model Net NetGrad ModelThms Train TrainLocal TrainRest TrainSgd Shapes ShapeNet Mnist MnistFacts Validate ValidateFacts ValidateStep ValidateRun.
Import ListNotations.
Local Open Scope Z_scope.

Section Thms.
Context {T : Type} {N : Num T} (E : env T) (cast : f32 -> T) (labels : list text).
Local Notation nl := (Z.of_nat (length labels)).

(** Layers that validate can use: of fitting shapes, fully connected layers initialised, pooling layers with a slot *)
Record usable_net (ls : list (layer T)) (ss : list shape) (d : dim3) : Prop := {
  un_body : exists body sm, ls = body ++ [LSoft sm] /\ sm_count sm = nl /\ net_fit body ss d /\ List.Forall ready body /\ List.Forall (fun l => index_slot l 0) body;
  un_ok : h_net_ok ss d;
  un_labels : labels_ok (h_net_out ss d) nl
}.
(** The result of the image without threads *)
Definition alone (h w : Z) (fi fl : file) (n : Z) (ls : list (layer T)) (rs : Z -> results T) : Prop :=
  forall i m, 0 <= i < n -> image_no h w fi fl i m -> exists ls', forward_pass E cast nl (i_data m) 0 ls = ORet ls' (rs i).

Lemma sims_params : forall ls ls' : list (layer T), sims ls ls' -> map params_of ls = map params_of ls'.
Proof. intros ls ls' H. induction H as [|l l' ls ls' H1 H2 IH]; [reflexivity|]. cbn. rewrite IH. f_equal. destruct H1; reflexivity. Qed.

Lemma un_fit : forall ls ss d, usable_net ls ss d -> fit labels ss d ls.
Proof.
  intros ls ss d [(body & sm & -> & C & NF & RD & IX) OK LO]. apply fit_body; assumption.
Qed.

Lemma alone_exists : forall ls ss h w limit n fi fl, usable_net ls ss (D3 h w 1) -> mnist limit n h w fi fl ->
  exists rs, alone h w fi fl n ls rs /\ forall i, 0 <= i < n -> 0 <= r_label (rs i) < nl.
Proof.
  intros ls ss h w limit n fi fl U P. destruct (open_usable true limit n h w fi fl P) as (rd & _ & UR & _).
  set (rs := fun i => match get_image true limit i rd with
                      | ORet _ m => match forward_pass E cast nl (i_data m) 0 ls with ORet _ r => r | _ => Results 0 0 n0 n0 [] end
                      | _ => Results 0 0 n0 n0 []
                      end).
  assert (K : forall i m, 0 <= i < n -> image_no h w fi fl i m -> (exists ls', forward_pass E cast nl (i_data m) 0 ls = ORet ls' (rs i)) /\ 0 <= r_label (rs i) < nl).
  { intros i m Hi IM.
    destruct (call_ok true limit n h w fi fl P (Get i) rd UR (index_reachable limit n h w fi fl P i ltac:(lia))) as [(_ & r' & m' & EC & IM' & _)|(B & _)]; [|lia].
    cbn [do_call] in EC. assert (EQ : i_data m' = i_data m) by (destruct IM as [IM _], IM' as [IM' _]; eapply is_mat_unique; [apply (mn_fits _ _ _ _ _ _ P)|exact IM'|exact IM]).
    destruct U as [(body & sm & -> & C & NF & RD & IX) OK LO].
    destruct (forward_total E body sm ss (D3 h w 1) nl 0 _ cast (i_data m) NF C IX OK LO (is_has _ _ _ (proj1 IM))) as (b' & x0 & r1 & p & r & EF & _ & _ & _ & _ & RL & _).
    unfold rs. rewrite EC, EQ, EF. split; [eauto|exact RL]. }
  exists rs. split; [intros i m Hi IM; apply (K i m Hi IM)|]. intros i Hi.
  destruct (call_ok true limit n h w fi fl P (Get i) rd UR (index_reachable limit n h w fi fl P i ltac:(lia))) as [(_ & r' & m' & _ & IM' & _)|(B & _)]; [|lia].
  apply (K i m' Hi IM').
Qed.

Lemma alone_unique : forall ls h w limit n fi fl rs rs', mnist limit n h w fi fl -> alone h w fi fl n ls rs -> alone h w fi fl n ls rs' ->
  forall i, 0 <= i < n -> rs i = rs' i.
Proof.
  intros ls h w limit n fi fl rs rs' P A A' i Hi. destruct (open_usable true limit n h w fi fl P) as (rd & _ & UR & _).
  destruct (call_ok true limit n h w fi fl P (Get i) rd UR (index_reachable limit n h w fi fl P i ltac:(lia))) as [(_ & r' & m' & _ & IM' & _)|(B & _)]; [|lia].
  destruct (A i m' Hi IM') as (l1 & E1). destruct (A' i m' Hi IM') as (l2 & E2). congruence.
Qed.

Section One.
Context (ls : list (layer T)) (ss : list shape) (h w : Z) (big : bool) (limit n : Z) (fi fl : file) (nt : Z).
Hypothesis U : usable_net ls ss (D3 h w 1).
Hypothesis P : mnist limit n h w fi fl.
Hypothesis NT : 1 <= nt.
Hypothesis NN : n + nt <= 2 ^ 31.

Lemma opened : exists rd, reader_open big (Readable fi) (Readable fl) = Ok rd /\ usable n h w fi fl rd /\ s32 (num_images rd) = n.
Proof.
  destruct (open_usable big limit n h w fi fl P) as (rd & ER & UR & _). exists rd. split; [exact ER|]. split; [exact UR|].
  destruct UR as (p & q & i & -> & _). unfold num_images. cbn [r_num]. pose proof (mn_n _ _ _ _ _ _ P). rewrite u64_id31 by assumption. apply s32_id. unfold two31 in *. lia.
Qed.

(** Every possible end of the validation *)
Theorem validate_ends : forall rs o, alone h w fi fl n ls rs -> validation E cast labels big limit (Readable fi) (Readable fl) nt ls o ->
  exists ls' rd, o = ORet ls' (tally n (hit labels fl rs), n, rd) /\ map params_of ls' = map params_of ls /\ usable n h w fi fl rd /\ usable_net ls' ss (D3 h w 1) /\
    alone h w fi fl n ls' rs.
Proof.
  intros rs o A V. destruct opened as (rd & ER & UR & SN). pose proof (un_fit _ _ _ U) as F. destruct U as [UB OK LO].
  assert (NN' : n + nt <= two31) by (unfold two31; exact NN).
  destruct V as [rd' g N0 ER' n' X FIN|rd' g t e N0 ER' n' X ST|rd' g t N0 ER' n' X ST|e ER'|ER'|rd' ER' NEG]; rewrite ER in ER'; try discriminate.
  - injection ER' as <-. assert (EN : n' = n) by exact SN. clearbody n'. subst n'.
    destruct (run_count E cast labels ss h w OK LO big limit n fi fl (mn_n _ _ _ _ _ _ P) none (get_all big limit n h w fi fl P) nt NT NN' ls F rs (fun i m Hi _ => A i m Hi) rd g UR X FIN) as (C & S & UR' & _).
    pose proof (exec_inv E cast labels ss h w OK LO big limit n fi fl (mn_n _ _ _ _ _ _ P) none (get_all big limit n h w fi fl P) nt NT NN' ls rs (fun i m Hi _ => A i m Hi) _ _ (start_inv E cast labels ss h w n fi fl (mn_n _ _ _ _ _ _ P) none nt NT NN' ls F rs rd UR) X) as I.
    exists (v_layers g), (v_reader g). rewrite C. split; [reflexivity|]. split; [symmetry; apply sims_params; exact S|]. split; [exact UR'|].
    assert (GV : alone h w fi fl n (v_layers g) rs).
    { intros i m Hi IM. eapply (gives_sim E cast labels ss (D3 h w 1) (i_data m) VStart); [exact S|exact Logic.I|exact Logic.I|]. apply A; assumption. }
    split; [|exact GV]. split; [|exact OK|exact LO].
    destruct UB as (body & sm & EL & CN & NF & RD & IX). rewrite EL in S. apply Forall2_app_inv_l in S. destruct S as (b' & r' & S1 & S2 & EV).
    inversion S2 as [|? ? ? ? Q1 Q2]; subst. inversion Q2; subst. inversion Q1; subst. exists b', sm. split; [exact EV|]. split; [exact CN|].
    clear - NF RD S1 I EV. pose proof (iv_fit _ _ _ _ _ _ _ _ _ _ _ _ _ _ I) as FI. rewrite EV in FI. clear I EV.
    split; [|split].
    + clear FI. revert ss NF. generalize (D3 h w 1). induction S1 as [|l l' b b' H1 H2 IH]; intros d0 [|s ss0] NF; cbn in NF |- *; try contradiction; [exact Logic.I|].
      destruct NF as [NF1 NF2]. inversion RD; subst. split; [destruct H1; [destruct s; exact NF1|exact NF1]|]. apply IH; assumption.
    + clear - S1 RD. induction S1 as [|l l' b b' H1 H2 IH]; constructor; inversion RD; subst; [destruct H1; [exact Logic.I|assumption]|]. apply IH; assumption.
    + apply Forall_forall. intros l HL. apply In_nth_error in HL. destruct HL as [j Q]. destruct FI as (L & _ & FF).
      assert (J : (j < length b')%nat) by (apply nth_error_Some; congruence). rewrite app_length in L. cbn in L.
      destruct (nth_error ss j) as [s|] eqn:QS; [|apply nth_error_None in QS; lia]. destruct (FF j s QS) as (l' & Q' & _ & _ & IX). rewrite nth_error_app1 in Q' by lia. congruence.
  - injection ER' as <-. assert (EN : n' = n) by exact SN. clearbody n'. subst n'.
    pose proof (run_safe E cast labels ss h w OK LO big limit n fi fl (mn_n _ _ _ _ _ _ P) none (get_all big limit n h w fi fl P) nt NT NN' ls F rs (fun i m Hi _ => A i m Hi) rd g t UR X) as RS. rewrite ST in RS. destruct RS.
  - injection ER' as <-. assert (EN : n' = n) by exact SN. clearbody n'. subst n'.
    pose proof (run_safe E cast labels ss h w OK LO big limit n fi fl (mn_n _ _ _ _ _ _ P) none (get_all big limit n h w fi fl P) nt NT NN' ls F rs (fun i m Hi _ => A i m Hi) rd g t UR X) as RS. rewrite ST in RS. destruct RS as (i & _ & []).
  - lia.
Qed.

(** The validation ends: no deadlock, a bound for the number of steps, and an execution that reaches the end from
    everywhere *)
Theorem validate_progress : forall rd, reader_open big (Readable fi) (Readable fl) = Ok rd ->
  (forall g, vexec E cast labels big limit nt n (vstart nt ls rd) g -> vfinished g \/ exists t g', vgstep E cast labels big limit nt n t g = VNext g') /\
  (forall sched g, vrun E cast labels big limit nt n sched (vstart nt ls rd) = VNext g -> Z.of_nat (length sched) <= nt * (per_image ss h w * n + 1)).
Proof.
  intros rd ER. destruct opened as (rd' & ER' & UR & SN). rewrite ER in ER'. injection ER' as <-. pose proof (un_fit _ _ _ U) as F. pose proof U as [UB OK LO].
  assert (NN' : n + nt <= two31) by (unfold two31; exact NN).
  destruct (alone_exists ls ss h w limit n fi fl U P) as (rs & A & _). split.
  - intros g X. destruct (run_live E cast labels ss h w OK LO big limit n fi fl (mn_n _ _ _ _ _ _ P) none (get_all big limit n h w fi fl P) nt NT NN' ls F rs (fun i m Hi _ => A i m Hi) rd g UR X) as [FIN|(t & [ST|(_ & i & _ & [])])]; eauto.
  - apply (run_ends E cast labels ss h w OK LO big limit n fi fl (mn_n _ _ _ _ _ _ P) none (get_all big limit n h w fi fl P) nt NT NN' ls F rs (fun i m Hi _ => A i m Hi) rd UR).
Qed.
Theorem validate_runs : exists o, validation E cast labels big limit (Readable fi) (Readable fl) nt ls o.
Proof.
  destruct opened as (rd & ER & UR & SN). pose proof (un_fit _ _ _ U) as F. pose proof U as [UB OK LO].
  assert (NN' : n + nt <= two31) by (unfold two31; exact NN).
  destruct (alone_exists ls ss h w limit n fi fl U P) as (rs & A & _).
  destruct (run_ends E cast labels ss h w OK LO big limit n fi fl (mn_n _ _ _ _ _ _ P) none (get_all big limit n h w fi fl P) nt NT NN' ls F rs (fun i m Hi _ => A i m Hi) rd UR) as [_ R].
  destruct (R [] (vstart nt ls rd) eq_refl) as (sched & g & RG & [FIN|(_ & i & _ & [])]).
  exists (ORet (v_layers g) (v_count g, s32 (num_images rd), v_reader g)). apply val_done; [lia|exact ER| |exact FIN]. rewrite SN.
  eapply vrun_exec; [apply vx_nil|exact RG].
Qed.
End One.
End Thms.
