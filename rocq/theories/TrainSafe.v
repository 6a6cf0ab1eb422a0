(** Training never fails, for any type of numbers and all executions: the layers fit, the data points have the right size
    and known labels. Overlapping label hand-overs are included. *)
From Coq Require Import ZArith List Bool Lia Permutation.
From Verif Require Import Base Dim Matrix View Num Expr Spec Iter MatFacts Batch Kernel Connected Float32 Pooling Activation Softmax
  FloatFacts Chars Model Net NetGrad ModelThms Train TrainLocal TrainRest TrainInv TrainData TrainEnd TrainThms TrainEpoch TrainNet TrainSgd TrainMore Shapes ShapeNet.
Import ListNotations.
Local Open Scope Z_scope.

Section Safe.
Context {T : Type} {N : Num T} (E : env T).
Hypothesis ORD : e_moved E = false.
Context {U L : Type} (cast : U -> T) (eqL : L -> L -> bool) (labels : list L).
Local Notation shared := (shared (T := T) (U := U) (L := L)).
Local Notation pc := (pc (T := T) (U := U) (L := L)).
Local Notation estate := (estate (T := T) (U := U) (L := L)).
Local Notation idx := (label_idx eqL labels).
Local Notation nl := (Z.of_nat (length labels)).

(** The layers fit, have [bs] slots, and have a softmax layer for all labels at the end. *)
Definition set_up (ls : list (layer T)) (ss : list shape) (d : dim3) (bs : Z) : Prop :=
  exists body sm, ls = body ++ [LSoft sm] /\ net_fit body ss d /\ sm_count sm = nl /\
    List.Forall (nslots bs) body /\ forall i, 0 <= i < bs -> List.Forall (fun l => slot_ok l i) body.
(** All gradient slots hold matrices of the right sizes. *)
Definition all_filled (ls : list (layer T)) (ss : list shape) (d : dim3) (bs : Z) : Prop :=
  exists body sm, ls = body ++ [LSoft sm] /\ forall i, 0 <= i < bs -> net_filled body ss d i.
Definition pt_ok (d : dim3) (p : point U L) : Prop := has (pt_data p) d /\ 0 <= idx p < nl.

Lemma agree_fit : forall m b (l l' : layer T) s d, agree m b l l' -> l_fit l s d -> l_fit l' s d.
Proof.
  intros m b l l' s d H HL. destruct H; destruct s; cbn in *; try contradiction; auto.
Qed.
Lemma agree_filled : forall m i (l l' : layer T) s d, 0 <= i -> agree m (Z.to_nat i) l l' -> filled l s d i -> filled l' s d i.
Proof.
  intros m i l l' s d Hi H HL. destruct H as [? ? ? ? ? ? ? ? ? S1 S2|? ? ? ? ? ? ? S1 S2|? ? ? ? ? S1|?|]; cbn in *; auto;
    rewrite <- (slots_vget _ _ _ Hi S1), <- (slots_vget _ _ _ Hi S2); exact HL.
Qed.
Lemma fit_agree : forall b ls ls' ss d, Forall2 (agree false b) ls ls' -> net_fit (T := T) ls ss d -> net_fit ls' ss d.
Proof.
  intros b ls ls' ss d H. revert ss d. induction H as [|l l' ls ls' A H IH]; intros ss d HN; destruct ss; cbn in *; auto.
  destruct HN. split; [eapply agree_fit; eassumption|apply IH; assumption].
Qed.
Lemma filled_agree : forall i ls ls' ss d, 0 <= i -> Forall2 (agree false (Z.to_nat i)) ls ls' -> net_filled (T := T) ls ss d i -> net_filled ls' ss d i.
Proof.
  intros i ls ls' ss d Hi H. revert ss d. induction H as [|l l' ls ls' A H IH]; intros ss d HN; destruct ss; cbn in *; auto.
  destruct HN. split; [eapply agree_filled; eassumption|apply IH; assumption].
Qed.

Section One.
Context (P : shared -> Prop) (wc bs : Z) (nt : nat) (ss : list shape) (d : dim3).
Hypothesis HW : 0 <= wc.
Hypothesis HB : 1 <= bs.
Hypothesis HB2 : bs < two31.
Hypothesis CV : bs <= Z.of_nat nt * wc.
Hypothesis HR : h_ready ss d nl.

(** What every state of a batch is like *)
Definition any_label (p : point U L) (k : Z) : Prop := 0 <= k < nl.
Lemma safe_inv : forall (e : estate) pcs g log, spawn nt 0 wc = Ok pcs -> Z.of_nat (length (s_results e)) = bs ->
  set_up (s_layers e) ss d bs -> List.Forall ready (s_layers e) -> (forall p, In p (s_source e) -> pt_ok d p) ->
  texec E cast eqL labels P wc bs (start e pcs) g log ->
  invD E cast eqL labels (s_layers e) (s_results e) nl any_label log g /\ (forall t, (forall x, gstep E cast eqL labels wc bs t g <> GStop x) /\ gstep E cast eqL labels wc bs t g <> GUB).
Proof.
  intros e pcs g log SP RL (body & sm & EL & HF & HC & NS & SO) RD GP X. assert (HB0 : 0 <= bs) by lia.
  assert (HC' : forall body' s', s_layers e = body' ++ [LSoft s'] -> sm_count s' = nl).
  { intros body' s' EQ. rewrite EL in EQ. apply app_inj_tail in EQ. destruct EQ as [_ EQ]. congruence. }
  assert (KO : forall p, In p (s_source e) -> any_label p (idx p)) by (intros p HP; apply GP; exact HP).
  assert (KX : forall (g0 : shared) (t t' : nat) (b b' : Z) (p p' : point U L), P g0 -> t <> t' -> window g0 t b p -> window g0 t' b' p' -> In p (s_source e) -> In p' (s_source e) -> any_label p' (idx p)).
  { intros g0 t t' b b' p p' _ _ _ _ HP _. apply GP. exact HP. }
  split.
  - eapply invD_exec with (wc := wc) (bs := bs) (P := P) (src0 := s_source e) (pcs0 := pcs) (nt := nt); eassumption.
  - intros t. eapply no_stop with (P := P) (nt := nt) (K := any_label) (ls0 := s_layers e) (src0 := s_source e) (cnt := nl)
      (res0 := s_results e) (succ0 := s_success e) (pcs0 := pcs) (log := log); try eassumption.
    + intros p k _ HK. apply HK.
    + eauto.
    + intros b p k Hb HP HK. destruct (GP p HP) as [G1 G2]. rewrite EL.
      destruct (point_total E ORD cast eqL labels body sm ss d p b k HF HC HR (SO b Hb) G1 G2 HK) as (body' & r & Q & _). eauto.
Qed.

(** The layers after a batch *)
Lemma safe_layers : forall (e : estate) pcs g log, spawn nt 0 wc = Ok pcs -> Z.of_nat (length (s_results e)) = bs ->
  set_up (s_layers e) ss d bs -> List.Forall ready (s_layers e) -> (forall p, In p (s_source e) -> pt_ok d p) ->
  texec E cast eqL labels P wc bs (start e pcs) g log -> finished g ->
  (forall i, 0 <= i < bs -> ~ In i (map (fun x => snd (fst x)) log) -> exists body sm, s_layers e = body ++ [LSoft sm] /\ net_filled body ss d i) ->
  set_up (g_layers g) ss d bs /\ all_filled (g_layers g) ss d bs /\ List.Forall ready (g_layers g).
Proof.
  intros e pcs g log SP RL SU RD GP X F OLD. assert (HB0 : 0 <= bs) by lia.
  destruct (safe_inv e pcs g log SP RL SU RD GP X) as [D _]. destruct SU as (body & sm & EL & HF & HC & NS & SO).
  destruct (batch_taken E cast eqL labels wc bs nt e pcs HW HB0 HB2 SP RL _ _ _ X) as (ND & RG & SRC & _).
  pose proof (batch_agree E cast eqL labels wc bs nt e pcs HW HB0 HB2 SP RL RD _ _ _ X) as AG.
  pose proof (TrainThms.agreeL_ready _ _ _ AG) as RDg.
  rewrite EL in AG. apply agreeL_sym in AG. destruct (agreeL_split _ _ _ _ AG) as (body' & sm' & EG & HC' & AF).
  assert (SL : forall i, 0 <= i < bs -> net_filled body' ss d i /\ List.Forall (fun l => slot_ok l i) body').
  { intros i Hi. destruct (in_dec Z.eq_dec i (map (fun x => snd (fst x)) log)) as [IS|NI].
    - apply in_map_iff in IS. destruct IS as ([[t b] p] & HE & HI). cbn in HE. subst b.
      destruct (RG _ _ _ HI) as [TL _].
      assert (HP : In p (s_source e)). { rewrite SRC. apply in_or_app. left. apply in_map_iff. exists (t, i, p). auto. }
      destruct (GP p HP) as [G1 G2].
      pose proof (batch_invA E cast eqL labels wc bs nt e pcs HW HB0 HB2 SP RL _ _ _ X) as A.
      destruct (nth_error (g_pcs g) t) as [c|] eqn:QC. 2:{ apply nth_error_None in QC. rewrite (a_len _ _ _ _ _ _ A) in QC. lia. }
      destruct (F c (nth_error_In _ _ QC)) as [b0 ->].
      pose proof (d_ent _ _ _ _ _ _ _ _ _ _ D t i p _ HI QC) as EN. unfold ent in EN. cbn [phase] in EN.
      destruct EN as (k & lsp & r & HK & PV & AGi & _).
      apply priv_rest in PV. rewrite EL in PV.
      destruct (point_total E ORD cast eqL labels body sm ss d p i k HF HC HR (SO i Hi) G1 G2 HK) as (b2 & r2 & Q & N1 & N2 & N3 & N4).
      rewrite Q in PV. cbn [rest] in PV. injection PV as <- <-.
      apply agreeL_sym in AGi. destruct (agreeL_split _ _ _ _ AGi) as (body2 & sm3 & EG2 & _ & AF2). rewrite EG in EG2. apply app_inj_tail in EG2. destruct EG2 as [<- _].
      split; [eapply filled_agree; [lia|exact AF2|exact N3]|].
      eapply Forall_agree; [|exact AF2|apply N4; apply SO; exact Hi]. intros l l' AA. apply (agree_slot_ok false); [lia|exact AA].
    - destruct (d_free _ _ _ _ _ _ _ _ _ _ D i (proj1 Hi)) as [AGi _].
      { intros t p HI. apply NI. apply in_map_iff. exists (t, i, p). auto. }
      rewrite EL in AGi. apply agreeL_sym in AGi. destruct (agreeL_split _ _ _ _ AGi) as (body2 & sm3 & EG2 & _ & AF2). rewrite EG in EG2. apply app_inj_tail in EG2. destruct EG2 as [<- _].
      destruct (OLD i Hi NI) as (body0 & sm0 & EL0 & ST0). rewrite EL in EL0. apply app_inj_tail in EL0. destruct EL0 as [<- _].
      split; [eapply filled_agree; [lia|exact AF2|exact ST0]|].
      eapply Forall_agree; [|exact AF2|apply SO; exact Hi]. intros l l' AA. apply (agree_slot_ok false); [lia|exact AA]. }
  split; [|split; [|exact RDg]].
  - exists body', sm'. split; [exact EG|]. split; [eapply fit_agree; [exact AF|exact HF]|]. split; [congruence|].
    split; [eapply Forall_agree; [|exact AF|exact NS]; intros l l' AA; apply (agree_nslots _ _ _ _ _ AA)|]. intros i Hi. apply (SL i Hi).
  - exists body', sm'. split; [exact EG|]. intros i Hi. apply (SL i Hi).
Qed.

(** A batch never fails if it is full or all slots were filled before. *)
Theorem batch_safe : forall (e : estate) lr o, spawn (T := T) (U := U) (L := L) nt 0 wc <> UB -> Z.of_nat (length (s_results e)) = bs ->
  set_up (s_layers e) ss d bs -> List.Forall ready (s_layers e) -> (forall p, In p (s_source e) -> pt_ok d p) ->
  all_filled (s_layers e) ss d bs \/ bs <= Z.of_nat (length (s_source e)) ->
  batch E cast eqL labels P wc bs nt lr e o ->
  exists e', o = ORet e' tt /\ set_up (s_layers e') ss d bs /\ List.Forall ready (s_layers e') /\ all_filled (s_layers e') ss d bs /\
    Z.of_nat (length (s_results e')) = bs /\ s_source e' = skipn (Z.to_nat bs) (s_source e).
Proof.
  intros e lr o NU RL SU RD GP FL H. assert (HB0 : 0 <= bs) by lia.
  inversion H as [pcs g SP X F Q|pcs g t x SP X Q|pcs g t SP X Q|Q]; clear H.
  - apply exec_texec in X. destruct X as [log X].
    destruct (batch_taken E cast eqL labels wc bs nt e pcs HW HB0 HB2 SP RL _ _ _ X) as (ND & RG & SRC & TK). destruct (TK F CV) as [TK1 TK2]. clear TK.
    assert (OLD : forall i, 0 <= i < bs -> ~ In i (map (fun x => snd (fst x)) log) -> exists body sm, s_layers e = body ++ [LSoft sm] /\ net_filled body ss d i).
    { intros i Hi NI. destruct FL as [(body & sm & EL & AFi)|FL]; [eauto|]. exfalso. apply NI.
      set (sl := map (fun x : entry (U := U) (L := L) => snd (fst x)) log) in *.
      assert (LL : length log = Z.to_nat bs). { assert (Q1 : length (map snd log) = Z.to_nat bs) by (rewrite TK1; apply firstn_length_le; lia). rewrite map_length in Q1. exact Q1. }
      assert (SLl : length sl = Z.to_nat bs) by (unfold sl; rewrite map_length; exact LL).
      assert (RS : forall x, In x sl -> 0 <= x < Z.of_nat (Z.to_nat bs)).
      { intros x HX. apply in_map_iff in HX. destruct HX as ([[t b] p] & <- & HX). cbn. specialize (RG _ _ _ HX). nia. }
      pose proof (slots_perm _ sl ND SLl RS) as HP. eapply Permutation_in; [apply Permutation_sym; exact HP|]. apply in_map_iff. exists (Z.to_nat i). split; [lia|]. apply in_seq. lia. }
    destruct (safe_layers e pcs g log SP RL SU RD GP X F OLD) as (S1 & S2 & S3).
    pose proof S1 as (body & sm & EG & HF & HC & NS & SO). destruct S2 as (body2 & sm2 & EG2 & AFi). rewrite EG in EG2. apply app_inj_tail in EG2. destruct EG2 as [<- EG2]. injection EG2 as <-.
    rewrite EG in S3. apply Forall_app in S3. destruct S3 as [S3 _].
    destruct (apply_shapes lr bs body ss d HB HF S3 (proj1 HR) NS AFi) as (ls' & EA & L1 & L2 & (L3 & L4 & L5)).
    rewrite EG. assert (EB : apply_all lr (body ++ [LSoft sm]) = ORet (ls' ++ [LSoft sm]) tt) by (unfold apply_all in *; apply each_app; [exact EA|reflexivity]).
    rewrite EB. cbn [map_out]. eexists. split; [reflexivity|]. cbn [with_layers est_of s_layers s_source s_results].
    split; [|split; [|split; [|split]]].
    + exists ls', sm. split; [reflexivity|]. split; [exact L1|]. split; [exact HC|]. split; [apply L4; exact NS|]. intros i Hi. apply L3. apply SO. exact Hi.
    + apply Forall_app. split; [exact L2|]. constructor; [exact Logic.I|constructor].
    + exists ls', sm. split; [reflexivity|]. intros i Hi. apply L5. apply AFi. exact Hi.
    + apply (batch_invA E cast eqL labels wc bs nt e pcs HW HB0 HB2 SP RL) in X. exact (a_res _ _ _ _ _ _ X).
    + exact TK2.
  - exfalso. apply exec_texec in X. destruct X as [log X]. eapply (proj1 (proj2 (safe_inv e pcs g log SP RL SU RD GP X) t)). exact Q.
  - exfalso. apply exec_texec in X. destruct X as [log X]. eapply (proj2 (proj2 (safe_inv e pcs g log SP RL SU RD GP X) t)). exact Q.
  - contradiction.
Qed.

Theorem batches_safe : forall lr n (e : estate) o, spawn (T := T) (U := U) (L := L) nt 0 wc <> UB -> Z.of_nat (length (s_results e)) = bs ->
  set_up (s_layers e) ss d bs -> List.Forall ready (s_layers e) -> (forall p, In p (s_source e) -> pt_ok d p) ->
  n = O \/ all_filled (s_layers e) ss d bs \/ bs <= Z.of_nat (length (s_source e)) ->
  batches E cast eqL labels P wc bs nt lr n e o ->
  exists e', o = ORet e' tt /\ set_up (s_layers e') ss d bs /\ List.Forall ready (s_layers e') /\ (n = O /\ e' = e \/ all_filled (s_layers e') ss d bs) /\
    Z.of_nat (length (s_results e')) = bs.
Proof.
  intros lr. induction n as [|n IH]; intros e o NU RL SU RD GP FL H.
  - revert RL. inversion H; subst. intros RL. eexists. split; [reflexivity|]. auto 8.
  - assert (FL' : all_filled (s_layers e) ss d bs \/ bs <= Z.of_nat (length (s_source e))) by (destruct FL as [FL|FL]; [discriminate|exact FL]).
    revert RL. inversion H as [|n' e1 e' o' B1 B2|n' e1 o' B1 B2]; subst; intros RL.
    + destruct (batch_safe e lr _ NU RL SU RD GP FL' B1) as (e2 & Q & S1 & S2 & S3 & S4 & S5). injection Q as <-.
      destruct (IH e' o NU S4 S1 S2) as (e3 & Q3 & U1 & U2 & U3 & U4); auto.
      { intros p HP. apply GP. rewrite S5 in HP. rewrite <- (firstn_skipn (Z.to_nat bs)). apply in_or_app. auto. }
      exists e3. split; [exact Q3|]. split; [exact U1|]. split; [exact U2|]. split; [|exact U4]. right. destruct U3 as [[_ ->]|U3]; assumption.
    + exfalso. destruct (batch_safe e lr _ NU RL SU RD GP FL' B1) as (e2 & -> & _). eapply B2. reflexivity.
Qed.
End One.

Lemma spawn_fine : forall n t wc, 0 <= wc -> (Z.of_nat t + Z.of_nat n) * wc < two31 -> exists pcs : list pc, spawn n t wc = Ok pcs.
Proof.
  induction n as [|n IH]; intros t wc HW H; cbn [spawn]; [eauto|]. unfold i32.
  destruct ((- two31 <=? Z.of_nat t * wc) && (Z.of_nat t * wc <? two31)) eqn:Q1; [|unfold two31 in *; nia].
  destruct ((- two31 <=? (Z.of_nat t + 1) * wc) && ((Z.of_nat t + 1) * wc <? two31)) eqn:Q2; [|unfold two31 in *; nia]. cbn [rbind].
  destruct (IH (S t) wc HW) as [pcs ->]; [unfold two31 in *; nia|]. cbn [rbind]. eauto.
Qed.

(** Epochs *)
Theorem epoch_safe : forall P h d size ss ls src o, 1 <= h_nt h < 2 ^ 24 -> 1 <= h_bs h < 2 ^ 24 -> size = Z.of_nat (length src) -> size < 2 ^ 24 ->
  h_ready ss d nl -> set_up ls ss d (h_bs h) -> List.Forall ready ls -> (forall p, In p src -> pt_ok d p) ->
  size = 0 \/ all_filled ls ss d (h_bs h) \/ h_bs h <= size ->
  epoch E cast eqL labels P h size ls src o ->
  exists e, o = ORet e tt /\ set_up (s_layers e) ss d (h_bs h) /\ List.Forall ready (s_layers e) /\ (size = 0 \/ all_filled (s_layers e) ss d (h_bs h)).
Proof.
  intros P h d size ss ls src o Hn Hb HS HS2 HRd SU RD GP FL H.
  assert (P24 : 2 ^ 24 = 16777216) by reflexivity. rewrite P24 in *.
  destruct (ceil_facts (h_bs h) (h_nt h)) as [C1 C2]; [lia|lia|]. destruct (ceil_facts size (h_bs h)) as [D1 D2]; [lia|lia|].
  assert (E1 : ceil_div (h_bs h) (h_nt h) = Ok ((h_bs h + h_nt h - 1) / h_nt h)) by (apply ceil_div_exact; rewrite ?P24; lia).
  assert (E2 : ceil_div size (h_bs h) = Ok ((size + h_bs h - 1) / h_bs h)) by (apply ceil_div_exact; rewrite ?P24; lia).
  inversion H as [wc' nb o' N0 B0 W1 W2 BT EQ|X EQ|wc' N0 X1 X EQ|N0 [X|[_ X]] EQ]; subst o; try congruence; [|lia|lia].
  rewrite E1 in W1. injection W1 as <-. rewrite E2 in W2. injection W2 as <-.
  set (wc := (h_bs h + h_nt h - 1) / h_nt h) in *. set (nb := (size + h_bs h - 1) / h_bs h) in *.
  destruct (spawn_fine (Z.to_nat (h_nt h)) 0 wc C2 ltac:(unfold two31; lia)) as [pcs SP].
  destruct (batches_safe P wc (h_bs h) (Z.to_nat (h_nt h)) ss d C2 ltac:(lia) ltac:(unfold two31; lia) ltac:(lia) HRd (h_lr h) (Z.to_nat nb)
    (Est ls src (repeat None (Z.to_nat (h_bs h))) 0) o') as (e' & Q & S1 & S2 & S3 & _); auto.
  - rewrite SP. discriminate.
  - cbn [s_results]. rewrite repeat_length. lia.
  - cbn [s_layers s_source]. destruct FL as [FL|[FL|FL]]; [left|right; left; exact FL|right; right; lia].
    assert (nb = 0) by (unfold nb; rewrite FL; apply Z.div_small; lia). lia.
  - exists e'. split; [exact Q|]. split; [exact S1|]. split; [exact S2|]. destruct S3 as [[Z0 _]|S3]; [left|right; exact S3].
    assert (nb = 0) by lia. nia.
Qed.
Theorem epochs_safe : forall P h d size ss src, 1 <= h_nt h < 2 ^ 24 -> 1 <= h_bs h < 2 ^ 24 -> size = Z.of_nat (length src) -> size < 2 ^ 24 ->
  h_ready ss d nl -> (forall p, In p src -> pt_ok d p) ->
  forall n ls o, set_up ls ss d (h_bs h) -> List.Forall ready ls -> size = 0 \/ all_filled ls ss d (h_bs h) \/ h_bs h <= size ->
  epochs E cast eqL labels P h size src n ls src o ->
  exists ls', o = ORet ls' tt /\ set_up ls' ss d (h_bs h) /\ List.Forall ready ls'.
Proof.
  intros P h d size ss src Hn Hb HS HS2 HRd GP. induction n as [|n IH]; intros ls o SU RD FL H.
  - inversion H; subst. eauto.
  - inversion H as [|? ? ? e ? B1 B2|? ? ? e x B1|? ? ? B1]; subst o;
      destruct (epoch_safe P h d size ss ls src _ Hn Hb HS HS2 HRd SU RD GP FL B1) as (e1 & Q & S1 & S2 & S3); try discriminate.
    injection Q as <-. apply (IH (s_layers e)); auto. tauto.
Qed.
Theorem epochs_total : forall h d size ss src, 1 <= h_nt h < 2 ^ 24 -> 1 <= h_bs h < 2 ^ 24 -> size = Z.of_nat (length src) -> size < 2 ^ 24 ->
  h_ready ss d nl -> (forall p, In p src -> pt_ok d p) ->
  forall n ls, set_up ls ss d (h_bs h) -> List.Forall ready ls -> size = 0 \/ all_filled ls ss d (h_bs h) \/ h_bs h <= size ->
  exists o, epochs E cast eqL labels (fun _ => True) h size src n ls src o.
Proof.
  intros h d size ss src Hn Hb HS HS2 HRd GP. induction n as [|n IH]; intros ls SU RD FL; [eexists; constructor|].
  destruct (epoch_total E cast eqL labels h size ls src Hn Hb ltac:(lia)) as [o H].
  destruct (epoch_safe _ h d size ss ls src _ Hn Hb HS HS2 HRd SU RD GP FL H) as (e1 & -> & S1 & S2 & S3).
  destruct (IH (s_layers e1) S1 S2 ltac:(tauto)) as [o' H']. exists o'. eapply epochs_cons; eassumption.
Qed.

(** Training, for layers whose fully connected layers have seen an input *)
Theorem train_safe : forall P h d size ss body sm src o, 1 <= h_nt h < 2 ^ 24 -> 1 <= h_bs h < 2 ^ 24 -> size = Z.of_nat (length src) -> size < 2 ^ 24 ->
  h_ready ss d nl -> net_fit body ss d -> List.Forall ready body -> List.Forall idx_ok body -> sm_count sm = nl ->
  (forall p, In p src -> pt_ok d p) -> size = 0 \/ h_bs h <= size ->
  train E cast eqL labels P h size src (body ++ [LSoft sm]) src o ->
  exists ls', o = ORet ls' tt /\ set_up ls' ss d (h_bs h) /\ List.Forall ready ls'.
Proof.
  intros P h d size ss body sm src o Hn Hb HS HS2 HRd HF RD HI HC GP FL H.
  destruct (set_batch_shapes (h_bs h) body ss d ltac:(lia) HF HI) as (body' & EB & N1 & N2 & N3 & N4).
  assert (EA : set_batch_all (h_bs h) (body ++ [LSoft sm]) = ORet (body' ++ [LSoft sm]) tt) by (unfold set_batch_all in *; apply each_app; [exact EB|reflexivity]).
  inversion H as [ls1 s1 o1 Q H1|ls1 s1 x Q|s1 Q]; subst s1; rewrite EA in Q; try discriminate. injection Q as <-.
  eapply epochs_safe; [exact Hn|exact Hb|exact HS|exact HS2|exact HRd|exact GP| | |tauto|exact H1].
  - exists body', sm. auto 8.
  - apply Forall_app. split; [apply N4; exact RD|]. constructor; [exact Logic.I|constructor].
Qed.
Theorem train_runs : forall h d size ss body sm src, 1 <= h_nt h < 2 ^ 24 -> 1 <= h_bs h < 2 ^ 24 -> size = Z.of_nat (length src) -> size < 2 ^ 24 ->
  h_ready ss d nl -> net_fit body ss d -> List.Forall ready body -> List.Forall idx_ok body -> sm_count sm = nl ->
  (forall p, In p src -> pt_ok d p) -> size = 0 \/ h_bs h <= size ->
  exists o, train E cast eqL labels (fun _ => True) h size src (body ++ [LSoft sm]) src o.
Proof.
  intros h d size ss body sm src Hn Hb HS HS2 HRd HF RD HI HC GP FL.
  destruct (set_batch_shapes (h_bs h) body ss d ltac:(lia) HF HI) as (body' & EB & N1 & N2 & N3 & N4).
  assert (EA : set_batch_all (h_bs h) (body ++ [LSoft sm]) = ORet (body' ++ [LSoft sm]) tt) by (unfold set_batch_all in *; apply each_app; [exact EB|reflexivity]).
  destruct (epochs_total h d size ss src Hn Hb HS HS2 HRd GP (Z.to_nat (h_epochs h)) (body' ++ [LSoft sm])) as [o H].
  - exists body', sm. auto 8.
  - apply Forall_app. split; [apply N4; exact RD|]. constructor; [exact Logic.I|constructor].
  - tauto.
  - exists o. eapply train_run; eassumption.
Qed.
End Safe.
