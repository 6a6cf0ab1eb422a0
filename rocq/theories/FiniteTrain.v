(** Training in IEEE-754 double precision: bounds for the parameters after each batch. *)
From Coq Require Import ZArith Bool Lia Reals Lra Psatz List Permutation.
From Flocq Require Import Core BinarySingleNaN.
From Verif Require Import Base Dim Matrix View Num Expr Spec Iter Sums MatFacts MatThms ViewThms ExprThms Batch Kernel Connected Float32
  FloatFacts Pooling Activation Softmax LayerFacts KernelThms BatchThms ConnectedThms PoolingThms PoolGrad ActivationThms SoftmaxThms LayerTotal Calc Chars
  Double Bar BarFacts Model Net NetPass NetGrad ModelThms Train TrainLocal TrainRest TrainInv TrainData TrainEnd TrainThms TrainEpoch TrainNet TrainSgd TrainMore Shapes ShapeNet TrainSafe TrainOne
  ReportFacts FiniteFacts FiniteSoft FiniteInit FiniteNet Main FiniteReal FiniteMain FiniteBack.
Import ListNotations.
Local Open Scope Z_scope.

(** The bounds for a batch: parameters of at most 2^w, stored gradients of at most 2^g, learning rate of at most 2^r, pixels of at most 2^e *)
Definition g_next (ss : list shape) (d : dim3) (e w g : Z) : Z := Z.max g (h_net_gexp w ss d e 0).
Definition batch_lim (ss : list shape) (d : dim3) (r e w g : Z) : Prop :=
  h_net_lim 127 w ss d e /\ h_net_blim 970 w ss d e 0 /\ g <= 970 /\ -1074 <= r + g_next ss d e w g /\ w_next w r (g_next ss d e w g) <= 970.
(** ... and for [n] batches *)
Fixpoint batches_lim (n : nat) (ss : list shape) (d : dim3) (r e w g : Z) : Prop :=
  match n with O => True | S n' => batch_lim ss d r e w g /\ batches_lim n' ss d r e (w_next w r (g_next ss d e w g)) (g_next ss d e w g) end.
Fixpoint w_after (n : nat) (ss : list shape) (d : dim3) (r e w g : Z) : Z :=
  match n with O => w | S n' => w_after n' ss d r e (w_next w r (g_next ss d e w g)) (g_next ss d e w g) end.

Section Training.
Variable E : env double.
Hypothesis EO : env_ok E.
Hypothesis ORD : e_moved E = false.
Context {U L : Type} (cast : U -> double) (eqL : L -> L -> bool) (labels : list L).
Local Notation shared := (shared (T := double) (U := U) (L := L)).
Local Notation estate := (estate (T := double) (U := U) (L := L)).
Local Notation idx := (label_idx eqL labels).
Local Notation nl := (Z.of_nat (length labels)).

(** A data point with pixels of at most 2^e and a known label *)
Definition pt_small (d : dim3) (e : Z) (p : point U L) : Prop :=
  (exists J, is_mat (pt_data p) d J /\ forall a b c, inb d a b c -> within 1 e (cast (J a b c))) /\ 0 <= idx p < nl.
Lemma pt_small_ok : forall d e p, pt_small d e p -> pt_ok eqL labels d p.
Proof. intros d e p ((J & H & _) & I). split; [eapply is_has; exact H|exact I]. Qed.

(** All parameters are at most 2^w, and the gradients in the used slots at most 2^g. *)
Definition tame (bs : Z) (ss : list shape) (d : dim3) (w g : Z) (F0 : Prop) (b : Z) (ls : list (layer double)) : Prop :=
  exists body sm, ls = body ++ [LSoft sm] /\ net_small w body ss d /\ forall i, 0 <= i < bs -> F0 \/ i < b -> net_slot g body ss d i.

(** One data point, with any label written into the softmax layer *)
Lemma point_small : forall body sm ss d w e p b k, h_ready ss d nl -> 0 <= w -> 0 <= e -> h_net_lim 127 w ss d e -> h_net_blim 970 w ss d e 0 ->
  net_fit body ss d -> sm_count sm = nl -> List.Forall (fun l => slot_ok l b) body -> net_small w body ss d -> pt_small d e p -> 0 <= k < nl ->
  forall ls' r, rest E cast eqL labels b p k WStart (body ++ [LSoft sm]) = ORet ls' r ->
  exists b2, ls' = b2 ++ [LSoft (Soft true k nl)] /\ net_small w b2 ss d /\ net_slot (h_net_gexp w ss d e 0) b2 ss d b /\
    forall g i, i <> b -> net_slot g body ss d i -> net_slot g b2 ss d i.
Proof.
  intros body sm ss d w e p b k HR Hw He LF LB HF HC SO HW HP HK ls' r Q.
  destruct HP as ((J & HJ & BJ) & HI). destruct HR as (OK & BK & LO).
  destruct EO as (EX & TH & LG2 & CF & CD & EP & SQ & RN & HRa & OD & MX).
  assert (IX : List.Forall (fun l => index_slot l b) body) by (eapply Forall_impl; [intros l0; apply slot_index|exact SO]).
  destruct (forward_finite E EX TH CF SQ HRa OD MX RN w body sm ss d nl b e U cast (pt_data p) J HF HC IX OK LO HJ BJ HW Hw He LF)
    as (b1 & x0 & rs & q & r1 & P & EF & RI & X0 & RS & HPr & N1 & _). destruct HPr as (HPm & UP & _).
  destruct (forward_total E body sm ss d nl b U cast (pt_data p) HF HC IX OK LO (is_has _ _ _ HJ))
    as (b1' & x0' & rs' & q' & r1' & EF' & _ & _ & _ & _ & _ & T1 & T2 & T3 & _). rewrite EF in EF'. injection EF' as EQ <-. apply app_inj_tail in EQ. destruct EQ as [<- _]. specialize (T3 SO).
  destruct (loss_finite E RN LG2 EP ss d nl r1 x0 rs q (idx p) P OK LO RI HPm UP HI) as (r' & EL & RI' & _).
  destruct (backward_finite E ORD EX TH CD w b1 sm ss d nl b k e x0 rs q P (r_inputs r') T1 T2 T3 HC OK BK LO ltac:(rewrite RI'; exact RI) X0 RS HPm UP HK N1 Hw He LB)
    as (b2 & EB & M1 & M2 & M3).
  assert (ER : rest E cast eqL labels b p k WStart (body ++ [LSoft sm]) = ORet (b2 ++ [LSoft (Soft true k nl)]) r').
  { cbn [rest]. unfold bind. rewrite EF. unfold back, bind. rewrite EL. cbn [lift]. rewrite EB. reflexivity. }
  rewrite ER in Q. injection Q as <- _. exists b2. split; [reflexivity|]. split; [exact M1|]. split; [exact M2|].
  intros g i NE HS. apply M3; [exact NE|].
  apply net_slot_grads with body; [exact HF|exact T1| |exact HS].
  apply forward_grads in EF. rewrite !map_app in EF. apply app_inj_tail in EF. apply EF.
Qed.
Lemma tame_point : forall bs ss d e w g F0, h_ready ss d nl -> 0 <= w -> 0 <= e -> h_net_lim 127 w ss d e -> h_net_blim 970 w ss d e 0 -> h_net_gexp w ss d e 0 <= g ->
  forall b p ls, used labels bs ss d F0 b ls /\ tame bs ss d w g F0 b ls -> 0 <= b < bs -> pt_small d e p ->
  exists ls' r, rest E cast eqL labels b p (idx p) WStart ls = ORet ls' r /\ (used labels bs ss d F0 (b + 1) ls' /\ tame bs ss d w g F0 (b + 1) ls').
Proof.
  intros bs ss d e w g F0 HR Hw He LF LB LG b p ls (HU & HT) Hb HP.
  destruct (point_used E ORD cast eqL labels bs ss d F0 HR b p ls HU Hb (pt_small_ok _ _ _ HP)) as (ls' & r & Q & HU'). exists ls', r. split; [exact Q|]. split; [exact HU'|].
  destruct HU as (body & sm & -> & HF & HC & NS & SO & _ & _). destruct HT as (body0 & sm0 & EQ & HW & HS). apply app_inj_tail in EQ. destruct EQ as [<- EQ]. injection EQ as <-.
  destruct (point_small body sm ss d w e p b (idx p) HR Hw He LF LB HF HC (SO b Hb) HW HP (proj2 HP) ls' r Q) as (b2 & -> & M1 & M2 & M3).
  exists b2, (Soft true (idx p) nl). split; [reflexivity|]. split; [exact M1|].
  intros i Hi D. destruct (Z.eq_dec i b) as [->|NE]; [eapply net_slot_up; eassumption|]. apply M3; [exact NE|]. apply HS; [exact Hi|destruct D; [auto|right; lia]].
Qed.

(** One batch, one thread *)
Theorem batch_tame : forall P wc bs ss d r e w g (s : estate) lr o, 1 <= bs < two31 -> bs <= wc < two31 -> h_ready ss d nl ->
  Z.of_nat (length (s_results s)) = bs -> set_up labels (s_layers s) ss d bs -> (forall p, In p (s_source s) -> pt_small d e p) ->
  warm (s_layers s) ss d bs \/ bs <= Z.of_nat (length (s_source s)) -> within 1 r lr -> 0 <= w -> 0 <= g -> 0 <= e -> batch_lim ss d r e w g ->
  tame bs ss d w g (warm (s_layers s) ss d bs) 0 (s_layers s) ->
  batch E cast eqL labels P wc bs 1 lr s o ->
  exists s', o = ORet s' tt /\ set_up labels (s_layers s') ss d bs /\ warm (s_layers s') ss d bs /\
    Z.of_nat (length (s_results s')) = bs /\ s_source s' = skipn (Z.to_nat bs) (s_source s) /\
    tame bs ss d (w_next w r (g_next ss d e w g)) (g_next ss d e w g) True bs (s_layers s').
Proof.
  intros P wc bs ss d r e w g s lr o HB HW HR RL SU GP FL HL Hw Hg He (LF & LB & L3 & L4 & L5) TM H. set (F0 := warm (s_layers s) ss d bs) in *. set (g' := g_next ss d e w g) in *.
  destruct (batch_one E ORD cast eqL labels P wc bs ss d s lr o HB HW HR RL SU (fun p I => pt_small_ok d e p (GP p I)) FL H) as (s' & EO' & Q1 & Q2 & Q3 & Q4).
  exists s'. split; [exact EO'|]. split; [exact Q1|]. split; [exact Q2|]. split; [exact Q3|]. split; [exact Q4|].
  assert (GE : h_net_gexp w ss d e 0 <= g') by (unfold g', g_next; lia). pose proof (h_net_blim_g 970 w ss d e 0 ltac:(lia) LB) as G0.
  assert (G1 : g <= g' <= 970) by (unfold g', g_next; lia).
  assert (HU : used labels bs ss d F0 0 (s_layers s) /\ tame bs ss d w g' F0 0 (s_layers s)).
  { split.
    - destruct SU as (body & sm & EL & HF & HC & NS & SO). exists body, sm. rewrite EL. split; [reflexivity|]. split; [exact HF|]. split; [exact HC|]. split; [exact NS|]. split; [exact SO|].
      split; [intros i Hi [[(b2 & sm2 & EL2 & Q) _]|C]; [|lia]|intros [[_ Q]|C]; [|lia]].
      + rewrite EL in EL2. apply app_inj_tail in EL2. destruct EL2 as [<- _]. apply Q. exact Hi.
      + rewrite EL in Q. apply Forall_app in Q. apply Q.
    - destruct TM as (body & sm & EL & A & B). exists body, sm. split; [exact EL|]. split; [exact A|]. intros i Hi D. eapply net_slot_up; [apply B; assumption|lia]. }
  inversion H as [pcs gg SP X F Q|pcs gg t x SP X ST Q|pcs gg t SP X ST Q|ST Q]; clear H; [|rewrite EO' in Q; discriminate..].
  destruct (invS_exec E cast eqL labels P wc bs s (fun b ls => used labels bs ss d F0 b ls /\ tame bs ss d w g' F0 b ls) (pt_small d e) (fun _ => False) (proj1 HB) (proj2 HB) (proj1 HW) (fun p I => or_introl (GP p I)) ltac:(intros; contradiction)
     (tame_point bs ss d e w g' F0 HR Hw He LF LB GE) pcs gg SP RL HU X) as (c & HP & HL2 & HS).
  destruct (F c) as [b ->]; [rewrite HP; left; reflexivity|]. cbn [state_ok] in HS.
  destruct HS as (Hb & ((body & sm & EG & HF & HC & NS & SO & FI & RD) & (body0 & sm0 & EG0 & HWs & HSl)) & SR & EXh & _).
  rewrite EG in EG0. apply app_inj_tail in EG0. destruct EG0 as [<- EG0]. injection EG0 as <-.
  assert (CO : F0 \/ b = bs).
  { destruct FL as [FL|FL]; [left; exact FL|right]. destruct EXh as [EXh|EXh]; [exact EXh|]. rewrite EXh in SR. unfold left_of in SR.
    assert (LN : length (skipn (Z.to_nat b) (s_source s)) = O) by (rewrite <- SR; reflexivity). rewrite skipn_length in LN. lia. }
  assert (SM : forall i, 0 <= i < bs -> net_slot g' body ss d i). { intros i Hi. apply HSl; [exact Hi|]. destruct CO; [auto|right; lia]. }
  assert (RD' : List.Forall ready body). { apply RD. destruct CO; [auto|right; lia]. }
  assert (HB31 : 1 <= bs < 2 ^ 31) by (unfold two31 in HB; lia).
  destruct (apply_all_small lr r bs w g' HL HB31 ltac:(lia) L4 ltac:(lia) L5 body ss d HF RD' (proj1 HR) NS SM HWs) as (ls' & EA & LS & KS).
  assert (EB : apply_all lr (body ++ [LSoft sm]) = ORet (ls' ++ [LSoft sm]) tt) by (unfold apply_all in *; apply each_app; [exact EA|reflexivity]).
  rewrite EG, EB in Q. cbn [map_out] in Q. rewrite EO' in Q. injection Q as <-. cbn [with_layers est_of s_layers] in *.
  exists ls', sm. split; [reflexivity|]. split; [exact LS|]. intros i Hi _. apply KS. apply SM. exact Hi.
Qed.

Lemma tame_from : forall bs ss d w g F0 ls, tame bs ss d w g True bs ls -> tame bs ss d w g F0 0 ls.
Proof. intros bs ss d w g F0 ls (body & sm & EL & A & B). exists body, sm. split; [exact EL|]. split; [exact A|]. intros i Hi _. apply B; auto. Qed.
Lemma in_skip : forall {A} n (l : list A) x, In x (skipn n l) -> In x l.
Proof. intros A n l x H. rewrite <- (firstn_skipn n l). apply in_or_app. auto. Qed.

(** Several batches, one thread *)
Theorem batches_tame : forall P wc bs ss d r e lr n w g (s : estate) o, 1 <= bs < two31 -> bs <= wc < two31 -> h_ready ss d nl ->
  Z.of_nat (length (s_results s)) = bs -> set_up labels (s_layers s) ss d bs -> (forall p, In p (s_source s) -> pt_small d e p) ->
  n = O \/ warm (s_layers s) ss d bs \/ bs <= Z.of_nat (length (s_source s)) -> within 1 r lr -> 0 <= w -> 0 <= g -> 0 <= e -> batches_lim n ss d r e w g ->
  tame bs ss d w g (warm (s_layers s) ss d bs) 0 (s_layers s) ->
  batches E cast eqL labels P wc bs 1 lr n s o ->
  exists s' g', o = ORet s' tt /\ set_up labels (s_layers s') ss d bs /\ (n = O \/ warm (s_layers s') ss d bs) /\
    tame bs ss d (w_after n ss d r e w g) g' (warm (s_layers s') ss d bs) 0 (s_layers s').
Proof.
  intros P wc bs ss d r e lr. induction n as [|n IH]; intros w g s o HB HW HR RL SU GP FL HL Hw Hg He LM TM H.
  - revert RL. inversion H; subst. intros RL. exists s, g. auto.
  - assert (FL' : warm (s_layers s) ss d bs \/ bs <= Z.of_nat (length (s_source s))) by (destruct FL as [FL|FL]; [discriminate|exact FL]).
    destruct LM as [L1 L2]. revert RL. inversion H as [|n' s1 s' o' B1 B2|n' s1 o' B1 B2]; subst; intros RL.
    + destruct (batch_tame P wc bs ss d r e w g s lr _ HB HW HR RL SU GP FL' HL Hw Hg He L1 TM B1) as (s2 & Q & S1 & S2 & S3 & S4 & S5). injection Q as <-.
      apply (tame_from _ _ _ _ _ (warm (s_layers s') ss d bs)) in S5.
      destruct (IH (w_next w r (g_next ss d e w g)) (g_next ss d e w g) s' o HB HW HR S3 S1) as (s3 & g3 & Q3 & U1 & U2 & U3); auto.
      * intros p HP. apply GP. rewrite S4 in HP. eapply in_skip. exact HP.
      * unfold w_next. lia.
      * unfold g_next. lia.
      * exists s3, g3. split; [exact Q3|]. split; [exact U1|]. split; [|exact U3]. right. destruct U2 as [U2|U2]; [|exact U2]. subst n. inversion B2; subst. injection H2 as <-. exact S2.
    + exfalso. destruct (batch_tame P wc bs ss d r e w g s lr _ HB HW HR RL SU GP FL' HL Hw Hg He L1 TM B1) as (s2 & -> & _). eapply B2. reflexivity.
Qed.

(** ** Several threads, all layers have their parameters *)
Lemma agree_slot_small : forall m i (l l' : layer double) g s d, 0 <= i -> agree m (Z.to_nat i) l l' -> slot_small g l s d i -> slot_small g l' s d i.
Proof.
  intros m i l l' g s d Hi H HL. destruct H as [? ? ? ? ? ? ? ? ? S1 S2|? ? ? ? ? ? ? S1 S2|? ? ? ? ? S1|?|]; cbn in *; auto;
    rewrite <- (slots_vget _ _ _ Hi S1), <- (slots_vget _ _ _ Hi S2); exact HL.
Qed.
Lemma net_slot_agree : forall i ls ls' ss d g, 0 <= i -> Forall2 (agree false (Z.to_nat i)) ls ls' -> net_slot g ls ss d i -> net_slot g ls' ss d i.
Proof.
  intros i ls ls' ss d g Hi H. revert ss d. induction H as [|l l' ls ls' A H IH]; intros ss d HN; destruct ss; cbn in *; auto.
  destruct HN. split; [eapply agree_slot_small; eassumption|apply IH; assumption].
Qed.
Lemma agree_small : forall b ls ls' w ss d, Forall2 (agree false b) ls ls' -> net_small w ls ss d -> net_small w ls' ss d.
Proof.
  intros b ls ls' w ss d H. revert ss d. induction H as [|l l' ls ls' A H IH]; intros ss d HN; destruct ss; cbn in *; auto.
  destruct HN. split; [|apply IH; assumption]. destruct A; exact H0.
Qed.

Theorem batch_tame_threads : forall P wc bs nt ss d r e w g (s : estate) lr o, 0 <= wc -> 1 <= bs < two31 -> bs <= Z.of_nat nt * wc -> h_ready ss d nl ->
  spawn (T := double) (U := U) (L := L) nt 0 wc <> UB ->
  Z.of_nat (length (s_results s)) = bs -> set_up labels (s_layers s) ss d bs -> List.Forall ready (s_layers s) -> (forall p, In p (s_source s) -> pt_small d e p) ->
  all_filled (s_layers s) ss d bs \/ bs <= Z.of_nat (length (s_source s)) -> within 1 r lr -> 0 <= w -> 0 <= g -> 0 <= e -> batch_lim ss d r e w g ->
  tame bs ss d w g (all_filled (s_layers s) ss d bs) 0 (s_layers s) ->
  batch E cast eqL labels P wc bs nt lr s o ->
  exists s', o = ORet s' tt /\ set_up labels (s_layers s') ss d bs /\ List.Forall ready (s_layers s') /\ all_filled (s_layers s') ss d bs /\
    Z.of_nat (length (s_results s')) = bs /\ s_source s' = skipn (Z.to_nat bs) (s_source s) /\
    tame bs ss d (w_next w r (g_next ss d e w g)) (g_next ss d e w g) True bs (s_layers s').
Proof.
  intros P wc bs nt ss d r e w g s lr o HW HB CV HR NU RL SU RD GP FL HL Hw Hg He (LF & LB & L3 & L4 & L5) TM H. set (g' := g_next ss d e w g) in *.
  assert (HB0 : 0 <= bs) by lia. assert (GP' : forall p, In p (s_source s) -> pt_ok eqL labels d p) by (intros p I; apply (pt_small_ok d e); apply GP; exact I).
  destruct (batch_safe E ORD cast eqL labels P wc bs nt ss d HW (proj1 HB) (proj2 HB) CV HR s lr o NU RL SU RD GP' FL H) as (s' & EO' & Q1 & Q2 & Q3 & Q4 & Q5).
  exists s'. split; [exact EO'|]. split; [exact Q1|]. split; [exact Q2|]. split; [exact Q3|]. split; [exact Q4|]. split; [exact Q5|].
  assert (GE : h_net_gexp w ss d e 0 <= g') by (unfold g', g_next; lia). pose proof (h_net_blim_g 970 w ss d e 0 ltac:(lia) LB) as G0.
  assert (G1 : g <= g' <= 970) by (unfold g', g_next; lia).
  inversion H as [pcs gg SP X F Q|pcs gg t x SP X ST Q|pcs gg t SP X ST Q|ST Q]; clear H; [|rewrite EO' in Q; discriminate..].
  apply exec_texec in X. destruct X as [log X].
  destruct (batch_taken E cast eqL labels wc bs nt s pcs HW HB0 (proj2 HB) SP RL _ _ _ X) as (ND & RG & SRC & TK). destruct (TK F CV) as [TK1 TK2]. clear TK.
  destruct (safe_inv E ORD cast eqL labels P wc bs nt ss d HW (proj1 HB) (proj2 HB) HR s pcs gg log SP RL SU RD GP' X) as [D _].
  pose proof SU as (body & sm & EL & HF & HC & NS & SO). destruct TM as (body0 & sm0 & EL0 & HWs & HSl). rewrite EL in EL0. apply app_inj_tail in EL0. destruct EL0 as [<- EL0]. injection EL0 as <-.
  assert (OLD : forall i, 0 <= i < bs -> ~ In i (map (fun x => snd (fst x)) log) -> net_slot g body ss d i /\ net_filled body ss d i).
  { intros i Hi NI. destruct FL as [FL|FL].
    - split; [apply HSl; auto|]. destruct FL as (body0 & sm1 & EL1 & AFi). rewrite EL in EL1. apply app_inj_tail in EL1. destruct EL1 as [<- _]. apply AFi. exact Hi.
    - exfalso. apply NI. set (sl := map (fun x : entry (U := U) (L := L) => snd (fst x)) log) in *.
      assert (LL : length log = Z.to_nat bs). { assert (Q0 : length (map snd log) = Z.to_nat bs) by (rewrite TK1; apply firstn_length_le; lia). rewrite map_length in Q0. exact Q0. }
      assert (SLl : length sl = Z.to_nat bs) by (unfold sl; rewrite map_length; exact LL).
      assert (RS : forall x, In x sl -> 0 <= x < Z.of_nat (Z.to_nat bs)).
      { intros x HX. apply in_map_iff in HX. destruct HX as ([[t b] p] & <- & HX). cbn. specialize (RG _ _ _ HX). nia. }
      pose proof (slots_perm _ sl ND SLl RS) as HP. eapply Permutation_in; [apply Permutation_sym; exact HP|]. apply in_map_iff. exists (Z.to_nat i). split; [lia|]. apply in_seq. lia. }
  destruct (safe_layers E ORD cast eqL labels P wc bs nt ss d HW (proj1 HB) (proj2 HB) HR s pcs gg log SP RL SU RD GP' X F) as (S1 & S2 & S3).
  { intros i Hi NI. exists body, sm. split; [exact EL|]. apply OLD; assumption. }
  destruct S1 as (body' & sm' & EG & HF' & HC' & NS' & SO').
  pose proof (batch_agree E cast eqL labels wc bs nt s pcs HW HB0 (proj2 HB) SP RL RD _ _ _ X) as AG.
  rewrite EL, EG in AG. apply agreeL_sym in AG. destruct (agreeL_split _ _ _ _ AG) as (body2 & sm2 & EG2 & _ & AF). apply app_inj_tail in EG2. destruct EG2 as [<- _].
  assert (SM : forall i, 0 <= i < bs -> net_slot g' body' ss d i).
  { intros i Hi. destruct (in_dec Z.eq_dec i (map (fun x => snd (fst x)) log)) as [IS|NI].
    - apply in_map_iff in IS. destruct IS as ([[t b] p] & HE & HI). cbn in HE. subst b.
      destruct (RG _ _ _ HI) as [TL _].
      assert (HP : In p (s_source s)). { rewrite SRC. apply in_or_app. left. apply in_map_iff. exists (t, i, p). auto. }
      pose proof (batch_invA E cast eqL labels wc bs nt s pcs HW HB0 (proj2 HB) SP RL _ _ _ X) as A.
      destruct (nth_error (g_pcs gg) t) as [c|] eqn:QC. 2:{ apply nth_error_None in QC. rewrite (a_len _ _ _ _ _ _ A) in QC. lia. }
      destruct (F c (nth_error_In _ _ QC)) as [b0 ->].
      pose proof (d_ent _ _ _ _ _ _ _ _ _ _ D t i p _ HI QC) as EN. unfold ent in EN. cbn [phase] in EN.
      destruct EN as (k & lsp & r0 & HK & PV & AGi & _).
      apply priv_rest in PV. rewrite EL in PV.
      destruct (point_total E ORD cast eqL labels body sm ss d p i k HF HC HR (SO i Hi) (proj1 (GP' p HP)) (proj2 (GP' p HP)) HK) as (b2 & r2 & QT & _).
      destruct (point_small body sm ss d w e p i k HR Hw He LF LB HF HC (SO i Hi) HWs (GP p HP) HK _ _ QT) as (b3 & E3 & M1 & M2 & M3).
      rewrite QT in PV. cbn [rest] in PV. injection PV as <- <-. apply app_inj_tail in E3. destruct E3 as [-> _].
      apply agreeL_sym in AGi. destruct (agreeL_split _ _ _ _ AGi) as (body2 & sm3 & EG2 & _ & AF2). rewrite EG in EG2. apply app_inj_tail in EG2. destruct EG2 as [<- _].
      eapply net_slot_agree; [lia|exact AF2|]. eapply net_slot_up; eassumption.
    - destruct (d_free _ _ _ _ _ _ _ _ _ _ D i (proj1 Hi)) as [AGi _].
      { intros t p HI. apply NI. apply in_map_iff. exists (t, i, p). auto. }
      rewrite EL in AGi. apply agreeL_sym in AGi. destruct (agreeL_split _ _ _ _ AGi) as (body2 & sm3 & EG2 & _ & AF2). rewrite EG in EG2. apply app_inj_tail in EG2. destruct EG2 as [<- _].
      eapply net_slot_agree; [lia|exact AF2|]. eapply net_slot_up; [apply OLD; assumption|lia]. }
  rewrite EG in S3. apply Forall_app in S3. destruct S3 as [S3 _].
  assert (HB31 : 1 <= bs < 2 ^ 31) by (unfold two31 in HB; lia).
  destruct (apply_all_small lr r bs w g' HL HB31 ltac:(lia) L4 ltac:(lia) L5 body' ss d HF' S3 (proj1 HR) NS' SM (agree_small _ _ _ _ _ _ AF HWs)) as (ls' & EA & LS & KS).
  assert (EB : apply_all lr (body' ++ [LSoft sm']) = ORet (ls' ++ [LSoft sm']) tt) by (unfold apply_all in *; apply each_app; [exact EA|reflexivity]).
  rewrite EG, EB in Q. cbn [map_out] in Q. rewrite EO' in Q. injection Q as <-. cbn [with_layers est_of s_layers] in *.
  exists ls', sm'. split; [reflexivity|]. split; [exact LS|]. intros i Hi _. apply KS. apply SM. exact Hi.
Qed.

Theorem batches_tame_threads : forall P wc bs nt ss d r e lr n w g (s : estate) o, 0 <= wc -> 1 <= bs < two31 -> bs <= Z.of_nat nt * wc -> h_ready ss d nl ->
  spawn (T := double) (U := U) (L := L) nt 0 wc <> UB ->
  Z.of_nat (length (s_results s)) = bs -> set_up labels (s_layers s) ss d bs -> List.Forall ready (s_layers s) -> (forall p, In p (s_source s) -> pt_small d e p) ->
  n = O \/ all_filled (s_layers s) ss d bs \/ bs <= Z.of_nat (length (s_source s)) -> within 1 r lr -> 0 <= w -> 0 <= g -> 0 <= e -> batches_lim n ss d r e w g ->
  tame bs ss d w g (all_filled (s_layers s) ss d bs) 0 (s_layers s) ->
  batches E cast eqL labels P wc bs nt lr n s o ->
  exists s' g', o = ORet s' tt /\ set_up labels (s_layers s') ss d bs /\ List.Forall ready (s_layers s') /\
    tame bs ss d (w_after n ss d r e w g) g' (all_filled (s_layers s') ss d bs) 0 (s_layers s').
Proof.
  intros P wc bs nt ss d r e lr. induction n as [|n IH]; intros w g s o HW HB CV HR NU RL SU RD GP FL HL Hw Hg He LM TM H.
  - revert RL. inversion H; subst. intros RL. exists s, g. auto.
  - assert (FL' : all_filled (s_layers s) ss d bs \/ bs <= Z.of_nat (length (s_source s))) by (destruct FL as [FL|FL]; [discriminate|exact FL]).
    destruct LM as [L1 L2]. revert RL. inversion H as [|n' s1 s' o' B1 B2|n' s1 o' B1 B2]; subst; intros RL.
    + destruct (batch_tame_threads P wc bs nt ss d r e w g s lr _ HW HB CV HR NU RL SU RD GP FL' HL Hw Hg He L1 TM B1) as (s2 & Q & S1 & S2 & S3 & S4 & S5 & S6). injection Q as <-.
      apply (tame_from _ _ _ _ _ (all_filled (s_layers s') ss d bs)) in S6.
      destruct (IH (w_next w r (g_next ss d e w g)) (g_next ss d e w g) s' o HW HB CV HR NU S4 S1 S2) as (s3 & g3 & Q3 & U1 & U2 & U3); auto.
      * intros p HP. apply GP. rewrite S5 in HP. eapply in_skip. exact HP.
      * unfold w_next. lia.
      * unfold g_next. lia.
      * exists s3, g3. auto.
    + exfalso. destruct (batch_tame_threads P wc bs nt ss d r e w g s lr _ HW HB CV HR NU RL SU RD GP FL' HL Hw Hg He L1 TM B1) as (s2 & -> & _). eapply B2. reflexivity.
Qed.
End Training.

(** ** The first batch of main.cpp *)
Lemma set_batch_small : forall bs ls ls' w ss d, set_batch_all (T := double) bs ls = ORet ls' tt -> net_small w ls ss d -> net_small w ls' ss d.
Proof.
  intros bs. induction ls as [|l ls IH]; intros ls' w ss d H HN; unfold set_batch_all in *; cbn [each_layer] in H.
  - injection H as <-. exact HN.
  - destruct (l_set_batch bs l) as [l1 []|l1 x|] eqn:E1; try discriminate. destruct (each_layer (l_set_batch bs) ls) as [ls1 []|ls1 x|] eqn:E2; try discriminate. injection H as <-.
    destruct ss as [|s ss]; [exact I|]. destruct HN as [H1 H2]. cbn [net_small]. split; [|eapply IH; [reflexivity|exact H2]].
    destruct l as [[[] ? ? ?]|[[] ? ?]|q|a|sm]; cbn [l_set_batch] in E1; [destruct (bs <? 0); [discriminate|]..| |injection E1 as <-; exact H1|injection E1 as <-; exact H1].
    + injection E1 as <-. exact H1.
    + injection E1 as <-. exact H1.
    + destruct (q_batch bs q); try discriminate. injection E1 as <-. destruct s; exact I.
Qed.
Definition main_d : dim3 := D3 28 28 1.
Lemma main_lim : batch_lim main_shapes main_d (-5) 8 0 0 /\ w_next 0 (-5) (g_next main_shapes main_d 8 0 0) = 44.
Proof. vm_compute. intuition congruence. Qed.
Theorem main_first_batch : forall E, env_ok E -> e_moved E = false -> forall U (cast : U -> double) u, exists m ls, main_model E u = Ok m /\
  set_batch_all 32 (map snd (m_layers m)) = ORet ls tt /\
  forall P wc (s : estate (U := U) (L := text)) lr o, 32 <= wc < two31 -> s_layers s = ls -> length (s_results s) = 32%nat -> (32 <= length (s_source s))%nat ->
    (forall p, In p (s_source s) -> pt_small cast text_eqb main_labels main_d 8 p) -> within 1 (-5) lr ->
    batch E cast text_eqb main_labels P wc 32 1 lr s o ->
    exists s' body sm, o = ORet s' tt /\ s_layers s' = body ++ [LSoft sm] /\ net_fit body main_shapes main_d /\ List.Forall ready body /\ net_small 44 body main_shapes main_d.
Proof.
  intros E EO ORD U cast u. pose proof EO as (EX & TH & LG & CF & CD & EP & SQ & RN & HR & OD & MX).
  destruct (main_small E SQ HR OD MX u) as (m & body & EM & ML & LL & NF & IX & NS).
  destruct (main_model_ok E u) as (m' & body2 & EM' & _ & LL' & _ & ID & _). rewrite EM in EM'. injection EM' as <-. rewrite LL in LL'. apply app_inj_tail in LL'. destruct LL' as [<- _].
  destruct (set_batch_shapes 32 body main_shapes main_d ltac:(lia) NF ID) as (body' & EB & N1 & N2 & N3 & N4).
  assert (EA : set_batch_all 32 (body ++ [LSoft (sm_make 10)]) = ORet (body' ++ [LSoft (sm_make 10)]) tt) by (unfold set_batch_all in *; apply each_app; [exact EB|reflexivity]).
  exists m, (body' ++ [LSoft (sm_make 10)]). split; [exact EM|]. rewrite LL. split; [exact EA|].
  intros P wc s lr o HW HL RL LS GP HLr H. destruct main_lim as [LM WN].
  assert (SU : set_up main_labels (s_layers s) main_shapes main_d 32) by (rewrite HL; exists body', (sm_make 10); auto 8).
  assert (NW : ~ warm (s_layers s) main_shapes main_d 32).
  { intros [(b3 & sm3 & E3 & FI) _]. rewrite HL in E3. apply app_inj_tail in E3. destruct E3 as [<- _]. clear - EB FI NF. specialize (FI 0 ltac:(lia)).
    unfold main_shapes in *. destruct body as [|l body]; [exact NF|]. destruct NF as [NF _]. unfold set_batch_all in EB. cbn [each_layer] in EB.
    destruct l as [[[kw kb kwg kbg] kd kst kn]|c|q|a|sm]; try contradiction NF. cbn [l_set_batch] in EB. change (32 <? 0) with false in EB. cbn match in EB.
    destruct (each_layer (l_set_batch 32) body) as [ls1 []|ls1 x|]; try discriminate. injection EB as <-. destruct FI as [(gw & gb & G1 & G2 & _) _].
    cbn in G1. injection G1 as <-. destruct G2 as [G2 _]. discriminate G2. }
  assert (TM : tame 32 main_shapes main_d 0 0 (warm (s_layers s) main_shapes main_d 32) 0 (s_layers s)).
  { exists body', (sm_make 10). split; [exact HL|]. split; [eapply set_batch_small; eassumption|]. intros i Hi [C|C]; [contradiction|lia]. }
  destruct (batch_tame E EO ORD cast text_eqb main_labels P wc 32 main_shapes main_d (-5) 8 0 0 s lr o ltac:(unfold two31; lia) HW main_fits ltac:(lia) SU GP ltac:(right; lia) HLr
    ltac:(lia) ltac:(lia) ltac:(lia) LM TM H) as (s' & Q & S1 & S2 & S3 & S4 & S5).
  destruct S1 as (b1 & sm1 & L1 & F1 & _). destruct S5 as (b5 & sm5 & L5 & T5 & _). rewrite L1 in L5. apply app_inj_tail in L5. destruct L5 as [<- _].
  exists s', b1, sm1. split; [exact Q|]. split; [exact L1|]. split; [exact F1|]. split; [|rewrite WN in T5; exact T5].
  destruct S2 as [_ RD]. rewrite L1 in RD. apply Forall_app in RD. apply RD.
Qed.

(** ** Without bounds: one image with a pixel of 4, two outputs, parameters 0, and a learning rate of 2^1023 *)
(** Functions that can be computed for these inputs: exp 0 = 1, and log2 of the probability 1/2 with its correction is -1. *)
Definition p_exp (v : double) : double := match v with B754_zero _ => n1 | _ => r_exp v end.
Definition half_eps : double := @B754_finite prec emax false 4503689699360768 (-53) eq_refl.
Definition p_log2 (v : double) : double := if Beqb v half_eps then Bopp n1 else r_log2 v.
Definition p_env : env double := Env double (fun _ => 0) (2 ^ 31 - 1) d_sqrt p_exp r_tanh p_log2 c_01f c_01 c_eps d_float false.
Lemma p_env_ok : env_ok p_env.
Proof.
  destruct (d_env_ok (fun _ => 0) ltac:(intros; lia)) as ((X1 & X2) & A & LG & B).
  assert (PE : forall v, p_exp v = r_exp v).
  { intros [s|s| |s mm ee bb]; try reflexivity. destruct r_exp_tiny as [_ Q]. cbn [p_exp]. rewrite <- Q. rewrite !r_exp_fin by reflexivity. reflexivity. }
  split; [split; intros; cbn [p_env e_exp]; rewrite PE; [apply X1|apply X2]; assumption|]. split; [exact A|]. split; [|exact B].
  intros v F P. cbn [p_env e_log2]. unfold p_log2. destruct (Beqb v half_eps) eqn:Q; [|apply LG; assumption].
  assert (EV : B2R v = B2R half_eps). { rewrite (Beqb_correct prec emax v half_eps F eq_refl) in Q. destruct (Req_bool_spec (B2R v) (B2R half_eps)); [assumption|discriminate]. }
  destruct one_ok as [O1 O2]. assert (V1 : B2R (Bopp n1 : double) = (-1)%R) by (rewrite B2R_Bopp; change (- B2R (n1 : double) = -1)%R; rewrite O2; reflexivity).
  assert (HE : (bpow radix2 (-1) < B2R half_eps < bpow radix2 0)%R).
  { unfold half_eps. rewrite lit_val. split.
    - change (bpow radix2 (-1)) with (bpow radix2 (52 + -53)). rewrite bpow_plus. apply Rmult_lt_compat_r; [apply bpow_gt_0|]. change (bpow radix2 52) with (IZR 4503599627370496). apply IZR_lt. reflexivity.
    - change (bpow radix2 0) with (bpow radix2 (53 + -53)). rewrite bpow_plus. apply Rmult_lt_compat_r; [apply bpow_gt_0|]. change (bpow radix2 53) with (IZR 9007199254740992). apply IZR_lt. reflexivity. }
  rewrite EV, V1. split; [reflexivity|]. split; intros k H; apply IZR_le.
  - assert (bpow radix2 k < bpow radix2 0)%R as L by lra. apply lt_bpow in L. lia.
  - assert (bpow radix2 (-1) < bpow radix2 k)%R as L by lra. apply lt_bpow in L. lia.
Qed.
Definition huge : double := @B754_finite prec emax false 4503599627370496 971 eq_refl.
Definition four : double := @B754_finite prec emax false 4503599627370496 (-50) eq_refl.
Definition wide_layers : list (layer double) :=
  [LConn (Conn (Par (Mat (D3 2 1 1) [n0; n0]) (Mat (D3 2 1 1) [n0; n0]) [mat_empty] [mat_empty]) (D3 1 1 1) true); LSoft (sm_make 2)].
Definition wide_start : estate (T := double) (U := double) (L := Z) := Est wide_layers [Point (Mat (D3 1 1 1) [four]) 0] [None] 0.
Local Notation wide_run := (run p_env (fun v => v) Z.eqb [0; 1] 1 1 (repeat 0%nat 17) (start wide_start [PLoop 0])).
Definition went_inf (g : shared (T := double) (U := double) (L := Z)) : bool :=
  match g_pcs g, apply_all huge (g_layers g) with
  | [PDone _], ORet (LConn l :: _) _ => match mvals (c_w l) with [B754_infinity false; B754_infinity true] => true | _ => false end
  | _, _ => false
  end.
Lemma wide_runs : match wide_run with GNext g => went_inf g | _ => false end = true.
Proof. vm_compute. reflexivity. Qed.
Theorem huge_rate : exists s' l ls', batch p_env (fun v => v) Z.eqb [0; 1] (fun _ => True) 1 1 1 huge wide_start (ORet s' tt) /\
  s_layers s' = LConn l :: ls' /\ mvals (c_w l) = [posinf; neginf].
Proof.
  pose proof wide_runs as W. assert (RX : forall g, wide_run = GNext g -> exec p_env (fun v => v) Z.eqb [0; 1] (fun _ => True) 1 1 (start wide_start [PLoop 0]) g) by exact (run_exec p_env (fun v => v) Z.eqb [0; 1] 1 1 (repeat 0%nat 17) (start wide_start [PLoop 0])).
  revert W RX. generalize wide_run. intros [g| | |] W RX; [|discriminate W..]. specialize (RX g eq_refl). unfold went_inf in W.
  destruct (g_pcs g) as [|[b|b|b|b|b p|b p w|b|b] [|? ?]] eqn:P1; try discriminate W.
  destruct (apply_all huge (g_layers g)) as [[|[k|l|q|a|sm] ls'] []|? ?|] eqn:EA; try discriminate W.
  assert (FIN : finished g) by (intros c HC; rewrite P1 in HC; destruct HC as [<-|[]]; eauto).
  exists (with_layers (est_of g) (LConn l :: ls')), l, ls'. split; [|split; [reflexivity|]].
  - apply (f_equal (map_out (with_layers (est_of g)))) in EA. cbn [map_out] in EA. rewrite <- EA.
    exact (batch_done p_env (fun v => v) Z.eqb [0; 1] (fun _ => True) 1 1 1 huge wide_start [PLoop 0] g eq_refl RX FIN).
  - revert W. generalize (mvals (c_w l)) as v. intros [|[?|[|]| |? ? ? ?] [|[?|[|]| |? ? ? ?] [|? ?]]] W; try discriminate W. reflexivity.
Qed.
