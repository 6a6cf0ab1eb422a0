(** Batches, epochs and training as gradient descent, for all executions without overlapping label hand-overs. *)
From Coq Require Import ZArith List Bool Lia Reals Lra Permutation FunctionalExtensionality.
From Coquelicot Require Import Coquelicot.
From Verif Require Import Base Dim Matrix View Num Expr Spec Iter Sums MatFacts MatThms ExprThms Batch Kernel Connected Float32
  FloatFacts Pooling Activation Softmax LayerFacts KernelThms Calc KernelGrad BatchThms ConnectedThms PoolingThms PoolGrad
  ActivationThms SoftmaxThms LayerTotal Chars Model Net NetThms NetPass NetGrad ModelThms
  Train TrainLocal TrainRest TrainInv TrainData TrainEnd TrainThms TrainEpoch TrainNet.
Import ListNotations.
Local Open Scope Z_scope.
Local Notation stored := Net.stored.
(** The update with slots is the one with the list of the data points. *)
Lemma step_sgd : forall lr n ss (l : list Z) (gs : Z -> list (fn * fn)), NoDup l -> length l = n -> (forall x, In x l -> 0 <= x < Z.of_nat n) ->
  step_net lr (Z.of_nat n) ss gs = sgd lr ss (map gs l).
Proof.
  intros lr n ss l gs ND HL HR. pose proof (slots_perm n l ND HL HR) as PM. revert gs. induction ss as [|s ss IH]; intros gs; [reflexivity|].
  assert (K : forall F : Z -> R, (rsum (Z.of_nat n) F / IZR (Z.of_nat n))%R = rmean (map F l)).
  { intros F. unfold rmean. rewrite map_length, HL, <- INR_IZR_INZ. f_equal. rewrite rsum_seq. symmetry. apply sum_perm. apply Permutation_map. exact PM. }
  cbn [step_net sgd]. rewrite IH, !map_map. f_equal.
  f_equal; unfold step_slots; extensionality x; extensionality y; extensionality z; rewrite K, map_map; reflexivity.
Qed.
Lemma step_net_ext : forall lr n ss gs gs', (forall i, 0 <= i < n -> gs i = gs' i) -> step_net lr n ss gs = step_net lr n ss gs'.
Proof.
  intros lr n. induction ss as [|s ss IH]; intros gs gs' H; [reflexivity|]. cbn [step_net]. f_equal.
  - f_equal; unfold step_slots; extensionality x; extensionality y; extensionality z; do 3 f_equal; apply rsum_ext; intros i Hi; rewrite H by exact Hi; reflexivity.
  - apply IH. intros i Hi. rewrite H by exact Hi. reflexivity.
Qed.

(** Parameters do not change what a configuration is. *)
Lemma sgd_out : forall lr ss gss d, net_out (sgd lr ss gss) d = net_out ss d.
Proof. induction ss as [|s ss IH]; intros gss d; [reflexivity|]. cbn [sgd net_out]. rewrite s_out_setp. apply IH. Qed.
Lemma sgd_ok : forall lr ss gss d, net_ok (sgd lr ss gss) d <-> net_ok ss d.
Proof. induction ss as [|s ss IH]; intros gss d; [reflexivity|]. cbn [sgd net_ok]. rewrite s_ok_setp, s_out_setp, IH. reflexivity. Qed.
Lemma s_bk_setp : forall s d W B, s_bk (setp s W B) d <-> s_bk s d.
Proof. destruct s; reflexivity. Qed.
Lemma sgd_bk : forall lr ss gss d, net_bk (sgd lr ss gss) d <-> net_bk ss d.
Proof. induction ss as [|s ss IH]; intros gss d; [reflexivity|]. cbn [sgd net_bk]. rewrite s_bk_setp, s_out_setp, IH. reflexivity. Qed.
Lemma sgd_bkc : forall lr ss gss b d, net_bkc b (sgd lr ss gss) d <-> net_bkc b ss d.
Proof. destruct ss as [|s ss]; intros gss b d; [reflexivity|]. cbn [sgd net_bkc]. rewrite s_bk_setp, s_out_setp, sgd_bk. reflexivity. Qed.

Lemma net_is_ready : forall ls ss d, net_is ls ss d -> List.Forall ready ls.
Proof.
  induction ls as [|l ls IH]; intros ss d H; [constructor|]. destruct ss as [|s ss]; [contradiction|]. destruct H as [H1 H2]. constructor; [|eauto].
  destruct l, s; cbn in *; try contradiction; auto. destruct H1 as [H1 _]. exact (proj1 H1).
Qed.

(** The slots that were not written *)
Lemma vget_nth : forall {A} (l l' : list A) i, nth_error l (Z.to_nat i) = nth_error l' (Z.to_nat i) -> 0 <= i -> vget l i = vget l' i.
Proof.
  intros A l l' i H Hi. unfold vget. destruct (Z.leb_spec 0 i); [|lia]. cbn [andb].
  destruct (Z.ltb_spec i (Z.of_nat (length l))) as [P|P], (Z.ltb_spec i (Z.of_nat (length l'))) as [P'|P']; try (rewrite H; reflexivity); try reflexivity.
  - assert (nth_error l' (Z.to_nat i) = None) by (apply nth_error_None; lia). rewrite H, H1. reflexivity.
  - assert (nth_error l (Z.to_nat i) = None) by (apply nth_error_None; lia). rewrite <- H, H1. reflexivity.
Qed.
Lemma slot_stored : forall m b i l l' s d DW DB, agree m b l l' -> 0 <= i -> slot_data i l = slot_data i l' -> stored l s d i DW DB -> stored l' s d i DW DB.
Proof.
  intros m b i l l' s d DW DB A Hi E ST. destruct A; cbn in *; auto; injection E as E1 E2; rewrite <- (vget_nth _ _ i E1 Hi), <- (vget_nth _ _ i E2 Hi); exact ST.
Qed.
Lemma slot_slot_ok : forall m b i (l l' : layer R), agree m b l l' -> 0 <= i -> slot_data i l = slot_data i l' -> slot_ok l i -> slot_ok l' i.
Proof.
  intros m b i l l' A Hi E ST. destruct A as [? ? ? ? ? ? ? ? ? S1 S2|? ? ? ? ? ? ? S1 S2|? ? ? ? ? S1|?|]; cbn in *; auto.
  - rewrite <- (proj1 S1), <- (proj1 S2). exact ST.
  - rewrite <- (proj1 S1), <- (proj1 S2). exact ST.
  - injection E as E. rewrite <- (vget_nth _ _ i E Hi). exact ST.
Qed.
Lemma net_slot_stored : forall b i ls ls' ss d gs, Forall2 (agree false b) ls ls' -> 0 <= i -> map (slot_data i) ls = map (slot_data i) ls' ->
  net_stored ls ss d i gs -> net_stored ls' ss d i gs.
Proof.
  intros b i ls ls' ss d gs H Hi. revert ss d gs. induction H as [|l l' ls ls' A H IH]; intros ss d gs E HN; destruct ss, gs; cbn in *; auto.
  injection E as E1 E2. destruct HN. split; [eapply slot_stored; eassumption|apply IH; assumption].
Qed.
Lemma net_slot_ok : forall b i (ls ls' : list (layer R)), Forall2 (agree false b) ls ls' -> 0 <= i -> map (slot_data i) ls = map (slot_data i) ls' ->
  List.Forall (fun l => slot_ok l i) ls -> List.Forall (fun l => slot_ok l i) ls'.
Proof.
  intros b i ls ls' H Hi. induction H as [|l l' ls ls' A H IH]; intros E HF; [constructor|]. cbn in E. injection E as E1 E2. inversion HF; subst.
  constructor; [eapply slot_slot_ok; eassumption|auto].
Qed.
(** The update does not change the slots. *)
Lemma l_apply_stored : forall lr l l' s W B d i DW DB, l_apply lr l = ORet l' tt -> stored l s d i DW DB -> stored l' (setp s W B) d i DW DB.
Proof.
  intros lr l l' s W B d i DW DB H ST. destruct l as [k|c|q|a|sm]; cbn [l_apply] in H.
  - unfold on_par, p_apply in H. destruct (apply_batch lr _ _ _) as [[w b] ?|[w b] ?|]; try discriminate. cbn in H. injection H as <-. cbn in *.
    rewrite s_wdim_setp, s_bdim_setp. exact ST.
  - unfold on_cpar, p_apply in H. destruct (apply_batch lr _ _ _) as [[w b] ?|[w b] ?|]; try discriminate. cbn in H. injection H as <-. cbn in *.
    rewrite s_wdim_setp, s_bdim_setp. exact ST.
  - injection H as <-. exact ST.
  - injection H as <-. exact ST.
  - injection H as <-. exact ST.
Qed.
Lemma apply_stored : forall lr n gs ls ls' ss d i G, apply_all lr ls = ORet ls' tt -> net_stored ls ss d i G -> net_stored ls' (step_net lr n ss gs) d i G.
Proof.
  intros lr n gs ls. revert gs. induction ls as [|l ls IH]; intros gs ls' ss d i G H ST; unfold apply_all in H; cbn [each_layer] in H.
  - injection H as <-. destruct ss, G; cbn in *; auto.
  - destruct (l_apply lr l) as [l' []| |] eqn:Q; try discriminate. destruct (each_layer (l_apply lr) ls) as [ls1 []| |] eqn:Q1; try discriminate. injection H as <-.
    destruct ss as [|s ss]; [destruct G; cbn in *; auto|]. destruct G as [|g G]; [contradiction|]. cbn [net_stored step_net] in *. destruct ST as [S1 S2].
    split; [eapply l_apply_stored; eassumption|]. rewrite s_out_setp. apply IH; assumption.
Qed.

(** *** A batch of training *)
Section Batch.
Context (rand : Z -> Z) (rmax : Z).
Local Notation ER := (envR rand rmax).
Context {U L : Type} (cast : U -> R) (eqL : L -> L -> bool) (labels : list L).
Local Notation shared := (shared (T := R) (U := U) (L := L)).
Local Notation pc := (pc (T := R) (U := U) (L := L)).
Local Notation estate := (estate (T := R) (U := U) (L := L)).
Local Notation idx := (label_idx eqL labels).
Local Notation nl := (Z.of_nat (length labels)).
Local Notation fwd p := (forward_pass ER cast nl (pt_data (L := L) p)).

(** The data point [p] is an input of size [d] with elements [J], and its label is one of the labels of the network. *)
Definition good_point (d : dim3) (J : point U L -> Z -> Z -> Z -> U) (p : point U L) : Prop :=
  is_mat (pt_data p) d (J p) /\ 0 <= idx p < nl.
Local Notation grad_of ss d J p := (label_grad ss d (fun x y z => cast (J p x y z)) (idx p)).

Lemma point_run : forall ls ss d bs J p b, trainable ls ss d nl bs -> net_ok ss d -> net_bkc true ss d -> labels_ok (net_out ss d) nl ->
  good_point d J p -> 0 <= b < bs ->
  exists ls1 r1 ls2 sm2 r, fwd p b ls = ORet ls1 r1 /\ backward_pass ER r1 (idx p) b ls1 = ORet (ls2 ++ [LSoft sm2]) r /\
    net_stored ls2 ss d b (grad_of ss d J p) /\ List.Forall (fun l => slot_ok l b) ls2.
Proof.
  intros ls ss d bs J p b (body & sm & -> & HC & HN & HS & _) OK BK LO [HM HK] Hb.
  destruct (forward_ok rand rmax (body ++ [LSoft sm]) ss d nl b U cast (pt_data p) (J p)) as (ls0 & sm0 & ls' & x0 & rs & q & r & a & b' & c & EQ & _ & EF & RI & X0 & RA & IQ & N1 & S1 & REC & _); auto.
  { exists body, sm. repeat split; auto. }
  apply app_inj_tail in EQ. destruct EQ as [<- EQ]. injection EQ as <-.
  destruct LO as (Z1 & Z2 & Z3). destruct (net_ok_out _ _ OK) as [Po Fo].
  set (dd := net_out ss d) in *. assert (DD : dd = D3 (dx dd) (dy dd) (dz dd)) by (destruct dd; reflexivity).
  destruct (idx_of_inb (dx dd) (dy dd) (dz dd) (idx p)) as [I1 I2]; [unfold pos in Po; lia|unfold pos in Po; lia|unfold vol in Z3; lia|].
  rewrite <- DD in I1, I2.
  destruct (backward_ok rand rmax ls' sm ss d nl b _ x0 rs q r _ _ _ N1 S1 REC HC OK BK (conj Z1 (conj Z2 Z3)) RI X0 RA IQ I1) as (ls2 & r' & EB & _ & ST & _).
  fold dd in EB. rewrite I2 in EB. exists (ls' ++ [LSoft sm]), r, ls2, (Soft true (idx p) nl), r'. split; [exact EF|]. split; [exact EB|]. split; [exact ST|].
  apply (backward_slot _ b) in EB; [apply Forall_app in EB; tauto|]. apply Forall_app. split; [exact S1|]. constructor; [exact Logic.I|constructor].
Qed.

Section One.
Context (wc bs : Z) (nt : nat) (ss : list lspec) (d : dim3) (J : point U L -> Z -> Z -> Z -> U).
Hypothesis HW : 0 <= wc.
Hypothesis HB : 1 <= bs.
Hypothesis HB2 : bs < two31.
Hypothesis CV : bs <= Z.of_nat nt * wc.
Hypothesis OK : net_ok ss d.
Hypothesis BK : net_bkc true ss d.
Hypothesis LO : labels_ok (net_out ss d) nl.

Lemma trainable_ready : forall ls n, trainable ls ss d n bs -> List.Forall ready ls.
Proof.
  intros ls n (body & sm & -> & _ & HN & _). apply Forall_app. split; [eapply net_is_ready; exact HN|]. constructor; [exact Logic.I|constructor].
Qed.

(** Slot number [i] of the layers contains the gradients [gs i]. *)
Definition holds (ls : list (layer R)) (ss : list lspec) (d : dim3) (i : Z) (gs : list (fn * fn)) : Prop :=
  exists body sm, ls = body ++ [LSoft sm] /\ net_stored body ss d i gs.
(** The gradients in the slots after a batch: those of the data points taken, otherwise the old ones *)
Definition slot_grads (log : list (entry (U := U) (L := L))) (gs0 : Z -> list (fn * fn)) (i : Z) : list (fn * fn) :=
  match find (fun x => snd (fst x) =? i) log with Some x => grad_of ss d J (snd x) | None => gs0 i end.

Lemma find_slot : forall (log : list (entry (U := U) (L := L))) gs0 t b p, NoDup (map (fun x => snd (fst x)) log) -> In (t, b, p) log -> slot_grads log gs0 b = grad_of ss d J p.
Proof.
  intros log gs0 t b p ND HI. unfold slot_grads. induction log as [|[[t1 b1] p1] log IH]; [contradiction|]. cbn [find fst snd map] in *.
  inversion ND as [|? ? N1 N2]; subst. destruct HI as [HI|HI].
  - injection HI as -> -> ->. rewrite Z.eqb_refl. reflexivity.
  - destruct (Z.eqb_spec b1 b) as [->|NE]; [|apply IH; assumption]. exfalso. apply N1. apply in_map_iff. exists (t, b, p). auto.
Qed.
Lemma find_none_slot : forall (log : list (entry (U := U) (L := L))) gs0 b, ~ In b (map (fun x => snd (fst x)) log) -> slot_grads log gs0 b = gs0 b.
Proof.
  intros log gs0 b NI. unfold slot_grads. match goal with |- match ?t with _ => _ end = _ => destruct t as [x|] eqn:Q; [|reflexivity] end. exfalso. apply NI. apply find_some in Q. destruct Q as [Q1 Q2].
  apply in_map_iff. exists x. split; [lia|exact Q1].
Qed.

(** The update after any batch without overlapping label hand-overs: the mean over all slots *)
Theorem any_batch : forall (e : estate) pcs g log gs0 lr, spawn nt 0 wc = Ok pcs -> Z.of_nat (length (s_results e)) = bs ->
  trainable (s_layers e) ss d nl bs -> (forall t b p, In (t, b, p) log -> good_point d J p) ->
  texec ER cast eqL labels calm wc bs (start e pcs) g log -> finished g ->
  (forall i, 0 <= i < bs -> ~ In i (map (fun x => snd (fst x)) log) -> holds (s_layers e) ss d i (gs0 i)) ->
  exists ls', apply_all lr (g_layers g) = ORet ls' tt /\
    trainable ls' (step_net lr bs ss (slot_grads log gs0)) d nl bs /\
    forall i, 0 <= i < bs -> holds ls' (step_net lr bs ss (slot_grads log gs0)) d i (slot_grads log gs0 i).
Proof.
  intros e pcs g log gs0 lr SP RL TR GP X F OLD. pose proof (trainable_ready _ _ TR) as RD.
  assert (HB0 : 0 <= bs) by lia.
  destruct (batch_taken ER cast eqL labels wc bs nt e pcs HW HB0 HB2 SP RL _ _ _ X) as (ND & RG & _ & _).
  pose proof (batch_own_agree ER cast eqL labels wc bs nt e pcs HW HB0 HB2 SP RL RD _ _ X F) as OWN.
  pose proof (batch_agree ER cast eqL labels wc bs nt e pcs HW HB0 HB2 SP RL RD _ _ _ X) as AG.
  destruct (batch_results ER cast eqL labels wc bs nt e pcs HW HB0 HB2 SP RL RD _ _ _ X F) as [_ REST].
  destruct TR as (body & sm & EL & HC & HN & HS & HNS). rewrite EL in AG. apply agreeL_sym in AG. destruct (agreeL_split _ _ _ _ AG) as (body' & sm' & EG & HC' & AF).
  pose proof (net_is_agree _ _ _ _ _ AF HN) as HN'.
  assert (NS' : List.Forall (nslots bs) body') by (eapply Forall_agree; [|exact AF|exact HNS]; intros l l' A; apply (agree_nslots _ _ _ _ _ A)).
  set (slots := map (fun x : entry (U := U) (L := L) => snd (fst x)) log) in *.
  set (gs := slot_grads log gs0).
  assert (ST : forall i, 0 <= i < bs -> net_stored body' ss d i (gs i) /\ List.Forall (fun l => slot_ok l i) body').
  { intros i Hi. destruct (in_dec Z.eq_dec i slots) as [IS|NI].
    - apply in_map_iff in IS. destruct IS as ([[t b] p] & HE & HI). cbn in HE. subst b.
      unfold gs. rewrite (find_slot log gs0 t i p ND HI).
      pose proof (GP _ _ _ HI) as GPp.
      destruct (OWN _ _ _ HI) as (ls1 & r1 & ls2 & r & A & B & _ & AGi & _).
      destruct (point_run (s_layers e) ss d bs J p i (ex_intro _ body (ex_intro _ sm (conj EL (conj HC (conj HN (conj HS HNS)))))) OK BK LO GPp Hi) as (ls1' & r1' & ls2' & sm2 & r' & A' & B' & ST & SL).
      rewrite A in A'. injection A' as <- <-. rewrite B in B'. injection B' as -> _.
      apply agreeL_sym in AGi. destruct (agreeL_split _ _ _ _ AGi) as (body2 & sm3 & EG2 & _ & AF2). rewrite EG in EG2. apply app_inj_tail in EG2. destruct EG2 as [<- _].
      split; [eapply net_stored_agree; [lia|exact AF2|exact ST]|]. eapply Forall_agree; [|exact AF2|exact SL]. intros l l' AA. apply (agree_slot_ok false); [lia|exact AA].
    - unfold gs. rewrite (find_none_slot log gs0 i NI). destruct (REST i (proj1 Hi) NI) as [SD _]. rewrite EG, EL, !map_app in SD. apply app_inj_tail in SD. destruct SD as [SD _].
      symmetry in SD. destruct (OLD i Hi NI) as (body0 & sm0 & EL0 & ST0). rewrite EL in EL0. apply app_inj_tail in EL0. destruct EL0 as [<- _].
      split; [eapply net_slot_stored; [exact AF|lia|exact SD|exact ST0]|]. eapply net_slot_ok; [exact AF|lia|exact SD|apply HS; exact Hi]. }
  destruct (net_apply lr bs body' ss d gs HB HN' OK NS') as (ls' & EA & L1 & L2 & L3). { intros i Hi. apply (ST i Hi). }
  exists (ls' ++ [LSoft sm']). split; [|split].
  - rewrite EG. unfold apply_all in *. apply each_app; [exact EA|reflexivity].
  - exists ls', sm'. split; [reflexivity|]. split; [congruence|]. split; [exact L1|]. split; [|exact L2]. intros i Hi. apply L3. apply (ST i Hi).
  - intros i Hi. exists ls', sm'. split; [reflexivity|]. eapply apply_stored; [exact EA|]. apply (ST i Hi).
Qed.

(** Every execution of a full batch without overlapping label hand-overs, followed by the update, is one step of gradient
    descent with the mean of the gradients of its data points. *)
Definition no_grads : Z -> list (fn * fn) := fun _ => [].
Theorem full_batch : forall (e : estate) pcs g lr, spawn nt 0 wc = Ok pcs -> Z.of_nat (length (s_results e)) = bs ->
  trainable (s_layers e) ss d nl bs -> bs <= Z.of_nat (length (s_source e)) -> (forall p, In p (firstn (Z.to_nat bs) (s_source e)) -> good_point d J p) ->
  exec ER cast eqL labels calm wc bs (start e pcs) g -> finished g ->
  exists ls', apply_all lr (g_layers g) = ORet ls' tt /\
    trainable ls' (sgd lr ss (map (fun p => grad_of ss d J p) (firstn (Z.to_nat bs) (s_source e)))) d nl bs /\ g_source g = skipn (Z.to_nat bs) (s_source e).
Proof.
  intros e pcs g lr SP RL TR SZ GP X F. apply exec_texec in X. destruct X as [log X].
  assert (HB0 : 0 <= bs) by lia.
  destruct (batch_taken ER cast eqL labels wc bs nt e pcs HW HB0 HB2 SP RL _ _ _ X) as (ND & RG & _ & TK). destruct (TK F CV) as [TK1 TK2]. clear TK.
  assert (LL : length log = Z.to_nat bs). { assert (Q : length (map snd log) = Z.to_nat bs) by (rewrite TK1; apply firstn_length_le; lia). rewrite map_length in Q. exact Q. }
  set (slots := map (fun x : entry (U := U) (L := L) => snd (fst x)) log) in *.
  assert (SL : length slots = Z.to_nat bs) by (unfold slots; rewrite map_length; exact LL).
  assert (RS : forall x, In x slots -> 0 <= x < Z.of_nat (Z.to_nat bs)).
  { intros x HX. apply in_map_iff in HX. destruct HX as ([[t b] p] & <- & HX). cbn. specialize (RG _ _ _ HX). nia. }
  assert (COV : forall i, 0 <= i < bs -> In i slots).
  { intros i Hi. pose proof (slots_perm _ slots ND SL RS) as HP. eapply Permutation_in; [apply Permutation_sym; exact HP|]. apply in_map_iff. exists (Z.to_nat i). split; [lia|]. apply in_seq. lia. }
  destruct (any_batch e pcs g log no_grads lr SP RL TR) as (ls' & EA & T1 & _); auto.
  { intros t b p HI. apply GP. rewrite <- TK1. apply in_map_iff. exists (t, b, p). auto. }
  { intros i Hi NI. exfalso. apply NI. apply COV. exact Hi. }
  exists ls'. split; [exact EA|]. split; [|exact TK2].
  replace (sgd lr ss _) with (step_net lr bs ss (slot_grads log no_grads)); [exact T1|]. rewrite <- (Z2Nat.id bs) at 1 by lia.
  rewrite (step_sgd lr (Z.to_nat bs) ss slots _ ND SL RS). f_equal.
  rewrite <- TK1. unfold slots. rewrite !map_map. apply map_ext_in. intros [[t b] p] HI. cbn. eapply find_slot; [exact ND|exact HI].
Qed.

(** Such a batch never fails, and it can be executed. *)
Theorem batch_ok : forall (e : estate) lr (pcs : list pc), spawn nt 0 wc = Ok pcs -> Z.of_nat (length (s_results e)) = bs ->
  trainable (s_layers e) ss d nl bs -> bs <= Z.of_nat (length (s_source e)) -> (forall p, In p (s_source e) -> good_point d J p) ->
  (exists o, batch ER cast eqL labels calm wc bs nt lr e o) /\
  forall o, batch ER cast eqL labels calm wc bs nt lr e o -> exists e', o = ORet e' tt /\
    trainable (s_layers e') (sgd lr ss (map (fun p => grad_of ss d J p) (firstn (Z.to_nat bs) (s_source e)))) d nl bs /\
    s_source e' = skipn (Z.to_nat bs) (s_source e) /\ Z.of_nat (length (s_results e')) = bs.
Proof.
  intros e lr pcs SP RL TR SZ GP. pose proof (trainable_ready _ _ TR) as RD. pose proof TR as (body & sm & EL & HC & _).
  assert (HB0 : 0 <= bs) by lia.
  assert (HI : forall p, In p (s_source e) -> idx p < sm_count sm). { intros p HP. rewrite HC. apply (GP p HP). }
  assert (OKP : forall b p, 0 <= b < bs -> In p (s_source e) -> exists ls1 r1 ls2 r, fwd p b (s_layers e) = ORet ls1 r1 /\ backward_pass ER r1 (idx p) b ls1 = ORet ls2 r).
  { intros b p Hb HP. destruct (point_run (s_layers e) ss d bs J p b TR OK BK LO (GP p HP) Hb) as (ls1 & r1 & ls2 & sm2 & r & A & B & _). eauto 8. }
  split.
  - destruct (calm_completes ER cast eqL labels wc bs nt e pcs HW HB0 HB2 SP RL RD body sm EL HI OKP (start e pcs)) as (g & X & F); [constructor|].
    eexists. eapply batch_done; eassumption.
  - intros o H. inversion H as [pcs' g SP' X F Q|pcs' g t x SP' X Q|pcs' g t SP' X Q|Q]; clear H.
    + destruct (full_batch e pcs' g lr SP' RL TR SZ) as (ls' & EA & T1 & SK); auto. { intros p HP. apply GP. rewrite <- (firstn_skipn (Z.to_nat bs)). apply in_or_app. auto. }
      rewrite EA. cbn [map_out]. eexists. split; [reflexivity|]. cbn [with_layers est_of s_layers s_source s_results]. split; [exact T1|]. split; [exact SK|].
      apply exec_texec in X. destruct X as [log X]. apply (batch_invA ER cast eqL labels wc bs nt e pcs' HW HB0 HB2 SP' RL) in X. exact (a_res _ _ _ _ _ _ X).
    + exfalso. eapply (proj1 (calm_no_stop ER cast eqL labels wc bs nt e pcs' HW HB0 HB2 SP' RL RD body sm EL HI OKP g t X)). exact Q.
    + exfalso. eapply (proj2 (calm_no_stop ER cast eqL labels wc bs nt e pcs' HW HB0 HB2 SP' RL RD body sm EL HI OKP g t X)). exact Q.
    + congruence.
Qed.
End One.

(** *** Epochs and training *)
(** Gradient descent over the data points in batches of [b] *)
Fixpoint sgd_run (lr : R) (b : nat) (d : dim3) (J : point U L -> Z -> Z -> Z -> U) (n : nat) (ss : list lspec) (pts : list (point U L)) : list lspec :=
  match n with
  | O => ss
  | S n' => sgd_run lr b d J n' (sgd lr ss (map (fun p => grad_of ss d J p) (firstn b pts))) (skipn b pts)
  end.
Lemma sgd_run_same : forall lr b d J n ss pts, net_out (sgd_run lr b d J n ss pts) d = net_out ss d /\
  (net_ok (sgd_run lr b d J n ss pts) d <-> net_ok ss d) /\ (forall c, net_bkc c (sgd_run lr b d J n ss pts) d <-> net_bkc c ss d).
Proof.
  induction n as [|n IH]; intros ss pts; cbn [sgd_run]; [repeat split; auto|]. destruct (IH (sgd lr ss (map (fun p => grad_of ss d J p) (firstn b pts))) (skipn b pts)) as (A & B & C).
  split; [rewrite A; apply sgd_out|]. split; [rewrite B; apply sgd_ok|]. intros c. rewrite (C c). apply sgd_bkc.
Qed.

Lemma spawn_ok : forall n t wc, 0 <= wc -> (Z.of_nat t + Z.of_nat n) * wc < two31 -> exists pcs : list pc, spawn n t wc = Ok pcs.
Proof.
  induction n as [|n IH]; intros t wc HW H; cbn [spawn]; [eauto|]. unfold i32.
  destruct ((- two31 <=? Z.of_nat t * wc) && (Z.of_nat t * wc <? two31)) eqn:Q1; [|unfold two31 in *; nia].
  destruct ((- two31 <=? (Z.of_nat t + 1) * wc) && ((Z.of_nat t + 1) * wc <? two31)) eqn:Q2; [|unfold two31 in *; nia]. cbn [rbind].
  destruct (IH (S t) wc HW) as [pcs ->]; [unfold two31 in *; nia|]. cbn [rbind]. eauto.
Qed.

Theorem batches_ok : forall wc bs nt d J lr, 0 <= wc -> 1 <= bs -> bs <= Z.of_nat nt * wc -> Z.of_nat nt * wc < two31 ->
  forall n ss (e : estate), net_ok ss d -> net_bkc true ss d -> labels_ok (net_out ss d) nl -> Z.of_nat (length (s_results e)) = bs ->
  trainable (s_layers e) ss d nl bs -> Z.of_nat n * bs <= Z.of_nat (length (s_source e)) -> (forall p, In p (s_source e) -> good_point d J p) ->
  (exists o, batches ER cast eqL labels calm wc bs nt lr n e o) /\
  forall o, batches ER cast eqL labels calm wc bs nt lr n e o -> exists e', o = ORet e' tt /\
    trainable (s_layers e') (sgd_run lr (Z.to_nat bs) d J n ss (s_source e)) d nl bs.
Proof.
  intros wc bs nt d J lr HW HB CV HT. destruct (spawn_ok nt 0 wc HW) as [pcs SP]; [lia|].
  induction n as [|n IH]; intros ss e OK BK LO RL TR SZ GP.
  - split; [eexists; constructor|]. intros o H. inversion H; subst. eauto.
  - assert (HB2 : bs < two31) by lia.
    destruct (batch_ok wc bs nt ss d J HW HB HB2 CV OK BK LO e lr pcs SP RL TR) as [[o1 EX] ALL]; auto; [nia|].
    assert (STEP : forall e1, batch ER cast eqL labels calm wc bs nt lr e (ORet e1 tt) ->
      (exists o, batches ER cast eqL labels calm wc bs nt lr n e1 o) /\
      forall o, batches ER cast eqL labels calm wc bs nt lr n e1 o -> exists e', o = ORet e' tt /\
        trainable (s_layers e') (sgd_run lr (Z.to_nat bs) d J (S n) ss (s_source e)) d nl bs).
    { intros e1 B1. destruct (ALL _ B1) as (e2 & Q & T1 & SK & RL1). injection Q as <-. cbn [sgd_run]. rewrite <- SK. apply IH; auto.
      - apply sgd_ok. exact OK.
      - apply sgd_bkc. exact BK.
      - rewrite sgd_out. exact LO.
      - rewrite SK, skipn_length. nia.
      - intros p HP. apply GP. rewrite SK in HP. rewrite <- (firstn_skipn (Z.to_nat bs)). apply in_or_app. auto. }
    split.
    + destruct (ALL _ EX) as (e1 & -> & _). destruct (STEP e1 EX) as [[o H] _]. exists o. eapply batches_cons; eassumption.
    + intros o H. inversion H as [|? ? e1 ? B1 B2|? ? ? B1 NR]; subst.
      * exact (proj2 (STEP e1 B1) _ B2).
      * destruct (ALL _ B1) as (e1 & -> & _). exfalso. exact (NR e1 eq_refl).
Qed.

Lemma ceil_facts : forall a s, 1 <= s -> 0 <= a -> a <= s * ((a + s - 1) / s) <= a + s - 1 /\ 0 <= (a + s - 1) / s.
Proof.
  intros a s H1 H2. pose proof (Z.div_mod (a + s - 1) s ltac:(lia)). pose proof (Z.mod_pos_bound (a + s - 1) s ltac:(lia)).
  split; [nia|]. apply Z.div_pos; lia.
Qed.

(** An epoch over a data set whose size is a multiple of the batch size *)
Theorem epoch_ok : forall h d J size q ss ls src, 1 <= h_nt h < 2 ^ 24 -> 1 <= h_bs h < 2 ^ 24 -> size = Z.of_nat (length src) -> size < 2 ^ 24 ->
  size = Z.of_nat q * h_bs h -> net_ok ss d -> net_bkc true ss d -> labels_ok (net_out ss d) nl -> trainable ls ss d nl (h_bs h) ->
  (forall p, In p src -> good_point d J p) ->
  (exists o, epoch ER cast eqL labels calm h size ls src o) /\
  forall o, epoch ER cast eqL labels calm h size ls src o -> exists e, o = ORet e tt /\
    trainable (s_layers e) (sgd_run (h_lr h) (Z.to_nat (h_bs h)) d J q ss src) d nl (h_bs h).
Proof.
  intros h d J size q ss ls src Hn Hb HS HS2 HQ OK BK LO TR GP.
  assert (P24 : 2 ^ 24 = 16777216) by reflexivity. rewrite P24 in *.
  destruct (ceil_facts (h_bs h) (h_nt h)) as [C1 C2]; [lia|lia|].
  assert (E1 : ceil_div (h_bs h) (h_nt h) = Ok ((h_bs h + h_nt h - 1) / h_nt h)) by (apply ceil_div_exact; rewrite ?P24; lia).
  assert (E2 : ceil_div size (h_bs h) = Ok (Z.of_nat q)).
  { rewrite ceil_div_exact by (rewrite ?P24; lia). f_equal. symmetry. apply (Z.div_unique _ _ _ (h_bs h - 1)); lia. }
  set (wc := (h_bs h + h_nt h - 1) / h_nt h) in *.
  set (e0 := Est ls src (repeat None (Z.to_nat (h_bs h))) 0 : estate).
  destruct (batches_ok wc (h_bs h) (Z.to_nat (h_nt h)) d J (h_lr h)) with (n := q) (ss := ss) (e := e0) as [EX ALL]; auto;
    try (unfold two31; lia); try (cbn [e0 s_results s_source]; rewrite ?repeat_length; lia).
  split.
  - destruct EX as [o EX]. exists o. eapply epoch_run; [lia|lia|exact E1|exact E2|]. rewrite Nat2Z.id. exact EX.
  - intros o H. inversion H as [wc' nb o' N0 B0 W1 W2 BT EQ|X EQ|wc' N0 X1 X EQ|N0 [X|[_ X]] EQ]; subst o.
    + rewrite E1 in W1. injection W1 as <-. rewrite E2 in W2. injection W2 as <-. rewrite Nat2Z.id in BT. exact (ALL _ BT).
    + lia.
    + lia.
    + congruence.
    + congruence.
Qed.

Fixpoint sgd_epochs (lr : R) (b : nat) (d : dim3) (J : point U L -> Z -> Z -> Z -> U) (q n : nat) (ss : list lspec) (pts : list (point U L)) : list lspec :=
  match n with O => ss | S n' => sgd_epochs lr b d J q n' (sgd_run lr b d J q ss pts) pts end.

Theorem epochs_ok : forall h d J size q src, 1 <= h_nt h < 2 ^ 24 -> 1 <= h_bs h < 2 ^ 24 -> size = Z.of_nat (length src) -> size < 2 ^ 24 ->
  size = Z.of_nat q * h_bs h -> (forall p, In p src -> good_point d J p) ->
  forall n ss ls, net_ok ss d -> net_bkc true ss d -> labels_ok (net_out ss d) nl -> trainable ls ss d nl (h_bs h) ->
  (exists o, epochs ER cast eqL labels calm h size src n ls src o) /\
  forall o, epochs ER cast eqL labels calm h size src n ls src o -> exists ls', o = ORet ls' tt /\
    trainable ls' (sgd_epochs (h_lr h) (Z.to_nat (h_bs h)) d J q n ss src) d nl (h_bs h).
Proof.
  intros h d J size q src Hn Hb HS HS2 HQ GP. induction n as [|n IH]; intros ss ls OK BK LO TR.
  - split; [eexists; constructor|]. intros o H. inversion H; subst. eauto.
  - destruct (epoch_ok h d J size q ss ls src Hn Hb HS HS2 HQ OK BK LO TR GP) as [EX ALL].
    assert (STEP : forall e, epoch ER cast eqL labels calm h size ls src (ORet e tt) ->
      (exists o, epochs ER cast eqL labels calm h size src n (s_layers e) src o) /\
      forall o, epochs ER cast eqL labels calm h size src n (s_layers e) src o -> exists ls', o = ORet ls' tt /\
        trainable ls' (sgd_epochs (h_lr h) (Z.to_nat (h_bs h)) d J q (S n) ss src) d nl (h_bs h)).
    { intros e X. destruct (ALL _ X) as (e1 & Q & T1). injection Q as <-. cbn [sgd_epochs].
      destruct (sgd_run_same (h_lr h) (Z.to_nat (h_bs h)) d J q ss src) as (A & B & C). apply IH; auto.
      - apply B. exact OK.
      - apply C. exact BK.
      - rewrite A. exact LO. }
    split.
    + destruct EX as [o X]. destruct (ALL _ X) as (e & -> & _). destruct (STEP e X) as [[o H] _]. exists o. eapply epochs_cons; eassumption.
    + intros o H. inversion H as [|? ? ? e ? B1 B2|? ? ? e x B1|? ? ? B1]; subst.
      * exact (proj2 (STEP e B1) _ B2).
      * destruct (ALL _ B1) as (e1 & Q & _). discriminate.
      * destruct (ALL _ B1) as (e1 & Q & _). discriminate.
Qed.

(** The slots of pooling layers that were filled before *)
Definition idx_ok {T} (l : layer T) : Prop := match l with LPool q => List.Forall consistent (q_idx q) | _ => True end.

Lemma set_batch_ok : forall bs l s d, 0 <= bs -> l_is l s d -> idx_ok l ->
  exists l', l_set_batch bs l = ORet l' tt /\ l_is l' s d /\ nslots bs l' /\ idx_ok l' /\ forall i, 0 <= i < bs -> slot_ok l' i.
Proof.
  intros bs l s d Hb HL HI. destruct l as [k|c|q|a|sm], s as [fx fy C n W B|n W B|t qx qy sx sy|k0]; cbn in HL; try contradiction; cbn [l_set_batch].
  - destruct (Z.ltb_spec bs 0); [lia|]. eexists. split; [reflexivity|]. split; [exact HL|]. cbn. rewrite repeat_length. repeat split; auto; lia.
  - destruct (Z.ltb_spec bs 0); [lia|]. eexists. split; [reflexivity|]. split; [exact HL|]. cbn. rewrite repeat_length. repeat split; auto; lia.
  - unfold q_batch, vec_resize. destruct (Z.ltb_spec bs 0); [lia|]. cbn [rbind]. eexists. split; [reflexivity|]. split; [exact HL|]. split; [exact Logic.I|].
    assert (FC : List.Forall consistent (firstn (Z.to_nat bs) (q_idx q) ++ repeat mat_empty (Z.to_nat bs - length (q_idx q)))).
    { apply Forall_app. split.
      - cbn in HI. rewrite Forall_forall in *. intros x HX. apply HI. rewrite <- (firstn_skipn (Z.to_nat bs)). apply in_or_app. auto.
      - apply Forall_forall. intros x HX. apply repeat_spec in HX. subst x. reflexivity. }
    split; [exact FC|]. intros i Hi. cbn [slot_ok q_idx]. destruct (slot_vget (firstn (Z.to_nat bs) (q_idx q) ++ repeat mat_empty (Z.to_nat bs - length (q_idx q))) i) as [v Hv].
    { rewrite app_length, firstn_length, repeat_length. lia. }
    exists v. split; [exact Hv|]. rewrite Forall_forall in FC. apply FC. unfold vget in Hv. destruct (_ && _); [|discriminate].
    destruct (nth_error _ _) eqn:Q; [|discriminate]. injection Hv as <-. eapply nth_error_In. exact Q.
  - eexists. split; [reflexivity|]. split; [exact HL|]. cbn. auto.
Qed.
Lemma set_batch_net : forall bs ls ss d, 0 <= bs -> net_is ls ss d -> List.Forall idx_ok ls ->
  exists ls', set_batch_all bs ls = ORet ls' tt /\ net_is ls' ss d /\ List.Forall (nslots bs) ls' /\ forall i, 0 <= i < bs -> List.Forall (fun l => slot_ok l i) ls'.
Proof.
  intros bs. induction ls as [|l ls IH]; intros ss d Hb HN HI; destruct ss as [|s ss]; cbn in HN; try contradiction.
  - exists []. cbn. repeat split; auto.
  - destruct HN as [H1 H2]. inversion HI; subst. destruct (set_batch_ok bs l s d Hb H1 H3) as (l' & E1 & L1 & L2 & _ & L4).
    destruct (IH ss _ Hb H2 H4) as (ls' & E2 & M1 & M2 & M3). exists (l' :: ls'). unfold set_batch_all in *. cbn [each_layer]. rewrite E1, E2. cbn.
    repeat split; auto.
Qed.

(** Training from a configured network *)
Theorem train_ok : forall h d J size q ss body sm src, 1 <= h_nt h < 2 ^ 24 -> 1 <= h_bs h < 2 ^ 24 -> size = Z.of_nat (length src) -> size < 2 ^ 24 ->
  size = Z.of_nat q * h_bs h -> (forall p, In p src -> good_point d J p) -> net_ok ss d -> net_bkc true ss d -> labels_ok (net_out ss d) nl ->
  net_is body ss d -> List.Forall idx_ok body -> sm_count sm = nl ->
  (exists o, train ER cast eqL labels calm h size src (body ++ [LSoft sm]) src o) /\
  forall o, train ER cast eqL labels calm h size src (body ++ [LSoft sm]) src o -> exists ls', o = ORet ls' tt /\
    trainable ls' (sgd_epochs (h_lr h) (Z.to_nat (h_bs h)) d J q (Z.to_nat (h_epochs h)) ss src) d nl (h_bs h).
Proof.
  intros h d J size q ss body sm src Hn Hb HS HS2 HQ GP OK BK LO HN HI HC.
  destruct (set_batch_net (h_bs h) body ss d ltac:(lia) HN HI) as (body' & EB & N1 & N2 & N3).
  assert (EA : set_batch_all (h_bs h) (body ++ [LSoft sm]) = ORet (body' ++ [LSoft sm]) tt) by (unfold set_batch_all in *; apply each_app; [exact EB|reflexivity]).
  destruct (epochs_ok h d J size q src Hn Hb HS HS2 HQ GP (Z.to_nat (h_epochs h)) ss (body' ++ [LSoft sm]) OK BK LO) as [[o EX] ALL].
  { exists body', sm. repeat split; auto. }
  split; [exists o; eapply train_run; eassumption|]. intros o' H. inversion H as [ls1 s1 o1 Q H1|ls1 s1 x Q|s1 Q]; subst; rewrite EA in Q; try discriminate.
  injection Q as <-. exact (ALL _ H1).
Qed.
End Batch.

(** What is described determines the parameters exactly. *)
Lemma net_is_params : forall ls ls' ss d, net_ok ss d -> net_is ls ss d -> net_is ls' ss d -> map params_of ls = map params_of ls'.
Proof.
  induction ls as [|l ls IH]; intros ls' ss d OK H H'; destruct ss as [|s ss]; cbn in H; try contradiction; destruct ls' as [|l' ls']; cbn in H'; try contradiction; [reflexivity|].
  destruct H as [H1 H2], H' as [H1' H2'], OK as [O1 O2]. cbn [map]. f_equal; [|eapply IH; eassumption].
  destruct l as [k|c|q|a|sm], s as [fx fy C n W B|n W B|t qx qy sx sy|k0]; cbn in H1; try contradiction; destruct l' as [k'|c'|q'|a'|sm']; cbn in H1'; try contradiction; try reflexivity; cbn.
  - destruct H1 as [(_ & _ & _ & _ & F1 & F2 & W1 & B1 & _) _], H1' as [(_ & _ & _ & _ & _ & _ & W2 & B2 & _) _].
    rewrite (is_mat_unique _ _ _ _ F1 W1 W2), (is_mat_unique _ _ _ _ F2 B1 B2). reflexivity.
  - destruct H1 as [(_ & W1 & B1 & _ & _ & F1 & F2) _], H1' as [(_ & W2 & B2 & _) _].
    rewrite (is_mat_unique _ _ _ _ F1 W1 W2), (is_mat_unique _ _ _ _ F2 B1 B2). reflexivity.
Qed.
Lemma trainable_params : forall ls ls' ss d n n' bs bs', net_ok ss d -> trainable ls ss d n bs -> trainable ls' ss d n' bs' -> map params_of ls = map params_of ls'.
Proof.
  intros ls ls' ss d n n' bs bs' OK (body & sm & -> & _ & H & _) (body' & sm' & -> & _ & H' & _). rewrite !map_app. f_equal. eapply net_is_params; eassumption.
Qed.
