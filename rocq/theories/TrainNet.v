(** Training a network over the real numbers: every execution of a full batch without overlapping label hand-overs is a
    step of gradient descent with the mean of the gradients of the data points of the batch. *)
From Coq Require Import ZArith List Bool Lia Reals Lra Permutation FunctionalExtensionality.
From Coquelicot Require Import Coquelicot.
From Verif Require Import Base Dim Matrix View Num Expr Spec Iter Sums MatFacts MatThms ExprThms Batch Kernel Connected Float32
  FloatFacts Pooling Activation Softmax LayerFacts KernelThms Calc KernelGrad BatchThms ConnectedThms PoolingThms PoolGrad
  ActivationThms SoftmaxThms LayerTotal Chars Model Net NetThms NetPass NetGrad ModelThms
  Train TrainLocal TrainRest TrainInv TrainData TrainEnd TrainThms TrainEpoch.
Import ListNotations.
Local Open Scope Z_scope.
Local Notation stored := Net.stored.

(** Exactly [bs] gradient slots *)
Definition nslots {T} (bs : Z) (l : layer T) : Prop :=
  match l with
  | LKernel k => Z.of_nat (length (p_wg (k_par k))) = bs /\ Z.of_nat (length (p_bg (k_par k))) = bs
  | LConn c => Z.of_nat (length (p_wg (c_par c))) = bs /\ Z.of_nat (length (p_bg (c_par c))) = bs
  | _ => True
  end.
(** A network that is set up for batches of size [bs] *)
Definition trainable (ls : list (layer R)) (ss : list lspec) (d : dim3) (n bs : Z) : Prop :=
  exists body sm, ls = body ++ [LSoft sm] /\ sm_count sm = n /\ net_is body ss d /\
    (forall i, 0 <= i < bs -> List.Forall (fun l => slot_ok l i) body) /\ List.Forall (nslots bs) body.

(** The gradients of the loss for input [I] and label number [k], for all parameters *)
Definition label_grad (ss : list lspec) (d : dim3) (I : fn) (k : Z) : list (fn * fn) :=
  let dd := net_out ss d in let i := idx_of (dx dd) (dy dd) k in
  net_grads ss d I (out_grad dd (net_sem ss d I) (dx i) (dy i) (dz i)).

Definition rmean (l : list R) : R := (fold_right Rplus 0 l / INR (length l))%R.
Definition nog : fn * fn := ((fun _ _ _ => 0%R), (fun _ _ _ => 0%R)).

(** One step of gradient descent; [gss] are the gradients of the data points. *)
Fixpoint sgd (lr : R) (ss : list lspec) (gss : list (list (fn * fn))) : list lspec :=
  match ss with
  | [] => []
  | s :: r =>
      setp s (fun x y z => (s_w s x y z - lr * rmean (map (fun gs => fst (nth 0 gs nog) x y z) gss))%R)
             (fun x y z => (s_b s x y z - lr * rmean (map (fun gs => snd (nth 0 gs nog) x y z) gss))%R)
      :: sgd lr r (map (@tl _) gss)
  end.

Lemma nth_tl : forall {A} j (l : list A) a, nth j (tl l) a = nth (S j) l a.
Proof. destruct l; [destruct j; reflexivity|reflexivity]. Qed.
(** Layer by layer *)
Theorem sgd_nth : forall lr ss gss j s, nth_error ss j = Some s -> nth_error (sgd lr ss gss) j = Some
  (setp s (fun x y z => (s_w s x y z - lr * rmean (map (fun gs => fst (nth j gs nog) x y z) gss))%R)
          (fun x y z => (s_b s x y z - lr * rmean (map (fun gs => snd (nth j gs nog) x y z) gss))%R)).
Proof.
  induction ss as [|s0 ss IH]; intros gss j s H; destruct j; cbn [nth_error sgd] in *; try discriminate.
  - injection H as ->. reflexivity.
  - rewrite (IH _ _ _ H). do 2 f_equal; extensionality x; extensionality y; extensionality z; rewrite map_map; do 3 f_equal;
      apply map_ext; intros gs; rewrite nth_tl; reflexivity.
Qed.
Lemma sgd_length : forall lr ss gss, length (sgd lr ss gss) = length ss.
Proof. induction ss; intros; cbn; [reflexivity|]. rewrite IHss. reflexivity. Qed.

(** *** The update of the layers *)
Section Apply.
Lemma agree_l_is : forall m b l l' s d, agree m b l l' -> l_is l s d -> l_is l' s d.
Proof. intros m b l l' s d H HL. destruct H; destruct s; cbn in *; try contradiction; auto. Qed.
Lemma agree_nslots : forall {T} m b n (l l' : layer T), agree m b l l' -> nslots n l -> nslots n l'.
Proof. intros T m b n l l' H HL. destruct H as [? ? ? ? ? ? ? ? ? [] []|? ? ? ? ? ? ? [] []|? ? ? ? ? []|?|]; cbn in *; auto; lia. Qed.
Lemma agree_slot_ok : forall {T} m i (l l' : layer T), 0 <= i -> agree m (Z.to_nat i) l l' -> slot_ok l i -> slot_ok l' i.
Proof.
  intros T m i l l' Hi H HL. destruct H as [? ? ? ? ? ? ? ? ? S1 S2|? ? ? ? ? ? ? S1 S2|? ? ? ? ? S1|?|]; cbn in *; auto.
  - rewrite <- (proj1 S1), <- (proj1 S2). exact HL.
  - rewrite <- (proj1 S1), <- (proj1 S2). exact HL.
  - rewrite <- (slots_vget _ _ _ Hi S1). exact HL.
Qed.
Lemma agree_stored : forall m i l l' s d DW DB, 0 <= i -> agree m (Z.to_nat i) l l' -> stored l s d i DW DB -> stored l' s d i DW DB.
Proof.
  intros m i l l' s d DW DB Hi H HL. destruct H as [? ? ? ? ? ? ? ? ? S1 S2|? ? ? ? ? ? ? S1 S2|? ? ? ? ? S1|?|]; cbn in *; auto;
    rewrite <- (slots_vget _ _ _ Hi S1), <- (slots_vget _ _ _ Hi S2); exact HL.
Qed.

Lemma agreeL_split : forall {T} b body sm (ls' : list (layer T)), agreeL b (body ++ [LSoft sm]) ls' ->
  exists body' sm', ls' = body' ++ [LSoft sm'] /\ sm_count sm' = sm_count sm /\ Forall2 (agree false b) body body'.
Proof.
  intros T b body sm ls' H. destruct (agreeL_soft b ls' body sm (agreeL_sym _ _ _ H)) as (body' & sm' & -> & C & LN).
  exists body', sm'. split; [reflexivity|]. split; [exact C|]. destruct H as [HL H].
  assert (K : forall i l, nth_error body i = Some l -> exists l', nth_error body' i = Some l' /\ agree false b l l').
  { intros i l Q. assert (i < length body)%nat by (apply nth_error_Some; congruence). destruct (H i l) as (l' & Q' & A).
    { rewrite nth_error_app1 by lia. exact Q. }
    rewrite nth_error_app1 in Q' by lia. exists l'. split; [exact Q'|]. rewrite app_length in A. cbn [length] in A.
    replace (Nat.eqb (S i) (length body + 1)) with false in A by (symmetry; apply Nat.eqb_neq; lia). exact A. }
  clear - K LN. revert body' K LN. induction body as [|l body IH]; intros [|l' body'] K LN; cbn in LN; try discriminate; constructor.
  - destruct (K 0%nat l eq_refl) as (l1 & Q & A). cbn in Q. injection Q as <-. exact A.
  - apply IH; [|lia]. intros i a Q. exact (K (S i) a Q).
Qed.
Lemma net_is_agree : forall b ls ls' ss d, Forall2 (agree false b) ls ls' -> net_is ls ss d -> net_is ls' ss d.
Proof.
  intros b ls ls' ss d H. revert ss d. induction H as [|l l' ls ls' A H IH]; intros ss d HN; destruct ss; cbn in *; auto.
  destruct HN. split; [eapply agree_l_is; eassumption|apply IH; assumption].
Qed.
Lemma net_stored_agree : forall i ls ls' ss d gs, 0 <= i -> Forall2 (agree false (Z.to_nat i)) ls ls' -> net_stored ls ss d i gs -> net_stored ls' ss d i gs.
Proof.
  intros i ls ls' ss d gs Hi H. revert ss d gs. induction H as [|l l' ls ls' A H IH]; intros ss d gs HN; destruct ss, gs; cbn in *; auto.
  destruct HN. split; [eapply agree_stored; eassumption|apply IH; assumption].
Qed.
Lemma Forall_agree : forall {T} (Q : layer T -> Prop) b ls ls', (forall l l', agree false b l l' -> Q l -> Q l') -> Forall2 (agree false b) ls ls' -> List.Forall Q ls -> List.Forall Q ls'.
Proof. intros T Q b ls ls' K H. induction H; intros HF; constructor; inversion HF; subst; eauto. Qed.

(** The new parameters, with the gradients by slot *)
Definition step_slots (lr : R) (n : Z) (p : fn) (G : Z -> fn) : fn := fun x y z => (p x y z - lr * (rsum n (fun i => G i x y z) / IZR n))%R.

Lemma layer_apply : forall lr bs l s d (GW GB : Z -> fn), 1 <= bs -> l_is l s d -> s_ok s d -> nslots bs l ->
  (forall i, 0 <= i < bs -> stored l s d i (GW i) (GB i)) ->
  exists l', l_apply lr l = ORet l' tt /\ l_is l' (setp s (step_slots lr bs (s_w s) GW) (step_slots lr bs (s_b s) GB)) d /\
    nslots bs l' /\ (forall i, slot_ok l i -> slot_ok l' i).
Proof.
  intros lr bs l s d GW GB Hb HL (P & F & OK) NS ST.
  destruct l as [k|c|q|a|sm]; destruct s as [fx fy C n W B|n W B|t qx qy sx sy|ac]; cbn in HL; try contradiction; cbn [l_apply].
  - destruct HL as (HK & HT). destruct OK as (A1 & A2 & A3 & A4 & F1 & F2 & F3). cbn in NS. destruct NS as [N1 N2].
    assert (KK := HK). destruct KK as (K1 & K2 & K3 & K4 & K5 & K6 & K7 & K8 & K9 & K10). cbn in ST.
    assert (I1 : iterable (D3 fx fy (C * n))) by (left; cbn; lia). assert (I2 : iterable (D3 n 1 1)) by (left; cbn; lia).
    destruct (apply_batch_ok lr (p_wg (k_par k)) (p_bg (k_par k)) (k_w k) (k_b k) _ _ W B GW GB bs K5 I1 K6 I2 (eq_sym N1) (eq_sym N2)) as (w' & b' & E1 & W1 & B1); auto.
    { intros i Hi. rewrite N1 in Hi. destruct (ST i Hi) as (gw & gb & Q1 & Q2 & _). eauto. }
    { intros i Hi. rewrite N2 in Hi. destruct (ST i Hi) as (gw & gb & _ & _ & Q1 & Q2). eauto. }
    unfold on_par, p_apply. unfold k_w, k_b in E1. rewrite E1. cbn [map_out with_par]. eexists. split; [reflexivity|]. split.
    + split; [|exact HT]. exact (conj K1 (conj K2 (conj K3 (conj K4 (conj K5 (conj K6 (conj W1 (conj B1 (conj K9 K10))))))))).
    + split; [cbn; auto|]. intros i HS. exact HS.
  - destruct HL as (HK & HT). destruct OK as (A1 & F1 & F2). cbn in NS. destruct NS as [N1 N2].
    assert (KK := HK). destruct KK as (K1 & K2 & K3 & K4 & K5 & K6 & K7). cbn in ST.
    assert (I1 : iterable (D3 n (vol d) 1)) by (left; cbn; lia). assert (I2 : iterable (D3 n 1 1)) by (left; cbn; lia).
    destruct (apply_batch_ok lr (p_wg (c_par c)) (p_bg (c_par c)) (c_w c) (c_b c) _ _ W B GW GB bs K6 I1 K7 I2 (eq_sym N1) (eq_sym N2)) as (w' & b' & E1 & W1 & B1); auto.
    { intros i Hi. rewrite N1 in Hi. destruct (ST i Hi) as (gw & gb & Q1 & Q2 & _). eauto. }
    { intros i Hi. rewrite N2 in Hi. destruct (ST i Hi) as (gw & gb & _ & _ & Q1 & Q2). eauto. }
    unfold on_cpar, p_apply. unfold c_w, c_b in E1. rewrite E1. cbn [map_out]. eexists. split; [reflexivity|]. split.
    + split; [|exact HT]. exact (conj K1 (conj W1 (conj B1 (conj K4 (conj K5 (conj K6 K7)))))).
    + split; [cbn; auto|]. intros i HS. exact HS.
  - eexists. split; [reflexivity|]. cbn. auto.
  - eexists. split; [reflexivity|]. cbn. auto.
Qed.
End Apply.

(** *** All layers *)
Fixpoint step_net (lr : R) (n : Z) (ss : list lspec) (gs : Z -> list (fn * fn)) : list lspec :=
  match ss with
  | [] => []
  | s :: r => setp s (step_slots lr n (s_w s) (fun i => fst (nth 0 (gs i) nog))) (step_slots lr n (s_b s) (fun i => snd (nth 0 (gs i) nog)))
              :: step_net lr n r (fun i => tl (gs i))
  end.

Lemma net_apply : forall lr bs ls ss d (gs : Z -> list (fn * fn)), 1 <= bs -> net_is ls ss d -> net_ok ss d -> List.Forall (nslots bs) ls ->
  (forall i, 0 <= i < bs -> net_stored ls ss d i (gs i)) ->
  exists ls', apply_all lr ls = ORet ls' tt /\ net_is ls' (step_net lr bs ss gs) d /\ List.Forall (nslots bs) ls' /\
    (forall i, List.Forall (fun l => slot_ok l i) ls -> List.Forall (fun l => slot_ok l i) ls').
Proof.
  intros lr bs. induction ls as [|l ls IH]; intros ss d gs Hb HN OK NS ST; destruct ss as [|s ss]; cbn in HN; try contradiction.
  - exists []. cbn. auto.
  - destruct HN as [H1 H2]. destruct OK as [O1 O2]. inversion NS as [|? ? S1 S2]; subst.
    assert (HG : forall i, 0 <= i < bs -> stored l s d i (fst (nth 0 (gs i) nog)) (snd (nth 0 (gs i) nog)) /\ net_stored ls ss (s_out s d) i (tl (gs i))).
    { intros i Hi. specialize (ST i Hi). cbn in ST. destruct (gs i) as [|g gr]; [contradiction|]. exact ST. }
    destruct (layer_apply lr bs l s d (fun i => fst (nth 0 (gs i) nog)) (fun i => snd (nth 0 (gs i) nog)) Hb H1 O1 S1) as (l' & E1 & L1 & L2 & L3).
    { intros i Hi. apply HG. exact Hi. }
    destruct (IH ss (s_out s d) (fun i => tl (gs i)) Hb H2 O2 S2) as (ls' & E2 & M1 & M2 & M3). { intros i Hi. apply HG. exact Hi. }
    exists (l' :: ls'). unfold apply_all in *. cbn [each_layer]. rewrite E1, E2. cbn [map_out step_net net_is].
    split; [reflexivity|]. split; [split; [exact L1|rewrite s_out_setp; exact M1]|]. split; [constructor; assumption|].
    intros i HF. inversion HF; subst. constructor; auto.
Qed.

Lemma each_app : forall {T} {N : Num T} (c : M (layer T) unit) a b a' b', each_layer c a = ORet a' tt -> each_layer c b = ORet b' tt -> each_layer c (a ++ b) = ORet (a' ++ b') tt.
Proof.
  intros T N c. induction a as [|l a IH]; intros b a' b' H H'; cbn [each_layer app] in *.
  - injection H as <-. exact H'.
  - destruct (c l) as [l1 ?| |]; try discriminate. destruct (each_layer c a) as [a1 []| |]; try discriminate. cbn in H. injection H as <-.
    rewrite (IH b a1 b' eq_refl H'). reflexivity.
Qed.

(** *** The slots do not disappear. *)
Section Slots.
Context {T : Type} {N : Num T} (E : env T).
Lemma l_backward_slot : forall x z g b last l l' r i, slot_ok l i -> l_backward E x z g b last l = ORet l' r -> slot_ok (T := T) l' i.
Proof.
  intros x z g b last l l' r i HS H. destruct l as [k|c|q|a|s]; cbn [l_backward] in H.
  - destruct (k_backward x g b last k) as [k' o| |] eqn:Q; try discriminate. cbn in H. injection H as <- _. unfold k_backward in Q.
    unfold bind, mget, lift in Q. destruct (k_dw k x g) as [dw| |]; try discriminate.
    unfold on_par at 1, store_wg in Q. destruct (vset (p_wg (k_par k)) b dw) as [l1| |] eqn:V1; try discriminate.
    destruct (k_db k g) as [db| |]; try discriminate. unfold on_par, store_bg in Q. cbn [with_par k_par p_bg] in Q. destruct (vset (p_bg (k_par k)) b db) as [l2| |] eqn:V2; try discriminate.
    unfold vset in V1, V2. destruct ((0 <=? b) && _); try discriminate. destruct ((0 <=? b) && _); try discriminate. injection V1 as <-. injection V2 as <-.
    assert (EQ : k' = with_par k (Par (p_w (k_par k)) (p_b (k_par k)) (upd (p_wg (k_par k)) (Z.to_nat b) dw) (upd (p_bg (k_par k)) (Z.to_nat b) db))).
    { destruct last; cbn in Q; [injection Q as <- _; reflexivity|]. destruct (k_dx k x g); try discriminate. injection Q as <- _. reflexivity. }
    subst k'. cbn in *. rewrite !upd_length. exact HS.
  - destruct (c_backward (e_moved E) x g b last c) as [c' o| |] eqn:Q; try discriminate. cbn in H. injection H as <- _. unfold c_backward in Q.
    unfold bind, mget, lift in Q. destruct (c_dw (e_moved E) x g) as [dw| |]; try discriminate.
    unfold on_cpar at 1, store_wg in Q. destruct (vset (p_wg (c_par c)) b dw) as [l1| |] eqn:V1; try discriminate.
    unfold on_cpar, store_bg in Q. cbn [c_par p_bg] in Q. destruct (vset (p_bg (c_par c)) b (c_db g)) as [l2| |] eqn:V2; try discriminate.
    unfold vset in V1, V2. destruct ((0 <=? b) && _); try discriminate. destruct ((0 <=? b) && _); try discriminate. injection V1 as <-. injection V2 as <-.
    destruct last; cbn in Q.
    + injection Q as <- _. cbn in *. rewrite !upd_length. exact HS.
    + match type of Q with match ?t with _ => _ end = _ => destruct t; try discriminate end. injection Q as <- _. cbn in *. rewrite !upd_length. exact HS.
  - unfold q_backward, bind, mget in H. destruct (q_dx q x g b); try discriminate. cbn in H. injection H as <- _. exact HS.
  - destruct (a_backward _ _ _ _ _ _); try discriminate. injection H as <- _. exact HS.
  - destruct (sm_backward _ _); try discriminate. injection H as <- _. exact HS.
Qed.
Lemma Forall_upd : forall {A} (Q : A -> Prop) l i v, List.Forall Q l -> Q v -> List.Forall Q (upd l i v).
Proof. induction l; intros i v H HV; destruct i; cbn; inversion H; subst; constructor; auto. Qed.
Lemma bwd_layers_slot : forall i n recs g b ls ls' r, List.Forall (fun l => slot_ok (T := T) l i) ls -> bwd_layers E n recs g b ls = ORet ls' r -> List.Forall (fun l => slot_ok l i) ls'.
Proof.
  induction n as [|n IH]; intros recs g b ls ls' r HF H; cbn [bwd_layers] in H; [injection H as <- _; exact HF|].
  do 4 (apply bind_inv in H; destruct H as (? & ? & HL & H); apply lift_inv in HL; destruct HL as [-> _]).
  apply bind_inv in H. destruct H as (ls1 & g1 & H1 & H). eapply IH; [|exact H].
  unfold on_nth in H1. destruct (nth_error ls n) as [l|] eqn:Q; try discriminate. destruct (l_backward E _ _ g b (Nat.eqb n 0) l) as [l1 ?| |] eqn:QB; try discriminate.
  cbn in H1. injection H1 as <- _. apply Forall_upd; [exact HF|]. eapply l_backward_slot; [|exact QB]. rewrite Forall_forall in HF. apply HF. eapply nth_error_In. exact Q.
Qed.
Lemma backward_slot : forall i r k b ls ls' r', List.Forall (fun l => slot_ok (T := T) l i) ls -> backward_pass E r k b ls = ORet ls' r' -> List.Forall (fun l => slot_ok l i) ls'.
Proof.
  intros i r k b ls ls' r' HF H. unfold backward_pass in H. apply bind_inv in H. destruct H as (? & ? & HL & H). apply lift_inv in HL. destruct HL as [-> _].
  apply bind_inv in H. destruct H as (ls1 & ? & H1 & H). injection H as <- _. unfold backward_tail in H1.
  apply bind_inv in H1. destruct H1 as (ls2 & ? & H2 & H1). apply bind_inv in H1. destruct H1 as (ls3 & ? & H3 & H1). injection H3 as <- <-.
  apply bind_inv in H1. destruct H1 as (ls4 & ? & H4 & H1). injection H1 as <- _. eapply bwd_layers_slot; [|exact H4].
  unfold hand_over in H2. destruct (rev ls) as [|[| | | |s] q]; try discriminate. unfold on_nth in H2. destruct (nth_error ls (length ls - 1)); try discriminate.
  unfold sm_assign in H2. destruct (sm_count s <=? k); try discriminate. cbn in H2. injection H2 as <-. apply Forall_upd; [exact HF|exact Logic.I].
Qed.
End Slots.

(** *** Sums over the slots *)
Lemma rsum_seq : forall n F, rsum (Z.of_nat n) F = fold_right Rplus 0%R (map F (map Z.of_nat (seq 0 n))).
Proof.
  induction n as [|n IH]; intros F; [reflexivity|]. rewrite Nat2Z.inj_succ. unfold Z.succ. rewrite rsum_S by lia. rewrite IH.
  rewrite seq_S, !map_app. cbn [map Nat.add]. rewrite fold_right_app. cbn [fold_right].
  generalize (map F (map Z.of_nat (seq 0 n))) as l. intros l. induction l as [|a l IHl]; cbn [fold_right]; [lra|]. rewrite <- IHl. lra.
Qed.
Lemma sum_perm : forall l l', Permutation l l' -> fold_right Rplus 0%R l = fold_right Rplus 0%R l'.
Proof. intros l l' H. induction H; cbn [fold_right]; try congruence; lra. Qed.
Lemma slots_perm : forall n (l : list Z), NoDup l -> length l = n -> (forall x, In x l -> 0 <= x < Z.of_nat n) -> Permutation l (map Z.of_nat (seq 0 n)).
Proof.
  intros n l ND HL HR. apply NoDup_Permutation_bis; [exact ND| |].
  - rewrite map_length, seq_length. lia.
  - intros x HX. specialize (HR x HX). apply in_map_iff. exists (Z.to_nat x). split; [lia|]. apply in_seq. lia.
Qed.
