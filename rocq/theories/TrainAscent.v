(** With sigmoid activations a training step can raise the loss of its own batch, for every small learning rate. *)
From Coq Require Import ZArith List Bool Lia Reals Lra.
From Coquelicot Require Import Coquelicot.
From Verif Require Import Base Dim Matrix View Num Expr Spec Iter Sums MatFacts MatThms ExprThms Batch Kernel Connected Float32
  FloatFacts Pooling Activation Softmax LayerFacts KernelThms Calc KernelGrad BatchThms ConnectedThms PoolingThms PoolGrad
  ActivationThms SoftmaxThms LayerTotal Chars Model Net NetThms NetPass NetGrad ModelThms
  Train TrainLocal TrainRest TrainInv TrainData TrainEnd TrainThms TrainEpoch TrainNet TrainSgd TrainDescent NetFresh TrainMore.
Import ListNotations.
Local Open Scope Z_scope.

(** A differentiable function with positive derivative grows. *)
Lemma derive_increase : forall (f : R -> R) (l : R), is_derive f 0%R l -> (0 < l)%R -> exists eps, (0 < eps)%R /\ forall t, (0 < t < eps)%R -> (f 0 < f t)%R.
Proof.
  intros f l H HL. destruct (derive_decrease (fun t => - f t)%R (- l)%R) as (eps & E1 & E2); [apply (is_derive_opp f 0%R l H)|lra|].
  exists eps. split; [exact E1|]. intros t Ht. specialize (E2 t Ht). lra.
Qed.

Section Prob.
Context (rand : Z -> Z) (rmax : Z).
Local Notation ER := (envR rand rmax).
Context {U L : Type} (cast : U -> R) (eqL : L -> L -> bool) (labels : list L).
Local Notation idx := (label_idx eqL labels).
Local Notation nl := (Z.of_nat (length labels)).
Lemma point_exp : forall ls ss d bs J (p : point U L) b, trainable ls ss d nl bs -> net_ok ss d -> labels_ok (net_out ss d) nl ->
  good_point eqL labels d J p -> 0 <= b < bs ->
  exists ls' r rs q, forward_pass ER cast nl (pt_data p) b ls = ORet ls' r /\ r_inputs r = rs ++ [q] /\
    mread_flat q (idx p) = Ok (exp (- point_loss ss d (fun x y z => cast (J p x y z)) (idx p))).
Proof.
  intros ls ss d bs J p b (body & sm & -> & HC & HN & HS & _) OK LO [HM HK] Hb.
  destruct (forward_ok rand rmax (body ++ [LSoft sm]) ss d nl b U cast (pt_data p) (J p)) as (ls0 & sm0 & ls' & x0 & rs & q & r & a & b' & c & EQ & _ & EF & RI & X0 & RA & IQ & _); auto.
  { exists body, sm. repeat split; auto. }
  apply app_inj_tail in EQ. destruct EQ as [<- EQ]. injection EQ as <-.
  destruct LO as (Z1 & Z2 & Z3). destruct (net_ok_out _ _ OK) as [Po Fo]. unfold point_loss.
  set (dd := net_out ss d) in *. assert (DD : dd = D3 (dx dd) (dy dd) (dz dd)) by (destruct dd; reflexivity).
  destruct (idx_of_inb (dx dd) (dy dd) (dz dd) (idx p)) as [I1 I2]; [unfold pos in Po; lia|unfold pos in Po; lia|unfold vol in Z3; lia|].
  rewrite <- DD in I1, I2. pose proof (is_mat_flat q _ _ _ _ _ IQ I1) as RQ. rewrite I2 in RQ.
  exists (ls' ++ [LSoft sm]), r, (x0 :: rs), q. split; [exact EF|]. split; [exact RI|]. rewrite RQ. f_equal. unfold nll. rewrite Ropp_involutive, exp_ln; [reflexivity|].
  unfold soft. apply Rdiv_lt_0_compat; [apply exp_pos|apply exp_sum_pos; exact Po].
Qed.
End Prob.

(** *** The network *)
Section Steep.
Local Open Scope R_scope.
Definition steep : list lspec :=
  [SConn 1 (fun _ _ _ => 0) (fun _ _ _ => 0); SConn 2 (fun i _ _ => if Z.eqb i 0 then 1 else 2) (fun i _ _ => if Z.eqb i 0 then 0 else ln 7); SAct Sigmoid].
Local Notation d1 := (D3 1 1 1).
Definition five : fn := fun _ _ _ => 5.
Local Notation sg := (act_R Sigmoid).

Lemma rsum_2 : forall f, rsum 2 f = f 0%Z + f 1%Z.
Proof. intros f. change 2%Z with (0 + 1 + 1)%Z. rewrite !rsum_S by lia. change (rsum 0 f) with 0. cbn [Z.add]. lra. Qed.
Lemma rsum3_2 : forall f : fn, rsum3 (D3 2 1 1) f = f 0%Z 0%Z 0%Z + f 1%Z 0%Z 0%Z.
Proof. intros f. unfold rsum3. cbn [dx dy dz]. rewrite !rsum_1, rsum_2. reflexivity. Qed.

(** The outputs of networks of this form *)
Lemma steep_sem : forall A B W V (s : list lspec), s = [SConn 1 A B; SConn 2 W V; SAct Sigmoid] -> forall i, 
  net_sem s d1 five i 0%Z 0%Z = sg (W i 0%Z 0%Z * (A 0%Z 0%Z 0%Z * 5 + B 0%Z 0%Z 0%Z) + V i 0%Z 0%Z).
Proof.
  intros A B W V s -> i. cbn [net_sem sem s_out]. change (vol (D3 1 1 1)) with 1%Z. unfold affine. rewrite !nsum_R, !rsum_1. unfold elem_no, five. cbn [dx dy dz nadd nmul NumR].
  rewrite !nsum_R, !rsum_1. reflexivity.
Qed.

Definition P1 : R := exp (sg (ln 7)) / (exp (sg 0) + exp (sg (ln 7))).
Definition F0 : R := actg_R Sigmoid (sg 0).
Definition F1 : R := actg_R Sigmoid (sg (ln 7)).
(** the gradient for the output of the first layer *)
Definition dA : R := 2 * (P1 * F1) - P1 * F0.

Lemma steep_out : forall i, net_sem steep d1 five i 0%Z 0%Z = sg (if Z.eqb i 0 then 0 else ln 7).
Proof. intros i. rewrite (steep_sem _ _ _ _ steep eq_refl). f_equal. destruct (Z.eqb i 0); lra. Qed.
Lemma steep_soft : forall i, soft (D3 2 1 1) (net_sem steep d1 five) i 0 0 = if Z.eqb i 0 then exp (sg 0) / (exp (sg 0) + exp (sg (ln 7))) else P1.
Proof. intros i. unfold soft, P1. rewrite rsum3_2, !steep_out. cbn [Z.eqb]. destruct (Z.eqb i 0); reflexivity. Qed.
Lemma P0_P1 : exp (sg 0) / (exp (sg 0) + exp (sg (ln 7))) - 1 = - P1.
Proof. unfold P1. pose proof (exp_pos (sg 0)). pose proof (exp_pos (sg (ln 7))). field. lra. Qed.
Lemma steep_out_grad : forall i, (i = 0 \/ i = 1)%Z -> out_grad (D3 2 1 1) (net_sem steep d1 five) 0 0 0 i 0%Z 0%Z = if Z.eqb i 0 then - P1 else P1.
Proof.
  intros i H. unfold out_grad, fupd. rewrite !steep_soft. cbn [Z.eqb andb]. destruct H as [-> | ->]; cbn [Z.eqb andb]; [apply P0_P1|reflexivity].
Qed.

Lemma steep_step : forall lr, exists A B W V, sgd lr steep [label_grad steep d1 five 0] = [SConn 1 A B; SConn 2 W V; SAct Sigmoid] /\
  A 0%Z 0%Z 0%Z = - lr * (5 * dA) /\ B 0%Z 0%Z 0%Z = - lr * dA /\ W 0%Z 0%Z 0%Z = 1 /\ W 1%Z 0%Z 0%Z = 2 /\ V 0%Z 0%Z 0%Z = lr * (P1 * F0) /\ V 1%Z 0%Z 0%Z = ln 7 - lr * (P1 * F1).
Proof.
  intros lr. unfold label_grad. change (net_out steep d1) with (D3 2 1 1). cbn [dx dy]. change (idx_of 2 1 0) with (D3 0 0 0). cbn [dx dy dz].
  set (G := out_grad (D3 2 1 1) (net_sem steep d1 five) 0 0 0).
  assert (G0 : G 0%Z 0%Z 0%Z = - P1) by (apply (steep_out_grad 0); auto). assert (G1 : G 1%Z 0%Z 0%Z = P1) by (apply (steep_out_grad 1); auto). clearbody G.
  unfold steep. cbn [sgd map setp s_w s_b]. do 4 eexists. split; [reflexivity|].
  assert (M : forall x, rmean [x] = x) by (intros x; unfold rmean; cbn; field).
  cbn [net_grads net_dx map nth tl fst snd s_out s_dw s_db s_dx sem]. rewrite !M. change (vol (D3 1 1 1)) with 1%Z. unfold affine. cbn [dx dy dz nadd nmul NumR]. 
  rewrite !rsum_2. cbn [Z.eqb]. rewrite G0, G1. unfold elem_no, five. rewrite ?nsum_R, ?rsum_1. cbn [dx dy dz Z.eqb].
  replace (1 * (0 * 5 + 0) + 0) with 0 by lra. replace (2 * (0 * 5 + 0) + ln 7) with (ln 7) by lra. fold F0 F1. unfold dA. repeat split; ring.
Qed.

(** The loss after the step *)
Definition c0 : R := - 26 * dA + P1 * F0.
Definition c1 : R := - 52 * dA - P1 * F1.
Lemma steep_loss : forall lr, point_loss (sgd lr steep [label_grad steep d1 five 0]) d1 five 0 =
  ln (exp (sg (lr * c0)) + exp (sg (ln 7 + lr * c1))) - sg (lr * c0).
Proof.
  intros lr. destruct (steep_step lr) as (A & B & W & V & -> & EA & EB & EW0 & EW1 & EV0 & EV1). unfold point_loss.
  change (net_out [SConn 1 A B; SConn 2 W V; SAct Sigmoid] d1) with (D3 2 1 1). cbn [dx dy]. change (idx_of 2 1 0) with (D3 0 0 0). cbn [dx dy dz].
  rewrite nll_eq by (unfold pos; cbn; lia). rewrite rsum3_2, !(steep_sem A B W V _ eq_refl). rewrite EA, EB, EW0, EW1, EV0, EV1.
  unfold c0, c1.
  replace (1 * (- lr * (5 * dA) * 5 + - lr * dA) + lr * (P1 * F0)) with (lr * (- 26 * dA + P1 * F0)) by ring.
  replace (2 * (- lr * (5 * dA) * 5 + - lr * dA) + (ln 7 - lr * (P1 * F1))) with (ln 7 + lr * (- 52 * dA - P1 * F1)) by ring. reflexivity.
Qed.

Lemma sg_0 : sg 0 = 1 / 2.
Proof. rewrite sigmoid_R, Ropp_0, exp_0. lra. Qed.
Lemma sg_ln7 : sg (ln 7) = 7 / 8.
Proof. rewrite sigmoid_R, exp_Ropp, exp_ln by lra. lra. Qed.
Lemma P1_pos : 0 < P1.
Proof. unfold P1. pose proof (exp_pos (sg 0)). pose proof (exp_pos (sg (ln 7))). apply Rdiv_lt_0_compat; lra. Qed.
Lemma actg_sg : forall v, actg_R Sigmoid v = sg v * (1 - sg v).
Proof. reflexivity. Qed.
Lemma F0_bound : F0 <= / 4.
Proof. unfold F0. rewrite actg_sg. pose proof (Rle_0_sqr (sg (sg 0) - 1 / 2)). unfold Rsqr in *. lra. Qed.
Lemma exp_1_3 : exp 1 <= 3.
Proof. exact exp_le_3. Qed.
Lemma F1_bound : 3 / 16 <= F1 <= / 4.
Proof.
  unfold F1. rewrite actg_sg, sg_ln7. set (s := sg (7 / 8)). split; [|pose proof (Rle_0_sqr (s - 1 / 2)); unfold Rsqr in *; lra].
  assert (1 / 2 < s <= 3 / 4).
  { unfold s. rewrite sigmoid_R. assert (exp (- (7 / 8)) < 1) by (rewrite <- exp_0; apply exp_increasing; lra).
    assert (/ 3 <= exp (- (7 / 8))). { left. apply Rle_lt_trans with (exp (Ropp 1)); [|apply exp_increasing; lra]. rewrite exp_Ropp. apply Rinv_le_contravar; [apply exp_pos|exact exp_1_3]. }
    split; [replace (1 / 2) with (/ 2) by lra; apply Rinv_lt_contravar; lra|]. replace (3 / 4) with (/ (4 / 3)) by lra. apply Rinv_le_contravar; lra. }
  nra.
Qed.

Lemma steep_derive : is_derive (fun lr => ln (exp (sg (lr * c0)) + exp (sg (ln 7 + lr * c1))) - sg (lr * c0)) 0 (P1 * (7 / 64 * c1 - 1 / 4 * c0)).
Proof.
  assert (D0 : is_derive (fun lr => sg (lr * c0)) 0 (c0 * (1 / 4))).
  { apply (is_derive_comp sg (fun lr => lr * c0)); [|auto_derive; [exact Logic.I|ring]]. rewrite Rmult_0_l. replace (1 / 4) with (sg 0 * (1 - sg 0)) by (rewrite sg_0; lra). apply sigmoid_derive. }
  assert (D1 : is_derive (fun lr => sg (ln 7 + lr * c1)) 0 (c1 * (7 / 64))).
  { apply (is_derive_comp sg (fun lr => ln 7 + lr * c1)); [|auto_derive; [exact Logic.I|ring]]. rewrite Rmult_0_l, Rplus_0_r. replace (7 / 64) with (sg (ln 7) * (1 - sg (ln 7))) by (rewrite sg_ln7; lra). apply sigmoid_derive. }
  set (f := fun lr : R => sg (lr * c0)). set (h := fun lr : R => sg (ln 7 + lr * c1)). change (is_derive f 0 (c0 * (1 / 4))) in D0. change (is_derive h 0 (c1 * (7 / 64))) in D1.
  assert (E0 : f 0 = sg 0) by (unfold f; f_equal; ring). assert (E1 : h 0 = sg (ln 7)) by (unfold h; f_equal; ring).
  change (is_derive (fun lr => ln (exp (f lr) + exp (h lr)) - f lr) 0 (P1 * (7 / 64 * c1 - 1 / 4 * c0))).
  clearbody f h. auto_derive.
  - pose proof (exp_pos (f 0)). pose proof (exp_pos (h 0)). repeat split; first [eexists; exact D0|eexists; exact D1|lra].
  - change (fun x => f x) with f. change (fun x => h x) with h. rewrite (is_derive_unique _ _ _ D0), (is_derive_unique _ _ _ D1), E0, E1. unfold P1. pose proof (exp_pos (sg 0)). pose proof (exp_pos (sg (ln 7))). field. lra.
Qed.
Lemma steep_rises : 0 < P1 * (7 / 64 * c1 - 1 / 4 * c0).
Proof.
  pose proof P1_pos. pose proof F0_bound. pose proof F1_bound. apply Rmult_lt_0_compat; [assumption|].
  replace (7 / 64 * c1 - 1 / 4 * c0) with (P1 * (26 / 32 * (2 * F1 - F0) - 7 / 64 * F1 - 1 / 4 * F0)) by (unfold c0, c1, dA; field).
  apply Rmult_lt_0_compat; lra.
Qed.
End Steep.

(** *** Training with one thread and batches of one data point *)
Local Open Scope R_scope.
Definition steep_layers : list (layer R) :=
  [ LConn (Conn (Par (Mat (D3 1 1 1) [0]) (Mat (D3 1 1 1) [0]) [mat_empty] [mat_empty]) (D3 1 1 1) true);
    LConn (Conn (Par (Mat (D3 2 1 1) [1; 2]) (Mat (D3 2 1 1) [0; ln 7]) [mat_empty] [mat_empty]) (D3 1 1 1) true);
    LAct (a_make Sigmoid); LSoft (sm_make 2) ].
Local Notation d1 := (D3 1 1 1).
Lemma steep_ok : net_ok steep d1.
Proof. cbn [net_ok steep s_ok s_out]. unfold fits, pos. repeat split; vm_compute; first [reflexivity|discriminate]. Qed.
Lemma steep_trainable : trainable steep_layers steep d1 2 1.
Proof.
  destruct (NetFresh.mk_net_ok steep d1 steep_ok) as [A B]. exists (NetFresh.mk_net steep d1), (sm_make 2).
  split; [reflexivity|]. split; [reflexivity|]. split; [exact A|]. split.
  - intros i Hi. replace i with 0%Z by lia. exact B.
  - repeat constructor.
Qed.

Local Notation pt := (Point (Mat (D3 1 1 1) [5]) 0%Z).
Definition steep_state : estate (T := R) (U := R) (L := Z) := Est steep_layers [pt] [None] 0.
Lemma steep_point : good_point Z.eqb [0%Z; 1%Z] d1 (fun _ _ _ _ => 5) pt.
Proof.
  split; [|vm_compute; split; [discriminate|reflexivity]].
  change (is_mat (mk_mat d1 (fun _ _ _ => 5)) d1 (fun _ _ _ => 5)). apply mk_mat_ok. unfold fits. vm_compute. repeat split; first [reflexivity|discriminate].
Qed.

Theorem sigmoid_ascent : forall rand rmax, exists prob : R -> R,
  (forall lr, exists o, batch (envR rand rmax) (fun v : R => v) Z.eqb [0%Z; 1%Z] (fun _ => True) 1 1 1 lr steep_state o) /\
  (forall lr o, batch (envR rand rmax) (fun v : R => v) Z.eqb [0%Z; 1%Z] (fun _ => True) 1 1 1 lr steep_state o -> exists e ls r rs q,
     o = ORet e tt /\ forward_pass (envR rand rmax) (fun v : R => v) 2 (Mat (D3 1 1 1) [5]) 0 (s_layers e) = ORet ls r /\ r_inputs r = rs ++ [q] /\ mread_flat q 0 = Ok (prob lr)) /\
  (exists D, is_derive (fun lr => - ln (prob lr)) 0 D /\ 0 < D) /\
  exists eps, 0 < eps /\ forall lr, 0 < lr < eps -> - ln (prob 0) < - ln (prob lr).
Proof.
  intros rand rmax. set (ER := envR rand rmax). set (id := fun v : R => v). set (lbl := [0%Z; 1%Z]).
  set (loss := fun lr => point_loss (sgd lr steep [label_grad steep d1 five 0]) d1 five 0).
  assert (LO : labels_ok (net_out steep d1) 2) by (repeat split; vm_compute; auto).
  assert (SP : spawn (T := R) (U := R) (L := Z) 1 0 1 = Ok [PLoop 0]) by reflexivity.
  assert (DL : is_derive loss 0 (P1 * (7 / 64 * c1 - 1 / 4 * c0))).
  { eapply is_derive_ext; [|exact steep_derive]. intros lr. unfold loss. rewrite steep_loss. reflexivity. }
  assert (LE : forall lr, loss lr = point_loss (sgd lr steep [label_grad steep d1 five 0]) d1 five 0) by reflexivity. clearbody loss.
  assert (BK : net_bkc true steep d1) by (cbn; auto).
  assert (CALM : forall lr o, batch ER id Z.eqb lbl (fun _ => True) 1 1 1 lr steep_state o -> batch ER id Z.eqb lbl calm 1 1 1 lr steep_state o).
  { intros lr o H. destruct H as [pcs g SP' X F|pcs g t x SP' X Q|pcs g t SP' X Q|Q].
    1-3: apply (single_calm ER id Z.eqb lbl 1 1 1 steep_state pcs g (le_n 1) ltac:(lia) ltac:(lia) eq_refl SP' eq_refl) in X; econstructor; eassumption.
    discriminate. }
  assert (OK1 := fun lr => batch_ok rand rmax id Z.eqb lbl 1 1 1 steep d1 (fun _ _ _ _ => 5) ltac:(lia) ltac:(lia) eq_refl ltac:(lia) steep_ok BK LO steep_state lr [PLoop 0] SP eq_refl steep_trainable ltac:(cbn; lia)).
  assert (GP : forall p, In p (s_source steep_state) -> good_point Z.eqb lbl d1 (fun _ _ _ _ => 5) p) by (intros p [<-|[]]; exact steep_point).
  exists (fun lr => exp (- loss lr)). split; [|split; [|split]].
  - intros lr. apply (batch_total ER id Z.eqb lbl 1 1 1 lr steep_state); [lia|lia|reflexivity|reflexivity].
  - intros lr o H. apply CALM in H. destruct (OK1 lr GP) as [_ ALL]. destruct (ALL o H) as (e & -> & TR & _).
    destruct (point_exp rand rmax id Z.eqb lbl (s_layers e) _ d1 1 (fun _ _ _ _ => 5) pt 0%Z TR) as (ls' & r & rs & q & A & B & C); [apply sgd_ok; exact steep_ok|rewrite sgd_out; exact LO|exact steep_point|lia|].
    exists e, ls', r, rs, q. split; [reflexivity|]. split; [exact A|]. split; [exact B|]. rewrite LE. exact C.
  - exists (P1 * (7 / 64 * c1 - 1 / 4 * c0)). split; [|exact steep_rises]. eapply is_derive_ext; [|exact DL]. intros lr. cbn beta. rewrite ln_exp. symmetry. apply Ropp_involutive.
  - destruct (derive_increase loss _ DL steep_rises) as (eps & E1 & E2). exists eps. split; [exact E1|]. intros lr HL. rewrite !ln_exp, !Ropp_involutive. apply E2. exact HL.
Qed.
