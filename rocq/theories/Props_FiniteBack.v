(** C88: backward passes and updates of doubles stay finite within computed bounds. *)
From Coq Require Import ZArith Bool Lia Reals List.
From Flocq Require Import Core BinarySingleNaN.
From Verif Require Import Base Dim Matrix View Num Expr Spec Iter MatFacts Batch Kernel Connected Float32 FloatFacts Pooling Activation Softmax Chars Calc
  Double Model Net NetGrad ModelThms Train TrainLocal TrainRest TrainInv TrainData TrainEnd TrainThms TrainEpoch TrainNet TrainSgd TrainMore Shapes ShapeNet TrainSafe TrainOne Main FiniteFacts FiniteSoft FiniteInit FiniteNet FiniteReal FiniteMain FiniteBack FiniteTrain.
Import ListNotations.
Local Open Scope Z_scope.

(** ** C88. [within 1 e v]: v is finite and at most 2^e in absolute value; [small e m d]: m has dimensions d and all its
    elements are so. [net_small w ls ss d]: all parameters of the layers are at most 2^w. [net_slot g ls ss d i]: the
    gradients in slot i are at most 2^g. [env_ok]: see C85_env. *)
(** One backward pass: [x0] is the image, [rs] are the recorded outputs of the layers, [p] the probabilities. [h_net_blim 970
    w ss d e 0]: the bounds computed for all values of the pass are at most 2^970; [h_net_gexp]: the bound for the gradients.
    The other slots keep their bounds. *)
Theorem C88_backward : forall E, e_moved E = false -> exp_ok (e_exp E) -> tanh_ok (e_tanh E) -> unit_const (e_c01 E) ->
  forall w body sm ss d n i k e x0 rs p P recs,
  net_fit body ss d -> List.Forall ready body -> net_marked body ss d i -> sm_count sm = n -> h_net_ok ss d -> h_net_bkc true ss d -> labels_ok (h_net_out ss d) n ->
  recs = x0 :: rs ++ [p] -> small e x0 d -> recs_small w rs ss d e -> is_mat p (h_net_out ss d) P ->
  (forall a b c, inb (h_net_out ss d) a b c -> is_finite (P a b c) = true /\ (0 <= B2R (P a b c) <= 1)%R) -> 0 <= k < n ->
  net_small w body ss d -> 0 <= w -> 0 <= e -> h_net_blim 970 w ss d e 0 ->
  exists body', backward_tail E recs k i (body ++ [LSoft sm]) = ORet (body' ++ [LSoft (Soft true k n)]) tt /\
    net_small w body' ss d /\ net_slot (h_net_gexp w ss d e 0) body' ss d i /\
    forall g' j, j <> i -> net_slot g' body ss d j -> net_slot g' body' ss d j.
Proof. exact backward_finite. Qed.
Print Assumptions C88_backward.
(** The update: parameters of at most 2^w and gradients of at most 2^g in all slots give parameters of at most
    2^(max w (r+g) + 1) for a learning rate of at most 2^r. *)
Theorem C88_update : forall lr r bs w g, within 1 r lr -> 1 <= bs < 2 ^ 31 -> -1074 <= g <= 970 -> -1074 <= r + g -> -1074 <= w -> Z.max w (r + g) + 1 <= 970 ->
  forall ls ss d, net_fit ls ss d -> List.Forall ready ls -> h_net_ok ss d -> List.Forall (nslots bs) ls ->
  (forall i, 0 <= i < bs -> net_slot g ls ss d i) -> net_small w ls ss d ->
  exists ls', apply_all lr ls = ORet ls' tt /\ net_small (Z.max w (r + g) + 1) ls' ss d /\ forall g' i, net_slot g' ls ss d i -> net_slot g' ls' ss d i.
Proof. exact apply_all_small. Qed.
Print Assumptions C88_update.
(** [n] batches with one thread: no exception, and all parameters are finite and at most 2^(w_after n ...) afterwards.
    [batches_lim n ss d r e w g]: the bounds computed for n batches stay below 2^127 for the forward passes (the results are
    recorded as floats) and 2^970 elsewhere. [pt_small d e p]: an image of dimensions d with pixels of at most 2^e and a
    known label. [tame ... w g F b ls]: the parameters are at most 2^w, and the gradients in slots that were used at most 2^g. *)
Theorem C88_batches : forall E, env_ok E -> e_moved E = false -> forall U L (cast : U -> double) (eqL : L -> L -> bool) labels
  P wc bs ss d r e lr n w g (s : estate (U := U) (L := L)) o, 1 <= bs < two31 -> bs <= wc < two31 -> h_ready ss d (Z.of_nat (length labels)) ->
  Z.of_nat (length (s_results s)) = bs -> set_up labels (s_layers s) ss d bs -> (forall p, In p (s_source s) -> pt_small cast eqL labels d e p) ->
  n = O \/ warm (s_layers s) ss d bs \/ bs <= Z.of_nat (length (s_source s)) -> within 1 r lr -> 0 <= w -> 0 <= g -> 0 <= e -> batches_lim n ss d r e w g ->
  tame bs ss d w g (warm (s_layers s) ss d bs) 0 (s_layers s) ->
  batches E cast eqL labels P wc bs 1 lr n s o ->
  exists s' g', o = ORet s' tt /\ set_up labels (s_layers s') ss d bs /\ (n = O \/ warm (s_layers s') ss d bs) /\
    tame bs ss d (w_after n ss d r e w g) g' (warm (s_layers s') ss d bs) 0 (s_layers s').
Proof. exact @batches_tame. Qed.
Print Assumptions C88_batches.
(** The same with any number of threads and all interleavings, if all layers have their parameters *)
Theorem C88_threads : forall E, env_ok E -> e_moved E = false -> forall U L (cast : U -> double) (eqL : L -> L -> bool) labels
  P wc bs nt ss d r e lr n w g (s : estate (U := U) (L := L)) o, 0 <= wc -> 1 <= bs < two31 -> bs <= Z.of_nat nt * wc -> h_ready ss d (Z.of_nat (length labels)) ->
  spawn (T := double) (U := U) (L := L) nt 0 wc <> UB ->
  Z.of_nat (length (s_results s)) = bs -> set_up labels (s_layers s) ss d bs -> List.Forall ready (s_layers s) -> (forall p, In p (s_source s) -> pt_small cast eqL labels d e p) ->
  n = O \/ all_filled (s_layers s) ss d bs \/ bs <= Z.of_nat (length (s_source s)) -> within 1 r lr -> 0 <= w -> 0 <= g -> 0 <= e -> batches_lim n ss d r e w g ->
  tame bs ss d w g (all_filled (s_layers s) ss d bs) 0 (s_layers s) ->
  batches E cast eqL labels P wc bs nt lr n s o ->
  exists s' g', o = ORet s' tt /\ set_up labels (s_layers s') ss d bs /\ List.Forall ready (s_layers s') /\
    tame bs ss d (w_after n ss d r e w g) g' (all_filled (s_layers s') ss d bs) 0 (s_layers s').
Proof. exact @batches_tame_threads. Qed.
Print Assumptions C88_threads.
(** The first batch of main.cpp with one thread: pixels up to 2^8 and a learning rate of at most 2^-5 (0.03) give parameters
    of at most 2^44. *)
Theorem C88_main : forall E, env_ok E -> e_moved E = false -> forall U (cast : U -> double) u, exists m ls, main_model E u = Ok m /\
  set_batch_all 32 (map snd (m_layers m)) = ORet ls tt /\
  forall P wc (s : estate (U := U) (L := text)) lr o, 32 <= wc < two31 -> s_layers s = ls -> length (s_results s) = 32%nat -> (32 <= length (s_source s))%nat ->
    (forall p, In p (s_source s) -> pt_small cast text_eqb main_labels (D3 28 28 1) 8 p) -> within 1 (-5) lr ->
    batch E cast text_eqb main_labels P wc 32 1 lr s o ->
    exists s' body sm, o = ORet s' tt /\ s_layers s' = body ++ [LSoft sm] /\ net_fit body main_shapes (D3 28 28 1) /\ List.Forall ready body /\
      net_small 44 body main_shapes (D3 28 28 1).
Proof. exact main_first_batch. Qed.
Print Assumptions C88_main.
(** The bounds: a fully connected layer with two outputs on images of 4 x 4 pixels up to 2^8; 100 batches are within the
    limits. The bound for the parameters grows by one bit per batch. A convolution before it: 9 bits per batch. *)
Example C88_ex_bounds : batches_lim 100 [HConn 2] (D3 4 4 1) (-5) 8 0 0 /\
  map (fun n => w_after n [HConn 2] (D3 4 4 1) (-5) 8 0 0) [0; 1; 2; 100]%nat = [0; 4; 5; 103] /\
  batches_lim 2 [HConv 2 2 1 1; HAct Relu; HConn 2] (D3 4 4 1) (-5) 8 0 0 /\
  map (fun n => w_after n [HConv 2 2 1 1; HAct Relu; HConn 2] (D3 4 4 1) (-5) 8 0 0) [0; 1; 2]%nat = [0; 9; 18].
Proof. vm_compute. intuition congruence. Qed.
(** The assumptions hold for the network [wide_layers] below with its image, and a learning rate of 1: one fully connected
    layer of two outputs on one pixel, parameters 0. *)
Example C88_ex : h_ready [HConn 2] (D3 1 1 1) 2 /\ set_up [0; 1] wide_layers [HConn 2] (D3 1 1 1) 1 /\ batches_lim 100 [HConn 2] (D3 1 1 1) 0 2 0 0 /\
  pt_small (fun v : double => v) Z.eqb [0; 1] (D3 1 1 1) 2 (Point (Mat (D3 1 1 1) [four]) 0).
Proof.
  split; [vm_compute; intuition congruence|]. split; [|split].
  - exists [LConn (Conn (Par (Mat (D3 2 1 1) [n0; n0]) (Mat (D3 2 1 1) [n0; n0]) [mat_empty] [mat_empty]) (D3 1 1 1) true)], (sm_make 2). split; [reflexivity|].
    split; [split; [left|exact I]|].
    { split; [|reflexivity]. exists (fun _ _ _ => n0), (fun _ _ _ => n0). split; [reflexivity|].
      assert (Z0 : forall d : dim3, d = D3 2 1 1 -> is_mat (Mat d [n0; n0]) d (fun _ _ _ => (n0 : double))).
      { intros d ->. split; [reflexivity|]. split; [reflexivity|]. intros x y z (A & B & C). cbn [dx dy dz] in *. replace y with 0 by lia. replace z with 0 by lia.
        assert (D : x = 0 \/ x = 1) by lia. destruct D as [->| ->]; reflexivity. }
      split; [apply (Z0 (D3 2 1 1)); reflexivity|]. split; [apply (Z0 (D3 2 1 1)); reflexivity|]. vm_compute. intuition congruence. }
    split; [reflexivity|]. split; [repeat constructor|]. intros i Hi. assert (i = 0) as -> by lia. constructor; [vm_compute; intuition congruence|constructor].
  - vm_compute. intuition congruence.
  - split; [|vm_compute; intuition congruence]. exists (fun _ _ _ => four). split.
    + split; [reflexivity|]. split; [reflexivity|]. intros x y z (A & B & C). cbn [dx dy dz] in *. replace x with 0 by lia. replace y with 0 by lia. replace z with 0 by lia. reflexivity.
    + intros a b c _. split; [reflexivity|]. unfold four. rewrite lit_val. rewrite Rmult_1_l. change (IZR 4503599627370496) with (bpow radix2 52). rewrite <- bpow_plus.
      rewrite Rabs_pos_eq; [apply Rle_refl|apply bpow_ge_0].
Qed.
(** Without bounds the statement is false: finite parameters (0), a finite image (4) and a finite learning rate (2^1023) give
    infinite parameters after one batch. *)
Theorem C88_unbounded_refuted : env_ok p_env /\ is_finite huge = true /\ is_finite four = true /\
  exists s' l ls', batch p_env (fun v => v) Z.eqb [0; 1] (fun _ => True) 1 1 1 huge
    (Est [LConn (Conn (Par (Mat (D3 2 1 1) [n0; n0]) (Mat (D3 2 1 1) [n0; n0]) [mat_empty] [mat_empty]) (D3 1 1 1) true); LSoft (sm_make 2)]
       [Point (Mat (D3 1 1 1) [four]) 0] [None] 0) (ORet s' tt) /\
    s_layers s' = LConn l :: ls' /\ mvals (c_w l) = [posinf; neginf].
Proof. split; [exact p_env_ok|]. split; [reflexivity|]. split; [reflexivity|]. exact huge_rate. Qed.
Print Assumptions C88_unbounded_refuted.
