(** C53 for every network: with two or more threads the gradient stored for a data point can be that for the label of
    another data point. *)
From Coq Require Import ZArith Reals List Lia Lra.
From Verif Require Import Base Dim Matrix Num Batch Connected Softmax Activation Kernel Pooling LayerFacts Model NetGrad ModelThms Train TrainThms Shapes ShapeNet TrainSafe Main TrainRace TrainMix.
Import ListNotations.
Local Open Scope Z_scope.

(** The layers fit together, all of them are initialised, and each has a slot for each data point of the batch. Threads 0 and 1
    take the first two data points. Whatever these are, there is an execution of the batch, to its end, after which slot 0
    holds what the backward pass for the first data point stores if it is given the label of the second one. *)
Theorem C53_mixed_refuted : forall T (N : Num T) (E : env T) U L (cast : U -> T) (eqL : L -> L -> bool) labels wc bs ss d nt pcs (e : estate (T := T) (U := U) (L := L)) p0 p1 s,
  e_moved E = false -> (2 <= nt)%nat -> 1 <= wc < bs -> bs < two31 -> spawn nt 0 wc = Ok pcs -> Z.of_nat (length (s_results e)) = bs ->
  h_ready ss d (Z.of_nat (length labels)) -> set_up labels (s_layers e) ss d bs -> List.Forall ready (s_layers e) -> s_source e = p0 :: p1 :: s ->
  (forall p, In p (s_source e) -> pt_ok eqL labels d p) ->
  exists g log ls1 r1 r ls2, texec E cast eqL labels (fun _ => True) wc bs (start e pcs) g log /\ finished g /\ In (0%nat, 0, p0) log /\
    forward_pass E cast (Z.of_nat (length labels)) (pt_data p0) 0 (s_layers e) = ORet ls1 r1 /\ assign_loss E r1 (label_idx eqL labels p0) = Ok r /\
    backward_tail E (r_inputs r) (label_idx eqL labels p1) 0 ls1 = ORet ls2 tt /\ map (slot_data 0) (g_layers g) = map (slot_data 0) ls2.
Proof. intros. eapply mixed_labels; eassumption. Qed.
Print Assumptions C53_mixed_refuted.

(** If moreover the layer before the output layer is fully connected, as in main.cpp, and the labels differ, then it is not
    what the backward pass stores with the label of the first data point. *)
Theorem C53_always_refuted : forall (E : env R) U L (cast : U -> R) (eqL : L -> L -> bool) labels wc bs ss d m nt pcs (e : estate (T := R) (U := U) (L := L)) p0 p1 s,
  e_moved E = false -> (2 <= nt)%nat -> 1 <= wc < bs -> bs < two31 -> spawn nt 0 wc = Ok pcs -> Z.of_nat (length (s_results e)) = bs ->
  h_ready (ss ++ [HConn m]) d (Z.of_nat (length labels)) -> set_up labels (s_layers e) (ss ++ [HConn m]) d bs -> List.Forall ready (s_layers e) -> s_source e = p0 :: p1 :: s ->
  (forall p, In p (s_source e) -> pt_ok eqL labels d p) -> label_idx eqL labels p0 <> label_idx eqL labels p1 ->
  exists g log ls1 r1 ls2 r, texec E cast eqL labels (fun _ => True) wc bs (start e pcs) g log /\ finished g /\ In (0%nat, 0, p0) log /\
    forward_pass E cast (Z.of_nat (length labels)) (pt_data p0) 0 (s_layers e) = ORet ls1 r1 /\ backward_pass E r1 (label_idx eqL labels p0) 0 ls1 = ORet ls2 r /\
    map (slot_data 0) (g_layers g) <> map (slot_data 0) ls2.
Proof. intros. eapply wrong_gradient; try eassumption; [|reflexivity]. intros v. cbn. lra. Qed.
Print Assumptions C53_always_refuted.
(** The shapes of the network of main.cpp are of this form. *)
Example C53_ex_main : h_ready main_shapes (D3 28 28 1) 10 /\ exists ss, main_shapes = ss ++ [HConn 10].
Proof. split; [exact main_fits|]. eexists (firstn 6 main_shapes). reflexivity. Qed.
