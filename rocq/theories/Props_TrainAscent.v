(** C45 fails with sigmoid activations: every small positive learning rate raises the loss of the batch it was computed from. *)
From Coq Require Import ZArith Reals List Lra.
From Coquelicot Require Import Coquelicot.
From Verif Require Import Base Dim Matrix Num Batch Connected Softmax Activation ActivationThms Model Net NetThms Train TrainAscent.
Import ListNotations.
Local Open Scope R_scope.

(** The layers are two fully connected ones, a sigmoid activation and the output layer; the batch is one data point with input
    5 and the first of two labels, and one thread works on it. Training on the batch succeeds for every rate, and afterwards the
    probability of the label is [prob lr], whatever the execution. The loss increases with the rate: its derivative at rate 0 is
    positive, where C45 says minus a square, and all small positive rates raise it. The reason is that the code takes the
    derivative of the activation function at its output instead of its input (C36). *)
Theorem C45_sigmoid_refuted : forall rand rmax, exists prob : R -> R,
  let e := Est [ LConn (Conn (Par (Mat (D3 1 1 1) [0]) (Mat (D3 1 1 1) [0]) [mat_empty] [mat_empty]) (D3 1 1 1) true);
                 LConn (Conn (Par (Mat (D3 2 1 1) [1; 2]) (Mat (D3 2 1 1) [0; ln 7]) [mat_empty] [mat_empty]) (D3 1 1 1) true);
                 LAct (a_make Sigmoid); LSoft (sm_make 2) ] [Point (Mat (D3 1 1 1) [5]) 0%Z] [None] 0 in
  let trained lr o := batch (envR rand rmax) (fun v : R => v) Z.eqb [0%Z; 1%Z] (fun _ => True) 1 1 1 lr e o in
  (forall lr, exists o, trained lr o) /\
  (forall lr o, trained lr o -> exists e' ls r rs q, o = ORet e' tt /\
     forward_pass (envR rand rmax) (fun v : R => v) 2 (Mat (D3 1 1 1) [5]) 0 (s_layers e') = ORet ls r /\ r_inputs r = rs ++ [q] /\ mread_flat q 0 = Ok (prob lr)) /\
  (exists D, is_derive (fun lr => - ln (prob lr)) 0 D /\ 0 < D) /\
  exists eps, 0 < eps /\ forall lr, 0 < lr < eps -> - ln (prob 0) < - ln (prob lr).
Proof. exact sigmoid_ascent. Qed.
Print Assumptions C45_sigmoid_refuted.

(** The numbers: the outputs of the sigmoid layer are 1/2 and 7/8, so the probabilities are neither 0 nor 1. *)
Example C45_ex_outputs : act_R Sigmoid 0 = 1 / 2 /\ act_R Sigmoid (ln 7) = 7 / 8.
Proof. split; [exact sg_0|exact sg_ln7]. Qed.
