(** C44: networks for which the stored gradients are not the derivatives, or the backward pass raises an exception. *)
From Coq Require Import ZArith Bool Lia Reals Lra List.
From Coquelicot Require Import Coquelicot.
From Verif Require Import Base Dim Matrix View Num Expr Spec Iter Sums MatFacts MatThms ExprThms Batch Kernel Connected Float32
  FloatFacts Pooling Activation Softmax LayerFacts KernelThms KernelGrad BatchThms ConnectedThms PoolingThms PoolGrad ActivationThms SoftmaxThms LayerTotal Calc Chars
  Model Net NetThms NetPass NetGrad ModelThms NetFresh Train TrainLocal TrainRest TrainLocal TrainNet Shapes ShapeNet NetWrong.
Import ListNotations.
Local Open Scope Z_scope.

(** Sigmoid, tanh and leaky ReLU: a network with such a layer for which the gradient of a weight is not the derivative *)
Theorem C44_activation_refuted : forall rand rmax a, a = Sigmoid \/ a = Tangent \/ a = LeakyRelu ->
  exists ss d n layers i input I idx, network layers ss d n i /\ net_ok ss d /\ net_bkc true ss d /\ labels_ok (net_out ss d) n /\ is_mat input d I /\ 0 <= idx < n /\ nth_error ss 1 = Some (SAct a) /\
    exists layers1 r layers2 r' s l DW DB, forward_pass (envR rand rmax) (fun t => t) n input i layers = ORet layers1 r /\
      backward_pass (envR rand rmax) r idx i layers1 = ORet layers2 r' /\ nth_error ss 0 = Some s /\ nth_error layers2 0 = Some l /\ stored l s d i DW DB /\
      exists x y z, inb (s_wdim s d) x y z /\
        forall Pt, (forall t, net_prob rand rmax (upd ss 0 (setw s (fupd (s_w s) x y z t))) d I idx (Pt t)) -> ~ is_derive (fun t => - ln (Pt t))%R (s_w s x y z) (DW x y z).
Proof. exact activation_wrong. Qed.
Print Assumptions C44_activation_refuted.

(** The same for two outputs with weights 0 and bias [v] before the activation, and every [v] for which the code's derivative is wrong *)
Theorem C44_bent_refuted : forall rand rmax a v D, is_derive (act_R a) v D -> actg_R a (act_R a v) <> D ->
  forall layers i U (cast : U -> R) (input : mat U) J, network layers (bent a v) (D3 1 1 1) 2 i -> is_mat input (D3 1 1 1) J -> cast (J 0 0 0) = 1%R ->
  exists layers1 r layers2 r' s l DW DB, forward_pass (envR rand rmax) cast 2 input i layers = ORet layers1 r /\
    backward_pass (envR rand rmax) r 0 i layers1 = ORet layers2 r' /\ nth_error (bent a v) 0 = Some s /\
    nth_error layers2 0 = Some l /\ stored l s (D3 1 1 1) i DW DB /\
    forall Pt, (forall t, net_prob rand rmax (upd (bent a v) 0 (setw s (fupd (s_w s) 0 0 0 t))) (D3 1 1 1) (fun x y z => cast (J x y z)) 0 (Pt t)) ->
      ~ is_derive (fun t => - ln (Pt t))%R (s_w s 0 0 0) (DW 0 0 0).
Proof. exact bent_wrong. Qed.
Print Assumptions C44_bent_refuted.

(** Every network with a convolution that is not the first layer and whose output is not square, for any type of numbers: the
    backward pass raises an exception. (The later convolutions have square outputs: the exception comes from this layer.) *)
Theorem C44_not_square_refuted : forall T (N : Num T) (E : env T), e_moved E = false -> forall body sm ss1 fx fy C m ss2 d n i k U (cast : U -> T) (input : mat U),
  let ss := ss1 ++ HConv fx fy C m :: ss2 in let d1 := h_net_out ss1 d in
  net_fit body ss d -> sm_count sm = n -> List.Forall (fun l => slot_ok l i) body -> h_net_ok ss d -> labels_ok (h_net_out ss d) n -> has input d -> 0 <= k < n ->
  ss1 <> [] -> dx d1 - fx <> dy d1 - fy -> h_net_bk ss2 (h_out (HConv fx fy C m) d1) ->
  exists l1 r l2, forward_pass E cast n input i (body ++ [LSoft sm]) = ORet l1 r /\ backward_pass E r k i l1 = OThrow l2 MatrixTransform.
Proof. intros T N E ORD. exact (not_square E ORD). Qed.
Print Assumptions C44_not_square_refuted.

(** Exact execution on integers: an image with 2 x 1 pixels, two convolutions with filters of size 1 x 1, two outputs. With the
    second convolution alone the backward pass succeeds. *)
Definition line_conv : layer Z := LKernel (Kern (Par (Mat (D3 1 1 1) [1]) (Mat (D3 1 1 1) [2]) [mat_empty] [mat_empty]) (D3 1 1 1) 1 1).
Definition line_conn : layer Z := LConn (Conn (Par (Mat (D3 2 2 1) [1;0;1;2]) (Mat (D3 2 1 1) [1;0]) [mat_empty] [mat_empty]) (D3 2 1 1) true).
Definition line_env : env Z := Env Z (fun k => k + 3) 7 (fun t => t) (fun v => if v =? 0 then 60 else 0) (fun v => v) (fun v => v) 1 1 1 (fun v => v) false.
Definition line_run (ls : list (layer Z)) : out unit unit :=
  match forward_pass line_env (fun v => v) 2 (Mat (D3 2 1 1) [3; 4]) 0 ls with
  | ORet l1 r => map_out (fun _ => tt) (match backward_pass line_env r 1 0 l1 with ORet l2 _ => ORet l2 tt | OThrow l2 x => OThrow l2 x | OUB => OUB end)
  | _ => OUB
  end.
Example C44_ex_square : line_run [line_conv; line_conv; line_conn; LSoft (sm_make 2)] = OThrow tt MatrixTransform /\
  line_run [line_conv; line_conn; LSoft (sm_make 2)] = ORet tt tt.
Proof. vm_compute. auto. Qed.
