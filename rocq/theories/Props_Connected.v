(** Properties C27, C28, C29 (fully connected): the fully connected layer. *)
From Coq Require Import ZArith List Bool Lia Reals Lra.
From Coquelicot Require Import Coquelicot.
From Verif Require Import Base Dim Matrix View Num Expr Spec Iter Sums MatFacts ExprThms Batch Connected LayerFacts Calc BatchThms ConnectedThms LayerTotal.
Import ListNotations.
Local Open Scope Z_scope.

(** Two outputs, three inputs; the input is a row of depth three. *)
Definition ex_c : connected Z :=
  Conn (Par (Mat (D3 2 3 1) [1;2;3;4;5;6]) (Mat (D3 2 1 1) [10;20]) [mat_empty] [mat_empty]) (D3 1 1 3) true.
Definition ex_i : mat Z := Mat (D3 1 1 3) [1;2;3].
Definition ex_g : mat Z := Mat (D3 2 1 1) [1;2].
Definition ex_fwd (x : mat Z) : M (connected Z) (mat Z) := c_forward (fun k => k + 3) 7 (fun t => t) x.

(** ** C27 *)
Theorem C27_forward : forall T (N : Num T) rand rmax sqrtT (c : connected T) n K W B x d I, conn_is c n K W B ->
  is_mat x d I -> fits d -> vol d = K ->
  exists o, c_forward rand rmax sqrtT x c = ORet c o /\
    is_mat o (D3 n 1 1) (fun i _ _ => nadd (nsum K (fun k => nmul (W i k 0) (elem_no d I k))) (B i 0 0)).
Proof. exact @c_forward_ready. Qed.
Print Assumptions C27_forward.

(** [elem_no d I k] is the element of the input stored at position k. *)
Theorem C27_storage_order : forall T d (f : Z -> Z -> Z -> T) x y z, inb d x y z -> elem_no d f (x + dx d * y + dx d * dy d * z) = f x y z.
Proof. exact @elem_no_lin. Qed.
Print Assumptions C27_storage_order.

(** The first input creates the weights and fixes the element count. *)
Theorem C27_first_partial : forall T (N : Num T) rand rmax sqrtT (c : connected T) n x d I, conn_fresh c n ->
  is_mat x d I -> fits d -> 1 <= vol d -> fits (D3 n (vol d) 1) ->
  exists c' o, c_forward rand rmax sqrtT x c = ORet c' o /\
    conn_is c' n (vol d) (init_val rand rmax sqrtT 0 (D3 n (vol d) 1))
                         (init_val rand rmax sqrtT (Z.of_nat (it_fuel (D3 n (vol d) 1))) (D3 n 1 1)) /\
    c_in c' = d /\ p_wg (c_par c') = p_wg (c_par c) /\ p_bg (c_par c') = p_bg (c_par c) /\
    c_forward rand rmax sqrtT x c' = ORet c' o.
Proof. exact @c_forward_first. Qed.
Print Assumptions C27_first_partial.

Theorem C27_new_layer : forall T (N : Num T) n, 1 <= n -> n < two31 -> exists c : connected T, c_make n = Ok c /\ conn_fresh c n /\ c_in c = D3 0 0 0.
Proof. exact @c_make_fresh. Qed.
Print Assumptions C27_new_layer.

Theorem C27_reject : forall T (N : Num T) rand rmax sqrtT (c : connected T) n K W B x, conn_is c n K W B ->
  fits (mdim x) -> vol (mdim x) <> K -> c_forward rand rmax sqrtT x c = OThrow c LayerExn.
Proof. exact @c_forward_reject. Qed.
Print Assumptions C27_reject.

(** No sequence of later inputs, accepted or rejected, changes the layer. *)
Theorem C27_history : forall T (N : Num T) rand rmax sqrtT l (c : connected T) n K W B, conn_is c n K W B ->
  (forall x, In x l -> exists I, is_mat x (mdim x) I /\ fits (mdim x)) -> run_calls rand rmax sqrtT l c = c.
Proof. exact @c_history. Qed.
Print Assumptions C27_history.

Example C27_ex : ex_fwd ex_i ex_c = ORet ex_c (Mat (D3 2 1 1) [32; 48]).
Proof. vm_compute. reflexivity. Qed.
Example C27_ex_reject : ex_fwd (Mat (D3 2 1 2) [1;2;3;4]) ex_c = OThrow ex_c LayerExn.
Proof. vm_compute. reflexivity. Qed.
(** An empty first input is outside C27_first_partial: the loop over the weights never reaches its end. *)
Theorem C27_empty_refuted : exists c : connected Z, c_make 2 = Ok c /\ ex_fwd (Mat (D3 0 1 3) []) c = OUB.
Proof. eexists. split; [reflexivity|]. vm_compute. reflexivity. Qed.
Print Assumptions C27_empty_refuted.

(** ** C28. [moved] = false: the compiler reads the dimensions of a temporary operand before moving from it. *)
Theorem C28_exists : forall rand rmax n d W B I, 1 <= n -> 1 <= vol d -> fits d -> fits (D3 n (vol d) 1) -> fits (D3 n 1 1) ->
  exists O, conn_gives rand rmax n (vol d) d W B I O.
Proof. exact conn_total. Qed.
Print Assumptions C28_exists.

Theorem C28_weight_gradient_partial : forall rand rmax (c : connected R) x g n K d W B I G, conn_case c x g n K d W B I G ->
  exists dw DW, c_dw false x g = Ok dw /\ is_mat dw (D3 n K 1) DW /\
    forall i k Ot, inb (D3 n K 1) i k 0 -> (forall t, conn_gives rand rmax n K d (fupd W i k 0 t) B I (Ot t)) ->
      is_derive (fun t => dotp (D3 n 1 1) G (Ot t)) (W i k 0) (DW i k 0).
Proof. exact conn_dw_exact. Qed.
Print Assumptions C28_weight_gradient_partial.

Theorem C28_bias_gradient : forall rand rmax (c : connected R) x g n K d W B I G, conn_case c x g n K d W B I G ->
  c_db g = g /\
  forall i Ot, 0 <= i < n -> (forall t, conn_gives rand rmax n K d W (fupd B i 0 0 t) I (Ot t)) ->
    is_derive (fun t => dotp (D3 n 1 1) G (Ot t)) (B i 0 0) (G i 0 0).
Proof. exact conn_db_exact. Qed.
Print Assumptions C28_bias_gradient.

Theorem C28_input_gradient_partial : forall rand rmax (c : connected R) x g n K d W B I G, conn_case c x g n K d W B I G -> c_in c = d ->
  exists r DX, c_dx false c g = Ok r /\ is_mat r d DX /\
    forall a b e Ot, inb d a b e -> (forall t, conn_gives rand rmax n K d W B (fupd I a b e t) (Ot t)) ->
      is_derive (fun t => dotp (D3 n 1 1) G (Ot t)) (I a b e) (DX a b e).
Proof. exact conn_dx_exact. Qed.
Print Assumptions C28_input_gradient_partial.

Theorem C28_backward_stores : forall T (N : Num T) moved (c : connected T) x g dw i last, c_dw moved x g = Ok dw ->
  0 <= i < Z.of_nat (length (p_wg (c_par c))) -> 0 <= i < Z.of_nat (length (p_bg (c_par c))) ->
  c_backward moved x g i last c =
    lift (if last then Ok mat_empty else c_dx moved c g) (Conn (store (c_par c) i dw g) (c_in c) (c_ready c)).
Proof. exact @c_backward_ok. Qed.
Print Assumptions C28_backward_stores.

Example C28_ex : c_backward false ex_i ex_g 0 false ex_c =
  ORet (Conn (Par (c_w ex_c) (c_b ex_c) [Mat (D3 2 3 1) [1;2;2;4;3;6]] [ex_g]) (D3 1 1 3) true) (Mat (D3 1 1 3) [5; 11; 17]).
Proof. vm_compute. reflexivity. Qed.
(** Input element 1 raised by one raises 1*o(0) + 2*o(1) by 11. *)
Example C28_ex_difference : ex_fwd ex_i ex_c = ORet ex_c (Mat (D3 2 1 1) [32; 48]) /\
  ex_fwd (Mat (D3 1 1 3) [1;3;3]) ex_c = ORet ex_c (Mat (D3 2 1 1) [35; 52]) /\ (35 + 2 * 52) - (32 + 2 * 48) = 11.
Proof. vm_compute. auto. Qed.

(** If the compiler moves first, both products read freed dimensions: no weight gradient, no input gradient. *)
Theorem C28_move_order_refuted : exists (c : connected Z) x g, c_dw true x g = UB /\ c_dx true c g = Throw MatrixTransform /\
  exists o, ex_fwd x c = ORet c o /\ mdim o = mdim g.
Proof. exists ex_c, ex_i, ex_g. vm_compute. eauto. Qed.
Print Assumptions C28_move_order_refuted.
(** An input with the accepted element count but another shape than the first input: the gradient has the shape of
    the first input. *)
Theorem C28_shape_refuted : exists (c : connected Z) x g o r, ex_fwd x c = ORet c o /\ mdim o = mdim g /\
  c_dx false c g = Ok r /\ mdim r <> mdim x.
Proof. exists ex_c, (Mat (D3 3 1 1) [1;2;3]), ex_g. vm_compute. do 2 eexists. repeat split. discriminate. Qed.
Print Assumptions C28_shape_refuted.

(** ** C29, fully connected: C27_first_partial gives the values [init_val], C29_norm_one_partial their norm. *)
Example C29_ex_connected : match c_make 2 with
  | Ok c => match ex_fwd ex_i c with ORet c' _ => mdim (c_w c') = D3 2 3 1 /\ c_in c' = D3 1 1 3 | _ => False end
  | _ => False end.
Proof. vm_compute. auto. Qed.
