(** C104: setBatchSize, also with a negative batch size. *)
From Coq Require Import ZArith Bool Lia List.
From Verif Require Import Base Dim Matrix View Num Expr Spec Iter MatFacts Batch Kernel Connected Pooling Activation Softmax Bar Model Train SetBatch.
Import ListNotations.
Local Open Scope Z_scope.

Theorem C104_layer : forall T n (l : layer T), 0 <= n -> exists l', l_set_batch n l = ORet l' tt /\ same_but_slots l l' /\ slots_set n l l'.
Proof. exact @set_batch_ok. Qed.
Print Assumptions C104_layer.
(** A negative number: the gradients of a kernel or connected layer are gone, the slots of a pooling layer are kept. *)
Theorem C104_layer_negative : forall T n (l : layer T), n < 0 -> slotted l = true ->
  exists l', l_set_batch n l = OThrow l' LengthError /\ same_but_slots l l' /\ match l with LPool _ => l' = l | _ => slots_set 0 l l' end.
Proof. exact @set_batch_negative. Qed.
Print Assumptions C104_layer_negative.
Theorem C104_other : forall T n (l : layer T), slotted l = false -> l_set_batch n l = ORet l tt.
Proof. intros T n l H. destruct l; try discriminate H; reflexivity. Qed.
Print Assumptions C104_other.
Theorem C104_model : forall T n (ls : list (layer T)), 0 <= n ->
  exists ls', set_batch_all n ls = ORet ls' tt /\ Forall2 (fun l l' => same_but_slots l l' /\ slots_set n l l') ls ls'.
Proof. exact @set_batch_all_ok. Qed.
Print Assumptions C104_model.
(** The first layer with slots throws; layers before it are unchanged, layers after it are not called. *)
Theorem C104_model_negative : forall T n (pre : list (layer T)) l post, n < 0 -> List.Forall (fun l => slotted l = false) pre -> slotted l = true ->
  exists l', set_batch_all n (pre ++ l :: post) = OThrow (pre ++ l' :: post) LengthError /\ l_set_batch n l = OThrow l' LengthError.
Proof. exact @set_batch_all_negative. Qed.
Print Assumptions C104_model_negative.
(** train: every run with a negative batch size ends this way, with any number of threads and any source. *)
Theorem C104_train_negative : forall T (N : Num T) (E : env T) U L (cast : U -> T) (eqL : L -> L -> bool) labels P (h : hyper) size src pre l post s o,
  h_bs h < 0 -> List.Forall (fun l => slotted l = false) pre -> slotted l = true -> train E cast eqL labels P h size src (pre ++ l :: post) s o ->
  exists l', o = OThrow (pre ++ l' :: post) LengthError /\ same_but_slots l l' /\ match l with LPool _ => l' = l | _ => slots_set 0 l l' end.
Proof. exact @train_negative. Qed.
Print Assumptions C104_train_negative.

Example C104_ex : let c := Conn (Par (Mat (D3 1 1 1) [7]) (Mat (D3 1 1 1) [8]) [Mat (D3 1 1 1) [9]] [Mat (D3 1 1 1) [10]]) (D3 1 1 1) true in
  l_set_batch 2 (LConn c) = ORet (LConn (Conn (Par (Mat (D3 1 1 1) [7]) (Mat (D3 1 1 1) [8]) [mat_empty; mat_empty] [mat_empty; mat_empty]) (D3 1 1 1) true)) tt /\
  set_batch_all (-1) [LAct (a_make Relu); LConn c; LConn c] =
    OThrow [LAct (a_make Relu); LConn (Conn (Par (Mat (D3 1 1 1) [7]) (Mat (D3 1 1 1) [8]) [] []) (D3 1 1 1) true); LConn c] LengthError.
Proof. vm_compute. auto. Qed.
Example C104_ex_pool : let s := Mat (D3 1 1 1) [D3 0 0 0] in
  l_set_batch 3 (LPool (T:=Z) (Pool (D3 2 2 1) (D3 2 2 1) PMax [s])) = ORet (LPool (Pool (D3 2 2 1) (D3 2 2 1) PMax [s; mat_empty; mat_empty])) tt /\
  l_set_batch (-3) (LPool (T:=Z) (Pool (D3 2 2 1) (D3 2 2 1) PMax [s])) = OThrow (LPool (Pool (D3 2 2 1) (D3 2 2 1) PMax [s])) LengthError.
Proof. vm_compute. auto. Qed.
