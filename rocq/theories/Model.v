(** include/cnn_from_scratch/ModelDescription.h and src/ModelDescription.tpp: building a model, forward and backward
    pass, batch update (saving and loading are in Text.v, runEpoch and train in Train.v). *)
From Coq Require Import String ZArith List Bool.
From Verif Require Import Base Dim Matrix View Num Expr Batch Kernel Connected Float32 Pooling Activation Softmax Chars.
Import ListNotations.
Local Open Scope Z_scope.

(** What the code takes from its environment: the random numbers, the functions of <cmath>, the constants 0.1f, 0.1 and
    1e-5f, the conversion of a double to float and back, and the order of evaluation described in Connected.v. *)
Record env (T : Type) := Env {
  e_rand : Z -> Z; e_rmax : Z; e_sqrt : T -> T; e_exp : T -> T; e_tanh : T -> T; e_log2 : T -> T;
  e_c01f : T; e_c01 : T; e_eps : T; e_rnd : T -> T; e_moved : bool }.
Arguments e_rand {T}. Arguments e_rmax {T}. Arguments e_sqrt {T}. Arguments e_exp {T}. Arguments e_tanh {T}.
Arguments e_log2 {T}. Arguments e_c01f {T}. Arguments e_c01 {T}. Arguments e_eps {T}. Arguments e_rnd {T}. Arguments e_moved {T}.

(** ModelDescription.h 38: the layers are objects of the five classes derived from ModelLayer *)
Inductive layer (T : Type) :=
| LKernel (k : kernel T) | LConn (c : connected T) | LPool (q : pooling) | LAct (a : activation) | LSoft (s : softmax).
Arguments LKernel {T}. Arguments LConn {T}. Arguments LPool {T}. Arguments LAct {T}. Arguments LSoft {T}.

Definition map_out {A B C} (f : A -> B) (o : out A C) : out B C :=
  match o with ORet s c => ORet (f s) c | OThrow s e => OThrow (f s) e | OUB => OUB end.

(** An operation on element number [i] of a vector *)
Definition on_nth {A B} (i : nat) (c : M A B) : M (list A) B := fun l =>
  match nth_error l i with Some a => map_out (upd l i) (c a) | None => OUB end.

(** std::find and std::distance (ModelDescription.tpp 187): position of the first element equal to [v], or the length *)
Fixpoint find_pos {L} (eqL : L -> L -> bool) (l : list L) (v : L) : Z :=
  match l with [] => 0 | a :: l' => if eqL a v then 0 else 1 + find_pos eqL l' v end.

(** ModelDescription.h 35-73. [m_layers] are pairs of name (ModelLayer.h 10) and layer. *)
Record model (T L : Type) := Model {
  m_layers : list (text * layer T); m_labels : list L;
  m_kc : Z; m_pc : Z; m_fc : Z; m_ac : Z }.
Arguments Model {T L}. Arguments m_layers {T L}. Arguments m_labels {T L}. Arguments m_kc {T L}. Arguments m_pc {T L}.
Arguments m_fc {T L}. Arguments m_ac {T L}.

(** ModelDescription.h 16-24. Matrices of float are represented by matrices of the doubles with the same values; the
    optional true_label is not read anywhere and left out. *)
Record results (T : Type) := Results { r_label : Z; r_true : Z; r_loss : T; r_conf : T; r_inputs : list (mat T) }.
Arguments Results {T}. Arguments r_label {T}. Arguments r_true {T}. Arguments r_loss {T}. Arguments r_conf {T}. Arguments r_inputs {T}.

Section Model.
Context {T : Type} {N : Num T} (E : env T).

(** The virtual function propagateForward: Kernel.cpp 105-126, ConnectedLayer.cpp 80-91, Pooling.cpp 47-87,
    Activation.cpp 60-62, Softmax.cpp 57-62 *)
Definition l_forward (x : mat T) (slot : Z) : M (layer T) (mat T) := fun l =>
  match l with
  | LKernel k => lift (k_forward k x) l
  | LConn c => map_out LConn (c_forward (e_rand E) (e_rmax E) (e_sqrt E) x c)
  | LPool q => map_out LPool (q_forward x slot q)
  | LAct a => lift (a_forward (e_exp E) (e_tanh E) (e_c01f E) (a_fun a) x) l
  | LSoft s => lift (sm_forward (e_exp E) s x) l
  end.

(** The virtual function propagateBackward: Kernel.cpp 208-218, ConnectedLayer.cpp 123-135, Pooling.cpp 124-129,
    Activation.cpp 74-79, Softmax.cpp 76-85. [x], [z], [g]: input, output, gradient of the output. *)
Definition l_backward (x z g : mat T) (slot : Z) (last : bool) : M (layer T) (mat T) := fun l =>
  match l with
  | LKernel k => map_out LKernel (k_backward x g slot last k)
  | LConn c => map_out LConn (c_backward (e_moved E) x g slot last c)
  | LPool q => map_out LPool (q_backward x g slot q)
  | LAct a => lift (a_backward (e_exp E) (e_tanh E) (e_c01 E) (a_der a) z g) l
  | LSoft s => lift (sm_backward s z) l
  end.

(** The virtual function setBatchSize: Kernel.cpp 38-44, ConnectedLayer.cpp 16-22, Pooling.cpp 30-32; ModelLayer.h 24
    for the other classes. A negative int becomes a size_t above max_size(); the gradients are cleared before that is
    found out. *)
Definition l_set_batch (n : Z) : M (layer T) unit := fun l =>
  match l with
  | LKernel k => if n <? 0 then OThrow (LKernel (with_par k (set_batch_size 0 (k_par k)))) LengthError
                 else ORet (LKernel (with_par k (set_batch_size n (k_par k)))) tt
  | LConn c => if n <? 0 then OThrow (LConn (Conn (set_batch_size 0 (c_par c)) (c_in c) (c_ready c))) LengthError
               else ORet (LConn (Conn (set_batch_size n (c_par c)) (c_in c) (c_ready c))) tt
  | LPool q => match q_batch n q with Ok q' => ORet (LPool q') tt | Throw e => OThrow l e | UB => OUB end
  | _ => ORet l tt
  end.

(** The virtual function applyBatch: Kernel.cpp 49-66, ConnectedLayer.cpp 27-44; ModelLayer.h 25 for the other classes *)
Definition l_apply (lr : T) : M (layer T) unit := fun l =>
  match l with
  | LKernel k => map_out LKernel (on_par (p_apply lr) k)
  | LConn c => map_out LConn (on_cpar (p_apply lr) c)
  | _ => ORet l tt
  end.

(** SimpleMatrix.tpp 27-35: the conversions between matrices of double and of float (ModelDescription.tpp 166, 174 and
    211) *)
Definition float_copy (m : mat T) : res (mat T) := mat_of_lz n0 (e_rnd E) (l_val m) tt.
Definition double_copy (m : mat T) : res (mat T) := mat_of_lz n0 (fun t => t) (l_val m) tt.

(** ModelDescription.tpp 169-175: the loop over the layers; the value is the list of recorded matrices and the output *)
Fixpoint fwd_layers (ls : list (layer T)) (x : mat T) (slot : Z) : out (list (layer T)) (list (mat T) * mat T) :=
  match ls with
  | [] => ORet [] ([], x)
  | l :: ls' =>
      match l_forward x slot l with
      | ORet l' y =>
          match float_copy y with
          | Ok r => match map_out (cons l') (fwd_layers ls' y slot) with
                    | ORet t (rs, o) => ORet t (r :: rs, o)
                    | OThrow t e => OThrow t e
                    | OUB => OUB
                    end
          | Throw e => OThrow (l' :: ls') e
          | UB => OUB
          end
      | OThrow l' e => OThrow (l' :: ls') e
      | OUB => OUB
      end
  end.

(** ModelDescription.tpp 155-183: forwardPropagation. [cast] converts an element of the input matrix to double; the
    constructor at line 161 copies element by element (for double it moves the matrix, with the same content). *)
Definition forward_pass {U} (cast : U -> T) (nlabels : Z) (input : mat U) (slot : Z) : M (list (layer T)) (results T) :=
  (x <- lift (mat_of_lz n0 cast (l_val input) tt) ;;
   r0 <- lift (float_copy x) ;;
   ro <- (fun ls => fwd_layers ls x slot) ;;
   n <- lift (base_size (mdim (snd ro))) ;;
   (if n =? nlabels then ret tt else mthrow AssertFail) ;;
   k <- lift (max_index (snd ro)) ;;
   v <- lift (mread_flat (snd ro) k) ;;
   ret (Results k 0 (nsub n0 n1) (e_rnd E v) (r0 :: fst ro)))%st.

(** ModelDescription.tpp 185-190: assignLoss; back() of an empty vector is undefined *)
Definition assign_loss (r : results T) (idx : Z) : res (results T) :=
  match rev (r_inputs r) with
  | [] => UB
  | p :: _ => (q <- double_copy p ;;
               l <- loss_fcn (e_log2 E) (e_eps E) (e_rnd E) q idx ;;
               Ok (Results (r_label r) idx l (r_conf r) (r_inputs r)))%res
  end.

(** ModelDescription.tpp 200-202: the output layer gets the label; back() of an empty vector is undefined *)
Definition hand_over (idx : Z) : M (list (layer T)) unit := fun ls =>
  match rev ls with
  | [] => OUB
  | LSoft s :: _ => on_nth (length ls - 1) (fun l => map_out (LSoft (T := T)) (sm_assign idx s)) ls
  | _ => OThrow ls AssertFail
  end.

(** std::vector::at *)
Definition vat {A} (l : list A) (i : nat) : res A := match nth_error l i with Some a => Ok a | None => Throw OutOfRange end.

(** ModelDescription.tpp 205-212: the loop over the layers, from number [n]-1 down to 0 *)
Fixpoint bwd_layers (n : nat) (recs : list (mat T)) (g : mat T) (slot : Z) : M (list (layer T)) (mat T) :=
  match n with
  | O => ret g
  | S i =>
      (x <- lift (vat recs i) ;; z <- lift (vat recs (S i)) ;;
       x <- lift (double_copy x) ;; z <- lift (double_copy z) ;;
       g' <- on_nth i (l_backward x z g slot (Nat.eqb i 0)) ;;
       bwd_layers i recs g' slot)%st
  end.

(** ModelDescription.tpp 199-212: what backwardsPropagation does after assignLoss *)
Definition backward_tail (recs : list (mat T)) (idx slot : Z) : M (list (layer T)) unit :=
  (hand_over idx ;;
   ls <- mget ;;
   bwd_layers (length ls) recs mat_empty slot ;;
   ret tt)%st.

(** ModelDescription.tpp 192-213: backwardsPropagation, for the label number [idx]; the value is the updated result *)
Definition backward_pass (r : results T) (idx slot : Z) : M (list (layer T)) (results T) :=
  (r' <- lift (assign_loss r idx) ;;
   backward_tail (r_inputs r') idx slot ;;
   ret r')%st.

(** ModelDescription.tpp 285-287 and 268-270: all layers, in order *)
Fixpoint each_layer (c : M (layer T) unit) (ls : list (layer T)) : out (list (layer T)) unit :=
  match ls with
  | [] => ORet [] tt
  | l :: ls' =>
      match c l with
      | ORet l' _ => map_out (cons l') (each_layer c ls')
      | OThrow l' e => OThrow (l' :: ls') e
      | OUB => OUB
      end
  end.
Definition set_batch_all (n : Z) : M (list (layer T)) unit := each_layer (l_set_batch n).
Definition apply_all (lr : T) : M (list (layer T)) unit := each_layer (l_apply lr).

(** ** The model object *)
Section Object.
Context {L : Type} (eqL : L -> L -> bool).

(** ModelDescription.h 67-73: a new model *)
Definition m_new : model T L := Model [] [] 0 0 0 0.

(** An operation on the layers of a model; names are not touched *)
Definition on_layers {A} (c : M (list (layer T)) A) : M (model T L) A := fun m =>
  map_out (fun ls => Model (combine (map fst (m_layers m)) ls) (m_labels m) (m_kc m) (m_pc m) (m_fc m) (m_ac m))
          (c (map snd (m_layers m))).

(** ModelDescription.tpp 15-22: addKernel. If the constructor throws no layer is added. (A counter that reaches 2^64
    would start again at 0.) *)
Definition add_kernel (size : dim3) (count : Z) : M (model T L) unit := fun m =>
  match k_make (e_rand E) (e_rmax E) (e_sqrt E) size count 1 with
  | Ok k => ORet (Model (m_layers m ++ [(lit "Kernel_" ++ dec (m_kc m + 1), LKernel k)]) (m_labels m)
                        (m_kc m + 1) (m_pc m) (m_fc m) (m_ac m)) tt
  | Throw e => OThrow m e
  | UB => OUB
  end.
(** ModelDescription.tpp 24-31: addPooling *)
Definition add_pooling (size stride : dim3) (t : pool_type) : M (model T L) unit := fun m =>
  ORet (Model (m_layers m ++ [(lit "Pooling_" ++ dec (m_pc m + 1), LPool (q_make size stride t))]) (m_labels m)
              (m_kc m) (m_pc m + 1) (m_fc m) (m_ac m)) tt.
(** ModelDescription.tpp 33-39: addConnectedLayer *)
Definition add_connected (n : Z) : M (model T L) unit := fun m =>
  match c_make n with
  | Ok c => ORet (Model (m_layers m ++ [(lit "FullyConnected_" ++ dec (m_fc m + 1), LConn c)]) (m_labels m)
                        (m_kc m) (m_pc m) (m_fc m + 1) (m_ac m)) tt
  | Throw e => OThrow m e
  | UB => OUB
  end.
(** ModelDescription.tpp 41-47: addActivation *)
Definition add_activation (a : act) : M (model T L) unit := fun m =>
  ORet (Model (m_layers m ++ [(lit "Activation_" ++ dec (m_ac m + 1), LAct (a_make a))]) (m_labels m)
              (m_kc m) (m_pc m) (m_fc m) (m_ac m + 1)) tt.
(** ModelDescription.tpp 49-59: setOutputLabels; [soft]: output_function is SOFTMAX (the default) *)
Definition set_labels (labels : list L) (soft : bool) : M (model T L) unit := fun m =>
  ORet (Model (m_layers m ++ (if soft then [(lit "SoftmaxOutput", LSoft (sm_make (Z.of_nat (length labels))))] else []))
              labels (m_kc m) (m_pc m) (m_fc m) (m_ac m)) tt.

(** ModelDescription.tpp 155-183 and 192-213 as operations of the model *)
Definition forward_propagation {U} (cast : U -> T) (input : mat U) (slot : Z) : M (model T L) (results T) :=
  (m <- mget ;; on_layers (forward_pass cast (Z.of_nat (length (m_labels m))) input slot))%st.
Definition backwards_propagation (r : results T) (label : L) (slot : Z) : M (model T L) (results T) :=
  (m <- mget ;; on_layers (backward_pass r (find_pos eqL (m_labels m) label) slot))%st.
End Object.
End Model.
