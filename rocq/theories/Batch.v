(** Code shared by the convolution and the fully connected layer: ModelLayer.h, and the batch update, which is the
    same text in Kernel.cpp and ConnectedLayer.cpp. *)
From Coq Require Import ZArith List Bool.
From Verif Require Import Base Dim Matrix View Num Expr.
Import ListNotations.
Local Open Scope Z_scope.

(** Conversion of a 32-bit pattern (uint32_t, size_t) to int: modulo 2^32 (g++; implementation-defined). *)
Definition s32 (z : Z) : Z := (z + two31) mod two32 - two31.

(** Run a computation on one component of a pair of objects. *)
Definition on_fst {A B C} (c : M A C) : M (A * B) C := fun '(a, b) =>
  match c a with ORet a' r => ORet (a', b) r | OThrow a' e => OThrow (a', b) e | OUB => OUB end.
Definition on_snd {A B C} (c : M B C) : M (A * B) C := fun '(a, b) =>
  match c b with ORet b' r => ORet (a, b') r | OThrow b' e => OThrow (a, b') e | OUB => OUB end.

Section Batch.
Context {T : Type} {N : Num T}.

Definition op_add (x y : T) : res T := Ok (nadd x y).
Definition op_sub (x y : T) : res T := Ok (nsub x y).
Definition op_mul (x y : T) : res T := Ok (nmul x y).
Definition op_div (x y : T) : res T := Ok (ndiv x y).

(** ModelLayer.h 11-12, Kernel.h 105-109, ConnectedLayer.h 93-98: the parameters and the gradient slots of a layer
    with parameters. *)
Record params := Par { p_w : mat T; p_b : mat T; p_wg : list (mat T); p_bg : list (mat T) }.

(** Kernel.cpp 38-44, ConnectedLayer.cpp 16-22: setBatchSize. A size_t above max_size() throws length_error. *)
Definition set_batch_size (n : Z) (p : params) : params :=
  Par (p_w p) (p_b p) (repeat mat_empty (Z.to_nat n)) (repeat mat_empty (Z.to_nat n)).

(** Kernel.cpp 53-57, ConnectedLayer.cpp 31-35: the two sums over the slots, in one loop *)
Definition sum_slots (wg bg : list (mat T)) : M (mat T * mat T) unit :=
  mfor (Z.of_nat (length wg)) (fun i =>
    (g <- lift (vget wg i) ;; on_fst (compound_mat op_add (l_val g))) ;;
    (g <- lift (vget bg i) ;; on_snd (compound_mat op_add (l_val g))))%st.

(** Kernel.cpp 49-66, ConnectedLayer.cpp 27-44: applyBatch. The state are the weights and the biases. *)
Definition apply_batch (lr : T) (wg bg : list (mat T)) : M (mat T * mat T) unit :=
  (wb <- mget ;;
   aw0 <- lift (mat_fill (mdim (fst wb)) n0) ;;
   ab0 <- lift (mat_fill (mdim (snd wb)) n0) ;;
   sums <- lift (run_state (sum_slots wg bg (aw0, ab0))) ;;
   aw <- lift (run_state (compound_scalar op_div (fun _ => Ok (nofZ (Z.of_nat (length wg)))) (fst sums))) ;;
   ab <- lift (run_state (compound_scalar op_div (fun _ => Ok (nofZ (Z.of_nat (length bg)))) (snd sums))) ;;
   on_fst (m <- mget ;; compound_mat op_sub (mk_scal_l op_mul lr (l_val aw) m)) ;;
   on_snd (m <- mget ;; compound_mat op_sub (mk_scal_l op_mul lr (l_val ab) m)))%st.

(** applyBatch as an operation of the layer *)
Definition p_apply (lr : T) : M params unit := fun p =>
  match apply_batch lr (p_wg p) (p_bg p) (p_w p, p_b p) with
  | ORet (w, b) _ => ORet (Par w b (p_wg p) (p_bg p)) tt
  | OThrow (w, b) e => OThrow (Par w b (p_wg p) (p_bg p)) e
  | OUB => OUB
  end.

(** Assignment of a gradient to its slot: weight_gradients_[batch_idx] = ... (unchecked operator[]) *)
Definition store_wg (k : Z) (g : mat T) : M params unit := fun p =>
  match vset (p_wg p) k g with
  | Ok l => ORet (Par (p_w p) (p_b p) l (p_bg p)) tt | Throw e => OThrow p e | UB => OUB end.
Definition store_bg (k : Z) (g : mat T) : M params unit := fun p =>
  match vset (p_bg p) k g with
  | Ok l => ORet (Par (p_w p) (p_b p) (p_wg p) l) tt | Throw e => OThrow p e | UB => OUB end.

(** Random initial values. [rand k] is the k-th value std::rand() returns after the std::srand call; [rmax] is
    RAND_MAX; [sqrtT] is std::sqrt. *)
Context (rand : Z -> Z) (rmax : Z) (sqrtT : T -> T).

(** Kernel.cpp 17, 20; ConnectedLayer.cpp 59, 62: 1 - 2*static_cast<double>(std::rand()) / RAND_MAX *)
Definition rand_val (k : Z) : T := nsub n1 (ndiv (nmul (nofZ 2) (nofZ (rand k))) (nofZ rmax)).

(** Kernel.cpp 16-21, ConnectedLayer.cpp 58-63: fill a matrix with random values; [k0] calls were made before. *)
Definition fill_random (k0 : Z) : M (mat T) unit :=
  (m <- mget ;; it_loop (mdim m) (fun k _ => mwrite_flat k (rand_val (k0 + k))))%st.

(** MatrixMath.h 488-491: l2Norm *)
Definition l2norm (m : mat T) : res T :=
  (sq <- mk_elem op_mul (l_val m) (l_val m) tt ;; s <- sum sq tt ;; Ok (sqrtT s))%res.

(** Kernel.cpp 24-25, ConnectedLayer.cpp 66-67: division by the norm (computed before the loop starts) *)
Definition normalise : M (mat T) unit :=
  (m <- mget ;; n <- lift (l2norm m) ;; compound_scalar op_div (fun _ => Ok n))%st.

(** Kernel.cpp 14-25, ConnectedLayer.cpp 55-67: random weights, then random biases, then normalisation of both *)
Definition init_params : M (mat T * mat T) unit :=
  (wb <- mget ;;
   on_fst (fill_random 0) ;;
   on_snd (fill_random (Z.of_nat (it_fuel (mdim (fst wb))))) ;;
   on_fst normalise ;;
   on_snd normalise)%st.
End Batch.
