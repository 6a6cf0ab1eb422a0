(** include/cnn_from_scratch/Layers/Softmax.h and src/Layers/Softmax.cpp, and the loss function of
    src/ModelDescription.tpp. *)
From Coq Require Import ZArith List Bool.
From Verif Require Import Base Dim Matrix View Num Expr Batch.
Import ListNotations.
Local Open Scope Z_scope.

(** Softmax.h 64-67. The label index is not initialised by the constructor; it is only read when [sm_known]. *)
Record softmax := Soft { sm_known : bool; sm_label : Z; sm_count : Z }.
(** Softmax.cpp 8-10 *)
Definition sm_make (n : Z) : softmax := Soft false 0 n.

(** Softmax.cpp 30-39: assignTrueLabel *)
Definition sm_assign (k : Z) : M softmax unit := fun s =>
  if sm_count s <=? k then OThrow s OutOfRange else ORet (Soft true k (sm_count s)) tt.

Section Softmax.
Context {T : Type} {N : Num T}.
Context (expT : T -> T).

(** Softmax.cpp 22-25: checkSize *)
Definition sm_check (s : softmax) (x : mat T) : res bool :=
  if is_column (mdim x) || is_row (mdim x)
  then (n <- base_size (mdim x) ;; Ok (n =? sm_count s))%res else Ok false.

(** Softmax.cpp 44-52: softMax *)
Definition sm_apply (x : mat T) : res (mat T) :=
  (m <- mmax (l_val x) tt ;;
   let off := mk_scal_r op_sub (l_val x) m tt in
   e <- mat_of_lz n0 (fun t => t) (mk_apply (fun v => Ok (expT v)) off tt) tt ;;
   t <- sum (l_val e) tt ;;
   mat_of_lz n0 (fun t => t) (mk_scal_r op_div (l_val e) t tt) tt)%res.

(** Softmax.cpp 57-62: propagateForward *)
Definition sm_forward (s : softmax) (x : mat T) : res (mat T) :=
  (ok <- sm_check s x ;; if ok then sm_apply x else Throw LayerExn)%res.

(** Softmax.cpp 67-71: getdLdX *)
Definition sm_dx (y : mat T) (k : Z) : res (mat T) :=
  (v <- mread_flat y k ;; run_state (mwrite_flat k (nsub v n1) y))%res.

(** Softmax.cpp 76-85: propagateBackward *)
Definition sm_backward (s : softmax) (y : mat T) : res (mat T) :=
  if sm_known s then sm_dx y (sm_label s) else Throw LayerExn.

(** ModelDescription.tpp 142-153: lossFcn; [log2T] is log2, [eps] the float constant 1e-5f; the result is converted to
    float by [rnd]. std::max(loss, 0.0) is 0.0 if loss < 0.0, else loss. The member loss_function,
    which is never initialised, is not modelled: every value leads to this case of the switch. *)
Definition loss_fcn (log2T : T -> T) (eps : T) (rnd : T -> T) (p : mat T) (k : Z) : res T :=
  (v <- mread_flat p k ;;
   let loss := nmul (nsub n0 n1) (log2T (nadd v eps)) in
   Ok (rnd (if nltb loss n0 then n0 else loss)))%res.
End Softmax.
