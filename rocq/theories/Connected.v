(** include/cnn_from_scratch/Layers/ConnectedLayer.h and src/Layers/ConnectedLayer.cpp: the fully connected layer
    (text input/output is in Text.v). *)
From Coq Require Import ZArith List Bool.
From Verif Require Import Base Dim Matrix View Num Expr Batch.
Import ListNotations.
Local Open Scope Z_scope.

Section Connected.
Context {T : Type} {N : Num T}.

(** ConnectedLayer.h 92-98 *)
Record connected := Conn { c_par : @params T; c_in : dim3; c_ready : bool }.
Definition c_w (c : connected) : mat T := p_w (c_par c).
Definition c_b (c : connected) : mat T := p_b (c_par c).

(** ConnectedLayer.h 14 and ModelLayer.h 16-19: constructor. The argument of type size_t becomes unsigned, then int. *)
Definition c_make (n : Z) : res connected :=
  (b <- mat_fill (D3 (s32 n) 1 1) n0 ;;
   w <- mat_fill (D3 0 0 0) n0 ;;
   Ok (Conn (Par w b [] []) (D3 0 0 0) false))%res.

Context (rand : Z -> Z) (rmax : Z) (sqrtT : T -> T).

(** ConnectedLayer.cpp 49-75: checkSize, with the initialisation at the first call *)
Definition c_check (x : mat T) : M connected bool := fun c =>
  match base_size (mdim (c_b c)), base_size (mdim x) with
  | Ok nb, Ok nx =>
      let expected := D3 (s32 nb) (s32 nx) 1 in
      if c_ready c then ORet c (dim_eqb (mdim (c_w c)) expected)
      else
        match mat_fill expected n0 with
        | Ok w =>
            match init_params rand rmax sqrtT (w, c_b c) with
            | ORet (w', b') _ => ORet (Conn (Par w' b' (p_wg (c_par c)) (p_bg (c_par c))) (mdim x) true) true
            | OThrow (w', b') e => OThrow (Conn (Par w' b' (p_wg (c_par c)) (p_bg (c_par c))) (mdim x) true) e
            | OUB => OUB
            end
        | Throw e => OThrow (Conn (c_par c) (mdim x) true) e
        | UB => OUB
        end
  | _, _ => OUB
  end.

(** ConnectedLayer.cpp 86-90: reshape to a column and W * v + b. Both factors are named objects; the product is a
    temporary that is moved into the sum after its dimensions were read (MatrixMath.h 125-127). *)
Definition c_apply (w b x : mat T) : res (mat T) :=
  (n <- base_size (mdim x) ;;
   v <- run_state (reshape (D3 (s32 n) 1 1) x) ;;
   p <- mk_mul false false Ref Ref (l_val w) (l_val v) tt ;;
   e <- mk_elem op_add p (l_val b) tt ;;
   mat_of_lz n0 (fun t => t) e tt)%res.

(** ConnectedLayer.cpp 80-91: propagateForward *)
Definition c_forward (x : mat T) : M connected (mat T) :=
  (ok <- c_check x ;;
   if negb ok then mthrow LayerExn
   else c <- mget ;; lift (c_apply (c_w c) (c_b c) x))%st.

(** In the two products below one operand is a temporary (the transposed matrix). MatrixMath.h 248-249 reads the
    operands' dimensions in an argument list in which that temporary is also moved from; C++ leaves the order open.
    [moved] is true if the move comes first (clang), false if the dimensions are read first (g++). *)
Context (moved : bool).

(** ConnectedLayer.cpp 96-101: getdLdW *)
Definition c_dw (x g : mat T) : res (mat T) :=
  (n <- base_size (mdim x) ;;
   v <- run_state (reshape (D3 (s32 n) 1 1) x) ;;
   p <- mk_mul false moved Ref Tmp (l_val g) (mk_transpose Ref (l_val v) tt) tt ;;
   mat_of_lz n0 (fun t => t) p tt)%res.

(** ConnectedLayer.cpp 106-111: getdLdX *)
Definition c_dx (c : connected) (g : mat T) : res (mat T) :=
  (p <- mk_mul moved false Tmp Ref (mk_transpose Ref (l_val (c_w c)) tt) (l_val g) tt ;;
   m <- mat_of_lz n0 (fun t => t) p tt ;;
   run_state (reshape (c_in c) m))%res.

(** ConnectedLayer.cpp 116-118: getdLdB *)
Definition c_db (g : mat T) : mat T := g.

Definition on_cpar {A} (m : M params A) : M connected A := fun c =>
  match m (c_par c) with
  | ORet p a => ORet (Conn p (c_in c) (c_ready c)) a
  | OThrow p e => OThrow (Conn p (c_in c) (c_ready c)) e
  | OUB => OUB
  end.

(** ConnectedLayer.cpp 123-135: propagateBackward *)
Definition c_backward (x g : mat T) (slot : Z) (last : bool) : M connected (mat T) :=
  (dw <- lift (c_dw x g) ;; on_cpar (store_wg slot dw) ;;
   on_cpar (store_bg slot (c_db g)) ;;
   c <- mget ;;
   if last then ret mat_empty else lift (c_dx c g))%st.
End Connected.
Arguments connected T : clear implicits.
