(** include/cnn_from_scratch/Matrix/SubMatrixView.h and src/SubMatrixView.tpp. *)
From Coq Require Import ZArith List Bool.
From Verif Require Import Base Dim Matrix.
Import ListNotations.
Local Open Scope Z_scope.

(** SubMatrixView.h 105-107 and MatrixBase.h 37: a view stores its start, its size and the parent matrix. The
    parent is the memory argument of the functions below. *)
Record view := View { vstart : dim3; vdim : dim3 }.

(** SubMatrixView.h 37-39 and 52-54: the comparison with the available dimensions. *)
Definition exceeds (e d : dim3) : bool := (dx d <? dx e) || (dy d <? dy e) || (dz d <? dz e).

(** SubMatrixView.h 33-46: view of a matrix with dimensions [pd] *)
Definition mk_view (pd start d : dim3) : res view :=
  (e <- dim_add start d ;; if exceeds e pd then Throw MatrixSize else Ok (View start d))%res.

(** SubMatrixView.h 48-61: view of a view *)
Definition mk_subview (pd : dim3) (v : view) (start d : dim3) : res view :=
  (s <- dim_add (vstart v) start ;;
   w <- mk_view pd s d ;;
   e <- dim_add start d ;;
   if exceeds e (vdim v) then Throw MatrixSize else Ok w)%res.

(** SimpleMatrix.tpp 176-194: slices and slice of a matrix *)
Definition slices (pd : dim3) (k n : Z) : res view := mk_view pd (D3 0 0 k) (D3 (dx pd) (dy pd) n).
Definition slice (pd : dim3) (k : Z) : res view := slices pd k 1.
(** SubMatrixView.tpp 53-61: slices and slice of a view *)
Definition view_slices (pd : dim3) (v : view) (k n : Z) : res view :=
  mk_subview pd v (D3 0 0 k) (D3 (dx (vdim v)) (dy (vdim v)) n).
Definition view_slice (pd : dim3) (v : view) (k : Z) : res view := view_slices pd v k 1.

(** SubMatrixView.tpp 18-21, 38-41: operator()(dim3), read *)
Definition vread {T} (m : mat T) (v : view) (i : dim3) : res T :=
  (p <- dim_add (vstart v) i ;; mread m p)%res.
(** SubMatrixView.tpp 38-41: operator()(dim3), write *)
Definition vwrite {T} (v : view) (i : dim3) (a : T) : M (mat T) unit :=
  (p <- lift (dim_add (vstart v) i) ;; mwrite p a)%st.
(** SubMatrixView.tpp 13-16, 33-36: operator()(uint32_t,uint32_t,uint32_t): unsigned 32-bit sums *)
Definition vread_u {T} (m : mat T) (v : view) (x y z : Z) : res T :=
  mread m (D3 (u32 (dx (vstart v) + x)) (u32 (dy (vstart v) + y)) (u32 (dz (vstart v) + z))).
(** SubMatrixView.tpp 23-31, 43-51: at() *)
Definition vat {T} (m : mat T) (v : view) (i : dim3) : res T :=
  if (dx (vdim v) <=? dx i) || (dy (vdim v) <=? dy i) || (dz (vdim v) <=? dz i)
  then Throw OutOfRange else vread m v i.

(** A view as matrix-like operand; [p] finds the parent in the memory. *)
Definition l_view {S T} (p : S -> mat T) (v : view) : lz S T := Lz (fun _ => vdim v) (fun s i => vread (p s) v i).

(** SubMatrixView.tpp 63-68: fill (std::fill between begin() and end() of the view) *)
Definition view_fill {T} (v : view) (a : T) : M (mat T) unit :=
  (e <- lift (view_end (vdim v)) ;;
   if dz (vdim v) <? 0 then mub
   else it_from (it_fuel (vdim v)) (vdim v) it_begin e 0 (fun _ i => vwrite v i a))%st.

(** SubMatrixView.tpp 70-83: assignment from a matrix-like object or another view. checkSize, then std::copy;
    the destination iterator advances over the view's own dimensions, which equal those of the source. *)
Definition view_assign {T} (v : view) (a : lz (mat T) T) : M (mat T) unit :=
  (s0 <- mget ;;
   _ <- lift (check_size (vdim v) (ldim a s0)) ;;
   copy_loop (vdim v) (it_end (ldim a s0)) (fun _ i =>
     s <- mget ;; x <- lift (lget a s i) ;; vwrite v i x))%st.

(** SimpleMatrix.tpp 161-164: subMatCopy *)
Definition sub_mat_copy {T} (t0 : T) (m : mat T) (start d : dim3) : res (mat T) :=
  (v <- mk_view (mdim m) start d ;; mat_of_lz t0 (fun x => x) (l_view (fun s => s) v) m)%res.
