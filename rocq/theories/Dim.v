(** include/cnn_from_scratch/Matrix/dim.h : [Dim<3>], [DimIterator<3>]. *)
From Coq Require Import ZArith List Bool.
From Verif Require Import Base.
Import ListNotations.
Local Open Scope Z_scope.

(** dim.h 10-19: three ints. [Dim<2>] is represented by [dim3] with an unused third component. *)
Record dim3 := D3 { dx : Z; dy : Z; dz : Z }.

(** dim.h 21-23: [dim3(val)] fills all components. *)
Definition dim_fill (v : Z) : dim3 := D3 v v v.

(** dim.h 60-66: == and != compare all components. *)
Definition dim_eqb (a b : dim3) : bool := (dx a =? dx b) && (dy a =? dy b) && (dz a =? dz b).

(** dim.h 68-74: component-wise int addition. *)
Definition dim_add (a b : dim3) : res dim3 :=
  (x <- i32 (dx a + dx b) ;; y <- i32 (dy a + dy b) ;; z <- i32 (dz a + dz b) ;; Ok (D3 x y z))%res.

(** dim.h 76-82: component-wise int subtraction. *)
Definition dim_sub (a b : dim3) : res dim3 :=
  (x <- i32 (dx a - dx b) ;; y <- i32 (dy a - dy b) ;; z <- i32 (dz a - dz b) ;; Ok (D3 x y z))%res.

(** dim.h 84-90: size_t product of the components. *)
Definition dim_size (a : dim3) : Z := u64 (dx a * dy a * dz a).

(** dim.h 92-100: position of index [o] (first component fastest), size_t arithmetic. *)
Definition dim_flat (d o : dim3) : Z := u64 (dx o + dy o * dx d + dz o * (dx d * dy d)).

(** dim.h 33-36, 42-46: moving from a dim: (value of the destination, value left in the source). *)
Definition dim_move (d : dim3) : dim3 * dim3 := (d, D3 0 0 0).

(** dim.h 116-125: DimIterator::operator++ (the last component is incremented unconditionally). *)
Definition incr (d i : dim3) : dim3 :=
  if dx i + 1 <? dx d then D3 (dx i + 1) (dy i) (dz i)
  else if dy i + 1 <? dy d then D3 0 (dy i + 1) (dz i)
  else D3 0 0 (dz i + 1).

(** MatrixBase.h 28-30: size() is the int product converted to size_t. *)
Definition base_size (d : dim3) : res Z :=
  (a <- i32 (dx d * dy d) ;; b <- i32 (a * dz d) ;; Ok (u64 b))%res.

(** MatrixBase.h 12-26 *)
Definition is_square (d : dim3) : bool := dx d =? dy d.
Definition is_flat (d : dim3) : bool := dz d =? 1.
Definition is_row (d : dim3) : bool := is_flat d && (dx d =? 1).
Definition is_column (d : dim3) : bool := is_flat d && (dy d =? 1).

(** MatrixIterator.h 27-30: scalar_idx_ given by an index, in int arithmetic. *)
Definition it_scalar (d i : dim3) : res Z :=
  (a <- i32 (dz i * dx d) ;; a <- i32 (a * dy d) ;; b <- i32 (dy i * dx d) ;; c <- i32 (a + b) ;; i32 (c + dx i))%res.

(** MatrixIterator.h 60-63: difference of two iterators over the same matrix (its dims are [d]). *)
Definition it_diff (d i j : dim3) : res Z :=
  (e <- dim_sub i j ;;
   a <- i32 (dz e * dx d) ;; a <- i32 (a * dy d) ;;
   b <- i32 (dy e * dx d) ;; c <- i32 (a + b) ;; i32 (c + dx e))%res.

(** SimpleMatrix.h 97-100, MatrixMath.h 140-143 etc.: begin() and end(). *)
Definition it_begin : dim3 := D3 0 0 0.
Definition it_end (d : dim3) : dim3 := D3 0 0 (dz d).
(** SubMatrixView.h 93-96, 100-103: end() of a view is the increment of the last index. *)
Definition view_end (d : dim3) : res dim3 := (l <- dim_sub d (dim_fill 1) ;; Ok (incr d l))%res.

(** [for (it = begin(); it != end(); it++)] over a matrix-like object with dims [d]
    (MatrixIterator.h 45-57, 65-70); the body receives the counter [k] (the scalar_idx_ of a pure matrix,
    MatrixIterator.h 54-55) and the index. Standard algorithms that compare iterators with != (std::transform,
    std::for_each, std::accumulate, std::fill, std::max_element, std::inner_product) run this loop.
    [fuel] bounds the number of iterations; Iter.v shows that the bound used is never reached. *)
Fixpoint it_from {S} (fuel : nat) (d i e : dim3) (k : Z) (body : Z -> dim3 -> M S unit) : M S unit :=
  if dim_eqb i e then ret tt
  else match fuel with
       | O => mub
       | Datatypes.S f => bind (body k i) (fun _ => it_from f d (incr d i) e (k + 1) body)
       end.
(** A negative depth makes [end()] unreachable (the index overflows). *)
Definition it_fuel (d : dim3) : nat := Z.to_nat (Z.max 1 (dx d) * Z.max 1 (dy d) * dz d).
Definition it_loop {S} (d : dim3) (body : Z -> dim3 -> M S unit) : M S unit :=
  if dz d <? 0 then mub else it_from (it_fuel d) d it_begin (it_end d) 0 body.

(** std::copy for random access iterators (libstdc++): the number of steps is [last - first], computed by
    MatrixIterator.h 60-63; then both iterators are incremented that many times. The body receives the
    counter and the source index. *)
Fixpoint copy_from {S} (n : nat) (d i : dim3) (k : Z) (body : Z -> dim3 -> M S unit) : M S unit :=
  match n with
  | O => ret tt
  | Datatypes.S n' => bind (body k i) (fun _ => copy_from n' d (incr d i) (k + 1) body)
  end.
Definition copy_loop {S} (d : dim3) (e : dim3) (body : Z -> dim3 -> M S unit) : M S unit :=
  bind (lift (it_diff d e it_begin)) (fun n => copy_from (Z.to_nat n) d it_begin 0 body).
