(** include/cnn_from_scratch/Matrix/MatrixMath.h: lazy expressions, compound assignment and reductions. *)
From Coq Require Import ZArith List Bool.
From Verif Require Import Base Dim Matrix View Num.
Import ListNotations.
Local Open Scope Z_scope.

Section Expr.
Context {S T : Type}.

(** How an operand reaches an expression (MatrixMath.h 36-41): a reference to a named object (or a view, whose
    copy leaves it intact), or a temporary that is moved into the expression object. *)
Inductive cat := Ref | Tmp.
(** Dimensions that the named parameter still reports after the operand was moved (dim.h 33-36). *)
Definition dim_after_move (c : cat) (d : dim3) : dim3 := match c with Ref => d | Tmp => snd (dim_move d) end.

(** MatrixMath.h 116-175: element-wise operator (any of + - / * < <= > >= != ==, given by [f]; [f] is [UB] where
    the C++ operator is). The dimensions are copied from the first operand at construction. *)
Definition mk_elem (f : T -> T -> res T) (a b : lz S T) (s : S) : res (lz S T) :=
  let d := ldim a s in
  (_ <- check_size d (ldim b s) ;;
   Ok (Lz (fun _ => d) (fun s' i => x <- lget a s' i ;; y <- lget b s' i ;; f x y)))%res.

(** MatrixMath.h 283-347: matrix op scalar and scalar op matrix; the scalar is copied into the object. *)
Definition mk_scal_r (f : T -> T -> res T) (a : lz S T) (c : T) (s : S) : lz S T :=
  let d := ldim a s in Lz (fun _ => d) (fun s' i => (x <- lget a s' i ;; f x c)%res).
Definition mk_scal_l (f : T -> T -> res T) (c : T) (a : lz S T) (s : S) : lz S T :=
  let d := ldim a s in Lz (fun _ => d) (fun s' i => (x <- lget a s' i ;; f c x)%res).

(** MatrixMath.h 353-411: apply / abs / exp *)
Definition mk_apply (f : T -> res T) (a : lz S T) (s : S) : lz S T :=
  let d := ldim a s in Lz (fun _ => d) (fun s' i => (x <- lget a s' i ;; f x)%res).

(** MatrixMath.h 413-422: transpose. Lines 419-420 read the dimensions of the parameter after line 418 moved it
    (if it is a temporary). *)
Definition mk_transpose (c : cat) (a : lz S T) (s : S) : lz S T :=
  let d := ldim a s in
  let d' := dim_after_move c d in
  let r := D3 (dy d') (dx d') (dz d) in
  Lz (fun _ => r) (fun s' i => lget a s' (D3 (dy i) (dx i) (dz i))).

(** MatrixMath.h 433-448: the index read by rotate<n>; the operand's dimensions are read at evaluation time. *)
Definition rot_index (n : Z) (d i : dim3) : res dim3 :=
  if n =? 1 then (t <- i32 (dy d - dy i) ;; x <- i32 (t - 1) ;; Ok (D3 x (dx i) (dz i)))%res
  else if n =? 2 then (t <- i32 (dx d - dx i) ;; x <- i32 (t - 1) ;;
                       u <- i32 (dy d - dy i) ;; y <- i32 (u - 1) ;; Ok (D3 x y (dz i)))%res
  else (t <- i32 (dx d - dx i) ;; y <- i32 (t - 1) ;; Ok (D3 (dy i) y (dz i)))%res.
(** MatrixMath.h 424-451: rotate<n>, n = 1,2,3 *)
Definition mk_rotate (n : Z) (a : lz S T) (s : S) : res (lz S T) :=
  let d := ldim a s in
  if is_square d then
    Ok (Lz (fun _ => d) (fun s' i => (j <- rot_index n (ldim a s') i ;; lget a s' j)%res))
  else Throw MatrixTransform.

Context {N : Num T}.

(** MatrixMath.h 237-246: one element of a product. The loop compares a size_t counter with the int [dim().y]. *)
Definition mul_elem (a b : lz S T) (s : S) (i : dim3) : res T :=
  run_state (mfor (u64 (dy (ldim a s))) (fun k => fun sum =>
     match lget a s (D3 (dx i) k (dz i)), lget b s (D3 k (dy i) (dz i)) with
     | Ok x, Ok y => ORet (nadd sum (nmul x y)) tt
     | Throw e, _ => OThrow sum e
     | _, Throw e => OThrow sum e
     | _, _ => OUB
     end) n0).
(** MatrixMath.h 227-250: matrixMultiply. The order in which the arguments at line 249 are evaluated is
    unspecified: [m1]/[m2] say whether operand 1/2 has been moved before its dimensions are read. *)
Definition mk_mul (m1 m2 : bool) (c1 c2 : cat) (a b : lz S T) (s : S) : res (lz S T) :=
  let d1 := ldim a s in
  let d2 := ldim b s in
  if negb (dz d1 =? dz d2) || negb (dy d1 =? dx d2) then Throw MatrixSize
  else
    let e1 := if m1 then dim_after_move c1 d1 else d1 in
    let e2 := if m2 then dim_after_move c2 d2 else d2 in
    let r := D3 (dx e1) (dy e2) (dz e1) in
    Ok (Lz (fun _ => r) (mul_elem a b)).

(** MatrixMath.h 263-273: one element of a convolution *)
Definition conv_elem (stride : dim3) (a b : lz S T) (s : S) (i : dim3) : res T :=
  (vx <- i32 (dx i * dx stride) ;;
   vy <- i32 (dy i * dy stride) ;;
   let d2 := ldim b s in
   run_state (mfor (u32 (dx d2)) (fun x => mfor (u32 (dy d2)) (fun y => fun sum =>
     match (p <- dim_add (D3 x y 0) (D3 vx vy 0) ;; lget a s p)%res, lget b s (D3 x y 0) with
     | Ok u, Ok v => ORet (nadd sum (nmul u v)) tt
     | Throw e, _ => OThrow sum e
     | _, Throw e => OThrow sum e
     | _, _ => OUB
     end)) n0))%res.
(** MatrixMath.h 252-277: convolve. The output size does not depend on the stride. *)
Definition mk_convolve (a b : lz S T) (stride : dim3) (s : S) : res (lz S T) :=
  let d1 := ldim a s in
  let d2 := ldim b s in
  if negb (is_flat d1 && is_flat d2) then Throw AssertFail
  else (t <- i32 (dx d1 - dx d2) ;; x <- i32 (t + 1) ;;
        u <- i32 (dy d1 - dy d2) ;; y <- i32 (u + 1) ;;
        let r := D3 x y 1 in
        Ok (Lz (fun _ => r) (conv_elem stride a b)))%res.

End Expr.

Section Modify.
Context {T : Type}.

(** MatrixMath.h 47-50: modify / std::for_each over a matrix *)
Definition modify (f : T -> res T) : M (mat T) unit :=
  (m <- mget ;;
   it_loop (mdim m) (fun k _ => s <- mget ;; x <- lift (mread_flat s k) ;; y <- lift (f x) ;; mwrite_flat k y))%st.

(** MatrixMath.h 52-56, 67-71, 82-86, 97-101: compound assignment with a scalar. The scalar is taken by
    reference, so it is read again for every element; [c] reads it from the memory. *)
Definition compound_scalar (f : T -> T -> res T) (c : mat T -> res T) : M (mat T) unit :=
  (m <- mget ;;
   it_loop (mdim m) (fun k _ =>
     s <- mget ;; x <- lift (mread_flat s k) ;; v <- lift (c s) ;; y <- lift (f x v) ;; mwrite_flat k y))%st.

(** MatrixMath.h 58-65, 73-80, 88-95, 103-110: compound assignment with a matrix-like object *)
Definition compound_mat (f : T -> T -> res T) (a : lz (mat T) T) : M (mat T) unit :=
  (m <- mget ;;
   _ <- lift (check_size (mdim m) (ldim a m)) ;;
   it_loop (mdim m) (fun k i =>
     s <- mget ;; v <- lift (lget a s i) ;; x <- lift (mread_flat s k) ;; y <- lift (f x v) ;; mwrite_flat k y))%st.

(** The same on a view of the memory (the iterators of a view write through operator()) *)
Definition view_compound_mat (f : T -> T -> res T) (v : view) (a : lz (mat T) T) : M (mat T) unit :=
  (m <- mget ;;
   _ <- lift (check_size (vdim v) (ldim a m)) ;;
   it_loop (vdim v) (fun _ i =>
     s <- mget ;; b <- lift (lget a s i) ;; x <- lift (vread s v i) ;; y <- lift (f x b) ;; vwrite v i y))%st.
Definition view_compound_scalar (f : T -> T -> res T) (v : view) (c : T) : M (mat T) unit :=
  it_loop (vdim v) (fun _ i =>
     s <- mget ;; x <- lift (vread s v i) ;; y <- lift (f x c) ;; vwrite v i y)%st.

End Modify.

Section Reduce.
Context {S T : Type}.

(** std::accumulate over a matrix-like object *)
Definition accumulate {A} (f : A -> T -> res A) (init : A) (a : lz S T) (s : S) : res A :=
  run_state (it_loop (ldim a s) (fun _ i => fun acc =>
    match (x <- lget a s i ;; f acc x)%res with
    | Ok acc' => ORet acc' tt
    | Throw e => OThrow acc e
    | UB => OUB
    end) init).

(** MatrixMath.h 177-192: dot. [conv] is the conversion of the running value back to int (the type of the
    initial value 0); [nofZ] its conversion to the product type. For T = int both are the identity. *)
Definition dot {N : Num T} (conv : T -> res Z) (a b : lz S T) (s : S) : res Z :=
  let d1 := ldim a s in
  let d2 := ldim b s in
  (n1 <- base_size d1 ;; n2 <- base_size d2 ;;
   if negb (n1 =? n2) || negb (dz d1 =? 1) || negb (dz d2 =? 1)
      || (negb (dx d1 =? 1) && negb (dy d1 =? 1)) || (negb (dx d2 =? 1) && negb (dy d2 =? 1))
   then Throw MatrixSize
   else
     (* std::inner_product: both iterators advance together, each over its own dimensions *)
     r <- run_state (it_loop d1 (fun _ i => fun '(acc, j) =>
        match (x <- lget a s i ;; y <- lget b s j ;; conv (nadd (nofZ acc) (nmul x y)))%res with
        | Ok acc' => ORet (acc', incr d2 j) tt
        | Throw e => OThrow (acc, j) e
        | UB => OUB
        end) (0, it_begin)) ;;
     Ok (fst r))%res.

(** MatrixMath.h 457-461: sum *)
Definition sum {N : Num T} (a : lz S T) (s : S) : res T := accumulate (fun x y => Ok (nadd x y)) n0 a s.
(** MatrixMath.h 463-466: mean for a floating-point element type (size() is converted to it) *)
Definition mean {N : Num T} (a : lz S T) (s : S) : res T :=
  (t <- sum a s ;; n <- base_size (ldim a s) ;; Ok (ndiv t (nofZ n)))%res.

(** std::max_element / std::min_element (libstdc++): [best] is replaced when it compares less. *)
Definition extremum {N : Num T} (better : T -> T -> bool) (a : lz S T) (s : S) : res (option (Z * dim3 * T)) :=
  run_state (it_loop (ldim a s) (fun k i => fun best =>
     match lget a s i with
     | Ok x => match best with
               | None => ORet (Some (k, i, x)) tt
               | Some (k0, i0, b) => if better x b then ORet (Some (k, i, x)) tt else ORet best tt
               end
     | Throw e => OThrow best e
     | UB => OUB
     end) None).
Definition lt_max {N : Num T} (x b : T) : bool := nltb b x.
Definition lt_min {N : Num T} (x b : T) : bool := nltb x b.
(** MatrixMath.h 468-476: max and min dereference the iterator; the end iterator must not be dereferenced. *)
Definition mmax {N : Num T} (a : lz S T) (s : S) : res T :=
  (o <- extremum lt_max a s ;; match o with Some (_, _, x) => Ok x | None => UB end)%res.
Definition mmin {N : Num T} (a : lz S T) (s : S) : res T :=
  (o <- extremum lt_min a s ;; match o with Some (_, _, x) => Ok x | None => UB end)%res.
(** MatrixMath.h 478-486: free minIndex / maxIndex: index of the iterator (of end() if there is no element) *)
Definition max_index3 {N : Num T} (a : lz S T) (s : S) : res dim3 :=
  (o <- extremum lt_max a s ;; Ok match o with Some (_, i, _) => i | None => it_end (ldim a s) end)%res.
Definition min_index3 {N : Num T} (a : lz S T) (s : S) : res dim3 :=
  (o <- extremum lt_min a s ;; Ok match o with Some (_, i, _) => i | None => it_end (ldim a s) end)%res.
(** MatrixMath.h 497-517: matrixEqual; [cmp] is the comparison of two elements. The loop condition stops at the
    first difference. *)
Definition matrix_equal (cmp : T -> T -> bool) (a b : lz S T) (s : S) : res bool :=
  if dim_eqb (ldim a s) (ldim b s) then
    run_state (it_loop (ldim a s) (fun _ i => fun eq : bool =>
      if eq then
        match (x <- lget a s i ;; y <- lget b s i ;; Ok (cmp x y))%res with
        | Ok c => ORet c tt
        | Throw e => OThrow eq e
        | UB => OUB
        end
      else ORet eq tt) true)
  else Ok false.
End Reduce.

(** SimpleMatrix.tpp 210-218: member minIndex / maxIndex: std::distance from begin() *)
Definition max_index {T : Type} {N : Num T} (m : mat T) : res Z :=
  (o <- extremum lt_max (l_val m) tt ;;
   let i := match o with Some (_, i, _) => i | None => it_end (mdim m) end in it_diff (mdim m) i it_begin)%res.
Definition min_index {T : Type} {N : Num T} (m : mat T) : res Z :=
  (o <- extremum lt_min (l_val m) tt ;;
   let i := match o with Some (_, i, _) => i | None => it_end (mdim m) end in it_diff (mdim m) i it_begin)%res.

(** MatrixMath.h 463-466 for an int matrix: int / size_t is an unsigned division; the sum overflowing int is UB. *)
Definition mean_int {S} (a : lz S Z) (s : S) : res Z :=
  (t <- accumulate (fun x y => i32 (x + y)) 0 a s ;;
   n <- base_size (ldim a s) ;;
   if n =? 0 then UB else Ok (u64 t / n))%res.
