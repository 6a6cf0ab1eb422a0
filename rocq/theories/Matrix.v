(** include/cnn_from_scratch/Matrix/SimpleMatrix.h and src/SimpleMatrix.tpp (except text input/output, which
    is in Text.v). [T] is the element type, [t0] the value-initialised element [T{}]. *)
From Coq Require Import ZArith List Bool.
From Verif Require Import Base Dim.
Import ListNotations.
Local Open Scope Z_scope.

(** SimpleMatrix.h 19, 131 and MatrixBase.h 37: dimensions and column-major storage. *)
Record mat (T : Type) := Mat { mdim : dim3; mvals : list T }.
Arguments Mat {T} mdim mvals.
Arguments mdim {T} m.
Arguments mvals {T} m.

(** SimpleMatrix.tpp 131-139: getIndex. All operands are converted to size_t, so the result is the
    mathematical value modulo 2^64. *)
Definition get_index (d i : dim3) : Z := u64 (dz i * dy d * dx d + dy i * dx d + dx i).

(** SimpleMatrix.tpp 141-159 (read access; no bounds check) *)
Definition mread {T} (m : mat T) (i : dim3) : res T := vget (mvals m) (get_index (mdim m) i).
(** SimpleMatrix.tpp 141-159 (write access through the returned reference) *)
Definition mwrite {T} (i : dim3) (v : T) : M (mat T) unit := fun m =>
  match vset (mvals m) (get_index (mdim m) i) v with
  | Ok l => ORet (Mat (mdim m) l) tt
  | Throw e => OThrow m e
  | UB => OUB
  end.
(** SimpleMatrix.h 89-90: operator[], and MatrixIterator.h 32-37 for a pure matrix: values_[scalar_idx_] *)
Definition mread_flat {T} (m : mat T) (k : Z) : res T := vget (mvals m) k.
Definition mwrite_flat {T} (k : Z) (v : T) : M (mat T) unit := fun m =>
  match vset (mvals m) k v with
  | Ok l => ORet (Mat (mdim m) l) tt
  | Throw e => OThrow m e
  | UB => OUB
  end.

(** SimpleMatrix.h 39: default constructor (dim.h 21: all dimensions zero) *)
Definition mat_empty {T} : mat T := Mat (D3 0 0 0) [].

(** The int product [x*y*z] of SimpleMatrix.tpp 24, 65, 114, 119. *)
Definition int_prod (d : dim3) : res Z := (a <- i32 (dx d * dy d) ;; i32 (a * dz d))%res.

(** SimpleMatrix.tpp 20-25: constructor from an initial value. A negative product makes the vector
    constructor throw std::length_error. *)
Definition mat_fill {T} (d : dim3) (v : T) : res (mat T) :=
  (n <- int_prod d ;; if n <? 0 then Throw LengthError else Ok (Mat d (repeat v (Z.to_nat n))))%res.

(** SimpleMatrix.tpp 70-85: setEntries. The loops compare [uint] counters with [int] dimensions. *)
Definition set_entries {T} (v : list T) : M (mat T) unit := fun m =>
  if Nat.eqb (length v) (length (mvals m)) then
    let d := mdim m in
    (* state of the loops: the matrix and the iterator [val] into [v] *)
    match
      mfor (u32 (dz d)) (fun layer =>
      mfor (u32 (dx d)) (fun row =>
      mfor (u32 (dy d)) (fun col => fun '(m, k) =>
        match vget v k with
        | Ok a => match mwrite (D3 row col layer) a m with
                  | ORet m' _ => ORet (m', k + 1) tt
                  | OThrow m' e => OThrow (m', k) e
                  | OUB => OUB
                  end
        | Throw e => OThrow (m, k) e
        | UB => OUB
        end))) (m, 0)
    with
    | ORet (m', _) _ => ORet m' tt
    | OThrow (m', _) e => OThrow m' e
    | OUB => OUB
    end
  else OThrow m MatrixSize.

(** SimpleMatrix.tpp 37-44: constructor from a description. [size()] is the int product. *)
Definition mat_of_list {T} (t0 : T) (d : dim3) (v : list T) : res (mat T) :=
  (m <- mat_fill d t0 ;; run_state (set_entries v m))%res.

(** SimpleMatrix.tpp 50-58: assignment from a vector (column-major, not reordered) *)
Definition assign_vec {T} (v : list T) : M (mat T) unit := fun m =>
  if Nat.eqb (length v) (length (mvals m)) then ORet (Mat (mdim m) v) tt else OThrow m MatrixSize.

(** SimpleMatrix.tpp 101-104: dim(idx) for idx = 0,1,2: int converted to uint32_t *)
Definition dim_of {T} (m : mat T) (k : Z) : res Z :=
  if k =? 0 then Ok (u32 (dx (mdim m))) else if k =? 1 then Ok (u32 (dy (mdim m)))
  else if k =? 2 then Ok (u32 (dz (mdim m))) else UB.

(** SimpleMatrix.tpp 111-115: resize. The dimensions are changed first; if the vector then refuses the size
    the exception leaves the object with the new dimensions and the old storage. *)
Definition resize {T} (t0 : T) (d : dim3) : M (mat T) unit := fun m =>
  match int_prod d with
  | Ok n => match vec_resize t0 (mvals m) n with
            | Ok l => ORet (Mat d l) tt
            | Throw e => OThrow (Mat d (mvals m)) e
            | UB => OUB
            end
  | Throw e => OThrow m e
  | UB => OUB
  end.

(** SimpleMatrix.tpp 117-125: reshape *)
Definition reshape {T} (d : dim3) : M (mat T) unit := fun m =>
  match int_prod d, int_prod (mdim m) with
  | Ok a, Ok b => if a =? b then ORet (Mat d (mvals m)) tt else OThrow m MatrixTransform
  | UB, _ => OUB
  | _, UB => OUB
  | Throw e, _ => OThrow m e
  | _, Throw e => OThrow m e
  end.

(** SimpleMatrix.h 45, 63 (defaulted move operations), dim.h 33-46: (destination, moved-from source).
    std::vector's move leaves an empty vector. *)
Definition mat_move {T} (m : mat T) : mat T * mat T := (m, Mat (D3 0 0 0) []).

(** Lazy reads. A matrix-like object is described by its current dimensions and by the element it returns for
    an index, both as functions of the memory [S] at the time of the call. *)
Record lz (S T : Type) := Lz { ldim : S -> dim3; lget : S -> dim3 -> res T }.
Arguments Lz {S T} ldim lget.
Arguments ldim {S T} l s.
Arguments lget {S T} l s i.

(** A named matrix found in the memory by [p]. *)
Definition l_ref {S T} (p : S -> mat T) : lz S T := Lz (fun s => mdim (p s)) (fun s i => mread (p s) i).
(** A matrix that is not part of the changing memory (a constant or moved-in temporary). *)
Definition l_val {S T} (m : mat T) : lz S T := Lz (fun _ => mdim m) (fun _ i => mread m i).

(** SimpleMatrix.tpp 27-35: construction from a matrix-like object. [M.size()] is the int product; then
    std::transform reads *it of M (MatrixIterator.h 32-37) and writes values_[scalar_idx_] of the new object.
    [cast] is static_cast<type>. The new object is not visible to M, so the memory [s] is constant. *)
Definition mat_of_lz {S T U} (t0 : U) (cast : T -> U) (a : lz S T) (s : S) : res (mat U) :=
  let d := ldim a s in
  (m <- mat_fill d t0 ;;
   run_state (it_loop d (fun k i => v <- lift (lget a s i) ;; mwrite_flat k (cast v))%st m))%res.

(** SimpleMatrix.tpp 87-95: assignment from a matrix-like object that may read the assigned matrix itself.
    The memory is the assigned matrix; [dim_ = M.dim()] and [values_.resize(size())] happen before the
    elements of M are read. *)
Definition assign_lz {T} (t0 : T) (a : lz (mat T) T) : M (mat T) unit := fun m =>
  let d := ldim a m in
  match int_prod d with
  | Ok n => match vec_resize t0 (mvals m) n with
            | Ok l => copy_loop d (it_end d) (fun k i =>
                        s <- mget ;; v <- lift (lget a s i) ;; mwrite_flat k v)%st (Mat d l)
            | Throw e => OThrow (Mat d (mvals m)) e
            | UB => OUB
            end
  | Throw e => OThrow m e
  | UB => OUB
  end.

(** SimpleMatrix.tpp 60-68: assignment from a matrix of another element type; std::copy of the vectors. *)
Definition assign_conv {T U} (t0 : U) (cast : T -> U) (src : mat T) : M (mat U) unit := fun m =>
  match int_prod (mdim src) with
  | Ok n => match vec_resize t0 (mvals m) n with
            | Ok l => if (Z.of_nat (length (mvals src)) <=? n)
                      then ORet (Mat (mdim src) (map cast (mvals src) ++ skipn (length (mvals src)) l)) tt
                      else OUB
            | Throw e => OThrow (Mat (mdim src) (mvals m)) e
            | UB => OUB
            end
  | Throw e => OThrow m e
  | UB => OUB
  end.

(** MatrixMath.h 519-527: checkSize *)
Definition check_size (a b : dim3) : res unit := if dim_eqb a b then Ok tt else Throw MatrixSize.
