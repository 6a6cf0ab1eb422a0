(** Outcomes, state monad and machine integers shared by all model files. *)
From Coq Require Import ZArith List Bool Lia.
Import ListNotations.
Local Open Scope Z_scope.

(** Exceptions the library can raise: include/cnn_from_scratch/exceptions.h (MatrixSizeException,
    MatrixTransformException, ModelLayerException) and the standard exceptions named by the call sites. *)
Inductive exn :=
| MatrixSize        (* MatrixSizeException *)
| MatrixTransform   (* MatrixTransformException *)
| LayerExn          (* ModelLayerException *)
| OutOfRange        (* std::out_of_range *)
| LengthError       (* std::length_error, raised by std::vector for sizes above max_size() *)
| RuntimeError      (* std::runtime_error *)
| AssertFail.       (* assert(): the program is stopped (NDEBUG is not defined by /repo/CMakeLists.txt) *)

(** Result of a computation that does not change any state. [UB] is undefined behaviour. *)
Inductive res (A : Type) :=
| Ok (a : A)
| Throw (e : exn)
| UB.
Arguments Ok {A} a.
Arguments Throw {A} e.
Arguments UB {A}.

Definition rbind {A B} (r : res A) (k : A -> res B) : res B :=
  match r with Ok a => k a | Throw e => Throw e | UB => UB end.

(** Result of a computation on an object of type [S]; after an exception the object still exists, in the
    state it had when the exception left the function. *)
Inductive out (S A : Type) :=
| ORet (s : S) (a : A)
| OThrow (s : S) (e : exn)
| OUB.
Arguments ORet {S A} s a.
Arguments OThrow {S A} s e.
Arguments OUB {S A}.

Definition M (S A : Type) := S -> out S A.

Definition ret {S A} (a : A) : M S A := fun s => ORet s a.
Definition bind {S A B} (m : M S A) (k : A -> M S B) : M S B :=
  fun s => match m s with ORet s' a => k a s' | OThrow s' e => OThrow s' e | OUB => OUB end.
Definition lift {S A} (r : res A) : M S A :=
  fun s => match r with Ok a => ORet s a | Throw e => OThrow s e | UB => OUB end.
Definition mget {S} : M S S := fun s => ORet s s.
Definition mput {S} (s : S) : M S unit := fun _ => ORet s tt.
Definition mthrow {S A} (e : exn) : M S A := fun s => OThrow s e.
Definition mub {S A} : M S A := fun _ => OUB.

Declare Scope res_scope.
Delimit Scope res_scope with res.
Notation "x <- e ;; k" := (rbind e (fun x => k)) (at level 61, e at next level, right associativity) : res_scope.
Declare Scope st_scope.
Delimit Scope st_scope with st.
Notation "x <- e ;; k" := (bind e (fun x => k)) (at level 61, e at next level, right associativity) : st_scope.
Notation "e ;; k" := (bind e (fun _ => k)) (at level 61, right associativity) : st_scope.

(** Keep the final state as the value (a local object that is returned). *)
Definition run_state {S A} (o : out S A) : res S :=
  match o with ORet s _ => Ok s | OThrow _ e => Throw e | OUB => UB end.

(** [for (i = a; n more times; i++) body(i)] *)
Fixpoint mfor_n {S} (n : nat) (a : Z) (body : Z -> M S unit) : M S unit :=
  match n with
  | O => ret tt
  | Datatypes.S n' => bind (body a) (fun _ => mfor_n n' (a + 1) body)
  end.
(** [for (int i = 0; i < n; i++) body(i)] with a signed bound. *)
Definition mfor {S} (n : Z) (body : Z -> M S unit) : M S unit := mfor_n (Z.to_nat n) 0 body.

(** Machine integers. *)
Definition two31 : Z := 2147483648.
Definition two32 : Z := 4294967296.
Definition two64 : Z := 18446744073709551616.
(** Signed 32-bit arithmetic: overflow is undefined behaviour. *)
Definition i32 (z : Z) : res Z := if (- two31 <=? z) && (z <? two31) then Ok z else UB.
(** Bound of a loop [for (uint i = 0; i < n; i++)] with [n] of type [int]: [n] is converted to unsigned. *)
Definition u32 (z : Z) : Z := z mod two32.
Definition u64 (z : Z) : Z := z mod two64.

(** List update. *)
Fixpoint upd {A} (l : list A) (n : nat) (v : A) : list A :=
  match l, n with
  | [], _ => []
  | _ :: l', O => v :: l'
  | a :: l', Datatypes.S n' => a :: upd l' n' v
  end.

(** std::vector<T>: unchecked access [v[k]] for a [size_t] index; outside the vector it is undefined. *)
Definition vget {T} (l : list T) (k : Z) : res T :=
  if (0 <=? k) && (k <? Z.of_nat (length l)) then
    match nth_error l (Z.to_nat k) with Some v => Ok v | None => UB end
  else UB.
Definition vset {T} (l : list T) (k : Z) (v : T) : res (list T) :=
  if (0 <=? k) && (k <? Z.of_nat (length l)) then Ok (upd l (Z.to_nat k) v) else UB.

(** std::vector<T>::max_size() for 4-byte elements and 64-bit pointers is 2^63-1 bytes / sizeof(T); any
    negative [int] converted to [size_t] is above it for every element size. *)
Definition vec_resize {T} (dflt : T) (l : list T) (n : Z) : res (list T) :=
  if n <? 0 then Throw LengthError
  else Ok (firstn (Z.to_nat n) l ++ repeat dflt (Z.to_nat n - length l)).
