(** Vocabulary of the specifications. Nothing here mentions the model functions except the matrix record. *)
From Coq Require Import ZArith List.
From Verif Require Import Base Dim Matrix View.
Local Open Scope Z_scope.

(** [(x,y,z)] is an element position of a matrix of dimensions [d]. *)
Definition inb (d : dim3) (x y z : Z) : Prop := 0 <= x < dx d /\ 0 <= y < dy d /\ 0 <= z < dz d.

(** Number of elements. *)
Definition vol (d : dim3) : Z := dx d * dy d * dz d.

(** Non-negative dimensions whose element count (also when zero dimensions are ignored) is an [int]. *)
Definition fits (d : dim3) : Prop :=
  0 <= dx d /\ 0 <= dy d /\ 0 <= dz d /\ Z.max 1 (dx d) * Z.max 1 (dy d) * Z.max 1 (dz d) < two31.

(** All dimensions are at least one. *)
Definition pos (d : dim3) : Prop := 1 <= dx d /\ 1 <= dy d /\ 1 <= dz d.

(** Storage cell number [k] holds [v]. *)
Definition cell {T} (m : mat T) (k : Z) : option T := if k <? 0 then None else nth_error (mvals m) (Z.to_nat k).

(** [m] is the matrix of dimensions [d] with element [f x y z] at [(x,y,z)]. *)
Definition is_mat {T} (m : mat T) (d : dim3) (f : Z -> Z -> Z -> T) : Prop :=
  mdim m = d /\ Z.of_nat (length (mvals m)) = vol d /\
  forall x y z, inb d x y z -> cell m (x + dx d * y + dx d * dy d * z) = Some (f x y z).

(** Stored element count and dimensions agree. *)
Definition consistent {T} (m : mat T) : Prop := Z.of_nat (length (mvals m)) = vol (mdim m).

(** A matrix-like object that, in memory [s], has dimensions [d] and elements [f]. *)
Definition is_lz {S T} (a : lz S T) (s : S) (d : dim3) (f : Z -> Z -> Z -> T) : Prop :=
  ldim a s = d /\ forall x y z, inb d x y z -> lget a s (D3 x y z) = Ok (f x y z).

(** The region of a view lies in a matrix of dimensions [d] and has non-negative start and sizes. *)
Definition region_in (v : view) (d : dim3) : Prop :=
  0 <= dx (vstart v) /\ 0 <= dy (vstart v) /\ 0 <= dz (vstart v) /\
  0 <= dx (vdim v) /\ 0 <= dy (vdim v) /\ 0 <= dz (vdim v) /\
  dx (vstart v) + dx (vdim v) <= dx d /\
  dy (vstart v) + dy (vdim v) <= dy d /\
  dz (vstart v) + dz (vdim v) <= dz d.

(** Index triple number [k] in column-major order of a matrix with [X] rows and [Y] columns. *)
Definition idx_of (X Y k : Z) : dim3 := D3 (k mod X) ((k / X) mod Y) (k / (X * Y)).

(** [f a + ... + f (a+n-1)] added from left to right with [add], starting from [init]. *)
Fixpoint fold_n {A} (step : A -> Z -> A) (n : nat) (a : Z) (init : A) : A :=
  match n with O => init | S n' => fold_n step n' (a + 1) (step init a) end.
Definition fold_z {A} (step : A -> Z -> A) (n : Z) (init : A) : A := fold_n step (Z.to_nat n) 0 init.

(** Perform [body] once for each position/index of a list, from left to right. *)
Fixpoint run_over {S} (body : Z -> dim3 -> M S unit) (l : list (Z * dim3)) : M S unit :=
  match l with
  | nil => ret tt
  | cons (k, i) l' => bind (body k i) (fun _ => run_over body l')
  end.
