(** Theorems about direct access to elements: C100. *)
From Coq Require Import ZArith List Bool Lia.
From Verif Require Import Base Dim Matrix View Num Expr Spec Iter MatFacts MatThms ViewThms Access.
Import ListNotations.
Local Open Scope Z_scope.

(** ** C100. *)
(** size() and getFlatIdx of dim3 do not overflow below 2^64 elements: size() is the number of elements, each index has its own
    position, and it is the one of the element in the storage. *)
Theorem C100_size : forall d, nonneg d -> vol d < two64 -> dim_size d = dx d * dy d * dz d.
Proof. exact size_wide. Qed.
Print Assumptions C100_size.
Theorem C100_position : forall d x y z, nonneg d -> vol d < two64 -> inb d x y z ->
  dim_flat d (D3 x y z) = x + dx d * y + dx d * dy d * z /\ 0 <= dim_flat d (D3 x y z) < dim_size d /\
  forall x' y' z', inb d x' y' z' -> dim_flat d (D3 x y z) = dim_flat d (D3 x' y' z') -> D3 x y z = D3 x' y' z'.
Proof.
  intros d x y z N V I. destruct (flat_wide d x y z N V I) as [E R]. rewrite E. split; [reflexivity|]. split; [exact R|]. rewrite <- E.
  intros x' y' z' I'. apply flat_inj; assumption.
Qed.
Print Assumptions C100_position.
Theorem C100_element : forall T (m : mat T) x y z, fits (mdim m) -> inb (mdim m) x y z ->
  mread m (D3 x y z) = mread_flat m (dim_flat (mdim m) (D3 x y z)).
Proof. intros T m x y z F I. exact (proj2 (flat_exact (mdim m) x y z F I) T m eq_refl). Qed.
Print Assumptions C100_element.
(** dim(k) is the size in direction k. *)
Theorem C100_dim : forall T (m : mat T), fits (mdim m) ->
  dim_of m 0 = Ok (dx (mdim m)) /\ dim_of m 1 = Ok (dy (mdim m)) /\ dim_of m 2 = Ok (dz (mdim m)).
Proof. exact dim_exact. Qed.
Print Assumptions C100_dim.
(** The position in an iterator built from an index: 0 at begin(), the number of elements at end(), the position of the
    element between, and one more after each increment. *)
Theorem C100_iterator : forall d, fits d -> it_scalar d it_begin = Ok 0 /\ it_scalar d (it_end d) = Ok (dx d * dy d * dz d) /\
  forall x y z, inb d x y z -> exists k, it_scalar d (D3 x y z) = Ok k /\ k = dim_flat d (D3 x y z) /\ it_scalar d (incr d (D3 x y z)) = Ok (k + 1).
Proof.
  intros d F. split; [exact (scalar_begin d F)|]. split; [exact (scalar_end d F)|]. intros x y z I. exists (lin d x y z).
  split; [exact (scalar_lin d x y z F I)|]. split; [symmetry; exact (flat_lin d x y z F I)|exact (proj1 (scalar_next d x y z F I))].
Qed.
Print Assumptions C100_iterator.
(** The difference of two iterators is the difference of their positions. *)
Theorem C100_difference : forall d x y z x' y' z', fits d -> inb d x y z -> inb d x' y' z' ->
  it_diff d (D3 x y z) (D3 x' y' z') = Ok (dim_flat d (D3 x y z) - dim_flat d (D3 x' y' z')).
Proof. intros d x y z x' y' z' F I I'. rewrite !flat_lin by assumption. apply diff_lin; assumption. Qed.
Print Assumptions C100_difference.
(** A view gives the same element for three numbers and for an index. *)
Theorem C100_view : forall T (m : mat T) v x y z, fits (mdim m) -> region_in v (mdim m) -> inb (vdim v) x y z ->
  vread_u m v x y z = vread m v (D3 x y z).
Proof. exact vread_u_exact. Qed.
Print Assumptions C100_view.
(** subMatCopy gives the block, or throws if the block is not inside. *)
Theorem C100_copy : forall T (t0 : T) (m : mat T) f pd s d, is_mat m pd f -> fits pd -> nonneg s -> nonneg d -> below31 s d ->
  (region_in (View s d) pd -> pos d -> exists m', sub_mat_copy t0 m s d = Ok m' /\ is_mat m' d (fun x y z => f (dx s + x) (dy s + y) (dz s + z))) /\
  (~ region_in (View s d) pd -> sub_mat_copy t0 m s d = Throw MatrixSize).
Proof. exact sub_mat_copy_exact. Qed.
Print Assumptions C100_copy.
Example C100_ex : let m := Mat (D3 2 3 2) [0; 1; 2; 3; 4; 5; 6; 7; 8; 9; 10; 11] in
  dim_size (D3 2 3 2) = 12 /\ dim_flat (D3 2 3 2) (D3 1 2 1) = 11 /\ mread m (D3 1 2 1) = Ok 11 /\ dim_of m 1 = Ok 3 /\
  it_scalar (D3 2 3 2) (D3 1 2 0) = Ok 5 /\ incr (D3 2 3 2) (D3 1 2 0) = D3 0 0 1 /\ it_scalar (D3 2 3 2) (D3 0 0 1) = Ok 6 /\
  it_diff (D3 2 3 2) (D3 0 1 0) (D3 1 2 1) = Ok (-9) /\
  vread_u m (View (D3 1 1 0) (D3 1 2 2)) 0 1 1 = Ok 11 /\
  sub_mat_copy 0 m (D3 1 1 0) (D3 1 2 2) = Ok (Mat (D3 1 2 2) [3; 5; 9; 11]) /\
  sub_mat_copy 0 m (D3 1 2 0) (D3 1 2 2) = Throw MatrixSize /\
  dim_size (D3 100000 100000 10) = 100000000000.
Proof. vm_compute. repeat split. Qed.
