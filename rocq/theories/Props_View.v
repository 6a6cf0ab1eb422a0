(** Properties C08-C13: views, aliasing and assignment. *)
From Coq Require Import ZArith List Bool Lia.
From Verif Require Import Base Dim Matrix View Num Expr Spec Iter MatFacts MatThms ViewThms.
Import ListNotations.
Local Open Scope Z_scope.

(** ** C08 *)
Theorem C08_view_exact_partial : forall pd s d, fits pd -> nonneg s -> nonneg d -> below31 s d ->
  (region_in (View s d) pd -> mk_view pd s d = Ok (View s d)) /\
  (~ region_in (View s d) pd -> mk_view pd s d = Throw MatrixSize).
Proof. exact mk_view_exact. Qed.
Print Assumptions C08_view_exact_partial.

Theorem C08_subview_exact_partial : forall pd v s d, fits pd -> region_in v pd -> nonneg s -> nonneg d -> below31 s d ->
  below31 (D3 (dx (vstart v) + dx s) (dy (vstart v) + dy s) (dz (vstart v) + dz s)) d ->
  (region_in (View s d) (vdim v) ->
     exists w, mk_subview pd v s d = Ok w /\ vdim w = d /\ region_in w pd /\
       vstart w = D3 (dx (vstart v) + dx s) (dy (vstart v) + dy s) (dz (vstart v) + dz s)) /\
  (~ region_in (View s d) (vdim v) -> mk_subview pd v s d = Throw MatrixSize).
Proof. exact mk_subview_exact. Qed.
Print Assumptions C08_subview_exact_partial.

(** Views built by any number of nested constructions stay inside the matrix. *)
Theorem C08_nested_inside : forall pd l v, derived pd l v ->
  region_in v pd /\ dx (vstart v) = dx (sum_of l) /\ dy (vstart v) = dy (sum_of l) /\ dz (vstart v) = dz (sum_of l).
Proof. exact derived_inside. Qed.
Print Assumptions C08_nested_inside.

Theorem C08_slices_exact : forall pd k n, fits pd -> 0 <= k -> 0 <= n -> k + n < two31 ->
  (k + n <= dz pd -> slices pd k n = Ok (View (D3 0 0 k) (D3 (dx pd) (dy pd) n))) /\
  (dz pd < k + n -> slices pd k n = Throw MatrixSize).
Proof. exact slices_exact. Qed.
Print Assumptions C08_slices_exact.

Example C08_ex : fits (D3 4 5 2) /\ region_in (View (D3 1 2 0) (D3 3 2 1)) (D3 4 5 2) /\
  ~ region_in (View (D3 2 2 0) (D3 3 2 1)) (D3 4 5 2) /\
  derived (D3 4 5 2) [D3 0 1 1; D3 1 2 0] (View (D3 1 3 1) (D3 1 1 1)).
Proof.
  unfold fits, region_in, two31. cbn. repeat split; try lia.
  apply derived_step with (v := View (D3 1 2 0) (D3 3 2 2)) (d := D3 1 1 1).
  - apply derived_base with (D3 3 2 2); unfold nonneg; cbn; try lia; reflexivity.
  - unfold nonneg; cbn; lia.
  - unfold nonneg; cbn; lia.
  - reflexivity.
Qed.

(** Missing in C08: negative start indices are accepted. The view below lies outside its matrix and reading it is
    undefined. *)
Theorem C08_negative_refuted : exists (m : mat Z) v,
  consistent m /\ fits (mdim m) /\ mk_view (mdim m) (D3 (-1) 0 0) (D3 2 2 1) = Ok v /\
  ~ region_in v (mdim m) /\ inb (vdim v) 0 0 0 /\ vread m v (D3 0 0 0) = UB.
Proof.
  exists (Mat (D3 2 2 1) [1; 2; 3; 4]), (View (D3 (-1) 0 0) (D3 2 2 1)).
  unfold fits, region_in, inb, two31, consistent, vol. cbn. repeat split; lia || reflexivity.
Qed.
Print Assumptions C08_negative_refuted.

(** ** C09 *)
Theorem C09_read : forall T (m : mat T) d f v x y z,
  is_mat m d f -> fits d -> region_in v d -> inb (vdim v) x y z ->
  vread m v (D3 x y z) = Ok (f (dx (vstart v) + x) (dy (vstart v) + y) (dz (vstart v) + z)).
Proof. exact @vread_ok. Qed.
Print Assumptions C09_read.

Theorem C09_fill : forall T (m0 : mat T) v a,
  consistent m0 -> fits (mdim m0) -> region_in v (mdim m0) -> pos (vdim v) ->
  exists m1, view_fill v a m0 = ORet m1 tt /\ mdim m1 = mdim m0 /\ consistent m1 /\
    (forall x y z, inb (vdim v) x y z -> vread m1 v (D3 x y z) = Ok a) /\
    (forall x y z, inb (mdim m0) x y z -> ~ in_region v x y z -> mread m1 (D3 x y z) = mread m0 (D3 x y z)).
Proof. exact view_fill_exact. Qed.
Print Assumptions C09_fill.

Theorem C09_assign : forall T (m0 : mat T) v (a : lz (mat T) T) g,
  consistent m0 -> fits (mdim m0) -> region_in v (mdim m0) -> pos (vdim v) -> ldim a m0 = vdim v ->
  (forall m x y z, inb (vdim v) x y z -> lget a m (D3 x y z) = Ok (g x y z)) ->
  exists m1, view_assign v a m0 = ORet m1 tt /\ mdim m1 = mdim m0 /\ consistent m1 /\
    (forall x y z, inb (vdim v) x y z -> vread m1 v (D3 x y z) = Ok (g x y z)) /\
    (forall x y z, inb (mdim m0) x y z -> ~ in_region v x y z -> mread m1 (D3 x y z) = mread m0 (D3 x y z)).
Proof. exact view_assign_exact. Qed.
Print Assumptions C09_assign.

Theorem C09_assign_mismatch : forall T (m0 : mat T) v (a : lz (mat T) T),
  ldim a m0 <> vdim v -> view_assign v a m0 = OThrow m0 MatrixSize.
Proof. exact view_assign_mismatch. Qed.
Print Assumptions C09_assign_mismatch.

Example C09_ex :
  let m := Mat (D3 3 2 1) [1; 2; 3; 4; 5; 6] in
  let v := View (D3 1 0 0) (D3 2 2 1) in
  region_in v (mdim m) /\ pos (vdim v) /\
  view_fill v 9 m = ORet (Mat (D3 3 2 1) [1; 9; 9; 4; 9; 9]) tt /\
  view_assign v (l_val (Mat (D3 2 2 1) [7; 8; 9; 10])) m = ORet (Mat (D3 3 2 1) [1; 7; 8; 4; 9; 10]) tt.
Proof. unfold region_in, pos. cbn. repeat split; lia || reflexivity. Qed.

(** ** C10 *)
Theorem C10_at_partial : forall T (m : mat T) v x y z, consistent m -> fits (mdim m) -> region_in v (mdim m) ->
  0 <= x -> 0 <= y -> 0 <= z ->
  (inb (vdim v) x y z -> exists w, vat m v (D3 x y z) = Ok w /\
     mread m (D3 (dx (vstart v) + x) (dy (vstart v) + y) (dz (vstart v) + z)) = Ok w) /\
  (~ inb (vdim v) x y z -> vat m v (D3 x y z) = Throw OutOfRange).
Proof. exact vat_exact. Qed.
Print Assumptions C10_at_partial.

Example C10_ex :
  let m := Mat (D3 3 2 1) [1; 2; 3; 4; 5; 6] in
  let v := View (D3 1 0 0) (D3 2 2 1) in
  vat m v (D3 1 1 0) = Ok 6 /\ vat m v (D3 2 1 0) = Throw OutOfRange.
Proof. split; reflexivity. Qed.

(** Missing in C10: a negative index is not rejected; an element outside the view is returned. *)
Theorem C10_negative_refuted : exists (m : mat Z) v i w,
  consistent m /\ region_in v (mdim m) /\ ~ inb (vdim v) (dx i) (dy i) (dz i) /\ vat m v i = Ok w.
Proof.
  exists (Mat (D3 3 2 1) [1; 2; 3; 4; 5; 6]), (View (D3 1 0 0) (D3 2 2 1)), (D3 (-1) 0 0), 1.
  unfold region_in, inb, consistent, vol. cbn. repeat split; lia || reflexivity.
Qed.
Print Assumptions C10_negative_refuted.

(** ** C11 *)
(** The assignment is right whenever the value at a position is computed from cells at or after this position. *)
Theorem C11_assign_partial : forall T (t0 : T) (a : lz (mat T) T) (m0 : mat T) d f,
  fits d -> consistent m0 -> mdim m0 = d -> is_lz a m0 d f ->
  (forall m x y z, inb d x y z -> mdim m = d -> consistent m ->
     (forall j, lin d x y z <= j < vol d -> cell m j = cell m0 j) ->
     lget a m (D3 x y z) = lget a m0 (D3 x y z)) ->
  exists m1, assign_lz t0 a m0 = ORet m1 tt /\ is_mat m1 d f.
Proof. exact assign_alias. Qed.
Print Assumptions C11_assign_partial.

Theorem C11_compound_partial : forall T (h : T -> T -> res T) (a : lz (mat T) T) (m0 : mat T) d f g r,
  fits d -> iterable d -> is_mat m0 d f -> is_lz a m0 d g ->
  (forall x y z, inb d x y z -> h (f x y z) (g x y z) = Ok (r x y z)) ->
  (forall m x y z, inb d x y z -> mdim m = d -> consistent m ->
     (forall j, lin d x y z <= j < vol d -> cell m j = cell m0 j) ->
     lget a m (D3 x y z) = lget a m0 (D3 x y z)) ->
  exists m1, compound_mat h a m0 = ORet m1 tt /\ is_mat m1 d r.
Proof. exact compound_general. Qed.
Print Assumptions C11_compound_partial.

Theorem C11_compound_mismatch : forall T (h : T -> T -> res T) (a : lz (mat T) T) (m0 : mat T),
  ldim a m0 <> mdim m0 -> compound_mat h a m0 = OThrow m0 MatrixSize.
Proof. exact compound_mismatch. Qed.
Print Assumptions C11_compound_mismatch.

(** [M = M * M] element-wise satisfies the condition of C11_assign_partial. *)
Example C11_ex : exists a,
  mk_elem (fun x y => Ok (x * y)) (l_ref (fun m => m)) (l_ref (fun m => m)) (Mat (D3 2 1 1) [3; 4]) = Ok a /\
  is_lz a (Mat (D3 2 1 1) [3; 4]) (D3 2 1 1) (fun x _ _ => (3 + x) * (3 + x)) /\
  assign_lz 0 a (Mat (D3 2 1 1) [3; 4]) = ORet (Mat (D3 2 1 1) [9; 16]) tt /\
  compound_mat (fun x y => Ok (x + y)) a (Mat (D3 2 1 1) [3; 4]) = ORet (Mat (D3 2 1 1) [12; 20]) tt.
Proof.
  eexists. split; [reflexivity|]. split; [|split; reflexivity]. split; [reflexivity|].
  unfold inb. cbn [dx dy dz]. intros x y z (A & B & C).
  assert (z = 0) by lia. assert (y = 0) by lia. subst. assert (x = 0 \/ x = 1) as [->| ->] by lia; reflexivity.
Qed.

(** Missing in C11: [M = transpose(M)] of a square matrix loses elements, and [M = M.subMatView(...)] reads the
    storage with the new dimensions. *)
Theorem C11_transpose_refuted : exists (m0 m1 : mat Z) f,
  consistent m0 /\ fits (mdim m0) /\
  is_lz (mk_transpose Ref (l_ref (fun m => m)) m0) m0 (mdim m0) f /\
  assign_lz 0 (mk_transpose Ref (l_ref (fun m => m)) m0) m0 = ORet m1 tt /\ ~ is_mat m1 (mdim m0) f.
Proof.
  exists (Mat (D3 2 2 1) [1; 2; 3; 4]), (Mat (D3 2 2 1) [1; 3; 3; 4]), (fun x y _ => 1 + y + 2 * x).
  split; [reflexivity|]. split; [unfold fits, two31; cbn; lia|]. split.
  - split; [reflexivity|]. unfold inb. cbn [dx dy dz mdim]. intros x y z (A & B & C).
    assert (z = 0) by lia. subst z. assert (x = 0 \/ x = 1) as [->| ->] by lia; assert (y = 0 \/ y = 1) as [->| ->] by lia; reflexivity.
  - split; [reflexivity|]. intros (_ & _ & H). specialize (H 0 1 0). cbn in H.
    assert (Some 3 = Some 2) by (apply H; unfold inb; cbn; lia). congruence.
Qed.
Print Assumptions C11_transpose_refuted.

Theorem C11_subview_refuted : exists (m0 : mat Z) v,
  consistent m0 /\ mk_view (mdim m0) (D3 0 1 0) (D3 1 1 1) = Ok v /\
  is_lz (l_view (fun m => m) v) m0 (vdim v) (fun _ _ _ => 3) /\
  assign_lz 0 (l_view (fun m => m) v) m0 = OUB.
Proof.
  exists (Mat (D3 2 2 1) [1; 2; 3; 4]), (View (D3 0 1 0) (D3 1 1 1)).
  split; [reflexivity|]. split; [reflexivity|]. split; [|reflexivity].
  split; [reflexivity|]. unfold inb. cbn [dx dy dz vdim]. intros x y z (A & B & C).
  assert (x = 0) by lia. assert (y = 0) by lia. assert (z = 0) by lia. subst. reflexivity.
Qed.
Print Assumptions C11_subview_refuted.

(** ** C12 *)
(** Copying is right when the destination does not start after the source in storage order, or when the regions
    do not overlap. *)
Theorem C12_view_copy_partial : forall T (m0 : mat T) d f v w,
  fits d -> is_mat m0 d f -> region_in v d -> region_in w d -> vdim w = vdim v ->
  start_pos v d <= start_pos w d \/ disjoint_views v w ->
  exists m1, view_assign v (l_view (fun m => m) w) m0 = ORet m1 tt /\
    is_mat m1 d (overlay f v (fun x y z => f (dx (vstart w) + x) (dy (vstart w) + y) (dz (vstart w) + z))).
Proof. exact view_copy. Qed.
Print Assumptions C12_view_copy_partial.

Example C12_ex :
  let m := Mat (D3 4 1 1) [1; 2; 3; 4] in
  let v := View (D3 0 0 0) (D3 3 1 1) in let w := View (D3 1 0 0) (D3 3 1 1) in
  region_in v (mdim m) /\ region_in w (mdim m) /\ start_pos v (mdim m) <= start_pos w (mdim m) /\
  view_assign v (l_view (fun m => m) w) m = ORet (Mat (D3 4 1 1) [2; 3; 4; 4]) tt.
Proof. unfold region_in, start_pos, lin. cbn. repeat split; lia || reflexivity. Qed.

(** Missing in C12: if the destination starts inside the source, elements are duplicated. *)
Theorem C12_overlap_refuted : exists (m0 m1 : mat Z) v w,
  consistent m0 /\ region_in v (mdim m0) /\ region_in w (mdim m0) /\ vdim w = vdim v /\
  vread m0 w (D3 1 0 0) = Ok 2 /\
  view_assign v (l_view (fun m => m) w) m0 = ORet m1 tt /\ vread m1 v (D3 1 0 0) = Ok 1.
Proof.
  exists (Mat (D3 3 1 1) [1; 2; 3]), (Mat (D3 3 1 1) [1; 1; 1]), (View (D3 1 0 0) (D3 2 1 1)), (View (D3 0 0 0) (D3 2 1 1)).
  unfold region_in, consistent, vol. cbn. repeat split; lia || reflexivity.
Qed.
Print Assumptions C12_overlap_refuted.

(** ** C13 *)
(** Compound assignment with a scalar is right if the scalar is not an element of the matrix, or is its last
    element. *)
Theorem C13_scalar_partial : forall T (h : T -> T -> res T) (c : mat T -> res T) (v : T) (m0 : mat T) d f r,
  fits d -> iterable d -> is_mat m0 d f ->
  (forall x y z, inb d x y z -> h (f x y z) v = Ok (r x y z)) ->
  (forall m, mdim m = d -> consistent m -> cell m (vol d - 1) = cell m0 (vol d - 1) -> c m = Ok v) ->
  exists m1, compound_scalar h c m0 = ORet m1 tt /\ is_mat m1 d r.
Proof. exact compound_scalar_ok. Qed.
Print Assumptions C13_scalar_partial.

Example C13_ex :
  compound_scalar (fun x y => Ok (x * y)) (fun _ => Ok 2) (Mat (D3 2 2 1) [2; 3; 4; 5]) = ORet (Mat (D3 2 2 1) [4; 6; 8; 10]) tt /\
  compound_scalar (fun x y => Ok (x * y)) (fun m => mread m (D3 1 1 0)) (Mat (D3 2 2 1) [2; 3; 4; 5]) =
    ORet (Mat (D3 2 2 1) [10; 15; 20; 25]) tt /\ iterable (D3 2 2 1).
Proof. repeat split; try reflexivity. left. cbn. lia. Qed.

(** Missing in C13: with a reference to an earlier element the changed value is used for the rest. *)
Theorem C13_alias_refuted : exists (m0 m1 : mat Z) i v,
  consistent m0 /\ mread m0 i = Ok v /\
  compound_scalar (fun x y => Ok (x * y)) (fun m => mread m i) m0 = ORet m1 tt /\
  exists j w, mread m0 j = Ok w /\ mread m1 j <> Ok (w * v).
Proof.
  exists (Mat (D3 2 1 1) [2; 3]), (Mat (D3 2 1 1) [4; 12]), (D3 0 0 0), 2.
  repeat split; try reflexivity. exists (D3 1 0 0), 3. split; [reflexivity|]. cbn. discriminate.
Qed.
Print Assumptions C13_alias_refuted.
