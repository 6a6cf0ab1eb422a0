(** Proofs about the direct accessors (C100); the statements are repeated in Props_Access.v. *)
From Coq Require Import ZArith List Bool Lia Psatz.
From Verif Require Import Base Dim Matrix View Num Expr Spec Iter MatFacts MatThms ViewThms.
Import ListNotations.
Local Open Scope Z_scope.

Lemma lin_small : forall d x y z, fits d -> inb d x y z -> 0 <= lin d x y z < vol d /\ vol d < two31.
Proof. intros d x y z F I. split; [apply lin_range; exact I|]. apply (fits_vol d F). Qed.

Lemma size_exact : forall d, fits d -> dim_size d = vol d.
Proof. intros d F. pose proof (fits_vol d F) as [V _]. apply u64_id. unfold vol, two31, two64 in *. lia. Qed.
Lemma flat_lin : forall d x y z, fits d -> inb d x y z -> dim_flat d (D3 x y z) = lin d x y z.
Proof.
  intros d x y z F I. pose proof (lin_small d x y z F I) as L. unfold dim_flat. cbn [dx dy dz].
  replace (x + y * dx d + z * (dx d * dy d)) with (lin d x y z) by (unfold lin; ring). apply u64_id. unfold two31, two64 in *. lia.
Qed.
Lemma flat_exact : forall d x y z, fits d -> inb d x y z -> 0 <= dim_flat d (D3 x y z) < dim_size d /\
  forall T (m : mat T), mdim m = d -> mread m (D3 x y z) = mread_flat m (dim_flat d (D3 x y z)).
Proof.
  intros d x y z F I. rewrite size_exact, flat_lin by assumption. split; [apply lin_range; exact I|]. intros T m <-. apply mread_lin; assumption.
Qed.
Lemma dim_exact : forall T (m : mat T), fits (mdim m) -> dim_of m 0 = Ok (dx (mdim m)) /\ dim_of m 1 = Ok (dy (mdim m)) /\ dim_of m 2 = Ok (dz (mdim m)).
Proof.
  intros T m F. pose proof (fits_dims _ F) as (A & B & C). unfold dim_of. cbn [Z.eqb Pos.eqb]. unfold u32, two31 in *. rewrite !Z.mod_small by (unfold two32; lia). auto.
Qed.

(** Bounds of the partial sums *)
Lemma part_bounds : forall d x y z, fits d -> 0 <= x < dx d -> 0 <= y < dy d -> 0 <= z <= dz d ->
  0 <= z * dx d < two31 /\ 0 <= z * dx d * dy d < two31 /\ 0 <= y * dx d < two31 /\ x + y * dx d < dx d * dy d.
Proof.
  intros d x y z (F1 & F2 & F3 & F4) Hx Hy Hz. rewrite (Z.max_r 1 (dx d)), (Z.max_r 1 (dy d)) in F4 by lia.
  assert (A : z * (dx d * dy d) <= Z.max 1 (dz d) * (dx d * dy d)) by (apply Z.mul_le_mono_nonneg_r; nia).
  assert (B : dx d * dy d * 1 <= dx d * dy d * Z.max 1 (dz d)) by (apply Z.mul_le_mono_nonneg_l; nia).
  assert (C : y * dx d + dx d <= dx d * dy d) by nia.
  assert (D : z * dx d * 1 <= z * dx d * dy d) by (apply Z.mul_le_mono_nonneg_l; nia). nia.
Qed.
Lemma scalar_lin : forall d x y z, fits d -> inb d x y z -> it_scalar d (D3 x y z) = Ok (lin d x y z).
Proof.
  intros d x y z F I. pose proof (lin_small d x y z F I) as [L1 L2]. destruct I as (Hx & Hy & Hz).
  destruct (part_bounds d x y z F Hx Hy ltac:(lia)) as (A & B & C & D).
  unfold it_scalar. cbn [dx dy dz]. unfold two31 in *. unfold lin in *.
  rewrite i32_ok by (unfold two31; lia). cbn [rbind]. rewrite i32_ok by (unfold two31; lia). cbn [rbind]. rewrite i32_ok by (unfold two31; lia). cbn [rbind]. rewrite i32_ok by (unfold two31; lia). cbn [rbind]. rewrite i32_ok by (unfold two31; lia). f_equal. ring.
Qed.
Lemma scalar_end : forall d, fits d -> it_scalar d (it_end d) = Ok (vol d).
Proof.
  intros d F. pose proof (fits_vol d F) as [V1 V2]. pose proof (fits_dims d F) as (A & B & C). destruct F as (F1 & F2 & F3 & F4).
  assert (D : 0 <= dz d * dx d < two31).
  { split; [nia|]. assert (dz d * dx d <= Z.max 1 (dx d) * Z.max 1 (dz d)) by (rewrite Z.mul_comm; apply Z.mul_le_mono_nonneg; lia). nia. }
  unfold it_scalar, it_end. cbn [dx dy dz]. unfold vol, two31 in *.
  rewrite i32_ok by (unfold two31; lia). cbn [rbind]. rewrite i32_ok by (unfold two31; lia). cbn [rbind]. rewrite i32_ok by (unfold two31; lia). cbn [rbind]. rewrite i32_ok by (unfold two31; lia). cbn [rbind]. rewrite i32_ok by (unfold two31; lia). f_equal. ring.
Qed.
(** The next index has the next position; the one after the last is end(). *)
Lemma scalar_next : forall d x y z, fits d -> inb d x y z -> it_scalar d (incr d (D3 x y z)) = Ok (lin d x y z + 1) /\
  (inb d (dx (incr d (D3 x y z))) (dy (incr d (D3 x y z))) (dz (incr d (D3 x y z))) \/ incr d (D3 x y z) = it_end d).
Proof.
  intros d x y z F I. pose proof I as (Hx & Hy & Hz). unfold incr, it_end. cbn [dx dy dz].
  destruct (Z.ltb_spec (x + 1) (dx d)); [|destruct (Z.ltb_spec (y + 1) (dy d))].
  - split; [|left; unfold inb; cbn [dx dy dz]; lia]. rewrite scalar_lin; [f_equal; unfold lin; ring|exact F|unfold inb; lia].
  - split; [|left; unfold inb; cbn [dx dy dz]; lia]. rewrite scalar_lin; [f_equal; unfold lin; nia|exact F|unfold inb; lia].
  - assert (Q : lin d x y z + 1 = dx d * dy d * (z + 1)) by (unfold lin; replace x with (dx d - 1) by lia; replace y with (dy d - 1) by lia; ring). rewrite Q.
    destruct (Z.lt_ge_cases (z + 1) (dz d)) as [K|K].
    + split; [|left; unfold inb; cbn [dx dy dz]; lia]. rewrite scalar_lin; [f_equal; unfold lin; ring|exact F|unfold inb; lia].
    + assert (EZ : z + 1 = dz d) by lia. rewrite EZ. split; [|right; reflexivity]. apply (scalar_end d F).
Qed.
(** Difference of two iterators *)
Lemma diff_lin : forall d x y z x' y' z', fits d -> inb d x y z -> inb d x' y' z' ->
  it_diff d (D3 x y z) (D3 x' y' z') = Ok (lin d x y z - lin d x' y' z').
Proof.
  intros d x y z x' y' z' F I I'. pose proof (lin_small d x y z F I) as [L1 L2]. pose proof (lin_small d x' y' z' F I') as [L1' _]. destruct I as (Hx & Hy & Hz), I' as (Hx' & Hy' & Hz').
  destruct (part_bounds d x y z F Hx Hy ltac:(lia)) as (A & B & C & D). destruct (part_bounds d x' y' z' F Hx' Hy' ltac:(lia)) as (A' & B' & C' & D').
  pose proof (fits_dims d F) as (P1 & P2 & P3). pose proof (fits_vol d F) as [_ V2].
  unfold it_diff. rewrite dim_sub_ok by (cbn [dx dy dz]; unfold two31 in *; lia). cbn [rbind dx dy dz]. unfold two31 in *. unfold lin in *.
  assert (E1 : (z - z') * dx d = z * dx d - z' * dx d) by ring. assert (E2 : (z * dx d - z' * dx d) * dy d = z * dx d * dy d - z' * dx d * dy d) by ring.
  assert (E3 : (y - y') * dx d = y * dx d - y' * dx d) by ring.
  rewrite E1, i32_ok by (unfold two31; lia). cbn [rbind]. rewrite E2, i32_ok by (unfold two31; lia). cbn [rbind]. rewrite E3, i32_ok by (unfold two31; lia). cbn [rbind].
  rewrite i32_ok by (unfold two31; lia). cbn [rbind]. rewrite i32_ok by (unfold two31; lia). f_equal. ring.
Qed.

(** Views *)
Lemma vread_u_exact : forall T (m : mat T) v x y z, fits (mdim m) -> region_in v (mdim m) -> inb (vdim v) x y z -> vread_u m v x y z = vread m v (D3 x y z).
Proof.
  intros T m v x y z F R I. pose proof (fits_dims _ F) as (A & B & C). unfold region_in, inb in *. unfold vread_u, vread. rewrite dim_add_ok by (cbn [dx dy dz]; unfold two31 in *; lia).
  cbn [rbind dx dy dz]. unfold u32, two31 in *. rewrite !Z.mod_small by (unfold two32; lia). reflexivity.
Qed.
Lemma sub_mat_copy_exact : forall T (t0 : T) (m : mat T) f pd s d, is_mat m pd f -> fits pd -> nonneg s -> nonneg d -> below31 s d ->
  (region_in (View s d) pd -> pos d -> exists m', sub_mat_copy t0 m s d = Ok m' /\ is_mat m' d (fun x y z => f (dx s + x) (dy s + y) (dz s + z))) /\
  (~ region_in (View s d) pd -> sub_mat_copy t0 m s d = Throw MatrixSize).
Proof.
  intros T t0 m f pd s d H F Ns Nd B. unfold sub_mat_copy. rewrite (proj1 H). destruct (mk_view_exact pd s d F Ns Nd B) as [V1 V2]. split.
  - intros R P. rewrite (V1 R). cbn [rbind]. apply (mat_of_lz_ok t0 (fun x => x) (l_view (fun s => s) (View s d)) m d (fun x y z => f (dx s + x) (dy s + y) (dz s + z))).
    + apply (region_fits (View s d) pd F R).
    + apply pos_iterable. exact P.
    + apply (is_lz_view (fun s => s) m pd f (View s d) H F R).
  - intros R. rewrite (V2 R). reflexivity.
Qed.
(** Without the limit of int *)
Lemma size_wide : forall d, nonneg d -> vol d < two64 -> dim_size d = vol d.
Proof. intros d (A & B & C) V. apply u64_id. unfold vol in *. nia. Qed.
Lemma flat_wide : forall d x y z, nonneg d -> vol d < two64 -> inb d x y z -> dim_flat d (D3 x y z) = lin d x y z /\ 0 <= lin d x y z < dim_size d.
Proof.
  intros d x y z N V I. rewrite size_wide by assumption. pose proof (lin_range d x y z I) as L. split; [|exact L]. unfold dim_flat. cbn [dx dy dz].
  replace (x + y * dx d + z * (dx d * dy d)) with (lin d x y z) by (unfold lin; ring). apply u64_id. lia.
Qed.
Lemma flat_inj : forall d x y z x' y' z', nonneg d -> vol d < two64 -> inb d x y z -> inb d x' y' z' ->
  dim_flat d (D3 x y z) = dim_flat d (D3 x' y' z') -> D3 x y z = D3 x' y' z'.
Proof.
  intros d x y z x' y' z' N V I I' E. rewrite (proj1 (flat_wide d x y z N V I)), (proj1 (flat_wide d x' y' z' N V I')) in E.
  destruct (lin_inj d x y z x' y' z' I I' E) as (-> & -> & ->). reflexivity.
Qed.
Lemma scalar_begin : forall d, fits d -> it_scalar d it_begin = Ok 0.
Proof. intros d F. reflexivity. Qed.
