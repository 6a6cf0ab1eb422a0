(** Facts used for all layers: compound assignment to views, slices, integer conversions. *)
From Coq Require Import ZArith List Bool Lia.
From Verif Require Import Base Dim Matrix View Num Expr Spec Iter MatFacts MatThms ViewThms ExprThms Sums Batch.
Import ListNotations.
Local Open Scope Z_scope.

Lemma s32_id : forall z, - two31 <= z < two31 -> s32 z = z.
Proof. intros z H. unfold s32. unfold two31, two32 in *. rewrite Z.mod_small; lia. Qed.

Lemma u64_id31 : forall z, 0 <= z < two31 -> u64 z = z.
Proof. intros. apply u64_id. unfold two31, two64 in *. lia. Qed.
Lemma u32_id31 : forall z, 0 <= z < two31 -> u32 z = z.
Proof. intros. apply u32_id. unfold two31, two32 in *. lia. Qed.

(** The cell a view loop is about to change still holds its original value. *)
Lemma view_cell_fresh : forall {T} (m0 m : mat T) d f g v k x y z,
  fits d -> is_mat m0 d f -> region_in v d -> inb (vdim v) x y z -> k = lin (vdim v) x y z ->
  written m0 (vpos v d) g k m ->
  vread m v (D3 x y z) = Ok (f (dx (vstart v) + x) (dy (vstart v) + y) (dz (vstart v) + z)).
Proof.
  intros T m0 m d f g v k x y z F (D0 & L0 & C0) R I Ek (A & B & C & D).
  pose proof (region_inb v d x y z R I) as I'. destruct (fits_dims d F) as (F1 & F2 & F3).
  destruct I' as (I1 & I2 & I3).
  unfold vread. rewrite dim_add_ok by (cbn [dx dy dz]; lia). cbn [rbind dx dy dz].
  unfold mread. rewrite A, D0. rewrite get_index_lin; [ | exact F | repeat split; lia ].
  apply vget_cell. rewrite D.
  - apply C0. repeat split; lia.
  - intros j Hj E. pose proof (lin_range (vdim v) x y z I) as LR.
    assert (j = k).
    { apply (vpos_inj v d j k F R); [ lia | lia | ]. rewrite <- E, Ek. rewrite vpos_lin by exact I. reflexivity. }
    lia.
Qed.

Lemma view_compound_ok : forall {T} (h : T -> T -> res T) (m0 : mat T) d f v (a : lz (mat T) T) g r,
  fits d -> is_mat m0 d f -> region_in v d -> iterable (vdim v) -> ldim a m0 = vdim v ->
  (forall m x y z, inb (vdim v) x y z -> lget a m (D3 x y z) = Ok (g x y z)) ->
  (forall x y z, inb (vdim v) x y z ->
     h (f (dx (vstart v) + x) (dy (vstart v) + y) (dz (vstart v) + z)) (g x y z) = Ok (r x y z)) ->
  exists m1, view_compound_mat h v a m0 = ORet m1 tt /\ is_mat m1 d (overlay f v r).
Proof.
  intros T h m0 d f v a g r F H R IT Ed Hg Hh.
  unfold view_compound_mat, bind at 1, mget at 1. unfold bind at 1. unfold check_size. rewrite Ed, dim_eqb_refl. cbn [lift].
  destruct (view_write_loop m0 d f v r
     (fun k => (fun i => bind mget (fun s => bind (lift (lget a s i)) (fun b => bind (lift (vread s v i))
          (fun x => bind (lift (h x b)) (fun y => vwrite v i y)))))
        (idx_of (dx (vdim v)) (dy (vdim v)) k)) F H R) as (m1 & E1 & I1).
  - intros k m x y z I Ek Ei W. cbn beta. rewrite Ei. unfold bind, mget.
    rewrite (Hg m x y z I). cbn [lift].
    rewrite (view_cell_fresh m0 m d f _ v k x y z F H R I Ek W). cbn [lift]. rewrite Hh by exact I. reflexivity.
  - exists m1. split; [|exact I1]. rewrite it_loop_iter by assumption. exact E1.
Qed.

Lemma view_compound_scalar_ok : forall {T} (h : T -> T -> res T) (m0 : mat T) d f v (c : T) r,
  fits d -> is_mat m0 d f -> region_in v d -> iterable (vdim v) ->
  (forall x y z, inb (vdim v) x y z ->
     h (f (dx (vstart v) + x) (dy (vstart v) + y) (dz (vstart v) + z)) c = Ok (r x y z)) ->
  exists m1, view_compound_scalar h v c m0 = ORet m1 tt /\ is_mat m1 d (overlay f v r).
Proof.
  intros T h m0 d f v c r F H R IT Hh.
  unfold view_compound_scalar.
  destruct (view_write_loop m0 d f v r
     (fun k => (fun i => bind mget (fun s => bind (lift (vread s v i))
          (fun x => bind (lift (h x c)) (fun y => vwrite v i y))))
        (idx_of (dx (vdim v)) (dy (vdim v)) k)) F H R) as (m1 & E1 & I1).
  - intros k m x y z I Ek Ei W. cbn beta. rewrite Ei. unfold bind, mget.
    rewrite (view_cell_fresh m0 m d f _ v k x y z F H R I Ek W). cbn [lift]. rewrite Hh by exact I. reflexivity.
  - exists m1. split; [|exact I1]. rewrite it_loop_iter by assumption. exact E1.
Qed.

(** Slices *)
Definition sl (d : dim3) (k n : Z) : view := View (D3 0 0 k) (D3 (dx d) (dy d) n).

Lemma sl_region : forall d k n, fits d -> 0 <= k -> 0 <= n -> k + n <= dz d -> region_in (sl d k n) d.
Proof. intros d k n F H1 H2 H3. destruct (fits_dims d F) as (F1 & F2 & F3). unfold region_in, sl. cbn. lia. Qed.

Lemma slices_ok : forall d k n, fits d -> 0 <= k -> 0 <= n -> k + n <= dz d -> slices d k n = Ok (sl d k n).
Proof.
  intros d k n F H1 H2 H3. destruct (fits_dims d F) as (F1 & F2 & F3).
  apply slices_exact; auto. lia.
Qed.
Lemma slice_ok : forall d k, fits d -> 0 <= k < dz d -> slice d k = Ok (sl d k 1).
Proof. intros. apply slices_ok; auto; lia. Qed.
Lemma view_slice_ok : forall d k n j, fits d -> 0 <= k -> k + n <= dz d -> 0 <= j < n ->
  view_slice d (sl d k n) j = Ok (sl d (k + j) 1).
Proof.
  intros d k n j F H1 H2 H3. destruct (fits_dims d F) as (F1 & F2 & F3).
  unfold view_slice, view_slices. cbn [vdim sl dx dy].
  destruct (mk_subview_exact d (sl d k n) (D3 0 0 j) (D3 (dx d) (dy d) 1)) as [A _]; auto.
  - apply sl_region; auto; lia.
  - unfold nonneg; cbn; lia.
  - unfold nonneg; cbn; lia.
  - unfold below31; cbn; lia.
  - unfold below31; cbn; lia.
  - destruct A as (w & E & D & R & S).
    + unfold region_in; cbn; lia.
    + rewrite E. f_equal. destruct w as [s e]. cbn in *. subst. reflexivity.
Qed.

Lemma overlay_sl : forall {T} (f g : Z -> Z -> Z -> T) d k x y z, inb d x y z ->
  overlay f (sl d k 1) g x y z = if z =? k then g x y 0 else f x y z.
Proof.
  intros T f g d k x y z (I1 & I2 & I3).
  destruct (Z.eqb_spec z k) as [->|NE].
  - rewrite overlay_in.
    + cbn [sl vstart dx dy dz]. f_equal; lia.
    + unfold in_region, sl, inb; cbn; lia.
  - apply overlay_out. unfold in_region, sl, inb; cbn; lia.
Qed.

Lemma is_lz_sl : forall {S T} (m : mat T) (s : S) d f k, is_mat m d f -> fits d -> 0 <= k < dz d ->
  is_lz (l_view (fun _ : S => m) (sl d k 1)) s (D3 (dx d) (dy d) 1) (fun x y _ => f x y k).
Proof.
  intros S T m s d f k H F Hk.
  eapply is_lz_ext.
  - apply (is_lz_view (fun _ : S => m) s d f (sl d k 1)); auto. apply sl_region; auto; lia.
  - intros x y z (I1 & I2 & I3). cbn [sl vdim dx dy dz vstart] in *. f_equal; lia.
Qed.

Lemma iterable_slice : forall d k, pos d -> iterable (vdim (sl d k 1)).
Proof. intros d k P. left. cbn. unfold pos in P. lia. Qed.

Lemma lift_ok : forall {S A} (a : A) (s : S), lift (Ok a) s = ORet s a.
Proof. reflexivity. Qed.

(** A matrix of dimensions [d], for the elements of which the storage is of no interest. *)
Lemma is_mat_dim : forall {T} (m : mat T) d f, is_mat m d f -> mdim m = d.
Proof. intros T m d f H. exact (proj1 H). Qed.
Lemma is_mat_consistent : forall {T} (m : mat T) d f, is_mat m d f -> consistent m.
Proof. intros T m d f (A & B & C). unfold consistent. congruence. Qed.

(** Reading the [k]-th element in storage order. *)
Lemma is_mat_flat : forall {T} (m : mat T) d f x y z, is_mat m d f -> inb d x y z ->
  mread_flat m (lin d x y z) = Ok (f x y z).
Proof. intros T m d f x y z H I. unfold mread_flat. apply vget_cell. apply H. exact I. Qed.

Lemma vget_repeat : forall {A} (a : A) n k, 0 <= k < Z.of_nat n -> vget (repeat a n) k = Ok a.
Proof. intros A a n k H. apply vget_nth; [lia|]. apply nth_error_repeat. lia. Qed.

(** Flattened columns. *)
Lemma fits_column : forall d, fits d -> fits (D3 (vol d) 1 1).
Proof. intros d F. destruct (fits_vol d F) as [V _]. unfold fits. cbn. split; [lia|]. repeat split; try lia.
  destruct (Z.max_spec 1 (vol d)) as [[? ->]|[? ->]]; unfold two31 in *; lia. Qed.
