(** Facts about matrices, views and lazy reads (Matrix.v, View.v). *)
From Coq Require Import ZArith List Bool Lia Psatz.
From Verif Require Import Base Dim Matrix View Spec Iter.
Import ListNotations.
Local Open Scope Z_scope.

(** Dimensions over which an iterator loop visits exactly the elements. *)
Definition iterable (d : dim3) : Prop := (1 <= dx d /\ 1 <= dy d /\ 0 <= dz d) \/ dz d = 0.

Lemma pos_iterable : forall d, pos d -> iterable d.
Proof. intros d (A & B & C). left. lia. Qed.

Lemma it_loop_iter : forall {S} (body : Z -> dim3 -> M S unit) d s, iterable d ->
  it_loop d body s = mfor (vol d) (fun k => body k (idx_of (dx d) (dy d) k)) s.
Proof.
  intros S body d s [(A & B & C)|E].
  - apply it_loop_pos; assumption.
  - rewrite it_loop_depth0 by assumption. rewrite mfor_neg; [reflexivity|]. unfold vol. rewrite E. lia.
Qed.

Lemma position_case : forall d k, fits d -> 0 <= k < vol d ->
  exists x y z, inb d x y z /\ k = lin d x y z /\ idx_of (dx d) (dy d) k = D3 x y z.
Proof.
  intros d k (H1 & H2 & H3 & _) Hk. destruct d as [X Y Z0]. unfold vol in Hk. cbn [dx dy dz] in *.
  assert (HX : 1 <= X) by (destruct (Z.eq_dec X 0); [subst; lia|lia]).
  assert (HY : 1 <= Y) by (destruct (Z.eq_dec Y 0); [subst; lia|lia]).
  destruct (idx_of_inb X Y Z0 k HX HY Hk) as [A B].
  exists (dx (idx_of X Y k)), (dy (idx_of X Y k)), (dz (idx_of X Y k)).
  split; [exact A|]. split; [symmetry; exact B|]. destruct (idx_of X Y k); reflexivity.
Qed.

Lemma inb_pos : forall d x y z, inb d x y z -> pos d.
Proof. intros d x y z (A & B & C). unfold pos. lia. Qed.

(* ------------------------------------------------------------------ reading and writing *)

Lemma is_mat_read : forall {T} (m : mat T) d f x y z,
  is_mat m d f -> fits d -> inb d x y z -> mread m (D3 x y z) = Ok (f x y z).
Proof.
  intros T m d f x y z (E & L & H) F I. unfold mread. rewrite E, get_index_lin by assumption.
  apply vget_cell. unfold lin. apply H. exact I.
Qed.

Lemma is_mat_lz : forall {S T} (m : mat T) d f (s : S), is_mat m d f -> fits d -> is_lz (l_val m) s d f.
Proof.
  intros S T m d f s H F. split; [exact (proj1 H)|].
  intros. cbn. apply is_mat_read with d; assumption.
Qed.

Lemma is_mat_ref : forall {S T} (p : S -> mat T) d f (s : S), is_mat (p s) d f -> fits d -> is_lz (l_ref p) s d f.
Proof.
  intros S T p d f s H F. split; [exact (proj1 H)|].
  intros. cbn. apply is_mat_read with d; assumption.
Qed.

Lemma is_mat_ext : forall {T} (m : mat T) d f g,
  is_mat m d f -> (forall x y z, inb d x y z -> f x y z = g x y z) -> is_mat m d g.
Proof.
  intros T m d f g (A & B & C) H. split; [exact A|]. split; [exact B|].
  intros. rewrite <- H by assumption. apply C. assumption.
Qed.

Lemma is_lz_ext : forall {S T} (a : lz S T) s d f g,
  is_lz a s d f -> (forall x y z, inb d x y z -> f x y z = g x y z) -> is_lz a s d g.
Proof.
  intros S T a s d f g (A & C) H. split; [exact A|].
  intros. rewrite <- H by assumption. apply C. assumption.
Qed.

Lemma is_mat_unique : forall {T} (m m' : mat T) d f,
  fits d -> is_mat m d f -> is_mat m' d f -> m = m'.
Proof.
  intros T [d1 l1] [d2 l2] d f F (A & B & C) (A' & B' & C'). cbn [mdim mvals] in *. subst d1 d2. f_equal.
  apply nth_error_ext_len; [lia|].
  intros k Hk. destruct (position_case d (Z.of_nat k) F) as (x & y & z & I & E & _); [lia|].
  specialize (C x y z I). specialize (C' x y z I). unfold lin in E. rewrite <- E in *.
  unfold cell in *. cbn [mvals] in *.
  replace (Z.of_nat k <? 0) with false in * by lia. rewrite Nat2Z.id in *. congruence.
Qed.

Lemma is_mat_det : forall {T} (m : mat T) d f g x y z,
  is_mat m d f -> is_mat m d g -> inb d x y z -> f x y z = g x y z.
Proof.
  intros T m d f g x y z (_ & _ & C) (_ & _ & C') I.
  specialize (C x y z I). specialize (C' x y z I). congruence.
Qed.

Lemma is_mat_cells : forall {T} (m : mat T) d f g,
  mdim m = d -> Z.of_nat (length (mvals m)) = vol d ->
  (forall k, 0 <= k < vol d -> cell m k = Some (g k)) ->
  (forall x y z, inb d x y z -> g (lin d x y z) = f x y z) -> is_mat m d f.
Proof.
  intros T m d f g A B C D. split; [exact A|]. split; [exact B|].
  intros x y z I. rewrite <- D by assumption. apply C. apply lin_range. assumption.
Qed.

(** [f] changed at one point. *)
Definition fupd {T} (f : Z -> Z -> Z -> T) (x y z : Z) (v : T) : Z -> Z -> Z -> T :=
  fun a b c => if (a =? x) && (b =? y) && (c =? z) then v else f a b c.

Lemma fupd_eq : forall {T} (f : Z -> Z -> Z -> T) x y z v, fupd f x y z v x y z = v.
Proof. intros. unfold fupd. rewrite !Z.eqb_refl. reflexivity. Qed.

Lemma fupd_neq : forall {T} (f : Z -> Z -> Z -> T) x y z v a b c,
  (a, b, c) <> (x, y, z) -> fupd f x y z v a b c = f a b c.
Proof.
  intros. unfold fupd. destruct ((a =? x) && (b =? y) && (c =? z)) eqn:E; [|reflexivity].
  rewrite !andb_true_iff, !Z.eqb_eq in E. destruct E as ((-> & ->) & ->). congruence.
Qed.

Lemma mwrite_put : forall {T} (m : mat T) x y z v, fits (mdim m) -> inb (mdim m) x y z -> consistent m ->
  mwrite (D3 x y z) v m = ORet (put m (lin (mdim m) x y z) v) tt.
Proof.
  intros T m x y z v F I C. unfold mwrite. rewrite get_index_lin by assumption.
  pose proof (lin_range _ _ _ _ I). unfold consistent in C. unfold vset.
  replace ((0 <=? lin (mdim m) x y z) && (lin (mdim m) x y z <? Z.of_nat (length (mvals m)))) with true;
    [reflexivity|]. symmetry. apply andb_true_iff. split; lia.
Qed.

Lemma is_mat_put : forall {T} (m : mat T) d f x y z v,
  is_mat m d f -> inb d x y z -> is_mat (put m (lin d x y z) v) d (fupd f x y z v).
Proof.
  intros T m d f x y z v (A & B & C) I. split; [exact A|]. split; [rewrite put_len; exact B|].
  pose proof (lin_range _ _ _ _ I). intros a b c I'.
  change (a + dx d * b + dx d * dy d * c) with (lin d a b c).
  destruct (Z.eq_dec (lin d x y z) (lin d a b c)) as [E|E].
  - destruct (lin_inj d x y z a b c I I' E) as (-> & -> & ->).
    rewrite fupd_eq. rewrite cell_put_eq; [reflexivity|lia].
  - rewrite cell_put_neq by lia. rewrite fupd_neq.
    + apply C. exact I'.
    + intro Q. injection Q as -> -> ->. congruence.
Qed.

Lemma mwrite_is : forall {T} (m : mat T) d f x y z v,
  is_mat m d f -> fits d -> inb d x y z ->
  exists m', mwrite (D3 x y z) v m = ORet m' tt /\ is_mat m' d (fupd f x y z v).
Proof.
  intros T m d f x y z v H F I. exists (put m (lin d x y z) v). split.
  - destruct H as (A & B & C). subst d. apply mwrite_put; assumption.
  - apply is_mat_put; assumption.
Qed.

(* ------------------------------------------------------------------ write loops *)

(** State of a loop that has written values [g 0 .. g (k-1)] to cells [p 0 .. p (k-1)]. *)
Definition written {T} (m0 : mat T) (p : Z -> Z) (g : Z -> T) (k : Z) (m : mat T) : Prop :=
  mdim m = mdim m0 /\ length (mvals m) = length (mvals m0) /\
  (forall j, 0 <= j < k -> cell m (p j) = Some (g j)) /\
  (forall c, (forall j, 0 <= j < k -> c <> p j) -> cell m c = cell m0 c).

Lemma write_loop : forall {T} n (p : Z -> Z) (g : Z -> T) body (m0 : mat T),
  0 <= n ->
  (forall k, 0 <= k < n -> 0 <= p k < Z.of_nat (length (mvals m0))) ->
  (forall j k, 0 <= j < n -> 0 <= k < n -> p j = p k -> j = k) ->
  (forall k m, 0 <= k < n -> written m0 p g k m -> body k m = ORet (put m (p k) (g k)) tt) ->
  exists m', mfor n body m0 = ORet m' tt /\ written m0 p g n m'.
Proof.
  intros T n p g body m0 Hn Hr Hi Hb.
  apply (mfor_inv (written m0 p g)); [exact Hn| |].
  - intros k m Hk W. exists (put m (p k) (g k)). split; [apply Hb; assumption|].
    destruct W as (A & B & C & D). pose proof (Hr k Hk). repeat split.
    + rewrite put_dim. exact A.
    + rewrite put_len. exact B.
    + intros j Hj. destruct (Z.eq_dec j k) as [->|NE].
      * apply cell_put_eq. lia.
      * rewrite cell_put_neq; [apply C; lia|lia|]. intro E. apply NE. symmetry. apply Hi; try lia.
    + intros c Hc. rewrite cell_put_neq; [apply D|lia|].
      * intros j Hj. apply Hc. lia.
      * intro E. apply (Hc k); [lia|congruence].
  - repeat split; intros; try lia; reflexivity.
Qed.

(* ------------------------------------------------------------------ construction *)

Lemma mat_fill_ok : forall {T} d (v : T), fits d ->
  exists m, mat_fill d v = Ok m /\ is_mat m d (fun _ _ _ => v).
Proof.
  intros T d v F. unfold mat_fill. rewrite int_prod_fits by assumption. cbn.
  pose proof (fits_vol d F) as [V _]. destruct (vol d <? 0) eqn:E; [lia|].
  eexists. split; [reflexivity|]. split; [reflexivity|]. split.
  - cbn. rewrite repeat_length. lia.
  - intros x y z I. pose proof (lin_range d x y z I) as R. unfold lin in R. unfold cell. cbn [mvals].
    match goal with |- context [?a <? 0] => destruct (a <? 0) eqn:G; [lia|] end.
    apply nth_error_repeat. lia.
Qed.

Lemma mat_fill_eq : forall {T} d (v : T), fits d -> mat_fill d v = Ok (Mat d (repeat v (Z.to_nat (vol d)))).
Proof.
  intros T d v F. unfold mat_fill. rewrite int_prod_fits by assumption. cbn.
  pose proof (fits_vol d F) as [V _]. destruct (vol d <? 0) eqn:E; [lia|]. reflexivity.
Qed.

Lemma mat_of_lz_ok : forall {S T U} (t0 : U) (cast : T -> U) (a : lz S T) s d f,
  fits d -> iterable d -> is_lz a s d f ->
  exists m, mat_of_lz t0 cast a s = Ok m /\ is_mat m d (fun x y z => cast (f x y z)).
Proof.
  intros S T U t0 cast a s d f F IT (E & H). unfold mat_of_lz. rewrite E.
  destruct (mat_fill_ok d t0 F) as (m0 & E0 & (D0 & L0 & _)). rewrite E0. cbn [rbind].
  pose proof (fits_vol d F) as [V _].
  set (g := fun k => let i := idx_of (dx d) (dy d) k in cast (f (dx i) (dy i) (dz i))).
  destruct (write_loop (vol d) (fun k => k) g
     (fun k => (fun i => bind (lift (lget a s i)) (fun v => mwrite_flat k (cast v))) (idx_of (dx d) (dy d) k)) m0)
    as (m1 & E1 & W); try lia; auto.
  - intros k m Hk (A & B & C & D). cbn beta. unfold bind.
    destruct (position_case d k F Hk) as (x & y & z & I & Ek & Ei).
    rewrite Ei, H by assumption. cbn.
    rewrite mwrite_flat_put by lia. unfold g. rewrite Ei. reflexivity.
  - exists m1. split.
    + rewrite (it_loop_iter _ d m0 IT). rewrite E1. reflexivity.
    + destruct W as (A & B & C & D). apply is_mat_cells with g.
      * congruence.
      * lia.
      * intros k Hk. apply C. exact Hk.
      * intros x y z I. unfold g. destruct d as [X Y Z0]. cbn [dx dy]. rewrite idx_of_lin by assumption. reflexivity.
Qed.

Lemma assign_lz_general : forall {T} (t0 : T) (a : lz (mat T) T) (m0 : mat T) d f,
  fits d -> ldim a m0 = d -> consistent m0 ->
  (* the value read for position k does not depend on what the loop has written so far *)
  (forall m k x y z, inb d x y z -> k = lin d x y z ->
     mdim m = d -> Z.of_nat (length (mvals m)) = vol d ->
     (forall j, k <= j < vol d -> j < vol (mdim m0) -> cell m j = cell m0 j) ->
     (forall x' y' z', inb d x' y' z' -> lin d x' y' z' < k -> cell m (lin d x' y' z') = Some (f x' y' z')) ->
     lget a m (D3 x y z) = Ok (f x y z)) ->
  exists m1, assign_lz t0 a m0 = ORet m1 tt /\ is_mat m1 d f.
Proof.
  intros T t0 a m0 d f F Ed C0 H. unfold assign_lz. rewrite Ed, int_prod_fits by assumption.
  pose proof (fits_vol d F) as [V _]. unfold vec_resize. destruct (vol d <? 0) eqn:EV; [lia|].
  set (l := firstn (Z.to_nat (vol d)) (mvals m0) ++ repeat t0 (Z.to_nat (vol d) - length (mvals m0))).
  set (ms := Mat d l).
  assert (Ll : Z.of_nat (length (mvals ms)) = vol d).
  { cbn. unfold l. rewrite app_length, firstn_length, repeat_length. lia. }
  assert (Hl : forall j, 0 <= j < vol d -> j < vol (mdim m0) -> cell ms j = cell m0 j).
  { intros j Hj Hj0. unfold consistent in C0. unfold cell, ms, l. cbn [mvals].
    destruct (j <? 0); [reflexivity|].
    rewrite nth_error_app1 by (rewrite firstn_length; lia).
    rewrite nth_error_firstn || idtac.
    destruct (Nat.ltb_spec (Z.to_nat j) (Z.to_nat (vol d))); [|lia].
    clear -H0. revert H0. generalize (mvals m0) (Z.to_nat (vol d)) (Z.to_nat j).
    intros l0 n k. revert l0 k. induction n; intros l0 k Hk; [lia|].
    destruct l0, k; cbn; auto. apply IHn. lia. }
  set (g := fun k => let i := idx_of (dx d) (dy d) k in f (dx i) (dy i) (dz i)).
  destruct (write_loop (vol d) (fun k => k) g
     (fun k => (fun i => bind mget (fun s => bind (lift (lget a s i)) (fun v => mwrite_flat k v))) (idx_of (dx d) (dy d) k)) ms)
    as (m1 & E1 & W); try lia; auto.
  - intros k m Hk (A & B & C & D). cbn beta. unfold bind, mget.
    destruct (position_case d k F Hk) as (x & y & z & I & Ek & Ei).
    rewrite Ei. rewrite (H m k x y z I Ek); [cbn| | | |].
    + rewrite mwrite_flat_put by lia. unfold g. rewrite Ei. reflexivity.
    + exact A.
    + lia.
    + intros j Hj Hj0. rewrite D by lia. apply Hl; lia.
    + intros x' y' z' I' Hlt. rewrite C by (pose proof (lin_range d x' y' z' I'); lia).
      unfold g. destruct d as [X Y Z0]. cbn [dx dy]. rewrite idx_of_lin by assumption. reflexivity.
  - exists m1. split.
    + rewrite copy_loop_mfor by assumption. exact E1.
    + destruct W as (A & B & C & D). apply is_mat_cells with g.
      * exact A.
      * lia.
      * intros k Hk. apply C. exact Hk.
      * intros x y z I. unfold g. destruct d as [X Y Z0]. cbn [dx dy]. rewrite idx_of_lin by assumption. reflexivity.
Qed.

(** Assignment from an object that does not read the assigned matrix. *)
Lemma assign_lz_indep : forall {T} (t0 : T) (a : lz (mat T) T) (m0 : mat T) d f,
  fits d -> ldim a m0 = d -> consistent m0 ->
  (forall m x y z, inb d x y z -> lget a m (D3 x y z) = Ok (f x y z)) ->
  exists m1, assign_lz t0 a m0 = ORet m1 tt /\ is_mat m1 d f.
Proof. intros. eapply assign_lz_general; eauto. Qed.

(* ------------------------------------------------------------------ views *)

Lemma dim_add_ok : forall a b,
  - two31 <= dx a + dx b < two31 -> - two31 <= dy a + dy b < two31 -> - two31 <= dz a + dz b < two31 ->
  dim_add a b = Ok (D3 (dx a + dx b) (dy a + dy b) (dz a + dz b)).
Proof. intros. unfold dim_add. rewrite !i32_ok by assumption. reflexivity. Qed.

Lemma dim_sub_ok : forall a b,
  - two31 <= dx a - dx b < two31 -> - two31 <= dy a - dy b < two31 -> - two31 <= dz a - dz b < two31 ->
  dim_sub a b = Ok (D3 (dx a - dx b) (dy a - dy b) (dz a - dz b)).
Proof. intros. unfold dim_sub. rewrite !i32_ok by assumption. reflexivity. Qed.

Lemma exceeds_false : forall e d, exceeds e d = false <-> dx e <= dx d /\ dy e <= dy d /\ dz e <= dz d.
Proof. intros. unfold exceeds. rewrite !orb_false_iff, !Z.ltb_ge. tauto. Qed.

Lemma mk_view_ok : forall pd s d, fits pd ->
  region_in (View s d) pd -> mk_view pd s d = Ok (View s d).
Proof.
  intros pd s d F R. pose proof (fits_dims pd F). unfold region_in in R. cbn [vstart vdim] in R.
  unfold mk_view. rewrite dim_add_ok by lia. cbn [rbind].
  assert (E : exceeds (D3 (dx s + dx d) (dy s + dy d) (dz s + dz d)) pd = false)
    by (apply exceeds_false; cbn; lia).
  rewrite E. reflexivity.
Qed.

Lemma vread_ok : forall {T} (m : mat T) d f v x y z, is_mat m d f -> fits d -> region_in v d -> inb (vdim v) x y z ->
  vread m v (D3 x y z) = Ok (f (dx (vstart v) + x) (dy (vstart v) + y) (dz (vstart v) + z)).
Proof.
  intros T m d f v x y z H F R I. pose proof (fits_dims d F). unfold region_in, inb in *.
  unfold vread. rewrite dim_add_ok by (cbn; lia). cbn [rbind dx dy dz].
  apply is_mat_read with d; try assumption. unfold inb. lia.
Qed.

Lemma is_lz_view : forall {S T} (p : S -> mat T) (s : S) d f v, is_mat (p s) d f -> fits d -> region_in v d ->
  is_lz (l_view p v) s (vdim v) (fun x y z => f (dx (vstart v) + x) (dy (vstart v) + y) (dz (vstart v) + z)).
Proof.
  intros. split; [reflexivity|]. intros. cbn. eapply vread_ok; eauto.
Qed.

Lemma region_fits : forall v d, fits d -> region_in v d -> fits (vdim v).
Proof.
  intros v d (F1 & F2 & F3 & F4) R. unfold region_in in R. unfold fits.
  assert (Z.max 1 (dx (vdim v)) <= Z.max 1 (dx d)) by lia.
  assert (Z.max 1 (dy (vdim v)) <= Z.max 1 (dy d)) by lia.
  assert (Z.max 1 (dz (vdim v)) <= Z.max 1 (dz d)) by lia.
  repeat split; try lia.
  eapply Z.le_lt_trans; [|exact F4].
  apply Z.mul_le_mono_nonneg; try nia. 
Qed.

Lemma vwrite_put : forall {T} (m : mat T) v x y z a, fits (mdim m) -> consistent m -> region_in v (mdim m) ->
  inb (vdim v) x y z ->
  vwrite v (D3 x y z) a m =
    ORet (put m (lin (mdim m) (dx (vstart v) + x) (dy (vstart v) + y) (dz (vstart v) + z)) a) tt.
Proof.
  intros T m v x y z a F C R I. pose proof (fits_dims _ F). unfold region_in, inb in *.
  unfold vwrite, bind. rewrite dim_add_ok by (cbn; lia). cbn [lift dx dy dz].
  apply mwrite_put; try assumption. unfold inb. lia.
Qed.

Lemma view_end_eq : forall d, fits d -> view_end d = Ok (it_end d).
Proof.
  intros d F. pose proof (fits_dims d F). unfold view_end. unfold dim_fill.
  rewrite dim_sub_ok by (cbn; lia). cbn [rbind]. unfold incr, it_end. cbn [dx dy dz].
  destruct (dx d - 1 + 1 <? dx d) eqn:E1; [lia|].
  destruct (dy d - 1 + 1 <? dy d) eqn:E2; [lia|].
  do 2 f_equal. lia.
Qed.

(** Position in the parent of view element number [k]. *)
Definition vpos (v : view) (d : dim3) (k : Z) : Z :=
  let i := idx_of (dx (vdim v)) (dy (vdim v)) k in
  lin d (dx (vstart v) + dx i) (dy (vstart v) + dy i) (dz (vstart v) + dz i).

Lemma region_inb : forall v d x y z, region_in v d -> inb (vdim v) x y z ->
  inb d (dx (vstart v) + x) (dy (vstart v) + y) (dz (vstart v) + z).
Proof. intros v d x y z R I. unfold region_in, inb in *. lia. Qed.

Lemma vpos_inj : forall v d j k, fits d -> region_in v d ->
  0 <= j < vol (vdim v) -> 0 <= k < vol (vdim v) -> vpos v d j = vpos v d k -> j = k.
Proof.
  intros v d j k F R Hj Hk E. pose proof (region_fits v d F R) as Fv.
  destruct (position_case _ j Fv Hj) as (x & y & z & I & Ej & Ei).
  destruct (position_case _ k Fv Hk) as (x' & y' & z' & I' & Ek & Ei').
  unfold vpos in E. rewrite Ei, Ei' in E. cbn [dx dy dz] in E.
  apply lin_inj in E; try (apply region_inb; assumption).
  assert (x = x' /\ y = y' /\ z = z') as (-> & -> & ->) by lia. congruence.
Qed.

(** Contents after the region of [v] was overwritten with [g]. *)
Definition overlay {T} (f : Z -> Z -> Z -> T) (v : view) (g : Z -> Z -> Z -> T) : Z -> Z -> Z -> T :=
  fun x y z =>
    if (dx (vstart v) <=? x) && (x <? dx (vstart v) + dx (vdim v)) &&
       ((dy (vstart v) <=? y) && (y <? dy (vstart v) + dy (vdim v))) &&
       ((dz (vstart v) <=? z) && (z <? dz (vstart v) + dz (vdim v)))
    then g (x - dx (vstart v)) (y - dy (vstart v)) (z - dz (vstart v)) else f x y z.

Definition in_region (v : view) (x y z : Z) : Prop :=
  inb (vdim v) (x - dx (vstart v)) (y - dy (vstart v)) (z - dz (vstart v)).

Lemma overlay_in : forall {T} (f : Z -> Z -> Z -> T) v g x y z, in_region v x y z ->
  overlay f v g x y z = g (x - dx (vstart v)) (y - dy (vstart v)) (z - dz (vstart v)).
Proof.
  intros T f v g x y z I. unfold in_region, inb in I. unfold overlay.
  match goal with |- (if ?b then _ else _) = _ => replace b with true; [reflexivity|] end.
  symmetry. rewrite !andb_true_iff, !Z.leb_le, !Z.ltb_lt. lia.
Qed.

Lemma overlay_out : forall {T} (f : Z -> Z -> Z -> T) v g x y z, ~ in_region v x y z ->
  overlay f v g x y z = f x y z.
Proof.
  intros T f v g x y z I. unfold in_region, inb in I. unfold overlay.
  match goal with |- (if ?b then _ else _) = _ => destruct b eqn:E; [|reflexivity] end.
  rewrite !andb_true_iff, !Z.leb_le, !Z.ltb_lt in E. exfalso. apply I. lia.
Qed.

Lemma in_region_dec : forall v x y z, {in_region v x y z} + {~ in_region v x y z}.
Proof.
  intros. unfold in_region, inb.
  destruct (Z_le_dec 0 (x - dx (vstart v))); [|right; lia].
  destruct (Z_lt_dec (x - dx (vstart v)) (dx (vdim v))); [|right; lia].
  destruct (Z_le_dec 0 (y - dy (vstart v))); [|right; lia].
  destruct (Z_lt_dec (y - dy (vstart v)) (dy (vdim v))); [|right; lia].
  destruct (Z_le_dec 0 (z - dz (vstart v))); [|right; lia].
  destruct (Z_lt_dec (z - dz (vstart v)) (dz (vdim v))); [|right; lia].
  left. lia.
Defined.

(** A loop over the elements of a view that writes [g] into it. *)
Lemma view_write_loop : forall {T} (m0 : mat T) d f v (g : Z -> Z -> Z -> T) body,
  fits d -> is_mat m0 d f -> region_in v d ->
  (forall k m x y z, inb (vdim v) x y z -> k = lin (vdim v) x y z ->
     idx_of (dx (vdim v)) (dy (vdim v)) k = D3 x y z ->
     written m0 (vpos v d) (fun k => let i := idx_of (dx (vdim v)) (dy (vdim v)) k in g (dx i) (dy i) (dz i)) k m ->
     body k m = vwrite v (D3 x y z) (g x y z) m) ->
  exists m1, mfor (vol (vdim v)) body m0 = ORet m1 tt /\ is_mat m1 d (overlay f v g).
Proof.
  intros T m0 d f v g body F H R Hb. pose proof (region_fits v d F R) as Fv.
  pose proof (fits_vol _ Fv) as [Vv _]. pose proof H as (D0 & L0 & C0).
  destruct (write_loop (vol (vdim v)) (vpos v d)
     (fun k => let i := idx_of (dx (vdim v)) (dy (vdim v)) k in g (dx i) (dy i) (dz i)) body m0)
    as (m1 & E1 & W).
  - lia.
  - intros k Hk. destruct (position_case _ k Fv Hk) as (x & y & z & I & Ek & Ei).
    unfold vpos. rewrite Ei. cbn [dx dy dz]. rewrite L0. apply lin_range. apply region_inb; assumption.
  - intros j k Hj Hk. apply vpos_inj; assumption.
  - intros k m Hk W. destruct (position_case _ k Fv Hk) as (x & y & z & I & Ek & Ei).
    rewrite (Hb k m x y z I Ek Ei W). destruct W as (A & B & _ & _).
    rewrite vwrite_put; try assumption; try (rewrite A, D0; assumption).
    + rewrite Ei. unfold vpos. rewrite Ei, A, D0. reflexivity.
    + unfold consistent. rewrite B, L0, A, D0. reflexivity.
  - exists m1. split; [exact E1|]. destruct W as (A & B & C & D).
    split; [congruence|]. split; [lia|]. intros x y z I.
    change (x + dx d * y + dx d * dy d * z) with (lin d x y z).
    destruct (in_region_dec v x y z) as [IR|NR].
    + rewrite overlay_in by assumption. unfold in_region in IR.
      set (k := lin (vdim v) (x - dx (vstart v)) (y - dy (vstart v)) (z - dz (vstart v))).
      assert (Hk : 0 <= k < vol (vdim v)) by (apply lin_range; exact IR).
      specialize (C k Hk).
      assert (Ei : idx_of (dx (vdim v)) (dy (vdim v)) k = D3 (x - dx (vstart v)) (y - dy (vstart v)) (z - dz (vstart v))).
      { unfold k. destruct (vdim v) as [X Y Z0]. apply idx_of_lin. exact IR. }
      unfold vpos in C. rewrite Ei in C. cbn [dx dy dz] in C.
      replace (dx (vstart v) + (x - dx (vstart v))) with x in C by lia.
      replace (dy (vstart v) + (y - dy (vstart v))) with y in C by lia.
      replace (dz (vstart v) + (z - dz (vstart v))) with z in C by lia. exact C.
    + rewrite overlay_out by assumption. rewrite D.
      * apply C0. exact I.
      * intros j Hj E. destruct (position_case _ j Fv Hj) as (x' & y' & z' & I' & Ej & Ei).
        unfold vpos in E. rewrite Ei in E. cbn [dx dy dz] in E.
        apply lin_inj in E; [|exact I|apply region_inb; assumption].
        apply NR. destruct E as (-> & -> & ->). unfold in_region.
        replace (dx (vstart v) + x' - dx (vstart v)) with x' by lia.
        replace (dy (vstart v) + y' - dy (vstart v)) with y' by lia.
        replace (dz (vstart v) + z' - dz (vstart v)) with z' by lia. exact I'.
Qed.

Lemma view_fill_ok : forall {T} (m0 : mat T) d f v (a : T),
  fits d -> is_mat m0 d f -> region_in v d -> iterable (vdim v) ->
  exists m1, view_fill v a m0 = ORet m1 tt /\ is_mat m1 d (overlay f v (fun _ _ _ => a)).
Proof.
  intros T m0 d f v a F H R IT. pose proof (region_fits v d F R) as Fv.
  unfold view_fill, bind. rewrite view_end_eq by assumption. cbn [lift].
  destruct (dz (vdim v) <? 0) eqn:E; [pose proof (fits_dims _ Fv); lia|].
  destruct (view_write_loop m0 d f v (fun _ _ _ => a) (fun k => vwrite v (idx_of (dx (vdim v)) (dy (vdim v)) k) a) F H R)
    as (m1 & E1 & I1).
  - intros k m x y z I Ek Ei W. rewrite Ei. reflexivity.
  - exists m1. split; [|exact I1]. rewrite <- E1.
    pose proof (it_loop_iter (fun _ i => vwrite v i a) (vdim v) m0 IT) as Q.
    unfold it_loop in Q. rewrite E in Q. exact Q.
Qed.

(** Assignment through a view from an operand that, during the whole copy, reads as [g]. *)
Lemma view_assign_general : forall {T} (m0 : mat T) d f v (a : lz (mat T) T) g,
  fits d -> is_mat m0 d f -> region_in v d -> ldim a m0 = vdim v ->
  (forall k m x y z, inb (vdim v) x y z -> k = lin (vdim v) x y z ->
     written m0 (vpos v d) (fun k => let i := idx_of (dx (vdim v)) (dy (vdim v)) k in g (dx i) (dy i) (dz i)) k m ->
     lget a m (D3 x y z) = Ok (g x y z)) ->
  exists m1, view_assign v a m0 = ORet m1 tt /\ is_mat m1 d (overlay f v g).
Proof.
  intros T m0 d f v a g F H R Ed Hg. pose proof (region_fits v d F R) as Fv.
  unfold view_assign, bind at 1, mget at 1. unfold bind at 1. unfold check_size. rewrite Ed, dim_eqb_refl. cbn [lift].
  destruct (view_write_loop m0 d f v g
     (fun k => (fun i => bind mget (fun s => bind (lift (lget a s i)) (fun x => vwrite v i x)))
        (idx_of (dx (vdim v)) (dy (vdim v)) k)) F H R) as (m1 & E1 & I1).
  - intros k m x y z I Ek Ei W. cbn beta. rewrite Ei. unfold bind, mget.
    rewrite (Hg k m x y z I Ek W). reflexivity.
  - exists m1. split; [|exact I1]. rewrite copy_loop_mfor by assumption. exact E1.
Qed.

Lemma view_assign_indep : forall {T} (m0 : mat T) d f v (a : lz (mat T) T) g,
  fits d -> is_mat m0 d f -> region_in v d -> ldim a m0 = vdim v ->
  (forall m x y z, inb (vdim v) x y z -> lget a m (D3 x y z) = Ok (g x y z)) ->
  exists m1, view_assign v a m0 = ORet m1 tt /\ is_mat m1 d (overlay f v g).
Proof. intros. eapply view_assign_general; eauto. Qed.
