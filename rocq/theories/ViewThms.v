(** Proofs of the view and aliasing properties (C08-C13); the statements are repeated in Props_View.v. *)
From Coq Require Import ZArith List Bool Lia Psatz.
From Verif Require Import Base Dim Matrix View Num Expr Spec Iter MatFacts MatThms.
Import ListNotations.
Local Open Scope Z_scope.

Definition nonneg (d : dim3) : Prop := 0 <= dx d /\ 0 <= dy d /\ 0 <= dz d.
Definition below31 (a b : dim3) : Prop := dx a + dx b < two31 /\ dy a + dy b < two31 /\ dz a + dz b < two31.

Lemma exceeds_true : forall e d, exceeds e d = true <-> dx d < dx e \/ dy d < dy e \/ dz d < dz e.
Proof. intros. unfold exceeds. rewrite !orb_true_iff, !Z.ltb_lt. tauto. Qed.

Lemma mk_view_throw : forall pd s d, nonneg s -> nonneg d -> below31 s d ->
  ~ region_in (View s d) pd -> mk_view pd s d = Throw MatrixSize.
Proof.
  intros pd s d Ns Nd B R. unfold nonneg, below31 in *. unfold mk_view.
  rewrite dim_add_ok by (unfold two31 in *; lia). cbn [rbind].
  match goal with |- (if ?b then _ else _) = _ => destruct b eqn:E; [reflexivity|] end.
  exfalso. apply R. apply exceeds_false in E. cbn in E. unfold region_in. cbn [vstart vdim]. lia.
Qed.

Lemma mk_view_exact : forall pd s d, fits pd -> nonneg s -> nonneg d -> below31 s d ->
  (region_in (View s d) pd -> mk_view pd s d = Ok (View s d)) /\
  (~ region_in (View s d) pd -> mk_view pd s d = Throw MatrixSize).
Proof. intros. split; [apply mk_view_ok; assumption|apply mk_view_throw; assumption]. Qed.

Lemma mk_subview_exact : forall pd v s d, fits pd -> region_in v pd -> nonneg s -> nonneg d -> below31 s d ->
  below31 (D3 (dx (vstart v) + dx s) (dy (vstart v) + dy s) (dz (vstart v) + dz s)) d ->
  (region_in (View s d) (vdim v) ->
     exists w, mk_subview pd v s d = Ok w /\ vdim w = d /\ region_in w pd /\
       vstart w = D3 (dx (vstart v) + dx s) (dy (vstart v) + dy s) (dz (vstart v) + dz s)) /\
  (~ region_in (View s d) (vdim v) -> mk_subview pd v s d = Throw MatrixSize).
Proof.
  intros pd v s d F R Ns Nd B B2. pose proof (fits_dims pd F). pose proof R as R0.
  unfold nonneg, below31, region_in in *. cbn [vstart vdim dx dy dz] in *.
  unfold mk_subview. rewrite dim_add_ok by (unfold two31 in *; lia). cbn [rbind]. split.
  - intro R1. rewrite mk_view_ok; [|assumption|unfold region_in; cbn [vstart vdim dx dy dz]; lia].
    cbn [rbind]. rewrite dim_add_ok by (unfold two31 in *; lia). cbn [rbind].
    assert (E : exceeds (D3 (dx s + dx d) (dy s + dy d) (dz s + dz d)) (vdim v) = false)
      by (apply exceeds_false; cbn; lia).
    rewrite E. eexists. split; [reflexivity|]. cbn [vstart vdim dx dy dz].
    split; [reflexivity|]. split; [lia|reflexivity].
  - intro R1.
    destruct (mk_view pd (D3 (dx (vstart v) + dx s) (dy (vstart v) + dy s) (dz (vstart v) + dz s)) d) eqn:E.
    + cbn [rbind]. rewrite dim_add_ok by (unfold two31 in *; lia). cbn [rbind].
      match goal with |- (if ?b then _ else _) = _ => destruct b eqn:E2; [reflexivity|] end.
      exfalso. apply R1. apply exceeds_false in E2. cbn in E2. lia.
    + cbn [rbind]. unfold mk_view in E. rewrite dim_add_ok in E by (cbn; unfold two31 in *; lia). cbn [rbind] in E.
      match type of E with (if ?b then _ else _) = _ => destruct b; congruence end.
    + exfalso. unfold mk_view in E. rewrite dim_add_ok in E by (cbn; unfold two31 in *; lia). cbn [rbind] in E.
      match type of E with (if ?b then _ else _) = _ => destruct b; congruence end.
Qed.

(** Views reachable by any number of nested constructions with non-negative arguments; the list collects the
    start offsets. *)
Inductive derived (pd : dim3) : list dim3 -> view -> Prop :=
| derived_base : forall s d v, nonneg s -> nonneg d -> mk_view pd s d = Ok v -> derived pd [s] v
| derived_step : forall l v s d w, derived pd l v -> nonneg s -> nonneg d -> mk_subview pd v s d = Ok w ->
    derived pd (s :: l) w.

Definition sum_of (l : list dim3) : dim3 :=
  fold_right (fun a b => D3 (dx a + dx b) (dy a + dy b) (dz a + dz b)) (D3 0 0 0) l.

Lemma i32_inv : forall z w, i32 z = Ok w -> w = z /\ - two31 <= z < two31.
Proof.
  intros z w H. unfold i32 in H. destruct ((- two31 <=? z) && (z <? two31)) eqn:E; [|discriminate].
  apply andb_true_iff in E. injection H as <-. split; [reflexivity|lia].
Qed.

Lemma dim_add_inv : forall a b c, dim_add a b = Ok c -> c = D3 (dx a + dx b) (dy a + dy b) (dz a + dz b).
Proof.
  intros a b c H. unfold dim_add in H.
  destruct (i32 (dx a + dx b)) eqn:E1; cbn [rbind] in H; try discriminate.
  destruct (i32 (dy a + dy b)) eqn:E2; cbn [rbind] in H; try discriminate.
  destruct (i32 (dz a + dz b)) eqn:E3; cbn [rbind] in H; try discriminate.
  apply i32_inv in E1. apply i32_inv in E2. apply i32_inv in E3.
  injection H as <-. destruct E1 as [-> _], E2 as [-> _], E3 as [-> _]. reflexivity.
Qed.

Lemma mk_view_inv : forall pd s d v, mk_view pd s d = Ok v ->
  v = View s d /\ dx s + dx d <= dx pd /\ dy s + dy d <= dy pd /\ dz s + dz d <= dz pd.
Proof.
  intros pd s d v H. unfold mk_view in H. destruct (dim_add s d) eqn:E; cbn [rbind] in H; try discriminate.
  apply dim_add_inv in E. subst a. destruct (exceeds _ pd) eqn:X; [discriminate|].
  apply exceeds_false in X. cbn in X. injection H as <-. split; [reflexivity|exact X].
Qed.

Lemma derived_inside : forall pd l v, derived pd l v ->
  region_in v pd /\ dx (vstart v) = dx (sum_of l) /\ dy (vstart v) = dy (sum_of l) /\ dz (vstart v) = dz (sum_of l).
Proof.
  intros pd l v H; induction H.
  - apply mk_view_inv in H1. destruct H1 as (-> & A & B & C). unfold region_in, nonneg in *.
    cbn [vstart vdim sum_of fold_right dx dy dz]. lia.
  - unfold mk_subview in H2. destruct (dim_add (vstart v) s) eqn:E; cbn [rbind] in H2; try discriminate.
    apply dim_add_inv in E. subst a.
    destruct (mk_view pd _ d) eqn:E2; cbn [rbind] in H2; try discriminate.
    destruct (dim_add s d) eqn:E3; cbn [rbind] in H2; try discriminate.
    destruct (exceeds a0 (vdim v)); [discriminate|]. injection H2 as <-.
    apply mk_view_inv in E2. destruct E2 as (-> & A & B & C). cbn [dx dy dz] in *.
    destruct IHderived as (R & I1 & I2 & I3). unfold region_in, nonneg in *.
    cbn [vstart vdim sum_of fold_right dx dy dz] in *. fold (sum_of l). lia.
Qed.

Lemma slices_exact : forall pd k n, fits pd -> 0 <= k -> 0 <= n -> k + n < two31 ->
  (k + n <= dz pd -> slices pd k n = Ok (View (D3 0 0 k) (D3 (dx pd) (dy pd) n))) /\
  (dz pd < k + n -> slices pd k n = Throw MatrixSize).
Proof.
  intros pd k n F Hk Hn B. pose proof (fits_dims pd F). unfold slices. split.
  - intro. apply mk_view_ok; [assumption|]. unfold region_in. cbn. lia.
  - intro. apply mk_view_throw; unfold nonneg, below31, region_in; cbn; lia.
Qed.

(* ------------------------------------------------------------------ C09 *)

Lemma is_mat_exists : forall {T} (m : mat T), consistent m -> fits (mdim m) -> 0 < vol (mdim m) ->
  exists f, is_mat m (mdim m) f.
Proof.
  intros T m C F V. destruct (cell_some m 0) as (t0 & _); [rewrite C; lia|].
  eexists. apply (consistent_is_mat m t0 C).
Qed.

Lemma region_vol : forall v d, fits d -> region_in v d -> pos (vdim v) -> 0 < vol d.
Proof.
  intros v d F R (P1 & P2 & P3). unfold region_in in R. unfold vol.
  assert (1 <= dx d /\ 1 <= dy d /\ 1 <= dz d) by lia. nia.
Qed.

Lemma view_fill_exact : forall T (m0 : mat T) v a,
  consistent m0 -> fits (mdim m0) -> region_in v (mdim m0) -> pos (vdim v) ->
  exists m1, view_fill v a m0 = ORet m1 tt /\ mdim m1 = mdim m0 /\ consistent m1 /\
    (forall x y z, inb (vdim v) x y z -> vread m1 v (D3 x y z) = Ok a) /\
    (forall x y z, inb (mdim m0) x y z -> ~ in_region v x y z -> mread m1 (D3 x y z) = mread m0 (D3 x y z)).
Proof.
  intros T m0 v a C F R P.
  destruct (is_mat_exists m0 C F (region_vol _ _ F R P)) as (f & H).
  destruct (view_fill_ok m0 (mdim m0) f v a F H R (pos_iterable _ P)) as (m1 & E & H1).
  exists m1. split; [exact E|]. pose proof H1 as (D1 & L1 & _). split; [exact D1|].
  split; [unfold consistent; rewrite D1; exact L1|]. split.
  - intros x y z I. rewrite (vread_ok m1 (mdim m0) _ v x y z H1 F R I). f_equal.
    rewrite overlay_in; [reflexivity|]. unfold in_region.
    replace (dx (vstart v) + x - dx (vstart v)) with x by lia.
    replace (dy (vstart v) + y - dy (vstart v)) with y by lia.
    replace (dz (vstart v) + z - dz (vstart v)) with z by lia. exact I.
  - intros x y z I NR. rewrite (is_mat_read _ _ _ x y z H1 F I), (is_mat_read _ _ _ x y z H F I).
    f_equal. apply overlay_out. exact NR.
Qed.

Lemma view_assign_exact : forall T (m0 : mat T) v (a : lz (mat T) T) g,
  consistent m0 -> fits (mdim m0) -> region_in v (mdim m0) -> pos (vdim v) -> ldim a m0 = vdim v ->
  (forall m x y z, inb (vdim v) x y z -> lget a m (D3 x y z) = Ok (g x y z)) ->
  exists m1, view_assign v a m0 = ORet m1 tt /\ mdim m1 = mdim m0 /\ consistent m1 /\
    (forall x y z, inb (vdim v) x y z -> vread m1 v (D3 x y z) = Ok (g x y z)) /\
    (forall x y z, inb (mdim m0) x y z -> ~ in_region v x y z -> mread m1 (D3 x y z) = mread m0 (D3 x y z)).
Proof.
  intros T m0 v a g C F R P Ed Hg.
  destruct (is_mat_exists m0 C F (region_vol _ _ F R P)) as (f & H).
  destruct (view_assign_indep m0 (mdim m0) f v a g F H R Ed Hg) as (m1 & E & H1).
  exists m1. split; [exact E|]. pose proof H1 as (D1 & L1 & _). split; [exact D1|].
  split; [unfold consistent; rewrite D1; exact L1|]. split.
  - intros x y z I. rewrite (vread_ok m1 (mdim m0) _ v x y z H1 F R I). f_equal.
    rewrite overlay_in.
    + f_equal; lia.
    + unfold in_region.
      replace (dx (vstart v) + x - dx (vstart v)) with x by lia.
      replace (dy (vstart v) + y - dy (vstart v)) with y by lia.
      replace (dz (vstart v) + z - dz (vstart v)) with z by lia. exact I.
  - intros x y z I NR. rewrite (is_mat_read _ _ _ x y z H1 F I), (is_mat_read _ _ _ x y z H F I).
    f_equal. apply overlay_out. exact NR.
Qed.

Lemma view_assign_mismatch : forall T (m0 : mat T) v (a : lz (mat T) T),
  ldim a m0 <> vdim v -> view_assign v a m0 = OThrow m0 MatrixSize.
Proof.
  intros T m0 v a H. unfold view_assign, bind, mget, check_size.
  assert (E : dim_eqb (vdim v) (ldim a m0) = false) by (apply dim_eqb_neq; congruence).
  rewrite E. reflexivity.
Qed.

(* ------------------------------------------------------------------ C10 *)

Lemma vat_exact : forall T (m : mat T) v x y z, consistent m -> fits (mdim m) -> region_in v (mdim m) ->
  0 <= x -> 0 <= y -> 0 <= z ->
  (inb (vdim v) x y z -> exists w, vat m v (D3 x y z) = Ok w /\
     mread m (D3 (dx (vstart v) + x) (dy (vstart v) + y) (dz (vstart v) + z)) = Ok w) /\
  (~ inb (vdim v) x y z -> vat m v (D3 x y z) = Throw OutOfRange).
Proof.
  intros T m v x y z C F R Hx Hy Hz. unfold vat. cbn [dx dy dz]. split.
  - intro I. pose proof (region_inb v _ _ _ _ R I) as I'.
    assert (V : 0 < vol (mdim m)) by (pose proof (lin_range _ _ _ _ I'); lia).
    destruct (is_mat_exists m C F V) as (f & H).
    match goal with |- exists w, (if ?b then _ else _) = _ /\ _ => replace b with false end.
    + eexists. split; [apply vread_ok with (mdim m); eassumption|].
      apply is_mat_read with (mdim m); assumption.
    + symmetry. unfold inb in I. rewrite !orb_false_iff, !Z.leb_gt. lia.
  - intro NI. match goal with |- (if ?b then _ else _) = _ => destruct b eqn:E; [reflexivity|] end.
    exfalso. apply NI. rewrite !orb_false_iff, !Z.leb_gt in E. unfold inb. lia.
Qed.

(* ------------------------------------------------------------------ C11 *)

Lemma assign_alias : forall T (t0 : T) (a : lz (mat T) T) (m0 : mat T) d f,
  fits d -> consistent m0 -> mdim m0 = d -> is_lz a m0 d f ->
  (forall m x y z, inb d x y z -> mdim m = d -> consistent m ->
     (forall j, lin d x y z <= j < vol d -> cell m j = cell m0 j) ->
     lget a m (D3 x y z) = lget a m0 (D3 x y z)) ->
  exists m1, assign_lz t0 a m0 = ORet m1 tt /\ is_mat m1 d f.
Proof.
  intros T t0 a m0 d f F C E (Ed & H) Hr.
  apply assign_lz_general; try assumption.
  intros m k x y z I -> D L Hc _. rewrite (Hr m x y z I D).
  - apply H. exact I.
  - unfold consistent. rewrite D. exact L.
  - intros j Hj. apply Hc; [exact Hj|]. rewrite E. lia.
Qed.

(** Compound assignment with an operand that may read the modified matrix. *)
Lemma compound_general : forall T (h : T -> T -> res T) (a : lz (mat T) T) (m0 : mat T) d f g r,
  fits d -> iterable d -> is_mat m0 d f -> is_lz a m0 d g ->
  (forall x y z, inb d x y z -> h (f x y z) (g x y z) = Ok (r x y z)) ->
  (forall m x y z, inb d x y z -> mdim m = d -> consistent m ->
     (forall j, lin d x y z <= j < vol d -> cell m j = cell m0 j) ->
     lget a m (D3 x y z) = lget a m0 (D3 x y z)) ->
  exists m1, compound_mat h a m0 = ORet m1 tt /\ is_mat m1 d r.
Proof.
  intros T h a m0 d f g r F IT (D0 & L0 & C0) (Ed & Ha) Hh Hr.
  unfold compound_mat, bind at 1, mget at 1. unfold bind at 1. unfold check_size.
  rewrite D0, Ed, dim_eqb_refl. cbn [lift]. pose proof (fits_vol d F) as [V _].
  rewrite (it_loop_iter _ d m0 IT).
  set (gg := fun k => let i := idx_of (dx d) (dy d) k in r (dx i) (dy i) (dz i)).
  match goal with |- context [mfor (vol d) ?b m0] =>
    destruct (write_loop (vol d) (fun k => k) gg b m0) as (m1 & E1 & W) end.
  - lia.
  - intros. lia.
  - auto.
  - intros k m Hk (A & B & C & D). cbn beta. unfold bind, mget.
    destruct (position_case d k F Hk) as (x & y & z & I & Ek & Ei). rewrite Ei.
    assert (CM : consistent m) by (unfold consistent; rewrite A, D0, B; exact L0).
    rewrite (Hr m x y z I); [|congruence|exact CM|].
    + rewrite Ha by exact I. cbn [lift]. unfold mread_flat.
      rewrite (vget_cell m k (f x y z)).
      * cbn [lift]. rewrite Hh by exact I. cbn [lift]. rewrite mwrite_flat_put by lia.
        unfold gg. rewrite Ei. reflexivity.
      * rewrite D by lia. rewrite Ek. apply C0. exact I.
    + intros j Hj. apply D. intros. lia.
  - exists m1. split; [exact E1|]. destruct W as (A & B & C & D). apply is_mat_cells with gg.
    + congruence.
    + lia.
    + intros k Hk. apply C. exact Hk.
    + intros x y z I. unfold gg. destruct d as [X Y Z0]. cbn [dx dy]. rewrite idx_of_lin by assumption. reflexivity.
Qed.

Lemma compound_mismatch : forall T (h : T -> T -> res T) (a : lz (mat T) T) (m0 : mat T),
  ldim a m0 <> mdim m0 -> compound_mat h a m0 = OThrow m0 MatrixSize.
Proof.
  intros T h a m0 H. unfold compound_mat, bind, mget, check_size.
  assert (E : dim_eqb (mdim m0) (ldim a m0) = false) by (apply dim_eqb_neq; congruence).
  rewrite E. reflexivity.
Qed.

(* ------------------------------------------------------------------ C12 *)

Lemma vpos_lin : forall v d x y z, inb (vdim v) x y z ->
  vpos v d (lin (vdim v) x y z) = lin d (dx (vstart v) + x) (dy (vstart v) + y) (dz (vstart v) + z).
Proof.
  intros v d x y z I. unfold vpos. destruct (vdim v) as [X Y Z0] eqn:E. cbn [dx dy].
  rewrite idx_of_lin by assumption. reflexivity.
Qed.

(** Storage position of the first element of a view. *)
Definition start_pos (v : view) (d : dim3) : Z := lin d (dx (vstart v)) (dy (vstart v)) (dz (vstart v)).

(** The parent positions of the view elements increase with the element number. *)
Lemma vpos_increasing : forall v d j k, fits d -> region_in v d -> 0 <= j -> j < k -> k < vol (vdim v) ->
  vpos v d j < vpos v d k.
Proof.
  intros v d j k F R Hj Hjk Hk. pose proof (region_fits v d F R) as Fv.
  destruct (position_case _ j Fv) as (x & y & z & I & Ej & Ei); [lia|].
  destruct (position_case _ k Fv) as (x' & y' & z' & I' & Ek & Ei'); [lia|].
  rewrite Ej, Ek, !vpos_lin by assumption.
  assert (L : lin (vdim v) x y z < lin (vdim v) x' y' z') by lia.
  unfold lin in *. unfold region_in, inb in *.
  set (X := dx (vdim v)) in *. set (Y := dy (vdim v)) in *. set (DX := dx d) in *. set (DY := dy d) in *.
  assert (HX : X <= DX) by lia. assert (HY : Y <= DY) by lia.
  assert (C : z < z' \/ (z = z' /\ (y < y' \/ (y = y' /\ x < x')))).
  { destruct (Z_lt_le_dec z z'); [left; assumption|]. right.
    assert (z = z').
    { destruct (Z.eq_dec z z'); [assumption|]. exfalso.
      assert (X * Y * (z' + 1) <= X * Y * z) by (apply Z.mul_le_mono_nonneg_l; nia).
      assert (X * y' <= X * (Y - 1)) by (apply Z.mul_le_mono_nonneg_l; lia).
      assert (0 <= X * y) by nia. lia. }
    subst z'. split; [reflexivity|].
    destruct (Z_lt_le_dec y y'); [left; assumption|]. right.
    assert (y = y').
    { destruct (Z.eq_dec y y'); [assumption|]. exfalso.
      assert (X * (y' + 1) <= X * y) by (apply Z.mul_le_mono_nonneg_l; lia). lia. }
    subst y'. split; [reflexivity|]. lia. }
  assert (P1 : 0 <= DX * DY) by nia.
  destruct C as [C|[-> [C|[-> C]]]].
  - set (ys := dy (vstart v)) in *. set (zs := dz (vstart v)) in *. set (xs := dx (vstart v)) in *.
    assert (DX * DY * (zs + z + 1) <= DX * DY * (zs + z')) by (apply Z.mul_le_mono_nonneg_l; lia).
    assert (DX * (ys + y) <= DX * (DY - 1)) by (apply Z.mul_le_mono_nonneg_l; lia).
    assert (0 <= DX * (ys + y')) by nia. lia.
  - set (ys := dy (vstart v)) in *.
    assert (DX * (ys + y + 1) <= DX * (ys + y')) by (apply Z.mul_le_mono_nonneg_l; lia). lia.
  - lia.
Qed.

Lemma vpos_shift : forall v w d k, fits d -> region_in v d -> vdim w = vdim v -> 0 <= k < vol (vdim v) ->
  vpos w d k = vpos v d k + (start_pos w d - start_pos v d).
Proof.
  intros v w d k F R E Hk. pose proof (region_fits v d F R) as Fv.
  destruct (position_case _ k Fv Hk) as (x & y & z & I & Ek & Ei).
  rewrite Ek. rewrite vpos_lin by assumption. rewrite <- E in I |- *. rewrite vpos_lin by assumption.
  unfold start_pos, lin. ring.
Qed.

Definition disjoint_views (v w : view) : Prop := forall x y z, in_region v x y z -> in_region w x y z -> False.

Lemma view_copy : forall T (m0 : mat T) d f v w,
  fits d -> is_mat m0 d f -> region_in v d -> region_in w d -> vdim w = vdim v ->
  start_pos v d <= start_pos w d \/ disjoint_views v w ->
  exists m1, view_assign v (l_view (fun m => m) w) m0 = ORet m1 tt /\
    is_mat m1 d (overlay f v (fun x y z => f (dx (vstart w) + x) (dy (vstart w) + y) (dz (vstart w) + z))).
Proof.
  intros T m0 d f v w F H R Rw E Cond.
  apply view_assign_general; try assumption.
  intros k m x y z I Ek (A & B & C & D). cbn [lget l_view].
  assert (Iw : inb (vdim w) x y z) by (rewrite E; exact I).
  pose proof (region_inb w d x y z Rw Iw) as Id. pose proof H as (D0 & L0 & C0).
  assert (Q : cell m (lin d (dx (vstart w) + x) (dy (vstart w) + y) (dz (vstart w) + z))
              = Some (f (dx (vstart w) + x) (dy (vstart w) + y) (dz (vstart w) + z))).
  { rewrite D.
    - apply C0. exact Id.
    - intros j Hj. pose proof (lin_range _ _ _ _ I) as Rk.
      assert (Ew : lin d (dx (vstart w) + x) (dy (vstart w) + y) (dz (vstart w) + z) = vpos w d k).
      { rewrite Ek, <- E. symmetry. apply vpos_lin. exact Iw. }
      rewrite Ew. destruct Cond as [Cond|Dis].
      + rewrite (vpos_shift v w d k F R E) by lia.
        pose proof (vpos_increasing v d j k F R). lia.
      + intro Q. pose proof (region_fits v d F R) as Fv.
        destruct (position_case _ j Fv) as (x' & y' & z' & I' & Ej & Ei); [lia|].
        rewrite <- Ew in Q. rewrite Ej, vpos_lin in Q by assumption.
        apply lin_inj in Q; [|exact Id|apply region_inb; assumption].
        apply (Dis (dx (vstart w) + x) (dy (vstart w) + y) (dz (vstart w) + z)).
        * destruct Q as (-> & -> & ->). unfold in_region.
          replace (dx (vstart v) + x' - dx (vstart v)) with x' by lia.
          replace (dy (vstart v) + y' - dy (vstart v)) with y' by lia.
          replace (dz (vstart v) + z' - dz (vstart v)) with z' by lia. exact I'.
        * unfold in_region.
          replace (dx (vstart w) + x - dx (vstart w)) with x by lia.
          replace (dy (vstart w) + y - dy (vstart w)) with y by lia.
          replace (dz (vstart w) + z - dz (vstart w)) with z by lia. exact Iw. }
  unfold vread. pose proof (fits_dims d F). unfold region_in, inb in Rw, Iw.
  rewrite dim_add_ok by (cbn; lia). cbn [rbind dx dy dz]. unfold mread.
  rewrite A, D0, get_index_lin by assumption. apply vget_cell. exact Q.
Qed.

(* ------------------------------------------------------------------ C13 *)

Lemma compound_scalar_ok : forall T (h : T -> T -> res T) (c : mat T -> res T) (v : T) (m0 : mat T) d f r,
  fits d -> iterable d -> is_mat m0 d f ->
  (forall x y z, inb d x y z -> h (f x y z) v = Ok (r x y z)) ->
  (* the scalar keeps its value while cells before the last one change *)
  (forall m, mdim m = d -> consistent m -> cell m (vol d - 1) = cell m0 (vol d - 1) -> c m = Ok v) ->
  exists m1, compound_scalar h c m0 = ORet m1 tt /\ is_mat m1 d r.
Proof.
  intros T h c v m0 d f r F IT (D0 & L0 & C0) Hh Hc.
  unfold compound_scalar, bind at 1, mget at 1. rewrite D0. pose proof (fits_vol d F) as [V _].
  rewrite (it_loop_iter _ d m0 IT).
  set (gg := fun k => let i := idx_of (dx d) (dy d) k in r (dx i) (dy i) (dz i)).
  match goal with |- context [mfor (vol d) ?b m0] =>
    destruct (write_loop (vol d) (fun k => k) gg b m0) as (m1 & E1 & W) end.
  - lia.
  - intros. lia.
  - auto.
  - intros k m Hk (A & B & C & D). cbn beta. unfold bind, mget.
    destruct (position_case d k F Hk) as (x & y & z & I & Ek & Ei).
    assert (CM : consistent m) by (unfold consistent; rewrite A, D0, B; exact L0).
    unfold mread_flat. rewrite (vget_cell m k (f x y z)).
    + cbn [lift]. rewrite Hc; [|congruence|exact CM|apply D; intros; lia]. cbn [lift].
      rewrite Hh by exact I. cbn [lift]. rewrite mwrite_flat_put by lia. unfold gg. rewrite Ei. reflexivity.
    + rewrite D by lia. rewrite Ek. apply C0. exact I.
  - exists m1. split; [exact E1|]. destruct W as (A & B & C & D). apply is_mat_cells with gg.
    + congruence.
    + lia.
    + intros k Hk. apply C. exact Hk.
    + intros x y z I. unfold gg. destruct d as [X Y Z0]. cbn [dx dy]. rewrite idx_of_lin by assumption. reflexivity.
Qed.
