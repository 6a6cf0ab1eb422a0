(** Convolution layer: what the forward and backward functions compute, for any number type. *)
From Coq Require Import ZArith List Bool Lia.
From Verif Require Import Base Dim Matrix View Num Expr Spec Iter MatFacts MatThms ViewThms ExprThms Sums Batch Kernel LayerFacts.
Import ListNotations.
Local Open Scope Z_scope.

Ltac inb_tac := unfold inb in *; cbn [dx dy dz] in *; intuition lia.

Section KernelThms.
Context {T : Type} {N : Num T}.

Lemma convolve_all : forall {S} (a b : lz S T) s X Y U V f g,
  (forall s, is_lz a s (D3 X Y 1) f) -> (forall s, is_lz b s (D3 U V 1) g) -> X < two31 -> Y < two31 ->
  1 <= U <= X -> 1 <= V <= Y ->
  exists c, mk_convolve a b (D3 1 1 0) s = Ok c /\ forall s,
    is_lz c s (D3 (X - U + 1) (Y - V + 1) 1)
      (fun x y _ => nsum2 U V (fun i j => nmul (f (i + x) (j + y) 0) (g i j 0))).
Proof.
  intros S a b s X Y U V f g HA HB HX HY HU HV. unfold mk_convolve, is_flat.
  rewrite (proj1 (HA s)), (proj1 (HB s)). cbn [dx dy dz Z.eqb Pos.eqb andb negb].
  repeat (rewrite i32_ok by (unfold two31 in *; lia); cbn [rbind]).
  eexists. split; [reflexivity|]. intros s'. split; [reflexivity|]. intros x y z (A & B & C). cbn [dx dy dz] in *. cbn [lget].
  rewrite (conv_elem_ok a b s' X Y U V f g) by (auto; lia). rewrite !Z.mul_1_r. reflexivity.
Qed.

(** A layer with [n] filters of size [fx] x [fy] over [C] channels, weights [W] and biases [B]. *)
Definition kernel_is (k : kernel T) (fx fy C n : Z) (W B : Z -> Z -> Z -> T) : Prop :=
  1 <= fx /\ 1 <= fy /\ 0 <= C /\ 0 <= n /\ fits (D3 fx fy (C * n)) /\ fits (D3 n 1 1) /\
  is_mat (k_w k) (D3 fx fy (C * n)) W /\ is_mat (k_b k) (D3 n 1 1) B /\ k_dim k = D3 fx fy C /\ k_n k = n.

(** Σ_c Σ_a Σ_b I(a+x, b+y, c) W(a, b, f C + c), added in this order. *)
Definition corr (fx fy C : Z) (I W : Z -> Z -> Z -> T) (x y f : Z) : T :=
  nsum C (fun c => nsum2 fx fy (fun a b => nmul (I (a + x) (b + y) c) (W a b (f * C + c)))).

Lemma mul_small : forall C n i, 0 <= C -> 0 <= i < n -> 0 <= i * C /\ i * C + C <= C * n.
Proof. intros. split; nia. Qed.

Lemma is_mat_ext' : forall (m : mat T) d f g, is_mat m d f -> (forall x y z, inb d x y z -> f x y z = g x y z) -> is_mat m d g.
Proof. intros. eapply is_mat_ext; eauto. Qed.

Lemma nsum_S : forall n (f : Z -> T), 0 <= n -> nsum (n + 1) f = nadd (nsum n f) (f n).
Proof. intros. unfold nsum. rewrite fold_z_snoc by lia. reflexivity. Qed.

Theorem k_forward_ok : forall k x fx fy C n X Y W B I,
  kernel_is k fx fy C n W B -> k_stride k = 1 -> is_mat x (D3 X Y C) I -> fits (D3 X Y C) ->
  fx <= X -> fy <= Y -> fits (D3 (X - fx + 1) (Y - fy + 1) n) ->
  exists o, k_forward k x = Ok o /\
    is_mat o (D3 (X - fx + 1) (Y - fy + 1) n) (fun x y f => nadd (corr fx fy C I W x y f) (B f 0 0)).
Proof.
  intros k x fx fy C n X Y W B I (Hfx & Hfy & HC & Hn & FW & FB & HW & HB & Kd & Kn) St HX FX HfX HfY FO.
  pose proof (fits_dims _ FW) as (W1 & W2 & W3). pose proof (fits_dims _ FX) as (X1 & X2 & X3).
  pose proof (fits_dims _ FO) as (O1 & O2 & O3). cbn [dx dy dz] in *.
  unfold k_forward, k_check. rewrite (is_mat_dim _ _ _ HX), Kd, Kn, St. cbn [dx dy dz]. rewrite Z.eqb_refl. cbn [negb].
  assert (OD : k_outdim k (D3 X Y C) = D3 (X - fx + 1) (Y - fy + 1) n).
  { unfold k_outdim. rewrite Kd, Kn. cbn [dx dy dz]. rewrite !u32_id31 by lia.
    rewrite !s32_id by (unfold two31 in *; lia). reflexivity. }
  rewrite OD. set (od := D3 (X - fx + 1) (Y - fy + 1) n) in *.
  destruct (mat_fill_ok od n0 FO) as (o0 & E0 & I0). rewrite E0. cbn [rbind].
  rewrite (is_mat_dim _ _ _ HW). rewrite u64_id31 by lia.
  rewrite (s32_id 1) by (unfold two31; lia).
  set (F := fun x y f => nadd (corr fx fy C I W x y f) (B f 0 0)).
  set (Inv := fun i (o : mat T) => is_mat o od (fun x y z => if z <? i then F x y z else n0)).
  match goal with |- context [mfor n ?b o0] => destruct (mfor_inv Inv b n o0 Hn) as (o & Eo & Io) end.
  - intros i o Hi IV. unfold Inv in IV.
    pose proof (mul_small C n i HC Hi) as (M1 & M2). assert (M3 : i * C < two31) by lia.
    rewrite s32_id by (unfold two31 in *; lia).
    rewrite slices_ok by (auto; cbn [dx dy dz]; lia). unfold bind at 1. rewrite lift_ok.
    (* the channels *)
    set (P := fun j x y => nsum j (fun c => nsum2 fx fy (fun a b => nmul (I (a + x) (b + y) c) (W a b (i * C + c))))).
    set (Inv2 := fun j (o : mat T) => is_mat o od (fun x y z => if z <? i then F x y z else if z =? i then P j x y else n0)).
    match goal with |- context [mfor C ?b] => destruct (mfor_inv Inv2 b C o HC) as (o1 & E1 & I1) end.
    + intros j oj Hj Ij. unfold Inv2 in Ij.
      rewrite (s32_id j) by (unfold two31 in *; lia). rewrite (s32_id i) by (unfold two31 in *; lia).
      unfold bind at 1. rewrite view_slice_ok by (auto; cbn [dx dy dz]; lia). rewrite lift_ok.
      unfold bind at 1. rewrite slice_ok by (auto; cbn [dx dy dz]; lia). rewrite lift_ok.
      unfold bind at 1, mget at 1.
      destruct (convolve_all (l_view (fun _ : mat T => x) (sl (D3 X Y C) j 1)) (l_view (fun _ => k_w k) (sl (D3 fx fy (C * n)) (i * C + j) 1))
         oj X Y fx fy (fun x y _ => I x y j) (fun x y _ => W x y (i * C + j))) as (c & Ec & Hc); try lia.
      { intros s. apply (is_lz_sl x s (D3 X Y C)); auto; cbn [dz]; lia. }
      { intros s. apply (is_lz_sl (k_w k) s (D3 fx fy (C * n))); auto; cbn [dz]; lia. }
      unfold bind at 1. rewrite Ec, lift_ok. unfold bind at 1.
      rewrite (is_mat_dim _ _ _ Ij). unfold od at 1. rewrite slice_ok by (auto; cbn [dz]; lia). rewrite lift_ok.
      destruct (view_compound_ok op_add oj od _ (sl od i 1) c
         (fun x y _ => nsum2 fx fy (fun a b => nmul (I (a + x) (b + y) j) (W a b (i * C + j))))
         (fun x y _ => P (j + 1) x y) FO Ij) as (o' & E' & I').
      * apply sl_region; auto; unfold od; cbn [dz]; lia.
      * apply iterable_slice. unfold od, pos. cbn [dx dy dz]. lia.
      * rewrite (proj1 (Hc oj)). reflexivity.
      * intros m a b z Iab. apply (proj2 (Hc m)). exact Iab.
      * intros a b z (A1 & A2 & A3). cbn [sl vdim vstart dx dy dz od] in *. unfold op_add.
        destruct (Z.ltb_spec (i + z) i); [lia|]. destruct (Z.eqb_spec (i + z) i); [|lia].
        unfold P. rewrite nsum_S by lia. rewrite !Z.add_0_l. reflexivity.
      * fold od. exists o'. split; [exact E'|]. unfold Inv2. eapply is_mat_ext'; [exact I'|].
        intros a b z Iz. rewrite overlay_sl by exact Iz.
        destruct (Z.eqb_spec z i) as [->|]; [|reflexivity]. rewrite Z.ltb_irrefl. reflexivity.
    + unfold Inv2. eapply is_mat_ext'; [exact IV|]. intros a b z Iz. cbn beta. destruct (z <? i); [reflexivity|].
      destruct (z =? i); [|reflexivity]. unfold P. unfold nsum. rewrite fold_z_0 by lia. reflexivity.
    + unfold bind at 1. rewrite E1. unfold bind at 1, mget at 1. unfold Inv2 in I1.
      unfold bind at 1. rewrite (s32_id i) by (unfold two31 in *; lia).
      rewrite (is_mat_dim _ _ _ I1). unfold od at 1. rewrite slice_ok by (auto; cbn [dz]; lia). rewrite lift_ok. fold od.
      assert (EB : mread_flat (k_b k) i = Ok (B i 0 0)).
      { pose proof (is_mat_flat (k_b k) (D3 n 1 1) B i 0 0 HB) as Q. unfold lin in Q. cbn [dx dy] in Q.
        replace (i + n * 0 + n * 1 * 0) with i in Q by lia. apply Q. unfold inb; cbn; lia. }
      unfold bind at 1. rewrite EB, lift_ok.
      destruct (view_compound_scalar_ok op_add o1 od _ (sl od i 1) (B i 0 0) (fun x y _ => F x y i) FO I1) as (o' & E' & I').
      * apply sl_region; auto; unfold od; cbn [dz]; lia.
      * apply iterable_slice. unfold od, pos. cbn [dx dy dz]. lia.
      * intros a b z (A1 & A2 & A3). cbn [sl vdim vstart dx dy dz od] in *. unfold op_add.
        destruct (Z.ltb_spec (i + z) i); [lia|]. destruct (Z.eqb_spec (i + z) i); [|lia].
        rewrite !Z.add_0_l. reflexivity.
      * exists o'. split; [exact E'|]. unfold Inv. eapply is_mat_ext'; [exact I'|].
        intros a b z Iz. rewrite overlay_sl by exact Iz.
        destruct (Z.eqb_spec z i) as [->|].
        -- destruct (Z.ltb_spec i (i + 1)); [reflexivity|lia].
        -- destruct (Z.ltb_spec z i), (Z.ltb_spec z (i + 1)); try reflexivity; lia.
  - unfold Inv. eapply is_mat_ext'; [exact I0|]. intros a b z Iz. cbn beta. destruct (Z.ltb_spec z 0); [|reflexivity].
    unfold inb in Iz. lia.
  - exists o. unfold run_state. rewrite Eo. split; [reflexivity|]. eapply is_mat_ext'; [exact Io|].
    intros a b z Iz. cbn beta. destruct (Z.ltb_spec z n); [reflexivity|]. unfold inb, od in Iz. cbn in Iz. lia.
Qed.

Theorem k_forward_channels : forall k x, 0 <= dz (mdim x) < two31 -> 0 <= dz (k_dim k) < two31 ->
  dz (mdim x) <> dz (k_dim k) -> k_forward k x = Throw LayerExn.
Proof.
  intros k x H1 H2 H3. unfold k_forward, k_check. rewrite !u32_id31 by assumption.
  destruct (Z.eqb_spec (dz (mdim x)) (dz (k_dim k))); [contradiction|reflexivity].
Qed.

(** Gradient of the weights: Σ_i Σ_j I(i+a, j+b, c) G(i, j, f) for weight (a, b, f C + c). *)
Definition dw_elem (OX OY C : Z) (I G : Z -> Z -> Z -> T) (a b z : Z) : T :=
  nsum2 OX OY (fun i j => nmul (I (i + a) (j + b) (z mod C)) (G i j (z / C))).

Theorem k_dw_ok : forall k x g fx fy C n X Y OX OY W B I G,
  kernel_is k fx fy C n W B -> is_mat x (D3 X Y C) I -> fits (D3 X Y C) ->
  OX = X - fx + 1 -> OY = Y - fy + 1 -> 1 <= OX -> 1 <= OY ->
  is_mat g (D3 OX OY n) G -> fits (D3 OX OY n) ->
  exists dw, k_dw k x g = Ok dw /\ is_mat dw (D3 fx fy (C * n)) (dw_elem OX OY C I G).
Proof.
  intros k x g fx fy C n X Y OX OY W B I G (Hfx & Hfy & HC & Hn & FW & FB & HW & HB & Kd & Kn) HX FX EX EY HOX HOY HG FG.
  pose proof (fits_dims _ FW) as (W1 & W2 & W3). pose proof (fits_dims _ FX) as (X1 & X2 & X3).
  pose proof (fits_dims _ FG) as (O1 & O2 & O3). cbn [dx dy dz] in *.
  unfold k_dw. rewrite Kd, Kn, (is_mat_dim _ _ _ HW), (is_mat_dim _ _ _ HX), (is_mat_dim _ _ _ HG). cbn [dz].
  set (wd := D3 fx fy (C * n)) in *.
  destruct (mat_fill_ok wd n0 FW) as (d0 & E0 & I0). rewrite E0. cbn [rbind].
  set (D := dw_elem OX OY C I G).
  set (Inv := fun i (o : mat T) => is_mat o wd (fun x y z => if z <? i * C then D x y z else n0)).
  match goal with |- context [mfor n ?b d0] => destruct (mfor_inv Inv b n d0 Hn) as (o & Eo & Io) end.
  - intros i o Hi IV. unfold Inv in IV.
    pose proof (mul_small C n i HC Hi) as (M1 & M2). assert (M3 : i * C < two31) by lia.
    unfold bind at 1. rewrite slice_ok by (auto; cbn [dz]; lia). rewrite lift_ok.
    unfold bind at 1. rewrite i32_ok by (unfold two31 in *; lia). rewrite lift_ok.
    unfold bind at 1, mget at 1. unfold bind at 1. rewrite (is_mat_dim _ _ _ IV).
    unfold wd at 1. rewrite slices_ok by (auto; cbn [dx dy dz]; lia). rewrite lift_ok. fold wd.
    set (Inv2 := fun j (o : mat T) => is_mat o wd (fun x y z => if z <? i * C + j then D x y z else n0)).
    match goal with |- context [mfor C ?b] => destruct (mfor_inv Inv2 b C o HC) as (o1 & E1 & I1) end.
    + intros j oj Hj Ij. unfold Inv2 in Ij.
      unfold bind at 1. rewrite slice_ok by (auto; cbn [dx dy dz]; lia). rewrite lift_ok.
      unfold bind at 1, mget at 1.
      destruct (convolve_all (l_view (fun _ : mat T => x) (sl (D3 X Y C) j 1)) (l_view (fun _ => g) (sl (D3 OX OY n) i 1))
         oj X Y OX OY (fun x y _ => I x y j) (fun x y _ => G x y i)) as (c & Ec & Hc); try lia.
      { intros s. apply (is_lz_sl x s (D3 X Y C)); auto; cbn [dz]; lia. }
      { intros s. apply (is_lz_sl g s (D3 OX OY n)); auto; cbn [dz]; lia. }
      unfold bind at 1. rewrite Ec, lift_ok. unfold bind at 1.
      rewrite (is_mat_dim _ _ _ Ij). unfold wd at 1 2. rewrite view_slice_ok by (auto; cbn [dz]; lia). rewrite lift_ok. fold wd.
      destruct (view_assign_indep oj wd _ (sl wd (i * C + j) 1) c
         (fun x y _ => D x y (i * C + j)) FW Ij) as (o' & E' & I').
      * apply sl_region; auto; unfold wd; cbn [dz]; lia.
      * rewrite (proj1 (Hc oj)). unfold sl, wd. cbn [vdim dx dy]. f_equal; lia.
      * intros m a b z (A1 & A2 & A3). cbn [sl vdim vstart dx dy dz wd] in *.
        rewrite (proj2 (Hc m)) by (unfold inb; cbn [dx dy dz]; lia). unfold D, dw_elem.
        replace ((i * C + j) mod C) with j by (rewrite Z.add_comm, Z_mod_plus_full, Z.mod_small; lia).
        replace ((i * C + j) / C) with i by (rewrite Z.div_add_l, Z.div_small; lia). reflexivity.
      * exists o'. split; [exact E'|]. unfold Inv2. eapply is_mat_ext'; [exact I'|].
        intros a b z Iz. rewrite overlay_sl by exact Iz. rewrite Z.add_assoc.
        destruct (Z.eqb_spec z (i * C + j)) as [->|].
        -- destruct (Z.ltb_spec (i * C + j) (i * C + j + 1)); [reflexivity|lia].
        -- destruct (Z.ltb_spec z (i * C + j)), (Z.ltb_spec z (i * C + j + 1)); try reflexivity; lia.
    + unfold Inv2. rewrite Z.add_0_r. exact IV.
    + exists o1. split; [exact E1|]. unfold Inv2 in I1. unfold Inv. replace ((i + 1) * C) with (i * C + C) by lia. exact I1.
  - unfold Inv. eapply is_mat_ext'; [exact I0|]. intros a b z Iz. cbn beta. destruct (Z.ltb_spec z (0 * C)); [|reflexivity].
    unfold inb in Iz. lia.
  - exists o. unfold run_state. rewrite Eo. split; [reflexivity|]. eapply is_mat_ext'; [exact Io|].
    intros a b z Iz. cbn beta. destruct (Z.ltb_spec z (n * C)); [reflexivity|]. unfold inb, wd in Iz. cbn in Iz. lia.
Qed.

(** Gradient of the bias: the sum of the output gradient, in storage order. *)
Theorem k_db_ok : forall k g fx fy C n OX OY W B G,
  kernel_is k fx fy C n W B -> 1 <= OX -> 1 <= OY -> is_mat g (D3 OX OY n) G -> fits (D3 OX OY n) ->
  exists db, k_db k g = Ok db /\
    is_mat db (D3 n 1 1) (fun f _ _ => nsum (OX * OY * 1) (elem_no (D3 OX OY 1) (fun x y _ => G x y f))).
Proof.
  intros k g fx fy C n OX OY W B G (Hfx & Hfy & HC & Hn & FW & FB & HW & HB & Kd & Kn) HOX HOY HG FG.
  pose proof (fits_dims _ FG) as (O1 & O2 & O3). cbn [dx dy dz] in *.
  unfold k_db. rewrite Kn, (is_mat_dim _ _ _ HB), (is_mat_dim _ _ _ HG).
  destruct (mat_fill_ok (D3 n 1 1) n0 FB) as (d0 & E0 & I0). rewrite E0. cbn [rbind].
  set (D := fun f => nsum (OX * OY * 1) (elem_no (D3 OX OY 1) (fun x y _ => G x y f))).
  set (Inv := fun i (o : mat T) => is_mat o (D3 n 1 1) (fun x _ _ => if x <? i then D x else n0)).
  match goal with |- context [mfor n ?b d0] => destruct (mfor_inv Inv b n d0 Hn) as (o & Eo & Io) end.
  - intros i o Hi IV. unfold Inv in IV.
    unfold bind at 1. rewrite slice_ok by (auto; cbn [dz]; lia). rewrite lift_ok.
    assert (FS : fits (D3 OX OY 1)).
    { unfold fits in *. cbn [dx dy dz] in *. destruct FG as (_ & _ & _ & Q). split; [lia|]. split; [lia|]. split; [lia|].
      rewrite (Z.max_r 1 OX), (Z.max_r 1 OY), Z.max_r in * by lia. nia. }
    unfold bind at 1. rewrite (sum_ok _ tt (D3 OX OY 1) (fun x y _ => G x y i)).
    2:{ apply (is_lz_sl g tt (D3 OX OY n)); auto; cbn [dz]; lia. }
    2:{ exact FS. }
    2:{ left. cbn. lia. }
    rewrite lift_ok. change (vol (D3 OX OY 1)) with (OX * OY * 1). fold (D i).
    rewrite mwrite_flat_put by (destruct IV as (_ & L & _); rewrite L; unfold vol; cbn; lia).
    eexists. split; [reflexivity|]. unfold Inv.
    assert (Iq : inb (D3 n 1 1) i 0 0) by (unfold inb; cbn; lia).
    pose proof (is_mat_put o (D3 n 1 1) _ i 0 0 (D i) IV Iq) as Q.
    replace (lin (D3 n 1 1) i 0 0) with i in Q by (unfold lin; cbn; lia).
    eapply is_mat_ext'; [exact Q|]. intros x y z (A1 & A2 & A3). cbn [dx dy dz] in *. unfold fupd.
    assert (y = 0) by lia. assert (z = 0) by lia. subst y z. cbn [Z.eqb andb].
    destruct (Z.eqb_spec x i) as [->|].
    + cbn [andb]. destruct (Z.ltb_spec i (i + 1)); [reflexivity|lia].
    + cbn [andb]. destruct (Z.ltb_spec x i), (Z.ltb_spec x (i + 1)); try reflexivity; lia.
  - unfold Inv. eapply is_mat_ext'; [exact I0|]. intros a b z Iz. cbn beta. destruct (Z.ltb_spec a 0); [|reflexivity].
    unfold inb in Iz. lia.
  - exists o. unfold run_state. rewrite Eo. split; [reflexivity|]. eapply is_mat_ext'; [exact Io|].
    intros a b z Iz. cbn beta. destruct (Z.ltb_spec a n); [reflexivity|]. unfold inb in Iz. cbn in Iz. lia.
Qed.

Lemma rotate2_all : forall {S} (a : lz S T) s n f, (forall s, is_lz a s (D3 n n 1) f) -> 0 <= n < two31 ->
  exists c, mk_rotate 2 a s = Ok c /\ forall s, is_lz c s (D3 n n 1) (fun x y z => f (n - 1 - x) (n - 1 - y) z).
Proof.
  intros S a s n f H Hn. unfold mk_rotate, is_square. rewrite (proj1 (H s)). cbn [dx dy]. rewrite Z.eqb_refl.
  eexists. split; [reflexivity|]. intros s'. split; [reflexivity|]. intros x y z (A & B & C). cbn [dx dy dz] in *. cbn [lget].
  rewrite (proj1 (H s')). unfold rot_index. cbn [Z.eqb Pos.eqb dx dy dz].
  repeat (rewrite i32_ok by (unfold two31 in *; lia); cbn [rbind]).
  rewrite (proj2 (H s')) by (unfold inb; cbn; lia). f_equal. f_equal; lia.
Qed.

(** [f] surrounded by [px] rows and [py] columns of zeros. *)
Definition padded (px py fx fy : Z) (f : Z -> Z -> T) (x y : Z) : T :=
  if (px <=? x) && (x <? px + fx) && ((py <=? y) && (y <? py + fy)) then f (x - px) (y - py) else n0.

Lemma pad_input_ok : forall (a : lz (mat T) T) fx fy f sx sy sz,
  (forall s, is_lz a s (D3 fx fy 1) f) -> 1 <= fx -> 1 <= fy -> 1 <= sx < two31 -> 1 <= sy < two31 -> 
  2 * (sx - 1) < two31 -> 2 * (sy - 1) < two31 ->
  fits (D3 (fx + 2 * (sx - 1)) (fy + 2 * (sy - 1)) 1) ->
  exists p, pad_input a (D3 sx sy sz) = Ok p /\
    is_mat p (D3 (fx + 2 * (sx - 1)) (fy + 2 * (sy - 1)) 1) (fun x y _ => padded (sx - 1) (sy - 1) fx fy (fun x y => f x y 0) x y).
Proof.
  intros a fx fy f sx sy sz H Hfx Hfy Hsx Hsy Hx2 Hy2 F. pose proof (fits_dims _ F) as (F1 & F2 & F3). cbn [dx dy dz] in *.
  unfold pad_input. rewrite (proj1 (H mat_empty)). cbn [dx dy dz].
  repeat (rewrite i32_ok by (unfold two31 in *; lia); cbn [rbind]).
  set (pd := D3 (fx + 2 * (sx - 1)) (fy + 2 * (sy - 1)) 1) in *.
  destruct (mat_fill_ok pd n0 F) as (p0 & E0 & I0). rewrite E0. cbn [rbind].
  repeat (rewrite i32_ok by (unfold two31 in *; lia); cbn [rbind]).
  rewrite (is_mat_dim _ _ _ I0).
  assert (R : region_in (View (D3 (sx - 1) (sy - 1) 0) (D3 fx fy 1)) pd) by (unfold region_in, pd; cbn [vstart vdim dx dy dz]; lia).
  rewrite mk_view_ok by assumption. cbn [rbind].
  destruct (view_assign_indep p0 pd _ _ a f F I0 R) as (p & E & Ip).
  - apply (proj1 (H p0)).
  - intros m x y z I. apply (proj2 (H m)). exact I.
  - unfold run_state. rewrite E. exists p. split; [reflexivity|]. eapply is_mat_ext'; [exact Ip|].
    intros x y z (A1 & A2 & A3). unfold pd in A1, A2, A3. cbn [dx dy dz] in *. unfold overlay, padded. cbn [vstart vdim dx dy dz].
    destruct (Z.leb_spec 0 z); [|lia]. destruct (Z.ltb_spec z (0 + 1)); [|lia]. cbn [andb]. rewrite andb_true_r.
    destruct ((sx - 1 <=? x) && (x <? sx - 1 + fx) && ((sy - 1 <=? y) && (y <? sy - 1 + fy))); [|reflexivity].
    f_equal. lia.
Qed.

(** The gradient of the input that the code computes. *)
Definition dx_elem (OX OY fx fy C n : Z) (W G : Z -> Z -> Z -> T) (x y c : Z) : T :=
  nsum n (fun f => nsum2 OX OY (fun i j =>
    nmul (padded (OX - 1) (OY - 1) fx fy (fun a b => W a b (f * C + c)) (i + x) (j + y)) (G (OX - 1 - i) (OY - 1 - j) f))).

Lemma elem_add_self : forall (m0 fg : mat T) d f g, fits d -> is_mat m0 d f -> is_mat fg d g ->
  exists e, mk_elem op_add (l_ref (fun m => m)) (l_val fg) m0 = Ok e /\
  exists m1, assign_lz n0 e m0 = ORet m1 tt /\ is_mat m1 d (fun x y z => nadd (f x y z) (g x y z)).
Proof.
  intros m0 fg d f g F H0 Hg. unfold mk_elem. cbn [ldim l_ref l_val]. rewrite (is_mat_dim _ _ _ H0), (is_mat_dim _ _ _ Hg).
  unfold check_size. rewrite dim_eqb_refl. cbn [rbind]. eexists. split; [reflexivity|].
  apply assign_alias.
  - exact F.
  - eapply is_mat_consistent; eauto.
  - eapply is_mat_dim; eauto.
  - split; [reflexivity|]. intros x y z I. cbn [lget l_ref l_val].
    rewrite (is_mat_read m0 d f) by assumption. cbn [rbind]. rewrite (is_mat_read fg d g) by assumption. reflexivity.
  - intros m x y z I Dm Cm Hc. cbn [lget l_ref l_val].
    enough (mread m (D3 x y z) = mread m0 (D3 x y z)) as -> by reflexivity.
    unfold mread. rewrite Dm, (is_mat_dim _ _ _ H0). rewrite get_index_lin by assumption. cbn [rbind].
    pose proof (lin_range d x y z I). assert (C : cell m (lin d x y z) = cell m0 (lin d x y z)) by (apply Hc; lia).
    destruct H0 as (D0 & L0 & C0). pose proof (C0 x y z I) as Q.
    change (x + dx d * y + dx d * dy d * z) with (lin d x y z) in Q. rewrite Q in C.
    rewrite (vget_cell _ _ _ C), (vget_cell _ _ _ Q). reflexivity.
Qed.

Theorem k_dx_ok : forall k x g fx fy C n X Y s W B I G,
  kernel_is k fx fy C n W B -> is_mat x (D3 X Y C) I -> fits (D3 X Y C) ->
  s = X - fx + 1 -> s = Y - fy + 1 -> 1 <= s -> 2 * (s - 1) < two31 ->
  is_mat g (D3 s s n) G -> fits (D3 s s n) -> fits (D3 (fx + 2 * (s - 1)) (fy + 2 * (s - 1)) 1) ->
  exists r, k_dx k x g = Ok r /\ is_mat r (D3 X Y C) (dx_elem s s fx fy C n W G).
Proof.
  intros k x g fx fy C n X Y s W B I G (Hfx & Hfy & HC & Hn & FW & FB & HW & HB & Kd & Kn) HX FX EX EY Hs Hs2 HG FG FP.
  pose proof (fits_dims _ FW) as (W1 & W2 & W3). pose proof (fits_dims _ FX) as (X1 & X2 & X3).
  pose proof (fits_dims _ FG) as (O1 & O2 & O3). pose proof (fits_dims _ FP) as (P1 & P2 & P3). cbn [dx dy dz] in *.
  unfold k_dx. rewrite Kd, Kn, (is_mat_dim _ _ _ HW), (is_mat_dim _ _ _ HX), (is_mat_dim _ _ _ HG). cbn [dz].
  set (xd := D3 X Y C) in *.
  destruct (mat_fill_ok xd n0 FX) as (d0 & E0 & I0). rewrite E0. cbn [rbind].
  set (Q := fun f c x y => nsum2 s s (fun i j =>
    nmul (padded (s - 1) (s - 1) fx fy (fun a b => W a b (f * C + c)) (i + x) (j + y)) (G (s - 1 - i) (s - 1 - j) f))).
  set (Inv := fun i (o : mat T) => is_mat o xd (fun x y c => nsum i (fun f => Q f c x y))).
  match goal with |- context [mfor n ?b d0] => destruct (mfor_inv Inv b n d0 Hn) as (o & Eo & Io) end.
  - intros i o Hi IV. unfold Inv in IV.
    pose proof (mul_small C n i HC Hi) as (M1 & M2). assert (M3 : i * C < two31) by lia.
    unfold bind at 1. rewrite i32_ok by (unfold two31 in *; lia). rewrite lift_ok.
    unfold bind at 1. rewrite slices_ok by (auto; cbn [dx dy dz]; lia). rewrite lift_ok.
    unfold bind at 1. rewrite slice_ok by (auto; cbn [dz]; lia). rewrite lift_ok.
    unfold bind at 1, mget at 1. unfold bind at 1. rewrite (is_mat_dim _ _ _ IV).
    destruct (mat_fill_ok xd n0 FX) as (f0 & Ef0 & If0). rewrite Ef0, lift_ok.
    set (Inv2 := fun j (o : mat T) => is_mat o xd (fun x y z => if z <? j then Q i z x y else n0)).
    match goal with |- context [mfor C ?b f0] => destruct (mfor_inv Inv2 b C f0 HC) as (fg & E1 & I1) end.
    + intros j oj Hj Ij. unfold Inv2 in Ij.
      unfold bind at 1. rewrite view_slice_ok by (auto; cbn [dx dy dz]; lia). rewrite lift_ok.
      unfold bind at 1, mget at 1.
      destruct (rotate2_all (l_view (fun _ : mat T => g) (sl (D3 s s n) i 1)) oj s (fun x y _ => G x y i)) as (rot & Er & Hr); [|lia|].
      { intros s'. apply (is_lz_sl g s' (D3 s s n)); auto; cbn [dz]; lia. }
      unfold bind at 1. rewrite Er, lift_ok.
      destruct (pad_input_ok (l_view (fun _ : mat T => k_w k) (sl (D3 fx fy (C * n)) (i * C + j) 1)) fx fy (fun x y _ => W x y (i * C + j)) s s 1)
        as (pf & Ep & Hp); try lia; [|exact FP|].
      { intros s'. apply (is_lz_sl (k_w k) s' (D3 fx fy (C * n))); auto; cbn [dz]; lia. }
      unfold bind at 1. cbn [sl vdim dx dy]. rewrite Ep, lift_ok.
      destruct (convolve_all (l_val pf) rot oj (fx + 2 * (s - 1)) (fy + 2 * (s - 1)) s s
         (fun x y _ => padded (s - 1) (s - 1) fx fy (fun x y => W x y (i * C + j)) x y)
         (fun x y z => G (s - 1 - x) (s - 1 - y) i)) as (c & Ec & Hc); try lia.
      { intros s'. apply is_mat_lz; assumption. }
      { exact Hr. }
      unfold bind at 1. rewrite Ec, lift_ok. unfold bind at 1.
      rewrite (is_mat_dim _ _ _ Ij). unfold xd at 1. rewrite slice_ok by (auto; cbn [dz]; lia). rewrite lift_ok. fold xd.
      destruct (view_assign_indep oj xd _ (sl xd j 1) c (fun x y _ => Q i j x y) FX Ij) as (o' & E' & I').
      * apply sl_region; auto; unfold xd; cbn [dz]; lia.
      * rewrite (proj1 (Hc oj)). unfold sl, xd. cbn [vdim dx dy]. f_equal; lia.
      * intros m a b z (A1 & A2 & A3). cbn [sl vdim vstart dx dy dz xd] in *.
        rewrite (proj2 (Hc m)) by (unfold inb; cbn [dx dy dz]; lia). reflexivity.
      * exists o'. split; [exact E'|]. unfold Inv2. eapply is_mat_ext'; [exact I'|].
        intros a b z Iz. rewrite overlay_sl by exact Iz.
        destruct (Z.eqb_spec z j) as [->|].
        -- destruct (Z.ltb_spec j (j + 1)); [reflexivity|lia].
        -- destruct (Z.ltb_spec z j), (Z.ltb_spec z (j + 1)); try reflexivity; lia.
    + unfold Inv2. eapply is_mat_ext'; [exact If0|]. intros a b z Iz. cbn beta. destruct (Z.ltb_spec z 0); [|reflexivity].
      unfold inb in Iz. lia.
    + unfold bind at 1. unfold run_state at 1. rewrite E1, lift_ok. unfold Inv2 in I1.
      destruct (elem_add_self o fg xd _ _ FX IV I1) as (e & Ee & m1 & Em & Im).
      unfold bind at 1. rewrite Ee, lift_ok. exists m1. split; [exact Em|]. unfold Inv.
      eapply is_mat_ext'; [exact Im|]. intros a b z Iz. cbn beta. rewrite nsum_S by lia.
      destruct (Z.ltb_spec z C); [reflexivity|]. unfold inb, xd in Iz. cbn in Iz. lia.
  - unfold Inv. eapply is_mat_ext'; [exact I0|]. intros a b z Iz. cbn beta. unfold nsum. rewrite fold_z_0 by lia. reflexivity.
  - exists o. unfold run_state at 1. rewrite Eo. split; [reflexivity|]. exact Io.
Qed.
End KernelThms.
