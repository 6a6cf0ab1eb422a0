(** Pooling of inputs that are smaller than the pool, for sizes that single precision does not represent. *)
From Coq Require Import ZArith List Bool Lia Reals Lra.
From Flocq Require Import Core.Core IEEE754.BinarySingleNaN Relative.
From Verif Require Import Base Dim Matrix View Num Expr Spec Iter MatFacts TreeThms MatThms ViewThms ExprThms Sums Batch Float32 FloatFacts Pooling LayerFacts PoolingThms.
Import ListNotations.
Local Open Scope Z_scope.
Local Notation fexp32 := (SpecFloat.fexp 24 128).
Local Notation rnd32 := (round radix2 fexp32 ZnearestE).
#[local] Instance valid32 : Valid_exp fexp32 := fexp_correct 24 128 prec32.

Lemma rnd_near : forall x, (bpow radix2 (-126) <= Rabs x)%R -> (Rabs (rnd32 x - x) <= / 1000 * Rabs x)%R.
Proof.
  intros x H. pose proof (relative_error_N_FLT radix2 (-149) 24 eq_refl (fun z => negb (Z.even z)) x H) as Q.
  change (FLT_exp (-149) 24) with fexp32 in Q. eapply Rle_trans; [exact Q|].
  apply Rmult_le_compat_r; [apply Rabs_pos|]. cbn. lra.
Qed.

(** The sign of the size, and its magnitude up to a factor of two *)
Lemma ceil_div1_size : forall a s, - 2 ^ 30 <= a < 2 ^ 30 - 1 -> 1 <= s < two31 ->
  exists c, ceil_div1 a s = Ok c /\ Z.min 0 (2 * (a + 1)) <= c <= Z.max 0 (2 * (a + 1)).
Proof.
  intros a s Ha Hs.
  destruct (Z.eq_dec a (-1)) as [->|Na].
  { destruct (ceil_div1_neg_low (-1) s ltac:(lia) Hs) as (c & E & B). exists c. split; [exact E|lia]. }
  unfold ceil_div1.
  destruct (of_Z_correct s ltac:(lia)) as [Es Fs].
  assert (R1 : - two31 <= a <= two31) by (unfold two31 in *; lia).
  destruct (add_correct a 1 R1 ltac:(lia)) as [Fa Ea]. cbv zeta in *.
  assert (S1 : (1 <= B2R (f32_of_Z s))%R).
  { rewrite Es. apply round_ge_generic; [ typeclasses eauto | typeclasses eauto | apply (int_format 1); lia | ]. apply IZR_le. lia. }
  assert (S2 : (B2R (f32_of_Z s) <= bpow radix2 31)%R).
  { pose proof (two31_format s ltac:(lia)) as Q. rewrite Es. eapply Rle_trans; [apply Rle_abs|exact Q]. }
  destruct (div_correct (f32_add (f32_of_Z a) (f32_of_Z 1)) (f32_of_Z s)) as [Fd Ed]; auto.
  { apply add_bound; auto; lia. }
  rewrite ceil_correct by auto. rewrite Ed, Ea. set (t := B2R (f32_of_Z s)) in *.
  assert (L126 : (bpow radix2 (-126) <= / 1000000000000)%R) by (cbn; lra).
  assert (A1 : (Rabs (IZR a) <= 2 * Rabs (IZR (a + 1)))%R).
  { rewrite <- !abs_IZR, <- mult_IZR. apply IZR_le. lia. }
  assert (A2 : (1 <= Rabs (IZR (a + 1)))%R) by (rewrite <- abs_IZR; apply IZR_le; lia).
  set (r := rnd32 (IZR a)).
  assert (B1 : (Rabs (r - IZR a) <= / 500 * Rabs (IZR (a + 1)))%R).
  { destruct (Z.eq_dec a 0) as [->|Z0].
    - unfold r. rewrite round_0 by typeclasses eauto. rewrite Rminus_0_r, Rabs_R0. cbn. rewrite Rabs_R1. lra.
    - pose proof (rnd_near (IZR a)) as Q. assert (1 <= Rabs (IZR a))%R by (rewrite <- abs_IZR; apply IZR_le; lia).
      specialize (Q ltac:(lra)). fold r in Q. lra. }
  set (v := (r + 1)%R). assert (Pv : (IZR (a + 1) = IZR a + 1)%R) by (rewrite plus_IZR; reflexivity).
  assert (B2 : (Rabs (v - IZR (a + 1)) <= / 500 * Rabs (IZR (a + 1)))%R).
  { replace (v - IZR (a + 1))%R with (r - IZR a)%R by (unfold v; rewrite Pv; ring). exact B1. }
  assert (B3 : (Rabs v >= / 2)%R /\ (Rabs v <= (1 + / 500) * Rabs (IZR (a + 1)))%R).
  { pose proof (Rabs_triang_inv (IZR (a + 1)) v). pose proof (Rabs_triang_inv v (IZR (a + 1))). rewrite (Rabs_minus_sym (IZR (a + 1)) v) in *. lra. }
  pose proof (rnd_near v ltac:(lra)) as B4. set (w := rnd32 v) in *.
  assert (B5 : (Rabs w >= / 4)%R /\ (Rabs w <= (1 + / 200) * Rabs (IZR (a + 1)))%R).
  { pose proof (Rabs_triang_inv w v). pose proof (Rabs_triang_inv v w). rewrite (Rabs_minus_sym v w) in *. lra. }
  assert (It : (0 < / t <= 1)%R).
  { split; [apply Rinv_0_lt_compat; lra|]. rewrite <- Rinv_1. apply Rinv_le_contravar; lra. }
  assert (It2 : (/ 10000000000 <= / t)%R).
  { apply Rinv_le_contravar; [lra|]. eapply Rle_trans; [exact S2|]. cbn. lra. }
  assert (B6 : (Rabs (w / t) = Rabs w * / t)%R).
  { unfold Rdiv. rewrite Rabs_mult, (Rabs_pos_eq (/ t)) by lra. reflexivity. }
  assert (B7 : (Rabs (w / t) >= / 100000000000)%R) by (rewrite B6; nra).
  assert (B8 : (Rabs (w / t) <= (1 + / 200) * Rabs (IZR (a + 1)))%R) by (rewrite B6; nra).
  pose proof (rnd_near (w / t) ltac:(lra)) as B9. set (z := rnd32 (w / t)) in *.
  assert (BZ : (Rabs z <= 2 * Rabs (IZR (a + 1)))%R).
  { pose proof (Rabs_triang_inv z (w / t)). lra. }
  assert (SG : (0 <= a -> (0 <= z)%R) /\ (a < 0 -> (z <= 0)%R)).
  { unfold Rdiv in *. split; intro H.
    - assert (0 <= IZR (a + 1))%R by (apply IZR_le; lia). rewrite (Rabs_pos_eq (IZR (a + 1))) in * by lra.
      assert (0 <= v)%R by (apply Rabs_le_inv in B2; lra).
      assert (0 <= w)%R by (unfold w; rewrite <- (round_0 radix2 fexp32 ZnearestE); apply round_le; [typeclasses eauto|typeclasses eauto|lra]).
      unfold z. rewrite <- (round_0 radix2 fexp32 ZnearestE). apply round_le; [typeclasses eauto|typeclasses eauto|]. nra.
    - assert (IZR (a + 1) <= 0)%R by (apply IZR_le; lia). rewrite (Rabs_left1 (IZR (a + 1))) in * by lra.
      assert (v <= 0)%R by (apply Rabs_le_inv in B2; lra).
      assert (w <= 0)%R by (unfold w; rewrite <- (round_0 radix2 fexp32 ZnearestE); apply round_le; [typeclasses eauto|typeclasses eauto|lra]).
      unfold z. rewrite <- (round_0 radix2 fexp32 ZnearestE). apply round_le; [typeclasses eauto|typeclasses eauto|]. nra. }
  assert (CB : Z.min 0 (2 * (a + 1)) <= Zceil z <= Z.max 0 (2 * (a + 1))).
  { rewrite <- abs_IZR, <- mult_IZR in BZ. apply Rabs_le_inv in BZ. destruct BZ as [BL BU]. destruct SG as [SP SN].
    split.
    - apply le_IZR. eapply Rle_trans; [|apply Zceil_ub]. destruct (Z_lt_le_dec a 0) as [L|L].
      + eapply Rle_trans; [|exact BL]. rewrite <- opp_IZR. apply IZR_le. lia.
      + eapply Rle_trans; [|apply SP; lia]. apply IZR_le. lia.
    - apply Zceil_glb. destruct (Z_lt_le_dec a 0) as [L|L].
      + eapply Rle_trans; [apply SN; lia|]. apply IZR_le. lia.
      + eapply Rle_trans; [exact BU|]. apply IZR_le. lia. }
  exists (Zceil z). split; [apply i32_ok; unfold two31; lia|exact CB].
Qed.

(** An input smaller than the pool raises an exception. *)
Theorem q_forward_smaller : forall {T} {N : Num T} q (x : mat T) I X Y C slot s0,
  is_mat x (D3 X Y C) I -> 1 <= X -> 1 <= Y -> 1 <= C ->
  1 <= dx (q_dim q) -> 1 <= dy (q_dim q) -> 1 <= dx (q_stride q) < two31 -> 1 <= dy (q_stride q) < two31 ->
  Z.max X (dx (q_dim q)) * Z.max Y (dy (q_dim q)) * C < 2 ^ 29 ->
  vget (q_idx q) slot = Ok s0 ->
  (X < dx (q_dim q) \/ Y < dy (q_dim q)) ->
  exists q' e, q_forward x slot q = OThrow q' e /\ (e = LengthError \/ e = MatrixSize).
Proof.
  intros T N q x I X Y C slot s0 HX X1 Y1 C1 QX QY SX SY V ES SM.
  unfold q_forward. rewrite (is_mat_dim _ _ _ HX).
  set (mx := Z.max X (dx (q_dim q))) in *. set (my := Z.max Y (dy (q_dim q))) in *.
  assert (M1 : X <= mx /\ dx (q_dim q) <= mx /\ Y <= my /\ dy (q_dim q) <= my) by lia. assert (M2 : 1 <= mx /\ 1 <= my) by lia. clearbody mx my.
  assert (M3 : mx <= 2 ^ 29 /\ my <= 2 ^ 29) by (assert (mx <= mx * my) by nia; assert (my <= mx * my) by nia; assert (mx * my <= mx * my * C) by nia; lia).
  assert (P : exists cx cy, q_outdim q (D3 X Y C) = Ok (D3 cx cy C) /\ - (2 * mx) <= cx <= 2 * mx /\ - (2 * my) <= cy <= 2 * my /\ (X < dx (q_dim q) -> cx <= 0) /\ (Y < dy (q_dim q) -> cy <= 0)).
  { unfold q_outdim. cbn [dx dy dz].
    destruct (ceil_div1_size (X - dx (q_dim q)) (dx (q_stride q))) as (cx & Ex & Bx); [lia|lia|].
    destruct (ceil_div1_size (Y - dy (q_dim q)) (dy (q_stride q))) as (cy & Ey & By); [lia|lia|].
    exists cx, cy. rewrite i32_ok by (unfold two31; lia). cbn [rbind]. rewrite Ex. cbn [rbind].
    rewrite i32_ok by (unfold two31; lia). cbn [rbind]. rewrite Ey. cbn [rbind]. split; [reflexivity|]. clear - Bx By M1 M2 X1 Y1 QX QY. lia. }
  destruct P as (cx & cy & EO & Bx & By & _). rewrite EO. cbn [rbind].
  assert (Ip : int_prod (D3 cx cy C) = Ok (cx * cy * C)).
  { assert (A1 : Z.abs cx * Z.abs cy <= 2 * mx * (2 * my)) by (apply Z.mul_le_mono_nonneg; lia).
    assert (A2 : Z.abs cx * Z.abs cy * C < two31) by (apply Z.le_lt_trans with (2 * mx * (2 * my) * C); [apply Z.mul_le_mono_nonneg_r; lia|unfold two31; lia]).
    assert (A0 : 0 <= Z.abs cx * Z.abs cy) by nia.
    assert (A3 : Z.abs cx * Z.abs cy < two31) by (clear - A0 A2 C1; set (p := Z.abs cx * Z.abs cy) in *; nia).
    rewrite <- Z.abs_mul in *. replace (Z.abs (cx * cy) * C) with (Z.abs (cx * cy * C)) in A2 by (rewrite (Z.abs_mul _ C), (Z.abs_eq C); lia).
    unfold int_prod. cbn [dx dy dz]. rewrite i32_ok by lia. cbn [rbind]. rewrite i32_ok by lia. reflexivity. }
  unfold mat_fill at 1. rewrite Ip. cbn [rbind].
  destruct (Z.ltb_spec (cx * cy * C) 0) as [L|L]; cbn [rbind]; [exists q, LengthError; auto|].
  rewrite ES. cbn [rbind mdim].
  assert (exists s1, resize (dim_fill 0) (D3 cx cy C) s0 = ORet s1 tt) as (s1 & Er).
  { unfold resize. rewrite Ip. unfold vec_resize. destruct (Z.ltb_spec (cx * cy * C) 0); [lia|]. eauto. }
  rewrite Er. rewrite it_loop_mfor by (cbn [dz]; lia). cbn [dx dy dz].
  assert (V1 : 1 <= Z.max 1 cx * Z.max 1 cy) by (apply (Z.mul_le_mono_nonneg 1 _ 1); lia).
  replace (Z.max 1 cx * Z.max 1 cy * C) with (Z.max 1 cx * Z.max 1 cy * C - 1 + 1) by lia.
  unfold mfor. replace (Z.to_nat (Z.max 1 cx * Z.max 1 cy * C - 1 + 1)) with (Datatypes.S (Z.to_nat (Z.max 1 cx * Z.max 1 cy * C - 1))) by (clear - V1 C1; set (p := Z.max 1 cx * Z.max 1 cy) in *; assert (1 <= p * C) by nia; lia).
  cbn [mfor_n]. unfold bind at 1.
  replace (idx_of (Z.max 1 cx) (Z.max 1 cy) 0) with (D3 0 0 0) by (unfold idx_of; rewrite !Z.div_0_l, !Z.mod_0_l by lia; reflexivity).
  unfold q_step. unfold bind at 1, q_corner. cbn [dx dy dz]. rewrite !Z.mul_0_l. rewrite i32_ok by (unfold two31; lia). cbn [rbind].
  rewrite lift_ok. unfold bind at 1. rewrite (is_mat_dim _ _ _ HX). unfold q_size. rewrite mk_view_throw.
  - cbn [lift]. eauto.
  - unfold nonneg; cbn; lia.
  - unfold nonneg; cbn; lia.
  - unfold below31; cbn; unfold two31; lia.
  - unfold region_in; cbn; lia.
Qed.

Lemma mfor_n_step : forall {S} (body : Z -> M S unit) n a s s', mfor_n n a body s = ORet s' tt ->
  forall k, a <= k < a + Z.of_nat n -> exists s1 s2, body k s1 = ORet s2 tt.
Proof.
  intros S body n. induction n as [|n IH]; intros a s s' E k K; [lia|]. cbn [mfor_n] in E. unfold bind in E.
  destruct (body a s) as [s1 []| |] eqn:B; try discriminate. destruct (Z.eq_dec k a) as [->|]; [eauto|]. apply (IH (a + 1) s1 s' E). lia.
Qed.

(** The pool has room at every position of the output of a pass that returns. *)
Lemma forward_inside : forall {T} {N : Num T} (x : mat T) slot q q' o X Y C W H, mdim x = D3 X Y C -> q_outdim q (mdim x) = Ok (D3 W H C) ->
  1 <= W -> 1 <= H -> 1 <= C -> 0 <= dx (q_dim q) -> 0 <= dy (q_dim q) -> 0 <= dx (q_stride q) -> 0 <= dy (q_stride q) ->
  (W - 1) * dx (q_stride q) + dx (q_dim q) < two31 -> (H - 1) * dy (q_stride q) + dy (q_dim q) < two31 -> C < two31 ->
  q_forward x slot q = ORet q' o -> forall i j, 0 <= i < W -> 0 <= j < H ->
  i * dx (q_stride q) + dx (q_dim q) <= X /\ j * dy (q_stride q) + dy (q_dim q) <= Y.
Proof.
  intros T N x slot q q' o X Y C W H EX EO W1 H1 C1 P1 P2 P3 P4 B1 B2 B3 F i j I J.
  unfold q_forward in F. rewrite EO in F. cbn [rbind] in F. unfold mat_fill in F.
  destruct (int_prod (D3 W H C)) as [n| |]; cbn [rbind] in F; try discriminate.
  destruct (n <? 0); cbn [rbind] in F; try discriminate. destruct (vget (q_idx q) slot) as [s| |]; cbn [rbind] in F; try discriminate.
  cbn [mdim] in F. destruct (resize (dim_fill 0) (D3 W H C) s) as [s1 []| |]; try discriminate.
  match type of F with match ?l with _ => _ end = _ => destruct l as [[o' s'] []|[o' s'] e|] eqn:L; try discriminate end.
  rewrite it_loop_mfor in L by (cbn [dz]; lia). cbn [dx dy dz] in L. rewrite !Z.max_r in L by lia. unfold mfor in L.
  assert (K0 : 0 <= i + j * W < W * H) by nia.
  assert (K1 : W * H <= W * H * C) by nia.
  destruct (mfor_n_step _ _ _ _ _ L (i + j * W)) as (t1 & t2 & Q); [lia|].
  replace (idx_of W H (i + j * W)) with (D3 i j 0) in Q.
  2:{ unfold idx_of. rewrite Z.mod_add, Z.div_add by lia. rewrite (Z.mod_small i), (Z.div_small i) by lia. rewrite Z.add_0_l.
      rewrite Z.mod_small, (Z.div_small (i + j * W)) by lia. reflexivity. }
  unfold q_step, bind at 1 in Q. unfold q_corner in Q. cbn [dx dy dz] in Q.
  assert (M1 : 0 <= i * dx (q_stride q) <= (W - 1) * dx (q_stride q)) by (split; [apply Z.mul_nonneg_nonneg; lia|apply Z.mul_le_mono_nonneg_r; lia]).
  assert (M2 : 0 <= j * dy (q_stride q) <= (H - 1) * dy (q_stride q)) by (split; [apply Z.mul_nonneg_nonneg; lia|apply Z.mul_le_mono_nonneg_r; lia]).
  rewrite !i32_ok in Q by (clear - M1 M2 B1 B2 P1 P2; unfold two31 in *; lia). cbn [rbind] in Q. rewrite lift_ok in Q. unfold bind at 1 in Q. unfold q_size in Q.
  rewrite EX in Q.
  assert (NO : forall s d, nonneg s -> nonneg d -> below31 s d -> ~ region_in (View s d) (D3 X Y C) -> mk_view (D3 X Y C) s d = Throw MatrixSize) by (intros; apply mk_view_throw; assumption).
  destruct (Z_le_gt_dec (i * dx (q_stride q) + dx (q_dim q)) X) as [A|A].
  - destruct (Z_le_gt_dec (j * dy (q_stride q) + dy (q_dim q)) Y) as [B|B]; [auto|exfalso].
    rewrite NO in Q; [discriminate Q| | | |].
    + unfold nonneg; cbn; lia.
    + unfold nonneg; cbn; lia.
    + unfold below31; cbn; unfold two31 in *; lia.
    + unfold region_in; cbn; lia.
  - exfalso. rewrite NO in Q; [discriminate Q| | | |].
    + unfold nonneg; cbn; lia.
    + unfold nonneg; cbn; lia.
    + unfold below31; cbn; unfold two31 in *; lia.
    + unfold region_in; cbn; lia.
Qed.

(** 16777219 columns, pool 1x1, stride 1: the output has one column more, where there is no room. *)
Theorem forward_large : forall {T} {N : Num T} (x : mat T) t idx slot q' o, mdim x = D3 (2 ^ 24 + 3) 1 1 ->
  q_forward x slot (Pool (D3 1 1 1) (D3 1 1 1) t idx) <> ORet q' o.
Proof.
  intros T N x t idx slot q' o EX F.
  assert (EO : q_outdim (Pool (D3 1 1 1) (D3 1 1 1) t idx) (mdim x) = Ok (D3 (2 ^ 24 + 4) 1 1)) by (rewrite EX; vm_compute; reflexivity).
  pose proof (forward_inside x slot _ q' o _ _ _ _ _ EX EO) as Q. cbn [q_stride q_dim dx dy] in Q. unfold two31 in Q.
  specialize (Q ltac:(lia) ltac:(lia) ltac:(lia) ltac:(lia) ltac:(lia) ltac:(lia) ltac:(lia) ltac:(lia) ltac:(lia) ltac:(lia) F (2 ^ 24 + 3) 0 ltac:(lia) ltac:(lia)). lia.
Qed.

(** The size of the output is not an int. *)
Theorem forward_int : forall {T} {N : Num T} (x : mat T) t idx slot, mdim x = D3 (2 ^ 31 - 1) 1 1 ->
  q_forward x slot (Pool (D3 1 2 1) (D3 1 1 1) t idx) = OUB.
Proof.
  intros T N x t idx slot EX. unfold q_forward.
  assert (EO : q_outdim (Pool (D3 1 2 1) (D3 1 1 1) t idx) (mdim x) = UB) by (rewrite EX; vm_compute; reflexivity).
  rewrite EO. reflexivity.
Qed.

(** Both sizes are negative, and their product is not an int. *)
Theorem forward_overflow : forall {T} {N : Num T} (x : mat T) t idx slot, mdim x = D3 1 1 1 ->
  q_forward x slot (Pool (D3 50000 50000 1) (D3 1 1 1) t idx) = OUB.
Proof.
  intros T N x t idx slot EX. unfold q_forward.
  assert (EO : q_outdim (Pool (D3 50000 50000 1) (D3 1 1 1) t idx) (mdim x) = Ok (D3 (- 49998) (- 49998) 1)) by (rewrite EX; vm_compute; reflexivity).
  rewrite EO. reflexivity.
Qed.
