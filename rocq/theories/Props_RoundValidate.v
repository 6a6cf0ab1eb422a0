(** C106: the number of recognised images with doubles. *)
From Coq Require Import ZArith List Bool Lia Reals Lra.
From Flocq Require Import Core BinarySingleNaN.
From Verif Require Import Base Dim Matrix View Num Expr Spec Iter MatFacts Sums ExprThms Batch Kernel Connected Pooling PoolingThms PoolGrad Activation ActivationThms
  Softmax SoftmaxThms LayerFacts LayerTotal Calc Chars Double Float32 FloatFacts Bar BarFacts Model Net NetThms NetPass NetGrad ModelThms TrainNet Shapes ShapeNet Main FiniteFacts FiniteSoft FiniteNet FiniteReal FiniteMain
  Rounding RoundLayers RoundNet RoundPass RoundBack RoundTrain Mnist MnistFacts Validate ValidateFacts ValidateStep ValidateRun ValidateThms Props_Validate RoundValidate.
Import ListNotations.
Local Open Scope Z_scope.

(** ** C106 *)
(** [pixels h w fi i]: the floats of image [i]; [grey h w fi i]: the numbers (byte - 128) / 255. [leads d X t k]: element number [k] of
    [X] is larger than all others by more than [t]. [named labels k b]: the text of label [k] is the decimal text of the byte [b].
    [F i]: an image within 2^g of the floats of image [i]. [close i]: nothing is assumed about image [i]. *)
Theorem C106_count : forall E, acc_ok E -> forall wd labels body sm ss h w big limit n fi fl nt g (F : Z -> fn),
  usable_net labels (body ++ [LSoft sm]) ss (D3 h w 1) -> mnist limit n h w fi fl -> 1 <= nt -> n + nt <= 2 ^ 31 ->
  net_small wd body ss (D3 h w 1) -> 0 <= wd -> h_net_lim 127 wd ss (D3 h w 1) 0 -> h_net_exp wd ss (D3 h w 1) 0 <= 49 -> h_net_err wd ss (D3 h w 1) 0 g <= -2 ->
  (forall i r c, 0 <= i < n -> 0 <= r < h -> 0 <= c < w -> (Rabs (pixels h w fi i r c 0%Z - F i r c 0%Z) <= bpow radix2 g)%R) ->
  forall (win : Z -> Z) (close : Z -> bool),
  (forall i, 0 <= i < n -> close i = false -> leads (h_net_out ss (D3 h w 1)) (net_sem (real_net ss body) (D3 h w 1) (F i)) (bpow radix2 (h_net_err wd ss (D3 h w 1) 0 g + 1) + bpow radix2 (-50)) (win i)) ->
  forall o, validation E d_of_f32 labels big limit (Readable fi) (Readable fl) nt (body ++ [LSoft sm]) o ->
  exists ls' rd count, o = ORet ls' (count, n, rd) /\ Z.abs (count - tally n (fun i => named labels (win i) (f_byte fl (8 + i)))) <= tally n close.
Proof. exact validate_near. Qed.
Print Assumptions C106_count.

(** The exact numbers (byte - 128) / 255 *)
Theorem C106_bytes : forall E, acc_ok E -> forall wd labels body sm ss h w big limit n fi fl nt,
  usable_net labels (body ++ [LSoft sm]) ss (D3 h w 1) -> mnist limit n h w fi fl -> 1 <= nt -> n + nt <= 2 ^ 31 ->
  net_small wd body ss (D3 h w 1) -> 0 <= wd -> h_net_lim 127 wd ss (D3 h w 1) 0 -> h_net_exp wd ss (D3 h w 1) 0 <= 49 -> h_net_err wd ss (D3 h w 1) 0 (-24) <= -2 ->
  forall (win : Z -> Z) (close : Z -> bool),
  (forall i, 0 <= i < n -> close i = false -> leads (h_net_out ss (D3 h w 1)) (net_sem (real_net ss body) (D3 h w 1) (grey h w fi i)) (bpow radix2 (h_net_err wd ss (D3 h w 1) 0 (-24) + 1) + bpow radix2 (-50)) (win i)) ->
  forall o, validation E d_of_f32 labels big limit (Readable fi) (Readable fl) nt (body ++ [LSoft sm]) o ->
  exists ls' rd count, o = ORet ls' (count, n, rd) /\ Z.abs (count - tally n (fun i => named labels (win i) (f_byte fl (8 + i)))) <= tally n close.
Proof. exact validate_grey. Qed.
Print Assumptions C106_bytes.

(** The network of main.cpp with parameters of absolute value at most 16: a lead of 2^-12 is enough. *)
Theorem C106_main : forall E, acc_ok E -> forall body sm big limit n fi fl nt,
  usable_net main_labels (body ++ [LSoft sm]) main_shapes (D3 28 28 1) -> mnist limit n 28 28 fi fl -> 1 <= nt -> n + nt <= 2 ^ 31 ->
  net_small 4 body main_shapes (D3 28 28 1) ->
  forall (win : Z -> Z) (close : Z -> bool),
  (forall i, 0 <= i < n -> close i = false -> 0 <= win i < 10 /\ forall k, 0 <= k < 10 -> k <> win i ->
    let X := net_sem (real_net main_shapes body) (D3 28 28 1) (pixels 28 28 fi i) in (X k 0%Z 0%Z + bpow radix2 (-12) < X (win i) 0%Z 0%Z)%R) ->
  forall o, validation E d_of_f32 main_labels big limit (Readable fi) (Readable fl) nt (body ++ [LSoft sm]) o ->
  exists ls' rd count, o = ORet ls' (count, n, rd) /\ Z.abs (count - tally n (fun i => named main_labels (win i) (f_byte fl (8 + i)))) <= tally n close.
Proof. exact validate_main. Qed.
Print Assumptions C106_main.

(** The files of C72: the largest element is in the upper, the lower and the lower half. Two of the three images are recognised,
    with two threads in any order of steps. *)
Definition dx_net : list (layer double) := [LPool (Pool (D3 2 2 0) (D3 2 2 0) PMax [mat_empty])].
Lemma dx_usable : usable_net vx_names (dx_net ++ [LSoft (sm_make 2)]) [HPool PMax 2 2 2 2] (D3 4 2 1).
Proof.
  split.
  - exists dx_net, (sm_make 2). split; [reflexivity|]. split; [reflexivity|].
    split; [|split; [repeat constructor|]].
    + cbn [dx_net net_fit l_fit h_out]. split; [split; [|reflexivity]|exact Logic.I]. repeat split.
    + constructor; [|constructor]. exists mat_empty. split; [reflexivity|]. vm_compute. intuition congruence.
  - cbn [h_net_ok h_out]. split; [|split; vm_compute; intuition congruence]. unfold h_ok. vm_compute. intuition congruence.
  - vm_compute. intuition congruence.
Qed.
Lemma dx_pool : forall (F : fn) i, 0 <= i < 2 -> let X := net_sem (real_net [HPool PMax 2 2 2 2] dx_net) (D3 4 2 1) F in
  (exists x y, 2 * i <= x < 2 * i + 2 /\ 0 <= y < 2 /\ X i 0%Z 0%Z = F x y 0%Z) /\ forall x y, 2 * i <= x < 2 * i + 2 -> 0 <= y < 2 -> (F x y 0%Z <= X i 0%Z 0%Z)%R.
Proof.
  intros F i Hi X. unfold X. cbn [dx_net real_net real_layer net_sem sem]. set (g := pgeom 2 2 2 2 (D3 4 2 1)).
  assert (G : geom_ok g) by (vm_compute; intuition congruence).
  destruct (pool_sel_ok PMax g F G ltac:(discriminate) i 0 0) as (Z1 & (W1 & W2) & M & _).
  { unfold inb, odim, g. cbn. lia. }
  cbv zeta. set (p := pool_sel PMax g F i 0 0) in *. unfold in_win in *. cbn [g pgeom g_sx g_sy g_qx g_qy] in *. split.
  - exists (dx p), (dy p). repeat split; lia.
  - intros x y Hx Hy. specialize (M x y ltac:(lia)). cbn [better_of nltb NumR] in M. destruct (Rle_dec (F x y 0%Z) (F (dx p) (dy p) 0%Z)) as [|NL]; [assumption|].
    unfold lt_max in M. cbn [nltb NumR] in M. unfold Rltb in M. destruct (Rlt_dec (F (dx p) (dy p) 0%Z) (F x y 0%Z)); [discriminate|lra].
Qed.
Lemma dx_leads : forall F k x y (t : R), 0 <= k < 2 -> 2 * k <= x < 2 * k + 2 -> 0 <= y < 2 ->
  (forall x' y', 2 * (1 - k) <= x' < 2 * (1 - k) + 2 -> 0 <= y' < 2 -> (F x' y' 0%Z + t < F x y 0%Z)%R) ->
  leads (D3 2 1 1) (net_sem (real_net [HPool PMax 2 2 2 2] dx_net) (D3 4 2 1) F) t k.
Proof.
  intros F k x y t Hk Hx Hy H. exists k, 0, 0. split; [unfold inb; cbn [dx dy dz]; lia|]. split; [unfold lin; cbn [dx dy dz]; lia|].
  intros a b c (I1 & I2 & I3) NE. cbn [dx dy dz] in *. assert (b = 0) by lia. assert (c = 0) by lia. subst b c.
  assert (a = 1 - k) as -> by (assert (a <> k) by congruence; lia).
  destruct (dx_pool F k Hk) as (_ & L). destruct (dx_pool F (1 - k) ltac:(lia)) as ((x' & y' & X' & Y' & ->) & _). specialize (L x y Hx Hy). specialize (H x' y' X' Y'). lra.
Qed.
Definition dx_win (i : Z) : Z := if i =? 0 then 0 else 1.
Example C106_ex : forall E, acc_ok E -> forall big o, validation E d_of_f32 vx_names big (2 ^ 62) (Readable vx_images) (Readable vx_labels) 2 (dx_net ++ [LSoft (sm_make 2)]) o ->
  exists ls' rd, o = ORet ls' (2, 3, rd).
Proof.
  intros E AO big o V.
  destruct (C106_bytes E AO 0 vx_names dx_net (sm_make 2) [HPool PMax 2 2 2 2] 4 2 big (2 ^ 62) 3 vx_images vx_labels 2 dx_usable vx_mnist ltac:(lia) ltac:(lia)) with (win := dx_win) (close := fun _ : Z => false) (o := o)
    as (ls' & rd & count & EO & D); try assumption.
  - cbn. auto.
  - lia.
  - vm_compute. intuition congruence.
  - vm_compute. congruence.
  - vm_compute. congruence.
  - intros i Hi _. change (h_net_out [HPool PMax 2 2 2 2] (D3 4 2 1)) with (D3 2 1 1). set (t := (_ + _)%R).
    assert (T : (t < 1 / 255)%R) by (unfold t; vm_compute h_net_err; cbn; lra).
    assert (K : forall k x y b, 0 <= k < 2 -> 2 * k <= x < 2 * k + 2 -> 0 <= y < 2 -> f_byte vx_images (16 + i * 4 * 2 + x * 2 + y) = b ->
      (forall x' y', 2 * (1 - k) <= x' < 2 * (1 - k) + 2 -> 0 <= y' < 2 -> f_byte vx_images (16 + i * 4 * 2 + x' * 2 + y') < b) ->
      leads (D3 2 1 1) (net_sem (real_net [HPool PMax 2 2 2 2] dx_net) (D3 4 2 1) (grey 4 2 vx_images i)) t k).
    { intros k x y b Hk Hx Hy B1 B2. apply (dx_leads _ k x y t Hk Hx Hy). intros x' y' Hx' Hy'. specialize (B2 x' y' Hx' Hy'). unfold grey. rewrite B1.
      assert (IZR (f_byte vx_images (16 + i * 4 * 2 + x' * 2 + y')) <= IZR b - 1)%R by (rewrite <- minus_IZR; apply IZR_le; lia). lra. }
    assert (C : i = 0 \/ i = 1 \/ i = 2) by lia.
    assert (S : forall k, 0 <= k < 2 -> forall P : Z -> Z -> Prop, P (2 * (1 - k)) 0 -> P (2 * (1 - k)) 1 -> P (2 * (1 - k) + 1) 0 -> P (2 * (1 - k) + 1) 1 ->
      forall x' y', 2 * (1 - k) <= x' < 2 * (1 - k) + 2 -> 0 <= y' < 2 -> P x' y').
    { intros k Hk P P1 P2 P3 P4 x' y' Hx' Hy'. assert (C1 : x' = 2 * (1 - k) \/ x' = 2 * (1 - k) + 1) by lia. assert (C2 : y' = 0 \/ y' = 1) by lia.
      destruct C1 as [-> | ->], C2 as [-> | ->]; assumption. }
    destruct C as [-> | [-> | ->]]; [apply (K 0 0 1 255)|apply (K 1 3 0 200)|apply (K 1 2 1 255)]; try lia; try reflexivity; apply S; try lia; vm_compute; reflexivity.
  - exists ls', rd. rewrite tally_none in D. assert (EQ : tally 3 (fun i => named vx_names (dx_win i) (f_byte vx_labels (8 + i))) = 2) by (vm_compute; reflexivity). rewrite EQ in D.
    assert (count = 2) as -> by lia. exact EO.
Qed.
(** The bounds for the network of main.cpp, with parameters of at most 16 and 1 *)
Example C106_ex_bound : h_net_err 4 main_shapes (D3 28 28 1) 0 (-60) = -14 /\ h_net_err 0 main_shapes (D3 28 28 1) 0 (-24) = -3.
Proof. vm_compute. auto. Qed.
