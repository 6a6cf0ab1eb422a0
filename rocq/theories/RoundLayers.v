(** Rounding errors of the matrix operations, layers and updates with doubles. *)
From Coq Require Import ZArith Bool Lia Reals Lra Psatz List Permutation.
From Flocq Require Import Core BinarySingleNaN.
From Verif Require Import Base Dim Matrix View Num Expr Spec Iter MatFacts Sums ExprThms Batch Kernel KernelThms Connected ConnectedThms BatchThms
  Pooling PoolingThms Activation Softmax Chars Double Bar BarFacts FiniteFacts TrainNet Rounding.
Import ListNotations.
Local Open Scope Z_scope.

Local Notation tiny := (bpow radix2 (-1075)).

Lemma near_close : forall p k v x a, 0 <= p <= 2 ^ 52 -> near p (IZR k * tiny) v x a -> (Rabs (B2R v - x) <= IZR p * bpow radix2 (-52) * a + IZR k * bpow radix2 (-1074))%R.
Proof.
  intros p k v x a Hp H. apply Rle_trans with (1 := near_bound _ _ _ _ _ Hp H). apply Rplus_le_compat_l. apply Req_le.
  replace (bpow radix2 (-1074)) with (2 * tiny)%R by (change 2%R with (bpow radix2 1); rewrite <- bpow_plus; reflexivity). ring.
Qed.
Lemma near_to : forall p r r' v x x' a a', near p r v x a -> r = r' -> x = x' -> a = a' -> near p r' v x' a'.
Proof. intros. subst. assumption. Qed.

(** *** Elements *)
Lemma dot_near : forall K (f g : Z -> double), 0 <= K < 2 ^ 51 -> is_finite (nsum K (fun k => nmul (f k) (g k))) = true ->
  near (1 + K) (IZR K * tiny) (nsum K (fun k => nmul (f k) (g k))) (rsum K (fun k => B2R (f k) * B2R (g k)))%R (rsum K (fun k => Rabs (B2R (f k) * B2R (g k)))).
Proof.
  intros K f g HK F. apply near_nsum; [lia|lia|lia|apply bpow_ge_0|exact F|]. intros k _ Fk. apply near_product. exact Fk.
Qed.
Lemma dot2_near : forall U V (f g : Z -> Z -> double), 0 <= U -> 0 <= V -> U * V < 2 ^ 51 -> is_finite (nsum2 U V (fun i j => nmul (f i j) (g i j))) = true ->
  near (1 + U * V) (IZR (U * V) * tiny) (nsum2 U V (fun i j => nmul (f i j) (g i j))) (rsum U (fun i => rsum V (fun j => B2R (f i j) * B2R (g i j))))%R
    (rsum U (fun i => rsum V (fun j => Rabs (B2R (f i j) * B2R (g i j))))).
Proof.
  intros U V f g HU HV HK F. apply near_nsum2; [lia|lia|lia|lia|apply bpow_ge_0|exact F|]. intros i j _ _ Fk. apply near_product. exact Fk.
Qed.
Lemma dot3_near : forall C U V (f g : Z -> Z -> Z -> double), 0 <= C -> 0 <= U -> 0 <= V -> C + U * V < 2 ^ 51 ->
  is_finite (nsum C (fun c => nsum2 U V (fun i j => nmul (f c i j) (g c i j)))) = true ->
  near (1 + U * V + C) (IZR (C * (U * V)) * tiny) (nsum C (fun c => nsum2 U V (fun i j => nmul (f c i j) (g c i j))))
    (rsum C (fun c => rsum U (fun i => rsum V (fun j => B2R (f c i j) * B2R (g c i j)))))%R
    (rsum C (fun c => rsum U (fun i => rsum V (fun j => Rabs (B2R (f c i j) * B2R (g c i j)))))).
Proof.
  intros C U V f g HC HU HV HK F. apply near_to with (IZR C * (IZR (U * V) * tiny))%R (rsum C (fun c => rsum U (fun i => rsum V (fun j => B2R (f c i j) * B2R (g c i j)))))%R
    (rsum C (fun c => rsum U (fun i => rsum V (fun j => Rabs (B2R (f c i j) * B2R (g c i j)))))); [|rewrite (mult_IZR C); ring|reflexivity|reflexivity].
  apply near_nsum; [lia|nia|nia| |exact F|].
  - apply Rmult_le_pos; [apply IZR_le; nia|apply bpow_ge_0].
  - intros c _ Fc. apply dot2_near; [lia|lia|lia|exact Fc].
Qed.
Lemma plus_exact : forall p r (v w : double) x a, 0 <= p < 2 ^ 52 -> is_finite (nadd v w) = true -> near p r v x a -> near (p + 1) r (nadd v w) (x + B2R w) (a + Rabs (B2R w)).
Proof.
  intros p r v w x a Hp F H. replace r with (r + 0)%R by ring. apply near_add; [lia|exact F|exact H|].
  apply near_up with 0 0%R; [apply near_exact|lia|lra|lia].
Qed.
Lemma sum_near : forall n (f : Z -> double), 0 <= n <= 2 ^ 52 -> is_finite (nsum n f) = true -> near n 0 (nsum n f) (rsum n (fun k => B2R (f k))) (rsum n (fun k => Rabs (B2R (f k)))).
Proof.
  intros n f Hn F. pose proof (near_nsum n f 0 0 (fun k => B2R (f k)) (fun k => Rabs (B2R (f k))) ltac:(lia) ltac:(lia) ltac:(lia) ltac:(lra) F) as H.
  rewrite Rmult_0_r in H. apply H. intros k _ _. apply near_exact.
Qed.
Lemma sum_near3 : forall d (f : Z -> Z -> Z -> double), fits d -> is_finite (nsum (vol d) (elem_no d f)) = true ->
  near (vol d) 0 (nsum (vol d) (elem_no d f)) (rsum3 d (fun x y z => B2R (f x y z))) (rsum3 d (fun x y z => Rabs (B2R (f x y z)))).
Proof.
  intros d f Hd F. destruct (fits_vol d Hd) as (V & _). pose proof (sum_near (vol d) (elem_no d f) ltac:(unfold two31 in *; lia) F) as H.
  rewrite <- !rsum3_storage by exact Hd. exact H.
Qed.

(** *** Matrix operations *)
Theorem mul_round : forall S m1 m2 c1 c2 (a b : lz S double) s X K Y Z0 f g,
  is_lz a s (D3 X K Z0) f -> is_lz b s (D3 K Y Z0) g -> 0 <= K < two31 -> (m1 = false \/ c1 = Ref) -> (m2 = false \/ c2 = Ref) ->
  exists c V, mk_mul m1 m2 c1 c2 a b s = Ok c /\ is_lz c s (D3 X Y Z0) V /\
    forall x y z, inb (D3 X Y Z0) x y z -> is_finite (V x y z) = true ->
    (Rabs (B2R (V x y z) - rsum K (fun k => B2R (f x k z) * B2R (g k y z))) <=
     IZR (K + 1) * bpow radix2 (-52) * rsum K (fun k => Rabs (B2R (f x k z) * B2R (g k y z))) + IZR K * bpow radix2 (-1074))%R.
Proof.
  intros S m1 m2 c1 c2 a b s X K Y Z0 f g HA HB HK M1 M2. destruct (mul_ok m1 m2 c1 c2 a b s X K Y Z0 f g HA HB HK M1 M2) as (c & E & Hc).
  eexists c, _. split; [exact E|]. split; [exact Hc|]. intros x y z _ F. unfold two31 in *. replace (K + 1) with (1 + K) by ring. apply near_close; [lia|].
  apply (dot_near K (fun k => f x k z) (fun k => g k y z)); [lia|exact F].
Qed.
Theorem conv_round : forall S (a b : lz S double) s X Y U V f g,
  is_lz a s (D3 X Y 1) f -> is_lz b s (D3 U V 1) g -> fits (D3 X Y 1) -> 1 <= U <= X -> 1 <= V <= Y ->
  exists c R, mk_convolve a b (D3 1 1 0) s = Ok c /\ is_lz c s (D3 (X - U + 1) (Y - V + 1) 1) R /\
    forall x y z, inb (D3 (X - U + 1) (Y - V + 1) 1) x y z -> is_finite (R x y z) = true ->
    (Rabs (B2R (R x y z) - rsum U (fun i => rsum V (fun j => B2R (f (i + x)%Z (j + y)%Z 0%Z) * B2R (g i j 0%Z)))) <=
     IZR (U * V + 1) * bpow radix2 (-52) * rsum U (fun i => rsum V (fun j => Rabs (B2R (f (i + x)%Z (j + y)%Z 0%Z) * B2R (g i j 0%Z)))) + IZR (U * V) * bpow radix2 (-1074))%R.
Proof.
  intros S a b s X Y U V f g HA HB FX HU HV. pose proof (fits_dims _ FX) as (X1 & X2 & _). destruct (fits_vol _ FX) as (VX & _). unfold vol in VX. cbn [dx dy dz] in *.
  assert (UV : 0 <= U * V < two31) by (assert (U * V <= X * Y) by (apply Z.mul_le_mono_nonneg; lia); nia). unfold two31 in UV.
  destruct (convolve_ok a b s X Y U V f g HA HB ltac:(lia) ltac:(lia) HU HV) as (c & E & Hc).
  eexists c, _. split; [exact E|]. split; [exact Hc|]. intros x y z _ F. replace (U * V + 1) with (1 + U * V) by ring. apply near_close; [lia|].
  apply (dot2_near U V (fun i j => f (i + x) (j + y) 0) (fun i j => g i j 0)); [lia|lia|lia|exact F].
Qed.
Theorem sum_round : forall S (a : lz S double) s d f, is_lz a s d f -> fits d -> iterable d ->
  exists v, sum a s = Ok v /\ (is_finite v = true ->
    (Rabs (B2R v - rsum3 d (fun x y z => B2R (f x y z))) <= IZR (vol d) * bpow radix2 (-52) * rsum3 d (fun x y z => Rabs (B2R (f x y z))))%R).
Proof.
  intros S a s d f HA Fd Id. rewrite (sum_ok a s d f HA Fd Id). eexists. split; [reflexivity|]. intros F. destruct (fits_vol d Fd) as (V & _). unfold two31 in *.
  pose proof (near_bound (vol d) _ _ _ _ ltac:(lia) (sum_near3 d f Fd F)) as H. lra.
Qed.
Theorem mean_round : forall S (a : lz S double) s d f, is_lz a s d f -> fits d -> 1 <= vol d ->
  exists v, mean a s = Ok v /\ (is_finite v = true ->
    (Rabs (B2R v - rsum3 d (fun x y z => B2R (f x y z)) / IZR (vol d)) <=
     IZR (vol d + 1) * bpow radix2 (-52) * (rsum3 d (fun x y z => Rabs (B2R (f x y z))) / IZR (vol d)) + bpow radix2 (-1074))%R).
Proof.
  intros S a s d f HA Fd Vd. destruct (fits_vol d Fd) as (V & _). unfold two31 in *.
  assert (Id : iterable d) by (apply pos_iterable; unfold vol in Vd; destruct (fits_dims d Fd) as (A & B & C); unfold pos; assert (dx d <> 0 /\ dy d <> 0 /\ dz d <> 0) by (repeat split; intros Q; rewrite Q in Vd; lia); lia).
  rewrite (mean_ok a s d f HA Fd Id). eexists. split; [reflexivity|]. intros F.
  assert (NZ : B2R (nofZ (vol d) : double) <> 0%R) by (change (@nofZ double NumD) with d_of_Z; destruct (d_of_Z_ok (vol d)) as (Q & _); [lia|]; rewrite Q; apply (IZR_neq _ 0); lia).
  destruct (div_fin _ _ NZ F) as (F1 & _).
  pose proof (near_div (vol d) 0 _ _ _ (vol d) ltac:(lia) ltac:(lia) F (sum_near3 d f Fd F1)) as H.
  pose proof (near_close (vol d + 1) 1 _ _ _ ltac:(lia) (near_to _ _ (1 * tiny)%R _ _ _ _ _ H ltac:(unfold Rdiv; ring) eq_refl eq_refl)) as G. rewrite Rmult_1_l in G. exact G.
Qed.

(** *** Convolution layer *)
Lemma area_small : forall X Y C fx fy, fits (D3 X Y C) -> 1 <= fx <= X -> 1 <= fy <= Y -> 0 <= fx * fy < 2 ^ 31.
Proof.
  intros X Y C fx fy F A B. destruct (fits_vol _ F) as (_ & V). cbn [dx dy] in V. unfold two31 in V.
  assert (fx * fy <= X * Y) by (apply Z.mul_le_mono_nonneg; lia). nia.
Qed.
Theorem k_forward_round : forall k x fx fy C n X Y W B I,
  kernel_is k fx fy C n W B -> k_stride k = 1 -> is_mat x (D3 X Y C) I -> fits (D3 X Y C) ->
  fx <= X -> fy <= Y -> fits (D3 (X - fx + 1) (Y - fy + 1) n) ->
  exists o V, k_forward k x = Ok o /\ is_mat o (D3 (X - fx + 1) (Y - fy + 1) n) V /\
    forall i j f, inb (D3 (X - fx + 1) (Y - fy + 1) n) i j f -> is_finite (V i j f) = true ->
    (Rabs (B2R (V i j f) - (rsum C (fun c => rsum fx (fun a => rsum fy (fun b => B2R (I (a + i)%Z (b + j)%Z c) * B2R (W a b (f * C + c)%Z)))) + B2R (B f 0%Z 0%Z))) <=
     IZR (fx * fy + C + 2) * bpow radix2 (-52) * (rsum C (fun c => rsum fx (fun a => rsum fy (fun b => Rabs (B2R (I (a + i)%Z (b + j)%Z c) * B2R (W a b (f * C + c)%Z))))) + Rabs (B2R (B f 0%Z 0%Z)))
     + IZR (C * (fx * fy)) * bpow radix2 (-1074))%R.
Proof.
  intros k x fx fy C n X Y W B I HK St HX FX H1 H2 FO. destruct (k_forward_ok k x fx fy C n X Y W B I HK St HX FX H1 H2 FO) as (o & E & Ho).
  eexists o, _. split; [exact E|]. split; [exact Ho|]. intros i j f _ F. destruct HK as (Hfx & Hfy & HC & _).
  pose proof (area_small X Y C fx fy FX ltac:(lia) ltac:(lia)) as A. pose proof (fits_dims _ FX) as (_ & _ & X3). cbn [dz] in X3. unfold two31 in X3.
  replace (fx * fy + C + 2) with (1 + fx * fy + C + 1) by ring. apply near_close; [lia|]. apply plus_exact; [lia|exact F|].
  apply (dot3_near C fx fy (fun c a b => I (a + i) (b + j) c) (fun c a b => W a b (f * C + c))); [lia|lia|lia|lia|exact (proj1 (add_fin _ _ F))].
Qed.
Theorem k_dw_round : forall k x g fx fy C n X Y OX OY W B I G,
  kernel_is k fx fy C n W B -> is_mat x (D3 X Y C) I -> fits (D3 X Y C) ->
  OX = X - fx + 1 -> OY = Y - fy + 1 -> 1 <= OX -> 1 <= OY -> is_mat g (D3 OX OY n) G -> fits (D3 OX OY n) ->
  exists dw V, k_dw k x g = Ok dw /\ is_mat dw (D3 fx fy (C * n)) V /\
    forall a b z, inb (D3 fx fy (C * n)) a b z -> is_finite (V a b z) = true ->
    (Rabs (B2R (V a b z) - rsum OX (fun i => rsum OY (fun j => B2R (I (i + a)%Z (j + b)%Z (z mod C)%Z) * B2R (G i j (z / C)%Z)))) <=
     IZR (OX * OY + 1) * bpow radix2 (-52) * rsum OX (fun i => rsum OY (fun j => Rabs (B2R (I (i + a)%Z (j + b)%Z (z mod C)%Z) * B2R (G i j (z / C)%Z))))
     + IZR (OX * OY) * bpow radix2 (-1074))%R.
Proof.
  intros k x g fx fy C n X Y OX OY W B I G HK HX FX EX EY HOX HOY HG FG. destruct (k_dw_ok k x g fx fy C n X Y OX OY W B I G HK HX FX EX EY HOX HOY HG FG) as (o & E & Ho).
  eexists o, _. split; [exact E|]. split; [exact Ho|]. intros a b z _ F.
  pose proof (area_small OX OY n OX OY FG ltac:(lia) ltac:(lia)) as A.
  replace (OX * OY + 1) with (1 + OX * OY) by ring. apply near_close; [lia|].
  apply (dot2_near OX OY (fun i j => I (i + a) (j + b) (z mod C)) (fun i j => G i j (z / C))); [lia|lia|lia|exact F].
Qed.
Theorem k_db_round : forall k g fx fy C n OX OY W B G,
  kernel_is k fx fy C n W B -> 1 <= OX -> 1 <= OY -> is_mat g (D3 OX OY n) G -> fits (D3 OX OY n) ->
  exists db V, k_db k g = Ok db /\ is_mat db (D3 n 1 1) V /\
    forall f y z, inb (D3 n 1 1) f y z -> is_finite (V f y z) = true ->
    (Rabs (B2R (V f y z) - rsum OX (fun i => rsum OY (fun j => B2R (G i j f)))) <=
     IZR (OX * OY) * bpow radix2 (-52) * rsum OX (fun i => rsum OY (fun j => Rabs (B2R (G i j f)))))%R.
Proof.
  intros k g fx fy C n OX OY W B G HK HOX HOY HG FG. destruct (k_db_ok k g fx fy C n OX OY W B G HK HOX HOY HG FG) as (o & E & Ho).
  eexists o, _. split; [exact E|]. split; [exact Ho|]. intros f y z If F.
  pose proof (area_small OX OY n OX OY FG ltac:(lia) ltac:(lia)) as A.
  assert (F1 : fits (D3 OX OY 1)) by (unfold fits, two31; cbn [dx dy dz]; lia).
  replace (OX * OY * 1) with (vol (D3 OX OY 1)) in F by reflexivity. pose proof (sum_near3 (D3 OX OY 1) (fun x y _ => G x y f) F1 F) as H.
  replace (vol (D3 OX OY 1)) with (OX * OY) in H by (unfold vol; cbn [dx dy dz]; ring).
  pose proof (near_bound (OX * OY) _ _ _ _ ltac:(lia) H) as Q. unfold rsum3 in Q. cbn [dx dy dz] in Q. rewrite !rsum_1 in Q. rewrite (rsum_exchange OX OY), (rsum_exchange OX OY).
  replace (OX * OY * 1) with (OX * OY) by ring. rewrite Rmult_0_r, Rplus_0_r in Q. exact Q.
Qed.
(** The weight of filter channel [z] at (a, b), zero outside of the filter *)
Definition weight_at (fx fy : Z) (W : Z -> Z -> Z -> double) (a b z : Z) : R :=
  if (0 <=? a) && (a <? fx) && ((0 <=? b) && (b <? fy)) then B2R (W a b z) else 0%R.
Theorem k_dx_round : forall k x g fx fy C n X Y s W B I G,
  kernel_is k fx fy C n W B -> is_mat x (D3 X Y C) I -> fits (D3 X Y C) ->
  s = X - fx + 1 -> s = Y - fy + 1 -> 1 <= s -> 2 * (s - 1) < two31 ->
  is_mat g (D3 s s n) G -> fits (D3 s s n) -> fits (D3 (fx + 2 * (s - 1)) (fy + 2 * (s - 1)) 1) ->
  exists r V, k_dx k x g = Ok r /\ is_mat r (D3 X Y C) V /\
    forall a b c, inb (D3 X Y C) a b c -> is_finite (V a b c) = true ->
    (Rabs (B2R (V a b c) - rsum n (fun f => rsum s (fun i => rsum s (fun j => weight_at fx fy W (a - i) (b - j) (f * C + c) * B2R (G i j f))))) <=
     IZR (s * s + n + 1) * bpow radix2 (-52) * rsum n (fun f => rsum s (fun i => rsum s (fun j => Rabs (weight_at fx fy W (a - i) (b - j) (f * C + c) * B2R (G i j f)))))
     + IZR (n * (s * s)) * bpow radix2 (-1074))%R.
Proof.
  intros k x g fx fy C n X Y s W B I G HK HX FX EX EY Hs Hs2 HG FG FP. destruct (k_dx_ok k x g fx fy C n X Y s W B I G HK HX FX EX EY Hs Hs2 HG FG FP) as (o & E & Ho).
  eexists o, _. split; [exact E|]. split; [exact Ho|]. intros a b c _ F.
  pose proof (area_small s s n s s FG ltac:(lia) ltac:(lia)) as A. pose proof (fits_dims _ FG) as (_ & _ & X3). cbn [dz] in X3. unfold two31 in X3.
  replace (s * s + n + 1) with (1 + s * s + n) by ring. apply near_close; [lia|].
  eapply near_to; [apply (dot3_near n s s (fun f i j => padded (s - 1) (s - 1) fx fy (fun a b => W a b (f * C + c)) (i + a) (j + b)) (fun f i j => G (s - 1 - i) (s - 1 - j) f)); [lia|lia|lia|lia|exact F]|reflexivity| |].
  all: apply rsum_ext; intros f Hf; rewrite <- (rsum_rev s); apply rsum_ext; intros i Hi; rewrite <- (rsum_rev s); apply rsum_ext; intros j Hj.
  all: replace (s - 1 - (s - 1 - i)) with i by lia; replace (s - 1 - (s - 1 - j)) with j by lia.
  all: assert (P : B2R (padded (s - 1) (s - 1) fx fy (fun a b => W a b (f * C + c)) (s - 1 - i + a) (s - 1 - j + b)) = weight_at fx fy W (a - i) (b - j) (f * C + c));
    [|rewrite P; reflexivity].
  all: unfold padded, weight_at; replace (s - 1 <=? s - 1 - i + a) with (0 <=? a - i) by lia; replace (s - 1 - i + a <? s - 1 + fx) with (a - i <? fx) by lia;
    replace (s - 1 <=? s - 1 - j + b) with (0 <=? b - j) by lia; replace (s - 1 - j + b <? s - 1 + fy) with (b - j <? fy) by lia;
    replace (s - 1 - i + a - (s - 1)) with (a - i) by lia; replace (s - 1 - j + b - (s - 1)) with (b - j) by lia.
  all: destruct (_ && _); reflexivity.
Qed.

(** *** Fully connected layer *)
Theorem c_forward_round : forall rand rmax sqrtT (c : connected double) n K W B x d I, conn_is c n K W B -> is_mat x d I -> fits d -> vol d = K ->
  exists o V, c_forward rand rmax sqrtT x c = ORet c o /\ is_mat o (D3 n 1 1) V /\
    forall i y z, inb (D3 n 1 1) i y z -> is_finite (V i y z) = true ->
    (Rabs (B2R (V i y z) - (rsum K (fun k => B2R (W i k 0%Z) * B2R (elem_no d I k)) + B2R (B i 0%Z 0%Z))) <=
     IZR (K + 2) * bpow radix2 (-52) * (rsum K (fun k => Rabs (B2R (W i k 0%Z) * B2R (elem_no d I k))) + Rabs (B2R (B i 0%Z 0%Z))) + IZR K * bpow radix2 (-1074))%R.
Proof.
  intros rand rmax sqrtT c n K W B x d I HC HX FX EK. destruct (c_forward_ready rand rmax sqrtT c n K W B x d I HC HX FX EK) as (o & E & Ho).
  eexists o, _. split; [exact E|]. split; [exact Ho|]. intros i y z _ F. destruct (fits_vol d FX) as (V & _). unfold two31 in V. unfold affine in F |- *.
  replace (K + 2) with (1 + K + 1) by ring. apply near_close; [lia|]. apply plus_exact; [lia|exact F|].
  apply (dot_near K (fun k => W i k 0) (elem_no d I)); [lia|exact (proj1 (add_fin _ _ F))].
Qed.
Theorem c_dw_round : forall (x g : mat double) n d I G, is_mat x d I -> fits d -> is_mat g (D3 n 1 1) G ->
  1 <= n -> 1 <= vol d -> fits (D3 n 1 1) -> fits (D3 n (vol d) 1) ->
  exists dw V, c_dw false x g = Ok dw /\ is_mat dw (D3 n (vol d) 1) V /\
    forall i k z, inb (D3 n (vol d) 1) i k z -> is_finite (V i k z) = true ->
    (Rabs (B2R (V i k z) - B2R (G i 0%Z 0%Z) * B2R (elem_no d I k)) <= bpow radix2 (-53) * Rabs (B2R (G i 0%Z 0%Z) * B2R (elem_no d I k)) + bpow radix2 (-1075))%R.
Proof.
  intros x g n d I G HX FX HG Hn HK FB FW. destruct (c_dw_ok x g n d I G HX FX HG Hn HK FB FW) as (o & E & Ho).
  eexists o, _. split; [exact E|]. split; [exact Ho|]. intros i k z _ F. cbv beta in F |- *.
  destruct (add_fin _ _ F) as (_ & F2 & E1). destruct (mul_fin _ _ F2) as (_ & _ & E2). rewrite E1. change (B2R (n0 : double)) with 0%R. rewrite Rplus_0_l, round_generic; [|apply valid_rnd_N|apply generic_format_B2R].
  rewrite E2. destruct (round_any (B2R (G i 0 0) * B2R (elem_no d I k))) as (e & h & He & Hh & Q). rewrite Q.
  set (v := (B2R (G i 0%Z 0%Z) * B2R (elem_no d I k))%R). replace (v * (1 + e) + h - v)%R with (v * e + h)%R by ring.
  apply Rle_trans with (1 := Rabs_triang _ _). rewrite Rabs_mult. pose proof (Rabs_pos v). nra.
Qed.
Theorem c_dx_round : forall (c : connected double) (g : mat double) n K W B G, conn_is c n K W B -> is_mat g (D3 n 1 1) G ->
  fits (c_in c) -> vol (c_in c) = K ->
  exists r V, c_dx false c g = Ok r /\ is_mat r (c_in c) V /\
    forall x y z, inb (c_in c) x y z -> is_finite (V x y z) = true ->
    (Rabs (B2R (V x y z) - rsum n (fun i => B2R (W i (lin (c_in c) x y z) 0%Z) * B2R (G i 0%Z 0%Z))) <=
     IZR (n + 1) * bpow radix2 (-52) * rsum n (fun i => Rabs (B2R (W i (lin (c_in c) x y z) 0%Z) * B2R (G i 0%Z 0%Z))) + IZR n * bpow radix2 (-1074))%R.
Proof.
  intros c g n K W B G HC HG FI EK. destruct (c_dx_ok c g n K W B G HC HG FI EK) as (o & E & Ho).
  eexists o, _. split; [exact E|]. split; [exact Ho|]. intros x y z _ F. destruct HC as (_ & _ & _ & Hn & _ & _ & FB).
  pose proof (fits_dims _ FB) as (D1 & _). cbn [dx] in D1. unfold two31 in D1.
  replace (n + 1) with (1 + n) by ring. apply near_close; [lia|].
  apply (dot_near n (fun i => W i (lin (c_in c) x y z) 0) (fun i => G i 0 0)); [lia|exact F].
Qed.

(** *** Update of a parameter *)
Lemma step_near : forall lr n p (G : Z -> double), 1 <= n < 2 ^ 31 -> is_finite (step_val lr n p G) = true ->
  (Rabs (B2R (step_val lr n p G) - (B2R p - B2R lr * (rsum n (fun i => B2R (G i)) / IZR n))) <=
   IZR (n + 3) * bpow radix2 (-52) * (Rabs (B2R p) + Rabs (B2R lr) * (rsum n (fun i => Rabs (B2R (G i))) / IZR n)) + (Rabs (B2R lr) + 1) * bpow radix2 (-1074))%R.
Proof.
  intros lr n p G Hn F. unfold step_val in *. destruct (sub_fin _ _ F) as (F1 & F2 & _). destruct (mul_fin _ _ F2) as (F3 & F4 & _).
  assert (NZ : B2R (nofZ n : double) <> 0%R) by (change (@nofZ double NumD) with d_of_Z; destruct (d_of_Z_ok n) as (Q & _); [lia|]; rewrite Q; apply (IZR_neq _ 0); lia).
  destruct (div_fin _ _ NZ F4) as (F5 & _).
  pose proof (near_div n 0 _ _ _ n ltac:(lia) ltac:(lia) F4 (sum_near n G ltac:(lia) F5)) as D.
  pose proof (near_mul (n + 1) _ lr _ _ _ ltac:(lia) F2 D) as M.
  pose proof (near_sub (n + 1 + 1) _ _ p _ _ _ _ _ ltac:(lia) F (near_up 0 (n + 1 + 1) 0 0 _ _ _ (near_exact p) ltac:(lia) ltac:(lra) ltac:(lia)) M) as S.
  replace (n + 1 + 1 + 1) with (n + 3) in S by ring.
  apply Rle_trans with (1 := near_bound (n + 3) _ _ _ _ ltac:(lia) S). apply Rplus_le_compat_l. apply Req_le.
  replace (bpow radix2 (-1074)) with (2 * tiny)%R by (change 2%R with (bpow radix2 1); rewrite <- bpow_plus; reflexivity). unfold Rdiv. ring.
Qed.
Theorem batch_round : forall (lr : double) wg bg w b dw db W B GW GB n, fits dw -> iterable dw -> fits db -> iterable db ->
  n = Z.of_nat (length wg) -> n = Z.of_nat (length bg) -> 1 <= n < 2 ^ 31 -> slots_are wg dw GW -> slots_are bg db GB -> is_mat w dw W -> is_mat b db B ->
  exists w' b' W' B', apply_batch lr wg bg (w, b) = ORet (w', b') tt /\ is_mat w' dw W' /\ is_mat b' db B' /\
    (forall x y z, inb dw x y z -> is_finite (W' x y z) = true ->
      (Rabs (B2R (W' x y z) - (B2R (W x y z) - B2R lr * (rsum n (fun i => B2R (GW i x y z)) / IZR n))) <=
       IZR (n + 3) * bpow radix2 (-52) * (Rabs (B2R (W x y z)) + Rabs (B2R lr) * (rsum n (fun i => Rabs (B2R (GW i x y z))) / IZR n)) + (Rabs (B2R lr) + 1) * bpow radix2 (-1074))%R) /\
    (forall x y z, inb db x y z -> is_finite (B' x y z) = true ->
      (Rabs (B2R (B' x y z) - (B2R (B x y z) - B2R lr * (rsum n (fun i => B2R (GB i x y z)) / IZR n))) <=
       IZR (n + 3) * bpow radix2 (-52) * (Rabs (B2R (B x y z)) + Rabs (B2R lr) * (rsum n (fun i => Rabs (B2R (GB i x y z))) / IZR n)) + (Rabs (B2R lr) + 1) * bpow radix2 (-1074))%R).
Proof.
  intros lr wg bg w b dw db W B GW GB n FW IW FB IB Ew Eb Hn SW SB HW HB. destruct (apply_batch_ok lr wg bg w b dw db W B GW GB n FW IW FB IB Ew Eb SW SB HW HB) as (w' & b' & E & H1 & H2).
  eexists w', b', _, _. split; [exact E|]. split; [exact H1|]. split; [exact H2|]. split; intros x y z _ F; apply step_near; assumption.
Qed.

(** *** Average pooling *)
Theorem q_forward_avg_round : forall q g x (I : Z -> Z -> Z -> double) slot s0, geom_ok g -> has_geom q g -> q_type q = PAvg ->
  is_mat x (xdim g) I -> vget (q_idx q) slot = Ok s0 -> consistent s0 ->
  exists o s V, q_forward x slot q = ORet (with_slot q slot s) o /\ is_mat o (odim g) V /\
    forall i j c, inb (odim g) i j c -> is_finite (V i j c) = true ->
    let N := g_qx g * g_qy g in
    (Rabs (B2R (V i j c) - rsum (g_qx g) (fun a => rsum (g_qy g) (fun b => B2R (I (i * g_sx g + a)%Z (j * g_sy g + b)%Z c))) / IZR N) <=
     IZR (N + 1) * bpow radix2 (-52) * (rsum (g_qx g) (fun a => rsum (g_qy g) (fun b => Rabs (B2R (I (i * g_sx g + a)%Z (j * g_sy g + b)%Z c)))) / IZR N) + bpow radix2 (-1074))%R.
Proof.
  intros q g x I slot s0 G HG Et HX Es C0. destruct (q_forward_avg q g x I slot s0 G HG Et HX Es C0) as (o & s & E & Ho & _).
  eexists o, s, _. split; [exact E|]. split; [exact Ho|]. intros i j c _ F N.
  pose proof (win_fits g G) as FW. set (d := D3 (g_qx g) (g_qy g) 1) in *. assert (EV : vol d = N) by (unfold d, vol, N; cbn [dx dy dz]; ring).
  pose proof G as (B1 & B2 & _). assert (NP : 1 <= N) by (unfold N; nia). destruct (fits_vol d FW) as (V & _). rewrite EV in V. unfold two31 in V.
  unfold win_mean in F |- *. fold d in F |- *. set (f := fun a b (_ : Z) => I (i * g_sx g + a) (j * g_sy g + b) c) in *.
  assert (NZ : B2R (nofZ (vol d) : double) <> 0%R) by (rewrite EV; change (@nofZ double NumD) with d_of_Z; destruct (d_of_Z_ok N) as (Q & _); [lia|]; rewrite Q; apply (IZR_neq _ 0); lia).
  destruct (div_fin _ _ NZ F) as (F1 & _).
  pose proof (near_div (vol d) 0 _ _ _ (vol d) ltac:(lia) ltac:(lia) F (sum_near3 d f FW F1)) as H.
  pose proof (near_close (vol d + 1) 1 _ _ _ ltac:(lia) (near_to _ _ (1 * tiny)%R _ _ _ _ _ H ltac:(unfold Rdiv; ring) eq_refl eq_refl)) as Q. rewrite Rmult_1_l in Q.
  rewrite EV in Q. rewrite EV. unfold rsum3, d, f in Q. cbn [dx dy dz] in Q. rewrite !rsum_1 in Q. rewrite (rsum_exchange (g_qx g)), (rsum_exchange (g_qx g)). exact Q.
Qed.
Lemma near_scatter : forall d (here : Z -> Z -> Z -> bool) (G : Z -> Z -> Z -> double) p r y c, fits d -> 0 <= p -> p + vol d <= 2 ^ 52 -> (0 <= r)%R ->
  is_finite (scatter d here G (vol d)) = true ->
  (forall i j k, inb d i j k -> here i j k = true -> is_finite (G i j k) = true -> near p r (G i j k) (y i j k) (c i j k)) ->
  near (p + vol d) (IZR (vol d) * r) (scatter d here G (vol d)) (rsum3 d (fun i j k => if here i j k then y i j k else 0%R)) (rsum3 d (fun i j k => if here i j k then c i j k else 0%R)).
Proof.
  intros d here G p r y c Fd Hp Hv Hr F HG. destruct (fits_vol d Fd) as ([V0 _] & _). rewrite <- !rsum3_storage by exact Fd.
  assert (Q : forall n, 0 <= n -> n <= vol d -> is_finite (scatter d here G n) = true ->
    near (p + n) (IZR n * r) (scatter d here G n) (rsum n (elem_no d (fun i j k => if here i j k then y i j k else 0%R))) (rsum n (elem_no d (fun i j k => if here i j k then c i j k else 0%R)))).
  { intros n. induction n using Zrange_ind; intros Hn Ln Fn.
    - assert (n = 0) by lia. subst n. unfold scatter. rewrite fold_z_0, !rsum_neg by lia. rewrite Rmult_0_l. apply near_up with 0 0%R; [exact near_zero|lia|lra|lia].
    - unfold scatter in *. rewrite fold_z_snoc in * by lia. rewrite !rsum_S by lia. replace (p + (n + 1)) with (p + n + 1) by ring.
      replace (IZR (n + 1) * r)%R with (IZR n * r + r)%R by (rewrite plus_IZR; ring).
      destruct (position_case d n Fd ltac:(lia)) as (i & j & k & I & En & _).
      assert (EL : forall T (f : Z -> Z -> Z -> T), elem_no d f n = f i j k) by (intros T f; rewrite En; apply elem_no_lin; exact I).
      rewrite !EL in *.
      destruct (here i j k) eqn:Hh.
      + destruct (add_fin _ _ Fn) as (F1 & F2 & _). apply near_add; [lia|exact Fn|apply IHn; [lia|lia|exact F1]|]. 
        apply near_up with p r; [apply HG; assumption|lia|lra|lia].
      + rewrite !Rplus_0_r. apply near_up with (p + n) (IZR n * r)%R; [apply IHn; [lia|lia|exact Fn]|lia|lra|lia]. }
  apply Q; [lia|lia|exact F].
Qed.
Theorem q_dx_avg_round : forall q g x (I : Z -> Z -> Z -> double) slot s gr G, geom_ok g -> has_geom q g -> q_type q = PAvg -> is_mat x (xdim g) I ->
  vget (q_idx q) slot = Ok s -> is_mat gr (odim g) G ->
  exists r V, q_dx q x gr slot = Ok r /\ is_mat r (xdim g) V /\
    forall a b e, inb (xdim g) a b e -> is_finite (V a b e) = true ->
    let N := g_qx g * g_qy g in
    (Rabs (B2R (V a b e) - rsum3 (odim g) (fun i j c => if in_winb g i j c a b e then B2R (G i j c) / IZR N else 0)) <=
     IZR (vol (odim g) + 1) * bpow radix2 (-52) * rsum3 (odim g) (fun i j c => if in_winb g i j c a b e then Rabs (B2R (G i j c)) / IZR N else 0)
     + IZR (vol (odim g)) * bpow radix2 (-1074))%R.
Proof.
  intros q g x I slot s gr G GO HGm Et HX Es HG. destruct (q_dx_avg q g x I slot s gr G GO HGm Et HX Es HG) as (o & E & Ho).
  eexists o, _. split; [exact E|]. split; [exact Ho|]. intros a b e _ F N. pose proof (odim_fits g GO) as FO. destruct (fits_vol _ FO) as (V & _). unfold two31 in V.
  pose proof (win_fits g GO) as FW. pose proof GO as (B1 & B2 & _). assert (NP : 1 <= N) by (unfold N; nia). destruct (fits_vol _ FW) as (VW & _). unfold vol in VW. cbn [dx dy dz] in VW. unfold two31 in VW. fold N in VW.
  replace (vol (odim g) + 1) with (1 + vol (odim g)) by ring. apply near_close; [lia|]. apply near_scatter; [exact FO|lia|lia|apply bpow_ge_0|exact F|].
  intros i j k _ _ Fk. fold N in Fk |- *. pose proof (near_div 0 0 (G i j k) _ _ N ltac:(lia) ltac:(lia) Fk (near_exact _)) as H.
  eapply near_to; [exact H|unfold Rdiv; ring|reflexivity|reflexivity].
Qed.
Theorem q_dx_ext_round : forall q g x (I : Z -> Z -> Z -> double) slot s SF gr G, geom_ok g -> q_type q <> PAvg -> is_mat x (xdim g) I ->
  vget (q_idx q) slot = Ok s -> is_mat s (odim g) SF -> is_mat gr (odim g) G ->
  (forall i j c, inb (odim g) i j c -> inb (xdim g) (dx (SF i j c)) (dy (SF i j c)) (dz (SF i j c))) ->
  exists r V, q_dx q x gr slot = Ok r /\ is_mat r (xdim g) V /\
    forall a b e, inb (xdim g) a b e -> is_finite (V a b e) = true ->
    (Rabs (B2R (V a b e) - rsum3 (odim g) (fun i j c => if dim_eqb (SF i j c) (D3 a b e) then B2R (G i j c) else 0)) <=
     IZR (vol (odim g)) * bpow radix2 (-52) * rsum3 (odim g) (fun i j c => if dim_eqb (SF i j c) (D3 a b e) then Rabs (B2R (G i j c)) else 0))%R.
Proof.
  intros q g x I slot s SF gr G GO Nt HX Es HS HG HB. destruct (q_dx_ext q g x I slot s SF gr G GO Nt HX Es HS HG HB) as (o & E & Ho).
  eexists o, _. split; [exact E|]. split; [exact Ho|]. intros a b e _ F. pose proof (odim_fits g GO) as FO. destruct (fits_vol _ FO) as (V & _). unfold two31 in V.
  assert (H : near (0 + vol (odim g)) (IZR (vol (odim g)) * 0) (scatter (odim g) (fun i j c => dim_eqb (SF i j c) (D3 a b e)) G (vol (odim g)))
    (rsum3 (odim g) (fun i j c => if dim_eqb (SF i j c) (D3 a b e) then B2R (G i j c) else 0%R)) (rsum3 (odim g) (fun i j c => if dim_eqb (SF i j c) (D3 a b e) then Rabs (B2R (G i j c)) else 0%R))).
  { apply near_scatter; [exact FO|lia|lia|lra|exact F|]. intros i j k _ _ _. apply near_exact. }
  pose proof (near_bound (0 + vol (odim g)) _ _ _ _ ltac:(lia) H) as Q. rewrite Rmult_0_r, Rmult_0_r, Rplus_0_r in Q. exact Q.
Qed.

(** *** Gradients in another order *)
Lemma slots_sum : forall (l : list (mat double)) d G (h : R -> R) x y z, slots_are l d G -> inb d x y z ->
  rsum (Z.of_nat (length l)) (fun i => h (B2R (G i x y z))) =
  fold_right Rplus 0%R (map (fun m : mat double => match cell m (lin d x y z) with Some v => h (B2R v) | None => 0%R end) l).
Proof.
  intros l d G h x y z H I. rewrite rsum_seq. f_equal. rewrite map_map. apply nth_error_ext_len; [rewrite !map_length, seq_length; reflexivity|]. rewrite map_length, seq_length. intros k L. rewrite !nth_error_map.
  destruct (H (Z.of_nat k) ltac:(lia)) as (g & E & (_ & _ & Hg)). rewrite (nth_error_nth' (seq 0 (length l)) 0%nat) by (rewrite seq_length; exact L). rewrite seq_nth by exact L.
  unfold vget in E. destruct (_ && _) in E; [|discriminate]. rewrite Nat2Z.id in E. destruct (nth_error l k) eqn:El; [|discriminate]. injection E as ->.
  cbn [option_map Nat.add]. specialize (Hg x y z I). fold (lin d x y z) in Hg. rewrite Hg. reflexivity.
Qed.
Lemma slots_sum_perm : forall (l l' : list (mat double)) d G G' (h : R -> R) x y z n, Permutation l l' -> n = Z.of_nat (length l) -> slots_are l d G -> slots_are l' d G' -> inb d x y z ->
  rsum n (fun i => h (B2R (G i x y z))) = rsum n (fun i => h (B2R (G' i x y z))).
Proof.
  intros l l' d G G' h x y z n P -> H H' I. rewrite (slots_sum l d G h x y z H I). rewrite (Permutation_length P). rewrite (slots_sum l' d G' h x y z H' I).
  apply sum_perm. apply Permutation_map. exact P.
Qed.
Lemma step_two : forall lr n p (G G' : Z -> double), 1 <= n < 2 ^ 31 -> is_finite (step_val lr n p G) = true -> is_finite (step_val lr n p G') = true ->
  rsum n (fun i => B2R (G i)) = rsum n (fun i => B2R (G' i)) -> rsum n (fun i => Rabs (B2R (G i))) = rsum n (fun i => Rabs (B2R (G' i))) ->
  (Rabs (B2R (step_val lr n p G) - B2R (step_val lr n p G')) <=
   2 * (IZR (n + 3) * bpow radix2 (-52) * (Rabs (B2R p) + Rabs (B2R lr) * (rsum n (fun i => Rabs (B2R (G i))) / IZR n)) + (Rabs (B2R lr) + 1) * bpow radix2 (-1074)))%R.
Proof.
  intros lr n p G G' Hn F F' E E'. pose proof (step_near lr n p G Hn F) as A. pose proof (step_near lr n p G' Hn F') as B. rewrite <- E, <- E' in B.
  match type of A with (Rabs (?v - ?x) <= ?b)%R => match type of B with (Rabs (?w - _) <= _)%R => replace (v - w)%R with ((v - x) - (w - x))%R by ring end end.
  apply Rle_trans with (1 := Rabs_triang _ _). rewrite Rabs_Ropp. lra.
Qed.
Theorem batch_order : forall (lr : double) wg bg wg' bg' w b dw db W B GW GB GW' GB' n, fits dw -> iterable dw -> fits db -> iterable db ->
  n = Z.of_nat (length wg) -> n = Z.of_nat (length bg) -> 1 <= n < 2 ^ 31 -> Permutation wg wg' -> Permutation bg bg' ->
  slots_are wg dw GW -> slots_are bg db GB -> slots_are wg' dw GW' -> slots_are bg' db GB' -> is_mat w dw W -> is_mat b db B ->
  exists w1 b1 w2 b2 W1 B1 W2 B2, apply_batch lr wg bg (w, b) = ORet (w1, b1) tt /\ apply_batch lr wg' bg' (w, b) = ORet (w2, b2) tt /\
    is_mat w1 dw W1 /\ is_mat b1 db B1 /\ is_mat w2 dw W2 /\ is_mat b2 db B2 /\
    (forall x y z, inb dw x y z -> is_finite (W1 x y z) = true -> is_finite (W2 x y z) = true ->
      (Rabs (B2R (W1 x y z) - B2R (W2 x y z)) <=
       2 * (IZR (n + 3) * bpow radix2 (-52) * (Rabs (B2R (W x y z)) + Rabs (B2R lr) * (rsum n (fun i => Rabs (B2R (GW i x y z))) / IZR n)) + (Rabs (B2R lr) + 1) * bpow radix2 (-1074)))%R) /\
    (forall x y z, inb db x y z -> is_finite (B1 x y z) = true -> is_finite (B2 x y z) = true ->
      (Rabs (B2R (B1 x y z) - B2R (B2 x y z)) <=
       2 * (IZR (n + 3) * bpow radix2 (-52) * (Rabs (B2R (B x y z)) + Rabs (B2R lr) * (rsum n (fun i => Rabs (B2R (GB i x y z))) / IZR n)) + (Rabs (B2R lr) + 1) * bpow radix2 (-1074)))%R).
Proof.
  intros lr wg bg wg' bg' w b dw db W B GW GB GW' GB' n FW IW FB IB Ew Eb Hn PW PB SW SB SW' SB' HW HB.
  destruct (apply_batch_ok lr wg bg w b dw db W B GW GB n FW IW FB IB Ew Eb SW SB HW HB) as (w1 & b1 & E1 & H1 & H2).
  destruct (apply_batch_ok lr wg' bg' w b dw db W B GW' GB' n FW IW FB IB ltac:(rewrite <- (Permutation_length PW); exact Ew) ltac:(rewrite <- (Permutation_length PB); exact Eb) SW' SB' HW HB) as (w2 & b2 & E2 & H3 & H4).
  eexists w1, b1, w2, b2, _, _, _, _. split; [exact E1|]. split; [exact E2|]. split; [exact H1|]. split; [exact H2|]. split; [exact H3|]. split; [exact H4|].
  split; intros x y z I F F'; apply step_two; try assumption.
  - exact (slots_sum_perm wg wg' dw GW GW' (fun v => v) x y z n PW Ew SW SW' I).
  - exact (slots_sum_perm wg wg' dw GW GW' Rabs x y z n PW Ew SW SW' I).
  - exact (slots_sum_perm bg bg' db GB GB' (fun v => v) x y z n PB Eb SB SB' I).
  - exact (slots_sum_perm bg bg' db GB GB' Rabs x y z n PB Eb SB SB' I).
Qed.
