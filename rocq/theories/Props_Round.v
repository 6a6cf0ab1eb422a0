(** C101: rounding errors of matrix operations, layers and updates with doubles. *)
From Coq Require Import ZArith Bool Lia Reals List Permutation.
From Flocq Require Import Core BinarySingleNaN.
From Verif Require Import Base Dim Matrix View Num Expr Spec Iter MatFacts Sums ExprThms Batch Kernel KernelThms Connected ConnectedThms BatchThms
  Pooling PoolingThms Activation Softmax Chars Double Rounding RoundLayers.
Import ListNotations.
Local Open Scope Z_scope.

(** ** C101. A computed value that is finite differs from the exact one, computed with real numbers from the same doubles, by at
    most a multiple of 2^-52 times the sum of the absolute values of the terms, plus a multiple of the smallest positive double
    for products that underflow. No bound is assumed for the inputs. [rsum n f]: the sum of f 0 .. f (n-1). *)
(** The product of two matrices, also as lazy expressions: [K] terms. *)
Theorem C101_multiply : forall S m1 m2 c1 c2 (a b : lz S double) s X K Y Z0 f g,
  is_lz a s (D3 X K Z0) f -> is_lz b s (D3 K Y Z0) g -> 0 <= K < two31 -> (m1 = false \/ c1 = Ref) -> (m2 = false \/ c2 = Ref) ->
  exists c V, mk_mul m1 m2 c1 c2 a b s = Ok c /\ is_lz c s (D3 X Y Z0) V /\
    forall x y z, inb (D3 X Y Z0) x y z -> is_finite (V x y z) = true ->
    (Rabs (B2R (V x y z) - rsum K (fun k => B2R (f x k z) * B2R (g k y z))) <=
     IZR (K + 1) * bpow radix2 (-52) * rsum K (fun k => Rabs (B2R (f x k z) * B2R (g k y z))) + IZR K * bpow radix2 (-1074))%R.
Proof. exact mul_round. Qed.
Print Assumptions C101_multiply.
(** The convolution of two matrices with a window of U x V elements. *)
Theorem C101_convolve : forall S (a b : lz S double) s X Y U V f g,
  is_lz a s (D3 X Y 1) f -> is_lz b s (D3 U V 1) g -> fits (D3 X Y 1) -> 1 <= U <= X -> 1 <= V <= Y ->
  exists c R, mk_convolve a b (D3 1 1 0) s = Ok c /\ is_lz c s (D3 (X - U + 1) (Y - V + 1) 1) R /\
    forall x y z, inb (D3 (X - U + 1) (Y - V + 1) 1) x y z -> is_finite (R x y z) = true ->
    (Rabs (B2R (R x y z) - rsum U (fun i => rsum V (fun j => B2R (f (i + x)%Z (j + y)%Z 0%Z) * B2R (g i j 0%Z)))) <=
     IZR (U * V + 1) * bpow radix2 (-52) * rsum U (fun i => rsum V (fun j => Rabs (B2R (f (i + x)%Z (j + y)%Z 0%Z) * B2R (g i j 0%Z)))) + IZR (U * V) * bpow radix2 (-1074))%R.
Proof. exact conv_round. Qed.
Print Assumptions C101_convolve.
(** The sum of all elements. *)
Theorem C101_sum : forall S (a : lz S double) s d f, is_lz a s d f -> fits d -> iterable d ->
  exists v, sum a s = Ok v /\ (is_finite v = true ->
    (Rabs (B2R v - rsum3 d (fun x y z => B2R (f x y z))) <= IZR (vol d) * bpow radix2 (-52) * rsum3 d (fun x y z => Rabs (B2R (f x y z))))%R).
Proof. exact sum_round. Qed.
Print Assumptions C101_sum.
(** The mean of all elements. *)
Theorem C101_mean : forall S (a : lz S double) s d f, is_lz a s d f -> fits d -> 1 <= vol d ->
  exists v, mean a s = Ok v /\ (is_finite v = true ->
    (Rabs (B2R v - rsum3 d (fun x y z => B2R (f x y z)) / IZR (vol d)) <=
     IZR (vol d + 1) * bpow radix2 (-52) * (rsum3 d (fun x y z => Rabs (B2R (f x y z))) / IZR (vol d)) + bpow radix2 (-1074))%R).
Proof. exact mean_round. Qed.
Print Assumptions C101_mean.
(** The convolution layer: output [V i j f] of filter [f] at (i, j). *)
Theorem C101_kernel_forward : forall k x fx fy C n X Y W B I,
  kernel_is k fx fy C n W B -> k_stride k = 1 -> is_mat x (D3 X Y C) I -> fits (D3 X Y C) ->
  fx <= X -> fy <= Y -> fits (D3 (X - fx + 1) (Y - fy + 1) n) ->
  exists o V, k_forward k x = Ok o /\ is_mat o (D3 (X - fx + 1) (Y - fy + 1) n) V /\
    forall i j f, inb (D3 (X - fx + 1) (Y - fy + 1) n) i j f -> is_finite (V i j f) = true ->
    (Rabs (B2R (V i j f) - (rsum C (fun c => rsum fx (fun a => rsum fy (fun b => B2R (I (a + i)%Z (b + j)%Z c) * B2R (W a b (f * C + c)%Z)))) + B2R (B f 0%Z 0%Z))) <=
     IZR (fx * fy + C + 2) * bpow radix2 (-52) * (rsum C (fun c => rsum fx (fun a => rsum fy (fun b => Rabs (B2R (I (a + i)%Z (b + j)%Z c) * B2R (W a b (f * C + c)%Z))))) + Rabs (B2R (B f 0%Z 0%Z)))
     + IZR (C * (fx * fy)) * bpow radix2 (-1074))%R.
Proof. exact k_forward_round. Qed.
Print Assumptions C101_kernel_forward.
(** Its gradient by the weights, *)
Theorem C101_kernel_dw : forall k x g fx fy C n X Y OX OY W B I G,
  kernel_is k fx fy C n W B -> is_mat x (D3 X Y C) I -> fits (D3 X Y C) ->
  OX = X - fx + 1 -> OY = Y - fy + 1 -> 1 <= OX -> 1 <= OY -> is_mat g (D3 OX OY n) G -> fits (D3 OX OY n) ->
  exists dw V, k_dw k x g = Ok dw /\ is_mat dw (D3 fx fy (C * n)) V /\
    forall a b z, inb (D3 fx fy (C * n)) a b z -> is_finite (V a b z) = true ->
    (Rabs (B2R (V a b z) - rsum OX (fun i => rsum OY (fun j => B2R (I (i + a)%Z (j + b)%Z (z mod C)%Z) * B2R (G i j (z / C)%Z)))) <=
     IZR (OX * OY + 1) * bpow radix2 (-52) * rsum OX (fun i => rsum OY (fun j => Rabs (B2R (I (i + a)%Z (j + b)%Z (z mod C)%Z) * B2R (G i j (z / C)%Z))))
     + IZR (OX * OY) * bpow radix2 (-1074))%R.
Proof. exact k_dw_round. Qed.
Print Assumptions C101_kernel_dw.
(** by the biases *)
Theorem C101_kernel_db : forall k g fx fy C n OX OY W B G,
  kernel_is k fx fy C n W B -> 1 <= OX -> 1 <= OY -> is_mat g (D3 OX OY n) G -> fits (D3 OX OY n) ->
  exists db V, k_db k g = Ok db /\ is_mat db (D3 n 1 1) V /\
    forall f y z, inb (D3 n 1 1) f y z -> is_finite (V f y z) = true ->
    (Rabs (B2R (V f y z) - rsum OX (fun i => rsum OY (fun j => B2R (G i j f)))) <=
     IZR (OX * OY) * bpow radix2 (-52) * rsum OX (fun i => rsum OY (fun j => Rabs (B2R (G i j f)))))%R.
Proof. exact k_db_round. Qed.
Print Assumptions C101_kernel_db.
(** and by the input. [weight_at fx fy W a b z]: the weight [W a b z], zero for (a, b) outside of the filter. *)
Theorem C101_kernel_dx : forall k x g fx fy C n X Y s W B I G,
  kernel_is k fx fy C n W B -> is_mat x (D3 X Y C) I -> fits (D3 X Y C) ->
  s = X - fx + 1 -> s = Y - fy + 1 -> 1 <= s -> 2 * (s - 1) < two31 ->
  is_mat g (D3 s s n) G -> fits (D3 s s n) -> fits (D3 (fx + 2 * (s - 1)) (fy + 2 * (s - 1)) 1) ->
  exists r V, k_dx k x g = Ok r /\ is_mat r (D3 X Y C) V /\
    forall a b c, inb (D3 X Y C) a b c -> is_finite (V a b c) = true ->
    (Rabs (B2R (V a b c) - rsum n (fun f => rsum s (fun i => rsum s (fun j => weight_at fx fy W (a - i) (b - j) (f * C + c) * B2R (G i j f))))) <=
     IZR (s * s + n + 1) * bpow radix2 (-52) * rsum n (fun f => rsum s (fun i => rsum s (fun j => Rabs (weight_at fx fy W (a - i) (b - j) (f * C + c) * B2R (G i j f)))))
     + IZR (n * (s * s)) * bpow radix2 (-1074))%R.
Proof. exact k_dx_round. Qed.
Print Assumptions C101_kernel_dx.
(** The fully connected layer: output, gradient by the weights, gradient by the input. *)
Theorem C101_connected_forward : forall rand rmax sqrtT (c : connected double) n K W B x d I, conn_is c n K W B -> is_mat x d I -> fits d -> vol d = K ->
  exists o V, c_forward rand rmax sqrtT x c = ORet c o /\ is_mat o (D3 n 1 1) V /\
    forall i y z, inb (D3 n 1 1) i y z -> is_finite (V i y z) = true ->
    (Rabs (B2R (V i y z) - (rsum K (fun k => B2R (W i k 0%Z) * B2R (elem_no d I k)) + B2R (B i 0%Z 0%Z))) <=
     IZR (K + 2) * bpow radix2 (-52) * (rsum K (fun k => Rabs (B2R (W i k 0%Z) * B2R (elem_no d I k))) + Rabs (B2R (B i 0%Z 0%Z))) + IZR K * bpow radix2 (-1074))%R.
Proof. exact c_forward_round. Qed.
Print Assumptions C101_connected_forward.
Theorem C101_connected_dw : forall (x g : mat double) n d I G, is_mat x d I -> fits d -> is_mat g (D3 n 1 1) G ->
  1 <= n -> 1 <= vol d -> fits (D3 n 1 1) -> fits (D3 n (vol d) 1) ->
  exists dw V, c_dw false x g = Ok dw /\ is_mat dw (D3 n (vol d) 1) V /\
    forall i k z, inb (D3 n (vol d) 1) i k z -> is_finite (V i k z) = true ->
    (Rabs (B2R (V i k z) - B2R (G i 0%Z 0%Z) * B2R (elem_no d I k)) <= bpow radix2 (-53) * Rabs (B2R (G i 0%Z 0%Z) * B2R (elem_no d I k)) + bpow radix2 (-1075))%R.
Proof. exact c_dw_round. Qed.
Print Assumptions C101_connected_dw.
Theorem C101_connected_dx : forall (c : connected double) (g : mat double) n K W B G, conn_is c n K W B -> is_mat g (D3 n 1 1) G ->
  fits (c_in c) -> vol (c_in c) = K ->
  exists r V, c_dx false c g = Ok r /\ is_mat r (c_in c) V /\
    forall x y z, inb (c_in c) x y z -> is_finite (V x y z) = true ->
    (Rabs (B2R (V x y z) - rsum n (fun i => B2R (W i (lin (c_in c) x y z) 0%Z) * B2R (G i 0%Z 0%Z))) <=
     IZR (n + 1) * bpow radix2 (-52) * rsum n (fun i => Rabs (B2R (W i (lin (c_in c) x y z) 0%Z) * B2R (G i 0%Z 0%Z))) + IZR n * bpow radix2 (-1074))%R.
Proof. exact c_dx_round. Qed.
Print Assumptions C101_connected_dx.
(** Average pooling, output and gradient; [N] is the size of the window. *)
Theorem C101_average : forall q g x (I : Z -> Z -> Z -> double) slot s0, geom_ok g -> has_geom q g -> q_type q = PAvg ->
  is_mat x (xdim g) I -> vget (q_idx q) slot = Ok s0 -> consistent s0 ->
  exists o s V, q_forward x slot q = ORet (with_slot q slot s) o /\ is_mat o (odim g) V /\
    forall i j c, inb (odim g) i j c -> is_finite (V i j c) = true ->
    let N := g_qx g * g_qy g in
    (Rabs (B2R (V i j c) - rsum (g_qx g) (fun a => rsum (g_qy g) (fun b => B2R (I (i * g_sx g + a)%Z (j * g_sy g + b)%Z c))) / IZR N) <=
     IZR (N + 1) * bpow radix2 (-52) * (rsum (g_qx g) (fun a => rsum (g_qy g) (fun b => Rabs (B2R (I (i * g_sx g + a)%Z (j * g_sy g + b)%Z c)))) / IZR N) + bpow radix2 (-1074))%R.
Proof. exact q_forward_avg_round. Qed.
Print Assumptions C101_average.
Theorem C101_average_dx : forall q g x (I : Z -> Z -> Z -> double) slot s gr G, geom_ok g -> has_geom q g -> q_type q = PAvg -> is_mat x (xdim g) I ->
  vget (q_idx q) slot = Ok s -> is_mat gr (odim g) G ->
  exists r V, q_dx q x gr slot = Ok r /\ is_mat r (xdim g) V /\
    forall a b e, inb (xdim g) a b e -> is_finite (V a b e) = true ->
    let N := g_qx g * g_qy g in
    (Rabs (B2R (V a b e) - rsum3 (odim g) (fun i j c => if in_winb g i j c a b e then B2R (G i j c) / IZR N else 0)) <=
     IZR (vol (odim g) + 1) * bpow radix2 (-52) * rsum3 (odim g) (fun i j c => if in_winb g i j c a b e then Rabs (B2R (G i j c)) / IZR N else 0)
     + IZR (vol (odim g)) * bpow radix2 (-1074))%R.
Proof. exact q_dx_avg_round. Qed.
Print Assumptions C101_average_dx.
(** Gradient of maximum and minimum pooling; [SF i j c] is the recorded position. *)
Theorem C101_extremum_dx : forall q g x (I : Z -> Z -> Z -> double) slot s SF gr G, geom_ok g -> q_type q <> PAvg -> is_mat x (xdim g) I ->
  vget (q_idx q) slot = Ok s -> is_mat s (odim g) SF -> is_mat gr (odim g) G ->
  (forall i j c, inb (odim g) i j c -> inb (xdim g) (dx (SF i j c)) (dy (SF i j c)) (dz (SF i j c))) ->
  exists r V, q_dx q x gr slot = Ok r /\ is_mat r (xdim g) V /\
    forall a b e, inb (xdim g) a b e -> is_finite (V a b e) = true ->
    (Rabs (B2R (V a b e) - rsum3 (odim g) (fun i j c => if dim_eqb (SF i j c) (D3 a b e) then B2R (G i j c) else 0)) <=
     IZR (vol (odim g)) * bpow radix2 (-52) * rsum3 (odim g) (fun i j c => if dim_eqb (SF i j c) (D3 a b e) then Rabs (B2R (G i j c)) else 0))%R.
Proof. exact q_dx_ext_round. Qed.
Print Assumptions C101_extremum_dx.
(** The update of weights and biases by the mean of the gradients of [n] data points. *)
Theorem C101_update : forall (lr : double) wg bg w b dw db W B GW GB n, fits dw -> iterable dw -> fits db -> iterable db ->
  n = Z.of_nat (length wg) -> n = Z.of_nat (length bg) -> 1 <= n < 2 ^ 31 -> slots_are wg dw GW -> slots_are bg db GB -> is_mat w dw W -> is_mat b db B ->
  exists w' b' W' B', apply_batch lr wg bg (w, b) = ORet (w', b') tt /\ is_mat w' dw W' /\ is_mat b' db B' /\
    (forall x y z, inb dw x y z -> is_finite (W' x y z) = true ->
      (Rabs (B2R (W' x y z) - (B2R (W x y z) - B2R lr * (rsum n (fun i => B2R (GW i x y z)) / IZR n))) <=
       IZR (n + 3) * bpow radix2 (-52) * (Rabs (B2R (W x y z)) + Rabs (B2R lr) * (rsum n (fun i => Rabs (B2R (GW i x y z))) / IZR n)) + (Rabs (B2R lr) + 1) * bpow radix2 (-1074))%R) /\
    (forall x y z, inb db x y z -> is_finite (B' x y z) = true ->
      (Rabs (B2R (B' x y z) - (B2R (B x y z) - B2R lr * (rsum n (fun i => B2R (GB i x y z)) / IZR n))) <=
       IZR (n + 3) * bpow radix2 (-52) * (Rabs (B2R (B x y z)) + Rabs (B2R lr) * (rsum n (fun i => Rabs (B2R (GB i x y z))) / IZR n)) + (Rabs (B2R lr) + 1) * bpow radix2 (-1074))%R).
Proof. exact batch_round. Qed.
Print Assumptions C101_update.
(** Gradients that were stored in another order, as by another schedule of the threads, give nearly the same update. *)
Theorem C101_order : forall (lr : double) wg bg wg' bg' w b dw db W B GW GB GW' GB' n, fits dw -> iterable dw -> fits db -> iterable db ->
  n = Z.of_nat (length wg) -> n = Z.of_nat (length bg) -> 1 <= n < 2 ^ 31 -> Permutation wg wg' -> Permutation bg bg' ->
  slots_are wg dw GW -> slots_are bg db GB -> slots_are wg' dw GW' -> slots_are bg' db GB' -> is_mat w dw W -> is_mat b db B ->
  exists w1 b1 w2 b2 W1 B1 W2 B2, apply_batch lr wg bg (w, b) = ORet (w1, b1) tt /\ apply_batch lr wg' bg' (w, b) = ORet (w2, b2) tt /\
    is_mat w1 dw W1 /\ is_mat b1 db B1 /\ is_mat w2 dw W2 /\ is_mat b2 db B2 /\
    (forall x y z, inb dw x y z -> is_finite (W1 x y z) = true -> is_finite (W2 x y z) = true ->
      (Rabs (B2R (W1 x y z) - B2R (W2 x y z)) <=
       2 * (IZR (n + 3) * bpow radix2 (-52) * (Rabs (B2R (W x y z)) + Rabs (B2R lr) * (rsum n (fun i => Rabs (B2R (GW i x y z))) / IZR n)) + (Rabs (B2R lr) + 1) * bpow radix2 (-1074)))%R) /\
    (forall x y z, inb db x y z -> is_finite (B1 x y z) = true -> is_finite (B2 x y z) = true ->
      (Rabs (B2R (B1 x y z) - B2R (B2 x y z)) <=
       2 * (IZR (n + 3) * bpow radix2 (-52) * (Rabs (B2R (B x y z)) + Rabs (B2R lr) * (rsum n (fun i => Rabs (B2R (GB i x y z))) / IZR n)) + (Rabs (B2R lr) + 1) * bpow radix2 (-1074)))%R).
Proof. exact batch_order. Qed.
Print Assumptions C101_order.

(** The sums are not exact, and their order matters: 1 + 2^-53 + 2^-53 gives 1, but 2^-53 + 2^-53 + 1 gives 1 + 2^-52. *)
Definition ex_one : double := @B754_finite prec emax false 4503599627370496 (-52) eq_refl.
Definition ex_eps : double := @B754_finite prec emax false 4503599627370496 (-105) eq_refl.
Definition ex_slot (v : double) : mat double := Mat (D3 1 1 1) [v].
Definition ex_vals (m : mat double) : list SpecFloat.spec_float := map B2SF (mvals m).
Example C101_sum_ex : rbind (sum (l_val (Mat (D3 3 1 1) [ex_one; ex_eps; ex_eps])) tt) (fun v => Ok (B2SF v)) = Ok (B2SF ex_one) /\
  rbind (sum (l_val (Mat (D3 3 1 1) [ex_eps; ex_eps; ex_one])) tt) (fun v => Ok (B2SF v)) = Ok (SpecFloat.S754_finite false 4503599627370497 (-52)).
Proof. vm_compute. split; reflexivity. Qed.
(** The mean of 1, 2^-53, 2^-53 by the same number of additions in two orders, and the update of weight 0 and bias 1 with
    learning rate 1 *)
Definition ex_fwd : list (mat double) := map ex_slot [ex_one; ex_eps; ex_eps].
Definition ex_bwd : list (mat double) := map ex_slot [ex_eps; ex_eps; ex_one].
Theorem C101_same_update_refuted : ~ forall (lr : double) wg bg wg' bg' w b w1 b1 w2 b2, Permutation wg wg' -> Permutation bg bg' ->
  apply_batch lr wg bg (w, b) = ORet (w1, b1) tt -> apply_batch lr wg' bg' (w, b) = ORet (w2, b2) tt -> ex_vals w1 = ex_vals w2.
Proof.
  intros H. assert (P : Permutation ex_fwd ex_bwd) by (unfold ex_fwd, ex_bwd; cbn [map]; apply (Permutation_cons_app [_; _] []); apply Permutation_refl).
  assert (A : match apply_batch ex_one ex_fwd ex_fwd (ex_slot n0, ex_slot ex_one) with ORet (w, _) _ => ex_vals w | _ => [] end = [SpecFloat.S754_finite true 6004799503160661 (-54)]) by (vm_compute; reflexivity).
  assert (B : match apply_batch ex_one ex_bwd ex_bwd (ex_slot n0, ex_slot ex_one) with ORet (w, _) _ => ex_vals w | _ => [] end = [SpecFloat.S754_finite true 6004799503160663 (-54)]) by (vm_compute; reflexivity).
  specialize (H ex_one ex_fwd ex_fwd ex_bwd ex_bwd (ex_slot n0) (ex_slot ex_one)).
  destruct (apply_batch ex_one ex_fwd ex_fwd (ex_slot n0, ex_slot ex_one)) as [[w1 b1] []|s1 e1|]; [|discriminate A..].
  destruct (apply_batch ex_one ex_bwd ex_bwd (ex_slot n0, ex_slot ex_one)) as [[w2 b2] []|s2 e2|]; [|discriminate B..].
  specialize (H w1 b1 w2 b2 P P eq_refl eq_refl). rewrite A, B in H. discriminate.
Qed.
Print Assumptions C101_same_update_refuted.
(** A product, a filter of 2 x 1 weights with bias and a node with two weights; all values are finite. *)
Example C101_mul_ex : match mk_mul false false Ref Ref (l_val (Mat (D3 1 3 1) [ex_one; ex_eps; ex_eps])) (l_val (Mat (D3 3 1 1) [ex_one; ex_one; ex_one])) tt with
  | Ok c => rbind (lget c tt (D3 0 0 0)) (fun v => Ok (B2SF v)) = Ok (B2SF ex_one) | _ => False end.
Proof. vm_compute. reflexivity. Qed.
Example C101_layer_ex :
  let k := Kern (Par (Mat (D3 2 1 1) [ex_one; ex_eps]) (ex_slot ex_eps) [] []) (D3 2 1 1) 1 1 in
  match k_forward k (Mat (D3 2 1 1) [ex_one; ex_one]) with Ok o => ex_vals o = [B2SF ex_one] | _ => False end.
Proof. vm_compute. reflexivity. Qed.
