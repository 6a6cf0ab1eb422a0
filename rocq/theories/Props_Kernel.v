(** Properties C23-C26, C29 (convolution) and C43 (convolution): the convolution layer. *)
From Coq Require Import ZArith List Bool Lia Reals Lra.
From Coquelicot Require Import Coquelicot.
From Verif Require Import Base Dim Matrix View Num Expr Spec Iter Sums MatFacts ExprThms Batch Kernel LayerFacts KernelThms Calc KernelGrad BatchThms LayerTotal.
Import ListNotations.
Local Open Scope Z_scope.

(** One filter of 2x2 over two channels, and an input of 3x2 with two channels. *)
Definition ex_k : kernel Z := Kern (Par (Mat (D3 2 2 2) [1;2;3;4;-1;0;0;1]) (Mat (D3 1 1 1) [10]) [] []) (D3 2 2 2) 1 1.
Definition ex_x : mat Z := Mat (D3 3 2 2) [1;2;3;4;5;6; 7;8;9;1;2;3].
Definition ex_g : mat Z := Mat (D3 2 1 1) [1;2].
(** 1*o(0,0) + 2*o(1,0): the loss with output gradient [ex_g] *)
Definition ex_loss (k : kernel Z) (x : mat Z) : res Z :=
  (o <- k_forward k x ;; match mvals o with [a; b] => Ok (a + 2 * b) | _ => UB end)%res.

(** ** C23 *)
Theorem C23_forward_partial : forall T (N : Num T) (k : kernel T) x fx fy C n X Y W B I,
  kernel_is k fx fy C n W B -> k_stride k = 1 -> is_mat x (D3 X Y C) I -> fits (D3 X Y C) -> fx <= X -> fy <= Y ->
  fits (D3 (X - fx + 1) (Y - fy + 1) n) ->
  exists o, k_forward k x = Ok o /\
    is_mat o (D3 (X - fx + 1) (Y - fy + 1) n)
      (fun x y f => nadd (nsum C (fun c => nsum2 fx fy (fun a b => nmul (I (a + x) (b + y) c) (W a b (f * C + c))))) (B f 0 0)).
Proof. exact @k_forward_ok. Qed.
Print Assumptions C23_forward_partial.

Theorem C23_channels : forall T (N : Num T) (k : kernel T) x,
  0 <= dz (mdim x) < two31 -> 0 <= dz (k_dim k) < two31 -> dz (mdim x) <> dz (k_dim k) -> k_forward k x = Throw LayerExn.
Proof. exact @k_forward_channels. Qed.
Print Assumptions C23_channels.

Example C23_ex : k_forward ex_k ex_x = Ok (Mat (D3 2 1 1) [42; 52]).
Proof. vm_compute. reflexivity. Qed.
Example C23_ex_channels : k_forward ex_k (Mat (D3 2 2 1) [1;2;3;4]) = Throw LayerExn.
Proof. vm_compute. reflexivity. Qed.

(** "No memory outside the matrices is accessed" fails for an input one column narrower than the filter (the output
    has zero columns, one element is computed all the same) and for stride two (the output has the size for stride
    one). *)
Theorem C23_narrow_input_refuted : exists (k : kernel Z) x W B I, kernel_is k 2 2 2 1 W B /\ k_stride k = 1 /\
  is_mat x (D3 1 2 2) I /\ k_forward k x = UB.
Proof.
  exists ex_k, (Mat (D3 1 2 2) [1;2;3;4]),
    (fun a b c => nth (Z.to_nat (a + 2 * b + 4 * c)) [1;2;3;4;-1;0;0;1] 0), (fun _ _ _ => 10), (fun a b c => b + 2 * c + 1).
  assert (X : forall n a, 0 <= a < n -> a = 0 \/ 1 <= a < n) by lia.
  split; [|split; [reflexivity|split; [|vm_compute; reflexivity]]].
  - unfold kernel_is, fits, is_mat. cbn -[two31]. unfold two31. repeat split; try lia.
    + intros a b c (A & B & C). cbn in A, B, C.
      assert (a = 0 \/ a = 1) as [-> | ->] by lia; assert (b = 0 \/ b = 1) as [-> | ->] by lia; assert (c = 0 \/ c = 1) as [-> | ->] by lia; reflexivity.
    + intros a b c (A & B & C). cbn in A, B, C. assert (a = 0) as -> by lia. assert (b = 0) as -> by lia. assert (c = 0) as -> by lia. reflexivity.
  - unfold is_mat. cbn. repeat split.
    intros a b c (A & B & C). cbn in A, B, C.
    assert (a = 0) as -> by lia; assert (b = 0 \/ b = 1) as [-> | ->] by lia; assert (c = 0 \/ c = 1) as [-> | ->] by lia; reflexivity.
Qed.
Print Assumptions C23_narrow_input_refuted.
Theorem C23_stride_refuted : exists (k : kernel Z) x I, k_stride k = 2 /\ k_dim k = D3 2 2 2 /\
  is_mat x (D3 3 2 2) I /\ k_forward k x = UB.
Proof.
  exists (Kern (k_par ex_k) (D3 2 2 2) 2 1), ex_x, (fun a b c => nth (Z.to_nat (a + 3 * b + 6 * c)) (mvals ex_x) 0).
  split; [reflexivity|split; [reflexivity|split; [|vm_compute; reflexivity]]].
  unfold is_mat. cbn. repeat split. intros a b c (A & B & C). cbn in A, B, C.
  assert (a = 0 \/ a = 1 \/ a = 2) as [-> | [-> | ->]] by lia; assert (b = 0 \/ b = 1) as [-> | ->] by lia; assert (c = 0 \/ c = 1) as [-> | ->] by lia; reflexivity.
Qed.
Print Assumptions C23_stride_refuted.

(** ** C24. The loss is any function whose derivative by output element (x,y,f) is G x y f; to first order it is
    Σ G·output ([dotp]). [conv_gives W B I O]: a layer with weights W and biases B maps input I to output O. *)
Theorem C24_exists : forall fx fy C n X Y W B I, 1 <= fx -> 1 <= fy -> 0 <= C -> 0 <= n -> fits (D3 fx fy (C * n)) -> fits (D3 n 1 1) ->
  fits (D3 X Y C) -> fx <= X -> fy <= Y -> fits (D3 (X - fx + 1) (Y - fy + 1) n) -> exists O, conv_gives fx fy C n X Y W B I O.
Proof. exact conv_total. Qed.
Print Assumptions C24_exists.

Theorem C24_weight_gradient : forall (k : kernel R) x g fx fy C n X Y W B I G, conv_case k x g fx fy C n X Y W B I G ->
  exists dw DW, k_dw k x g = Ok dw /\ is_mat dw (D3 fx fy (C * n)) DW /\
    forall a b c Ot, inb (D3 fx fy (C * n)) a b c -> (forall t, conv_gives fx fy C n X Y (fupd W a b c t) B I (Ot t)) ->
      is_derive (fun t => dotp (D3 (X - fx + 1) (Y - fy + 1) n) G (Ot t)) (W a b c) (DW a b c).
Proof. exact conv_dw_exact. Qed.
Print Assumptions C24_weight_gradient.

Theorem C24_weight_gradient_sum : forall T (N : Num T) (k : kernel T) x g fx fy C n X Y OX OY W B I G,
  kernel_is k fx fy C n W B -> is_mat x (D3 X Y C) I -> fits (D3 X Y C) -> OX = X - fx + 1 -> OY = Y - fy + 1 -> 1 <= OX -> 1 <= OY ->
  is_mat g (D3 OX OY n) G -> fits (D3 OX OY n) ->
  exists dw, k_dw k x g = Ok dw /\ is_mat dw (D3 fx fy (C * n)) (dw_elem OX OY C I G).
Proof. exact @k_dw_ok. Qed.
Print Assumptions C24_weight_gradient_sum.

Example C24_ex : k_dw ex_k ex_x ex_g = Ok (Mat (D3 2 2 2) [5; 8; 14; 17; 23; 26; 5; 8]).
Proof. vm_compute. reflexivity. Qed.
(** Weight number 3 raised by one raises the loss by 17. *)
Example C24_ex_difference :
  ex_loss ex_k ex_x = Ok 146 /\
  ex_loss (Kern (Par (Mat (D3 2 2 2) [1;2;3;5;-1;0;0;1]) (Mat (D3 1 1 1) [10]) [] []) (D3 2 2 2) 1 1) ex_x = Ok (146 + 17).
Proof. vm_compute. auto. Qed.

(** ** C25 *)
Theorem C25_input_gradient_partial : forall (k : kernel R) x g fx fy C n X Y W B I G, conv_case k x g fx fy C n X Y W B I G ->
  X - fx = Y - fy -> fits (D3 (X + (X - fx)) (Y + (Y - fy)) 1) ->
  exists dx DX, k_dx k x g = Ok dx /\ is_mat dx (D3 X Y C) DX /\
    forall a b c Ot, inb (D3 X Y C) a b c -> (forall t, conv_gives fx fy C n X Y W B (fupd I a b c t) (Ot t)) ->
      is_derive (fun t => dotp (D3 (X - fx + 1) (Y - fy + 1) n) G (Ot t)) (I a b c) (DX a b c).
Proof. exact conv_dx_exact. Qed.
Print Assumptions C25_input_gradient_partial.

(** Every other shape accepted in the forward pass raises a MatrixTransformException. *)
Theorem C25_not_square_refuted : forall T (N : Num T) (k : kernel T) x g fx fy C n X Y W B I G, conv_case k x g fx fy C n X Y W B I G ->
  1 <= C -> 1 <= n -> X - fx <> Y - fy -> k_dx k x g = Throw MatrixTransform.
Proof. exact @conv_dx_throws. Qed.
Print Assumptions C25_not_square_refuted.

Example C25_ex : k_dx ex_k (Mat (D3 3 3 2) (repeat 1 18)) (Mat (D3 2 2 1) [1;2;3;4]) =
  Ok (Mat (D3 3 3 2) [1; 4; 4; 6; 20; 16; 9; 24; 16; -1; -2; 0; -3; -3; 2; 0; 3; 4]).
Proof. vm_compute. reflexivity. Qed.
Example C25_ex_not_square : k_forward ex_k ex_x = Ok (Mat (D3 2 1 1) [42; 52]) /\ k_dx ex_k ex_x ex_g = Throw MatrixTransform.
Proof. vm_compute. auto. Qed.

(** ** C26 *)
Theorem C26_bias_gradient : forall (k : kernel R) x g fx fy C n X Y W B I G, conv_case k x g fx fy C n X Y W B I G ->
  exists db DB, k_db k g = Ok db /\ is_mat db (D3 n 1 1) DB /\
    forall f, 0 <= f < n ->
      DB f 0 0 = rsum (Y - fy + 1) (fun y => rsum (X - fx + 1) (fun x => G x y f)) /\
      forall Ot, (forall t, conv_gives fx fy C n X Y W (fupd B f 0 0 t) I (Ot t)) ->
        is_derive (fun t => dotp (D3 (X - fx + 1) (Y - fy + 1) n) G (Ot t)) (B f 0 0) (DB f 0 0).
Proof. exact conv_db_exact. Qed.
Print Assumptions C26_bias_gradient.

Example C26_ex : k_db (Kern (Par (Mat (D3 1 1 2) [1;1]) (Mat (D3 2 1 1) [0;0]) [] []) (D3 1 1 1) 1 2)
  (Mat (D3 2 2 2) [1;2;3;4;10;20;30;40]) = Ok (Mat (D3 2 1 1) [10; 100]).
Proof. vm_compute. reflexivity. Qed.

(** Back-propagation stores these gradients in the slot of the batch entry and returns the input gradient. *)
Theorem C24_backward_stores : forall T (N : Num T) (k : kernel T) x g dw db i last, k_dw k x g = Ok dw -> k_db k g = Ok db ->
  0 <= i < Z.of_nat (length (p_wg (k_par k))) -> 0 <= i < Z.of_nat (length (p_bg (k_par k))) ->
  k_backward x g i last k = lift (if last then Ok mat_empty else k_dx k x g) (with_par k (store (k_par k) i dw db)).
Proof. exact @k_backward_ok. Qed.
Print Assumptions C24_backward_stores.

Example C24_ex_stores :
  let k := with_par ex_k (set_batch_size 2 (k_par ex_k)) in
  k_backward ex_x ex_g 1 true k = ORet (with_par k (Par (k_w k) (k_b k) [mat_empty; Mat (D3 2 2 2) [5; 8; 14; 17; 23; 26; 5; 8]]
     [mat_empty; Mat (D3 1 1 1) [3]])) mat_empty.
Proof. vm_compute. reflexivity. Qed.

(** ** C29, convolution: [rand k] is the k-th result of std::rand, RAND_MAX is odd (2^n - 1 on every platform). *)
Theorem C29_kernel_values : forall T (N : Num T) rand rmax (sqrtT : T -> T) fx fy C n stride, 1 <= fx -> 1 <= fy -> 1 <= C -> 1 <= n ->
  fits (D3 fx fy (C * n)) -> fits (D3 n 1 1) ->
  exists k, k_make rand rmax sqrtT (D3 fx fy C) n stride = Ok k /\
    kernel_is k fx fy C n (init_val rand rmax sqrtT 0 (D3 fx fy (C * n)))
                          (init_val rand rmax sqrtT (fx * fy * (C * n)) (D3 n 1 1)) /\
    k_stride k = stride /\ p_wg (k_par k) = [] /\ p_bg (k_par k) = [].
Proof. exact @k_make_ok. Qed.
Print Assumptions C29_kernel_values.

Theorem C29_norm_one_partial : forall rand rmax k0 d, fits d -> 1 <= vol d -> (forall k, 0 <= rand k <= rmax) ->
  Z.odd rmax = true -> 0 < rmax ->
  let f := init_val rand rmax sqrt k0 d in
  (forall x y z, inb d x y z -> (-1 <= f x y z <= 1 /\ f x y z <> 0)%R) /\ rsum3 d (fun x y z => (f x y z * f x y z)%R) = 1%R.
Proof. exact init_norm. Qed.
Print Assumptions C29_norm_one_partial.

(** With an even RAND_MAX all weights can be NaN: 0/0. RAND_MAX = 2, rand always 1. *)
Example C29_ex_even : rand_val (T := Z) (fun _ => 1) 2 0 = 0.
Proof. vm_compute. reflexivity. Qed.
Example C29_ex : @rand_val R NumR (fun _ => 1) 3 0 = (1 - 2 * 1 / 3)%R.
Proof. reflexivity. Qed.

(** ** C43: batch update, the same code in both layers *)
Theorem C43_apply_batch : forall T (N : Num T) (lr : T) wg bg w b dw db W B GW GB n, fits dw -> iterable dw -> fits db -> iterable db ->
  n = Z.of_nat (length wg) -> n = Z.of_nat (length bg) -> slots_are wg dw GW -> slots_are bg db GB -> is_mat w dw W -> is_mat b db B ->
  exists w' b', apply_batch lr wg bg (w, b) = ORet (w', b') tt /\
    is_mat w' dw (fun x y z => nsub (W x y z) (nmul lr (ndiv (nsum n (fun i => GW i x y z)) (nofZ n)))) /\
    is_mat b' db (fun x y z => nsub (B x y z) (nmul lr (ndiv (nsum n (fun i => GB i x y z)) (nofZ n)))).
Proof. exact @apply_batch_ok. Qed.
Print Assumptions C43_apply_batch.

Theorem C43_mismatch : forall T (N : Num T) (lr : T) wg bg w b dw db W B GW GB n i gw gb, fits dw -> iterable dw -> fits db -> iterable db ->
  n = Z.of_nat (length wg) -> n = Z.of_nat (length bg) -> 0 <= i < n ->
  (forall j, 0 <= j < i -> exists g, vget wg j = Ok g /\ is_mat g dw (GW j)) ->
  (forall j, 0 <= j < i -> exists g, vget bg j = Ok g /\ is_mat g db (GB j)) ->
  vget wg i = Ok gw -> vget bg i = Ok gb -> mdim gw <> dw \/ (exists G, is_mat gw dw G) /\ mdim gb <> db ->
  is_mat w dw W -> is_mat b db B -> apply_batch lr wg bg (w, b) = OThrow (w, b) MatrixSize.
Proof. exact @apply_batch_mismatch. Qed.
Print Assumptions C43_mismatch.

(** With real numbers a rate of zero changes nothing. *)
Theorem C43_rate_zero : forall n p (G : Z -> R), step_val 0%R n p G = p.
Proof. exact step_rate_zero. Qed.
Print Assumptions C43_rate_zero.

Example C43_ex : apply_batch 10 [Mat (D3 2 1 1) [1;2]; Mat (D3 2 1 1) [3;6]] [Mat (D3 1 1 1) [4]; Mat (D3 1 1 1) [8]]
  (Mat (D3 2 1 1) [100; 200], Mat (D3 1 1 1) [5]) = ORet (Mat (D3 2 1 1) [80; 160], Mat (D3 1 1 1) [-55]) tt.
Proof. vm_compute. reflexivity. Qed.
Example C43_ex_mismatch : apply_batch 10 [Mat (D3 2 1 1) [1;2]; Mat (D3 1 2 1) [3;6]] [Mat (D3 1 1 1) [4]; Mat (D3 1 1 1) [8]]
  (Mat (D3 2 1 1) [100; 200], Mat (D3 1 1 1) [5]) = OThrow (Mat (D3 2 1 1) [100; 200], Mat (D3 1 1 1) [5]) MatrixSize.
Proof. vm_compute. reflexivity. Qed.
