(** Properties C30-C34: the pooling layer. *)
From Coq Require Import ZArith List Bool Lia Reals Lra.
From Coquelicot Require Import Coquelicot.
From Verif Require Import Base Dim Matrix View Num Expr Spec Iter Sums MatFacts ExprThms Float32 Pooling LayerFacts Calc PoolingThms PoolGrad LayerTotal PoolLarge.
Import ListNotations.
Local Open Scope Z_scope.

(** Pool of 2x2 moved by 2 columns and 1 row over a 5x3 input. *)
Definition ex_q (t : pool_type) : pooling := Pool (D3 2 2 1) (D3 2 1 1) t [mat_empty; mat_empty].
Definition ex_x : mat Z := Mat (D3 5 3 1) [1;9;3;9;5; 6;7;9;2;2; 0;9;9;1;8].
Definition ex_geom : pool_geom := PG 2 2 2 1 5 3 1.
Example ex_geom_ok : geom_ok ex_geom /\ has_geom (ex_q PMax) ex_geom /\ odim ex_geom = D3 2 2 1.
Proof. unfold geom_ok, has_geom, fits, two31. cbn. repeat split; lia. Qed.

(** ** C30. [geom_ok]: 1 <= pool <= input in x and y, 1 <= strides <= 2^24, X - qx and Y - qy below 2^24 - 1. *)
Theorem C30_output_size_partial : forall q g, geom_ok g -> has_geom q g -> q_outdim q (D3 (g_X g) (g_Y g) (g_C g)) =
  Ok (D3 ((g_X g - g_qx g) / g_sx g + 1) ((g_Y g - g_qy g) / g_sy g + 1) (g_C g)).
Proof. exact q_outdim_ok. Qed.
Print Assumptions C30_output_size_partial.

(** This is the number of stride positions at which the pool fits. *)
Theorem C30_count : forall X q s p, 1 <= q <= X -> 1 <= s -> 0 <= p -> (p < (X - q) / s + 1 <-> p * s + q <= X).
Proof. exact odim_count. Qed.
Print Assumptions C30_count.

Theorem C30_windows_inside_partial : forall g i j c x y, geom_ok g -> inb (odim g) i j c ->
  i * g_sx g <= x < i * g_sx g + g_qx g /\ j * g_sy g <= y < j * g_sy g + g_qy g -> inb (xdim g) x y c.
Proof. exact win_inb. Qed.
Print Assumptions C30_windows_inside_partial.

(** 16777217 columns, pool 1x1, stride 1: one column is left out (single-precision arithmetic). *)
Theorem C30_large_refuted : exists q d, dx (q_dim q) = 1 /\ dx (q_stride q) = 1 /\ dx d = 2 ^ 24 + 1 /\
  exists o, q_outdim q d = Ok o /\ dx o = 2 ^ 24.
Proof. exists (Pool (D3 1 1 1) (D3 1 1 1) PMax []), (D3 (2 ^ 24 + 1) 1 1). repeat split. eexists. split; vm_compute; reflexivity. Qed.
Print Assumptions C30_large_refuted.
Theorem C30_stride_zero_refuted : exists q, dx (q_dim q) = 2 /\ dx (q_stride q) = 0 /\ q_outdim q (D3 5 3 1) = UB.
Proof. exists (Pool (D3 2 2 1) (D3 0 1 1) PMax []). repeat split; vm_compute; reflexivity. Qed.
Print Assumptions C30_stride_zero_refuted.

(** 16777219 columns: one column is added, and its window is outside: the pass does not return. *)
Theorem C30_inside_refuted : forall T (N : Num T) (x : mat T) t idx slot q' o, mdim x = D3 (2 ^ 24 + 3) 1 1 ->
  q_forward x slot (Pool (D3 1 1 1) (D3 1 1 1) t idx) <> ORet q' o.
Proof. exact @forward_large. Qed.
Print Assumptions C30_inside_refuted.

Example C30_ex : q_outdim (ex_q PMax) (D3 5 3 1) = Ok (D3 2 2 1).
Proof. vm_compute. reflexivity. Qed.

(** ** C31 *)
Theorem C31_max_min_partial : forall t q g x (I : Z -> Z -> Z -> R) slot s0, t <> PAvg -> geom_ok g -> has_geom q g -> q_type q = t ->
  is_mat x (xdim g) I -> vget (q_idx q) slot = Ok s0 -> consistent s0 ->
  exists q' o OF, q_forward x slot q = ORet q' o /\ is_mat o (odim g) OF /\
    forall i j c, inb (odim g) i j c ->
      (exists a b, in_win g i j a b /\ OF i j c = I a b c) /\
      forall a b, in_win g i j a b -> match t with PMin => (OF i j c <= I a b c)%R | _ => (I a b c <= OF i j c)%R end.
Proof. exact pool_extremum_R. Qed.
Print Assumptions C31_max_min_partial.

(** For any number type whose order is a strict weak order; the layer records the selected position. *)
Theorem C31_selected_partial : forall T (N : Num T) q g (x : mat T) I t slot s0, geom_ok g -> has_geom q g -> q_type q = t -> t <> PAvg ->
  strict_weak (better_of t) -> is_mat x (xdim g) I -> vget (q_idx q) slot = Ok s0 -> consistent s0 ->
  exists o s OF SF, q_forward x slot q = ORet (with_slot q slot s) o /\ is_mat o (odim g) OF /\ is_mat s (odim g) SF /\
    forall i j c, inb (odim g) i j c ->
      selected (better_of t) g I i j c (SF i j c) /\ OF i j c = I (dx (SF i j c)) (dy (SF i j c)) c.
Proof. exact @q_forward_ext. Qed.
Print Assumptions C31_selected_partial.

Theorem C31_average_partial : forall T (N : Num T) q g (x : mat T) I slot s0, geom_ok g -> has_geom q g -> q_type q = PAvg ->
  is_mat x (xdim g) I -> vget (q_idx q) slot = Ok s0 -> consistent s0 ->
  exists o s, q_forward x slot q = ORet (with_slot q slot s) o /\ is_mat o (odim g) (win_mean g I) /\ consistent s /\ mdim s = odim g.
Proof. exact @q_forward_avg. Qed.
Print Assumptions C31_average_partial.

(** [win_mean] over the real numbers: the sum over the window divided by its area *)
Theorem C31_mean_value : forall g I i j c, geom_ok g -> inb (odim g) i j c ->
  win_mean g I i j c = rsum3 (xdim g) (fun x y z => (if in_winb g i j c x y z then / IZR (g_qx g * g_qy g) else 0) * I x y z)%R.
Proof. exact win_mean_R. Qed.
Print Assumptions C31_mean_value.

Example C31_ex_max : exists q, q_forward ex_x 1 (ex_q PMax) = ORet q (Mat (D3 2 2 1) [9; 9; 9; 9]) /\
  vget (q_idx q) 1 = Ok (Mat (D3 2 2 1) [D3 1 0 0; D3 3 0 0; D3 1 2 0; D3 2 1 0]).
Proof. eexists. split; vm_compute; reflexivity. Qed.
Example C31_ex_min : exists q, q_forward ex_x 1 (ex_q PMin) = ORet q (Mat (D3 2 2 1) [1; 2; 0; 1]).
Proof. eexists. vm_compute. reflexivity. Qed.
Example C31_ex_avg : exists q, q_forward ex_x 1 (ex_q PAvg) = ORet q (Mat (D3 2 2 1) [23 / 4; 23 / 4; 22 / 4; 21 / 4]).
Proof. eexists. vm_compute. reflexivity. Qed.

(** ** C32 *)
Theorem C32_gradient_partial : forall t q x gr slot s0 g I G, t <> PAvg -> geom_ok g -> has_geom q g -> q_type q = t ->
  is_mat x (xdim g) I -> is_mat gr (odim g) G -> vget (q_idx q) slot = Ok s0 -> consistent s0 ->
  exists q' o r SF D, q_forward x slot q = ORet q' o /\ q_dx q' x gr slot = Ok r /\ is_mat r (xdim g) D /\
    (forall i j c, inb (odim g) i j c -> selected (better_of t) g I i j c (SF i j c)) /\
    (forall a b e, inb (xdim g) a b e ->
       D a b e = rsum3 (odim g) (fun i j c => if dim_eqb (SF i j c) (D3 a b e) then G i j c else 0%R)) /\
    rsum3 (xdim g) D = rsum3 (odim g) G /\
    (strict_sel t g I SF -> forall a b e Ot, inb (xdim g) a b e -> (forall s, pool_gives t g (fupd I a b e s) (Ot s)) ->
       is_derive (fun s => dotp (odim g) G (Ot s)) (I a b e) (D a b e)).
Proof. exact ext_dx_exact. Qed.
Print Assumptions C32_gradient_partial.

(** The selected element is the first extremal element of the window, so [SF] is unique. *)
Theorem C32_selected_unique : forall T (better : T -> T -> bool) g I i j c p p',
  selected better g I i j c p -> selected better g I i j c p' -> p = p'.
Proof. exact @selected_unique. Qed.
Print Assumptions C32_selected_unique.

Theorem C32_exists : forall t g I, geom_ok g -> exists O, pool_gives t g I O.
Proof. exact pool_total. Qed.
Print Assumptions C32_exists.

(** Earlier contents of the slot and other slots have no influence, and other slots are not changed. *)
Theorem C32_history_partial : forall T (N : Num T) t q1 q2 (x gr : mat T) sl1 sl2 s1 s2 g I G, strict_weak (better_of t) ->
  geom_ok g -> has_geom q1 g -> q_type q1 = t -> vget (q_idx q1) sl1 = Ok s1 -> consistent s1 ->
  has_geom q2 g -> q_type q2 = t -> vget (q_idx q2) sl2 = Ok s2 -> consistent s2 ->
  is_mat x (xdim g) I -> is_mat gr (odim g) G ->
  exists q1' q2' o r, q_forward x sl1 q1 = ORet q1' o /\ q_forward x sl2 q2 = ORet q2' o /\
    q_dx q1' x gr sl1 = Ok r /\ q_dx q2' x gr sl2 = Ok r /\
    (forall k, k <> sl1 -> 0 <= sl1 -> vget (q_idx q1') k = vget (q_idx q1) k).
Proof. exact @pool_history. Qed.
Print Assumptions C32_history_partial.

Example C32_ex : match q_forward ex_x 1 (ex_q PMax) with
  | ORet q _ => q_dx q ex_x (Mat (D3 2 2 1) [10; 20; 30; 40]) 1 = Ok (Mat (D3 5 3 1) [0;10;0;20;0; 0;0;40;0;0; 0;30;0;0;0])
  | _ => False end.
Proof. vm_compute. reflexivity. Qed.

(** ** C33 *)
Theorem C33_gradient_partial : forall q x gr slot s g I G, pool_case PAvg q x gr slot s g I G ->
  exists r D, q_dx q x gr slot = Ok r /\ is_mat r (xdim g) D /\
    (forall a b e, inb (xdim g) a b e ->
       D a b e = rsum3 (odim g) (fun i j c => if in_winb g i j c a b e then (G i j c / IZR (g_qx g * g_qy g))%R else 0%R)) /\
    forall a b e Ot, inb (xdim g) a b e -> (forall t, pool_gives PAvg g (fupd I a b e t) (Ot t)) ->
      is_derive (fun t => dotp (odim g) G (Ot t)) (I a b e) (D a b e).
Proof. exact avg_dx_exact. Qed.
Print Assumptions C33_gradient_partial.

Example C33_ex : q_dx (ex_q PAvg) ex_x (Mat (D3 2 2 1) [4; 8; 12; 16]) 0 =
  Ok (Mat (D3 5 3 1) [1;1;2;2;0; 4;4;6;6;0; 3;3;4;4;0]).
Proof. vm_compute. reflexivity. Qed.

(** ** C34 *)
Theorem C34_undersized_partial : forall T (N : Num T) q (x : mat T) I X Y C slot s0, is_mat x (D3 X Y C) I -> 1 <= X -> 1 <= Y -> 1 <= C ->
  1 <= dx (q_dim q) <= 2 ^ 24 -> 1 <= dy (q_dim q) <= 2 ^ 24 -> X < 2 ^ 24 -> Y < 2 ^ 24 ->
  1 <= dx (q_stride q) <= 2 ^ 24 -> 1 <= dy (q_stride q) <= 2 ^ 24 ->
  Z.max X (dx (q_dim q)) * Z.max Y (dy (q_dim q)) * C < two31 -> vget (q_idx q) slot = Ok s0 ->
  X < dx (q_dim q) \/ Y < dy (q_dim q) ->
  exists q' e, q_forward x slot q = OThrow q' e /\ (e = LengthError \/ e = MatrixSize).
Proof. exact @q_forward_small. Qed.
Print Assumptions C34_undersized_partial.

(** Sizes above 2^24, where the size of the output is rounded *)
Theorem C34_large_partial : forall T (N : Num T) q (x : mat T) I X Y C slot s0, is_mat x (D3 X Y C) I -> 1 <= X -> 1 <= Y -> 1 <= C ->
  1 <= dx (q_dim q) -> 1 <= dy (q_dim q) -> 1 <= dx (q_stride q) < two31 -> 1 <= dy (q_stride q) < two31 ->
  Z.max X (dx (q_dim q)) * Z.max Y (dy (q_dim q)) * C < 2 ^ 29 -> vget (q_idx q) slot = Ok s0 ->
  X < dx (q_dim q) \/ Y < dy (q_dim q) ->
  exists q' e, q_forward x slot q = OThrow q' e /\ (e = LengthError \/ e = MatrixSize).
Proof. exact @q_forward_smaller. Qed.
Print Assumptions C34_large_partial.

(** Without the bound the sizes are too large for int: a pool of 50000 x 50000 and an input of one number, or an input with
    2147483647 columns. *)
Theorem C34_overflow_refuted : forall T (N : Num T) (x : mat T) t idx slot, mdim x = D3 1 1 1 ->
  q_forward x slot (Pool (D3 50000 50000 1) (D3 1 1 1) t idx) = OUB.
Proof. exact @forward_overflow. Qed.
Print Assumptions C34_overflow_refuted.
Theorem C34_columns_refuted : forall T (N : Num T) (x : mat T) t idx slot, mdim x = D3 (2 ^ 31 - 1) 1 1 ->
  q_forward x slot (Pool (D3 1 2 1) (D3 1 1 1) t idx) = OUB.
Proof. exact @forward_int. Qed.
Print Assumptions C34_columns_refuted.

(** The member function checkSize, which the pass does not call *)
Theorem C34_check_partial : forall T q (x : mat T), 0 <= dx (q_dim q) < two31 -> 0 <= dy (q_dim q) < two31 -> 0 <= dx (mdim x) < two31 -> 0 <= dy (mdim x) < two31 ->
  (q_check q x = true <-> dx (q_dim q) <= dx (mdim x) /\ dy (q_dim q) <= dy (mdim x)).
Proof. intros T q x A B C D. unfold q_check, u32, two31 in *. rewrite !Z.mod_small by (unfold two32; lia). rewrite andb_true_iff, !Z.leb_le. reflexivity. Qed.
Print Assumptions C34_check_partial.

Example C34_ex : exists q e, q_forward ex_x 0 (Pool (D3 6 2 1) (D3 1 1 1) PMax [mat_empty]) = OThrow q e /\ e = MatrixSize.
Proof. do 2 eexists. vm_compute. split; reflexivity. Qed.
Example C34_ex_length : exists q e, q_forward ex_x 0 (Pool (D3 9 2 1) (D3 2 1 1) PMax [mat_empty]) = OThrow q e /\ e = LengthError.
Proof. do 2 eexists. vm_compute. split; reflexivity. Qed.
