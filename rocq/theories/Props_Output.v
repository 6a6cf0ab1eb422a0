(** Properties C35-C42: activation layer, softmax layer and loss. *)
From Coq Require Import ZArith List Bool Lia Reals Lra String.
From Coquelicot Require Import Coquelicot.
From Verif Require Import Base Dim Matrix View Num Expr Spec Iter Sums MatFacts ExprThms Activation Softmax LayerFacts Calc ActivationThms SoftmaxThms.
Import ListNotations.
Local Open Scope Z_scope.

Definition zact (a : act) (x : mat Z) : res (mat Z) := a_forward (fun v => v) (fun v => v) 0 a x.

(** ** C35 *)
Theorem C35_elementwise : forall T (N : Num T) expT tanhT c01f a (x : mat T) d f, is_mat x d f -> fits d -> iterable d ->
  exists o, a_forward expT tanhT c01f a x = Ok o /\ is_mat o d (fun i j k => act_fcn expT tanhT c01f a (f i j k)).
Proof. exact @a_forward_ok. Qed.
Print Assumptions C35_elementwise.

(** [act_R a] is the function of kind [a] over the real numbers (slope of the leaky relu: the float 0.1f). *)
Theorem C35_ranges : forall v, (0 <= act_R Relu v /\ 0 < act_R Sigmoid v < 1 /\ -1 < act_R Tangent v < 1 /\ act_R Linear v = v /\
  (0 <= v -> act_R Relu v = v /\ act_R LeakyRelu v = v) /\ (v <= 0 -> act_R Relu v = 0 /\ act_R LeakyRelu v = f01 * v))%R.
Proof. exact act_ranges. Qed.
Print Assumptions C35_ranges.

Theorem C35_sigmoid_value : forall v, (act_R Sigmoid v = / (1 + exp (- v)))%R.
Proof. exact sigmoid_R. Qed.
Print Assumptions C35_sigmoid_value.

Theorem C35_monotone : forall a u v, (u <= v)%R -> (act_R a u <= act_R a v)%R.
Proof. exact act_shape. Qed.
Print Assumptions C35_monotone.

Example C35_ex : zact Relu (Mat (D3 2 2 1) [1; -2; 3; 0]) = Ok (Mat (D3 2 2 1) [1; 0; 3; 0]).
Proof. vm_compute. reflexivity. Qed.
Example C35_ex_sigmoid : (act_R Sigmoid 0 = 1 / 2)%R.
Proof. rewrite sigmoid_R, Ropp_0, exp_0. lra. Qed.

(** ** C36. The layer receives its own output as [z] and multiplies by the derivative function at that output. *)
Theorem C36_backward_value : forall T (N : Num T) expT tanhT c01 a (z g : mat T) d f G, is_mat z d f -> is_mat g d G -> fits d -> iterable d ->
  exists r, a_backward expT tanhT c01 a z g = Ok r /\
    is_mat r d (fun i j k => nmul (G i j k) (act_grad expT tanhT c01 a (f i j k))).
Proof. exact @a_backward_ok. Qed.
Print Assumptions C36_backward_value.

Theorem C36_size : forall T (N : Num T) expT tanhT c01 a (z g : mat T) d e f G, is_mat z d f -> is_mat g e G -> fits d -> iterable d ->
  d <> e -> a_backward expT tanhT c01 a z g = Throw MatrixSize.
Proof. exact @a_backward_size. Qed.
Print Assumptions C36_size.

(** Applied to the input the derivative functions are correct, except the leaky relu for negative inputs (0.1 and
    0.1f differ), and the kinks. *)
Theorem C36_table_partial : forall a v, (a = Relu -> v <> 0%R) -> (a = LeakyRelu -> (0 < v)%R) -> is_derive (act_R a) v (actg_R a v).
Proof. exact act_table. Qed.
Print Assumptions C36_table_partial.

(** Applied to the output, as the code does, they are correct for relu and linear, and for leaky relu above zero. *)
Theorem C36_output_partial : forall a v,
  match a with Relu => v <> 0%R | Linear => True | LeakyRelu => (0 < v)%R | _ => False end -> is_derive (act_R a) v (actg_R a (act_R a v)).
Proof. exact act_output_derive. Qed.
Print Assumptions C36_output_partial.

Theorem C36_leaky_partial : forall v, (v < 0)%R ->
  is_derive (act_R LeakyRelu) v f01 /\ actg_R LeakyRelu (act_R LeakyRelu v) = d01 /\ (0 < f01 - d01 < 2 / 1000000000)%R.
Proof. exact leaky_output_error. Qed.
Print Assumptions C36_leaky_partial.

Theorem C36_sigmoid_refuted : exists v d, is_derive (act_R Sigmoid) v d /\ actg_R Sigmoid (act_R Sigmoid v) <> d.
Proof. exact sigmoid_output_wrong. Qed.
Print Assumptions C36_sigmoid_refuted.
Theorem C36_tanh_refuted : exists v d, is_derive (act_R Tangent) v d /\ actg_R Tangent (act_R Tangent v) <> d.
Proof. exact tanh_output_wrong. Qed.
Print Assumptions C36_tanh_refuted.

Example C36_ex : a_backward (fun v => v) (fun v => v) 0 Relu (Mat (D3 2 2 1) [1; 0; 3; 0]) (Mat (D3 2 2 1) [5; 6; 7; 8]) =
  Ok (Mat (D3 2 2 1) [5; 0; 7; 0]).
Proof. vm_compute. reflexivity. Qed.

(** ** C37 *)
Theorem C37_roundtrip : forall k s, to_string k = Ok s -> from_string s = Ok k.
Proof. exact names_roundtrip. Qed.
Print Assumptions C37_roundtrip.
Theorem C37_total : forall k, exists s, to_string k = Ok s.
Proof. exact names_total. Qed.
Print Assumptions C37_total.
Theorem C37_different : forall k l, to_string k = to_string l -> k = l.
Proof. exact names_inj. Qed.
Print Assumptions C37_different.
Theorem C37_reject : forall s, (forall k, to_string k <> Ok s) -> from_string s = Throw RuntimeError.
Proof. exact names_reject. Qed.
Print Assumptions C37_reject.
(** A number that is no kind is rejected as well. *)
Theorem C37_numbers : forall n, (0 <= n < 5 -> exists k, act_number k = n /\ to_string_num n = to_string k) /\
  (n < 0 \/ 5 <= n -> to_string_num n = Throw RuntimeError).
Proof. exact names_range. Qed.
Print Assumptions C37_numbers.

Example C37_ex : to_string LeakyRelu = Ok "LEAKY_RELU"%string /\ from_string "LEAKY_RELU" = Ok LeakyRelu /\
  from_string "relu" = Throw RuntimeError.
Proof. vm_compute. auto. Qed.

(** ** C38 *)
Theorem C38_value : forall x d f, is_mat x d f -> fits d -> pos d ->
  exists o m, sm_apply exp x = Ok o /\ is_mat o d (soft d f) /\ mmax (l_val x) tt = Ok m /\
    (forall a b c, inb d a b c -> (exp (f a b c - m) <= 1)%R) /\ (exists a b c, inb d a b c /\ exp (f a b c - m) = 1%R).
Proof. exact sm_apply_ok. Qed.
Print Assumptions C38_value.

Theorem C38_properties : forall d f, pos d ->
  (forall x y z, inb d x y z -> (0 < soft d f x y z <= 1)%R) /\
  rsum3 d (soft d f) = 1%R /\
  (forall x y z x' y' z', inb d x y z -> inb d x' y' z' -> ((f x y z < f x' y' z')%R <-> (soft d f x y z < soft d f x' y' z')%R)) /\
  (forall c x y z, inb d x y z -> soft d (fun a b e => (f a b e + c)%R) x y z = soft d f x y z).
Proof. exact soft_props. Qed.
Print Assumptions C38_properties.

(** With a stand-in for exp on integers: exp 0 = 60, else 0 *)
Example C38_ex : sm_apply (fun v => if v =? 0 then 60 else 0) (Mat (D3 3 1 1) [4; 5; 3]) = Ok (Mat (D3 3 1 1) [0; 1; 0]).
Proof. vm_compute. reflexivity. Qed.
Example C38_ex_half : soft (D3 2 1 1) (fun x _ _ => IZR x) 1 0 0 = (exp 1 / (1 + exp 1))%R.
Proof.
  assert (R1 : forall f, rsum 1 f = (0 + f 0%Z)%R) by reflexivity.
  assert (R2 : forall f, rsum 2 f = (0 + f 0%Z + f 1%Z)%R) by reflexivity.
  unfold soft, rsum3. cbn [dx dy dz]. rewrite !R1, R2, exp_0. f_equal. lra.
Qed.

(** ** C39. [nll d f a b c] is -ln of the softmax output at (a,b,c). *)
Theorem C39_gradient : forall x d f a b c, is_mat x d f -> fits d -> pos d -> inb d a b c -> forall n,
  exists o r D, sm_apply exp x = Ok o /\ sm_backward (Soft true (a + dx d * b + dx d * dy d * c) n) o = Ok r /\ is_mat r d D /\
    rsum3 d D = 0%R /\
    forall i j k, inb d i j k -> is_derive (fun t => (- ln (soft d (fupd f i j k t) a b c))%R) (f i j k) (D i j k).
Proof. exact sm_backward_exact. Qed.
Print Assumptions C39_gradient.

Example C39_ex : sm_backward (Soft true 1 3) (Mat (D3 3 1 1) [5; 7; 9]) = Ok (Mat (D3 3 1 1) [5; 6; 9]).
Proof. vm_compute. reflexivity. Qed.

(** ** C40 *)
Theorem C40_protocol : forall n ks (y : mat R) d O, is_mat y d O -> fits d -> vol d = n ->
  match last_valid n ks None with
  | Some k => sm_backward (sm_history ks (sm_make n)) y = sm_dx y k
  | None => sm_backward (sm_history ks (sm_make n)) y = Throw LayerExn
  end.
Proof. exact sm_backward_protocol. Qed.
Print Assumptions C40_protocol.

Theorem C40_reject_label : forall k s, sm_count s <= k -> sm_assign k s = OThrow s OutOfRange.
Proof. exact sm_assign_reject. Qed.
Print Assumptions C40_reject_label.

Theorem C40_input : forall s x d f, is_mat x d f -> fits d -> pos d ->
  (dz d = 1 /\ (dx d = 1 \/ dy d = 1) /\ vol d = sm_count s -> sm_forward exp s x = sm_apply exp x) /\
  (~ (dz d = 1 /\ (dx d = 1 \/ dy d = 1) /\ vol d = sm_count s) -> sm_forward exp s x = Throw LayerExn).
Proof. exact sm_forward_ok. Qed.
Print Assumptions C40_input.

Example C40_ex : last_valid 3 [1; 7; 2; 3] None = Some 2 /\
  sm_backward (sm_history [1; 7; 2; 3] (sm_make 3)) (Mat (D3 3 1 1) [5; 7; 9]) = Ok (Mat (D3 3 1 1) [5; 7; 8]) /\
  sm_backward (sm_history [7] (sm_make 3)) (Mat (D3 3 1 1) [5; 7; 9]) = Throw LayerExn.
Proof. vm_compute. auto. Qed.

(** ** C41. [eps32] is the float next to 1e-5, 10995116 * 2^-40; log2 is real. *)
Theorem C41_value : forall m d P a b c, is_mat m d P -> inb d a b c ->
  loss_fcn log2 eps32 (fun t => t) m (a + dx d * b + dx d * dy d * c) = Ok (Rmax 0 (- log2 (P a b c + eps32))).
Proof. exact loss_ok. Qed.
Print Assumptions C41_value.

Theorem C41_properties_partial :
  (forall p, 0 <= p <= 1 -> 0 <= loss_R p <= - log2 eps32)%R /\
  (forall p q, 0 <= p -> p <= q -> loss_R q <= loss_R p)%R /\
  (forall p q, 0 <= p -> p < q -> q <= 1 - eps32 -> loss_R q < loss_R p)%R /\
  (forall p, 0 <= p -> (loss_R p = 0 <-> 1 - eps32 <= p))%R /\ loss_R 0 = (- log2 eps32)%R.
Proof. exact loss_props. Qed.
Print Assumptions C41_properties_partial.

(** With the decimal 1e-5 instead of the float constant the two bounds of C41 are missed by a little. *)
Theorem C41_bounds_refuted : (log2 100000 < loss_R 0 /\ 0 < loss_R (1 - 1 / 100000))%R.
Proof. exact loss_bound_exceeded. Qed.
Print Assumptions C41_bounds_refuted.

Example C41_ex : loss_fcn (fun v => v - 4) 1 (fun t => t) (Mat (D3 3 1 1) [0; 2; 7]) 1 = Ok 1 /\
  loss_fcn (fun v => v - 4) 1 (fun t => t) (Mat (D3 3 1 1) [0; 2; 7]) 2 = Ok 0.
Proof. vm_compute. auto. Qed.

(** ** C42 *)
Theorem C42_gradient_refuted : exists (x : mat R) o r, is_mat x (D3 2 1 1) (fun _ _ _ => 0%R) /\
  sm_apply exp x = Ok o /\ sm_backward (Soft true 0 2) o = Ok r /\ cell r 0 = Some (- (1 / 2))%R /\
  ~ is_derive (fun t => loss_R (soft (D3 2 1 1) (fupd (fun _ _ _ => 0%R) 0 0 0 t) 0 0 0)) 0%R (- (1 / 2))%R.
Proof. exact reported_gradient_wrong. Qed.
Print Assumptions C42_gradient_refuted.

(** What holds: the derivative of the reported loss is the returned gradient (its value is C39's) times the positive
    factor p / ((p + eps) ln 2), as long as the loss is not cut off. *)
Theorem C42_proportional_partial : forall d f a b c i j k, pos d -> inb d a b c -> inb d i j k -> (soft d f a b c < 1 - eps32)%R ->
  is_derive (fun t => loss_R (soft d (fupd f i j k t) a b c)) (f i j k)
    (soft d f a b c / ((soft d f a b c + eps32) * ln 2) * fupd (soft d f) a b c (soft d f a b c - 1) i j k)%R.
Proof. exact reported_gradient. Qed.
Print Assumptions C42_proportional_partial.
