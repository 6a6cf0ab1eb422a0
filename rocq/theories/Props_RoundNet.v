(** C102: accuracy of activation functions, softmax and whole forward passes with doubles; C21, C31 and C32 for finite doubles. *)
From Coq Require Import ZArith Bool Lia Reals Lra List.
From Flocq Require Import Core BinarySingleNaN.
From Verif Require Import Base Dim Matrix View Num Expr Spec Iter MatFacts Sums ExprThms Batch Kernel Connected Pooling PoolingThms PoolGrad Activation ActivationThms
  Softmax SoftmaxThms LayerFacts LayerTotal Calc Chars Double Float32 Bar Model Net NetThms NetPass NetGrad ModelThms TrainNet Shapes ShapeNet Main FiniteFacts FiniteSoft FiniteNet FiniteReal FiniteMain
  Rounding RoundLayers RoundNet RoundPass.
Import ListNotations.
Local Open Scope Z_scope.

(** ** C21, C31, C32: finite doubles. The order of doubles with NaN is not a strict weak order, that of finite doubles is. *)
Theorem C21_finite : forall S (a : lz S double) s d f, is_lz a s d f -> fits d -> pos d -> (forall x y z, inb d x y z -> is_finite (f x y z) = true) ->
  (exists x y z, inb d x y z /\ mmax a s = Ok (f x y z) /\ max_index3 a s = Ok (D3 x y z) /\
    (forall x' y' z', inb d x' y' z' -> (B2R (f x' y' z') <= B2R (f x y z))%R) /\
    (forall x' y' z', inb d x' y' z' -> lin d x' y' z' < lin d x y z -> (B2R (f x' y' z') < B2R (f x y z))%R)) /\
  (exists x y z, inb d x y z /\ mmin a s = Ok (f x y z) /\ min_index3 a s = Ok (D3 x y z) /\
    (forall x' y' z', inb d x' y' z' -> (B2R (f x y z) <= B2R (f x' y' z'))%R) /\
    (forall x' y' z', inb d x' y' z' -> lin d x' y' z' < lin d x y z -> (B2R (f x y z) < B2R (f x' y' z'))%R)).
Proof. exact extremes_finite. Qed.
Print Assumptions C21_finite.
Example C21_finite_ex : let v k := binary_normalize prec emax prec_pos prec_emax mode_NE k (-1) false in
  map B2SF (match mmax (l_val (Mat (D3 2 2 1) [v 3; v 7; v 7; v 1])) tt with Ok x => [x] | _ => [] end) = [B2SF (v 7)] /\
  max_index3 (l_val (Mat (D3 2 2 1) [v 3; v 7; v 7; v 1])) tt = Ok (D3 1 0 0).
Proof. split; vm_compute; reflexivity. Qed.

(** Maximum and minimum pooling: the first position with the largest (smallest) value of the window, and its value *)
Theorem C31_finite_partial : forall t q g x (I : Z -> Z -> Z -> double) slot s0, t <> PAvg -> geom_ok g -> has_geom q g -> q_type q = t ->
  is_mat x (xdim g) I -> vget (q_idx q) slot = Ok s0 -> consistent s0 -> (forall a b c, inb (xdim g) a b c -> is_finite (I a b c) = true) ->
  exists s o OF SF, q_forward x slot q = ORet (with_slot q slot s) o /\ is_mat o (odim g) OF /\ is_mat s (odim g) SF /\
    forall i j c, inb (odim g) i j c -> selected (better_of t) g I i j c (SF i j c) /\ OF i j c = I (dx (SF i j c)) (dy (SF i j c)) c /\
      forall a b, in_win g i j a b -> match t with PMin => (B2R (OF i j c) <= B2R (I a b c))%R | _ => (B2R (I a b c) <= B2R (OF i j c))%R end.
Proof. exact q_forward_finite. Qed.
Print Assumptions C31_finite_partial.

(** Earlier contents of the slot and other slots have no influence. *)
Theorem C32_history_finite_partial : forall t q1 q2 (x gr : mat double) sl1 sl2 s1 s2 g I G,
  geom_ok g -> has_geom q1 g -> q_type q1 = t -> vget (q_idx q1) sl1 = Ok s1 -> consistent s1 ->
  has_geom q2 g -> q_type q2 = t -> vget (q_idx q2) sl2 = Ok s2 -> consistent s2 ->
  is_mat x (xdim g) I -> (forall a b c, inb (xdim g) a b c -> is_finite (I a b c) = true) -> is_mat gr (odim g) G ->
  exists q1' q2' o r, q_forward x sl1 q1 = ORet q1' o /\ q_forward x sl2 q2 = ORet q2' o /\
    q_dx q1' x gr sl1 = Ok r /\ q_dx q2' x gr sl2 = Ok r /\
    (forall k, k <> sl1 -> 0 <= sl1 -> vget (q_idx q1') k = vget (q_idx q1) k).
Proof. exact pool_history_finite. Qed.
Print Assumptions C32_history_finite_partial.
Example C31_finite_ex : let v k := binary_normalize prec emax prec_pos prec_emax mode_NE k (-1) false in
  match q_forward (Mat (D3 2 2 1) [v 3; v (-7); v 5; v 1]) 0 (Pool (D3 2 2 1) (D3 1 1 1) PMax [mat_empty]) with
  | ORet _ o => mdim o = D3 1 1 1 /\ map B2SF (mvals o) = [B2SF (v 5)] | _ => False end.
Proof. vm_compute. split; reflexivity. Qed.

(** ** C102. *)
(** What is assumed of exp and tanh: errors of about one unit in the last place. Correctly rounded functions are an instance. *)
Theorem C102_environment : forall rand, (forall k, 0 <= rand k <= 2 ^ 31 - 1) -> acc_ok (d_env rand).
Proof. exact d_env_acc. Qed.
Print Assumptions C102_environment.

(** The sigmoid function as it is computed: errors of up to 2^-50 for every finite double *)
Theorem C102_sigmoid : forall e, exp_ok e -> exp_acc e -> forall v : double, is_finite v = true ->
  (Rabs (B2R (sigmoid_fcn e v) - / (1 + exp (- B2R v))) <= bpow radix2 (-50))%R.
Proof. exact sigmoid_accuracy. Qed.
Print Assumptions C102_sigmoid.

(** Softmax of outputs of absolute value at most 2^e *)
Theorem C102_softmax : forall expT : double -> double, exp_ok expT -> exp_acc expT -> forall s (x : mat double) d f e,
  is_mat x d f -> fits d -> pos d -> labels_ok d (sm_count s) -> 0 <= e <= 49 -> (forall a b c, inb d a b c -> within 1 e (f a b c)) ->
  exists o P, sm_forward expT s x = Ok o /\ is_mat o d P /\
    forall a b c, inb d a b c -> (Rabs (B2R (P a b c) - exp (B2R (f a b c)) / rsum3 d (fun a b c => exp (B2R (f a b c)))) <= bpow radix2 (e - 50) + IZR (vol d + 3) * bpow radix2 (-51))%R.
Proof. exact softmax_close. Qed.
Print Assumptions C102_softmax.

(** One layer: from inputs of at most 2^e that are within 2^g of the numbers [F], and parameters of at most 2^w, the layer computes
    numbers within 2^(h_err w s d e g) of what it would compute from [F] with exact arithmetic. *)
Theorem C102_layer : forall E, acc_ok E -> forall w l s d i x e g I F, l_fit l s d -> index_slot l i -> h_ok s d -> is_mat x d I ->
  (forall a b c, inb d a b c -> within 1 e (I a b c)) -> nearby g d I F -> l_small w l s d -> 0 <= e -> 0 <= w -> e <= 970 -> h_exp w s d e <= 970 ->
  exists l' o O, l_forward E x i l = ORet l' o /\ is_mat o (h_out s d) O /\
    (forall a b c, inb (h_out s d) a b c -> within 1 (h_exp w s d e) (O a b c)) /\ nearby (h_err w s d e g) (h_out s d) O (sem (real_layer s l') d F).
Proof. exact layer_close. Qed.
Print Assumptions C102_layer.

(** A forward pass: the recorded probabilities and the label against those of exact arithmetic. [g] bounds the errors of the image. *)
Theorem C102_pass : forall E, acc_ok E -> forall w body sm ss d n i e g U (cast : U -> double) (input : mat U) J F,
  net_fit body ss d -> sm_count sm = n -> List.Forall (fun l => index_slot l i) body -> h_net_ok ss d -> labels_ok (h_net_out ss d) n ->
  is_mat input d J -> (forall a b c, inb d a b c -> within 1 e (cast (J a b c))) -> nearby g d (fun a b c => cast (J a b c)) F ->
  net_small w body ss d -> 0 <= w -> 0 <= e -> h_net_lim 127 w ss d e -> h_net_exp w ss d e <= 49 -> h_net_err w ss d e g <= -2 ->
  exists body' x0 rs p r P, forward_pass E cast n input i (body ++ [LSoft sm]) = ORet (body' ++ [LSoft sm]) r /\
    r_inputs r = x0 :: rs ++ [p] /\ is_mat p (h_net_out ss d) P /\
    let X := net_sem (real_net ss body') d F in
    (forall a b c, inb (h_net_out ss d) a b c -> (Rabs (B2R (P a b c) - soft (h_net_out ss d) X a b c) <=
       bpow radix2 (h_net_err w ss d e g + 2) + bpow radix2 (h_net_exp w ss d e - 50) + IZR (vol (h_net_out ss d) + 3) * bpow radix2 (-51) + bpow radix2 (-25))%R) /\
    exists a b c, inb (h_net_out ss d) a b c /\ r_label r = lin (h_net_out ss d) a b c /\ r_conf r = P a b c /\
      forall a' b' c', inb (h_net_out ss d) a' b' c' -> (X a' b' c' <= X a b c + bpow radix2 (h_net_err w ss d e g + 1) + bpow radix2 (-50))%R.
Proof. exact pass_accuracy. Qed.
Print Assumptions C102_pass.

(** The label is that of exact arithmetic if the largest exact output is far enough from the others. *)
Theorem C102_label : forall E, acc_ok E -> forall w body sm ss d n i e g U (cast : U -> double) (input : mat U) J F,
  net_fit body ss d -> sm_count sm = n -> List.Forall (fun l => index_slot l i) body -> h_net_ok ss d -> labels_ok (h_net_out ss d) n ->
  is_mat input d J -> (forall a b c, inb d a b c -> within 1 e (cast (J a b c))) -> nearby g d (fun a b c => cast (J a b c)) F ->
  net_small w body ss d -> 0 <= w -> 0 <= e -> h_net_lim 127 w ss d e -> h_net_exp w ss d e <= 49 -> h_net_err w ss d e g <= -2 ->
  exists body' r, forward_pass E cast n input i (body ++ [LSoft sm]) = ORet (body' ++ [LSoft sm]) r /\
    forall a b c, inb (h_net_out ss d) a b c ->
      (forall a' b' c', inb (h_net_out ss d) a' b' c' -> (a', b', c') <> (a, b, c) ->
        (net_sem (real_net ss body') d F a' b' c' + bpow radix2 (h_net_err w ss d e g + 1) + bpow radix2 (-50) < net_sem (real_net ss body') d F a b c)%R) ->
      r_label r = lin (h_net_out ss d) a b c.
Proof. exact label_accuracy. Qed.
Print Assumptions C102_label.

(** The network of main.cpp with its initial parameters and an image of numbers up to 2^8 *)
Theorem C102_main : forall E, acc_ok E -> forall u (cast : f32 -> double) (input : mat f32) J, is_mat input (D3 28 28 1) J ->
  (forall x y, 0 <= x < 28 -> 0 <= y < 28 -> within 1 8 (cast (J x y 0))) ->
  exists m body r pre p P, main_model E u = Ok m /\ forward_pass E cast 10 input 0 (map snd (m_layers m)) = ORet (body ++ [LSoft (sm_make 10)]) r /\
    r_inputs r = pre ++ [p] /\ is_mat p (D3 10 1 1) P /\
    let X := net_sem (real_net main_shapes body) (D3 28 28 1) (fun x y z => B2R (cast (J x y z))) in
    (forall k, 0 <= k < 10 -> (Rabs (B2R (P k 0%Z 0%Z) - soft (D3 10 1 1) X k 0 0) <= bpow radix2 (-15))%R) /\
    0 <= r_label r < 10 /\ r_conf r = P (r_label r) 0 0 /\ forall k, 0 <= k < 10 -> (X k 0%Z 0%Z <= X (r_label r) 0%Z 0%Z + bpow radix2 (-16))%R.
Proof. exact main_close. Qed.
Print Assumptions C102_main.

Example C102_ex_bound : h_net_err 0 main_shapes (D3 28 28 1) 8 (-60) = -18 /\ h_net_exp 0 main_shapes (D3 28 28 1) 8 = 12 /\
  h_net_err 0 [HConn 3; HAct Relu] (D3 2 2 1) 1 (-52) = -44.
Proof. vm_compute. auto. Qed.
(** A black image *)
Example C102_ex_main : forall u, let E := d_env (fun _ => 0) in exists m body r, main_model E u = Ok m /\
  forward_pass E d_of_f32 10 (Mat (D3 28 28 1) (repeat (B754_zero false) (Z.to_nat 784))) 0 (map snd (m_layers m)) = ORet (body ++ [LSoft (sm_make 10)]) r /\ 0 <= r_label r < 10.
Proof. exact main_black. Qed.
(** A sum of two inputs 1 and 2^-60 with weights 1 is not exact. *)
Example C102_ex_inexact : let v k := binary_normalize prec emax prec_pos prec_emax mode_NE 1 k false in
  B2SF (nadd (nadd n0 (nmul (v 0) (v 0))) (nmul (v 0) (v (-60)))) = B2SF (v 0).
Proof. vm_compute. reflexivity. Qed.
