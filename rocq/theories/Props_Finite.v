(** Properties C29 and C82-C86 for IEEE-754 doubles: initial parameters, activation functions, softmax, labels, whole forward
    passes and the loss stay finite and in their ranges. [B2R x] is the real value of the double [x]. *)
From Coq Require Import ZArith Bool Lia Reals Lra List.
From Flocq Require Import Core BinarySingleNaN.
From Verif Require Import Base Dim Matrix View Num Expr Spec Iter Sums MatFacts Batch Kernel Connected Float32 Pooling Activation Softmax
  KernelThms BatchThms ConnectedThms PoolingThms LayerTotal Chars Double Model Net NetGrad ModelThms TrainSgd Shapes ShapeNet Main
  ExprThms FiniteFacts FiniteSoft FiniteInit FiniteNet FiniteReal FiniteMain.
Import ListNotations.
Local Open Scope Z_scope.

(** ** C29 in doubles: all parameters are finite, not zero and at most 1, and their squares sum up to 1 except for an error
    below 2^-19 (2^-50 for every parameter). [d_sqrt] is the correctly rounded square root. *)
Theorem C29_double : forall (rand : Z -> Z) rmax, (forall k, 0 <= rand k <= rmax) -> Z.odd rmax = true -> 1 <= rmax < 2 ^ 31 ->
  forall k0 d, fits d -> 1 <= vol d ->
  let f := init_val (T := double) rand rmax d_sqrt k0 d in
  (forall x y z, inb d x y z -> is_finite (f x y z) = true /\ (bpow radix2 (-47) <= Rabs (B2R (f x y z)) <= 1)%R) /\
  (Rabs (rsum3 d (fun x y z => B2R (f x y z) * B2R (f x y z)) - 1) <= IZR (vol d) * bpow radix2 (-50))%R.
Proof. exact init_double. Qed.
Print Assumptions C29_double.
(** rand always returns RAND_MAX: four values -1, divided by their norm 2. With an even RAND_MAX there can be NaN. *)
Example C29_ex_double : B2SF (init_val (T := double) (fun _ => 3) 3 d_sqrt 0 (D3 2 2 1) 1 0 0) = B2SF (Bopp (ndiv n1 (d_of_Z 2))) /\
  B2SF (init_val (T := double) (fun _ => 1) 2 d_sqrt 0 (D3 2 2 1) 1 0 0) = SpecFloat.S754_nan.
Proof. vm_compute. auto. Qed.

(** ** C82. [exp_ok]: exp is between 0 and 1 for numbers up to 0 and -infinity, and at least 1 or infinity for numbers from 0
    on. [tanh_ok]: tanh is between -1 and 1. [unit_const]: the constant 0.1 is between 0 and 1. *)
Theorem C82_finite : forall expT tanhT c01f, exp_ok expT -> tanh_ok tanhT -> unit_const c01f -> forall a (v : double), is_finite v = true ->
  is_finite (act_fcn expT tanhT c01f a v) = true /\ (Rabs (B2R (act_fcn expT tanhT c01f a v)) <= Rmax 1 (Rabs (B2R v)))%R.
Proof. exact act_finite. Qed.
Print Assumptions C82_finite.
Theorem C82_ranges : forall expT tanhT c01f, exp_ok expT -> tanh_ok tanhT -> forall v : double, is_finite v = true ->
  (0 <= B2R (act_fcn expT tanhT c01f Relu v))%R /\ (0 <= B2R (act_fcn expT tanhT c01f Sigmoid v) <= 1)%R /\
  (-1 <= B2R (act_fcn expT tanhT c01f Tangent v) <= 1)%R /\ act_fcn expT tanhT c01f Linear v = v.
Proof. exact act_ranges. Qed.
Print Assumptions C82_ranges.
Theorem C82_gradients : forall expT tanhT c01, exp_ok expT -> tanh_ok tanhT -> unit_const c01 -> forall a (v : double), is_finite v = true ->
  is_finite (act_grad expT tanhT c01 a v) = true /\ (0 <= B2R (act_grad expT tanhT c01 a v) <= 1)%R.
Proof. exact act_grad_unit. Qed.
Print Assumptions C82_gradients.
Theorem C82_monotone : forall expT tanhT c01f, exp_ok expT -> unit_const c01f -> exp_mono expT -> tanh_mono tanhT -> forall a (u v : double),
  is_finite u = true -> is_finite v = true -> (B2R u <= B2R v)%R -> (B2R (act_fcn expT tanhT c01f a u) <= B2R (act_fcn expT tanhT c01f a v))%R.
Proof. exact act_mono. Qed.
Print Assumptions C82_monotone.
(** Correctly rounded functions meet the assumptions. *)
Theorem C82_correctly_rounded : (exp_ok r_exp /\ exp_mono r_exp /\ exp_gap r_exp) /\ (tanh_ok r_tanh /\ tanh_mono r_tanh) /\ log2_ok r_log2 /\
  (forall v : double, is_finite v = true -> is_finite (r_exp v) = true -> B2R (r_exp v) = round radix2 (FLT_exp (-1074) 53) ZnearestE (exp (B2R v))) /\
  (forall v : double, is_finite v = true -> B2R (r_tanh v) = round radix2 (FLT_exp (-1074) 53) ZnearestE (tanh (B2R v))).
Proof.
  split; [exact (conj r_exp_ok (conj r_exp_mono r_exp_gap))|]. split; [exact (conj r_tanh_ok r_tanh_mono)|]. split; [exact r_log2_ok|]. split.
  - intros v F Q. rewrite (r_exp_fin v F) in *. destruct (d_of_R_cases (exp (B2R v))) as [(_ & C)|(_ & C)]; [exact C|rewrite C in Q; discriminate Q].
  - intros v F. apply (r_tanh_val v F).
Qed.
Print Assumptions C82_correctly_rounded.
(** A coarse exp that is easy to compute with: 1/2 below 0, 2 above 0, infinity above 1024 *)
Definition ex_exp (v : double) : double :=
  if is_nan v then v else if Bltb v n0 then ndiv n1 (d_of_Z 2) else if Bltb n0 v then (if Bltb (d_of_Z 1024) v then posinf else d_of_Z 2) else n1.
Definition ex_tanh (v : double) : double := if Bltb v n0 then Bopp n1 else if Bltb n0 v then n1 else n0.
(** The sigmoid function where exp overflows: 1/(1+infinity) = 0 *)
Example C82_ex : B2SF (act_fcn ex_exp ex_tanh c_01f Sigmoid (d_of_Z (-5000))) = SpecFloat.S754_zero false /\
  B2SF (act_fcn ex_exp ex_tanh c_01f Sigmoid n0) = B2SF (ndiv n1 (d_of_Z 2)) /\ B2SF (act_grad ex_exp ex_tanh c_01 Sigmoid n0) = B2SF (ndiv n1 (d_of_Z 4)) /\
  B2SF (act_fcn ex_exp ex_tanh c_01f LeakyRelu (d_of_Z (-1))) = B2SF (Bopp c_01f).
Proof. vm_compute. auto. Qed.

(** ** C83. [P] are the values of the output: between 0 and 1, their sum is 1 except for an error of 2^-51 for every label;
    the largest input gets the largest probability, at least 2^-31, and larger inputs no smaller probabilities. *)
Theorem C83_softmax : forall expT, exp_ok expT -> forall s (x : mat double) d f, is_mat x d f -> fits d -> pos d -> labels_ok d (sm_count s) ->
  (forall a b c, inb d a b c -> is_finite (f a b c) = true) ->
  exists o P, sm_forward expT s x = Ok o /\ is_mat o d P /\
    (forall a b c, inb d a b c -> is_finite (P a b c) = true /\ (0 <= B2R (P a b c) <= 1)%R) /\
    (Rabs (rsum3 d (fun a b c => B2R (P a b c)) - 1) <= IZR (vol d) * bpow radix2 (-51))%R /\
    (forall a b c, inb d a b c -> (forall a' b' c', inb d a' b' c' -> (B2R (f a' b' c') <= B2R (f a b c))%R) ->
       (bpow radix2 (-31) <= B2R (P a b c))%R /\ forall a' b' c', inb d a' b' c' -> (B2R (P a' b' c') <= B2R (P a b c))%R) /\
    (exp_mono expT -> forall a b c a' b' c', inb d a b c -> inb d a' b' c' -> (B2R (f a b c) <= B2R (f a' b' c'))%R -> (B2R (P a b c) <= B2R (P a' b' c'))%R) /\
    (exp_gap expT -> forall a b c a' b' c', inb d a b c -> inb d a' b' c' -> (forall a' b' c', inb d a' b' c' -> (B2R (f a' b' c') <= B2R (f a b c))%R) ->
       (B2R (f a' b' c') <= B2R (f a b c) - bpow radix2 (-50))%R -> (B2R (P a' b' c') < B2R (P a b c))%R).
Proof. exact softmax_finite. Qed.
Print Assumptions C83_softmax.
(** Inputs 10^300, 1 and 10^300: without the subtraction of the largest input exp would overflow. An infinite input gives NaN. *)
Example C83_ex : (match sm_forward ex_exp (sm_make 3) (Mat (D3 3 1 1) [d_of_Z (10 ^ 300); n1; d_of_Z (10 ^ 300)]) with
    | Ok o => map B2SF (mvals o) = map B2SF [ndiv (d_of_Z 2) (d_of_Z 5); ndiv n1 (d_of_Z 5); ndiv (d_of_Z 2) (d_of_Z 5)] | _ => False end) /\
  (match sm_forward ex_exp (sm_make 2) (Mat (D3 2 1 1) [posinf; n1]) with Ok o => map B2SF (mvals o) = [SpecFloat.S754_nan; SpecFloat.S754_nan] | _ => False end).
Proof. vm_compute. auto. Qed.

(** ** C84. The chosen label has the largest probability; inputs larger than its input get the same probability after
    rounding; and they are larger by less than 2^-50. *)
Theorem C84_label_partial : forall expT : double -> double, exp_ok expT -> exp_mono expT -> forall s (x : mat double) d f, is_mat x d f -> fits d -> pos d -> labels_ok d (sm_count s) ->
  (forall a b c, inb d a b c -> is_finite (f a b c) = true) ->
  exists o P a b c, sm_forward expT s x = Ok o /\ is_mat o d P /\ max_index o = Ok (lin d a b c) /\ inb d a b c /\
    (forall a' b' c', inb d a' b' c' -> (B2R (P a' b' c') <= B2R (P a b c))%R) /\
    (forall a' b' c', inb d a' b' c' -> (B2R (f a b c) <= B2R (f a' b' c'))%R -> B2R (P a' b' c') = B2R (P a b c)) /\
    (exp_gap expT -> forall a' b' c', inb d a' b' c' -> (B2R (f a' b' c') < B2R (f a b c) + bpow radix2 (-50))%R).
Proof. exact label_soft. Qed.
Print Assumptions C84_label_partial.
(** Refuted: for the inputs 0 and 2^-60 the first label is chosen although the second input is larger, also with a correctly
    rounded exp: 1 is the double nearest to e^(-2^-60). *)
Theorem C84_largest_refuted : (exists o, sm_forward r_exp (sm_make 2) (Mat (D3 2 1 1) [n0; tiny]) = Ok o /\ max_index o = Ok 0) /\ (B2R (n0 : double) < B2R tiny)%R.
Proof.
  split; [apply label_tie; apply r_exp_tiny|]. unfold tiny. rewrite lit_val. cbn [n0 NumD B2R]. apply Rmult_lt_0_compat; [apply IZR_lt; lia|apply bpow_gt_0].
Qed.
Print Assumptions C84_largest_refuted.
Example C84_ex : match sm_forward ex_exp (sm_make 3) (Mat (D3 3 1 1) [n0; d_of_Z 7; n1]) with Ok o => max_index o = Ok 1 | _ => False end.
Proof. vm_compute. reflexivity. Qed.

(** ** C85. [net_small w]: all parameters are at most 2^w; the elements of the image are at most 2^e; [h_net_lim 127]: the
    bounds 2^h_exp of the layer outputs, computed from the sizes of the layers, stay below 2^127. Then all recorded values are
    finite and within these bounds ([recs_small]) and the parameters stay at most 2^w (also those that the forward pass
    creates). [probs p d P]: floats between 0 and 1 whose sum is 1 except for an error of 2^-24 for every label. *)
Theorem C85_forward : forall E, env_ok E -> forall w body sm ss d n i e U (cast : U -> double) (input : mat U) J,
  net_fit body ss d -> sm_count sm = n -> List.Forall (fun l => index_slot l i) body -> h_net_ok ss d -> labels_ok (h_net_out ss d) n ->
  is_mat input d J -> (forall a b c, inb d a b c -> within 1 e (cast (J a b c))) ->
  net_small w body ss d -> 0 <= w -> 0 <= e -> h_net_lim 127 w ss d e ->
  exists body' x0 rs p r P, forward_pass E cast n input i (body ++ [LSoft sm]) = ORet (body' ++ [LSoft sm]) r /\
    r_inputs r = x0 :: rs ++ [p] /\ small e x0 d /\ recs_small w rs ss d e /\ probs p (h_net_out ss d) P /\ net_small w body' ss d /\
    exists a b c, inb (h_net_out ss d) a b c /\ r_label r = lin (h_net_out ss d) a b c /\ r_conf r = P a b c /\ (bpow radix2 (-31) <= B2R (r_conf r))%R /\
      (forall a' b' c', inb (h_net_out ss d) a' b' c' -> (B2R (P a' b' c') <= B2R (r_conf r))%R).
Proof. intros E (EX & TH & _ & CF & _ & _ & SQ & RN & HR & OD & MX). exact (forward_finite E EX TH CF SQ HR OD MX RN). Qed.
Print Assumptions C85_forward.
(** The network of main.cpp, freshly built, on any image with values up to 256 *)
Theorem C85_main : forall E, env_ok E -> forall u (cast : f32 -> double) (input : mat f32) J, is_mat input (D3 28 28 1) J ->
  (forall x y, 0 <= x < 28 -> 0 <= y < 28 -> is_finite (cast (J x y 0)) = true /\ (Rabs (B2R (cast (J x y 0%Z))) <= 256)%R) ->
  exists m ls r p P, main_model E u = Ok m /\ forward_pass E cast 10 input 0 (map snd (m_layers m)) = ORet ls r /\ (exists pre, r_inputs r = pre ++ [p]) /\ probs p (D3 10 1 1) P /\
    0 <= r_label r < 10 /\ r_conf r = P (r_label r) 0 0 /\ forall j, 0 <= j < 10 -> (B2R (P j 0%Z 0%Z) <= B2R (r_conf r))%R.
Proof.
  intros E (EX & TH & _ & CF & _ & _ & SQ & RN & HR & OD & MX) u cast input J HJ BJ.
  apply (main_forward E EX TH CF SQ HR OD MX RN u cast input J HJ). intros x y X Y. destruct (BJ x y X Y) as (A & B). split; [exact A|]. rewrite Rmult_1_l. exact B.
Qed.
Print Assumptions C85_main.
(** The assumptions hold for correctly rounded functions and any random numbers. *)
Theorem C85_env : forall rand, (forall k, 0 <= rand k <= 2 ^ 31 - 1) -> env_ok (d_env rand).
Proof. exact d_env_ok. Qed.
Print Assumptions C85_env.
Definition ex_fenv : env double := Env double (fun _ => 3) 3 d_sqrt ex_exp ex_tanh (fun v => v) c_01f c_01 c_eps d_float false.
(** Relu, then softmax, for the image (4, -4); and an image with a value that is too large: 2^200 is recorded as infinity *)
Example C85_ex : (match forward_pass ex_fenv (fun v => v) 2 (Mat (D3 2 1 1) [d_of_Z 4; d_of_Z (-4)]) 0 [LAct (a_make Relu); LSoft (sm_make 2)] with
    | ORet _ r => r_label r = 0 /\ B2SF (r_conf r) = B2SF (ndiv (d_of_Z 11184811) (d_of_Z (2 ^ 24))) /\
        map (fun m => map B2SF (mvals m)) (firstn 2 (r_inputs r)) = [map B2SF [d_of_Z 4; d_of_Z (-4)]; map B2SF [d_of_Z 4; n0]] | _ => False end) /\
  (match forward_pass ex_fenv (fun v => v) 2 (Mat (D3 2 1 1) [d_of_Z (2 ^ 200); n0]) 0 [LAct (a_make Relu); LSoft (sm_make 2)] with
    | ORet _ r => map (fun m => map B2SF (mvals m)) (firstn 1 (r_inputs r)) = [map B2SF [posinf; n0]] | _ => False end).
Proof. vm_compute. auto. Qed.
(** Bounds of the layers of main.cpp for images up to 2^8 and initial parameters: 2^13, 1, 1, 2^5, 2^5, 2^5, 2^12 *)
Example C85_ex_bounds : map (fun k => h_net_exp 0 (firstn k main_shapes) (D3 28 28 1) 8) [1; 2; 3; 4; 5; 6; 7]%nat = [13; 0; 0; 5; 5; 5; 12].
Proof. vm_compute. reflexivity. Qed.

(** ** C86. [log2_ok]: log2 is finite for positive numbers and at least/at most k for numbers at least/at most 2^k. *)
Theorem C86_loss : forall E, env_ok E -> forall w body sm ss d n i e k U (cast : U -> double) (input : mat U) J,
  net_fit body ss d -> sm_count sm = n -> List.Forall (fun l => index_slot l i) body -> h_net_ok ss d -> labels_ok (h_net_out ss d) n ->
  is_mat input d J -> (forall a b c, inb d a b c -> within 1 e (cast (J a b c))) ->
  net_small w body ss d -> 0 <= w -> 0 <= e -> h_net_lim 127 w ss d e -> 0 <= k < n ->
  exists ls r r', forward_pass E cast n input i (body ++ [LSoft sm]) = ORet ls r /\ assign_loss E r k = Ok r' /\ r_true r' = k /\
    is_finite (r_loss r') = true /\ (0 <= B2R (r_loss r') <= 17)%R.
Proof. exact pass_loss. Qed.
Print Assumptions C86_loss.
(** The loss is 0 for a probability of at least 1 - 10^-5, and defined for the probability 0. *)
Theorem C86_value : forall E, env_ok E -> forall v : double, is_finite v = true /\ (0 <= B2R v <= 1)%R ->
  let l := nmul (nsub n0 n1) (e_log2 E (nadd v (e_eps E))) in
  let r := d_float (if nltb l n0 then n0 else l) in is_finite r = true /\ (0 <= B2R r <= 17)%R /\ ((1 - B2R (e_eps E) <= B2R v)%R -> B2R r = 0%R).
Proof. intros E (_ & _ & LG & _ & _ & EP & _). exact (loss_value E LG EP). Qed.
Print Assumptions C86_value.
(** A log2 that rounds down to an integer *)
Definition ex_log2 (v : double) : double := match v with B754_finite false m e _ => d_of_Z (Z.log2 (Zpos m) + e) | _ => B754_nan end.
Definition ex_lenv : env double := Env double (fun _ => 3) 3 d_sqrt ex_exp ex_tanh ex_log2 c_01f c_01 c_eps d_float false.
Example C86_ex : match assign_loss ex_lenv (Results 0 0 n0 n0 [Mat (D3 2 1 1) [n1; n0]]) 1 with Ok r => B2SF (r_loss r) = B2SF (d_of_Z 17) | _ => False end /\
  match assign_loss ex_lenv (Results 0 0 n0 n0 [Mat (D3 2 1 1) [n1; n0]]) 0 with Ok r => B2SF (r_loss r) = SpecFloat.S754_zero true | _ => False end.
Proof. vm_compute. auto. Qed.
