(** C103: accuracy of the gradients that a backward pass computes with doubles. *)
From Coq Require Import ZArith Bool Lia Reals Lra Psatz List.
From Coquelicot Require Import Coquelicot.
From Flocq Require Import Core BinarySingleNaN.
From Verif Require Import Base Dim Matrix View Num Expr Spec Iter Sums MatFacts MatThms ViewThms ExprThms Batch Kernel Connected Float32
  FloatFacts Pooling Activation Softmax LayerFacts KernelThms KernelGrad BatchThms ConnectedThms PoolingThms PoolGrad ActivationThms SoftmaxThms LayerTotal Calc Chars
  Double Bar BarFacts Model Net NetThms NetPass NetGrad ModelThms Train TrainLocal TrainRest TrainNet TrainSgd Shapes ShapeNet Main ReportFacts FiniteFacts FiniteSoft FiniteInit FiniteNet FiniteReal
  FiniteMain FiniteBack FiniteTrain Rounding RoundLayers RoundNet RoundPass RoundBack RoundMain.
Import ListNotations.
Local Open Scope Z_scope.


(** The derivative of an activation, evaluated at its output with an error of 2^gz; the sign of a ReLU is assumed to be right. *)
Theorem C103_activation : forall E, acc_ok E -> B2R (e_c01 E) = d01 -> forall a gz (z : double) x, is_finite z = true -> (Rabs (B2R z - act_R a x) <= bpow radix2 gz)%R ->
  (a = Relu \/ a = LeakyRelu -> (0 < B2R z <-> 0 < x)%R) ->
  (Rabs (B2R (act_grad (e_exp E) (e_tanh E) (e_c01 E) a z) - actg_R a (act_R a x)) <= if is_curved a then 5 * bpow radix2 (Z.max gz (-50)) else 0)%R.
Proof. exact grad_close. Qed.
Print Assumptions C103_activation.

(** One layer: what it hands on and what it stores, against exact arithmetic *)
Theorem C103_layer : forall E, acc_ok E -> B2R (e_c01 E) = d01 -> e_moved E = false -> forall w l s d i x z g last e gx ez gz b h F G', l_fit l s d -> ready l -> h_ok s d -> marked l s d i -> (last = false -> h_bk s d) ->
  tracks e gx x d F -> tracks ez gz z (h_out s d) (sem (real_layer s l) d F) -> sign_kept s d z F -> sel_at l s d i F -> tracks b h g (h_out s d) G' ->
  l_small w l s d -> 0 <= e -> 0 <= w -> 0 <= b -> gx <= e -> h_bexp w s d b <= 970 -> h_gexp s d e b <= 970 ->
  exists l' r, l_backward E x z g i last l = ORet l' r /\ (last = false -> tracks (h_bexp w s d b) (h_berr w s d b h gz) r d (s_dx (real_layer s l) d F G')) /\
    slot_close (h_gerr s d e gx b h) l' s d i (s_dw (real_layer s l) d F G', s_db (real_layer s l) d G').
Proof. exact bwd_track. Qed.
Print Assumptions C103_layer.

(** Both passes for one image: the stored gradients of all but the first [m] layers. No decision of these layers (the sign of
    the input of a ReLU, the maximum of a window) may be so close that rounding changes it. *)
Theorem C103_passes : forall E, acc_ok E -> B2R (e_c01 E) = d01 -> e_moved E = false -> forall m w body sm ss d n i a b c e g h0 U (cast : U -> double) (input : mat U) J F,
  net_fit body ss d -> sm_count sm = n -> List.Forall (fun l => slot_ok l i) body -> h_ready ss d n ->
  is_mat input d J -> (forall a b c, inb d a b c -> within 1 e (cast (J a b c))) -> nearby g d (fun a b c => cast (J a b c)) F ->
  net_small w body ss d -> 0 <= w -> 0 <= e -> h_net_lim 127 w ss d e -> h_net_exp w ss d e <= 49 -> h_net_err w ss d e g <= -2 ->
  h_net_fine w ss d e g -> h_net_blim 970 w ss d e 0 -> (prob_err w ss d e g <= bpow radix2 h0)%R -> inb (h_net_out ss d) a b c ->
  (forall body' sm' r, forward_pass E cast n input i (body ++ [LSoft sm]) = ORet (body' ++ [LSoft sm']) r -> net_apart_from m w ss (real_net ss body') d e g F) ->
  exists body' r body2 r', forward_pass E cast n input i (body ++ [LSoft sm]) = ORet (body' ++ [LSoft sm]) r /\
    backward_pass E r (lin (h_net_out ss d) a b c) i (body' ++ [LSoft sm]) = ORet (body2 ++ [LSoft (Soft true (lin (h_net_out ss d) a b c) n)]) r' /\
    length body' = length ss /\ net_apart_from m w ss (real_net ss body') d e g F /\
    let X := net_sem (real_net ss body') d F in
    net_close_from m (h_net_gerr w ss d e g 0 (Z.max h0 (-52) + 1)) body2 ss d i (net_grads (real_net ss body') d F (out_grad (h_net_out ss d) X a b c)).
Proof. exact passes_close_from. Qed.
Print Assumptions C103_passes.

(** The stored gradients against the derivatives of the loss; activations ReLU and linear *)
Theorem C103_derivative : forall E, acc_ok E -> B2R (e_c01 E) = d01 -> e_moved E = false ->
  forall m w body sm ss d n i ya yb yc e g h0 U (cast : U -> double) (input : mat U) J F,
  net_fit body ss d -> sm_count sm = n -> List.Forall (fun l => slot_ok l i) body -> h_ready ss d n -> List.Forall plain (skipn m ss) ->
  is_mat input d J -> (forall a b c, inb d a b c -> within 1 e (cast (J a b c))) -> nearby g d (fun a b c => cast (J a b c)) F ->
  net_small w body ss d -> 0 <= w -> 0 <= e -> h_net_lim 127 w ss d e -> h_net_exp w ss d e <= 49 -> h_net_err w ss d e g <= -2 ->
  h_net_fine w ss d e g -> h_net_blim 970 w ss d e 0 -> (prob_err w ss d e g <= bpow radix2 h0)%R -> inb (h_net_out ss d) ya yb yc ->
  (forall body' sm' r, forward_pass E cast n input i (body ++ [LSoft sm]) = ORet (body' ++ [LSoft sm']) r -> net_apart_from m w ss (real_net ss body') d e g F) ->
  exists body' r body2 r', forward_pass E cast n input i (body ++ [LSoft sm]) = ORet (body' ++ [LSoft sm]) r /\
    backward_pass E r (lin (h_net_out ss d) ya yb yc) i (body' ++ [LSoft sm]) = ORet (body2 ++ [LSoft (Soft true (lin (h_net_out ss d) ya yb yc) n)]) r' /\ length body' = length ss /\
    let rs := real_net ss body' in
    forall j s0 s, (m <= j)%nat -> nth_error ss j = Some s0 -> learns s0 = true -> nth_error rs j = Some s ->
      exists l gw gb k fw fb, nth_error body2 j = Some l /\ grads_in l i gw gb /\ nth_error (h_net_gerr w ss d e g 0 (Z.max h0 (-52) + 1)) j = Some k /\ is_mat gw (s_wdim s (net_dim rs d j)) fw /\ is_mat gb (s_bdim s) fb /\
        (forall a b c, inb (s_wdim s (net_dim rs d j)) a b c -> is_finite (fw a b c) = true /\ exists D,
          is_derive (fun t => nll (h_net_out ss d) (net_sem (upd rs j (setw s (fupd (s_w s) a b c t))) d F) ya yb yc) (s_w s a b c) D /\ (Rabs (B2R (fw a b c) - D) <= bpow radix2 k)%R) /\
        (forall a b c, inb (s_bdim s) a b c -> is_finite (fb a b c) = true /\ exists D,
          is_derive (fun t => nll (h_net_out ss d) (net_sem (upd rs j (setb s (fupd (s_b s) a b c t))) d F) ya yb yc) (s_b s a b c) D /\ (Rabs (B2R (fb a b c) - D) <= bpow radix2 k)%R).
Proof. exact passes_derive_from. Qed.
Print Assumptions C103_derivative.

(** main.cpp with its initial parameters and images of numbers up to 2^8: the gradients of the fully connected layer. Nothing is
    assumed about the decisions of the layers before it. *)
Theorem C103_main : forall E, acc_ok E -> B2R (e_c01 E) = d01 -> e_moved E = false -> forall u (cast : f32 -> double) (input : mat f32) J bs i y,
  is_mat input (D3 28 28 1) J -> (forall x y, 0 <= x < 28 -> 0 <= y < 28 -> within 1 8 (cast (J x y 0))) -> 0 <= i < bs -> 0 <= y < 10 ->
  exists m ls body r body2 r', main_model E u = Ok m /\ set_batch_all bs (map snd (m_layers m)) = ORet ls tt /\
    forward_pass E cast 10 input i ls = ORet (body ++ [LSoft (sm_make 10)]) r /\
    backward_pass E r y i (body ++ [LSoft (sm_make 10)]) = ORet (body2 ++ [LSoft (Soft true y 10)]) r' /\
    let rs := real_net main_shapes body in let F := fun x y z => B2R (cast (J x y z)) in
    exists s l gw gb fw fb, nth_error rs 6 = Some s /\ nth_error body2 6 = Some l /\ grads_in l i gw gb /\
      is_mat gw (D3 10 100 1) fw /\ is_mat gb (D3 10 1 1) fb /\
      (forall a b, 0 <= a < 10 -> 0 <= b < 100 -> is_finite (fw a b 0%Z) = true /\ exists D,
        is_derive (fun t => nll (D3 10 1 1) (net_sem (upd rs 6 (setw s (fupd (s_w s) a b 0 t))) (D3 28 28 1) F) y 0 0) (s_w s a b 0%Z) D /\ (Rabs (B2R (fw a b 0%Z) - D) <= bpow radix2 (-6))%R) /\
      (forall a, 0 <= a < 10 -> is_finite (fb a 0%Z 0%Z) = true /\ exists D,
        is_derive (fun t => nll (D3 10 1 1) (net_sem (upd rs 6 (setb s (fupd (s_b s) a 0 0 t))) (D3 28 28 1) F) y 0 0) (s_b s a 0%Z 0%Z) D /\ (Rabs (B2R (fb a 0%Z 0%Z) - D) <= bpow radix2 (-6))%R).
Proof. exact main_dense. Qed.
Print Assumptions C103_main.

Example C103_ex_bound : h_net_gerr 0 main_shapes (D3 28 28 1) 8 (-60) 0 (-14) = [43; 0; 0; 12; 0; 0; -6] /\
  h_net_gerr 0 [HAct Relu; HConn 2] (D3 2 1 1) 0 (-60) 0 (-23) = [0; -20] /\ h_net_gerr 0 [HConn 3; HAct Relu; HConn 2] (D3 2 1 1) 0 (-60) 0 (-23) = [-17; 0; -18].
Proof. vm_compute. auto. Qed.
(** A network with inputs 1 and -1, ReLU and two outputs: the assumptions hold, and the errors are at most 2^-20. *)
Example C103_ex : let E := d_env (fun _ => 0) in let F := fun x y z => B2R (two_image x) in
  exists body' r body2 r', forward_pass E (fun v => v) 2 (mk_mat (D3 2 1 1) (fun x _ _ => two_image x)) 0 (two_net ++ [LSoft (sm_make 2)]) = ORet (body' ++ [LSoft (sm_make 2)]) r /\
    backward_pass E r 1 0 (body' ++ [LSoft (sm_make 2)]) = ORet (body2 ++ [LSoft (Soft true 1 2)]) r' /\
    let rs := real_net two_shapes body' in
    forall s, nth_error rs 1 = Some s -> exists l gw gb fw, nth_error body2 1 = Some l /\ grads_in l 0 gw gb /\ is_mat gw (D3 2 2 1) fw /\
        forall a b, 0 <= a < 2 -> 0 <= b < 2 -> is_finite (fw a b 0) = true /\ exists D,
          is_derive (fun t => nll (D3 2 1 1) (net_sem (upd rs 1 (setw s (fupd (s_w s) a b 0 t))) (D3 2 1 1) F) 1 0 0) (s_w s a b 0) D /\ (Rabs (B2R (fw a b 0%Z) - D) <= bpow radix2 (-20))%R.
Proof. exact two_derive. Qed.
(** Decisions that are close do matter: 1 and 2^-200 below 1 are the same number of type double. *)
Example C103_ex_close : let v k := binary_normalize prec emax prec_pos prec_emax mode_NE 1 k false in
  B2SF (nsub (v 0) (v (-200))) = B2SF (v 0) /\ nltb (nsub (v 0) (v (-200))) (v 0) = false.
Proof. vm_compute. auto. Qed.
