(** C105: accuracy of a batch of training with doubles. *)
From Coq Require Import ZArith Bool Lia Reals Lra Psatz List.
From Coquelicot Require Import Coquelicot.
From Flocq Require Import Core BinarySingleNaN.
From Verif Require Import Base Dim Matrix View Num Expr Spec Iter Sums MatFacts MatThms ViewThms ExprThms Batch Kernel Connected Float32
  FloatFacts Pooling Activation Softmax LayerFacts KernelThms KernelGrad BatchThms ConnectedThms PoolingThms PoolGrad ActivationThms SoftmaxThms LayerTotal Calc Chars
  Double Bar BarFacts Model Net NetThms NetPass NetGrad ModelThms Train TrainLocal TrainRest TrainInv TrainData TrainEnd TrainThms TrainEpoch TrainNet TrainSgd TrainMore Shapes ShapeNet TrainSafe
  Main ReportFacts FiniteFacts FiniteSoft FiniteInit FiniteNet FiniteReal FiniteMain FiniteBack FiniteTrain Rounding RoundLayers RoundNet RoundPass RoundBack RoundTrain.
Import ListNotations.
Local Open Scope Z_scope.
Local Notation pw := (bpow radix2).

(** A full batch, on any number of threads: the new parameters of all but the first [m] layers are those of one step of gradient
    descent from the same parameters with exact arithmetic, up to the errors of the gradients and of the update. *)
Theorem C105_batch : forall E, acc_ok E -> B2R (e_c01 E) = d01 -> e_moved E = false -> forall U L (cast : U -> double) (eqL : L -> L -> bool) labels,
  forall m wc bs nt ss d r e w g gi h0 (s : estate (U := U) (L := L)) body sm lr o (F : point U L -> fn),
  0 <= wc -> 1 <= bs < two31 -> bs <= Z.of_nat nt * wc -> h_ready ss d (Z.of_nat (length labels)) -> spawn (T := double) (U := U) (L := L) nt 0 wc <> UB ->
  Z.of_nat (length (s_results s)) = bs -> s_layers s = body ++ [LSoft sm] -> set_up labels (s_layers s) ss d bs -> List.Forall ready (s_layers s) ->
  (forall p, In p (s_source s) -> pt_small cast eqL labels d e p) -> bs <= Z.of_nat (length (s_source s)) ->
  within 1 r lr -> 0 <= w -> 0 <= g -> 0 <= e -> batch_lim ss d r e w g -> tame bs ss d w g (all_filled (s_layers s) ss d bs) 0 (s_layers s) ->
  h_net_exp w ss d e <= 49 -> h_net_err w ss d e gi <= -2 -> h_net_fine w ss d e gi -> (prob_err w ss d e gi <= pw h0)%R ->
  (forall p J, In p (firstn (Z.to_nat bs) (s_source s)) -> is_mat (pt_data p) d J ->
    nearby gi d (fun a b c => cast (J a b c)) (F p) /\ net_apart_from m w ss (real_net ss body) d e gi (F p)) ->
  batch E cast eqL labels calm wc bs nt lr s o ->
  exists s' body' sm', o = ORet s' tt /\ s_layers s' = body' ++ [LSoft sm'] /\ length body' = length ss /\
    let rs := real_net ss body in let rs' := real_net ss body' in
    let gs := map (fun p => label_grad rs d (F p) (label_idx eqL labels p)) (firstn (Z.to_nat bs) (s_source s)) in
    forall j t, (m <= j)%nat -> nth_error ss j = Some t -> learns t = true ->
    exists k s0 s1 s2, nth_error (h_net_gerr w ss d e gi 0 (Z.max h0 (-52) + 1)) j = Some k /\ nth_error rs j = Some s0 /\ nth_error (sgd (B2R lr) rs gs) j = Some s1 /\ nth_error rs' j = Some s2 /\
      (forall a b c, inb (s_wdim s0 (net_dim rs d j)) a b c ->
        (Rabs (s_w s2 a b c - s_w s1 a b c) <= step_err bs (B2R lr) (s_w s0 a b c) (rmean (map (fun g => Rabs (fst (nth j g nog) a b c)) gs)) k)%R) /\
      (forall a b c, inb (s_bdim s0) a b c ->
        (Rabs (s_b s2 a b c - s_b s1 a b c) <= step_err bs (B2R lr) (s_b s0 a b c) (rmean (map (fun g => Rabs (snd (nth j g nog) a b c)) gs)) k)%R).
Proof. intros E AO CV1 ORD U L cast eqL labels. exact (batch_close E AO CV1 ORD cast eqL labels). Qed.
Print Assumptions C105_batch.

(** The same with derivatives of the loss, for ReLU and linear activations in these layers *)
Theorem C105_derivative : forall E, acc_ok E -> B2R (e_c01 E) = d01 -> e_moved E = false -> forall U L (cast : U -> double) (eqL : L -> L -> bool) labels,
  forall m wc bs nt ss d r e w g gi h0 (s : estate (U := U) (L := L)) body sm lr o (F : point U L -> fn),
  0 <= wc -> 1 <= bs < two31 -> bs <= Z.of_nat nt * wc -> h_ready ss d (Z.of_nat (length labels)) -> List.Forall plain (skipn m ss) -> spawn (T := double) (U := U) (L := L) nt 0 wc <> UB ->
  Z.of_nat (length (s_results s)) = bs -> s_layers s = body ++ [LSoft sm] -> set_up labels (s_layers s) ss d bs -> List.Forall ready (s_layers s) ->
  (forall p, In p (s_source s) -> pt_small cast eqL labels d e p) -> bs <= Z.of_nat (length (s_source s)) ->
  within 1 r lr -> 0 <= w -> 0 <= g -> 0 <= e -> batch_lim ss d r e w g -> tame bs ss d w g (all_filled (s_layers s) ss d bs) 0 (s_layers s) ->
  h_net_exp w ss d e <= 49 -> h_net_err w ss d e gi <= -2 -> h_net_fine w ss d e gi -> (prob_err w ss d e gi <= pw h0)%R ->
  (forall p J, In p (firstn (Z.to_nat bs) (s_source s)) -> is_mat (pt_data p) d J ->
    nearby gi d (fun a b c => cast (J a b c)) (F p) /\ net_apart_from m w ss (real_net ss body) d e gi (F p)) ->
  batch E cast eqL labels calm wc bs nt lr s o ->
  exists s' body' sm', o = ORet s' tt /\ s_layers s' = body' ++ [LSoft sm'] /\
    let rs := real_net ss body in let rs' := real_net ss body' in let dd := h_net_out ss d in let ps := firstn (Z.to_nat bs) (s_source s) in
    forall j t, (m <= j)%nat -> nth_error ss j = Some t -> learns t = true ->
    exists k s0 s2, nth_error (h_net_gerr w ss d e gi 0 (Z.max h0 (-52) + 1)) j = Some k /\ nth_error rs j = Some s0 /\ nth_error rs' j = Some s2 /\
      (forall a b c, inb (s_wdim s0 (net_dim rs d j)) a b c -> exists D,
        (forall p y1 y2 y3, In p ps -> inb dd y1 y2 y3 -> lin dd y1 y2 y3 = label_idx eqL labels p ->
          is_derive (fun x => nll dd (net_sem (upd rs j (setw s0 (fupd (s_w s0) a b c x))) d (F p)) y1 y2 y3) (s_w s0 a b c) (D p)) /\
        (Rabs (s_w s2 a b c - (s_w s0 a b c - B2R lr * rmean (map D ps))) <= step_err bs (B2R lr) (s_w s0 a b c) (rmean (map (fun p => Rabs (D p)) ps)) k)%R) /\
      (forall a b c, inb (s_bdim s0) a b c -> exists D,
        (forall p y1 y2 y3, In p ps -> inb dd y1 y2 y3 -> lin dd y1 y2 y3 = label_idx eqL labels p ->
          is_derive (fun x => nll dd (net_sem (upd rs j (setb s0 (fupd (s_b s0) a b c x))) d (F p)) y1 y2 y3) (s_b s0 a b c) (D p)) /\
        (Rabs (s_b s2 a b c - (s_b s0 a b c - B2R lr * rmean (map D ps))) <= step_err bs (B2R lr) (s_b s0 a b c) (rmean (map (fun p => Rabs (D p)) ps)) k)%R).
Proof. intros E AO CV1 ORD U L cast eqL labels. exact (batch_descends E AO CV1 ORD cast eqL labels). Qed.
Print Assumptions C105_derivative.

(** The fully connected layer of main.cpp, for parameters of at most 1 and pixels of at most 256; nothing is assumed about decisions *)
Theorem C105_main : forall E, acc_ok E -> B2R (e_c01 E) = d01 -> e_moved E = false -> forall U L (cast : U -> double) (eqL : L -> L -> bool) labels,
  length labels = 10%nat -> forall wc bs nt (s : estate (U := U) (L := L)) body sm lr g o (F : point U L -> fn),
  0 <= wc -> 1 <= bs < two31 -> bs <= Z.of_nat nt * wc -> spawn (T := double) (U := U) (L := L) nt 0 wc <> UB -> Z.of_nat (length (s_results s)) = bs ->
  s_layers s = body ++ [LSoft sm] -> set_up labels (s_layers s) main_shapes main_d bs -> List.Forall ready (s_layers s) ->
  (forall p, In p (s_source s) -> pt_small cast eqL labels main_d 8 p) -> bs <= Z.of_nat (length (s_source s)) -> within 1 0 lr -> 0 <= g <= 900 ->
  tame bs main_shapes main_d 0 g (all_filled (s_layers s) main_shapes main_d bs) 0 (s_layers s) ->
  (forall p J a b c, In p (s_source s) -> is_mat (pt_data p) main_d J -> inb main_d a b c -> F p a b c = B2R (cast (J a b c))) ->
  batch E cast eqL labels calm wc bs nt lr s o ->
  exists s' body' sm' s0 s2, o = ORet s' tt /\ s_layers s' = body' ++ [LSoft sm'] /\ nth_error (real_net main_shapes body) 6 = Some s0 /\ nth_error (real_net main_shapes body') 6 = Some s2 /\
    let rs := real_net main_shapes body in let ps := firstn (Z.to_nat bs) (s_source s) in
    (forall a b, 0 <= a < 10 -> 0 <= b < 100 -> exists D,
      (forall p, In p ps -> is_derive (fun x => nll (D3 10 1 1) (net_sem (upd rs 6 (setw s0 (fupd (s_w s0) a b 0 x))) main_d (F p)) (label_idx eqL labels p) 0 0) (s_w s0 a b 0%Z) (D p)) /\
      (Rabs (s_w s2 a b 0%Z - (s_w s0 a b 0%Z - B2R lr * rmean (map D ps))) <= step_err bs (B2R lr) (s_w s0 a b 0%Z) (rmean (map (fun p => Rabs (D p)) ps)) (-6))%R) /\
    (forall a, 0 <= a < 10 -> exists D,
      (forall p, In p ps -> is_derive (fun x => nll (D3 10 1 1) (net_sem (upd rs 6 (setb s0 (fupd (s_b s0) a 0 0 x))) main_d (F p)) (label_idx eqL labels p) 0 0) (s_b s0 a 0%Z 0%Z) (D p)) /\
      (Rabs (s_b s2 a 0%Z 0%Z - (s_b s0 a 0%Z 0%Z - B2R lr * rmean (map D ps))) <= step_err bs (B2R lr) (s_b s0 a 0%Z 0%Z) (rmean (map (fun p => Rabs (D p)) ps)) (-6))%R).
Proof. exact main_step. Qed.
Print Assumptions C105_main.

(** The bound: for 256 images, a learning rate of 1 and parameters and gradients of at most 1 it is little more than the error of the gradients. *)
Example C105_ex_bound : (step_err 256 1 1 1 (-6) <= pw (-6) + pw (-40))%R.
Proof.
  unfold step_err. assert (A1 : (pw (-6) <= 1)%R) by (change 1%R with (pw 0); apply bpow_le; lia). assert (A2 : (pw (-1074) <= pw (-52))%R) by (apply bpow_le; lia).
  assert (A3 : (pw (-40) = 4096 * pw (-52))%R) by (change 4096%R with (pw 12); rewrite <- bpow_plus; reflexivity). rewrite A3, Rabs_R1. pose proof (bpow_gt_0 radix2 (-52)). pose proof (bpow_gt_0 radix2 (-6)).
  change (IZR (256 + 3)) with 259%R. assert (A4 : (259 * pw (-52) * (1 + 1 * (1 + pw (-6))) <= 259 * pw (-52) * 3)%R) by (apply Rmult_le_compat_l; lra). lra.
Qed.
(** A network with a ReLU and two inputs, all parameters 0 and one data point: all assumptions hold, and the batch succeeds. *)
Example C105_ex : let E := d_env (fun _ => 0) in let F := fun x y z : Z => B2R (two_image x) in let rs := real_net two_shapes two_ready in
  exists s' body' sm' s0 s2, batch E (fun v => v) Z.eqb [0; 1] calm 1 1 1 n1 two_state (ORet s' tt) /\ s_layers s' = body' ++ [LSoft sm'] /\
    nth_error rs 1 = Some s0 /\ nth_error (real_net two_shapes body') 1 = Some s2 /\
    forall a b, 0 <= a < 2 -> 0 <= b < 2 -> exists D,
      is_derive (fun t => nll (D3 2 1 1) (net_sem (upd rs 1 (setw s0 (fupd (s_w s0) a b 0 t))) (D3 2 1 1) F) 1 0 0) 0%R D /\
      (Rabs (s_w s2 a b 0%Z - (0 - D)) <= step_err 1 1 0 (Rabs D) (-20))%R.
Proof. exact two_step. Qed.
