(** Properties C44, C46, C47, C48: whole networks and the model object. *)
From Coq Require Import String ZArith List Bool Lia Reals Lra.
From Coquelicot Require Import Coquelicot.
From Verif Require Import Base Dim Matrix View Num Expr Spec Iter Sums MatFacts MatThms ExprThms Batch Kernel Connected Float32
  FloatFacts Pooling Activation Softmax LayerFacts Calc PoolingThms ActivationThms SoftmaxThms KernelThms KernelGrad Chars Model Net NetThms NetPass NetGrad ModelThms NetFresh.
Import ListNotations.
Local Open Scope Z_scope.

(** Exact execution on integers: 3x3 input, one 2x2 filter, relu, two outputs, softmax with a stand-in for exp *)
Definition ex_env : env Z := Env Z (fun k => k + 3) 7 (fun t => t) (fun v => if v =? 0 then 60 else 0) (fun v => v) (fun v => v) 1 1 1 (fun v => v) false.
Definition ex_net : list (layer Z) :=
  [ LKernel (Kern (Par (Mat (D3 2 2 1) [1;0;0;-1]) (Mat (D3 1 1 1) [2]) [mat_empty] [mat_empty]) (D3 2 2 1) 1 1);
    LAct (a_make Relu);
    LConn (Conn (Par (Mat (D3 2 4 1) [1;0;1;2;0;1;1;1]) (Mat (D3 2 1 1) [1;0]) [mat_empty] [mat_empty]) (D3 2 2 1) true);
    LSoft (sm_make 2) ].
Definition ex_x : mat Z := Mat (D3 3 3 1) [1;2;3;0;1;0;2;2;5].

(** ** C44 *)
(** [ss] lists the layers' kinds, shapes and parameters; [d] are the dimensions of the input. [network0]: the layer objects
    have this configuration, a softmax layer at the end, and a gradient slot [i] each; fully connected layers may be before
    their first use. [net_ok]: the shapes fit together; [net_bkc true]: outputs of convolutions after the first layer have
    as many rows as columns; [net_smooth]: no relu or leaky relu at or below its kink (leaky) and no ties in pooling
    windows, no sigmoid or tanh. [net_prob ss d I idx v]: the code gives probability v to label idx. *)
Theorem C44_gradient_partial : forall rand rmax layers ss d n i U (cast : U -> R) (input : mat U) J idx,
  network0 rand rmax layers ss d n i -> net_ok ss d -> net_bkc true ss d -> labels_ok (net_out ss d) n -> is_mat input d J -> 0 <= idx < n ->
  let I := fun x y z => cast (J x y z) in
  net_smooth ss d I ->
  exists layers1 r layers2 r', forward_pass (envR rand rmax) cast n input i layers = ORet layers1 r /\
    backward_pass (envR rand rmax) r idx i layers1 = ORet layers2 r' /\
    forall j s, nth_error ss j = Some s -> exists l DW DB, nth_error layers2 j = Some l /\ stored l s (net_dim ss d j) i DW DB /\
      (forall a b c Pt, inb (s_wdim s (net_dim ss d j)) a b c ->
        (forall t, net_prob rand rmax (upd ss j (setw s (fupd (s_w s) a b c t))) d I idx (Pt t)) ->
        is_derive (fun t => - ln (Pt t))%R (s_w s a b c) (DW a b c)) /\
      (forall a b c Pt, inb (s_bdim s) a b c ->
        (forall t, net_prob rand rmax (upd ss j (setb s (fupd (s_b s) a b c t))) d I idx (Pt t)) ->
        is_derive (fun t => - ln (Pt t))%R (s_b s a b c) (DB a b c)).
Proof. exact net_gradient0. Qed.
Print Assumptions C44_gradient_partial.

(** The probabilities exist for every configuration, and are unique. *)
Theorem C44_probability : forall rand rmax ss d n I, net_ok ss d -> labels_ok (net_out ss d) n ->
  exists P, (forall idx, 0 <= idx < n -> net_prob rand rmax ss d I idx (P idx) /\ (0 < P idx <= 1)%R /\
    forall v, net_prob rand rmax ss d I idx v -> v = P idx).
Proof. exact net_prob_total. Qed.
Print Assumptions C44_probability.

Theorem C44_configurations : forall ss d n, net_ok ss d -> network (mk_net ss d ++ [LSoft (sm_make n)]) ss d n 0.
Proof. exact mk_network. Qed.
Print Assumptions C44_configurations.

(** The hypotheses hold for a network with all four kinds of layers. *)
Definition ex_ss : list lspec :=
  [ SConv 2 2 1 1 (fun _ _ _ => 0%R) (fun _ _ _ => 1%R); SAct Relu; SPool PAvg 2 2 2 2; SConn 2 (fun i _ _ => IZR i) (fun _ _ _ => 0%R) ].
Example C44_ex : let d := D3 5 5 1 in net_ok ex_ss d /\ net_bkc true ex_ss d /\ labels_ok (net_out ex_ss d) 2 /\ net_smooth ex_ss d (fun x _ _ => IZR x).
Proof.
  cbv zeta. split; [|split; [|split]].
  - cbn [ex_ss net_ok s_ok s_out]. unfold geom_ok, fits, pos. repeat split; vm_compute; first [reflexivity|discriminate].
  - cbn. split; [discriminate|]. auto.
  - split; [reflexivity|]. split; [right; reflexivity|reflexivity].
  - cbn [ex_ss net_smooth smooth sem s_out]. split; [exact I|]. split; [|auto].
    intros x y z _. cbn [act_smooth]. unfold fwd_R.
    assert (K : corr 2 2 1 (fun x _ _ => IZR x) (fun _ _ _ => 0%R) x y z = 0%R) by (rewrite corr_R; rewrite (rsum_ext _ _ (fun _ => 0%R)); [rewrite rsum_const by lia; lra|]; intros; rewrite (rsum_ext _ _ (fun _ => 0%R)); [rewrite rsum_const by lia; lra|]; intros; rewrite (rsum_ext _ _ (fun _ => 0%R)); [rewrite rsum_const by lia; lra|]; intros; lra). rewrite K. lra.
Qed.
Example C44_ex_run : match forward_pass ex_env (fun v => v) 2 ex_x 0 ex_net with
  | ORet ls r => match backward_pass ex_env r 0 0 ls with
                 | ORet ls2 r2 => Some (r_label r, map mvals (r_inputs r), r_true r2, map (fun l => match l with LKernel k => (map mvals (p_wg (k_par k)), map mvals (p_bg (k_par k)))
                       | LConn c => (map mvals (p_wg (c_par c)), map mvals (p_bg (c_par c))) | _ => ([], []) end) ls2)
                 | _ => None end
  | _ => None end =
  Some (1, [[1;2;3;0;1;0;2;2;5]; [2;4;0;-2]; [2;4;0;0]; [7;8]; [0;1]], 0,
        [([[1;1;1;-1]], [[0]]); ([], []); ([[-2;2;-4;4;0;0;0;0]], [[-1;1]]); ([], [])]).
Proof. vm_compute. reflexivity. Qed.

(** ** C46 *)
Theorem C46_result : forall rand rmax layers ss d n i U (cast : U -> R) (input : mat U) J,
  network0 rand rmax layers ss d n i -> net_ok ss d -> labels_ok (net_out ss d) n -> is_mat input d J ->
  exists layers' r rs p P a b c, forward_pass (envR rand rmax) cast n input i layers = ORet layers' r /\
    length (r_inputs r) = S (length layers) /\ r_inputs r = rs ++ [p] /\ is_mat p (net_out ss d) P /\ inb (net_out ss d) a b c /\
    r_label r = a + dx (net_out ss d) * b + dx (net_out ss d) * dy (net_out ss d) * c /\ r_conf r = P a b c /\
    (1 / IZR n <= r_conf r)%R /\ rsum3 (net_out ss d) P = 1%R /\
    (forall x y z, inb (net_out ss d) x y z -> (P x y z <= P a b c)%R /\ (0 < P x y z)%R) /\
    (forall x y z, inb (net_out ss d) x y z -> x + dx (net_out ss d) * y + dx (net_out ss d) * dy (net_out ss d) * z < r_label r -> (P x y z < P a b c)%R).
Proof. exact forward_result. Qed.
Print Assumptions C46_result.

(** For every number type and every list of layers: if a pass returns, the recorded matrices are the input and the output of
    each layer, label_idx is the index maxIndex() gives for the last output (C21) and confidence is that element. *)
Theorem C46_records : forall T (N : Num T) (E : env T) U (cast : U -> T) n input i ls ls' r, forward_pass E cast n input i ls = ORet ls' r ->
  length ls' = length ls /\
  exists x rs o c, length rs = length ls /\ mat_of_lz n0 cast (l_val input) tt = Ok x /\ fwd_layers E ls x i = ORet ls' (rs, o) /\
    (exists r0, float_copy E x = Ok r0 /\ r_inputs r = r0 :: rs) /\
    (exists pre, r_inputs r = pre ++ [c]) /\ float_copy E o = Ok c /\ Z.of_nat (length (mvals c)) = n /\ base_size (mdim o) = Ok n /\
    max_index o = Ok (r_label r) /\ exists v, mread_flat o (r_label r) = Ok v /\ r_conf r = e_rnd E v.
Proof. exact @forward_records. Qed.
Print Assumptions C46_records.

(** No pass changes weights or biases, whether it returns or raises an exception, once the fully connected layers are
    initialised; a backward pass never does. *)
Theorem C46_forward_keeps_partial : forall T (N : Num T) (E : env T) U (cast : U -> T) n input i ls, List.Forall ready ls ->
  leaves (forward_pass E cast n input i ls) (fun ls' => map params_of ls' = map params_of ls /\ List.Forall ready ls').
Proof. exact @forward_keeps. Qed.
Print Assumptions C46_forward_keeps_partial.
Theorem C46_backward_keeps : forall T (N : Num T) (E : env T) r k i ls,
  leaves (backward_pass E r k i ls) (fun ls' => map params_of ls' = map params_of ls).
Proof. exact @backward_keeps. Qed.
Print Assumptions C46_backward_keeps.

Theorem C46_first_pass_refuted : forall rand rmax n, 1 <= n -> n < two31 -> exists c layers' r,
  c_make n = Ok c /\ forward_pass (envR rand rmax) (fun t : R => t) n (mk_mat (D3 1 1 1) (fun _ _ _ => 1%R)) 0 [LConn c; LSoft (sm_make n)] = ORet layers' r /\
  map params_of layers' <> map params_of [LConn c; LSoft (sm_make n)].
Proof. exact first_pass_changes. Qed.
Print Assumptions C46_first_pass_refuted.

Example C46_ex : match forward_pass ex_env (fun v => v) 2 ex_x 0 ex_net with
  | ORet ls r => r_label r = 1 /\ r_conf r = 1 /\ map mvals (r_inputs r) = [[1;2;3;0;1;0;2;2;5]; [2;4;0;-2]; [2;4;0;0]; [7;8]; [0;1]]
  | _ => False end.
Proof. vm_compute. auto. Qed.
(** More labels than outputs: the assertion stops the program. *)
Example C46_ex_labels : match forward_pass ex_env (fun v => v) 3 ex_x 0 ex_net with OThrow _ e => e = AssertFail | _ => False end.
Proof. vm_compute. reflexivity. Qed.

(** ** C47. The position of a label *)
Theorem C47_position : forall L (eqL : L -> L -> bool), (forall a b, eqL a b = true <-> a = b) -> forall l v,
  (In v l -> exists k, find_pos eqL l v = Z.of_nat k /\ nth_error l k = Some v /\ forall j, (j < k)%nat -> nth_error l j <> Some v) /\
  (~ In v l -> find_pos eqL l v = Z.of_nat (length l)).
Proof. exact @find_pos_ok. Qed.
Print Assumptions C47_position.

(** The result of a forward pass with n labels, and a label that is none of them (its position is n): always an access
    outside the matrix of probabilities. *)
Theorem C47_unknown_label_refuted : forall T (N : Num T) (E : env T) U (cast : U -> T) n input i ls ls' r, forward_pass E cast n input i ls = ORet ls' r ->
  forall slot ls2, backward_pass E r n slot ls2 = OUB.
Proof. exact @unknown_label_ub. Qed.
Print Assumptions C47_unknown_label_refuted.

(** After the loss was computed, the label is rejected before anything is stored. *)
Theorem C47_reject_partial : forall T (N : Num T) (E : env T) recs idx slot ls sm, sm_count sm <= idx ->
  backward_tail E recs idx slot (ls ++ [LSoft sm]) = OThrow (ls ++ [LSoft sm]) OutOfRange.
Proof. exact @unknown_label_tail. Qed.
Print Assumptions C47_reject_partial.

Example C47_ex : match forward_pass ex_env (fun v => v) 2 ex_x 0 ex_net with ORet ls r => backward_pass ex_env r 2 0 ls = OUB | _ => False end.
Proof. vm_compute. reflexivity. Qed.
Example C47_ex_position : find_pos Z.eqb [4; 7; 7; 9] 7 = 1 /\ find_pos Z.eqb [4; 7; 7; 9] 5 = 4.
Proof. vm_compute. auto. Qed.

(** ** C48. [built E h m]: the history h of calls, some of which may have raised an exception, leaves the model m. *)
Theorem C48_names_distinct : forall T (N : Num T) (E : env T) L h (m : model T L), built E h m -> (soft_calls h <= 1)%nat ->
  NoDup (map fst (m_layers m)).
Proof. exact @names_distinct. Qed.
Print Assumptions C48_names_distinct.

Theorem C48_names_values : forall T (N : Num T) (E : env T) L h (m : model T L), built E h m -> forall pre x post, m_layers m = pre ++ x :: post ->
  fst x = layer_name (class_of (snd x)) (how_many (class_of (snd x)) pre).
Proof. exact @names_values. Qed.
Print Assumptions C48_names_values.

Theorem C48_insertion_order : forall T (N : Num T) (E : env T) L (m : model T L) o m' u, run_bop E o m = ORet m' u ->
  match o with
  | BKernel s c => exists n k, k_make (e_rand E) (e_rmax E) (e_sqrt E) s c 1 = Ok k /\ m_layers m' = m_layers m ++ [(n, LKernel k)]
  | BPool s t k => exists n, m_layers m' = m_layers m ++ [(n, LPool (q_make s t k))]
  | BConn c => exists n k, c_make c = Ok k /\ m_layers m' = m_layers m ++ [(n, LConn k)]
  | BAct a => exists n, m_layers m' = m_layers m ++ [(n, LAct (a_make a))]
  | BLabels l true => exists n, m_layers m' = m_layers m ++ [(n, LSoft (sm_make (Z.of_nat (length l))))]
  | BLabels l false => m_layers m' = m_layers m
  end /\ m_labels m' = match o with BLabels l _ => l | _ => m_labels m end.
Proof. exact @insertion_order. Qed.
Print Assumptions C48_insertion_order.
Theorem C48_failed_call : forall T (N : Num T) (E : env T) L (m : model T L) o m' e, run_bop E o m = OThrow m' e -> m' = m.
Proof. exact @failed_call. Qed.
Print Assumptions C48_failed_call.

(** With two calls of setOutputLabels there are two layers of the same name. *)
Theorem C48_two_calls : forall T (N : Num T) (E : env T) L, exists h (m : model T L), built E h m /\ h = [BLabels [] true; BLabels [] true] /\
  ~ NoDup (map fst (m_layers m)).
Proof. exact @two_label_calls. Qed.
Print Assumptions C48_two_calls.

Definition ex_build (h : list (bop Z)) : model Z Z := fold_left (fun m o => match run_bop ex_env o m with ORet m' _ => m' | _ => m end) h m_new.
Example C48_ex : map fst (m_layers (ex_build [BAct Relu; BPool (D3 2 2 1) (D3 2 2 1) PMax; BAct Linear; BConn 4; BLabels [1;2;3;4] true])) =
  [lit "Activation_1"; lit "Pooling_1"; lit "Activation_2"; lit "FullyConnected_1"; lit "SoftmaxOutput"].
Proof. vm_compute. reflexivity. Qed.
