(** Properties C45, C49-C56: training with worker threads. Executions are all interleavings of the threads' steps, see Train.v. *)
From Coq Require Import ZArith List Bool Lia Reals Lra.
From Coquelicot Require Import Coquelicot.
From Verif Require Import Base Dim Matrix View Num Expr Spec Iter Sums MatFacts ExprThms Batch BatchThms Kernel Connected ConnectedThms Float32 FloatFacts Pooling Activation Softmax
  LayerFacts Calc PoolingThms ActivationThms SoftmaxThms Chars Model Net NetThms NetPass NetGrad ModelThms NetFresh
  Train TrainLocal TrainRest TrainInv TrainData TrainEnd TrainThms TrainCount TrainEpoch TrainNet TrainSgd TrainDescent TrainMore LazyInit Props_Model CeilBound.
Import ListNotations.
Local Open Scope Z_scope.

(** The network of Props_Model.v with two gradient slots, two worker threads with one slot each; labels 4 and 9 *)
Definition ex_two : list (layer Z) :=
  [ LKernel (Kern (Par (Mat (D3 2 2 1) [1;0;0;-1]) (Mat (D3 1 1 1) [2]) [mat_empty;mat_empty] [mat_empty;mat_empty]) (D3 2 2 1) 1 1);
    LAct (a_make Relu);
    LConn (Conn (Par (Mat (D3 2 4 1) [1;0;1;2;0;1;1;1]) (Mat (D3 2 1 1) [1;0]) [mat_empty;mat_empty] [mat_empty;mat_empty]) (D3 2 2 1) true);
    LSoft (sm_make 2) ].
Definition ex_labels : list Z := [4; 9].
Definition ex_run (sched : list nat) (ls : list (layer Z)) (src : list (point Z Z)) : gout (T := Z) (U := Z) (L := Z) :=
  run ex_env (fun v : Z => v) Z.eqb ex_labels 1 2 sched (start (Est ls src [None; None] 0) [PLoop 0; PLoop 1]).
Definition ex_grads (l : layer Z) : list (list Z) * list (list Z) :=
  match l with LKernel k => (map mvals (p_wg (k_par k)), map mvals (p_bg (k_par k))) | LConn c => (map mvals (p_wg (c_par c)), map mvals (p_bg (c_par c))) | _ => ([], []) end.
Definition ex_show (o : gout (T := Z) (U := Z) (L := Z)) := match o with GNext g => Some (g_pcs g, map ex_grads (g_layers g), g_success g, length (g_source g)) | _ => None end.
Definition steps (t n : nat) : list nat := repeat t n.
Example spawn_ex : spawn (T := Z) (U := Z) (L := Z) 2 0 1 = Ok [PLoop 0; PLoop 1].
Proof. reflexivity. Qed.

(** ** C49 *)
(** The ranges are those of lines 238-239. *)
Theorem C49_ranges_partial : forall (T U L : Type) bs nt, 0 <= bs < 2 ^ 24 -> 1 <= nt <= 2 ^ 24 ->
  exists wc (pcs : list (pc (T := T) (U := U) (L := L))), ceil_div bs nt = Ok wc /\ spawn (Z.to_nat nt) 0 wc = Ok pcs /\ length pcs = Z.to_nat nt /\
    (forall t, (t < Z.to_nat nt)%nat -> nth_error pcs t = Some (PLoop (Z.of_nat t * wc))) /\
    (forall b, 0 <= b < bs <-> exists t, (t < Z.to_nat nt)%nat /\ Z.of_nat t * wc <= b < Z.min ((Z.of_nat t + 1) * wc) bs) /\
    (forall b t t', Z.of_nat t * wc <= b < Z.min ((Z.of_nat t + 1) * wc) bs -> Z.of_nat t' * wc <= b < Z.min ((Z.of_nat t' + 1) * wc) bs -> t = t').
Proof. exact ranges_ok. Qed.
Print Assumptions C49_ranges_partial.
(** For any work count the ranges are disjoint, and they cover the batch exactly if the counts add up. *)
Theorem C49_disjoint : forall wc bs (t t' : nat) b, 0 <= wc ->
  Z.of_nat t * wc <= b < Z.min ((Z.of_nat t + 1) * wc) bs -> Z.of_nat t' * wc <= b < Z.min ((Z.of_nat t' + 1) * wc) bs -> t = t'.
Proof. exact ranges_disjoint. Qed.
Print Assumptions C49_disjoint.
Theorem C49_cover : forall wc bs (nt : nat), 0 <= wc -> 0 <= bs -> bs < two31 ->
  (bs <= Z.of_nat nt * wc <-> forall b, 0 <= b < bs <-> exists t, (t < nt)%nat /\ Z.of_nat t * wc <= b < Z.min ((Z.of_nat t + 1) * wc) bs).
Proof. exact ranges_cover. Qed.
Print Assumptions C49_cover.
(** 2^24+1 slots, one thread: the last slot belongs to no thread. *)
Theorem C49_refuted : exists bs nt wc, 1 <= bs < two31 /\ 1 <= nt /\ ceil_div bs nt = Ok wc /\
  exists b, 0 <= b < bs /\ forall t, (t < Z.to_nat nt)%nat -> ~ (Z.of_nat t * wc <= b < Z.min ((Z.of_nat t + 1) * wc) bs).
Proof. exact ranges_gap. Qed.
Print Assumptions C49_refuted.
Example C49_ex : ceil_div 10 4 = Ok 3 /\ map (fun t => (Z.of_nat t * 3, cutoff 3 10 t)) [0;1;2;3]%nat = [(0,3); (3,6); (6,9); (9,10)].
Proof. vm_compute. auto. Qed.
(** More threads than needed: the ranges of the last threads are empty. No thread at all: the division by zero has no meaning. *)
Example C49_ex_more : ceil_div 5 4 = Ok 2 /\ map (fun t => (Z.of_nat t * 2, cutoff 2 5 t)) [0;1;2;3]%nat = [(0,2); (2,4); (4,5); (6,5)] /\ ceil_div 8 0 = UB.
Proof. vm_compute. auto. Qed.

(** ** C50 *)
Theorem C50_ceil_partial : forall n s, 0 <= n < 2 ^ 24 -> 1 <= s -> s <= 2 ^ 24 -> ceil_div n s = Ok ((n + s - 1) / s).
Proof. exact ceil_div_exact. Qed.
Print Assumptions C50_ceil_partial.
(** Pooling::outputSize: ceil((float)(a + 1) / s), where the sum is one of floats *)
Theorem C50_pool_partial : forall a s, -1 <= a < 2 ^ 24 - 1 -> 1 <= s -> s <= 2 ^ 24 -> ceil_div1 a s = Ok ((a + s) / s).
Proof. exact ceil_div1_exact. Qed.
Print Assumptions C50_pool_partial.
(** For all sizes: off by at most one plus 2^-22 (for the pooling layer 2^-21) of the quotient. [i32]: undefined if the value is
    not an int, which needs a numerator above 2^31 - 128 in the first case. *)
Theorem C50_near_partial : forall n s, 0 <= n < two31 -> 1 <= s < two31 ->
  exists k, ceil_div n s = i32 k /\ Z.abs (k - (n + s - 1) / s) <= 1 + n / (2 ^ 22 * s) /\ (n <= two31 - 128 -> ceil_div n s = Ok k).
Proof. exact ceil_div_near. Qed.
Print Assumptions C50_near_partial.
Theorem C50_pool_near_partial : forall a s, 0 <= a < two31 -> 1 <= s < two31 ->
  exists k, ceil_div1 a s = i32 k /\ Z.abs (k - (a + s) / s) <= 1 + (a + 1) / (2 ^ 21 * s).
Proof. exact ceil_div1_near. Qed.
Print Assumptions C50_pool_near_partial.
Example C50_near_ex : ceil_div 2147483647 1 = UB /\ ceil_div 2000000001 3 = Ok 666666688 /\ (2000000001 + 3 - 1) / 3 = 666666667 /\ ceil_div 2000000001 7000 = Ok 285715 /\ (2000000001 + 6999) / 7000 = 285715.
Proof. vm_compute. auto. Qed.
Theorem C50_refuted : exists n s, 0 <= n < two31 /\ 1 <= s < two31 /\ ceil_div n s = Ok (2 ^ 24) /\ (n + s - 1) / s = 2 ^ 24 + 1.
Proof. exists (2 ^ 24 + 1), 1. vm_compute. repeat split; congruence. Qed.
Print Assumptions C50_refuted.
Theorem C50_pool_refuted : exists a s, 0 <= a < two31 /\ 1 <= s < two31 /\ ceil_div1 a s = Ok (2 ^ 24) /\ (a + s) / s = 2 ^ 24 + 1.
Proof. exists (2 ^ 24), 1. vm_compute. repeat split; congruence. Qed.
Print Assumptions C50_pool_refuted.
Example C50_ex : ceil_div 16777215 3 = Ok 5592405 /\ ceil_div 7 2 = Ok 4 /\ ceil_div 0 5 = Ok 0 /\ ceil_div1 5 4 = Ok 2.
Proof. vm_compute. auto. Qed.

(** ** C51 *)
(** One batch, for every interleaving and every state of the layers ([log] lists thread, slot and data point of every call of
    getNextDataPoint): no slot is used twice, every thread uses the slots of its range only, the data points are those of
    the source in their order, and after the batch bs data points have been taken if there were so many. *)
Theorem C51_taken : forall T (N : Num T) (E : env T) U L (cast : U -> T) (eqL : L -> L -> bool) labels wc bs nt (e : estate (T := T) (U := U) (L := L)) pcs,
  0 <= wc -> 0 <= bs -> bs < two31 -> spawn nt 0 wc = Ok pcs -> Z.of_nat (length (s_results e)) = bs ->
  forall P g log, texec E cast eqL labels P wc bs (start e pcs) g log ->
  NoDup (map (fun x => snd (fst x)) log) /\
  (forall t b p, In (t, b, p) log -> (t < nt)%nat /\ Z.of_nat t * wc <= b < Z.min ((Z.of_nat t + 1) * wc) bs) /\
  s_source e = map snd log ++ g_source g /\
  (finished g -> bs <= Z.of_nat nt * wc -> map snd log = firstn (Z.to_nat bs) (s_source e) /\ g_source g = skipn (Z.to_nat bs) (s_source e)).
Proof. exact @batch_taken. Qed.
Print Assumptions C51_taken.
(** Every execution of a batch is finite, with a bound for all schedules, and never stuck before all threads have returned. *)
Theorem C51_bounded : forall T (N : Num T) (E : env T) U L (cast : U -> T) (eqL : L -> L -> bool) labels wc bs nt (e : estate (T := T) (U := U) (L := L)) pcs,
  0 <= wc -> 0 <= bs -> bs < two31 -> spawn nt 0 wc = Ok pcs -> Z.of_nat (length (s_results e)) = bs ->
  exists B, forall sched g, run E cast eqL labels wc bs sched (start e pcs) = GNext g -> (length sched <= B)%nat.
Proof. exact @batch_bounded. Qed.
Print Assumptions C51_bounded.
Theorem C51_no_deadlock : forall T (N : Num T) (E : env T) U L (cast : U -> T) (eqL : L -> L -> bool) labels wc bs nt (e : estate (T := T) (U := U) (L := L)) pcs,
  0 <= wc -> 0 <= bs -> bs < two31 -> spawn nt 0 wc = Ok pcs -> Z.of_nat (length (s_results e)) = bs ->
  forall P g, exec E cast eqL labels P wc bs (start e pcs) g -> finished g \/ exists t, gstep E cast eqL labels wc bs t g <> GBlocked.
Proof. exact @batch_no_deadlock. Qed.
Print Assumptions C51_no_deadlock.
(** A step of thread t changes no slot outside its range: neither the gradients or pooling indices of a layer, nor the element of batch_results. *)
Theorem C51_writes_partial : forall T (N : Num T) (E : env T) U L (cast : U -> T) (eqL : L -> L -> bool) labels wc bs nt (e : estate (T := T) (U := U) (L := L)) pcs,
  0 <= wc -> 0 <= bs -> bs < two31 -> spawn nt 0 wc = Ok pcs -> Z.of_nat (length (s_results e)) = bs -> List.Forall ready (s_layers e) ->
  forall P g log t g' b, texec E cast eqL labels P wc bs (start e pcs) g log -> gstep E cast eqL labels wc bs t g = GNext g' -> 0 <= b ->
  ~ (Z.of_nat t * wc <= b < Z.min ((Z.of_nat t + 1) * wc) bs) ->
  map (slot_data b) (g_layers g') = map (slot_data b) (g_layers g) /\ nth_error (g_results g') (Z.to_nat b) = nth_error (g_results g) (Z.to_nat b).
Proof. exact @batch_writes. Qed.
Print Assumptions C51_writes_partial.
(** A whole epoch: it always comes to an end, and if no exception occurs every data point has been taken exactly once. *)
Theorem C51_epoch_ends_partial : forall T (N : Num T) (E : env T) U L (cast : U -> T) (eqL : L -> L -> bool) labels h size ls src,
  1 <= h_nt h < 2 ^ 24 -> 1 <= h_bs h < 2 ^ 24 -> 0 <= size < 2 ^ 24 -> exists o, epoch E cast eqL labels (fun _ => True) h size ls src o.
Proof. exact @epoch_total. Qed.
Print Assumptions C51_epoch_ends_partial.
Theorem C51_epoch_partial : forall T (N : Num T) (E : env T) U L (cast : U -> T) (eqL : L -> L -> bool) labels P h size ls src e,
  1 <= h_nt h < 2 ^ 24 -> 1 <= h_bs h < 2 ^ 24 -> size = Z.of_nat (length src) -> size < 2 ^ 24 ->
  epoch E cast eqL labels P h size ls src (ORet e tt) ->
  exists wc logs, batches_log E cast eqL labels P wc (h_bs h) (Z.to_nat (h_nt h)) (h_lr h) logs (Est ls src (repeat None (Z.to_nat (h_bs h))) 0) e /\
    concat (map (map snd) logs) = src /\ s_source e = [].
Proof. exact @epoch_taken. Qed.
Print Assumptions C51_epoch_partial.
(** 2^24+1 data points, batches of one: for every trainable network the epoch ends with one data point not taken. *)
Theorem C51_refuted : forall rand rmax U L (cast : U -> R) (eqL : L -> L -> bool) labels h d J ss ls src,
  h_nt h = 1 -> h_bs h = 1 -> Z.of_nat (length src) = 2 ^ 24 + 1 ->
  net_ok ss d -> net_bkc true ss d -> labels_ok (net_out ss d) (Z.of_nat (length labels)) -> trainable ls ss d (Z.of_nat (length labels)) 1 ->
  (forall p, In p src -> good_point eqL labels d J p) ->
  exists e, epoch (envR rand rmax) cast eqL labels calm h (2 ^ 24 + 1) ls src (ORet e tt) /\ length (s_source e) = 1%nat.
Proof. exact @large_epoch. Qed.
Print Assumptions C51_refuted.
(** Two threads alternating; three data points for two slots: the third stays. *)
Example C51_ex : match ex_show (ex_run ([0;1;0;0;0;0;1;1;1;1]%nat ++ concat (repeat [0;1]%nat 16)) ex_two [Point ex_x 4; Point ex_x 9; Point ex_x 9]) with
  | Some (p, _, _, n) => p = [PDone 1; PDone 2] /\ n = 1%nat | None => False end.
Proof. vm_compute. auto. Qed.
Example C51_ex_seq : match ex_show (ex_run (steps 1 21 ++ steps 0 21) ex_two [Point ex_x 4; Point ex_x 9; Point ex_x 9]) with
  | Some (p, _, _, n) => p = [PDone 1; PDone 2] /\ n = 1%nat | None => False end.
Proof. vm_compute. auto. Qed.
(** A thread cannot enter while another one holds the mutex. *)
Example C51_ex_lock : match ex_run [0;0;1]%nat ex_two [Point ex_x 4] with
  | GNext g => gstep ex_env (fun v : Z => v) Z.eqb ex_labels 1 2 1 g = GBlocked /\ g_lock g = Some 0%nat | _ => False end.
Proof. vm_compute. auto. Qed.

(** ** C52 *)
(** For every interleaving and every state of the layers: the element of batch_results of every data point carries that data
    point's label, and the counter has grown by the number of those whose predicted label is the true one. *)
Theorem C52_count : forall T (N : Num T) (E : env T) U L (cast : U -> T) (eqL : L -> L -> bool) labels wc bs nt (e : estate (T := T) (U := U) (L := L)) pcs,
  0 <= wc -> 0 <= bs -> bs < two31 -> spawn nt 0 wc = Ok pcs -> Z.of_nat (length (s_results e)) = bs ->
  forall P g log, texec E cast eqL labels P wc bs (start e pcs) g log -> finished g ->
  exists rs, Forall2 (fun x r => nth_error (g_results g) (Z.to_nat (snd (fst x))) = Some (Some r) /\ r_true r = label_idx eqL labels (snd x)) log rs /\
    g_success g = s_success e + Z.of_nat (length (filter (fun x => r_label (snd x) =? label_idx eqL labels (fst x)) (combine (map snd log) rs))).
Proof. exact @batch_count_any. Qed.
Print Assumptions C52_count.
(** If the fully connected layers are initialised, the predictions are those of a forward pass with the parameters at the start of the batch. *)
Theorem C52_predictions : forall T (N : Num T) (E : env T) U L (cast : U -> T) (eqL : L -> L -> bool) labels wc bs nt (e : estate (T := T) (U := U) (L := L)) pcs,
  0 <= wc -> 0 <= bs -> bs < two31 -> spawn nt 0 wc = Ok pcs -> Z.of_nat (length (s_results e)) = bs -> List.Forall ready (s_layers e) ->
  forall P g log, texec E cast eqL labels P wc bs (start e pcs) g log -> finished g ->
  exists rs, Forall2 (fun p r => exists b ls1, forward_pass E cast (Z.of_nat (length labels)) (pt_data p) b (s_layers e) = ORet ls1 r) (map snd log) rs /\
    g_success g = s_success e + Z.of_nat (length (filter (fun x => r_label (snd x) =? label_idx eqL labels (fst x)) (combine (map snd log) rs))).
Proof. exact @batch_count. Qed.
Print Assumptions C52_predictions.
Example C52_ex : match ex_show (ex_run (steps 0 13 ++ steps 1 13 ++ steps 0 8 ++ steps 1 8) ex_two [Point ex_x 4; Point ex_x 9]) with Some (_, _, s, _) => s = 1 | None => False end.
Proof. vm_compute. reflexivity. Qed.
Example C52_ex_both : match ex_show (ex_run (steps 0 13 ++ steps 1 13 ++ steps 0 8 ++ steps 1 8) ex_two [Point ex_x 9; Point ex_x 9]) with Some (_, _, s, _) => s = 2 | None => False end.
Proof. vm_compute. reflexivity. Qed.

(** ** C53 *)
(** Two threads, two data points with the same image and different labels. Both have handed over their label before the
    first of them calls the output layer: the gradient of the first one is that for the label of the second one. *)
Theorem C53_refuted : exists sched g ls1 r1 ls2 r2, let p := Point ex_x 4 in
  ex_run sched ex_two [p; Point ex_x 9] = GNext g /\ finished g /\
  forward_pass ex_env (fun v => v) 2 (pt_data p) 0 ex_two = ORet ls1 r1 /\ backward_pass ex_env r1 (label_idx Z.eqb ex_labels p) 0 ls1 = ORet ls2 r2 /\
  map (slot_data 0) (g_layers g) <> map (slot_data 0) ls2 /\
  exists ls3 r3, backward_pass ex_env r1 (label_idx Z.eqb ex_labels (Point ex_x 9)) 0 ls1 = ORet ls3 r3 /\ map (slot_data 0) (g_layers g) = map (slot_data 0) ls3.
Proof.
  exists (steps 0 13 ++ steps 1 13 ++ steps 0 8 ++ steps 1 8).
  eexists. eexists. eexists. eexists. eexists. cbv zeta. split; [vm_compute; reflexivity|].
  split; [intros c [<-|[<-|[]]]; eauto|]. split; [vm_compute; reflexivity|]. split; [vm_compute; reflexivity|].
  split; [vm_compute; discriminate|]. eexists. eexists. split; vm_compute; reflexivity.
Qed.
Print Assumptions C53_refuted.
(** If no two hand-overs overlap, every data point's slot holds the gradient for its own label. *)
Theorem C53_own_label_partial : forall T (N : Num T) (E : env T) U L (cast : U -> T) (eqL : L -> L -> bool) labels wc bs nt (e : estate (T := T) (U := U) (L := L)) pcs,
  0 <= wc -> 0 <= bs -> bs < two31 -> spawn nt 0 wc = Ok pcs -> Z.of_nat (length (s_results e)) = bs -> List.Forall ready (s_layers e) ->
  forall g log, texec E cast eqL labels calm wc bs (start e pcs) g log -> finished g -> forall t b p, In (t, b, p) log ->
  exists ls1 r1 ls2 r, forward_pass E cast (Z.of_nat (length labels)) (pt_data p) b (s_layers e) = ORet ls1 r1 /\
    backward_pass E r1 (label_idx eqL labels p) b ls1 = ORet ls2 r /\
    nth_error (g_results g) (Z.to_nat b) = Some (Some r) /\ map (slot_data b) (g_layers g) = map (slot_data b) ls2.
Proof. exact @batch_own_label. Qed.
Print Assumptions C53_own_label_partial.
(** With one thread they never overlap. *)
Theorem C53_single_thread : forall T (N : Num T) (E : env T) U L (cast : U -> T) (eqL : L -> L -> bool) labels wc bs nt (e : estate (T := T) (U := U) (L := L)) pcs g,
  (nt <= 1)%nat -> 0 <= wc -> 0 <= bs -> bs < two31 -> spawn nt 0 wc = Ok pcs -> Z.of_nat (length (s_results e)) = bs ->
  exec E cast eqL labels (fun _ => True) wc bs (start e pcs) g -> exec E cast eqL labels calm wc bs (start e pcs) g.
Proof. exact @single_calm. Qed.
Print Assumptions C53_single_thread.
(** In every interleaving it is the gradient for the label of some data point of the source. *)
Theorem C53_some_label : forall T (N : Num T) (E : env T) U L (cast : U -> T) (eqL : L -> L -> bool) labels wc bs nt (e : estate (T := T) (U := U) (L := L)) pcs,
  0 <= wc -> 0 <= bs -> bs < two31 -> spawn nt 0 wc = Ok pcs -> Z.of_nat (length (s_results e)) = bs -> List.Forall ready (s_layers e) ->
  forall P g log, texec E cast eqL labels P wc bs (start e pcs) g log -> finished g -> forall t b p, In (t, b, p) log ->
  exists ls1 r1 r p' ls2, forward_pass E cast (Z.of_nat (length labels)) (pt_data p) b (s_layers e) = ORet ls1 r1 /\
    assign_loss E r1 (label_idx eqL labels p) = Ok r /\ In p' (s_source e) /\
    backward_tail E (r_inputs r) (label_idx eqL labels p') b ls1 = ORet ls2 tt /\ map (slot_data b) (g_layers g) = map (slot_data b) ls2.
Proof. exact @batch_some_label. Qed.
Print Assumptions C53_some_label.
(** The same data points without overlap: the gradients differ by their labels. *)
Example C53_ex : match ex_show (ex_run (steps 0 21 ++ steps 1 21) ex_two [Point ex_x 4; Point ex_x 9]) with
  | Some (_, g, _, _) => g = [([[1;1;1;-1]; [0;0;0;0]], [[0]; [0]]); ([], []); ([[-2;2;-4;4;0;0;0;0]; [0;0;0;0;0;0;0;0]], [[-1;1]; [0;0]]); ([], [])]
  | None => False end.
Proof. vm_compute. reflexivity. Qed.

(** ** C54 *)
(** [trainable ls ss d n bs]: the layer objects have the configuration ss for inputs of dimensions d, a softmax layer with n
    labels at the end, and bs slots. [good_point]: an input of dimensions d and a known label. Any two executions without
    overlapping hand-overs, with any numbers of threads, leave the same parameters. *)
Theorem C54_schedule_partial : forall rand rmax U L (cast : U -> R) (eqL : L -> L -> bool) labels ss d J bs lr, let nl := Z.of_nat (length labels) in
  1 <= bs -> bs < two31 -> net_ok ss d -> net_bkc true ss d -> labels_ok (net_out ss d) nl ->
  forall wc nt wc' nt' (e e' : estate (T := R) (U := U) (L := L)) (pcs pcs' : list pc) g g',
  0 <= wc -> bs <= Z.of_nat nt * wc -> spawn nt 0 wc = Ok pcs -> 0 <= wc' -> bs <= Z.of_nat nt' * wc' -> spawn nt' 0 wc' = Ok pcs' ->
  Z.of_nat (length (s_results e)) = bs -> Z.of_nat (length (s_results e')) = bs -> s_source e = s_source e' ->
  trainable (s_layers e) ss d nl bs -> trainable (s_layers e') ss d nl bs ->
  bs <= Z.of_nat (length (s_source e)) -> (forall p, In p (firstn (Z.to_nat bs) (s_source e)) -> good_point eqL labels d J p) ->
  exec (envR rand rmax) cast eqL labels calm wc bs (start e pcs) g -> finished g ->
  exec (envR rand rmax) cast eqL labels calm wc' bs (start e' pcs') g' -> finished g' ->
  exists ls ls', apply_all lr (g_layers g) = ORet ls tt /\ apply_all lr (g_layers g') = ORet ls' tt /\ map params_of ls = map params_of ls'.
Proof. exact @schedule_free. Qed.
Print Assumptions C54_schedule_partial.
(** What they are: one step against the mean of the gradients of the data points, [label_grad] being the derivatives of C44. *)
Theorem C54_value_partial : forall rand rmax U L (cast : U -> R) (eqL : L -> L -> bool) labels wc bs nt ss d J, let nl := Z.of_nat (length labels) in
  0 <= wc -> 1 <= bs -> bs < two31 -> bs <= Z.of_nat nt * wc -> net_ok ss d -> net_bkc true ss d -> labels_ok (net_out ss d) nl ->
  forall (e : estate (T := R) (U := U) (L := L)) pcs g lr, spawn nt 0 wc = Ok pcs -> Z.of_nat (length (s_results e)) = bs ->
  trainable (s_layers e) ss d nl bs -> bs <= Z.of_nat (length (s_source e)) -> (forall p, In p (firstn (Z.to_nat bs) (s_source e)) -> good_point eqL labels d J p) ->
  exec (envR rand rmax) cast eqL labels calm wc bs (start e pcs) g -> finished g ->
  exists ls', apply_all lr (g_layers g) = ORet ls' tt /\
    trainable ls' (sgd lr ss (map (fun p => label_grad ss d (fun x y z => cast (J p x y z)) (label_idx eqL labels p)) (firstn (Z.to_nat bs) (s_source e)))) d nl bs /\
    g_source g = skipn (Z.to_nat bs) (s_source e).
Proof. exact @full_batch. Qed.
Print Assumptions C54_value_partial.
(** A whole call of train on a data set of q full batches: no exception, and the parameters are those of the sequential
    gradient descent over the batches, for every number of threads and every interleaving without overlapping hand-overs. *)
Theorem C54_train_partial : forall rand rmax U L (cast : U -> R) (eqL : L -> L -> bool) labels h d J size q ss body sm src, let nl := Z.of_nat (length labels) in
  1 <= h_nt h < 2 ^ 24 -> 1 <= h_bs h < 2 ^ 24 -> size = Z.of_nat (length src) -> size < 2 ^ 24 ->
  size = Z.of_nat q * h_bs h -> (forall p, In p src -> good_point eqL labels d J p) -> net_ok ss d -> net_bkc true ss d -> labels_ok (net_out ss d) nl ->
  net_is body ss d -> List.Forall idx_ok body -> sm_count sm = nl ->
  (exists o, train (envR rand rmax) cast eqL labels calm h size src (body ++ [LSoft sm]) src o) /\
  forall o, train (envR rand rmax) cast eqL labels calm h size src (body ++ [LSoft sm]) src o -> exists ls', o = ORet ls' tt /\
    trainable ls' (sgd_epochs cast eqL labels (h_lr h) (Z.to_nat (h_bs h)) d J q (Z.to_nat (h_epochs h)) ss src) d nl (h_bs h).
Proof. exact @train_ok. Qed.
Print Assumptions C54_train_partial.
(** Three schedules of two threads without overlap; the data points go to different slots. *)
Definition ex_apply (sched : list nat) (src : list (point Z Z)) :=
  match ex_run sched ex_two src with GNext g => match apply_all 2 (g_layers g) with ORet l _ => Some (map params_of l) | _ => None end | _ => None end.
Example C54_ex : let a := ex_apply (steps 0 21 ++ steps 1 21) [Point ex_x 4; Point ex_x 9] in
  a = ex_apply (steps 1 21 ++ steps 0 21) [Point ex_x 4; Point ex_x 9] /\ a = ex_apply (steps 0 11 ++ steps 1 21 ++ steps 0 10) [Point ex_x 4; Point ex_x 9] /\
  a = Some [Some (Mat (D3 2 2 1) [1;0;0;-1], Mat (D3 1 1 1) [2]); None; Some (Mat (D3 2 4 1) [3;-2;5;-2;0;1;1;1], Mat (D3 2 1 1) [1;0]); None].
Proof. vm_compute. auto. Qed.

(** ** C55 *)
(** The update after any batch: the mean over all bs slots, where the slots of the data points taken hold their gradients and
    the other slots what they held before. *)
Theorem C55_any_batch_partial : forall rand rmax U L (cast : U -> R) (eqL : L -> L -> bool) labels wc bs nt ss d J, let nl := Z.of_nat (length labels) in
  0 <= wc -> 1 <= bs -> bs < two31 -> net_ok ss d -> net_bkc true ss d -> labels_ok (net_out ss d) nl ->
  forall (e : estate (T := R) (U := U) (L := L)) pcs g log gs0 lr, spawn nt 0 wc = Ok pcs -> Z.of_nat (length (s_results e)) = bs ->
  trainable (s_layers e) ss d nl bs -> (forall t b p, In (t, b, p) log -> good_point eqL labels d J p) ->
  texec (envR rand rmax) cast eqL labels calm wc bs (start e pcs) g log -> finished g ->
  (forall i, 0 <= i < bs -> ~ In i (map (fun x => snd (fst x)) log) -> holds (s_layers e) ss d i (gs0 i)) ->
  let grads := fun i => match find (fun x => snd (fst x) =? i) log with
    | Some x => label_grad ss d (fun a b c => cast (J (snd x) a b c)) (label_idx eqL labels (snd x)) | None => gs0 i end in
  exists ls', apply_all lr (g_layers g) = ORet ls' tt /\ trainable ls' (step_net lr bs ss grads) d nl bs /\
    forall i, 0 <= i < bs -> holds ls' (step_net lr bs ss grads) d i (grads i).
Proof. exact @any_batch. Qed.
Print Assumptions C55_any_batch_partial.
(** A full batch of two and then a batch with one data point, taken by the second thread. The update after it also uses the
    gradient the first slot still holds from the batch before; the mean over the batch's own data is zero here, and one
    slot of its own would leave the parameters as they are. *)
Definition ex_after (g : gout (T := Z) (U := Z) (L := Z)) : option (list (layer Z)) :=
  match g with GNext g => match apply_all 2 (g_layers g) with ORet l _ => Some l | _ => None end | _ => None end.
Theorem C55_refuted : exists ls g ls' ls1 ls2 r2 ls3 r3 ls4, let p := Point ex_x 4 in
  ex_after (ex_run (steps 0 21 ++ steps 1 21) ex_two [p; Point ex_x 9]) = Some ls /\
  ex_run (steps 1 21 ++ steps 0 3) ls [p] = GNext g /\ finished g /\ g_source g = [] /\ apply_all 2 (g_layers g) = ORet ls' tt /\
  set_batch_all 1 ls = ORet ls1 tt /\ forward_pass ex_env (fun v => v) 2 (pt_data p) 0 ls1 = ORet ls2 r2 /\
  backward_pass ex_env r2 (label_idx Z.eqb ex_labels p) 0 ls2 = ORet ls3 r3 /\ apply_all 2 ls3 = ORet ls4 tt /\
  map params_of ls4 = map params_of ls /\ map params_of ls' <> map params_of ls4.
Proof.
  do 9 eexists. cbv zeta. split; [vm_compute; reflexivity|]. split; [vm_compute; reflexivity|]. split; [intros c [<-|[<-|[]]]; eauto|].
  split; [reflexivity|]. split; [vm_compute; reflexivity|]. split; [vm_compute; reflexivity|]. split; [vm_compute; reflexivity|].
  split; [vm_compute; reflexivity|]. split; [vm_compute; reflexivity|]. split; [vm_compute; reflexivity|vm_compute; discriminate].
Qed.
Print Assumptions C55_refuted.
(** Fewer data points than slots in the very first batch: the empty slot makes the update fail with a MatrixSizeException. *)
Theorem C55_first_batch_refuted : exists sched g ls, ex_run sched ex_two [Point ex_x 4] = GNext g /\ finished g /\
  apply_all 2 (g_layers g) = OThrow ls MatrixSize /\ map params_of ls = map params_of ex_two.
Proof.
  exists (steps 0 21 ++ steps 1 3). do 2 eexists. split; [vm_compute; reflexivity|]. split; [intros c [<-|[<-|[]]]; eauto|].
  split; vm_compute; reflexivity.
Qed.
Print Assumptions C55_first_batch_refuted.
(** A full batch (C54_value_partial) averages its own data only. *)
Example C55_ex : ex_after (ex_run (steps 0 21 ++ steps 1 21) ex_two [Point ex_x 4; Point ex_x 4]) <> None /\
  match ex_after (ex_run (steps 0 21 ++ steps 1 21) ex_two [Point ex_x 4; Point ex_x 4]) with
  | Some ls => map params_of ls = [Some (Mat (D3 2 2 1) [-1;-2;-2;1], Mat (D3 1 1 1) [2]); None; Some (Mat (D3 2 4 1) [5;-4;9;-6;0;1;1;1], Mat (D3 2 1 1) [3;-2]); None]
  | None => False end.
Proof. vm_compute. split; [discriminate|reflexivity]. Qed.

(** ** C56. The statements of propagateForward one by one, see LazyInit.v. *)
(** Two threads and a fresh layer with two outputs. The second thread may find the flag set and the weights still empty: an
    exception. Or it may find the weights allocated and not yet filled: its result is that of weights 0. *)
Theorem C56_exception_refuted : forall T (N : Num T) rmax sqrtT rand (v : T), exists c, c_make 2 = Ok c /\
  irun rmax sqrtT rand [0;0;1;1]%nat (istart c [Mat (D3 1 1 1) [v]; Mat (D3 1 1 1) [v]]) = IStop LayerExn.
Proof. intros. eexists. split; [reflexivity|]. reflexivity. Qed.
Print Assumptions C56_exception_refuted.
Theorem C56_zero_weights_refuted : exists c sched g x o o', c_make (T := Z) 2 = Ok c /\
  irun 7 (fun _ => 1) (fun _ k => 10 * k) sched (istart c [x; x]) = INext g /\
  nth_error (i_threads g) 0 = Some (x, IDone o) /\ nth_error (i_threads g) 1 = Some (x, IDone o') /\
  c_ready (i_layer g) = true /\ c_apply (c_w (i_layer g)) (c_b (i_layer g)) x = Ok o /\
  c_apply (Mat (D3 2 1 1) [0;0]) (Mat (D3 2 1 1) [0;0]) x = Ok o' /\ o <> o'.
Proof.
  eexists. exists [0;0;0;0;1;1;1;0;0;0;0;0]%nat. eexists. exists (Mat (D3 1 1 1) [5]). do 2 eexists.
  split; [reflexivity|]. split; [vm_compute; reflexivity|]. split; [vm_compute; reflexivity|]. split; [vm_compute; reflexivity|].
  split; [reflexivity|]. split; [vm_compute; reflexivity|]. split; [vm_compute; reflexivity|]. vm_compute. discriminate.
Qed.
Print Assumptions C56_zero_weights_refuted.
(** One thread alone does what propagateForward of Connected.v does, and its result is that of the initialised weights. *)
Theorem C56_alone : forall T (N : Num T) rmax sqrtT rand (x : mat T) c, alone rmax sqrtT 10 rand x ITest c = c_forward rand rmax sqrtT x c.
Proof. exact @alone_forward. Qed.
Print Assumptions C56_alone.
Theorem C56_first_use_partial : forall T (N : Num T) rmax sqrtT rand (x : mat T) c c' o, c_forward rand rmax sqrtT x c = ORet c' o ->
  c_ready c' = true /\ c_apply (c_w c') (c_b c') x = Ok o.
Proof. exact @first_forward. Qed.
Print Assumptions C56_first_use_partial.
(** After that, any number of threads in any interleaving use exactly these weights and leave them as they are. *)
Theorem C56_initialised_partial : forall T (N : Num T) rmax sqrtT rand (c : connected T) xs g t x o, c_ready c = true -> iexec rmax sqrtT rand (istart c xs) g ->
  nth_error (i_threads g) t = Some (x, IDone o) -> nth_error xs t = Some x /\ c_apply (c_w c) (c_b c) x = Ok o.
Proof. exact @ready_results. Qed.
Print Assumptions C56_initialised_partial.
Theorem C56_initialised_safe : forall T (N : Num T) rmax sqrtT rand (c : connected T) xs g t, c_ready c = true -> iexec rmax sqrtT rand (istart c xs) g ->
  (forall x, In x xs -> exists o, c_forward (rand t) rmax sqrtT x c = ORet c o) -> (forall e, igstep rmax sqrtT rand t g <> IStop e) /\ igstep rmax sqrtT rand t g <> IUB.
Proof. exact @ready_no_stop. Qed.
Print Assumptions C56_initialised_safe.
Example C56_ex : match irun 7 (fun _ => 1) (fun _ k => 10 * k) [0;1;0;1;1;0]%nat (istart (Conn (Par (Mat (D3 2 1 1) [3;4]) (Mat (D3 2 1 1) [1;1]) [] []) (D3 1 1 1) true) [Mat (D3 1 1 1) [5]; Mat (D3 1 1 1) [2]]) with
  | INext g => map snd (i_threads g) = [IDone (Mat (D3 2 1 1) [16;21]); IDone (Mat (D3 2 1 1) [7;9])] | _ => False end.
Proof. vm_compute. reflexivity. Qed.

(** ** C45 *)
(** The loss along the update: for data points (I, k) with inputs I and labels k, the parameters [sgd lr ss ...] after an
    update with rate lr, and the loss -ln(probability of the label). *)
Theorem C45_descent_partial : forall (pts : list (fn * Z)) ss d n, net_ok ss d -> labels_ok (net_out ss d) n ->
  (forall I k, In (I, k) pts -> net_smooth ss d I /\ 0 <= k < n) ->
  let gss := map (fun p => label_grad ss d (fst p) (snd p)) pts in
  is_derive (fun lr => rmean (map (fun p => point_loss (sgd lr ss gss) d (fst p) (snd p)) pts)) 0%R (- norm2 ss d (mean_grads (length ss) gss))%R.
Proof. exact (descent (fun k => k) 0). Qed.
Print Assumptions C45_descent_partial.
(** The same for the code: after any execution of a full batch, the update with any rate succeeds, forward passes on the
    updated layers give the probabilities [prob lr], the derivative of their mean loss at rate 0 is minus the squared norm
    of the averaged gradient, and small positive rates reduce it unless that gradient is zero. *)
Theorem C45_batch_partial : forall rand rmax U L (cast : U -> R) (eqL : L -> L -> bool) labels wc bs nt ss d J, let nl := Z.of_nat (length labels) in
  0 <= wc -> 1 <= bs -> bs < two31 -> bs <= Z.of_nat nt * wc -> net_ok ss d -> net_bkc true ss d -> labels_ok (net_out ss d) nl ->
  forall (e : estate (T := R) (U := U) (L := L)) (pcs : list pc) g, spawn nt 0 wc = Ok pcs -> Z.of_nat (length (s_results e)) = bs ->
  trainable (s_layers e) ss d nl bs -> bs <= Z.of_nat (length (s_source e)) ->
  let pts := firstn (Z.to_nat bs) (s_source e) in let inp := fun p x y z => cast (J p x y z) in let idx := label_idx eqL labels in
  (forall p, In p pts -> good_point eqL labels d J p /\ net_smooth ss d (inp p)) ->
  exec (envR rand rmax) cast eqL labels calm wc bs (start e pcs) g -> finished g ->
  exists (ls : R -> list (layer R)) (prob : R -> point U L -> R),
    (forall lr, apply_all lr (g_layers g) = ORet (ls lr) tt) /\
    (forall lr p b, In p pts -> 0 <= b < bs -> exists ls' r rs q, forward_pass (envR rand rmax) cast nl (pt_data p) b (ls lr) = ORet ls' r /\
       r_inputs r = rs ++ [q] /\ mread_flat q (idx p) = Ok (prob lr p)) /\
    let N := norm2 ss d (mean_grads (length ss) (map (fun p => label_grad ss d (inp p) (idx p)) pts)) in
    let loss := fun lr => rmean (map (fun p => (- ln (prob lr p))%R) pts) in
    is_derive loss 0%R (- N)%R /\ ((0 < N)%R -> exists eps, (0 < eps)%R /\ forall lr, (0 < lr < eps)%R -> (loss lr < loss 0)%R).
Proof. exact @batch_descent. Qed.
Print Assumptions C45_batch_partial.
Theorem C45_norm : forall ss d gs, (0 <= norm2 ss d gs)%R.
Proof. exact norm2_nonneg. Qed.
Print Assumptions C45_norm.
(** Hypotheses and a non-zero gradient: one fully connected layer, all weights 0, input 1, label 0 of two *)
Example C45_ex : let ss := [SConn 2 (fun _ _ _ => 0%R) (fun _ _ _ => 0%R)] in let d := D3 1 1 1 in
  net_ok ss d /\ net_bkc true ss d /\ labels_ok (net_out ss d) 2 /\ net_smooth ss d (fun _ _ _ => 1%R) /\
  norm2 ss d (mean_grads 1 [label_grad ss d (fun _ _ _ => 1%R) 0]) = 1%R.
Proof.
  cbv zeta. split; [|split; [|split; [|split]]].
  - cbn [net_ok s_ok s_out]. unfold fits, pos. repeat split; vm_compute; first [reflexivity|discriminate].
  - cbn. auto.
  - split; [reflexivity|]. split; [right; reflexivity|reflexivity].
  - cbn. auto.
  - assert (R2 : forall f, rsum 2 f = (f 0%Z + f 1%Z)%R) by (intros f; change 2 with (0 + 1 + 1); rewrite !rsum_S by lia; change (rsum 0 f) with 0%R; cbn [Z.add]; lra).
    assert (Q : forall f : Z -> Z -> Z -> R, rsum3 (D3 2 1 1) f = (f 0%Z 0%Z 0%Z + f 1%Z 0%Z 0%Z)%R) by (intros f; unfold rsum3; cbn [dx dy dz]; rewrite !rsum_1, R2; reflexivity).
    assert (S0 : forall x y z, sem (SConn 2 (fun _ _ _ => 0%R) (fun _ _ _ => 0%R)) (D3 1 1 1) (fun _ _ _ => 1%R) x y z = 0%R).
    { intros x y z. cbn [sem]. change (vol (D3 1 1 1)) with 1. unfold affine. rewrite ?nsum_R, ?rsum_1. cbn. lra. }
    assert (S1 : forall x, soft (D3 2 1 1) (sem (SConn 2 (fun _ _ _ => 0%R) (fun _ _ _ => 0%R)) (D3 1 1 1) (fun _ _ _ => 1%R)) x 0 0 = (1/2)%R).
    { intros x. unfold soft. rewrite Q, !S0, exp_0. lra. }
    cbn [norm2 mean_grads length]. unfold label_grad. cbn [net_grads net_out net_sem net_dx s_out s_wdim s_bdim s_dw s_db map nth fst snd length hd tl]. unfold dotp.
    cbv zeta. change (vol (D3 1 1 1)) with 1. rewrite !Q. unfold rmean. cbn [map fold_right length INR dx dy dz idx_of]. change (dx (idx_of 2 1 0)) with 0. change (dy (idx_of 2 1 0)) with 0. change (dz (idx_of 2 1 0)) with 0.
    unfold out_grad, fupd. cbn [Z.eqb andb]. rewrite !S1. unfold elem_no. change (0 mod 2) with 0. change (0 / 2) with 0. change (0 mod 1) with 0. change (0 / (2 * 1)) with 0. cbn [andb]. field.
Qed.
