(** Properties C67-C71 and C96: networks whose sizes fit never raise an exception and never behave undefined, for every type of
    numbers (also IEEE doubles with infinities and NaN), for passes, training and the main program. *)
From Coq Require Import String ZArith List Bool Lia.
From Verif Require Import Base Dim Matrix View Num Expr Spec Iter MatFacts Batch Kernel Connected Float32 Pooling Activation Softmax
  KernelThms ConnectedThms PoolingThms LayerTotal FloatFacts Chars Model Net NetGrad ModelThms Train TrainLocal TrainRest TrainNet TrainSgd Shapes ShapeNet TrainSafe TrainOne
  Double Mnist MnistFacts Main ShortResult Props_Model Props_Train.
Import ListNotations.
Local Open Scope Z_scope.

(** [net_fit body ss d]: the layers have the kinds and sizes [ss], for inputs of dimensions [d]; fully connected layers may be
    before their first use. [h_net_ok]: all sizes fit together, and fit an int; [h_ready]: also, convolutions after the first
    layer have square outputs, and the output has as many elements as there are labels. [index_slot l i]: a pooling layer has
    an index slot [i]; [slot_ok]: the layer has a gradient (or index) slot [i]. [e_moved E = false]: the compiler evaluates
    the arguments of C28 in the harmless order. *)

(** ** C67 *)
(** The inputs of all layers and the output are recorded; the predicted label is one of the labels. *)
Theorem C67_forward : forall T (N : Num T) (E : env T) body sm ss d n i U (cast : U -> T) (input : mat U),
  net_fit body ss d -> sm_count sm = n -> List.Forall (fun l => index_slot l i) body -> h_net_ok ss d -> labels_ok (h_net_out ss d) n -> has input d ->
  exists body' x0 rs p r, forward_pass E cast n input i (body ++ [LSoft sm]) = ORet (body' ++ [LSoft sm]) r /\
    r_inputs r = x0 :: rs ++ [p] /\ has x0 d /\ recs_has rs ss d /\ has p (h_net_out ss d) /\ 0 <= r_label r < n /\
    net_fit body' ss d /\ List.Forall ready body' /\ (List.Forall (fun l => slot_ok l i) body -> net_marked body' ss d i) /\ keeps body body' ss d /\
    (forall j, List.Forall (fun l => index_slot l j) body -> List.Forall (fun l => index_slot l j) body').
Proof. exact @forward_total. Qed.
Print Assumptions C67_forward.
(** The network of main.cpp, freshly built, on any image of 28 rows and columns *)
Theorem C67_main : forall T (N : Num T) (E : env T) u (cast : f32 -> T) (input : mat f32), has input (D3 28 28 1) ->
  exists m ls r, main_model E u = Ok m /\ forward_pass E cast 10 input 0 (map snd (m_layers m)) = ORet ls r /\ 0 <= r_label r < 10.
Proof.
  intros T N E u cast input HX. destruct (main_model_ok E u) as (m & body & EM & _ & LL & NF & _ & IX).
  destruct main_fits as (F1 & _ & F3).
  destruct (forward_total E body (sm_make 10) main_shapes (D3 28 28 1) 10 0 _ cast input NF eq_refl IX F1 F3 HX) as (b' & x0 & rs & p & r & EF & _ & _ & _ & _ & HL & _).
  exists m, (b' ++ [LSoft (sm_make 10)]), r. rewrite LL. auto.
Qed.
Print Assumptions C67_main.
Example C67_ex : match forward_pass ex_env (fun v => v) 2 ex_x 0 ex_net with ORet _ r => r_label r = 1 /\ map mdim (r_inputs r) = [D3 3 3 1; D3 2 2 1; D3 2 2 1; D3 2 1 1; D3 2 1 1] | _ => False end.
Proof. vm_compute. auto. Qed.
(** An input of another size, and a wrong number of labels *)
Example C67_ex_size : (match forward_pass ex_env (fun v => v) 2 (Mat (D3 3 2 1) [1;2;3;0;1;0]) 0 ex_net with OThrow _ e => e = LayerExn | _ => False end) /\
  (match forward_pass ex_env (fun v => v) 3 ex_x 0 ex_net with OThrow _ e => e = AssertFail | _ => False end).
Proof. vm_compute. auto. Qed.

(** ** C68 *)
(** The gradients of slot [i] have the sizes of the parameters then. *)
Theorem C68_backward : forall T (N : Num T) (E : env T), e_moved E = false -> forall body sm ss d n i k U (cast : U -> T) (input : mat U),
  net_fit body ss d -> sm_count sm = n -> List.Forall (fun l => slot_ok l i) body -> h_ready ss d n -> has input d -> 0 <= k < n ->
  exists l1 r body' r', forward_pass E cast n input i (body ++ [LSoft sm]) = ORet l1 r /\
    backward_pass E r k i l1 = ORet (body' ++ [LSoft (Soft true k n)]) r' /\
    r_label r' = r_label r /\ r_true r' = k /\ net_fit body' ss d /\ List.Forall ready body' /\ net_filled body' ss d i /\ keeps body body' ss d.
Proof. exact @passes_total. Qed.
Print Assumptions C68_backward.
Example C68_ex : match forward_pass ex_env (fun v => v) 2 ex_x 0 ex_net with
  | ORet l1 r => match backward_pass ex_env r 1 0 l1 with ORet l2 r' => r_true r' = 1 /\ map (fun l => map (@length _) (fst (ex_grads l))) l2 = [[4%nat]; []; [8%nat]; []] | _ => False end
  | _ => False end.
Proof. vm_compute. auto. Qed.

(** ** C69 *)
(** Every execution that ends, ends with a normal return; and there is one (an execution without end is excluded by
    C51_bounded). All numbers of threads, interleavings, batch sizes and epochs. *)
Theorem C69_training_partial : forall T (N : Num T) (E : env T), e_moved E = false -> forall U L (cast : U -> T) (eqL : L -> L -> bool) labels P h d size ss body sm src o,
  let nl := Z.of_nat (length labels) in
  1 <= h_nt h < 2 ^ 24 -> 1 <= h_bs h < 2 ^ 24 -> size = Z.of_nat (length src) -> size < 2 ^ 24 ->
  h_ready ss d nl -> net_fit body ss d -> List.Forall ready body -> List.Forall idx_ok body -> sm_count sm = nl ->
  (forall p, In p src -> has (pt_data p) d /\ 0 <= label_idx eqL labels p < nl) -> size = 0 \/ h_bs h <= size ->
  train E cast eqL labels P h size src (body ++ [LSoft sm]) src o ->
  exists ls', o = ORet ls' tt /\ set_up labels ls' ss d (h_bs h) /\ List.Forall ready ls'.
Proof. intros T N E ORD U L cast eqL labels P h d size ss body sm src o nl. exact (train_safe E ORD cast eqL labels P h d size ss body sm src o). Qed.
Print Assumptions C69_training_partial.
Theorem C69_exists_partial : forall T (N : Num T) (E : env T), e_moved E = false -> forall U L (cast : U -> T) (eqL : L -> L -> bool) labels h d size ss body sm src,
  let nl := Z.of_nat (length labels) in
  1 <= h_nt h < 2 ^ 24 -> 1 <= h_bs h < 2 ^ 24 -> size = Z.of_nat (length src) -> size < 2 ^ 24 ->
  h_ready ss d nl -> net_fit body ss d -> List.Forall ready body -> List.Forall idx_ok body -> sm_count sm = nl ->
  (forall p, In p src -> has (pt_data p) d /\ 0 <= label_idx eqL labels p < nl) -> size = 0 \/ h_bs h <= size ->
  exists o, train E cast eqL labels (fun _ => True) h size src (body ++ [LSoft sm]) src o.
Proof. intros T N E ORD U L cast eqL labels h d size ss body sm src nl. exact (train_runs E ORD cast eqL labels h d size ss body sm src). Qed.
Print Assumptions C69_exists_partial.
(** The hypotheses hold for the two-slot network of Props_Train.v. *)
Definition ex_shapes : list shape := [HConv 2 2 1 1; HAct Relu; HConn 2].
Lemma ex_fit : net_fit (firstn 3 ex_two) ex_shapes (D3 3 3 1) /\ h_ready ex_shapes (D3 3 3 1) 2 /\ List.Forall ready (firstn 3 ex_two) /\ List.Forall idx_ok (firstn 3 ex_two) /\
  ex_two = firstn 3 ex_two ++ [LSoft (sm_make 2)].
Proof.
  split; [|split; [|split; [repeat constructor|split; [repeat constructor|reflexivity]]]].
  - cbn [ex_two firstn net_fit ex_shapes l_fit h_out]. split; [split; [|reflexivity]|split; [split; reflexivity|split; [|exact I]]].
    + destruct (has_is (Mat (D3 2 2 1) [1;0;0;-1]) (D3 2 2 1)) as (W & HW); [split; [reflexivity|vm_compute; intuition congruence]|vm_compute; intuition congruence..|].
      destruct (has_is (Mat (D3 1 1 1) [2]) (D3 1 1 1)) as (B & HB); [split; [reflexivity|vm_compute; intuition congruence]|vm_compute; intuition congruence..|].
      exists W, B. unfold kernel_is. cbn [k_dim k_n k_w k_b k_par p_w p_b]. repeat (match goal with |- _ /\ _ => split end); try assumption; try (unfold fits; vm_compute; intuition congruence).
    + left. split; [|reflexivity].
      destruct (has_is (Mat (D3 2 4 1) [1;0;1;2;0;1;1;1]) (D3 2 4 1)) as (W & HW); [split; [reflexivity|vm_compute; intuition congruence]|vm_compute; intuition congruence..|].
      destruct (has_is (Mat (D3 2 1 1) [1;0]) (D3 2 1 1)) as (B & HB); [split; [reflexivity|vm_compute; intuition congruence]|vm_compute; intuition congruence..|].
      exists W, B. unfold conn_is. cbn [c_ready c_w c_b c_par p_w p_b]. repeat (match goal with |- _ /\ _ => split end); try assumption; try (unfold fits; vm_compute; intuition congruence).
  - unfold h_ready, ex_shapes. cbn [h_net_ok h_net_bkc h_net_bk h_net_out h_out dx dy dz]. unfold h_ok, h_bk, labels_ok, pos, fits, vol, two31. cbn [dx dy dz].
    repeat split; try (vm_compute; congruence); try discriminate; auto.
Qed.
Example C69_ex : exists o, train ex_env (fun v : Z => v) Z.eqb ex_labels (fun _ => True) (Hyper 1 2 2 3) 2 [Point ex_x 4; Point ex_x 9] ex_two [Point ex_x 4; Point ex_x 9] o.
Proof.
  destruct ex_fit as (F1 & F2 & F3 & F4 & F5). rewrite F5.
  apply (C69_exists_partial Z NumZ ex_env eq_refl Z Z (fun v => v) Z.eqb ex_labels (Hyper 1 2 2 3) (D3 3 3 1) 2 ex_shapes (firstn 3 ex_two) (sm_make 2)); auto; cbn [h_nt h_bs]; try lia.
  intros p [<-|[<-|[]]]; (split; [split; [reflexivity|vm_compute; intuition congruence]|vm_compute; intuition congruence]).
Qed.
(** Without the demand for one full batch: an exception, see C55_first_batch_refuted. *)

(** ** C70 *)
Theorem C70_one_thread_partial : forall T (N : Num T) (E : env T), e_moved E = false -> forall U L (cast : U -> T) (eqL : L -> L -> bool) labels P h d size ss body sm src o,
  let nl := Z.of_nat (length labels) in
  h_nt h = 1 -> 1 <= h_bs h < 2 ^ 24 -> size = Z.of_nat (length src) -> size < 2 ^ 24 ->
  h_ready ss d nl -> net_fit body ss d -> List.Forall idx_ok body -> sm_count sm = nl ->
  (forall p, In p src -> has (pt_data p) d /\ 0 <= label_idx eqL labels p < nl) -> size = 0 \/ h_bs h <= size ->
  train E cast eqL labels P h size src (body ++ [LSoft sm]) src o ->
  exists ls', o = ORet ls' tt /\ set_up labels ls' ss d (h_bs h) /\ (h_epochs h <= 0 \/ size = 0 \/ List.Forall ready ls').
Proof. intros T N E ORD U L cast eqL labels P h d size ss body sm src o nl. exact (train_one E ORD cast eqL labels P h d size ss body sm src o). Qed.
Print Assumptions C70_one_thread_partial.
Theorem C70_exists_partial : forall T (N : Num T) (E : env T), e_moved E = false -> forall U L (cast : U -> T) (eqL : L -> L -> bool) labels h d size ss body sm src,
  let nl := Z.of_nat (length labels) in
  h_nt h = 1 -> 1 <= h_bs h < 2 ^ 24 -> size = Z.of_nat (length src) -> size < 2 ^ 24 ->
  h_ready ss d nl -> net_fit body ss d -> List.Forall idx_ok body -> sm_count sm = nl ->
  (forall p, In p src -> has (pt_data p) d /\ 0 <= label_idx eqL labels p < nl) -> size = 0 \/ h_bs h <= size ->
  exists o, train E cast eqL labels (fun _ => True) h size src (body ++ [LSoft sm]) src o.
Proof. intros T N E ORD U L cast eqL labels h d size ss body sm src nl. exact (train_one_runs E ORD cast eqL labels h d size ss body sm src). Qed.
Print Assumptions C70_exists_partial.
(** A new fully connected layer *)
Example C70_ex : exists c o, c_make 2 = Ok c /\
  train ex_env (fun v : Z => v) Z.eqb ex_labels (fun _ => True) (Hyper 1 2 1 3) 2 [Point ex_x 4; Point ex_x 9] [LConn c; LSoft (sm_make 2)] [Point ex_x 4; Point ex_x 9] o.
Proof.
  destruct (c_make_fresh (T := Z) 2) as (c & C1 & C2 & _); [lia|unfold two31; lia|].
  destruct (C70_exists_partial Z NumZ ex_env eq_refl Z Z (fun v => v) Z.eqb ex_labels (Hyper 1 2 1 3) (D3 3 3 1) 2 [HConn 2] [LConn c] (sm_make 2) [Point ex_x 4; Point ex_x 9]) as [o H]; auto; cbn [h_nt h_bs]; try lia.
  - unfold h_ready. cbn [h_net_ok h_net_bkc h_net_bk h_net_out h_out dx dy dz]. unfold h_ok, h_bk, labels_ok, pos, fits, vol, two31. cbn [dx dy dz].
    repeat split; try (vm_compute; congruence); try discriminate; auto.
  - cbn. auto.
  - repeat constructor.
  - intros p [<-|[<-|[]]]; (split; [split; [reflexivity|vm_compute; intuition congruence]|vm_compute; intuition congruence]).
  - exists c, o. auto.
Qed.

(** ** C71 *)
(** main.cpp 147-176 with one thread. [mnist limit n 28 28 fi fl]: the two files are complete and hold [n] images of 28 rows and columns. *)
Theorem C71_main_partial : forall T (N : Num T) (E : env T), e_moved E = false -> forall (cast : f32 -> T) big limit n fi fl u lr,
  mnist limit n 28 28 fi fl -> 33 <= n <= 2 ^ 24 -> (forall i, 1 <= i < n -> f_byte fl (8 + i) < 10) ->
  exists r ps m, gen_open big limit (Readable fi) (Readable fl) = Ok r /\ delivers big r ps /\ gen_size r = Z.of_nat (length ps) /\
    main_model E u = Ok m /\
    (forall P o, train E cast text_eqb (m_labels m) P (main_params lr 1) (gen_size r) ps (map snd (m_layers m)) ps o ->
       exists ls, o = ORet ls tt /\ set_up main_labels ls main_shapes (D3 28 28 1) 32 /\ List.Forall ready ls) /\
    exists o, train E cast text_eqb (m_labels m) (fun _ => True) (main_params lr 1) (gen_size r) ps (map snd (m_layers m)) ps o.
Proof. exact @main_trains. Qed.
Print Assumptions C71_main_partial.
Example C71_ex : main_labels = map dec [0; 1; 2; 3; 4; 5; 6; 7; 8; 9] /\ h_net_out main_shapes (D3 28 28 1) = D3 10 1 1 /\
  map (fun k => h_net_out (firstn k main_shapes) (D3 28 28 1)) [1; 3; 4; 6]%nat = [D3 24 24 2; D3 12 12 2; D3 10 10 4; D3 5 5 4].
Proof. split; [vm_compute; reflexivity|]. split; vm_compute; reflexivity. Qed.

(** ** C96 *)
(** Any result with at least one matrix: only the label of the output layer is set. *)
Theorem C96_few_partial : forall T (N : Num T) (E : env T) r rs p d idx slot ls sm, r_inputs r = rs ++ [p] -> has p d -> pos d -> fits d ->
  0 <= idx < vol d -> idx < sm_count sm -> (length (r_inputs r) <= length (ls ++ [LSoft (T := T) sm]))%nat ->
  backward_pass E r idx slot (ls ++ [LSoft sm]) = OThrow (ls ++ [LSoft (Soft true idx (sm_count sm))]) OutOfRange.
Proof.
  intros T N E r rs p d idx slot ls sm EI HP P F H1 H2 LE. apply (few_records E r rs p d); auto. rewrite EI, !app_length in LE. cbn [length] in LE. lia.
Qed.
Print Assumptions C96_few_partial.
(** The result of a forward pass, after more layers were added *)
Theorem C96_smaller_partial : forall T (N : Num T) (E : env T) body sm ss d n i U (cast : U -> T) (input : mat U) ls' r,
  net_fit body ss d -> sm_count sm = n -> List.Forall (fun l => index_slot l i) body -> h_net_ok ss d -> labels_ok (h_net_out ss d) n -> has input d ->
  forward_pass E cast n input i (body ++ [LSoft sm]) = ORet ls' r ->
  forall idx slot ls sm2, 0 <= idx < n -> sm_count sm2 = n -> (length body < length ls)%nat ->
  backward_pass E r idx slot (ls ++ [LSoft sm2]) = OThrow (ls ++ [LSoft (Soft true idx n)]) OutOfRange.
Proof. exact @smaller_result. Qed.
Print Assumptions C96_smaller_partial.
(** A result without matrices, as it is before any pass (ModelDescription.h 17-24) *)
Theorem C96_empty_refuted : forall T (N : Num T) (E : env T) r idx slot ls, r_inputs r = [] -> backward_pass E r idx slot ls = OUB.
Proof. intros T N E r idx slot ls H. unfold backward_pass, bind, assign_loss. rewrite H. reflexivity. Qed.
Print Assumptions C96_empty_refuted.
Example C96_ex : match forward_pass ex_env (fun v => v) 2 ex_x 0 ex_net with
  | ORet ls r => backward_pass ex_env r 1 0 (LAct (a_make Relu) :: ls) = OThrow (LAct (a_make Relu) :: firstn (length ls - 1) ls ++ [LSoft (Soft true 1 2)]) OutOfRange
  | _ => False
  end.
Proof. vm_compute. reflexivity. Qed.
