(** Property C87 (and C71 for several threads): data races in the training. *)
From Coq Require Import ZArith List Bool Lia.
From Verif Require Import Base Dim Matrix View Num Expr Spec Iter MatFacts Batch Kernel Connected Float32 Pooling Activation Softmax
  KernelThms ConnectedThms PoolingThms LayerTotal FloatFacts Chars Model Net NetGrad ModelThms Mnist MnistFacts Train TrainLocal TrainRest TrainInv TrainNet TrainSgd Shapes ShapeNet TrainSafe
  Main TrainRace Props_Model Props_Train Props_Safe.
Import ListNotations.
Local Open Scope Z_scope.

(** [in_first_batch h src ls wc g]: [g] is a state of the first batch of train with the layers [ls], with some
    interleaving. [writes_label … g t k]: the next step of thread [t] writes [k] to the label of the output layer, and
    nobody holds the mutex. [first_use j g t]: the next step of thread [t] is propagateForward of layer [j], a fully
    connected layer that is not initialised. *)

(** ** C87 *)
(** For every network that fits its data, every batch size and number of threads from 2: the two writes are not ordered. *)
Theorem C87_label_refuted : forall T (N : Num T) (E : env T) U L (cast : U -> T) (eqL : L -> L -> bool) labels (h : hyper (T := T)) ss d body sm src p0 p1 s,
  let nl := Z.of_nat (length labels) in
  2 <= h_nt h < 2 ^ 24 -> 2 <= h_bs h < 2 ^ 24 -> src = p0 :: p1 :: s ->
  h_net_ok ss d -> labels_ok (h_net_out ss d) nl -> net_fit body ss d -> List.Forall idx_ok body -> sm_count sm = nl ->
  has (pt_data p0) d /\ 0 <= label_idx eqL labels p0 < nl -> has (pt_data p1) d /\ 0 <= label_idx eqL labels p1 < nl ->
  exists wc g, in_first_batch E cast eqL labels h src (body ++ [LSoft sm]) wc g /\
    writes_label E cast eqL labels wc (h_bs h) g 0 (label_idx eqL labels p0) /\ writes_label E cast eqL labels wc (h_bs h) g 1 (label_idx eqL labels p1).
Proof. intros. eapply train_race; eassumption. Qed.
Print Assumptions C87_label_refuted.
(** The same for the first use of a fully connected layer *)
Theorem C87_first_use_refuted : forall T (N : Num T) (E : env T) U L (cast : U -> T) (eqL : L -> L -> bool) labels (h : hyper (T := T)) ss d body sm src p0 p1 s j c,
  let nl := Z.of_nat (length labels) in
  2 <= h_nt h < 2 ^ 24 -> 2 <= h_bs h < 2 ^ 24 -> src = p0 :: p1 :: s ->
  h_net_ok ss d -> labels_ok (h_net_out ss d) nl -> net_fit body ss d -> List.Forall idx_ok body -> sm_count sm = nl ->
  has (pt_data p0) d /\ 0 <= label_idx eqL labels p0 < nl -> has (pt_data p1) d /\ 0 <= label_idx eqL labels p1 < nl ->
  nth_error body j = Some (LConn c) -> c_ready c = false ->
  exists wc g, in_first_batch E cast eqL labels h src (body ++ [LSoft sm]) wc g /\ first_use j g 0 /\ first_use j g 1.
Proof. intros. eapply train_race; eassumption. Qed.
Print Assumptions C87_first_use_refuted.
(** What is used by one thread at a time: the data source, and the slots of gradients, pooling indices and results. The
    parameters do not change while the threads run, if all fully connected layers have been used before (C51_writes_partial
    is about the single writes). *)
Definition at_source {T U L} (c : pc (T := T) (U := U) (L := L)) : Prop := match c with PHas _ | PNext _ => True | _ => False end.
Definition at_slot {T U L} (c : pc (T := T) (U := U) (L := L)) (b : Z) : Prop := match c with PWork b' _ _ | PCount b' => b' = b | _ => False end.
Theorem C87_shared_partial : forall T (N : Num T) (E : env T) U L (cast : U -> T) (eqL : L -> L -> bool) labels wc bs nt (e : estate (T := T) (U := U) (L := L)) pcs P g,
  0 <= wc -> 0 <= bs -> bs < two31 -> spawn nt 0 wc = Ok pcs -> Z.of_nat (length (s_results e)) = bs ->
  exec E cast eqL labels P wc bs (start e pcs) g ->
  (forall t t' c c', nth_error (g_pcs g) t = Some c -> nth_error (g_pcs g) t' = Some c' -> at_source c -> at_source c' -> t = t') /\
  (forall t t' c c' b, nth_error (g_pcs g) t = Some c -> nth_error (g_pcs g) t' = Some c' -> at_slot c b -> at_slot c' b -> t = t') /\
  (List.Forall ready (s_layers e) -> map params_of (g_layers g) = map params_of (s_layers e)).
Proof.
  intros T N E U L cast eqL labels wc bs nt e pcs P g HW HB HB2 SP RL X. destruct (shared_use E cast eqL labels wc bs nt e pcs P g HW HB HB2 SP RL X) as (A & B & C).
  split; [|split; [|exact C]].
  - intros t t' c c' Q Q' H H'. apply (A t t' c c' Q Q'); [destruct c; try contradiction; reflexivity|destruct c'; try contradiction; reflexivity].
  - intros t t' c c' b Q Q' H H'. apply (B t t' c c' Q Q'); destruct c; try contradiction; try reflexivity; destruct c'; try contradiction; try reflexivity; cbn in *; congruence.
Qed.
Print Assumptions C87_shared_partial.
(** The two-slot network of Props_Train.v; the two labels are different. *)
Example C87_ex : exists wc g, in_first_batch ex_env (fun v : Z => v) Z.eqb ex_labels (Hyper 1 2 2 3) [Point ex_x 4; Point ex_x 9] ex_two wc g /\
  writes_label ex_env (fun v : Z => v) Z.eqb ex_labels wc 2 g 0 0 /\ writes_label ex_env (fun v : Z => v) Z.eqb ex_labels wc 2 g 1 1.
Proof.
  destruct ex_fit as (F1 & (F2 & _ & F3) & _ & F4 & F5). rewrite F5.
  apply (C87_label_refuted Z NumZ ex_env Z Z (fun v => v) Z.eqb ex_labels (Hyper 1 2 2 3) ex_shapes (D3 3 3 1) (firstn 3 ex_two) (sm_make 2) _ (Point ex_x 4) (Point ex_x 9) []); auto; cbn [h_nt h_bs]; try lia;
    (split; [split; [reflexivity|vm_compute; intuition congruence]|vm_compute; intuition congruence]).
Qed.

(** ** C71 with several threads *)
(** main.cpp 147-176 with two or more threads: both kinds of races. The labels are those of the second and third image. *)
Theorem C71_threads_refuted : forall T (N : Num T) (E : env T) (cast : f32 -> T) big limit n fi fl u lr threads,
  mnist limit n 28 28 fi fl -> 33 <= n <= 2 ^ 24 -> (forall i, 1 <= i < n -> f_byte fl (8 + i) < 10) -> 2 <= threads < 2 ^ 24 ->
  exists r ps m, gen_open big limit (Readable fi) (Readable fl) = Ok r /\ delivers big r ps /\ main_model E u = Ok m /\
    (exists wc g, in_first_batch E cast text_eqb (m_labels m) (main_params lr threads) ps (map snd (m_layers m)) wc g /\
       writes_label E cast text_eqb (m_labels m) wc 32 g 0 (f_byte fl 9) /\ writes_label E cast text_eqb (m_labels m) wc 32 g 1 (f_byte fl 10)) /\
    (exists wc g, in_first_batch E cast text_eqb (m_labels m) (main_params lr threads) ps (map snd (m_layers m)) wc g /\ first_use 6 g 0 /\ first_use 6 g 1).
Proof. exact @main_race. Qed.
Print Assumptions C71_threads_refuted.
