(** Properties C72-C75: validation on a pair of test files, for all numbers of threads and all interleavings. *)
From Coq Require Import String ZArith List Bool Lia.
From Flocq Require Import IEEE754.BinarySingleNaN.
From Verif Require Import Base Dim Matrix View Num Expr Spec Iter MatFacts Batch Kernel Connected Float32 Pooling Activation Softmax
  KernelThms ConnectedThms PoolingThms LayerTotal FloatFacts Chars Model Net NetGrad ModelThms Train TrainLocal TrainRest Shapes ShapeNet
  Mnist MnistFacts Main Validate ValidateFacts ValidateStep ValidateRun ValidateThms ValidateRace Props_Model Props_Data.
Import ListNotations.
Local Open Scope Z_scope.

(** [usable_net labels ls ss d]: a softmax layer for the labels after layers of the kinds and sizes [ss] for inputs of
    dimensions [d], all sizes fit, fully connected layers have been used before, pooling layers have a slot 0.
    [mnist limit n h w fi fl]: a complete pair of files, see C64. [alone … rs]: [rs i] is the result of forwardPropagation for
    image [i] when nothing else runs. [validation … o]: [o] is a possible outcome of lines 57-83 of main.cpp; a normal outcome
    has the count, the number of images, and the reader. A step of a thread is an access to a layer, or to one element of
    the shared slot of a pooling layer; all interleavings of steps are possible outcomes, effects of data races beyond
    that are not (see C75). *)

(** ** C72 *)
Theorem C72_no_failure_partial : forall T (N : Num T) (E : env T) cast labels ls ss h w big limit n fi fl nt,
  usable_net labels ls ss (D3 h w 1) -> mnist limit n h w fi fl -> 1 <= nt -> n + nt <= 2 ^ 31 ->
  (exists o, validation E cast labels big limit (Readable fi) (Readable fl) nt ls o) /\
  (forall o, validation E cast labels big limit (Readable fi) (Readable fl) nt ls o -> exists ls' r, o = ORet ls' r /\ usable_net labels ls' ss (D3 h w 1)).
Proof.
  intros T N E cast labels ls ss h w big limit n fi fl nt U P NT NN. split; [exact (validate_runs E cast labels ls ss h w big limit n fi fl nt U P NT NN)|].
  intros o V. destruct (alone_exists E cast labels ls ss h w limit n fi fl U P) as (rs & A & _).
  destruct (validate_ends E cast labels ls ss h w big limit n fi fl nt U P NT NN rs o A V) as (ls' & rd & -> & _ & _ & U' & _). eauto.
Qed.
Print Assumptions C72_no_failure_partial.

(** Three images of 4 rows and 2 columns with the labels 0, 1 and 0; a layer for the maximum of 2 x 2 windows, and softmax.
    The pixels become 1 and 0. *)
Definition vx_images : file := file_of
  ([0;0;8;3] ++ [0;0;0;3] ++ [0;0;0;4] ++ [0;0;0;2] ++ [0;255;0;0;0;0;0;0] ++ [0;0;0;0;0;0;200;0] ++ [0;0;1;0;2;255;0;0]).
Definition vx_labels : file := file_of ([0;0;8;1] ++ [0;0;0;3] ++ [0;1;0]).
Definition vx_cast (v : f32) : Z := match v with B754_finite false _ _ _ => 1 | _ => 0 end.
Definition vx_names : list text := [dec 0; dec 1].
Definition vx_net : list (layer Z) := [LPool (Pool (D3 2 2 0) (D3 2 2 0) PMax [mat_empty]); LSoft (sm_make 2)].
Lemma vx_usable : usable_net vx_names vx_net [HPool PMax 2 2 2 2] (D3 4 2 1).
Proof.
  split.
  - exists [LPool (Pool (D3 2 2 0) (D3 2 2 0) PMax [mat_empty])], (sm_make 2). split; [reflexivity|]. split; [reflexivity|].
    split; [|split; [repeat constructor|]].
    + cbn [net_fit l_fit h_out]. split; [split; [|reflexivity]|exact I]. repeat split.
    + constructor; [|constructor]. exists mat_empty. split; [reflexivity|]. vm_compute. intuition congruence.
  - cbn [h_net_ok h_out]. split; [|split; vm_compute; intuition congruence]. unfold h_ok. vm_compute. intuition congruence.
  - vm_compute. intuition congruence.
Qed.
Lemma vx_bytes : forall l, List.Forall (fun b => 0 <= b < 256) l -> forall k, 0 <= f_byte (file_of l) k < 256.
Proof.
  intros l H k. cbn [file_of f_byte]. destruct (Nat.lt_ge_cases (Z.to_nat k) (length l)) as [D|D].
  - rewrite Forall_forall in H. apply H. apply nth_In. exact D.
  - rewrite nth_overflow by exact D. lia.
Qed.
Lemma vx_mnist : mnist (2 ^ 62) 3 4 2 vx_images vx_labels.
Proof.
  split; try reflexivity; try (vm_compute; intuition congruence).
  intros k. split; apply vx_bytes; repeat (constructor; [lia|]); constructor.
Qed.
(** Two threads, alternating, and the threads one after the other. The third image is not recognised. *)
Definition vx_run (sched : list nat) : vout :=
  match reader_open false (Readable vx_images) (Readable vx_labels) with
  | Ok rd => vrun ex_env vx_cast vx_names false (2 ^ 62) 2 3 sched (vstart 2 vx_net rd)
  | _ => VUndef
  end.
Definition vx_alternate (n : nat) : list nat := concat (repeat [0%nat; 1%nat] n).
Example C72_ex : (match vx_run (repeat 0%nat 27 ++ repeat 1%nat 14) with VNext g => v_pcs g = [QDone; QDone] /\ v_count g = 2 | _ => False end).
Proof. vm_compute. auto. Qed.
Example C72_ex_outcome : exists o, validation ex_env vx_cast vx_names true (2 ^ 62) (Readable vx_images) (Readable vx_labels) 2 vx_net o.
Proof. apply (C72_no_failure_partial Z NumZ ex_env vx_cast vx_names vx_net [HPool PMax 2 2 2 2] 4 2 true (2 ^ 62) 3 vx_images vx_labels 2 vx_usable vx_mnist); lia. Qed.
(** Without the test files the program stops; a network that has not got as many outputs as there are labels stops it too. *)
Example C72_ex_stop : validation ex_env vx_cast vx_names true (2 ^ 62) Missing (Readable vx_labels) 2 vx_net (OThrow vx_net AssertFail).
Proof. apply val_open. reflexivity. Qed.
Example C72_ex_labels : match reader_open false (Readable vx_images) (Readable vx_labels) with
  | Ok rd => vrun ex_env vx_cast [dec 0; dec 1; dec 2] false (2 ^ 62) 2 3 (repeat 0%nat 12) (vstart 2 [LPool (Pool (D3 2 2 0) (D3 2 2 0) PMax [mat_empty]); LSoft (sm_make 3)] rd) = VStop LayerExn
  | _ => False end.
Proof. vm_compute. reflexivity. Qed.

(** ** C73 *)
(** In every state that can be reached, all threads have finished or one of them can make a step; and an execution of [k]
    steps has [k] at most the number of threads times the bound for all images. *)
Theorem C73_progress : forall T (N : Num T) (E : env T) cast labels ls ss h w big limit n fi fl nt,
  usable_net labels ls ss (D3 h w 1) -> mnist limit n h w fi fl -> 1 <= nt -> n + nt <= 2 ^ 31 ->
  forall rd, reader_open big (Readable fi) (Readable fl) = Ok rd ->
  (forall g, vexec E cast labels big limit nt n (vstart nt ls rd) g -> vfinished g \/ exists t g', vgstep E cast labels big limit nt n t g = VNext g') /\
  (forall sched g, vrun E cast labels big limit nt n sched (vstart nt ls rd) = VNext g -> Z.of_nat (length sched) <= nt * (per_image ss h w * n + 1)).
Proof. exact @validate_progress. Qed.
Print Assumptions C73_progress.
(** A thread that waits for the mutex: the other one holds it, and goes on. *)
Example C73_ex : match vx_run [0%nat; 0%nat; 1%nat] with
  | VNext g => vgstep ex_env vx_cast vx_names false (2 ^ 62) 2 3 1 g = VBlocked /\ v_lock g = Some 0%nat /\
               match vgstep ex_env vx_cast vx_names false (2 ^ 62) 2 3 0 g with VNext _ => True | _ => False end
  | _ => False end /\ per_image [HPool PMax 2 2 2 2] 4 2 = 19.
Proof. vm_compute. auto. Qed.

(** ** C74 *)
(** [tally n P]: how many of 0..n-1 satisfy P. [hit labels fl rs i]: the text of the label with the number r_label (rs i) is the
    decimal text of the label byte of image i. *)
Theorem C74_count_partial : forall T (N : Num T) (E : env T) cast labels ls ss h w big limit n fi fl nt,
  usable_net labels ls ss (D3 h w 1) -> mnist limit n h w fi fl -> 1 <= nt -> n + nt <= 2 ^ 31 ->
  forall rs o, alone E cast labels h w fi fl n ls rs -> validation E cast labels big limit (Readable fi) (Readable fl) nt ls o ->
  exists ls' rd, o = ORet ls' (tally n (hit labels fl rs), n, rd) /\ map params_of ls' = map params_of ls /\ alone E cast labels h w fi fl n ls' rs.
Proof.
  intros T N E cast labels ls ss h w big limit n fi fl nt U P NT NN rs o A V.
  destruct (validate_ends E cast labels ls ss h w big limit n fi fl nt U P NT NN rs o A V) as (ls' & rd & EO & EP & _ & _ & A'). eauto.
Qed.
Print Assumptions C74_count_partial.
(** There are such results, and they are determined. *)
Theorem C74_alone : forall T (N : Num T) (E : env T) cast labels ls ss h w limit n fi fl,
  usable_net labels ls ss (D3 h w 1) -> mnist limit n h w fi fl ->
  (exists rs, alone E cast labels h w fi fl n ls rs /\ forall i, 0 <= i < n -> 0 <= r_label (rs i) < Z.of_nat (length labels)) /\
  (forall rs rs', alone E cast labels h w fi fl n ls rs -> alone E cast labels h w fi fl n ls rs' -> forall i, 0 <= i < n -> rs i = rs' i).
Proof.
  intros T N E cast labels ls ss h w limit n fi fl U P. split; [exact (alone_exists E cast labels ls ss h w limit n fi fl U P)|].
  intros rs rs' A A'. exact (alone_unique E cast labels ls h w limit n fi fl rs rs' P A A').
Qed.
Print Assumptions C74_alone.
(** Both threads are in the loop of the pooling layer at the same time, and write to the same slot; the count is the same. *)
Example C74_ex : match vx_run (repeat 0%nat 6 ++ repeat 1%nat 6 ++ vx_alternate 8 ++ repeat 0%nat 13) with VNext g => v_pcs g = [QDone; QDone] /\ v_count g = 2 | _ => False end.
Proof. vm_compute. auto. Qed.
Example C74_ex_tally : tally 10 (fun i => Z.odd i || (i =? 4)) = 6.
Proof. reflexivity. Qed.

(** ** C75 *)
(** Refuted for every usable network with a pooling layer for maxima or minima, two threads and two images: there is an
    execution to a state where two threads write to the same slot in their next steps, without a lock. *)
Theorem C75_refuted : forall T (N : Num T) (E : env T) cast labels ls ss h w big limit n fi fl nt,
  usable_net labels ls ss (D3 h w 1) -> mnist limit n h w fi fl -> 2 <= nt -> n + nt <= 2 ^ 31 -> 2 <= n ->
  forall j q, nth_error ls j = Some (LPool q) -> q_type q <> PAvg ->
  exists rd g, reader_open big (Readable fi) (Readable fl) = Ok rd /\ vexec E cast labels big limit nt n (vstart nt ls rd) g /\
    writes_slot j g 0 /\ writes_slot j g 1.
Proof.
  intros T N E cast labels ls ss h w big limit n fi fl nt U P NT NN N2 j q Q TY.
  destruct (alone_exists E cast labels ls ss h w limit n fi fl U P) as (rs & A & _).
  destruct (open_usable big limit n h w fi fl P) as (rd & ER & UR & _).
  destruct (race E cast labels ls ss h w big limit n fi fl nt U P NT NN N2 j q Q TY rs A rd UR) as (g & X & W). exists rd, g. auto.
Qed.
Print Assumptions C75_refuted.
(** One thread at a time uses the reader; layers other than pooling layers are only read; of a pooling layer, only the
    slots change. The counter is atomic in the code. *)
Theorem C75_partial : forall T (N : Num T) (E : env T) cast labels ls ss h w big limit n fi fl nt,
  usable_net labels ls ss (D3 h w 1) -> mnist limit n h w fi fl -> 2 <= nt -> n + nt <= 2 ^ 31 ->
  forall rd g, reader_open big (Readable fi) (Readable fl) = Ok rd -> vexec E cast labels big limit nt n (vstart nt ls rd) g ->
  (forall t t' i i', nth_error (v_pcs g) t = Some (QGet i) -> nth_error (v_pcs g) t' = Some (QGet i') -> t = t') /\
  (forall k l, nth_error ls k = Some l -> (forall q, l <> LPool q) -> nth_error (v_layers g) k = Some l) /\
  (forall k q, nth_error ls k = Some (LPool q) -> exists q', nth_error (v_layers g) k = Some (LPool q') /\ q_dim q' = q_dim q /\ q_stride q' = q_stride q /\ q_type q' = q_type q).
Proof.
  intros T N E cast labels ls ss h w big limit n fi fl nt U P NT NN rd g ER X.
  destruct (alone_exists E cast labels ls ss h w limit n fi fl U P) as (rs & A & _).
  destruct (open_usable big limit n h w fi fl P) as (rd' & ER' & UR & _). rewrite ER in ER'. injection ER' as <-.
  exact (shared_use E cast labels ls ss h w big limit n fi fl nt U P NT NN rs A rd g UR X).
Qed.
Print Assumptions C75_partial.
Definition writes_slotb (j : nat) (g : vshared (T := Z)) (t : nat) : bool :=
  match nth_error (v_pcs g) t, nth_error (v_layers g) j with
  | Some (QWork _ _ (VPool j' _ _ o _ idx)), Some (LPool q) => Nat.eqb j' j && negb (dim_eqb idx (it_end (mdim o))) && match q_type q with PAvg => false | _ => true end
  | _, _ => false
  end.
Lemma writes_slotb_ok : forall j g t, writes_slotb j g t = true -> writes_slot j g t.
Proof.
  intros j g t H. unfold writes_slotb in H. destruct (nth_error (v_pcs g) t) as [[i|i|i|i m|i m [|j' x recs|j' x recs o k idx|r]|i m r|]|] eqn:Q; try discriminate.
  destruct (nth_error (v_layers g) j) as [[a|a|q|a|a]|] eqn:QL; try discriminate. apply andb_true_iff in H. destruct H as [H H3]. apply andb_true_iff in H. destruct H as [H1 H2].
  apply Nat.eqb_eq in H1. subst j'. exists i, m, x, recs, o, k, idx, q. split; [exact Q|]. split; [|split; [exact QL|intros C; rewrite C in H3; discriminate]].
  intros ->. rewrite dim_eqb_refl in H2. discriminate.
Qed.
Example C75_ex : match vx_run (repeat 0%nat 6 ++ repeat 1%nat 6) with
  | VNext g => writes_slot 0 g 0 /\ writes_slot 0 g 1 /\ v_lock g = None
  | _ => False end.
Proof.
  assert (H : match vx_run (repeat 0%nat 6 ++ repeat 1%nat 6) with VNext g => writes_slotb 0 g 0 = true /\ writes_slotb 0 g 1 = true /\ v_lock g = None | _ => False end) by (vm_compute; auto).
  destruct (vx_run (repeat 0%nat 6 ++ repeat 1%nat 6)) as [g| | |]; try contradiction. destruct H as (H1 & H2 & H3). split; [|split; [|exact H3]]; apply writes_slotb_ok; assumption.
Qed.
