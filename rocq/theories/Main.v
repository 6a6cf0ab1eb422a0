(** src/main.cpp 147-179: the network that the program builds, and its training on a pair of MNIST files. *)
From Coq Require Import String ZArith List Bool Lia.
From Verif Require Import Base Dim Matrix View Num Expr Spec Iter MatFacts Batch Kernel Connected Float32 Pooling Activation Softmax
  KernelThms ConnectedThms PoolingThms LayerTotal FloatFacts Chars Model Net NetGrad ModelThms Train TrainSgd Shapes ShapeNet TrainSafe TrainOne Mnist MnistFacts.
Import ListNotations.
Local Open Scope Z_scope.

(** main.cpp 166 *)
Definition main_labels : list text := map lit ["0"; "1"; "2"; "3"; "4"; "5"; "6"; "7"; "8"; "9"]%string.

Section Main.
Context {T : Type} {N : Num T} (E : env T).

(** main.cpp 156-166. The third element of a dim2 (dim.h 11-18 and 25-31) is not initialised: any numbers [u]. *)
Definition main_build (u : nat -> Z) : M (model T text) unit :=
  (add_kernel E (D3 5 5 1) 2 ;;
   add_activation Sigmoid ;;
   add_pooling (D3 2 2 (u 0%nat)) (D3 2 2 (u 1%nat)) PMax ;;
   add_kernel E (D3 3 3 2) 4 ;;
   add_activation Relu ;;
   add_pooling (D3 2 2 (u 2%nat)) (D3 2 2 (u 3%nat)) PMax ;;
   add_connected 10 ;;
   set_labels main_labels true)%st.
Definition main_model (u : nat -> Z) : res (model T text) := run_state (main_build u m_new).

(** main.cpp 169-173; [lr]: the double nearest to 0.03, [threads]: std::max(hardware_concurrency(), 1) *)
Definition main_params (lr : T) (threads : Z) : hyper := Hyper lr 32 threads 2.

(** The layers without the softmax layer, by their shapes *)
Definition main_shapes : list shape :=
  [HConv 5 5 1 2; HAct Sigmoid; HPool PMax 2 2 2 2; HConv 3 3 2 4; HAct Relu; HPool PMax 2 2 2 2; HConn 10].

Lemma main_fits : h_ready main_shapes (D3 28 28 1) 10.
Proof.
  unfold h_ready, main_shapes. cbn [h_net_ok h_net_bkc h_net_bk h_net_out h_out dx dy dz].
  unfold h_ok, h_bk, labels_ok, odim, geom_ok, pgeom, xdim. cbn [g_X g_Y g_C g_qx g_qy g_sx g_sy dx dy dz]. unfold pos, fits, vol, two31. cbn [dx dy dz].
  repeat split; try (vm_compute; congruence); try discriminate; auto.
Qed.

Lemma seq_ret : forall {S A B} (a : M S A) (b : M S B) s s' v, a s = ORet s' v -> bind a (fun _ => b) s = b s'.
Proof. intros S A B a b s s' v H. unfold bind. rewrite H. reflexivity. Qed.
(** A call that appends the layer [l] *)
Definition appends (o : M (model T text) unit) (l : layer T) : Prop :=
  forall m, exists m', o m = ORet m' tt /\ map snd (m_layers m') = map snd (m_layers m) ++ [l].
Lemma kernel_appends : forall size n k, k_make (e_rand E) (e_rmax E) (e_sqrt E) size n 1 = Ok k -> appends (add_kernel E size n) (LKernel k).
Proof. intros size n k H m. unfold add_kernel. rewrite H. eexists. split; [reflexivity|]. cbn [m_layers]. rewrite map_app. reflexivity. Qed.
Lemma connected_appends : forall n c, c_make n = Ok c -> appends (add_connected n) (LConn c).
Proof. intros n c H m. unfold add_connected. rewrite H. eexists. split; [reflexivity|]. cbn [m_layers]. rewrite map_app. reflexivity. Qed.
Lemma activation_appends : forall a, appends (add_activation a) (LAct (a_make a)).
Proof. intros a m. eexists. split; [reflexivity|]. cbn [m_layers]. rewrite map_app. reflexivity. Qed.
Lemma pooling_appends : forall d s t, appends (add_pooling d s t) (LPool (q_make d s t)).
Proof. intros d s t m. eexists. split; [reflexivity|]. cbn [m_layers]. rewrite map_app. reflexivity. Qed.
(** The layers, for the kernels and the fully connected layer that the constructors give *)
Definition main_body (u : nat -> Z) (k1 k2 : kernel T) (c : connected T) : list (layer T) :=
  [LKernel k1; LAct (a_make Sigmoid); LPool (q_make (D3 2 2 (u 0%nat)) (D3 2 2 (u 1%nat)) PMax); LKernel k2; LAct (a_make Relu);
   LPool (q_make (D3 2 2 (u 2%nat)) (D3 2 2 (u 3%nat)) PMax); LConn c].
Lemma main_model_layers : forall u k1 k2 c, k_make (e_rand E) (e_rmax E) (e_sqrt E) (D3 5 5 1) 2 1 = Ok k1 -> k_make (e_rand E) (e_rmax E) (e_sqrt E) (D3 3 3 2) 4 1 = Ok k2 ->
  c_make 10 = Ok c -> exists m, main_model u = Ok m /\ m_labels m = main_labels /\ map snd (m_layers m) = main_body u k1 k2 c ++ [LSoft (sm_make 10)].
Proof.
  intros u k1 k2 c K1 K2 C1. unfold main_model, main_build.
  destruct (kernel_appends _ _ _ K1 m_new) as (m1 & E1 & L1). rewrite (seq_ret _ _ _ _ _ E1). clear E1 K1.
  destruct (activation_appends Sigmoid m1) as (m2 & E2 & L2). rewrite (seq_ret _ _ _ _ _ E2). clear E2.
  destruct (pooling_appends (D3 2 2 (u 0%nat)) (D3 2 2 (u 1%nat)) PMax m2) as (m3 & E3 & L3). rewrite (seq_ret _ _ _ _ _ E3). clear E3.
  destruct (kernel_appends _ _ _ K2 m3) as (m4 & E4 & L4). rewrite (seq_ret _ _ _ _ _ E4). clear E4 K2.
  destruct (activation_appends Relu m4) as (m5 & E5 & L5). rewrite (seq_ret _ _ _ _ _ E5). clear E5.
  destruct (pooling_appends (D3 2 2 (u 2%nat)) (D3 2 2 (u 3%nat)) PMax m5) as (m6 & E6 & L6). rewrite (seq_ret _ _ _ _ _ E6). clear E6.
  destruct (connected_appends _ _ C1 m6) as (m7 & E7 & L7). rewrite (seq_ret _ _ _ _ _ E7). clear E7 C1.
  unfold set_labels. cbn [run_state]. eexists. split; [reflexivity|]. cbn [m_layers m_labels]. split; [reflexivity|].
  rewrite map_app, L7, L6, L5, L4, L3, L2, L1. reflexivity.
Qed.
Lemma main_body_ok : forall u k1 k2 c, (exists f g, kernel_is k1 5 5 1 2 f g) -> k_stride k1 = 1 -> (exists f g, kernel_is k2 3 3 2 4 f g) -> k_stride k2 = 1 -> conn_fresh c 10 ->
  net_fit (main_body u k1 k2 c) main_shapes (D3 28 28 1) /\ List.Forall idx_ok (main_body u k1 k2 c) /\ List.Forall (fun l => index_slot l 0) (main_body u k1 k2 c).
Proof.
  intros u k1 k2 c I1 S1 I2 S2 C2. unfold main_body. split; [|split].
  - cbn [net_fit main_shapes l_fit h_out]. unfold has_geom, pgeom. cbn. repeat split; eauto.
  - repeat constructor.
  - repeat constructor; cbn; exists mat_empty; (split; [reflexivity|]); vm_compute; intuition congruence.
Qed.
Lemma main_model_ok : forall u, exists m body, main_model u = Ok m /\ m_labels m = main_labels /\
  map snd (m_layers m) = body ++ [LSoft (sm_make 10)] /\ net_fit body main_shapes (D3 28 28 1) /\ List.Forall idx_ok body /\ List.Forall (fun l => index_slot l 0) body.
Proof.
  intros u.
  destruct (k_make_ok (e_rand E) (e_rmax E) (e_sqrt E) 5 5 1 2 1) as (k1 & K1 & I1 & S1 & _); [lia..|vm_compute; intuition congruence|vm_compute; intuition congruence|].
  destruct (k_make_ok (e_rand E) (e_rmax E) (e_sqrt E) 3 3 2 4 1) as (k2 & K2 & I2 & S2 & _); [lia..|vm_compute; intuition congruence|vm_compute; intuition congruence|].
  destruct (c_make_fresh (T := T) 10) as (c & C1 & C2 & _); [lia|unfold two31; lia|].
  destruct (main_model_layers u k1 k2 c K1 K2 C1) as (m & EM & ML & LL). exists m, (main_body u k1 k2 c). split; [exact EM|]. split; [exact ML|]. split; [exact LL|].
  apply main_body_ok; eauto.
Qed.

(** Labels of the data set: one digit *)
Lemma digit_label : forall b, 0 <= b < 10 -> find_pos text_eqb main_labels (dec b) = b.
Proof.
  intros b H. assert (D : In b [0; 1; 2; 3; 4; 5; 6; 7; 8; 9]) by (cbn; lia). cbn [In] in D.
  repeat (destruct D as [<-|D]; [vm_compute; reflexivity|]). contradiction.
Qed.

Context (ORD : e_moved E = false) (cast : f32 -> T).

(** main.cpp 147-176 with one thread: for a pair of files with at least 33 images of 28 rows and columns, and digits as
    labels, the training ends without an exception or undefined behaviour; all layers have their parameters then. *)
Theorem main_trains : forall big limit n fi fl u lr, mnist limit n 28 28 fi fl -> 33 <= n <= 2 ^ 24 ->
  (forall i, 1 <= i < n -> f_byte fl (8 + i) < 10) ->
  exists r ps m, gen_open big limit (Readable fi) (Readable fl) = Ok r /\ delivers big r ps /\ gen_size r = Z.of_nat (length ps) /\
    main_model u = Ok m /\
    (forall P o, train E cast text_eqb (m_labels m) P (main_params lr 1) (gen_size r) ps (map snd (m_layers m)) ps o ->
       exists ls, o = ORet ls tt /\ set_up main_labels ls main_shapes (D3 28 28 1) 32 /\ List.Forall ready ls) /\
    exists o, train E cast text_eqb (m_labels m) (fun _ => True) (main_params lr 1) (gen_size r) ps (map snd (m_layers m)) ps o.
Proof.
  intros big limit n fi fl u lr HM Hn HL. assert (P24 : 2 ^ 24 = 16777216) by reflexivity. rewrite P24 in Hn.
  destruct (gen_open_ok big limit n 28 28 fi fl HM ltac:(lia)) as (r & ER & _ & EQ).
  destruct (delivers_rest big limit n 28 28 fi fl HM ltac:(lia)) as (ps & D & LN & PN).
  destruct (main_model_ok u) as (m & body & EM & ML & LL & NF & IX & _).
  assert (SZ : gen_size r = n - 1).
  { rewrite EQ. unfold gen_size, num_images. cbn [r_num]. rewrite (u64_id n) by (unfold two64; lia). apply u64_id. unfold two64. lia. }
  assert (GP : forall p, In p ps -> pt_ok text_eqb main_labels (D3 28 28 1) p).
  { intros p HP. apply In_nth_error in HP. destruct HP as [k HK]. pose proof (PN k p HK) as [G1 G2].
    assert (KL : (k < length ps)%nat) by (apply nth_error_Some; congruence).
    split; [eapply is_has; exact G1|]. unfold label_idx. rewrite G2.
    assert (B : 0 <= f_byte fl (8 + (Z.of_nat k + 1)) < 10) by (split; [apply (mn_bytes _ _ _ _ _ _ HM)|apply HL; lia]).
    rewrite digit_label by exact B. change (Z.of_nat (length main_labels)) with 10. exact B. }
  exists r, ps, m. split; [exact ER|]. split; [rewrite EQ; exact D|]. split; [lia|]. split; [exact EM|]. rewrite ML, LL. split.
  - intros P o H.
    destruct (train_one E ORD cast text_eqb main_labels P (main_params lr 1) (D3 28 28 1) (gen_size r) main_shapes body (sm_make 10) ps o) as (ls & Q & SU & RD);
      auto; cbn [h_bs h_nt main_params]; try lia; [exact main_fits|].
    exists ls. split; [exact Q|]. split; [exact SU|]. destruct RD as [RD|[RD|RD]]; [cbn in RD; lia|lia|exact RD].
  - apply (train_one_runs E ORD cast text_eqb main_labels (main_params lr 1) (D3 28 28 1) (gen_size r) main_shapes body (sm_make 10) ps);
      auto; cbn [h_bs h_nt main_params]; try lia. exact main_fits.
Qed.
End Main.
