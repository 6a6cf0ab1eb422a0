(** Saving and loading with elements of type double, and cases in which it goes wrong. *)
From Coq Require Import String ZArith List Bool Ascii Lia Reals Lra.
From Flocq Require Import Core.Core IEEE754.BinarySingleNaN.
From Verif Require Import Base Dim Matrix View Num Expr Spec Iter Sums MatFacts MatThms ExprThms Batch Kernel Connected Float32 Pooling Activation
  Softmax LayerFacts ConnectedThms LayerTotal Chars Model Net ModelThms Double DoubleFacts Stream StreamFacts Text TextFacts LayerText
  LoadFacts LoadThms LoadSafe.
Import ListNotations.
Local Open Scope Z_scope.

Definition finite_d (x : double) : Prop := is_finite x = true.
Lemma codec_double : codec put_double get_double finite_d reread.
Proof. intros x H sp c t S C. apply get_double_put; assumption. Qed.

Definition close (x y : double) : Prop :=
  (Rabs (B2R y - B2R x) <= 5 / 10000000 + Rabs (shown x) * bpow radix2 (-53))%R /\ (Rabs (B2R y - B2R x) <= 1 / 1000000)%R.

(** A matrix written and read *)
Theorem mat_round_trip : forall (m : mat double) d f, is_mat m d f -> fits d -> pos d ->
  (forall x y z, inb d x y z -> is_finite (f x y z) = true) ->
  exists txt, mat_text put_double m = Ok txt /\ forall m0 t, exists m' g,
    mat_load get_double (m0, open_text (txt ++ t)) = ORet (m', open_text t) true /\ is_mat m' d g /\
    (forall x y z, inb d x y z -> close (f x y z) (g x y z) /\ is_finite (g x y z) = true) /\
    mat_text put_double m' = Ok txt.
Proof.
  intros m d f IM F PD FIN. assert (PR : printable finite_d m).
  { pose proof (is_mat_dim _ _ _ IM) as D. exists f. rewrite D. auto. }
  destruct (mat_text_total put_double get_double finite_d reread codec_double m PR) as [txt TX]. exists txt. split; [exact TX|].
  intros m0 t. exists (mat_back reread m), (fun x y z => reread (f x y z)).
  split; [apply (mat_load_back put_double get_double finite_d reread codec_double); assumption|].
  split; [apply mat_back_is; assumption|]. split.
  - intros x y z I. split; [apply reread_err; auto|]. destruct (reread_val (f x y z) (FIN x y z I)) as [A _]. exact A.
  - rewrite (mat_text_again put_double finite_d reread); [exact TX| |exact PR]. intros x H. apply put_reread. exact H.
Qed.

(** The decimal number in the text is within half a millionth, what is read may be further away. *)
Definition off : double := sf_double (SpecFloat.S754_finite false 5312662293228351 (-70)).
Lemma off_value : B2R off = (IZR 5312662293228351 * / IZR (2 ^ 70))%R.
Proof.
  assert (X : B2SF off = SpecFloat.S754_finite false 5312662293228351 (-70)) by (apply sf_double_valid; reflexivity).
  rewrite <- SF2R_B2SF, X. reflexivity.
Qed.
Lemma off_back : (B2R (reread off) = IZR 5902958103587057 * / IZR (2 ^ 70))%R.
Proof.
  assert (X : B2SF (reread off) = SpecFloat.S754_finite false 5902958103587057 (-70)) by (vm_compute; reflexivity).
  rewrite <- SF2R_B2SF, X. reflexivity.
Qed.
Lemma off_far : (Rabs (B2R (reread off) - B2R off) > 5 / 10000000)%R.
Proof. rewrite off_value, off_back. change (2 ^ 70) with 1180591620717411303424. rewrite Rabs_pos_eq; lra. Qed.

(** A connected layer that was read back has no input shape: its gradient with respect to the input cannot be formed. *)
Section Conn.
Context {T : Type} {N : Num T}.
Lemma c_dx_no_shape : forall (c : connected T) (g : mat T) n K W B G, conn_is c n K W B -> is_mat g (D3 n 1 1) G -> c_in c = D3 0 0 0 ->
  c_dx false c g = Throw MatrixTransform.
Proof.
  intros c g n K W B G (R & HW & HB & Hn & HK & FW & FB) HG CI. unfold c_dx.
  pose proof (fits_dims _ FW) as (A1 & A2 & A3). cbn [dx dy dz] in *.
  pose proof (transpose_ok (l_val (c_w c)) tt n K 1 W) as HT.
  destruct (mul_ok false false Tmp Ref (mk_transpose Ref (l_val (c_w c)) tt) (l_val g) tt K n 1 1 (fun x y z => W y x z) G) as (p & Ep & Ip); auto.
  { apply HT. apply is_mat_lz; assumption. }
  { apply is_mat_lz; assumption. }
  rewrite Ep. cbn [rbind].
  assert (FK : fits (D3 K 1 1)) by (unfold fits; cbn [dx dy dz]; lia).
  destruct (mat_of_lz_ok n0 (fun t : T => t) p tt (D3 K 1 1) (fun x y z => nsum n (fun k => nmul (W k x z) (G k y z))) FK) as (o & Eo & Io).
  { left. cbn [dx dy dz]. lia. } { exact Ip. }
  rewrite Eo. cbn [rbind]. unfold reshape. rewrite CI, (is_mat_dim _ _ _ Io), (int_prod_fits _ FK).
  change (int_prod (D3 0 0 0)) with (Ok 0). replace (vol (D3 K 1 1)) with K by (unfold vol; cbn [dx dy dz]; lia).
  destruct (0 =? K) eqn:Q; [lia|]. reflexivity.
Qed.

(** Training of a restored connected layer: nothing wrong in the first layer, an exception in any other *)
Theorem conn_restored : forall (c : connected T) (x g : mat T) n K W B d I G i, conn_is c n K W B -> c_in c = D3 0 0 0 ->
  is_mat x d I -> fits d -> vol d = K -> is_mat g (D3 n 1 1) G ->
  0 <= i < Z.of_nat (length (p_wg (c_par c))) -> 0 <= i < Z.of_nat (length (p_bg (c_par c))) ->
  (exists c' r, c_backward false x g i true c = ORet c' r) /\ (exists c', c_backward false x g i false c = OThrow c' MatrixTransform).
Proof.
  intros c x g n K W B d I G i CI IN HX FX VK HG S1 S2. destruct CI as (R & HW & HB & Hn & HK & FW & FB).
  destruct (c_dw_ok x g n d I G HX FX HG) as (dw & EW & _); try assumption; try lia. { rewrite VK. exact FW. }
  rewrite (c_backward_ok false c x g dw i true EW S1 S2), (c_backward_ok false c x g dw i false EW S1 S2). split; [do 2 eexists; reflexivity|].
  rewrite (c_dx_no_shape c g n K W B G); [|unfold conn_is; auto 10|assumption|assumption]. cbn. eexists. reflexivity.
Qed.
End Conn.

(** What is kept of a layer, with elements of type double *)
Definition mat_close (m m' : mat double) : Prop := exists f g, is_mat m (mdim m) f /\ is_mat m' (mdim m) g /\
  forall x y z, inb (mdim m) x y z -> close (f x y z) (g x y z).
Definition layer_like (l l' : layer double) : Prop :=
  match l, l' with
  | LKernel k, LKernel k' => mat_close (k_w k) (k_w k') /\ mat_close (k_b k) (k_b k') /\ k_dim k' = k_dim k /\ k_n k' = k_n k /\ k_stride k' = 1
  | LConn c, LConn c' => mat_close (c_w c) (c_w c') /\ mat_close (c_b c) (c_b c') /\ c_ready c' = true /\ c_in c' = D3 0 0 0
  | LPool q, LPool q' => dx (q_dim q') = dx (q_dim q) /\ dy (q_dim q') = dy (q_dim q) /\ dx (q_stride q') = dx (q_dim q) /\
      dy (q_stride q') = dy (q_dim q) /\ q_type q' = q_type q
  | _, _ => False
  end.
Lemma printable_close : forall m, printable finite_d m -> mat_close m (mat_back reread m).
Proof.
  intros m (f & IM & F & PD & FIN). exists f, (fun x y z => reread (f x y z)). split; [exact IM|]. split; [apply mat_back_is; exact IM|].
  intros x y z I. apply reread_err. apply FIN. exact I.
Qed.
Lemma restored_like : forall l l', l_printable finite_d l -> restored reread l l' -> layer_like l l'.
Proof.
  intros [k|c|q|a|s] [k'|c'|q'|a'|s'] PR H; cbn in *; try contradiction.
  - destruct PR as (W & B & _). destruct H as (-> & -> & H1 & H2 & H3 & _). split; [apply printable_close; exact W|]. split; [apply printable_close; exact B|auto].
  - destruct PR as (W & B). destruct H as (-> & -> & H1 & H2 & _). split; [apply printable_close; exact W|]. split; [apply printable_close; exact B|auto].
  - destruct H as (-> & -> & -> & _). auto.
Qed.

(** What a layer [l0] becomes that reads the text of [l] *)
Definition takes (l l0 l' : layer double) : Prop :=
  match l, l0, l' with
  | LKernel k, LKernel k0, LKernel k' => mat_close (k_w k) (k_w k') /\ mat_close (k_b k) (k_b k') /\ k_dim k' = k_dim k /\ k_n k' = k_n k /\
      k_stride k' = k_stride k0
  | LConn c, LConn c0, LConn c' => mat_close (c_w c) (c_w c') /\ mat_close (c_b c) (c_b c') /\ c_ready c' = true /\ c_in c' = c_in c0
  | LPool q, LPool q0, LPool q' => dx (q_dim q') = dx (q_dim q) /\ dy (q_dim q') = dy (q_dim q) /\ dx (q_stride q') = dx (q_dim q) /\
      dy (q_stride q') = dy (q_dim q) /\ q_type q' = q_type q
  | LAct a, LAct a0, LAct a' => a_kind a' = a_kind a /\ a_fun a' = a_fun a0 /\ a_der a' = a_der a0
  | LSoft _, LSoft s0, LSoft s' => s' = s0
  | _, _, _ => False
  end.
Theorem layer_round_trip : forall l : layer double, l_printable finite_d l -> exists txt, l_text put_double l = Ok txt /\
  forall l0 t, same_class l l0 -> exists l', l_load get_double (l0, open_text (txt ++ t)) = ORet (l', open_text t) true /\ takes l l0 l'.
Proof.
  intros l PR. destruct (l_text_back put_double get_double finite_d reread codec_double l PR) as (txt & TX & LB). exists txt. split; [exact TX|].
  intros l0 t SC. exists (l_back reread l l0). split; [apply LB; exact SC|].
  destruct l, l0; cbn in *; try contradiction; auto.
  - destruct PR as (W & B & _). split; [apply printable_close; exact W|]. split; [apply printable_close; exact B|auto].
  - destruct PR as (W & B). split; [apply printable_close; exact W|]. split; [apply printable_close; exact B|auto].
Qed.

Theorem save_load_double : forall (E : env double) L (io : label_io (L := L)) Q (m m0 : model double L), eats (lb_get io) -> label_codec io Q ->
  storable finite_d Q m -> exists txt, save_model put_double io m = Ok (true, txt) /\
  exists m', load_model get_double E io (Some txt) m0 = ORet m' true /\
    (exists ls', map snd (m_layers m') = map snd (m_layers m0) ++ ls' /\
       reloaded layer_like (Z.of_nat (length (m_labels m))) (map snd (m_layers m)) ls') /\
    (counted m0 -> counted m') /\
    ((exists s, In (LSoft s) (map snd (m_layers m))) \/ m_labels m0 = [] -> m_labels m' = m_labels m).
Proof.
  intros E L io Q m m0 IO LC ST. destruct (save_load put_double get_double get_double_eats finite_d reread codec_double E io IO Q LC m m0 ST)
    as (txt & S & m' & LD & (ls' & A & B) & C). exists txt. split; [exact S|]. exists m'. split; [exact LD|]. split; [|exact C].
  exists ls'. split; [exact A|]. eapply reloaded_weaken; [|apply (storable_printable finite_d Q m ST)|exact B]. exact restored_like.
Qed.

(** ** A concrete model *)
Definition cents (z : Z) : double := double_of_dec (z <? 0) (Z.abs z) (-2).
Definition ex_kernel : kernel double :=
  Kern (Par (Mat (D3 2 2 1) (map cents [125; -250; 7; 0])) (Mat (D3 1 1 1) [cents 50]) [] []) (D3 2 2 1) 1 1.
Definition ex_conn : connected double :=
  Conn (Par (Mat (D3 2 1 1) (map cents [1; 2])) (Mat (D3 2 1 1) (map cents [3; 4])) [] []) (D3 1 1 1) true.
Definition ex_pool : pooling := q_make (D3 2 2 0) (D3 2 2 0) PAvg.
Definition ex_E : env double :=
  Env double (fun _ => 0) 100 (fun x => x) (fun x => Babs (Bplus mode_NE x (cents 100))) (fun x => x) (fun x => x) n0 n0 n0 (fun x => x) false.
Definition blank_io : label_io (L := ascii) := char_io " "%char.
Definition ex_model : model double ascii :=
  Model [(lit "Kernel_1", LKernel ex_kernel); (lit "Pooling_1", LPool ex_pool); (lit "FullyConnected_1", LConn ex_conn);
         (lit "SoftmaxOutput", LSoft (sm_make 2))] ["a"%char; "b"%char] 1 1 1 0.
Definition saved {L} (io : label_io (L := L)) (m : model double L) : text :=
  match save_model put_double io m with Ok (_, t) => t | _ => [] end.

