(** Properties C57 to C62: text of matrices, layers and models. *)
From Coq Require Import String ZArith List Bool Ascii Lia Reals Lra.
From Flocq Require Import Core.Core IEEE754.BinarySingleNaN.
From Verif Require Import Base Dim Matrix View Num Expr Spec Iter Sums MatFacts MatThms ExprThms Batch Kernel Connected Float32 Pooling Activation
  Softmax LayerFacts ConnectedThms LayerTotal Chars Model Net ModelThms Double DoubleFacts Stream StreamFacts Text TextFacts LayerText
  LoadFacts LoadThms LoadSafe LoadEx LoadOld LoadCrlf EmptyText.
Import ListNotations.
Local Open Scope Z_scope.

(** ** C57 *)
(** [close x y]: y differs from x by at most 5e-7 plus the rounding of the decimal number that was written to a double
    (relative 2^-53), and by at most 1e-6. *)
Theorem C57_round_trip_partial : forall (m : mat double) d f, is_mat m d f -> fits d -> pos d ->
  (forall x y z, inb d x y z -> is_finite (f x y z) = true) ->
  exists txt, mat_text put_double m = Ok txt /\ forall m0 t, exists m' g,
    mat_load get_double (m0, open_text (txt ++ t)) = ORet (m', open_text t) true /\ is_mat m' d g /\
    (forall x y z, inb d x y z -> close (f x y z) (g x y z) /\ is_finite (g x y z) = true) /\
    mat_text put_double m' = Ok txt.
Proof. exact mat_round_trip. Qed.
Print Assumptions C57_round_trip_partial.

Definition ex_m : mat double := Mat (D3 2 2 1) (map cents [125; -250; 7; 0]).
Example C57_ex :
  mat_text put_double ex_m = Ok (lit "2 2 1" ++ nl ++ lit "        1.250000         0.070000 " ++ nl ++ lit "       -2.500000         0.000000 " ++ nl ++ nl)
  /\ match mat_load get_double (mat_empty, open_text (match mat_text put_double ex_m with Ok t => t | _ => [] end ++ lit "biases")) with
     | ORet (m', s) b => b = true /\ s = open_text (lit "biases") /\ mdim m' = D3 2 2 1 /\ map B2SF (mvals m') = map B2SF (mvals ex_m)
     | _ => False
     end.
Proof. vm_compute. repeat split. Qed.

(** The decimal number that is written is within half a millionth ... *)
Theorem C57_written_value : forall x : double, is_finite x = true -> (Rabs (shown x - B2R x) <= 5 / 10000000)%R.
Proof. exact shown_err. Qed.
Print Assumptions C57_written_value.
(** ... but it is rounded when it is read, and then half a millionth is exceeded for some values. *)
Theorem C57_half_millionth_refuted : exists (x : double) txt m', is_finite x = true /\ mat_text put_double (Mat (D3 1 1 1) [x]) = Ok txt /\
  mat_load get_double (mat_empty, open_text txt) = ORet (m', open_text []) true /\
  exists y, mvals m' = [y] /\ (Rabs (B2R y - B2R x) > 5 / 10000000)%R.
Proof.
  exists off. assert (FO : is_finite off = true) by reflexivity.
  assert (IM : is_mat (Mat (D3 1 1 1) [off]) (D3 1 1 1) (fun _ _ _ => off)).
  { split; [reflexivity|]. split; [reflexivity|]. intros x y z (A & B & C). cbn [dx dy dz] in *.
    assert (x = 0) by lia. assert (y = 0) by lia. assert (z = 0) by lia. subst. reflexivity. }
  assert (PR : printable finite_d (Mat (D3 1 1 1) [off])).
  { exists (fun _ _ _ => off). split; [exact IM|]. split; [unfold fits, two31; cbn; lia|]. split; [unfold pos; cbn; lia|]. intros; exact FO. }
  destruct (mat_text_total put_double get_double finite_d reread codec_double _ PR) as [txt TX].
  exists txt, (Mat (D3 1 1 1) [reread off]). split; [exact FO|]. split; [exact TX|].
  split; [rewrite <- (app_nil_r txt); apply (mat_load_back put_double get_double finite_d reread codec_double _ _ [] _ PR TX)|].
  exists (reread off). split; [reflexivity|exact off_far].
Qed.
Print Assumptions C57_half_millionth_refuted.
(** Every matrix without elements is read back, but reading stops one line too early. *)
Theorem C57_empty_refuted : forall T (N : Num T) (put : T -> text) (get : istream -> option T * istream) (m : mat T), fits (mdim m) ->
  (dx (mdim m) = 0 \/ dy (mdim m) = 0 \/ dz (mdim m) = 0) -> mvals m = [] ->
  exists txt, mat_text put m = Ok txt /\ forall m0 t, mat_load get (m0, open_text (txt ++ t)) = ORet (m, open_text (nl ++ t)) true.
Proof.
  intros T N put get m F E V. eexists. split; [apply empty_text; exact E|]. intros m0 t. rewrite <- app_assoc. rewrite (empty_load get m0 (mdim m) t F E).
  destruct m as [d l]. cbn in *. subst l. reflexivity.
Qed.
Print Assumptions C57_empty_refuted.
Example C57_empty_ex : mat_text put_double (Mat (D3 2 0 1) []) = Ok (lit "2 0 1" ++ nl ++ nl ++ nl ++ nl) /\
  mat_load get_double (mat_empty, open_text (lit "2 0 1" ++ nl ++ nl ++ nl ++ nl ++ lit "biases")) = ORet (Mat (D3 2 0 1) [], open_text (nl ++ lit "biases")) true.
Proof. vm_compute. split; reflexivity. Qed.

(** ** C58 *)
Theorem C58_int : forall label v t, - two31 <= v < two31 ->
  expect_int label (open_text (place label (dec v) ++ t)) = ORet (open_text t) v.
Proof. exact expect_int_ok. Qed.
Print Assumptions C58_int.
Theorem C58_unsigned : forall label v t, 0 <= v < two32 ->
  expect_unsigned label (open_text (place label (dec v) ++ t)) = ORet (open_text t) v.
Proof. exact expect_unsigned_ok. Qed.
Print Assumptions C58_unsigned.
Theorem C58_line : forall label t, expect_void label (open_text (label ++ nl ++ t)) = ORet (open_text t) tt.
Proof. exact expect_void_ok. Qed.
Print Assumptions C58_line.
(** Streams that are not good, or whose text does not start with the label (labels that end in a blank are the exception) *)
Theorem C58_other_text_partial : forall A (get : istream -> option A * istream) label s, ~ ends_blank label -> label <> [] ->
  ~ (good s = true /\ exists t, rest s = label ++ t) -> exists s', expect_val get label s = OThrow s' RuntimeError.
Proof.
  intros A get label s B NE H. destruct (expect_label_bad label s B NE H) as [s' E]. exists s'. unfold expect_val, bind. rewrite E. reflexivity.
Qed.
Print Assumptions C58_other_text_partial.
(** A label that ends in a blank also accepts the text without the blank at the end of the file. *)
Theorem C58_blank_refuted : exists label t s v, (forall u, t <> label ++ u) /\ expect_void label (open_text t) = ORet s v.
Proof. exists (lit "x "), (lit "x"), (IS [] true true), tt. split; [intros u H; discriminate H|reflexivity]. Qed.
Print Assumptions C58_blank_refuted.
Example C58_ex : place (lit "x") (dec (-5)) = lit "x -5" ++ nl
  /\ expect_int (lit "x") (open_text (lit "x -5" ++ nl ++ lit "y 2")) = ORet (open_text (lit "y 2")) (-5)
  /\ expect_int (lit "y") (open_text (lit "x -5" ++ nl)) = OThrow (open_text (lit " -5" ++ nl)) RuntimeError.
Proof. vm_compute. auto. Qed.

(** ** C59 *)
(** [l_printable]: matrices have elements, all finite; sizes are representable. [takes l l0 l']: sizes, number of filters,
    pooling kind and activation name are those of [l], matrices those of [l] up to the printed precision; the stride of a
    convolution, the input shape of a connected layer and the activation function are those of [l0], the stride of a
    pooling layer is its size. *)
Theorem C59_round_trip_partial : forall l : layer double, l_printable finite_d l -> exists txt, l_text put_double l = Ok txt /\
  forall l0 t, same_class l l0 -> exists l', l_load get_double (l0, open_text (txt ++ t)) = ORet (l', open_text t) true /\ takes l l0 l'.
Proof. exact layer_round_trip. Qed.
Print Assumptions C59_round_trip_partial.

Theorem C59_pool_stride_refuted : exists q q0 q' : pooling, q_load (q0, open_text (q_text q)) = ORet (q', open_text []) true /\ q_stride q' <> q_stride q.
Proof.
  exists (q_make (D3 3 3 1) (D3 2 2 1) PMax), (q_make (D3 3 3 1) (D3 2 2 1) PMax), (q_make (D3 3 3 1) (D3 3 3 1) PMax).
  split; [reflexivity|discriminate].
Qed.
Print Assumptions C59_pool_stride_refuted.
Theorem C59_stride_refuted : exists (k k0 : kernel double) txt, k_text put_double k = Ok txt /\
  match k_load get_double (k0, open_text txt) with ORet (k', _) b => b = true /\ k_stride k' <> k_stride k | _ => False end.
Proof.
  exists (Kern (k_par ex_kernel) (k_dim ex_kernel) 2 1), ex_kernel, (match k_text put_double ex_kernel with Ok t => t | _ => [] end).
  split; [vm_compute; reflexivity|]. vm_compute. split; [reflexivity|discriminate].
Qed.
Print Assumptions C59_stride_refuted.
(** The name of the activation changes, the function does not. *)
Theorem C59_activation_refuted : exists a0 a' txt, a_text (a_make Sigmoid) = Ok txt /\ a_load (a0, open_text txt) = ORet (a', open_text []) true /\
  a_kind a' = Sigmoid /\ a_fun a' = Relu.
Proof. exists (a_make Relu), (Act Sigmoid Relu Relu), (lit "Activation" ++ nl ++ lit "SIGMOID" ++ nl). vm_compute. auto. Qed.
Print Assumptions C59_activation_refuted.
(** A connected layer before its first use cannot be read back, whatever follows: the label after the weights is not found. *)
Theorem C59_unused_refuted : forall T (N : Num T) (put : T -> text) (get : istream -> option T * istream) n (c c0 : connected T) txt t, c_make n = Ok c -> c_text put c = Ok txt ->
  exists c' s, c_load get (c0, open_text (txt ++ t)) = OThrow (c', s) RuntimeError.
Proof.
  intros T N put get n c c0 txt t Q TX. assert (W : c_w c = Mat (D3 0 0 0) []).
  { unfold c_make in Q. destruct (mat_fill (D3 (s32 n) 1 1) n0) as [b| |]; try discriminate. injection Q as <-. reflexivity. }
  destruct (empty_connected put get c c0 txt t) as (s & P); try (rewrite W); [unfold fits, two31; cbn; lia|left; reflexivity|reflexivity|exact TX|]. eauto.
Qed.
Print Assumptions C59_unused_refuted.
Example C59_unused_ex : exists (c : connected double) txt, c_make 2 = Ok c /\ c_text put_double c = Ok txt /\
  match c_load get_double (c, open_text txt) with OThrow _ e => e = RuntimeError | _ => False end.
Proof.
  destruct (c_make 2) as [c| |] eqn:Q; try discriminate. exists c, (match c_text put_double c with Ok t => t | _ => [] end).
  injection Q as <-. split; [reflexivity|]. split; vm_compute; reflexivity.
Qed.
(** The same for every connected layer whose weights have no elements; the weights are stored before the exception. *)
Theorem C59_empty_refuted : forall T (N : Num T) (put : T -> text) (get : istream -> option T * istream) (c c0 : connected T) txt t, fits (mdim (c_w c)) ->
  (dx (mdim (c_w c)) = 0 \/ dy (mdim (c_w c)) = 0 \/ dz (mdim (c_w c)) = 0) -> mvals (c_w c) = [] -> c_text put c = Ok txt ->
  exists s, c_load get (c0, open_text (txt ++ t)) = OThrow (Conn (Par (c_w c) (p_b (c_par c0)) (p_wg (c_par c0)) (p_bg (c_par c0))) (c_in c0) (c_ready c0), s) RuntimeError.
Proof. intros T N put get c c0 txt t. exact (empty_connected put get c c0 txt t). Qed.
Print Assumptions C59_empty_refuted.
(** The same for kernels *)
Theorem C59_empty_kernel_refuted : forall T (N : Num T) (put : T -> text) (get : istream -> option T * istream) (k k0 : kernel T) txt t,
  - two31 <= dx (k_dim k) < two31 -> - two31 <= dy (k_dim k) < two31 -> - two31 <= dz (k_dim k) < two31 -> 0 <= k_n k < two32 -> fits (mdim (k_w k)) ->
  (dx (mdim (k_w k)) = 0 \/ dy (mdim (k_w k)) = 0 \/ dz (mdim (k_w k)) = 0) -> mvals (k_w k) = [] -> k_text put k = Ok txt ->
  exists s, k_load get (k0, open_text (txt ++ t)) = OThrow (Kern (Par (k_w k) (p_b (k_par k0)) (p_wg (k_par k0)) (p_bg (k_par k0))) (k_dim k) (k_stride k0) (k_n k), s) RuntimeError.
Proof. intros T N put get k k0 txt t. exact (empty_kernel put get k k0 txt t). Qed.
Print Assumptions C59_empty_kernel_refuted.
Example C59_ex : k_text put_double ex_kernel = Ok (lit "Kernel" ++ nl ++ lit "x 2" ++ nl ++ lit "y 2" ++ nl ++ lit "z 1" ++ nl ++ lit "n 1" ++ nl
    ++ lit "weights" ++ nl ++ lit "2 2 1" ++ nl ++ lit "        1.250000         0.070000 " ++ nl ++ lit "       -2.500000         0.000000 " ++ nl ++ nl
    ++ lit "biases" ++ nl ++ lit "1 1 1" ++ nl ++ lit "        0.500000 " ++ nl ++ nl)
  /\ q_load (q_make (D3 0 0 0) (D3 0 0 0) PMax, open_text (q_text (q_make (D3 3 2 0) (D3 3 2 0) PMin) ++ lit "next")) =
     ORet (q_make (D3 3 2 0) (D3 3 2 0) PMin, open_text (lit "next")) true
  /\ a_load (a_make Tangent, open_text (lit "Activation" ++ nl ++ lit "TANGENT" ++ nl)) = ORet (a_make Tangent, open_text []) true.
Proof. vm_compute. auto. Qed.

(** ** C60 *)
(** [storable]: the matrices have elements, all finite; a Softmax layer is the last layer, and the labels can be read back;
    without Softmax layer there are no labels. [reloaded layer_like]: the same layers in the same order, except that
    activations are missing; [layer_like] as [takes] for a newly added layer. [counted]: names and counters as given by
    the functions that add layers. [m0] is the model on which loadModel is called. *)
Theorem C60_save_load_partial : forall (E : env double) L (io : label_io (L := L)) Q (m m0 : model double L), eats (lb_get io) -> label_codec io Q ->
  storable finite_d Q m -> exists txt, save_model put_double io m = Ok (true, txt) /\
  exists m', load_model get_double E io (Some txt) m0 = ORet m' true /\
    (exists ls', map snd (m_layers m') = map snd (m_layers m0) ++ ls' /\
       reloaded layer_like (Z.of_nat (length (m_labels m))) (map snd (m_layers m)) ls') /\
    (counted m0 -> counted m') /\
    ((exists s, In (LSoft s) (map snd (m_layers m))) \/ m_labels m0 = [] -> m_labels m' = m_labels m).
Proof. exact save_load_double. Qed.
Print Assumptions C60_save_load_partial.
(** The label types: characters that are no white space, int, words *)
Theorem C60_label_types : (forall c, label_codec (char_io c) (fun a => is_space a = false) /\ eats (lb_get (char_io c))) /\
  (label_codec int_io (fun v => - two31 <= v < two31) /\ eats (lb_get int_io)) /\
  (label_codec word_io (fun w => w <> [] /\ forallb (fun c => negb (is_space c)) w = true) /\ eats (lb_get word_io)).
Proof.
  exact (conj (fun c => conj (codec_char c) get_char_eats) (conj (conj codec_int get_int_eats) (conj codec_word get_word_eats))).
Qed.
Print Assumptions C60_label_types.

Example C60_ex : match load_model get_double ex_E blank_io (Some (saved blank_io ex_model)) m_new with
  | ORet m' b => b = true /\ map fst (m_layers m') = map fst (m_layers ex_model) /\ m_labels m' = ["a"%char; "b"%char]
      /\ save_model put_double blank_io m' = save_model put_double blank_io ex_model
  | _ => False
  end.
Proof. vm_compute. repeat split. Qed.
Example C60_ex_storable : storable finite_d (fun a => is_space a = false) ex_model.
Proof.
  assert (PM : forall d l, fits d -> pos d -> Z.of_nat (length l) = vol d -> forallb is_finite (map cents l) = true -> printable finite_d (Mat d (map cents l))).
  { intros d l F PD LN FIN. exists (fun x y z => nth (Z.to_nat (lin d x y z)) (map cents l) (cents 0)). cbn [mdim].
    split; [|split; [exact F|split; [exact PD|]]].
    - split; [reflexivity|]. split; [cbn [mvals]; rewrite map_length; exact LN|]. intros x y z I. pose proof (lin_range d x y z I) as R.
      unfold cell. cbn [mvals]. fold (lin d x y z). destruct (lin d x y z <? 0) eqn:Q; [lia|]. apply nth_error_nth'. rewrite map_length. lia.
    - intros x y z I. pose proof (lin_range d x y z I) as R. rewrite forallb_forall in FIN. apply FIN, nth_In. rewrite map_length. lia. }
  assert (F : forall a b c, 1 <= a <= 2 -> 1 <= b <= 2 -> 1 <= c <= 2 -> fits (D3 a b c) /\ pos (D3 a b c))
    by (intros; unfold fits, pos, two31; cbn [dx dy dz]; rewrite !Z.max_r by lia; assert (a * b <= 4) by nia; assert (a * b * c <= 8) by nia; lia).
  apply (storable_soft finite_d _ ex_model [LKernel ex_kernel; LPool ex_pool; LConn ex_conn] (sm_make 2)).
  - reflexivity.
  - assert (M1 : printable finite_d (k_w ex_kernel)) by (apply (PM (D3 2 2 1) [125; -250; 7; 0]); [| |reflexivity|reflexivity]; apply F; lia).
    assert (M2 : printable finite_d (k_b ex_kernel)) by (apply (PM (D3 1 1 1) [50]); [| |reflexivity|reflexivity]; apply F; lia).
    assert (M3 : printable finite_d (c_w ex_conn)) by (apply (PM (D3 2 1 1) [1; 2]); [| |reflexivity|reflexivity]; apply F; lia).
    assert (M4 : printable finite_d (c_b ex_conn)) by (apply (PM (D3 2 1 1) [3; 4]); [| |reflexivity|reflexivity]; apply F; lia).
    apply Forall_cons; [|apply Forall_cons; [|apply Forall_cons; [|apply Forall_nil]]].
    + split; [exact M1|]. split; [exact M2|]. unfold is_int, two31, two32. cbn. lia.
    + unfold l_printable, q_printable, is_int, two31. cbn. lia.
    + split; [exact M3|exact M4].
  - reflexivity.
  - repeat constructor.
  - reflexivity.
Qed.

(** Activations are silently left out. *)
Theorem C60_activation_refuted : exists m : model double ascii, exists txt, save_model put_double blank_io m = Ok (true, txt) /\
  match load_model get_double ex_E blank_io (Some txt) m_new with
  | ORet m' b => b = true /\ length (m_layers m) = 2%nat /\ length (m_layers m') = 1%nat | _ => False end.
Proof.
  set (m := Model [(lit "Activation_1", LAct (a_make Relu)); (lit "SoftmaxOutput", LSoft (sm_make 1))] ["a"%char] 0 0 0 1 : model double ascii).
  exists m, (saved blank_io m). split; [vm_compute; reflexivity|]. vm_compute. repeat split.
Qed.
Print Assumptions C60_activation_refuted.
(** A label with a blank comes back as another label. *)
Theorem C60_label_refuted : exists (m : model double text) txt m', save_model put_double word_io m = Ok (true, txt) /\
  load_model get_double ex_E word_io (Some txt) m_new = ORet m' true /\ m_labels m = [lit "New York"] /\ m_labels m' = [lit "New"].
Proof.
  set (m := Model [(lit "SoftmaxOutput", LSoft (sm_make 1))] [lit "New York"] 0 0 0 0 : model double text).
  exists m, (saved word_io m), (Model [(lit "SoftmaxOutput", LSoft (sm_make 1))] [lit "New"] 0 0 0 0). vm_compute. auto.
Qed.
Print Assumptions C60_label_refuted.
(** A model with a connected layer that was never used cannot be loaded, nor one with a further layer after the Softmax. *)
Theorem C60_unused_refuted : exists m : model double ascii, exists txt, (exists m1, add_connected 2 m_new = ORet m1 tt /\ set_labels ["a"%char; "b"%char] true m1 = ORet m tt) /\
  save_model put_double blank_io m = Ok (true, txt) /\ match load_model get_double ex_E blank_io (Some txt) m_new with ORet m' b => b = false | _ => False end.
Proof.
  destruct (@add_connected double _ ascii 2 m_new) as [m1 []| |] eqn:Q1; try discriminate.
  destruct (set_labels ["a"%char; "b"%char] true m1) as [m []| |] eqn:Q2; try discriminate.
  exists m, (saved blank_io m). split; [exists m1; auto|].
  injection Q1 as <-. injection Q2 as <-. split; vm_compute; reflexivity.
Qed.
Print Assumptions C60_unused_refuted.
Theorem C60_softmax_inside_refuted : exists m : model double ascii, exists txt, save_model put_double blank_io m = Ok (true, txt) /\
  match load_model get_double ex_E blank_io (Some txt) m_new with ORet m' b => b = false | _ => False end.
Proof.
  set (m := Model [(lit "SoftmaxOutput", LSoft (sm_make 1)); (lit "Pooling_1", LPool ex_pool)] ["a"%char] 0 1 0 0 : model double ascii).
  exists m, (saved blank_io m). split; vm_compute; reflexivity.
Qed.
Print Assumptions C60_softmax_inside_refuted.

(** ** C61 *)
(** For every content the call returns, or std::length_error leaves it, or the behaviour is undefined. *)
Theorem C61_outcomes_partial : forall T (N : Num T) (E : env T) get L (io : label_io (L := L)) file m, eats get -> eats (lb_get io) ->
  match load_model get E io file m with OThrow _ e => e = LengthError | _ => True end.
Proof. intros T N E get L io file m G IO. exact (load_outcomes get G E io IO file m). Qed.
Print Assumptions C61_outcomes_partial.
(** A text without a line "Kernel", "Pooling", "Connected Layer" or "Softmax" (after its first line) is read safely, but is
    taken for a model. *)
Theorem C61_no_layer : forall T (N : Num T) (E : env T) get L (io : label_io (L := L)) t m, eats get -> eats (lb_get io) ->
  (forall a, In a (tl (lines t)) -> ~ In a [lit "Kernel"; lit "Pooling"; lit "Connected Layer"; lit "Softmax"]) ->
  load_model get E io (Some t) m = ORet m true.
Proof. intros T N E get L io t m G IO H. exact (load_nothing get G E io IO t m H). Qed.
Print Assumptions C61_no_layer.
(** A pooling layer of an unknown type is rejected: loadModel returns false. *)
Theorem C61_pool_type : forall T (N : Num T) (E : env T) get L (io : label_io (L := L)) a b t m, no_nl a -> no_nl b -> ~ In b [lit "MAX"; lit "MIN"; lit "AVG"] ->
  load_model get E io (Some (a ++ nl ++ lit "Pooling" ++ nl ++ b ++ nl ++ t)) m =
    ORet (Model (m_layers m ++ [(lit "Pooling_" ++ dec (m_pc m + 1), LPool (q_make (D3 0 0 0) (D3 0 0 0) PMax))]) (m_labels m) (m_kc m) (m_pc m + 1) (m_fc m) (m_ac m)) false.
Proof. exact @load_pool_type. Qed.
Print Assumptions C61_pool_type.
(** Any saved model whose lines end with a carriage return and a newline ([crlf]) gives true, and no layer is loaded. *)
Theorem C61_crlf_refuted : forall T (N : Num T) (E : env T) put get L (io : label_io (L := L)) (m : model T L) txt m0, eats get -> eats (lb_get io) ->
  save_model put io m = Ok (true, txt) -> load_model get E io (Some (crlf txt)) m0 = ORet m0 true.
Proof. exact @load_saved_crlf. Qed.
Print Assumptions C61_crlf_refuted.
Example C61_crlf_ex : crlf (lit "(1)" ++ nl ++ lit "Softmax" ++ nl) = lit "(1)" ++ [ascii_of_nat 13] ++ nl ++ lit "Softmax" ++ [ascii_of_nat 13] ++ nl.
Proof. reflexivity. Qed.
Theorem C61_missing_refuted : forall T (N : Num T) (E : env T) get L (io : label_io (L := L)) m, load_model get E io None m = ORet m true.
Proof. intros T N E get L io m. exact (load_missing get E io m). Qed.
Print Assumptions C61_missing_refuted.
Theorem C61_exception_refuted : exists t, forall T (N : Num T) (E : env T) get L (io : label_io (L := L)),
  load_model get E io (Some t) m_new = OThrow m_new LengthError.
Proof. exists (lit "(0)" ++ nl ++ lit "Softmax" ++ nl ++ nl ++ lit "Output labels -1" ++ nl). intros. reflexivity. Qed.
Print Assumptions C61_exception_refuted.
(** A value is missing at the end of the file: an uninitialised variable is used. *)
Theorem C61_undefined_refuted : exists t, forall T (N : Num T) (E : env T) get L (io : label_io (L := L)), load_model get E io (Some t) m_new = OUB.
Proof. exists (lit "(0)" ++ nl ++ lit "Pooling" ++ nl ++ lit "MAX" ++ nl ++ lit "x"). intros. reflexivity. Qed.
Print Assumptions C61_undefined_refuted.
(** The number of elements overflows int. *)
Theorem C61_overflow_refuted : exists t, forall T (N : Num T) (E : env T) get L (io : label_io (L := L)), load_model get E io (Some t) m_new = OUB.
Proof.
  exists (lit "(0)" ++ nl ++ lit "Connected Layer" ++ nl ++ lit "x 1" ++ nl ++ lit "y 1" ++ nl ++ lit "weights" ++ nl ++ lit "65536 65536 1" ++ nl).
  intros. reflexivity.
Qed.
Print Assumptions C61_overflow_refuted.
(** An incomplete description is accepted. *)
Theorem C61_incomplete_refuted : exists t m', forall T (N : Num T) (E : env T) get L (io : label_io (L := L)),
  load_model get E io (Some t) m_new = ORet (m' T L) true /\ m_labels (m' T L) = [].
Proof.
  exists (lit "(0)" ++ nl ++ lit "Softmax" ++ nl ++ nl ++ lit "Output labels abc"),
    (fun T L => Model [(lit "SoftmaxOutput", LSoft (sm_make 0))] [] 0 0 0 0). intros. split; reflexivity.
Qed.
Print Assumptions C61_incomplete_refuted.
Example C61_ex : lines (lit "ab" ++ nl ++ lit "c" ++ nl) = [lit "ab"; lit "c"; []]
  /\ load_model get_double ex_E blank_io (Some (lit "Hello" ++ nl ++ lit "world")) m_new = ORet m_new true
  /\ load_model get_double ex_E blank_io (Some (lit "(0)" ++ nl ++ lit "Pooling" ++ nl ++ lit "MED" ++ nl)) m_new =
     ORet (Model [(lit "Pooling_1", LPool (q_make (D3 0 0 0) (D3 0 0 0) PMax))] [] 0 1 0 0) false.
Proof. vm_compute. auto. Qed.

(** ** C62 *)
(** A connected layer that was read back ([c_in] is empty, see C59, C60): propagateBackward works in the first layer of a
    model and raises an exception in any other, for all inputs of the right size. *)
Theorem C62_connected_partial : forall T (N : Num T) (c : connected T) (x g : mat T) n K W B d I G i, conn_is c n K W B -> c_in c = D3 0 0 0 ->
  is_mat x d I -> fits d -> vol d = K -> is_mat g (D3 n 1 1) G ->
  0 <= i < Z.of_nat (length (p_wg (c_par c))) -> 0 <= i < Z.of_nat (length (p_bg (c_par c))) ->
  (exists c' r, c_backward false x g i true c = ORet c' r) /\ (exists c', c_backward false x g i false c = OThrow c' MatrixTransform).
Proof. intros T N. exact conn_restored. Qed.
Print Assumptions C62_connected_partial.
Example C62_ex : let c := Conn (Par (Mat (D3 2 4 1) [1;0;1;2;0;1;1;1]) (Mat (D3 2 1 1) [1;0]) [mat_empty] [mat_empty]) (D3 0 0 0) true in
  (exists c' r, c_backward false (Mat (D3 2 2 1) [1;2;3;4]) (Mat (D3 2 1 1) [5;6]) 0 true c = ORet c' r) /\
  (exists c', c_backward false (Mat (D3 2 2 1) [1;2;3;4]) (Mat (D3 2 1 1) [5;6]) 0 false c = OThrow c' MatrixTransform).
Proof. split; [do 2 eexists; vm_compute; reflexivity|eexists; vm_compute; reflexivity]. Qed.

(** One training step of a model: setBatchSize, forward and backward pass *)
Definition one_step (m : model double ascii) : out (model double ascii) unit :=
  (on_layers (set_batch_all 1) ;;
   r <- forward_propagation ex_E (fun v => v) (Mat (D3 3 3 1) (map cents [1; 2; 3; 4; 5; 6; 7; 8; 9])) 0 ;;
   _ <- backwards_propagation ex_E Ascii.eqb r "a"%char 0 ;; ret tt)%st m.
(** The saved model can be trained, the loaded one cannot. *)
Theorem C62_model_refuted : exists (m : model double ascii) txt, save_model put_double blank_io m = Ok (true, txt) /\
  (match one_step m with ORet _ _ => True | _ => False end) /\
  match load_model get_double ex_E blank_io (Some txt) m_new with
  | ORet m' b => b = true /\ match one_step m' with OThrow _ e => e = MatrixTransform | _ => False end
  | _ => False
  end.
Proof. exists ex_model, (saved blank_io ex_model). split; [vm_compute; reflexivity|]. split; [vm_compute; exact I|]. vm_compute. split; reflexivity. Qed.
Print Assumptions C62_model_refuted.

(** ** C81 *)
(** Refuted: for every text with the first lines of data/trained_model.model_data the call returns false, and leaves a kernel
    in the model; it has no labels then. *)
Theorem C81_refuted : forall T (N : Num T) (E : env T) get L (io : label_io (L := L)) t m, exists k,
  load_model get E io (Some (shipped_start ++ t)) m =
    ORet (Model (m_layers m ++ [(lit "Kernel_" ++ dec (m_kc m + 1), LKernel k)]) (m_labels m) (m_kc m + 1) (m_pc m) (m_fc m) (m_ac m)) false.
Proof.
  intros T N E get L io t m. unfold shipped_start. rewrite <- !app_assoc.
  apply (load_old E get io (lit "(0) ----------")); [reflexivity|]. intros u. discriminate.
Qed.
Print Assumptions C81_refuted.
(** More generally, whenever the line after "Kernel" does not start with x *)
Theorem C81_kernel : forall T (N : Num T) (E : env T) get L (io : label_io (L := L)) a b m, no_nl a -> (forall t, b <> lit "x" ++ t) -> exists k,
  load_model get E io (Some (a ++ nl ++ lit "Kernel" ++ nl ++ b)) m =
    ORet (Model (m_layers m ++ [(lit "Kernel_" ++ dec (m_kc m + 1), LKernel k)]) (m_labels m) (m_kc m + 1) (m_pc m) (m_fc m) (m_ac m)) false.
Proof. intros T N E get L io. exact (load_old E get io). Qed.
Print Assumptions C81_kernel.
(** A kernel without the line RELU is loaded, with it not. *)
Definition old_text (f : text) : text := lit "(0)" ++ nl ++ lit "Kernel" ++ nl ++ f ++ lit "x 1" ++ nl ++ lit "y 1" ++ nl ++ lit "z 1" ++ nl ++ lit "n 1" ++ nl ++
  lit "weights" ++ nl ++ lit "1 1 1" ++ nl ++ lit "        0.500000 " ++ nl ++ nl ++ lit "biases" ++ nl ++ lit "1 1 1" ++ nl ++ lit "        0.250000 " ++ nl ++ nl.
Definition old_result (f : text) : option (bool * list text) :=
  match load_model get_double ex_E blank_io (Some (old_text f)) m_new with ORet m b => Some (b, map fst (m_layers m)) | _ => None end.
Example C81_ex : old_result [] = Some (true, [lit "Kernel_1"]) /\ old_result (lit "RELU" ++ nl) = Some (false, [lit "Kernel_1"]).
Proof. vm_compute. auto. Qed.
