(** Reading back the text of a layer. *)
From Coq Require Import String ZArith List Bool Ascii Lia.
From Verif Require Import Base Dim Matrix View Num Expr Spec Iter MatFacts Batch Kernel Connected Float32 Pooling Activation Softmax
  Chars Model Double Stream StreamFacts Text TextFacts.
Import ListNotations.
Local Open Scope Z_scope.

Definition is_int (v : Z) : Prop := - two31 <= v < two31.

Section Layers.
Context {T : Type} {N : Num T} (wr : T -> text) (rd : istream -> option T * istream).
Context (P : T -> Prop) (back : T -> T) (CO : codec wr rd P back).

(** A matrix with at least one element whose elements can be read back, and what is read back *)
Definition printable (m : mat T) : Prop := exists f, is_mat m (mdim m) f /\ fits (mdim m) /\ pos (mdim m) /\
  forall x y z, inb (mdim m) x y z -> P (f x y z).
Definition mat_back (m : mat T) : mat T := Mat (mdim m) (map back (mvals m)).

Lemma mat_back_is : forall m d f, is_mat m d f -> is_mat (mat_back m) d (fun x y z => back (f x y z)).
Proof.
  intros m d f (A & B & C). split; [exact A|]. split; [cbn; rewrite map_length; exact B|]. intros x y z I. specialize (C x y z I).
  unfold cell in *. cbn [mvals mat_back]. destruct (_ <? 0); [discriminate|]. rewrite nth_error_map, C. reflexivity.
Qed.

Lemma mat_io : forall m m0 t, printable m -> exists txt, mat_text wr m = Ok txt /\
  mat_load rd (m0, open_text (txt ++ t)) = ORet (mat_back m, open_text t) true.
Proof.
  intros m m0 t (f & IM & F & PD & HP). exists (head_text (mdim m) ++ rows_text wr (mdim m) f).
  split; [apply mat_text_ok; assumption|].
  destruct (mat_load_ok wr rd P back m0 (mdim m) f [] t CO F PD HP eq_refl) as [m' [E I]]. cbn [app] in E.
  rewrite <- app_assoc, E. f_equal. f_equal. apply is_mat_unique with (mdim m) (fun x y z => back (f x y z)); [assumption|assumption|].
  apply mat_back_is. assumption.
Qed.
Lemma mat_text_total : forall m, printable m -> exists txt, mat_text wr m = Ok txt.
Proof. intros m H. destruct (mat_io m m [] H) as [txt [E _]]. eauto. Qed.

Lemma mat_load_back : forall m m0 t txt, printable m -> mat_text wr m = Ok txt ->
  mat_load rd (m0, open_text (txt ++ t)) = ORet (mat_back m, open_text t) true.
Proof. intros m m0 t txt H E. destruct (mat_io m m0 t H) as [txt' [E' L]]. congruence. Qed.

Definition par_back (p p0 : @params T) : @params T := Par (mat_back (p_w p)) (mat_back (p_b p)) (p_wg p0) (p_bg p0).

Lemma par_load_back : forall p p0 wt bt t, printable (p_w p) -> printable (p_b p) ->
  mat_text wr (p_w p) = Ok wt -> mat_text wr (p_b p) = Ok bt ->
  par_load rd (p0, open_text (lit "weights" ++ nl ++ wt ++ lit "biases" ++ nl ++ bt ++ t)) = ORet (par_back p p0, open_text t) true.
Proof.
  intros p p0 wt bt t PW PB W B. unfold par_load.
  erewrite bind_ok by (apply on_snd_ok; apply expect_void_ok).
  erewrite bind_ok by (unfold par_w, on_field; rewrite (mat_load_back _ _ _ _ PW W); reflexivity).
  cbn [negb]. erewrite bind_ok by (apply on_snd_ok; apply expect_void_ok).
  unfold par_b, on_field. rewrite (mat_load_back _ _ _ _ PB B). reflexivity.
Qed.

(** What Kernel::deserialize makes of layer [k], starting from [k0] *)
Definition k_back (k k0 : kernel T) : kernel T := Kern (par_back (k_par k) (k_par k0)) (k_dim k) (k_stride k0) (k_n k).
Definition k_printable (k : kernel T) : Prop := printable (k_w k) /\ printable (k_b k) /\
  is_int (dx (k_dim k)) /\ is_int (dy (k_dim k)) /\ is_int (dz (k_dim k)) /\ 0 <= k_n k < two32.

Lemma upd_fst_ok : forall {A B} (f : A -> A) (a : A) (b : B), upd_fst f (a, b) = ORet (f a, b) tt.
Proof. reflexivity. Qed.

Theorem k_text_back : forall k, k_printable k -> exists txt, k_text wr k = Ok txt /\
  forall k0 t, k_load rd (k0, open_text (txt ++ t)) = ORet (k_back k k0, open_text t) true.
Proof.
  intros k (PW & PB & X & Y & Z1 & NN). unfold k_text.
  destruct (mat_text_total _ PW) as [wt W]. destruct (mat_text_total _ PB) as [bt B]. rewrite W, B. cbn [rbind].
  eexists. split; [reflexivity|]. intros k0 t. unfold k_load. rewrite <- !app_assoc.
  erewrite bind_ok by (apply on_snd_ok; apply expect_void_ok).
  erewrite bind_ok by (apply on_snd_ok; apply expect_int_ok; exact X).
  erewrite bind_ok by apply upd_fst_ok.
  erewrite bind_ok by (apply on_snd_ok; apply expect_int_ok; exact Y).
  erewrite bind_ok by apply upd_fst_ok.
  erewrite bind_ok by (apply on_snd_ok; apply expect_int_ok; exact Z1).
  erewrite bind_ok by apply upd_fst_ok.
  erewrite bind_ok by (apply on_snd_ok; apply expect_unsigned_ok; exact NN).
  erewrite bind_ok by apply upd_fst_ok.
  unfold on_field. cbn [k_par]. rewrite (par_load_back (k_par k) (k_par k0) wt bt t PW PB W B).
  cbn [map_out with_par k_dim k_stride k_n dx dy dz]. unfold k_back. destruct (k_dim k). reflexivity.
Qed.

Definition c_back (c c0 : connected T) : connected T := Conn (par_back (c_par c) (c_par c0)) (c_in c0) true.
Definition c_printable (c : connected T) : Prop := printable (c_w c) /\ printable (c_b c).

Lemma printable_dims : forall m, printable m -> is_int (dx (mdim m)) /\ is_int (dy (mdim m)) /\ is_int (dz (mdim m)).
Proof. intros m (f & _ & F & _). pose proof (fits_dims _ F). unfold is_int, two31 in *. lia. Qed.

Theorem c_text_back : forall c, c_printable c -> exists txt, c_text wr c = Ok txt /\
  forall c0 t, c_load rd (c0, open_text (txt ++ t)) = ORet (c_back c c0, open_text t) true.
Proof.
  intros c (PW & PB). unfold c_text. destruct (printable_dims _ PW) as (X & Y & _).
  destruct (mat_text_total _ PW) as [wt W]. destruct (mat_text_total _ PB) as [bt B]. rewrite W, B. cbn [rbind].
  eexists. split; [reflexivity|]. intros c0 t. unfold c_load. rewrite <- !app_assoc.
  erewrite bind_ok by (apply on_snd_ok; apply expect_void_ok).
  erewrite bind_ok by (apply on_snd_ok; apply expect_int_ok; exact X).
  erewrite bind_ok by (apply on_snd_ok; apply expect_int_ok; exact Y).
  erewrite bind_ok.
  2: { unfold on_field. rewrite (par_load_back (c_par c) (c_par c0) wt bt t PW PB W B). reflexivity. }
  cbn [negb]. erewrite bind_ok by apply upd_fst_ok. reflexivity.
Qed.

(** Pooling: the stride becomes the pool size *)
Definition q_back (q q0 : pooling) : pooling :=
  Pool (D3 (dx (q_dim q)) (dy (q_dim q)) (dz (q_dim q0))) (D3 (dx (q_dim q)) (dy (q_dim q)) (dz (q_stride q0))) (q_type q) (q_idx q0).
Definition q_printable (q : pooling) : Prop := is_int (dx (q_dim q)) /\ is_int (dy (q_dim q)).

Theorem q_text_back : forall q q0 t, q_printable q ->
  q_load (q0, open_text (q_text q ++ t)) = ORet (q_back q q0, open_text t) true.
Proof.
  intros q q0 t (X & Y). unfold q_load, q_text. rewrite <- !app_assoc.
  erewrite bind_ok by (apply on_snd_ok; apply expect_void_ok).
  erewrite bind_ok.
  2: { apply on_snd_ok. unfold stm. rewrite getline_ok by (destruct (q_type q); reflexivity). reflexivity. }
  erewrite bind_ok.
  2: { unfold lift, pool_of. instantiate (1 := q_type q). destruct (q_type q); reflexivity. }
  erewrite bind_ok by apply upd_fst_ok.
  erewrite bind_ok by (apply on_snd_ok; apply expect_int_ok; exact X).
  erewrite bind_ok by apply upd_fst_ok.
  erewrite bind_ok by (apply on_snd_ok; apply expect_int_ok; exact Y).
  erewrite bind_ok by apply upd_fst_ok.
  erewrite bind_ok by (apply on_snd_ok; apply expect_void_ok).
  erewrite bind_ok by (apply on_snd_ok; apply expect_int_ok; exact X).
  erewrite bind_ok by apply upd_fst_ok.
  erewrite bind_ok by (apply on_snd_ok; apply expect_int_ok; exact Y).
  erewrite bind_ok by apply upd_fst_ok. reflexivity.
Qed.

(** Activation: only the kind is replaced *)
Definition a_back (a a0 : activation) : activation := Act (a_kind a) (a_fun a0) (a_der a0).

Theorem a_text_back : forall a, exists txt, a_text a = Ok txt /\
  forall a0 t, a_load (a0, open_text (txt ++ t)) = ORet (a_back a a0, open_text t) true.
Proof.
  intros a. assert (exists s, to_string (a_kind a) = Ok s /\ no_nl (lit s) /\ from_string (string_of_list_ascii (lit s)) = Ok (a_kind a)) as (s & S1 & S2 & S3).
  { destruct (a_kind a); eexists; (split; [reflexivity|split; reflexivity]). }
  unfold a_text. rewrite S1. cbn [rbind]. eexists. split; [reflexivity|]. intros a0 t. unfold a_load. rewrite <- !app_assoc.
  erewrite bind_ok by (apply on_snd_ok; apply expect_void_ok).
  erewrite bind_ok.
  2: { apply on_snd_ok. unfold stm. rewrite getline_ok by exact S2. reflexivity. }
  erewrite bind_ok by (unfold lift; rewrite S3; reflexivity).
  erewrite bind_ok by apply upd_fst_ok. reflexivity.
Qed.

Theorem sm_text_back : forall s0 t, sm_load (s0, open_text (sm_text ++ t)) = ORet (s0, open_text t) true.
Proof.
  intros s0 t. unfold sm_load, sm_text. rewrite <- !app_assoc.
  erewrite bind_ok by (apply on_snd_ok; apply expect_void_ok). reflexivity.
Qed.

(** ** All layers *)
Definition l_printable (l : layer T) : Prop :=
  match l with LKernel k => k_printable k | LConn c => c_printable c | LPool q => q_printable q | _ => True end.
(** Two layers of the same class *)
Definition same_class (l l0 : layer T) : Prop :=
  match l, l0 with
  | LKernel _, LKernel _ | LConn _, LConn _ | LPool _, LPool _ | LAct _, LAct _ | LSoft _, LSoft _ => True
  | _, _ => False
  end.
Definition l_back (l l0 : layer T) : layer T :=
  match l, l0 with
  | LKernel k, LKernel k0 => LKernel (k_back k k0)
  | LConn c, LConn c0 => LConn (c_back c c0)
  | LPool q, LPool q0 => LPool (q_back q q0)
  | LAct a, LAct a0 => LAct (a_back a a0)
  | _, _ => l0
  end.

Theorem l_text_back : forall l, l_printable l -> exists txt, l_text wr l = Ok txt /\
  forall l0 t, same_class l l0 -> l_load rd (l0, open_text (txt ++ t)) = ORet (l_back l l0, open_text t) true.
Proof.
  intros l H. destruct l; cbn [l_printable] in H; cbn [l_text].
  - destruct (k_text_back k H) as [txt [E L]]. exists txt. split; [assumption|]. intros l0 t SC. destruct l0; try contradiction.
    cbn [l_load l_back]. rewrite L. reflexivity.
  - destruct (c_text_back c H) as [txt [E L]]. exists txt. split; [assumption|]. intros l0 t SC. destruct l0; try contradiction.
    cbn [l_load l_back]. rewrite L. reflexivity.
  - exists (q_text q). split; [reflexivity|]. intros l0 t SC. destruct l0; try contradiction.
    cbn [l_load l_back]. rewrite q_text_back by assumption. reflexivity.
  - destruct (a_text_back a) as [txt [E L]]. exists txt. split; [assumption|]. intros l0 t SC. destruct l0; try contradiction.
    cbn [l_load l_back]. rewrite L. reflexivity.
  - exists sm_text. split; [reflexivity|]. intros l0 t SC. destruct l0; try contradiction.
    cbn [l_load l_back]. rewrite sm_text_back. reflexivity.
Qed.

(** Writing what was read gives the same text *)
Lemma setw_same : forall x, wr (back x) = wr x -> elem_text wr (back x) = elem_text wr x.
Proof. intros x H. unfold elem_text. rewrite H. reflexivity. Qed.
Lemma cat_n_ext : forall n a g h, (forall i, a <= i < a + Z.of_nat n -> g i = h i) -> cat_n n a g = cat_n n a h.
Proof. induction n; intros a g h H; cbn [cat_n]; [reflexivity|]. rewrite (H a) by lia. rewrite (IHn _ g h) by (intros; apply H; lia). reflexivity. Qed.
Lemma cat_ext : forall n g h, (forall i, 0 <= i < n -> g i = h i) -> cat n g = cat n h.
Proof. intros. unfold cat. apply cat_n_ext. intros. apply H. lia. Qed.
Theorem mat_text_again : (forall x, P x -> wr (back x) = wr x) -> forall m, printable m -> mat_text wr (mat_back m) = mat_text wr m.
Proof.
  intros SAME m (f & IM & F & PD & HP). rewrite (mat_text_ok wr m (mdim m) f IM F).
  rewrite (mat_text_ok wr (mat_back m) (mdim m) _ (mat_back_is _ _ _ IM) F). do 2 f_equal. unfold rows_text. apply cat_ext. intros z Z1.
  unfold slice_text. f_equal. apply cat_ext. intros x X1. unfold row_text. f_equal. apply cat_ext. intros y Y1.
  apply setw_same, SAME, HP. split; [|split]; assumption.
Qed.
End Layers.
