(** loadModel reads back what saveModel wrote. *)
From Coq Require Import String ZArith List Bool Ascii Lia.
From Verif Require Import Base Dim Matrix View Num Expr Spec Iter MatFacts Batch BatchThms Kernel Connected Float32 Pooling Activation
  Softmax Chars Model Net ModelThms Double Stream StreamFacts Text TextFacts LayerText LoadFacts.
Import ListNotations.
Local Open Scope Z_scope.

Lemma no_nl_app : forall a b, no_nl a -> no_nl b -> no_nl (a ++ b).
Proof. intros a b A B. unfold no_nl in *. rewrite forallb_app, A, B. reflexivity. Qed.
Lemma no_nl_digits : forall t, forallb is_digit t = true -> no_nl t.
Proof.
  induction t; intros H; [reflexivity|]. cbn in H. apply andb_prop in H. destruct H as [H1 H2]. unfold no_nl in *. cbn [forallb]. rewrite IHt by assumption.
  destruct (Ascii.eqb a newline) eqn:Q; [|reflexivity]. apply Ascii.eqb_eq in Q. subst. discriminate.
Qed.
Lemma no_nl_dec : forall v, no_nl (dec v).
Proof.
  intros v. unfold dec. destruct (v <? 0) eqn:Q.
  - apply (no_nl_app (lit "-")); [reflexivity|]. apply no_nl_digits, dec_pos_digits. lia.
  - apply no_nl_digits, dec_pos_digits. lia.
Qed.

Lemma ok_inj : forall {A} (a b : A), Ok a = Ok b -> b = a.
Proof. congruence. Qed.

(** How labels are written and read back: those with property [Q] survive. *)
Definition label_codec {L} (io : label_io (L := L)) (Q : L -> Prop) : Prop := forall l t, Q l ->
  lb_get io (open_text (lb_put io l ++ nl ++ t)) = (Some l, open_text (nl ++ t)).

Lemma codec_char : forall c, label_codec (char_io c) (fun a => is_space a = false).
Proof.
  intros c l t H. unfold char_io, lb_get, lb_put, get_char. change ([l] ++ nl ++ t) with ([] ++ l :: nl ++ t).
  rewrite sentry_skip; [reflexivity|reflexivity|exact H|discriminate].
Qed.
Lemma codec_int : label_codec int_io is_int.
Proof. intros v t H. apply (get_int_dec [] v (nl ++ t)); [reflexivity|assumption|reflexivity]. Qed.
Definition one_word (w : text) : Prop := w <> [] /\ forallb (fun c => negb (is_space c)) w = true.
Lemma codec_word : label_codec word_io one_word.
Proof.
  intros w t [NE H]. unfold word_io, lb_get, lb_put, get_word.
  change (w ++ nl ++ t) with ([] ++ (w ++ nl ++ t)). rewrite sentry_skip.
  - cbn [rest open_text]. rewrite span_app; [|assumption|reflexivity]. destruct w; [congruence|reflexivity].
  - reflexivity.
  - destruct w; [congruence|]. cbn in *. apply andb_prop in H. destruct H as [H _]. apply negb_true_iff in H. exact H.
  - destruct w; [congruence|discriminate].
Qed.

Section Load.
Context {T : Type} {N : Num T} (wr : T -> text) (rd : istream -> option T * istream) (RD : eats rd).
Context (P : T -> Prop) (back : T -> T) (CO : codec wr rd P back).
Context (E : env T) {L : Type} (io : label_io (L := L)) (IO : eats (lb_get io)) (Q : L -> Prop) (LC : label_codec io Q).

(** What is kept of a layer. The counts, sizes and pooling kind are the same, the matrices are the same up to [back]. The
    stride of a convolution becomes that of a new layer, the stride of a pooling layer its size; a connected layer has no
    input shape any more. *)
Definition restored (l l' : layer T) : Prop :=
  match l, l' with
  | LKernel k, LKernel k' => k_w k' = mat_back back (k_w k) /\ k_b k' = mat_back back (k_b k) /\ k_dim k' = k_dim k /\ k_n k' = k_n k /\
      k_stride k' = 1 /\ p_wg (k_par k') = [] /\ p_bg (k_par k') = []
  | LConn c, LConn c' => c_w c' = mat_back back (c_w c) /\ c_b c' = mat_back back (c_b c) /\ c_in c' = D3 0 0 0 /\ c_ready c' = true /\
      p_wg (c_par c') = [] /\ p_bg (c_par c') = []
  | LPool q, LPool q' => q_dim q' = D3 (dx (q_dim q)) (dy (q_dim q)) 0 /\ q_stride q' = D3 (dx (q_dim q)) (dy (q_dim q)) 0 /\
      q_type q' = q_type q /\ q_idx q' = [mat_empty]
  | _, _ => False
  end.

(** Names and counters as the functions that add layers set them *)
Definition counted (m : model T L) : Prop :=
  named (m_layers m) /\ m_kc m = how_many CKernel (m_layers m) /\ m_pc m = how_many CPool (m_layers m) /\
  m_fc m = how_many CConn (m_layers m) /\ m_ac m = how_many CAct (m_layers m).

Definition is_act (l : layer T) : bool := match l with LAct _ => true | _ => false end.
Definition is_soft (l : layer T) : bool := match l with LSoft _ => true | _ => false end.

(** [m'] is [m] with further layers: those of [ls] that are not activations *)
Definition extends (m m' : model T L) (ls : list (layer T)) : Prop :=
  (exists ls', map snd (m_layers m') = map snd (m_layers m) ++ ls' /\ Forall2 restored (filter (fun l => negb (is_act l)) ls) ls') /\
  (exists x, m_layers m' = m_layers m ++ x) /\ (counted m -> counted m') /\ m_labels m' = m_labels m.

Lemma extends_refl : forall m, extends m m [].
Proof. intros m. split; [exists []; rewrite app_nil_r; split; [reflexivity|constructor]|]. split; [exists []; rewrite app_nil_r; reflexivity|auto]. Qed.
Lemma extends_trans : forall a b c l1 l2, extends a b l1 -> extends b c l2 -> extends a c (l1 ++ l2).
Proof.
  intros a b c l1 l2 ((x & X1 & X2) & (u & U) & X3 & X4) ((y & Y1 & Y2) & (v & V) & Y3 & Y4). split; [|split; [|split; [auto|congruence]]].
  - exists (x ++ y). rewrite Y1, X1, app_assoc, filter_app. split; [reflexivity|]. apply Forall2_app; assumption.
  - exists (u ++ v). rewrite V, U, app_assoc. reflexivity.
Qed.

Lemma k_make_zero : exists k, k_make (e_rand E) (e_rmax E) (e_sqrt E) (D3 0 0 0) 1 1 = Ok k /\ k_stride k = 1 /\
  p_wg (k_par k) = [] /\ p_bg (k_par k) = [].
Proof.
  assert (F1 : fits (D3 0 0 0)) by (unfold fits, two31; cbn; lia). assert (F2 : fits (D3 1 1 1)) by (unfold fits, two31; cbn; lia).
  unfold k_make. change (s32 1) with 1. cbn [dx dy dz]. change (s32 (u32 0 * 1)) with 0.
  destruct (mat_fill_ok (D3 1 1 1) (n0 : T) F2) as (b & Eb & Hb). rewrite Eb. cbn [rbind].
  destruct (mat_fill_ok (D3 0 0 0) (n0 : T) F1) as (w & Ew & Hw). rewrite Ew. cbn [rbind].
  destruct (init_params_ok (e_rand E) (e_rmax E) (e_sqrt E) w b _ _ _ _ F1 ltac:(right; reflexivity) F2 ltac:(left; cbn; lia) Hw Hb)
    as (w' & b' & X & _ & _).
  rewrite X. cbn. eexists. split; [reflexivity|]. auto.
Qed.

(** Adding a layer of the class of [l] with the arguments that loadModel uses, then reading it *)
Lemma load_last_ok : forall (m : model T L) nm l0 l txt t, same_class l l0 ->
  (forall l0 t, same_class l l0 -> l_load rd (l0, open_text (txt ++ t)) = ORet (l_back back l l0, open_text t) true) ->
  load_last rd (Model (m_layers m ++ [(nm, l0)]) (m_labels m) (m_kc m) (m_pc m) (m_fc m) (m_ac m), open_text (txt ++ t)) =
  ORet (Model (m_layers m ++ [(nm, l_back back l l0)]) (m_labels m) (m_kc m) (m_pc m) (m_fc m) (m_ac m), open_text t) true.
Proof.
  intros m nm l0 l txt t SC H. unfold load_last. cbn [m_layers]. rewrite rev_app_distr. cbn [rev app]. rewrite H by assumption.
  cbn [map_fst m_labels m_kc m_pc m_fc m_ac]. rewrite rev_involutive. reflexivity.
Qed.

Definition tags : list text := [lit "Kernel"; lit "Pooling"; lit "Connected Layer"; lit "Softmax"].
(** A text that starts with a line which is not a tag *)
Definition dull (t : text) : Prop := exists a b, t = a ++ nl ++ b /\ no_nl a /\ ~ In a tags.

Lemma branch_other : forall a (st : model T L * istream), ~ In a tags -> load_branch rd E io a st = ORet st true.
Proof.
  intros a st H. unfold load_branch.
  destruct (text_eqb a (lit "Kernel")) eqn:Q1; [apply text_eqb_eq in Q1; subst; exfalso; apply H; cbn; auto|].
  destruct (text_eqb a (lit "Pooling")) eqn:Q2; [apply text_eqb_eq in Q2; subst; exfalso; apply H; cbn; auto|].
  destruct (text_eqb a (lit "Connected Layer")) eqn:Q3; [apply text_eqb_eq in Q3; subst; exfalso; apply H; cbn; auto|].
  destruct (text_eqb a (lit "Softmax")) eqn:Q4; [apply text_eqb_eq in Q4; subst; exfalso; apply H; cbn; auto|].
  reflexivity.
Qed.
(** A round that skips a line *)
Lemma skip_round : forall m a t, no_nl a -> dull t -> load_all rd E io (m, open_text (a ++ nl ++ t)) = load_all rd E io (m, open_text t).
Proof.
  intros m a t A (b & c & -> & B & NT). rewrite (load_all_eq rd RD E io IO). rewrite getline_ok by assumption. cbn [failb open_text].
  change (IS (b ++ nl ++ c) false false) with (open_text (b ++ nl ++ c)). rewrite read_line_ok by assumption.
  unfold catch_runtime. rewrite branch_other by assumption. reflexivity.
Qed.

Definition rule (i : Z) : text := lit "(" ++ dec i ++ lit ") ----------".
Lemma rule_no_nl : forall i, no_nl (rule i).
Proof. intros. unfold rule. apply (no_nl_app (lit "(")); [reflexivity|]. apply no_nl_app; [apply no_nl_dec|reflexivity]. Qed.
Lemma rule_dull : forall i t, dull (rule i ++ nl ++ t).
Proof.
  intros i t. exists (rule i), t. split; [reflexivity|]. split; [apply rule_no_nl|]. unfold rule, tags. cbn. intuition discriminate.
Qed.
Lemma layers_dull : forall ls i txt t, layers_text wr i ls = Ok txt -> dull t -> dull (txt ++ t).
Proof.
  intros [|l ls] i txt t H D; cbn [layers_text] in H.
  - apply ok_inj in H; subst. exact D.
  - destruct (l_text wr l) as [u| |]; try discriminate. cbn [rbind] in H. destruct (layers_text wr (i + 1) ls) as [v| |]; try discriminate.
    cbn [rbind] in H. apply ok_inj in H; subst.
    replace ((lit "(" ++ dec i ++ lit ") ----------" ++ nl ++ u ++ v) ++ t) with (rule i ++ nl ++ (u ++ v ++ t)) by (unfold rule; rewrite <- !app_assoc; reflexivity).
    apply rule_dull.
Qed.

Ltac use_last LL := match type of LL with ?a = _ => match goal with |- context [load_last rd ?x] => change (load_last rd x) with a end end; rewrite LL.

(** One layer *)
Lemma load_layer : forall l i m txt t, l_printable P l -> is_soft l = false -> l_text wr l = Ok txt -> dull t ->
  exists m', load_all rd E io (m, open_text (rule i ++ nl ++ txt ++ t)) = load_all rd E io (m', open_text t) /\ extends m m' [l].
Proof.
  intros l i m txt t PR NS TX D. destruct (l_text_back wr rd P back CO l PR) as [txt' [TX' LB]]. rewrite TX in TX'. injection TX' as <-.
  assert (START : forall a u, no_nl a -> txt = a ++ nl ++ u ->
    load_all rd E io (m, open_text (rule i ++ nl ++ txt ++ t)) =
    match catch_runtime (load_branch rd E io a) (m, open_text (txt ++ t)) with
    | ORet st true => load_all rd E io st | ORet st false => ORet st false | OThrow st e => OThrow st e | OUB => OUB end).
  { intros a u A X. rewrite (load_all_eq rd RD E io IO). rewrite getline_ok by apply rule_no_nl. cbn [failb open_text].
    change (IS (txt ++ t) false false) with (open_text (txt ++ t)). rewrite X, <- !app_assoc. rewrite read_line_ok by assumption. reflexivity. }
  destruct l as [k|c|q|a|s]; cbn [l_text is_soft] in *; [| | | |discriminate].
  - assert (X : exists u, txt = lit "Kernel" ++ nl ++ u).
    { unfold k_text in TX. destruct (mat_text wr (k_w k)); try discriminate. destruct (mat_text wr (k_b k)); try discriminate.
      cbn [rbind] in TX. apply ok_inj in TX; subst. eauto. }
    destruct X as [u X]. rewrite (START (lit "Kernel") u eq_refl X).
    destruct k_make_zero as (k0 & K0 & K1 & K2 & K3).
    unfold catch_runtime, load_branch. change (text_eqb (lit "Kernel") (lit "Kernel")) with true. cbv iota.
    erewrite bind_ok by (unfold on_fst, add_kernel; rewrite K0; reflexivity).
    pose proof (load_last_ok (Model (m_layers m) (m_labels m) (m_kc m + 1) (m_pc m) (m_fc m) (m_ac m)) (lit "Kernel_" ++ dec (m_kc m + 1))
      (LKernel k0) (LKernel k) txt t I LB) as LL. cbn [m_layers m_labels m_kc m_pc m_fc m_ac] in LL. use_last LL.
    eexists. split; [reflexivity|]. split; [|split; [|split; [|reflexivity]]]; cbn [m_layers].
    + eexists. rewrite map_app. split; [reflexivity|]. cbn. constructor; [|constructor]. cbn. repeat split; auto.
    + eexists. reflexivity.
    + intros (C1 & C2 & C3 & C4 & C5). unfold counted. cbn [m_layers m_kc m_pc m_fc m_ac]. rewrite !how_many_app. unfold how_many at 2 4 6 8. cbn.
      repeat split; try lia. apply named_snoc; [exact C1|]. cbn [fst snd class_of layer_name l_back]. rewrite <- C2. reflexivity.
  - assert (X : exists u, txt = lit "Connected Layer" ++ nl ++ u).
    { unfold c_text in TX. destruct (mat_text wr (c_w c)); try discriminate. destruct (mat_text wr (c_b c)); try discriminate.
      cbn [rbind] in TX. apply ok_inj in TX; subst. eauto. }
    destruct X as [u X]. rewrite (START (lit "Connected Layer") u eq_refl X).
    unfold catch_runtime, load_branch. change (text_eqb (lit "Connected Layer") (lit "Kernel")) with false.
    change (text_eqb (lit "Connected Layer") (lit "Pooling")) with false.
    change (text_eqb (lit "Connected Layer") (lit "Connected Layer")) with true. cbv iota.
    set (c0 := Conn (Par (Mat (D3 0 0 0) []) (Mat (D3 0 1 1) []) [] []) (D3 0 0 0) false : connected T).
    assert (C0 : c_make (T := T) 0 = Ok c0) by reflexivity. clearbody c0 || idtac.
    erewrite bind_ok by (unfold on_fst, add_connected; rewrite C0; reflexivity).
    pose proof (load_last_ok (Model (m_layers m) (m_labels m) (m_kc m) (m_pc m) (m_fc m + 1) (m_ac m)) (lit "FullyConnected_" ++ dec (m_fc m + 1))
      (LConn c0) (LConn c) txt t I LB) as LL. cbn [m_layers m_labels m_kc m_pc m_fc m_ac] in LL. use_last LL.
    eexists. split; [reflexivity|]. split; [|split; [|split; [|reflexivity]]]; cbn [m_layers].
    + eexists. rewrite map_app. split; [reflexivity|]. cbn. constructor; [|constructor]. injection C0 as <-. cbn. repeat split; auto.
    + eexists. reflexivity.
    + intros (C1 & C2 & C3 & C4 & C5). unfold counted. cbn [m_layers m_kc m_pc m_fc m_ac]. rewrite !how_many_app. unfold how_many at 2 4 6 8. cbn.
      repeat split; try lia. apply named_snoc; [exact C1|]. cbn [fst snd class_of layer_name l_back]. rewrite <- C4. reflexivity.
  - assert (X : exists u, txt = lit "Pooling" ++ nl ++ u) by (apply ok_inj in TX; subst; eexists; reflexivity).
    destruct X as [u X]. rewrite (START (lit "Pooling") u eq_refl X).
    unfold catch_runtime, load_branch. change (text_eqb (lit "Pooling") (lit "Kernel")) with false.
    change (text_eqb (lit "Pooling") (lit "Pooling")) with true. cbv iota.
    erewrite bind_ok by (unfold on_fst, add_pooling; reflexivity).
    pose proof (load_last_ok (Model (m_layers m) (m_labels m) (m_kc m) (m_pc m + 1) (m_fc m) (m_ac m)) (lit "Pooling_" ++ dec (m_pc m + 1))
      (LPool (q_make (D3 0 0 0) (D3 0 0 0) PMax)) (LPool q) txt t I LB) as LL. cbn [m_layers m_labels m_kc m_pc m_fc m_ac] in LL. use_last LL.
    eexists. split; [reflexivity|]. split; [|split; [|split; [|reflexivity]]]; cbn [m_layers].
    + eexists. rewrite map_app. split; [reflexivity|]. cbn. constructor; [|constructor]. cbn. repeat split; auto.
    + eexists. reflexivity.
    + intros (C1 & C2 & C3 & C4 & C5). unfold counted. cbn [m_layers m_kc m_pc m_fc m_ac]. rewrite !how_many_app. unfold how_many at 2 4 6 8. cbn.
      repeat split; try lia. apply named_snoc; [exact C1|]. cbn [fst snd class_of layer_name l_back]. rewrite <- C3. reflexivity.
  - assert (exists s, txt = lit "Activation" ++ nl ++ s ++ nl /\ no_nl s /\ ~ In s tags) as (s & -> & S1 & S2).
    { destruct (a_kind a) eqn:K; unfold a_text in TX; rewrite K in TX; cbn [to_string rbind] in TX; apply ok_inj in TX; subst;
        eexists; (split; [reflexivity|split; [reflexivity|]]); cbn; intuition discriminate. }
    exists m. split.
    2: { split; [exists []; rewrite app_nil_r; split; [reflexivity|constructor]|]. split; [exists []; rewrite app_nil_r; reflexivity|auto]. }
    rewrite skip_round; [|apply rule_no_nl|].
    2: { exists (lit "Activation"), (s ++ nl ++ t). rewrite <- !app_assoc. split; [reflexivity|]. split; [reflexivity|]. cbn. intuition discriminate. }
    rewrite <- !app_assoc. rewrite skip_round; [|reflexivity|].
    2: { exists s, t. auto. }
    apply skip_round; assumption.
Qed.

(** Any number of layers *)
Lemma load_layers : forall ls i m txt t, Forall (l_printable P) ls -> forallb (fun l => negb (is_soft l)) ls = true ->
  layers_text wr i ls = Ok txt -> dull t ->
  exists m', load_all rd E io (m, open_text (txt ++ t)) = load_all rd E io (m', open_text t) /\ extends m m' ls.
Proof.
  induction ls as [|l ls IH]; intros i m txt t F S TX D; cbn [layers_text] in TX.
  - apply ok_inj in TX; subst. exists m. split; [reflexivity|apply extends_refl].
  - destruct (l_text wr l) as [u| |] eqn:TU; try discriminate. cbn [rbind] in TX.
    destruct (layers_text wr (i + 1) ls) as [v| |] eqn:TV; try discriminate. cbn [rbind] in TX. apply ok_inj in TX; subst.
    cbn in S. apply andb_prop in S. destruct S as [S1 S2]. apply negb_true_iff in S1. inversion F; subst.
    replace ((lit "(" ++ dec i ++ lit ") ----------" ++ nl ++ u ++ v) ++ t) with (rule i ++ nl ++ u ++ (v ++ t))
      by (unfold rule; rewrite <- !app_assoc; reflexivity).
    destruct (load_layer l i m u (v ++ t)) as (m1 & E1 & X1); try assumption.
    { apply layers_dull with ls (i + 1); assumption. }
    destruct (IH (i + 1) m1 v t) as (m2 & E2 & X2); try assumption.
    exists m2. split; [congruence|]. apply (extends_trans m m1 m2 [l] ls); assumption.
Qed.

Lemma layers_text_total : forall ls i, Forall (l_printable P) ls -> exists txt, layers_text wr i ls = Ok txt.
Proof.
  induction ls as [|l ls IH]; intros i F; [eexists; reflexivity|]. inversion F; subst. destruct (l_text_back wr rd P back CO l) as (u & U & _); [assumption|].
  destruct (IH (i + 1)) as (v & V); [assumption|]. cbn [layers_text]. rewrite U. cbn [rbind]. rewrite V. eexists. reflexivity.
Qed.
Lemma layers_text_app : forall a b i u v, layers_text wr i a = Ok u -> layers_text wr (i + Z.of_nat (length a)) b = Ok v ->
  layers_text wr i (a ++ b) = Ok (u ++ v).
Proof.
  induction a as [|l a IH]; intros b i u v U V; cbn [layers_text app] in *.
  - apply ok_inj in U; subst. replace (i + Z.of_nat (@length (layer T) [])) with i in V by (cbn; lia). exact V.
  - destruct (l_text wr l); try discriminate. cbn [rbind] in *. destruct (layers_text wr (i + 1) a) eqn:W; try discriminate. cbn [rbind] in U.
    apply ok_inj in U; subst. erewrite IH; [|exact W|].
    + cbn [rbind]. rewrite <- !app_assoc. reflexivity.
    + replace (i + 1 + Z.of_nat (length a)) with (i + Z.of_nat (length (l :: a))) by (cbn [length]; lia). exact V.
Qed.

(** The labels *)
Lemma upd_app : forall {A} (a b : list A) x y, upd (a ++ x :: b) (length a) y = a ++ y :: b.
Proof. induction a; intros; cbn; [reflexivity|]. rewrite IHa. reflexivity. Qed.
Lemma vset_app : forall {A} (a b : list A) x y, vset (a ++ x :: b) (Z.of_nat (length a)) y = Ok (a ++ y :: b).
Proof.
  intros. unfold vset. rewrite app_length. cbn [length].
  replace ((0 <=? Z.of_nat (length a)) && (Z.of_nat (length a) <? Z.of_nat (length a + S (length b)))) with true.
  - rewrite Nat2Z.id, upd_app. reflexivity.
  - symmetry. apply andb_true_intro. split; [apply Z.leb_le|apply Z.ltb_lt]; lia.
Qed.
Lemma read_labels : forall ls done todo t, Forall Q ls -> length todo = length ls ->
  mfor_n (length ls) (Z.of_nat (length done)) (read_label io) (done ++ todo, open_text (concat (map (fun l => lb_put io l ++ nl) ls) ++ t)) =
  ORet (done ++ ls, open_text t) tt.
Proof.
  induction ls as [|l ls IH]; intros done todo t F LN.
  - destruct todo; [|discriminate]. reflexivity.
  - destruct todo as [|x todo]; [discriminate|]. inversion F; subst. cbn [map concat length mfor_n]. rewrite <- !app_assoc.
    unfold bind at 1. unfold read_label at 1.
    erewrite bind_ok by (apply on_snd_ok; unfold stm; rewrite LC by assumption; reflexivity).
    erewrite bind_ok by (apply on_snd_ok; unfold stm; rewrite clear_line_nl; reflexivity).
    cbv iota beta. erewrite bind_ok by reflexivity.
    erewrite bind_ok by reflexivity.
    erewrite bind_ok by (unfold lift; rewrite vset_app; reflexivity).
    unfold on_fst, mput.
    replace (done ++ l :: todo) with ((done ++ [l]) ++ todo) by (rewrite <- app_assoc; reflexivity).
    replace (Z.of_nat (length done) + 1) with (Z.of_nat (length (done ++ [l]))) by (rewrite app_length; cbn; lia).
    rewrite IH; [|assumption|cbn in LN; lia]. rewrite <- app_assoc. reflexivity.
Qed.

Lemma label_line : forall n t, - two31 <= n < two31 ->
  expect_int (lit "Output labels") (open_text (lit "Output labels " ++ dec n ++ nl ++ t)) = ORet (open_text t) n.
Proof. intros n t H. rewrite <- (expect_int_ok (lit "Output labels") n t H). unfold place. rewrite <- !app_assoc. reflexivity. Qed.

Lemma load_end : forall m, load_all rd E io (m, open_text nl) = ORet (m, IS [] false true) true.
Proof.
  intros m. rewrite (load_all_eq rd RD E io IO). change (getline (open_text nl)) with (@nil ascii, IS [] false false). cbn [failb].
  change (read_line (IS [] false false)) with (@nil ascii, IS [] false true). cbv iota beta.
  unfold catch_runtime. rewrite branch_other by (cbn; intuition discriminate).
  rewrite (load_all_eq rd RD E io IO). reflexivity.
Qed.

(** The Softmax entry with the labels, up to the end of the file *)
Lemma load_soft : forall i m ls, Forall Q ls -> Z.of_nat (length ls) < two31 ->
  exists s', load_all rd E io (m, open_text (rule i ++ nl ++ sm_text ++ labels_text io ls)) =
  ORet (Model (m_layers m ++ [(lit "SoftmaxOutput", LSoft (sm_make (Z.of_nat (length ls))))]) ls (m_kc m) (m_pc m) (m_fc m) (m_ac m), s') true.
Proof.
  intros i m ls F LN. rewrite (load_all_eq rd RD E io IO). rewrite getline_ok by apply rule_no_nl. cbn [failb open_text].
  match goal with |- context [read_line ?s] => change (read_line s) with (read_line (open_text (lit "Softmax" ++ nl ++ labels_text io ls))) end.
  rewrite read_line_ok by reflexivity. unfold catch_runtime, load_branch.
  change (text_eqb (lit "Softmax") (lit "Kernel")) with false. change (text_eqb (lit "Softmax") (lit "Pooling")) with false.
  change (text_eqb (lit "Softmax") (lit "Connected Layer")) with false. change (text_eqb (lit "Softmax") (lit "Softmax")) with true. cbv iota.
  unfold load_labels.
  erewrite bind_ok by (apply on_snd_ok; unfold stm; rewrite (clear_line_ok (lit "Softmax") (labels_text io ls)) by reflexivity; reflexivity).
  unfold labels_text.
  erewrite bind_ok by (apply on_snd_ok; unfold stm; rewrite clear_line_nl; reflexivity).
  erewrite bind_ok by (apply on_snd_ok; apply label_line; unfold two31 in *; lia).
  erewrite bind_ok.
  2: { unfold lift, vec_resize. destruct (_ <? 0) eqn:B; [lia|]. rewrite firstn_nil, Nat2Z.id. cbn [length app]. rewrite Nat.sub_0_r. reflexivity. }
  erewrite bind_ok.
  2: { unfold mfor. rewrite Nat2Z.id. pose proof (read_labels ls [] (repeat (lb_zero io) (length ls)) nl F (repeat_length _ _)) as RL.
       cbn [app length Z.of_nat] in RL. rewrite RL. reflexivity. }
  erewrite bind_ok by reflexivity. unfold ret.
  eexists. apply load_end.
Qed.

(** ... without Softmax and without labels *)
Lemma load_plain : forall m, exists s', load_all rd E io (m, open_text (labels_text io [])) = ORet (m, s') true.
Proof.
  intros m. unfold labels_text. cbn [map concat length Z.of_nat].
  change (nl ++ lit "Output labels " ++ dec 0 ++ nl ++ [] ++ nl) with ([] ++ nl ++ (lit "Output labels 0" ++ nl ++ nl)).
  rewrite skip_round; [|reflexivity|].
  2: { exists (lit "Output labels 0"), nl. split; [reflexivity|]. split; [reflexivity|]. cbn. intuition discriminate. }
  change (lit "Output labels 0" ++ nl ++ nl) with (lit "Output labels 0" ++ nl ++ ([] ++ nl ++ [])). rewrite skip_round; [|reflexivity|].
  2: { exists [], []. split; [reflexivity|]. split; [reflexivity|]. cbn. intuition discriminate. }
  eexists. apply load_end.
Qed.

(** A model whose file can be read: its matrices have elements, the last layer is the only Softmax (or there is neither a
    Softmax layer nor a label), and the labels can be read back *)
Inductive storable (m : model T L) : Prop :=
| storable_soft : forall body s, map snd (m_layers m) = body ++ [LSoft s] -> Forall (l_printable P) body ->
    forallb (fun l => negb (is_soft l)) body = true -> Forall Q (m_labels m) -> Z.of_nat (length (m_labels m)) < two31 -> storable m
| storable_plain : Forall (l_printable P) (map snd (m_layers m)) -> forallb (fun l => negb (is_soft l)) (map snd (m_layers m)) = true ->
    m_labels m = [] -> storable m.

(** What loadModel makes of the layer list [ls] of a file with [n] labels: activations are lost, for the other layers see [R] *)
Inductive reloaded (R : layer T -> layer T -> Prop) (n : Z) : list (layer T) -> list (layer T) -> Prop :=
| rl_nil : reloaded R n [] []
| rl_keep : forall l l' ls ls', R l l' -> reloaded R n ls ls' -> reloaded R n (l :: ls) (l' :: ls')
| rl_soft : forall s ls ls', reloaded R n ls ls' -> reloaded R n (LSoft s :: ls) (LSoft (sm_make n) :: ls')
| rl_act : forall a ls ls', reloaded R n ls ls' -> reloaded R n (LAct a :: ls) ls'.

Lemma reloaded_weaken : forall (R R' : layer T -> layer T -> Prop) (G : layer T -> Prop) n ls ls', (forall l l', G l -> R l l' -> R' l l') ->
  Forall G ls -> reloaded R n ls ls' -> reloaded R' n ls ls'.
Proof. intros R R' G n ls ls' H F X. induction X; inversion F; subst; [apply rl_nil|apply rl_keep|apply rl_soft|apply rl_act]; auto. Qed.
Lemma reloaded_filter : forall n ls ls', forallb (fun l => negb (is_soft l)) ls = true ->
  Forall2 restored (filter (fun l => negb (is_act l)) ls) ls' -> reloaded restored n ls ls'.
Proof.
  induction ls as [|l ls IH]; intros ls' S F.
  - inversion F. constructor.
  - cbn in S. apply andb_prop in S. destruct S as [S1 S2]. destruct l as [k|c|q|a|s]; cbn in F; try discriminate;
      try (inversion F; subst; apply rl_keep; [assumption|apply IH; assumption]).
    apply rl_act. apply IH; assumption.
Qed.
Lemma storable_printable : forall m, storable m -> Forall (l_printable P) (map snd (m_layers m)).
Proof. intros m [body s ML F _ _ _|F _ _]; [rewrite ML; apply Forall_app; split; [exact F|repeat constructor]|exact F]. Qed.
Lemma reloaded_app : forall R n a a' b b', reloaded R n a a' -> reloaded R n b b' -> reloaded R n (a ++ b) (a' ++ b').
Proof. induction 1; intros B; cbn; [exact B|apply rl_keep; auto|apply rl_soft; auto|apply rl_act; auto]. Qed.

Theorem save_load : forall m m0, storable m -> exists txt, save_model wr io m = Ok (true, txt) /\
  exists m', load_model rd E io (Some txt) m0 = ORet m' true /\
    (exists ls', map snd (m_layers m') = map snd (m_layers m0) ++ ls' /\ reloaded restored (Z.of_nat (length (m_labels m))) (map snd (m_layers m)) ls') /\
    (counted m0 -> counted m') /\
    ((exists s, In (LSoft s) (map snd (m_layers m))) \/ m_labels m0 = [] -> m_labels m' = m_labels m).
Proof.
  intros m m0 ST. unfold save_model. destruct ST as [body s ML F S FQ LN|F S ML].
  - rewrite ML. destruct (layers_text_total body 0 F) as [u U].
    assert (V : layers_text wr (0 + Z.of_nat (length body)) [LSoft s] = Ok (rule (Z.of_nat (length body)) ++ nl ++ sm_text)).
    { cbn [layers_text l_text rbind]. rewrite Z.add_0_l. unfold rule. rewrite <- !app_assoc, app_nil_r. reflexivity. }
    rewrite (layers_text_app body [LSoft s] 0 u _ U V). eexists. split; [reflexivity|].
    destruct (load_layers body 0 m0 u (rule (Z.of_nat (length body)) ++ nl ++ sm_text ++ labels_text io (m_labels m)) F S U (rule_dull _ _))
      as (m1 & E1 & ((l1 & X1 & X2) & _ & X3 & X4)).
    destruct (load_soft (Z.of_nat (length body)) m1 (m_labels m) FQ LN) as [s' E2].
    rewrite (load_model_eq rd E io). unfold open_file. rewrite <- !app_assoc. rewrite E1, E2. cbn [map_out fst].
    eexists. split; [reflexivity|]. cbn [m_layers m_labels]. split; [|split; [|reflexivity]].
    + rewrite map_app, X1, <- app_assoc. eexists. split; [reflexivity|]. apply reloaded_app; [apply reloaded_filter; assumption|].
      apply rl_soft, rl_nil.
    + intros C. destruct (X3 C) as (C1 & C2 & C3 & C4 & C5). unfold counted. cbn [m_layers m_kc m_pc m_fc m_ac].
      rewrite !how_many_app. unfold how_many at 2 4 6 8. cbn. repeat split; try lia. apply named_snoc; [exact C1|]. reflexivity.
  - destruct (layers_text_total _ 0 F) as [u U]. rewrite U. eexists. split; [reflexivity|]. rewrite ML.
    assert (D : dull (labels_text io [])).
    { exists [], (lit "Output labels 0" ++ nl ++ nl). split; [reflexivity|]. split; [reflexivity|]. cbn. intuition discriminate. }
    destruct (load_layers _ 0 m0 u (labels_text io []) F S U D) as (m1 & E1 & ((l1 & X1 & X2) & _ & X3 & X4)).
    destruct (load_plain m1) as [s' E2].
    rewrite (load_model_eq rd E io). unfold open_file. rewrite E1, E2. cbn [map_out fst].
    eexists. split; [reflexivity|]. split; [|split; [exact X3|]].
    + rewrite X1. eexists. split; [reflexivity|]. apply reloaded_filter; assumption.
    + intros [[s1 H]|H]; [|congruence]. exfalso. rewrite forallb_forall in S. specialize (S _ H). discriminate.
Qed.
End Load.
