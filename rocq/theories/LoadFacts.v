(** Loading never reads a character twice: the rest of the stream does not grow, and every round of the loop of loadModel
    takes a character. *)
From Coq Require Import String ZArith List Bool Ascii Lia.
From Flocq Require Import IEEE754.BinarySingleNaN.
From Verif Require Import Base Dim Matrix View Num Expr Spec Iter MatFacts Batch Kernel Connected Float32 Pooling Activation Softmax
  Chars Model Net ModelThms Double Stream StreamFacts Text TextFacts LayerText.
Import ListNotations.
Local Open Scope Z_scope.

(** Number of characters left *)
Definition left (s : istream) : nat := length (rest s).

(** A function on streams that does not make the rest longer *)
Definition eats {A} (f : istream -> A * istream) : Prop := forall s, (left (snd (f s)) <= left s)%nat.

Lemma span_len : forall p t, (length (snd (span p t)) <= length t)%nat.
Proof. intros. destruct (span p t) as [a b] eqn:E. apply span_split in E. destruct E as [-> _]. rewrite app_length. cbn. lia. Qed.

Lemma sentry_eats : forall k s, (left (snd (sentry k s)) <= left s)%nat.
Proof.
  intros k s. unfold sentry. destruct (good s); cbn [negb]; [|cbn; unfold left; cbn; lia].
  destruct k; [|cbn; lia]. destruct (is_nil _); unfold left; cbn [snd rest length]; [lia|]. apply span_len.
Qed.

Lemma getline_eats : eats getline.
Proof.
  intros s. unfold getline. pose proof (sentry_eats false s) as S. destruct (sentry false s) as [[] s']; cbn [snd] in *; [|assumption].
  pose proof (span_len (fun c => negb (Ascii.eqb c newline)) (rest s')) as L. destruct (span _ (rest s')) as [a b]. cbn [snd] in L.
  unfold left in *. destruct b; cbn in *; lia.
Qed.
(** A getline that succeeds takes a character *)
Lemma getline_takes : forall s, failb (snd (getline s)) = false -> (left (snd (getline s)) < left s)%nat.
Proof.
  intros s. unfold getline. unfold sentry. destruct (good s); cbn [negb]; [|discriminate].
  destruct (span (fun c => negb (Ascii.eqb c newline)) (rest s)) as [a b] eqn:E. apply span_split in E. destruct E as [E [_ _]].
  unfold left. rewrite E, app_length. destruct b as [|c b]; cbn.
  - destruct a; [discriminate|cbn; lia].
  - intros _. lia.
Qed.

Lemma ignore_len : forall t n, (length (fst (ignore_nl n t)) <= length t)%nat.
Proof.
  induction t; intros n; cbn [ignore_nl].
  - destruct (n <=? 0); cbn; lia.
  - destruct (n <=? 0); [cbn; lia|]. destruct (Ascii.eqb a newline); [cbn; lia|]. specialize (IHt (n - 1)). cbn [length]. lia.
Qed.
Lemma clear_line_eats : forall s, (left (clear_line s) <= left s)%nat.
Proof.
  intros s. unfold clear_line. pose proof (sentry_eats false s) as S. destruct (sentry false s) as [[] s']; cbn [snd] in *; [|assumption].
  pose proof (ignore_len (rest s') (two31 - 1)) as L. destruct (ignore_nl _ _) as [r e]. unfold left in *. cbn in *. lia.
Qed.
Lemma read_n_eats : forall n, eats (read_n n).
Proof.
  intros n s. unfold read_n. pose proof (sentry_eats false s) as S. destruct (sentry false s) as [[] s']; cbn [snd] in *; [|assumption].
  unfold left in *. cbn [rest]. rewrite skipn_length. lia.
Qed.
Lemma read_line_eats : eats read_line.
Proof.
  intros s. unfold read_line. pose proof (sentry_eats false s) as S. destruct (sentry false s) as [b s1]. cbn [snd] in S.
  pose proof (getline_eats s1) as G. destruct (getline s1) as [a s2]. cbn [snd] in *. destruct (failb s2); unfold left in *; cbn in *; lia.
Qed.
Lemma scan_sign_len : forall t, (length (snd (scan_sign t)) <= length t)%nat.
Proof. intros [|c t]; cbn; [lia|]. destruct (Ascii.eqb c "-"); [cbn; lia|]. destruct (Ascii.eqb c "+"); cbn; lia. Qed.
Lemma scan_int_len : forall t, (length (snd (scan_int t)) <= length t)%nat.
Proof.
  intros t. unfold scan_int. pose proof (scan_sign_len t) as L. destruct (scan_sign t) as [b t1]. cbn [snd] in L.
  pose proof (span_len is_digit t1) as L2. destruct (span is_digit t1). cbn [snd] in *. lia.
Qed.
Lemma get_int_eats : eats get_int.
Proof.
  intros s. unfold get_int. pose proof (sentry_eats true s) as S. destruct (sentry true s) as [[] s']; cbn [snd] in *; [|assumption].
  pose proof (scan_int_len (rest s')) as L. destruct (scan_int (rest s')) as [[neg ds] t]. cbn [snd] in L. unfold left in *.
  repeat match goal with |- context [if ?b then _ else _] => destruct b end; cbn; lia.
Qed.
Lemma get_unsigned_eats : eats get_unsigned.
Proof.
  intros s. unfold get_unsigned. pose proof (sentry_eats true s) as S. destruct (sentry true s) as [[] s']; cbn [snd] in *; [|assumption].
  pose proof (scan_int_len (rest s')) as L. destruct (scan_int (rest s')) as [[neg ds] t]. cbn [snd] in L. unfold left in *.
  destruct (is_nil ds); [cbn; lia|]. destruct (two32 <=? num_of ds); cbn; lia.
Qed.
Lemma scan_float_len : forall t, (length (snd (scan_float t)) <= length t)%nat.
Proof.
  intros t. unfold scan_float. pose proof (scan_sign_len t) as L. destruct (scan_sign t) as [b t1]. cbn [snd] in L.
  pose proof (span_len is_digit t1) as L2. destruct (span is_digit t1) as [d1 t2]. cbn [snd] in L2.
  assert (L3 : (length (snd (match t2 with c :: t2' => if Ascii.eqb c "." then span is_digit t2' else ([], t2) | [] => ([], t2) end)) <= length t2)%nat).
  { destruct t2 as [|c t2]; [cbn; lia|]. destruct (Ascii.eqb c "."); [|cbn; lia]. apply le_S, span_len. }
  destruct (match t2 with c :: t2' => _ | [] => _ end) as [d2 t3]. cbn [snd] in L3.
  destruct t3 as [|c t4]; [cbn in *; lia|].
  destruct (_ && _); [|cbn in *; lia].
  pose proof (scan_int_len t4) as L4. destruct (scan_int t4) as [[en ds] t5]. cbn [snd length] in *. lia.
Qed.
Lemma get_double_eats : eats get_double.
Proof.
  intros s. unfold get_double. pose proof (sentry_eats true s) as S. destruct (sentry true s) as [[] s']; cbn [snd] in *; [|assumption].
  pose proof (scan_float_len (rest s')) as L. destruct (scan_float (rest s')) as [[[[neg d1] d2] ex] t]. cbn [snd] in L. unfold left in *.
  destruct (if is_nil (d1 ++ d2) then _ else _); [|cbn; lia].
  destruct (is_finite _); cbn; lia.
Qed.
Lemma get_char_eats : eats get_char.
Proof.
  intros s. unfold get_char. pose proof (sentry_eats true s) as S. destruct (sentry true s) as [[] s']; cbn [snd] in *; [|assumption].
  unfold left in *. destruct (rest s') eqn:R; cbn in *; [rewrite R; cbn; lia|lia].
Qed.
Lemma get_word_eats : eats get_word.
Proof.
  intros s. unfold get_word. pose proof (sentry_eats true s) as S. destruct (sentry true s) as [[] s']; cbn [snd] in *; [|assumption].
  pose proof (span_len (fun c => negb (is_space c)) (rest s')) as L. destruct (span _ (rest s')) as [a b]. unfold left in *. cbn in *. lia.
Qed.

(** A computation on an object and a stream that does not make the rest longer *)
Definition eatsM {A B} (c : M (A * istream) B) : Prop :=
  forall a s, leaves (c (a, s)) (fun st => (left (snd st) <= left s)%nat).

Lemma eats_ret : forall {A B} (b : B), eatsM (A := A) (ret b).
Proof. intros A B b a s. cbn. lia. Qed.
Lemma eats_get : forall {A}, eatsM (A := A) mget.
Proof. intros A a s. cbn. lia. Qed.
Lemma eats_lift : forall {A B} (r : res B), eatsM (A := A) (lift r).
Proof. intros A B r a s. destruct r; cbn; lia. Qed.
Lemma eats_throw : forall {A B} e, eatsM (A := A) (B := B) (mthrow e).
Proof. intros A B e a s. cbn. lia. Qed.
Lemma eats_ub : forall {A B}, eatsM (A := A) (B := B) mub.
Proof. intros A B a s. exact I. Qed.
Lemma eats_bind : forall {A B C} (c : M (A * istream) B) (k : B -> M (A * istream) C),
  eatsM c -> (forall b, eatsM (k b)) -> eatsM (bind c k).
Proof.
  intros A B C c k H K a s. specialize (H a s). unfold bind. destruct (c (a, s)) as [[a' s'] b|[a' s'] e|]; cbn in *; [|assumption|exact I].
  specialize (K b a' s'). destruct (k b (a', s')); cbn in *; [lia|lia|exact I].
Qed.
Lemma eats_fst : forall {A B} (c : M A B), eatsM (on_fst c).
Proof. intros A B c a s. unfold on_fst. destruct (c a); cbn; (lia || exact I). Qed.
Lemma eats_upd : forall {A} (f : A -> A), eatsM (upd_fst f).
Proof. intros A f a s. cbn. lia. Qed.
Lemma eats_snd_stm : forall {A B} (f : istream -> B * istream), eats f -> eatsM (A := A) (on_snd (stm f)).
Proof. intros A B f H a s. unfold on_snd, stm. specialize (H s). destruct (f s). cbn in *. assumption. Qed.
Lemma eats_snd_get : forall {A}, eatsM (A := A) (on_snd mget).
Proof. intros A a s. cbn. lia. Qed.
Lemma eats_clear : forall {A B} (b : B), eatsM (A := A) (on_snd (stm (fun s => (b, clear_line s)))).
Proof. intros. apply eats_snd_stm. intros s. cbn. apply clear_line_eats. Qed.
Lemma on_snd_bind : forall {A B C D} (c : M B C) (k : C -> M B D) (st : A * B),
  on_snd (bind c k) st = bind (on_snd c) (fun x => on_snd (k x)) st.
Proof. intros A B C D c k [a b]. unfold on_snd, bind. destruct (c b); [|reflexivity|reflexivity]. reflexivity. Qed.
Lemma eats_snd_bind : forall {A B C} (c : M istream B) (k : B -> M istream C),
  eatsM (A := A) (on_snd c) -> (forall x, eatsM (A := A) (on_snd (k x))) -> eatsM (A := A) (on_snd (bind c k)).
Proof. intros A B C c k H K a s. rewrite on_snd_bind. apply eats_bind; assumption. Qed.
Lemma eats_snd_ret : forall {A B} (b : B), eatsM (A := A) (on_snd (ret b)).
Proof. intros A B b a s. cbn. lia. Qed.
Lemma eats_snd_throw : forall {A B} e, eatsM (A := A) (B := B) (on_snd (mthrow e)).
Proof. intros A B e a s. cbn. lia. Qed.
Lemma eats_snd_ub : forall {A B}, eatsM (A := A) (B := B) (on_snd mub).
Proof. intros A B a s. exact I. Qed.
Lemma eats_field : forall {A F B} (g : A -> F) (p : A -> F -> A) (c : M (F * istream) B), eatsM c -> eatsM (on_field g p c).
Proof. intros A F B g p c H a s. unfold on_field. specialize (H (g a) s). destruct (c (g a, s)) as [[]|[]|]; cbn in *; assumption. Qed.

Lemma eats_expect_label : forall {A} e, eatsM (A := A) (on_snd (expect_label e)).
Proof.
  intros. unfold expect_label. apply eats_snd_bind; [apply eats_snd_stm, read_n_eats|].
  intros r. destruct (text_eqb e r); [apply eats_snd_ret|apply eats_snd_throw].
Qed.
Lemma eats_expect_void : forall {A} e, eatsM (A := A) (on_snd (expect_void e)).
Proof. intros. unfold expect_void. apply eats_snd_bind; [apply eats_expect_label|]. intros _. apply eats_clear. Qed.
Lemma eats_expect_val : forall {A B} (g : istream -> option B * istream) e, eats g -> eatsM (A := A) (on_snd (expect_val g e)).
Proof.
  intros A B g e G. unfold expect_val. apply eats_snd_bind; [apply eats_expect_label|]. intros _.
  apply eats_snd_bind; [apply eats_snd_stm; assumption|]. intros v.
  apply eats_snd_bind; [apply eats_clear|]. intros _. destruct v; [apply eats_snd_ret|apply eats_snd_ub].
Qed.
Lemma eats_expect_int : forall {A} e, eatsM (A := A) (on_snd (expect_int e)).
Proof. intros. apply eats_expect_val, get_int_eats. Qed.
Lemma eats_expect_unsigned : forall {A} e, eatsM (A := A) (on_snd (expect_unsigned e)).
Proof. intros. apply eats_expect_val, get_unsigned_eats. Qed.

Lemma eats_bfor : forall {A} n (body : Z -> M (A * istream) bool), (forall i, eatsM (body i)) -> eatsM (bfor n body).
Proof.
  intros A n body H. unfold bfor. generalize 0. induction (Z.to_nat n); intros z; cbn [bfor_n]; [apply eats_ret|].
  apply eats_bind; [apply H|]. intros []; [apply IHn0|apply eats_ret].
Qed.
Lemma eats_mfor : forall {A} n (body : Z -> M (A * istream) unit), (forall i, eatsM (body i)) -> eatsM (mfor n body).
Proof.
  intros A n body H. unfold mfor. generalize 0. induction (Z.to_nat n); intros z; cbn [mfor_n]; [apply eats_ret|].
  apply eats_bind; [apply H|]. intros []. apply IHn0.
Qed.

Section Load.
Context {T : Type} {N : Num T} (rd : istream -> option T * istream) (RD : eats rd).

Ltac eat := repeat first [apply eats_bind; [|intros ?] | apply eats_expect_void | apply eats_expect_int | apply eats_expect_unsigned
  | apply eats_upd | apply eats_ret | apply eats_lift | apply eats_fst | apply eats_snd_get | apply eats_get | apply eats_clear
  | (apply eats_snd_stm; first [exact RD | apply getline_eats | apply get_int_eats]) | apply eats_ub | apply eats_throw].

Lemma eats_mat_load : eatsM (mat_load rd).
Proof.
  unfold mat_load. eat. destruct (failb _); [apply eats_ret|]. apply eats_bind; [apply eats_fst|]. intros _.
  apply eats_bfor. intros z. apply eats_bind.
  - apply eats_bfor. intros x. apply eats_bind.
    + apply eats_bfor. intros y. unfold read_elem. eat.
      match goal with |- context [match ?v with Some _ => _ | None => _ end] => destruct v end; eat.
    + intros []; [apply eats_clear|apply eats_ret].
  - intros []; [apply eats_clear|apply eats_ret].
Qed.
Lemma eats_par_load : eatsM (par_load rd).
Proof.
  unfold par_load. apply eats_bind; [apply eats_expect_void|]. intros _. apply eats_bind; [apply eats_field, eats_mat_load|].
  intros []; cbn [negb]; [|apply eats_ret]. apply eats_bind; [apply eats_expect_void|]. intros _. apply eats_field, eats_mat_load.
Qed.
Lemma eats_k_load : eatsM (k_load rd).
Proof. unfold k_load. eat. apply eats_field, eats_par_load. Qed.
Lemma eats_c_load : eatsM (c_load rd).
Proof. unfold c_load. do 3 (apply eats_bind; [eat|intros ?]). apply eats_bind; [apply eats_field, eats_par_load|]. intros []; cbn [negb]; eat. Qed.
Lemma eats_q_load : eatsM q_load.
Proof. unfold q_load. eat. Qed.
Lemma eats_a_load : eatsM a_load.
Proof. unfold a_load. eat. Qed.
Lemma eats_sm_load : eatsM sm_load.
Proof. unfold sm_load. eat. Qed.
Lemma leaves_map_fst : forall {A B C} (f : A -> B) (o : out (A * istream) C) n,
  leaves o (fun st => (left (snd st) <= n)%nat) -> leaves (map_fst f o) (fun st => (left (snd st) <= n)%nat).
Proof. intros. destruct o as [[]|[]|]; cbn in *; assumption. Qed.
Lemma eats_l_load : eatsM (l_load rd).
Proof.
  intros l s. destruct l; cbn [l_load]; apply leaves_map_fst;
    [apply eats_k_load|apply eats_c_load|apply eats_q_load|apply eats_a_load|apply eats_sm_load].
Qed.

Section Object.
Context (E : env T) {L : Type} (io : label_io (L := L)) (IO : eats (lb_get io)).
Lemma eats_load_last : eatsM (load_last (L := L) rd).
Proof.
  intros m s. unfold load_last. destruct (rev (m_layers m)) as [|[nm l] r]; [exact I|]. apply leaves_map_fst, eats_l_load.
Qed.
Lemma eats_read_label : forall i, eatsM (read_label io i).
Proof.
  intros i. unfold read_label. apply eats_bind; [apply eats_snd_stm; exact IO|]. intros v. apply eats_bind; [apply eats_clear|]. intros _.
  apply eats_bind; [destruct (match v with Some a => Some a | None => _ end); eat|]. intros a. eat.
Qed.
Lemma eats_load_labels : eatsM (load_labels (T := T) io).
Proof.
  unfold load_labels. apply eats_bind; [apply eats_clear|]. intros _. apply eats_bind; [apply eats_clear|]. intros _.
  apply eats_bind; [apply eats_expect_int|]. intros n. apply eats_bind; [apply eats_lift|]. intros ls. apply eats_bind.
  - intros m s. pose proof (eats_mfor n (read_label io) eats_read_label ls s) as H. destruct (mfor n (read_label io) (ls, s)) as [[]|[]|]; exact H.
  - intros l'. apply eats_bind; [apply eats_fst|]. intros _. apply eats_ret.
Qed.
Lemma eats_branch : forall t, eatsM (load_branch rd E io t).
Proof.
  intros t. unfold load_branch. repeat destruct (text_eqb t _).
  - apply eats_bind; [apply eats_fst|]. intros _. apply eats_load_last.
  - apply eats_bind; [apply eats_fst|]. intros _. apply eats_load_last.
  - apply eats_bind; [apply eats_fst|]. intros _. apply eats_load_last.
  - apply eats_load_labels.
  - apply eats_ret.
Qed.
Lemma eats_catch : forall c, eatsM c -> eatsM (catch_runtime (T := T) (L := L) c).
Proof. intros c H a s. specialize (H a s). unfold catch_runtime. destruct (c (a, s)) as [[]|[] []|]; exact H. Qed.

Lemma load_loop_step : forall f m s, load_loop rd E io (S f) (m, s) =
  let '(_, s1) := getline s in
  if failb s1 then ORet (m, s1) true
  else let '(label, s2) := read_line s1 in
       match catch_runtime (load_branch rd E io label) (m, s2) with
       | ORet st true => load_loop rd E io f st
       | ORet st false => ORet st false
       | OThrow st e => OThrow st e
       | OUB => OUB
       end.
Proof.
  intros f m s. cbn [load_loop]. unfold bind at 1. unfold on_snd at 1, stm at 1. destruct (getline s) as [line s1].
  unfold bind at 1. unfold on_snd at 1, mget. destruct (failb s1); [reflexivity|].
  unfold bind at 1. unfold on_snd at 1, stm. destruct (read_line s1) as [label s2]. unfold bind.
  destruct (catch_runtime _ (m, s2)) as [st []|st e|]; reflexivity.
Qed.

(** The loop with enough rounds *)
Definition load_all : M (model T L * istream) bool := fun st => load_loop rd E io (S (left (snd st))) st.

Lemma load_loop_fuel : forall f m s, (left s < f)%nat -> load_loop rd E io f (m, s) = load_all (m, s).
Proof.
  assert (G : forall f g m s, (left s < f)%nat -> (left s < g)%nat -> load_loop rd E io f (m, s) = load_loop rd E io g (m, s)).
  { induction f; intros g m s F H; [lia|]. destruct g; [lia|]. rewrite !load_loop_step.
    pose proof (getline_takes s) as GT. destruct (getline s) as [line s1]. cbn [snd] in GT.
    destruct (failb s1); [reflexivity|]. specialize (GT eq_refl).
    pose proof (read_line_eats s1) as RL. destruct (read_line s1) as [label s2]. cbn [snd] in RL.
    pose proof (eats_catch _ (eats_branch label) m s2) as EB.
    destruct (catch_runtime _ (m, s2)) as [[m3 s3] []|[m3 s3] e|]; cbn in EB; try reflexivity. apply IHf; lia. }
  intros f m s F. apply G; [assumption|cbn; lia].
Qed.

Lemma load_all_eq : forall m s, load_all (m, s) =
  let '(_, s1) := getline s in
  if failb s1 then ORet (m, s1) true
  else let '(label, s2) := read_line s1 in
       match catch_runtime (load_branch rd E io label) (m, s2) with
       | ORet st true => load_all st
       | ORet st false => ORet st false
       | OThrow st e => OThrow st e
       | OUB => OUB
       end.
Proof.
  intros m s. unfold load_all at 1. cbn [snd]. rewrite load_loop_step.
  pose proof (getline_takes s) as GT. destruct (getline s) as [line s1]. cbn [snd] in GT.
  destruct (failb s1); [reflexivity|]. specialize (GT eq_refl).
  pose proof (read_line_eats s1) as RL. destruct (read_line s1) as [label s2]. cbn [snd] in RL.
  pose proof (eats_catch _ (eats_branch label) m s2) as EB.
  destruct (catch_runtime _ (m, s2)) as [[m3 s3] []|[m3 s3] e|]; cbn in EB; try reflexivity. apply load_loop_fuel. lia.
Qed.

Lemma load_model_eq : forall file m, load_model rd E io file m = map_out fst (load_all (m, open_file file)).
Proof. reflexivity. Qed.
End Object.
End Load.
