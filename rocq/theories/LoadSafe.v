(** What loadModel can do on an arbitrary file. *)
From Coq Require Import String ZArith List Bool Ascii Lia.
From Flocq Require Import IEEE754.BinarySingleNaN.
From Verif Require Import Base Dim Matrix View Num Expr Spec Iter MatFacts Batch BatchThms Kernel Connected Float32 Pooling Activation
  Softmax Chars Model Net ModelThms Double Stream StreamFacts Text TextFacts LayerText LoadFacts LoadThms.
Import ListNotations.
Local Open Scope Z_scope.

(** Only these two exceptions *)
Definition calm {S A} (o : out S A) : Prop := match o with OThrow _ e => e = LengthError \/ e = RuntimeError | _ => True end.
Definition calmM {S A} (c : M S A) : Prop := forall s, calm (c s).

Lemma calm_ret : forall {S A} (a : A), calmM (S := S) (ret a).
Proof. intros S A a s. exact I. Qed.
Lemma calm_bind : forall {S A B} (c : M S A) (k : A -> M S B), calmM c -> (forall a, calmM (k a)) -> calmM (bind c k).
Proof. intros S A B c k H K s. specialize (H s). unfold bind. destruct (c s); cbn in *; [apply K|assumption|exact I]. Qed.
Lemma calm_ub : forall {S A}, calmM (S := S) (A := A) mub.
Proof. intros S A s. exact I. Qed.
Lemma calm_get : forall {S}, calmM (S := S) mget.
Proof. intros S s. exact I. Qed.
Lemma calm_stm : forall {A} (f : istream -> A * istream), calmM (stm f).
Proof. intros A f s. unfold stm. destruct (f s). exact I. Qed.
Lemma calm_snd : forall {A B C} (c : M B C), calmM c -> calmM (on_snd (A := A) c).
Proof. intros A B C c H [a b]. specialize (H b). unfold on_snd. destruct (c b); exact H. Qed.
Lemma calm_fst : forall {A B C} (c : M A C), calmM c -> calmM (on_fst (B := B) c).
Proof. intros A B C c H [a b]. specialize (H a). unfold on_fst. destruct (c a); exact H. Qed.
Lemma calm_upd : forall {A B} (f : A -> A), calmM (upd_fst (B := B) f).
Proof. intros A B f [a b]. exact I. Qed.
Lemma calm_field : forall {A B F C} (g : A -> F) (p : A -> F -> A) (c : M (F * B) C), calmM c -> calmM (on_field g p c).
Proof. intros A B F C g p c H [a b]. specialize (H (g a, b)). unfold on_field. destruct (c (g a, b)) as [[]|[]|]; exact H. Qed.
Lemma calm_res : forall {S A} (r : res A), match r with Throw e => e = LengthError \/ e = RuntimeError | _ => True end -> calmM (S := S) (lift r).
Proof. intros S A r H s. destruct r; exact H. Qed.
Lemma calm_bfor : forall {S} n (body : Z -> M S bool), (forall i, calmM (body i)) -> calmM (bfor n body).
Proof.
  intros S n body H. unfold bfor. generalize 0. induction (Z.to_nat n); intros z; cbn [bfor_n]; [apply calm_ret|].
  apply calm_bind; [apply H|]. intros []; [apply IHn0|apply calm_ret].
Qed.
Lemma calm_mfor : forall {S} n (body : Z -> M S unit), (forall i, calmM (body i)) -> calmM (mfor n body).
Proof.
  intros S n body H. unfold mfor. generalize 0. induction (Z.to_nat n); intros z; cbn [mfor_n]; [apply calm_ret|].
  apply calm_bind; [apply H|]. intros []. apply IHn0.
Qed.
Lemma calm_label : forall e, calmM (expect_label e).
Proof. intros e. unfold expect_label. apply calm_bind; [apply calm_stm|]. intros r. destruct (text_eqb e r); [apply calm_ret|]. intros s. cbn. auto. Qed.
Lemma calm_void : forall e, calmM (expect_void e).
Proof. intros e. unfold expect_void. apply calm_bind; [apply calm_label|]. intros _. apply calm_stm. Qed.
Lemma calm_val : forall {A} (g : istream -> option A * istream) e, calmM (expect_val g e).
Proof.
  intros A g e. unfold expect_val. apply calm_bind; [apply calm_label|]. intros _. apply calm_bind; [apply calm_stm|]. intros v.
  apply calm_bind; [apply calm_stm|]. intros _. destruct v; [apply calm_ret|apply calm_ub].
Qed.
Lemma calm_vget : forall {A} (l : list A) k, match vget l k with Throw e => e = LengthError \/ e = RuntimeError | _ => True end.
Proof. intros. unfold vget. destruct (_ && _); [|exact I]. destruct (nth_error l _); exact I. Qed.
Lemma calm_vset : forall {A} (l : list A) k v, match vset l k v with Throw e => e = LengthError \/ e = RuntimeError | _ => True end.
Proof. intros. unfold vset. destruct (_ && _); exact I. Qed.
Lemma calm_vres : forall {A} (a : A) l n, match vec_resize a l n with Throw e => e = LengthError \/ e = RuntimeError | _ => True end.
Proof. intros. unfold vec_resize. destruct (n <? 0); [auto|exact I]. Qed.
Lemma calm_int_prod : forall d, match int_prod d with Throw e => False | _ => True end.
Proof. intros. unfold int_prod, i32. destruct (_ && _); cbn [rbind]; [|exact I]. destruct (_ && _); exact I. Qed.

Section Load.
Context {T : Type} {N : Num T} (rd : istream -> option T * istream) (RD : eats rd).

Ltac quiet := repeat first [apply calm_void | apply calm_val | apply calm_bind; [|intros ?] | apply calm_snd | apply calm_fst
  | apply calm_upd | apply calm_ret | apply calm_stm | apply calm_get | apply calm_ub].

Lemma calm_mwrite : forall i (v : T), calmM (mwrite i v).
Proof.
  intros i v m. unfold mwrite. pose proof (calm_vset (mvals m) (get_index (mdim m) i) v) as H. destruct (vset _ _ _); try exact I; exact H.
Qed.
Lemma calm_resize : forall d, calmM (resize (n0 : T) d).
Proof.
  intros d m. unfold resize. pose proof (calm_int_prod d) as H. destruct (int_prod d); [|contradiction|exact I].
  pose proof (calm_vres (n0 : T) (mvals m) a) as V. destruct (vec_resize _ _ _); try exact I; exact V.
Qed.
Lemma calm_mat : calmM (mat_load rd).
Proof.
  unfold mat_load. quiet. destruct (failb _); [apply calm_ret|]. apply calm_bind; [apply calm_fst, calm_resize|]. intros _.
  apply calm_bfor. intros z. apply calm_bind.
  - apply calm_bfor. intros x. apply calm_bind.
    + apply calm_bfor. intros y. unfold read_elem. apply calm_bind; [apply calm_get|]. intros m. apply calm_bind.
      * apply calm_res. apply calm_vget.
      * intros _. apply calm_bind; [quiet|]. intros v. apply calm_bind; [destruct v; [apply calm_fst, calm_mwrite|apply calm_ret]|]. intros _. quiet.
    + intros []; [unfold skip_line; quiet|apply calm_ret].
  - intros []; [unfold skip_line; quiet|apply calm_ret].
Qed.
Lemma calm_par : calmM (par_load rd).
Proof.
  unfold par_load. quiet. { apply calm_field, calm_mat. } destruct (negb _); quiet. apply calm_field, calm_mat.
Qed.
Lemma calm_k : calmM (k_load rd).
Proof. unfold k_load. quiet; apply calm_field, calm_par. Qed.
Lemma calm_c : calmM (c_load rd).
Proof. unfold c_load. quiet. { apply calm_field, calm_par. } destruct (negb _); quiet. Qed.
Lemma calm_q : calmM q_load.
Proof. unfold q_load. quiet. apply calm_res. unfold pool_of. repeat destruct (text_eqb _ _); auto. Qed.
Lemma calm_a : calmM a_load.
Proof. unfold a_load. quiet. apply calm_res. unfold from_string. repeat match goal with |- context [if ?b then _ else _] => destruct b end; auto. Qed.
Lemma calm_map_fst : forall {A B C R} (f : A -> B) (o : out (A * C) R), calm o -> calm (map_fst f o).
Proof. intros. destruct o as [[]|[]|]; assumption. Qed.
Lemma calm_layer : calmM (l_load rd).
Proof.
  intros [l s]. destruct l; cbn [l_load]; apply calm_map_fst; [apply calm_k|apply calm_c|apply calm_q|apply calm_a|].
  unfold sm_load. revert s. intros. apply calm_bind; quiet.
Qed.

Context (E : env T) {L : Type} (io : label_io (L := L)) (IO : eats (lb_get io)).
Lemma calm_last : calmM (load_last (L := L) rd).
Proof. intros [m s]. unfold load_last. destruct (rev _) as [|[nm l] r]; [exact I|]. apply calm_map_fst, calm_layer. Qed.
Lemma calm_labels : calmM (load_labels (T := T) io).
Proof.
  unfold load_labels. do 3 (apply calm_bind; [quiet|intros ?]). apply calm_bind; [apply calm_res, calm_vres|]. intros ls. apply calm_bind.
  - intros [m s]. assert (C : calm (mfor a1 (read_label io) (ls, s))).
    { apply calm_mfor. intros i. unfold read_label. apply calm_bind; [quiet|]. intros v. apply calm_bind; [quiet|]. intros _.
      apply calm_bind; [destruct (match v with Some _ => _ | None => _ end); quiet|]. intros a2. apply calm_bind; [quiet|]. intros l2.
      apply calm_bind; [apply calm_res, calm_vset|]. intros l3. apply calm_fst. intros s'. exact I. }
    destruct (mfor a1 (read_label io) (ls, s)) as [[]|[]|]; exact C.
  - intros l. apply calm_bind; [apply calm_fst; intros m; exact I|]. intros _. apply calm_ret.
Qed.
Lemma calm_branch : forall t, calmM (load_branch rd E io t).
Proof.
  intros t. unfold load_branch. repeat destruct (text_eqb t _).
  - apply calm_bind; [|intros _; apply calm_last]. apply calm_fst. intros m. unfold add_kernel.
    destruct (k_make_zero E) as (k & K & _). rewrite K. exact I.
  - apply calm_bind; [|intros _; apply calm_last]. apply calm_fst. intros m. exact I.
  - apply calm_bind; [|intros _; apply calm_last]. apply calm_fst. intros m. exact I.
  - apply calm_labels.
  - apply calm_ret.
Qed.

(** loadModel returns, or std::length_error leaves it, or the behaviour is undefined *)
Theorem load_outcomes : forall file m, match load_model rd E io file m with OThrow _ e => e = LengthError | _ => True end.
Proof.
  intros file m. rewrite (load_model_eq rd E io). set (s := open_file file). clearbody s.
  enough (H : match load_all rd E io (m, s) with OThrow _ e => e = LengthError | _ => True end) by (destruct (load_all rd E io (m, s)); exact H).
  remember (left s) as n eqn:LN. revert m s LN. induction n as [n IH] using lt_wf_ind. intros m s ->.
  rewrite (load_all_eq rd RD E io IO). pose proof (getline_takes s) as GT. destruct (getline s) as [line s1]. cbn [snd] in GT.
  destruct (failb s1); [exact I|]. specialize (GT eq_refl).
  pose proof (read_line_eats s1) as RL. destruct (read_line s1) as [label s2]. cbn [snd] in RL.
  pose proof (eats_catch _ (eats_branch rd RD E io IO label) m s2) as EB.
  pose proof (calm_branch label (m, s2)) as CB. unfold catch_runtime in *.
  destruct (load_branch rd E io label (m, s2)) as [[m3 s3] []|[m3 s3] e|]; cbn in EB, CB; try exact I.
  - apply (IH (left s3)); [lia|reflexivity].
  - destruct CB as [-> | ->]; [reflexivity|exact I].
Qed.

(** ** Files without a layer *)
(** The lines of a text *)
Fixpoint lines (t : text) : list text :=
  match t with
  | [] => [[]]
  | c :: t' => if Ascii.eqb c newline then [] :: lines t'
               else match lines t' with l :: ls => (c :: l) :: ls | [] => [[c]] end
  end.

Lemma lines_app : forall a t, no_nl a -> lines (a ++ nl ++ t) = a :: lines t.
Proof.
  induction a; intros t A; [reflexivity|]. unfold no_nl in A. cbn [forallb] in A. apply andb_prop in A. destruct A as [A1 A2].
  cbn [app lines]. apply negb_true_iff in A1. rewrite A1, IHa by exact A2. reflexivity.
Qed.
Lemma lines_one : forall a, no_nl a -> lines a = [a].
Proof.
  induction a; intros A; [reflexivity|]. unfold no_nl in A. cbn [forallb] in A. apply andb_prop in A. destruct A as [A1 A2].
  cbn [lines]. apply negb_true_iff in A1. rewrite A1, IHa by exact A2. reflexivity.
Qed.

(** A text whose lines after the first are no tags is read without adding anything, and the result is true. *)
Theorem load_nothing : forall t m, (forall a, In a (tl (lines t)) -> ~ In a tags) -> load_model rd E io (Some t) m = ORet m true.
Proof.
  intros t m H. rewrite (load_model_eq rd E io). cbn [open_file].
  enough (exists s, load_all rd E io (m, open_text t) = ORet (m, s) true) as [s ->] by reflexivity.
  remember (length t) as n eqn:LN. revert t H LN. induction n as [n IH] using lt_wf_ind. intros t H ->.
  destruct (span (fun c => negb (Ascii.eqb c newline)) t) as [a b] eqn:SP. destruct (span_split _ _ _ _ SP) as (TE & A & B).
  rewrite (load_all_eq rd RD E io IO). subst t.
  assert (END : forall b, exists s, match catch_runtime (load_branch rd E io []) (m, IS [] b true) with
    | ORet st true => load_all rd E io st | ORet st false => ORet st false | OThrow st e => OThrow st e | OUB => OUB end = ORet (m, s) true).
  { intros b0. unfold catch_runtime. rewrite branch_other by (cbn; intuition discriminate).
    rewrite (load_all_eq rd RD E io IO). unfold getline, sentry, good. cbn [eofb failb]. rewrite andb_false_r. cbn. eexists. reflexivity. }
  destruct b as [|c b].
  - rewrite app_nil_r, getline_end by exact A. cbn [failb]. destruct a as [|x a]; cbn [is_nil]; [eexists; reflexivity|].
    change (read_line (IS [] true false)) with (@nil ascii, IS [] false true). apply END.
  - unfold stops in B. apply negb_false_iff in B. apply Ascii.eqb_eq in B. subst c.
    change (a ++ newline :: b) with (a ++ nl ++ b) in *. rewrite getline_ok by exact A. cbn [failb open_text].
    rewrite lines_app in H by exact A. cbn [tl] in H.
    destruct b as [|x b].
    + change (read_line (IS [] false false)) with (@nil ascii, IS [] false true). apply END.
    + assert (RLN : exists l, read_line (IS (x :: b) false false) = (l, open_text (x :: b)) /\ In l (lines (x :: b)) /\ tl (lines (x :: b)) = tl (lines (x :: b))).
      { destruct (span (fun c => negb (Ascii.eqb c newline)) (x :: b)) as [a1 b1] eqn:SP1. destruct (span_split _ _ _ _ SP1) as (TE1 & A1 & B1).
        rewrite TE1. destruct b1 as [|c b1].
        - rewrite app_nil_r in *. subst a1. exists (x :: b). split; [|split; [rewrite lines_one by exact A1; left; reflexivity|reflexivity]].
          unfold read_line, sentry, good. cbn [eofb failb negb andb]. change (IS (x :: b) false false) with (open_text (x :: b)).
          rewrite getline_end by exact A1. reflexivity.
        - unfold stops in B1. apply negb_false_iff in B1. apply Ascii.eqb_eq in B1. subst c. change (a1 ++ newline :: b1) with (a1 ++ nl ++ b1).
          exists a1. split; [apply read_line_ok; exact A1|]. split; [rewrite lines_app by exact A1; left; reflexivity|reflexivity]. }
      destruct RLN as (l & RL & IN & _).
      match goal with |- context [read_line ?s] => change (read_line s) with (read_line (IS (x :: b) false false)) end. rewrite RL. unfold catch_runtime. rewrite branch_other by (apply H; exact IN).
      apply (IH (length (x :: b))); [|intros l0 I0; apply H; destruct (lines (x :: b)); [contradiction|right; exact I0]|reflexivity].
      rewrite !app_length. cbn. lia.
Qed.

(** A file that cannot be opened *)
Theorem load_missing : forall m, load_model rd E io None m = ORet m true.
Proof. reflexivity. Qed.
End Load.
