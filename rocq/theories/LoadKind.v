(** Layers that are loaded from the text of something else. *)
From Coq Require Import String ZArith List Bool Ascii Lia.
From Verif Require Import Base Dim Matrix View Num Expr Spec Iter MatFacts Batch Kernel Connected Float32 Pooling Activation Softmax Chars Model
  Double Stream StreamFacts Text TextFacts LayerText FreeText FreeSize.
Import ListNotations.
Local Open Scope Z_scope.

(** The first line that a layer writes: Kernel.cpp 225, ConnectedLayer.cpp 142, Pooling.cpp 138, Activation.cpp 86, Softmax.cpp 91 *)
Definition kind_name {T} (l : layer T) : text :=
  match l with LKernel _ => lit "Kernel" | LConn _ => lit "Connected Layer" | LPool _ => lit "Pooling" | LAct _ => lit "Activation" | LSoft _ => lit "Softmax" end.
Lemma kind_letters : forall T (l : layer T), letters (kind_name l).
Proof.
  intros T []; (split; [discriminate|]).
  - apply (not_blank (lit "Kerne") "l"%char). discriminate.
  - apply (not_blank (lit "Connected Laye") "r"%char). discriminate.
  - apply (not_blank (lit "Poolin") "g"%char). discriminate.
  - apply (not_blank (lit "Activatio") "n"%char). discriminate.
  - apply (not_blank (lit "Softma") "x"%char). discriminate.
Qed.

Section Kind.
Context {T : Type} {N : Num T} (put : T -> text) (rd : istream -> option T * istream).

Lemma kind_stuck : forall l s, stuck (kind_name l) s -> exists s', l_load rd (l, s) = OThrow (l, s') RuntimeError.
Proof.
  intros l s H. destruct (void_stuck (kind_name l) s (kind_letters T l) H) as (s' & Q). exists s'. destruct l; cbn [kind_name l_load] in *;
    unfold k_load, c_load, q_load, a_load, sm_load, bind at 1, on_snd; rewrite Q; reflexivity.
Qed.
Theorem kind_missing : forall l t, (~ exists r, t = kind_name l ++ r) -> exists s, l_load rd (l, open_text t) = OThrow (l, s) RuntimeError.
Proof. intros l t H. apply kind_stuck. right. exact H. Qed.
Theorem kind_broken : forall l s, good s = false -> exists s', l_load rd (l, s) = OThrow (l, s') RuntimeError.
Proof. intros l s H. apply kind_stuck. left. exact H. Qed.

Lemma text_starts : forall l txt, l_text put l = Ok txt -> exists r, txt = kind_name l ++ nl ++ r.
Proof.
  intros [k|c|q|a|sm] txt Q; cbn [l_text kind_name] in *.
  - unfold k_text in Q. destruct (mat_text put (k_w k)) as [u| |]; try discriminate. destruct (mat_text put (k_b k)) as [v| |]; try discriminate. cbn [rbind] in Q. injection Q as <-. eexists. rewrite <- ?app_assoc. reflexivity.
  - unfold c_text in Q. destruct (mat_text put (c_w c)) as [u| |]; try discriminate. destruct (mat_text put (c_b c)) as [v| |]; try discriminate. cbn [rbind] in Q. injection Q as <-. eexists. rewrite <- ?app_assoc. reflexivity.
  - injection Q as <-. unfold q_text. eexists. rewrite <- ?app_assoc. reflexivity.
  - unfold a_text in Q. destruct (to_string (a_kind a)) as [u| |]; try discriminate. cbn [rbind] in Q. injection Q as <-. eexists. rewrite <- ?app_assoc. reflexivity.
  - injection Q as <-. exists []. reflexivity.
Qed.
Lemma names_differ : forall (l l' : layer T) r r', kind_name l ++ r = kind_name l' ++ r' -> kind_name l = kind_name l'.
Proof. intros [] [] r r' H; cbn in *; first [reflexivity|discriminate]. Qed.
Theorem kind_other : forall l l' txt t, kind_name l' <> kind_name l -> l_text put l' = Ok txt -> exists s, l_load rd (l, open_text (txt ++ t)) = OThrow (l, s) RuntimeError.
Proof.
  intros l l' txt t D Q. apply kind_missing. intros (r & E). destruct (text_starts l' txt Q) as (r' & ->). rewrite <- app_assoc in E. apply names_differ in E. exact (D E).
Qed.
End Kind.

(** *** Types *)
Lemma getline_any : forall b t, no_nl b -> t = [] \/ (exists u, t = nl ++ u) -> exists s, getline (open_text (b ++ t)) = (b, s).
Proof.
  intros b t B [->|(u & ->)].
  - rewrite app_nil_r. unfold getline, open_text, sentry. cbn [good eofb failb negb andb rest]. rewrite <- (app_nil_r b). rewrite span_app; [|exact B|exact Logic.I]. rewrite app_nil_r. eexists. reflexivity.
  - exists (open_text u). apply getline_ok. exact B.
Qed.
Theorem pool_unknown : forall q b t, no_nl b -> t = [] \/ (exists u, t = nl ++ u) -> ~ In b [lit "MAX"; lit "MIN"; lit "AVG"] ->
  exists s, q_load (q, open_text (lit "Pooling" ++ nl ++ b ++ t)) = OThrow (q, s) RuntimeError.
Proof.
  intros q b t B H U. destruct (getline_any b t B H) as (s & Q). exists s. unfold q_load. erewrite bind_ok by (apply on_snd_ok; apply expect_void_ok).
  erewrite bind_ok; [|apply on_snd_ok; unfold stm; rewrite Q; reflexivity].
  assert (P : pool_of b = Throw RuntimeError).
  { unfold pool_of. destruct (text_eqb b (lit "MAX")) eqn:E1; [apply text_eqb_eq in E1; exfalso; apply U; subst; cbn; auto|].
    destruct (text_eqb b (lit "MIN")) eqn:E2; [apply text_eqb_eq in E2; exfalso; apply U; subst; cbn; auto|].
    destruct (text_eqb b (lit "AVG")) eqn:E3; [apply text_eqb_eq in E3; exfalso; apply U; subst; cbn; auto|]. reflexivity. }
  unfold bind at 1, lift. rewrite P. reflexivity.
Qed.
(** The names of the activation functions, Activation.h 36-44 *)
Definition act_word (k : act) : text := match k with Relu => lit "RELU" | Sigmoid => lit "SIGMOID" | Linear => lit "LINEAR" | Tangent => lit "TANGENT" | LeakyRelu => lit "LEAKY_RELU" end.
Theorem act_unknown : forall a b t, no_nl b -> t = [] \/ (exists u, t = nl ++ u) -> (forall k, b <> act_word k) ->
  exists s, a_load (a, open_text (lit "Activation" ++ nl ++ b ++ t)) = OThrow (a, s) RuntimeError.
Proof.
  intros a b t B H U. destruct (getline_any b t B H) as (s & Q). exists s. unfold a_load. erewrite bind_ok by (apply on_snd_ok; apply expect_void_ok).
  erewrite bind_ok; [|apply on_snd_ok; unfold stm; rewrite Q; reflexivity].
  assert (P : from_string (string_of_list_ascii b) = Throw RuntimeError).
  { assert (W : forall k w, act_word k = lit w -> String.eqb (string_of_list_ascii b) w = false).
    { intros k w E. apply String.eqb_neq. intro F. apply (U k). rewrite E, <- F. unfold lit. symmetry. apply list_ascii_of_string_of_list_ascii. }
    unfold from_string. rewrite (W Relu "RELU"%string eq_refl), (W Sigmoid "SIGMOID"%string eq_refl), (W Linear "LINEAR"%string eq_refl), (W Tangent "TANGENT"%string eq_refl), (W LeakyRelu "LEAKY_RELU"%string eq_refl). reflexivity. }
  unfold bind at 1, lift. rewrite P. reflexivity.
Qed.
Theorem act_known : forall a k t, t = [] \/ (exists u, t = nl ++ u) ->
  exists s, a_load (a, open_text (lit "Activation" ++ nl ++ act_word k ++ t)) = ORet (Act k (a_fun a) (a_der a), s) true.
Proof.
  intros a k t H. destruct (getline_any (act_word k) t) as (s & Q); [destruct k; reflexivity|exact H|]. exists s. unfold a_load. erewrite bind_ok by (apply on_snd_ok; apply expect_void_ok).
  erewrite bind_ok; [|apply on_snd_ok; unfold stm; rewrite Q; reflexivity]. destruct k; reflexivity.
Qed.
