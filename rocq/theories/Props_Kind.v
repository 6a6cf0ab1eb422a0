(** Property C108: layers that are loaded from the text of something else. *)
From Coq Require Import String ZArith List Bool Ascii Lia.
From Verif Require Import Base Dim Matrix View Num Batch Kernel Connected Float32 Pooling Activation Softmax Chars Model Double Stream StreamFacts Text LoadKind.
Import ListNotations.
Local Open Scope Z_scope.

(** [kind_name l]: "Kernel", "Connected Layer", "Pooling", "Activation" or "Softmax" *)
Theorem C108_kind : forall T (N : Num T) (rd : istream -> option T * istream) (l : layer T) t, (~ exists r, t = kind_name l ++ r) ->
  exists s, l_load rd (l, open_text t) = OThrow (l, s) RuntimeError.
Proof. intros T N rd l t H. exact (kind_missing rd l t H). Qed.
Print Assumptions C108_kind.
(** A stream that has failed or is at its end *)
Theorem C108_broken : forall T (N : Num T) (rd : istream -> option T * istream) (l : layer T) s, failb s = true \/ eofb s = true ->
  exists s', l_load rd (l, s) = OThrow (l, s') RuntimeError.
Proof.
  intros T N rd l s H. apply kind_broken. unfold good. destruct H as [-> | ->]; [apply andb_false_r|reflexivity].
Qed.
Print Assumptions C108_broken.
(** The text of a layer of another kind, followed by anything *)
Theorem C108_other : forall T (N : Num T) (put : T -> text) (rd : istream -> option T * istream) (l l' : layer T) txt t, kind_name l' <> kind_name l -> l_text put l' = Ok txt ->
  exists s, l_load rd (l, open_text (txt ++ t)) = OThrow (l, s) RuntimeError.
Proof. intros T N put rd l l' txt t D Q. exact (kind_other put rd l l' txt t D Q). Qed.
Print Assumptions C108_other.
(** Unknown types: [b] is the second line, which need not be terminated. *)
Theorem C108_pool : forall q b t, no_nl b -> t = [] \/ (exists u, t = nl ++ u) -> ~ In b [lit "MAX"; lit "MIN"; lit "AVG"] ->
  exists s, q_load (q, open_text (lit "Pooling" ++ nl ++ b ++ t)) = OThrow (q, s) RuntimeError.
Proof. exact pool_unknown. Qed.
Print Assumptions C108_pool.
Theorem C108_activation : forall a b t, no_nl b -> t = [] \/ (exists u, t = nl ++ u) -> ~ In b [lit "RELU"; lit "SIGMOID"; lit "LINEAR"; lit "TANGENT"; lit "LEAKY_RELU"] ->
  exists s, a_load (a, open_text (lit "Activation" ++ nl ++ b ++ t)) = OThrow (a, s) RuntimeError.
Proof. intros a b t B H U. apply act_unknown; [exact B|exact H|]. intros k E. apply U. subst b. destruct k; cbn; auto 10. Qed.
Print Assumptions C108_activation.
(** The known names are accepted; the functions of the layer stay those of its construction. *)
Theorem C108_known : forall a k t, t = [] \/ (exists u, t = nl ++ u) ->
  exists s, a_load (a, open_text (lit "Activation" ++ nl ++ act_word k ++ t)) = ORet (Act k (a_fun a) (a_der a), s) true.
Proof. exact act_known. Qed.
Print Assumptions C108_known.

Example C108_ex : l_load (T := Z) (fun s => (None, s)) (LAct (a_make Relu), open_text (lit "Softmax" ++ nl)) = OThrow (LAct (a_make Relu), IS [] true true) RuntimeError /\
  l_load (T := Z) (fun s => (None, s)) (LSoft (sm_make 3), open_text (lit "Activation" ++ nl)) = OThrow (LSoft (sm_make 3), open_text (lit "ion" ++ nl)) RuntimeError.
Proof. vm_compute. auto. Qed.
Example C108_ex_types : q_load (Pool (D3 7 8 9) (D3 1 1 1) PMin [], open_text (lit "Pooling" ++ nl ++ lit "max" ++ nl ++ lit "x 3" ++ nl)) =
    OThrow (Pool (D3 7 8 9) (D3 1 1 1) PMin [], open_text (lit "x 3" ++ nl)) RuntimeError /\
  a_load (a_make Relu, open_text (lit "Activation" ++ nl ++ lit "RELU ")) = OThrow (a_make Relu, IS [] true false) RuntimeError /\
  a_load (a_make Relu, open_text (lit "Activation" ++ nl ++ lit "SIGMOID")) = ORet (Act Sigmoid (a_fun (a_make Relu)) (a_der (a_make Relu)), IS [] true false) true.
Proof. vm_compute. auto. Qed.
