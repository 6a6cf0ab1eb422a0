(** Loading files whose line ends are carriage return and newline. *)
From Coq Require Import String ZArith List Bool Ascii Lia.
From Verif Require Import Base Dim Matrix View Num Expr Spec Batch Kernel Connected Float32 Pooling Activation
  Softmax Chars Model Double Stream StreamFacts Text TextFacts LoadFacts LoadSafe.
Import ListNotations.
Local Open Scope Z_scope.

(** ** Files with carriage returns before the ends of the lines *)
Definition cr : ascii := ascii_of_nat 13.
Definition crlf (t : text) : text := flat_map (fun c => if Ascii.eqb c newline then [cr; newline] else [c]) t.

Lemma crlf_lines : forall t, exists b ls, lines (crlf (t ++ nl)) = (b ++ [cr]) :: ls /\ forall a, In a ls -> a = [] \/ exists b, a = b ++ [cr].
Proof.
  induction t as [|c t (b & ls & E & H)].
  - exists [], [[]]. split; [reflexivity|]. intros a [<-|[]]. auto.
  - cbn [app]. unfold crlf. cbn [flat_map]. fold (crlf (t ++ nl)). destruct (Ascii.eqb c newline) eqn:Q.
    + exists [], (lines (crlf (t ++ nl))). split; [reflexivity|]. intros a. rewrite E. intros [<-|I]; [eauto|apply H; exact I].
    + exists (c :: b), ls. split; [|exact H]. cbn [app lines]. rewrite Q, E. reflexivity.
Qed.

Theorem load_crlf : forall {T} {N : Num T} (E : env T) rd {L} (io : label_io (L := L)) t m, eats rd -> eats (lb_get io) ->
  load_model rd E io (Some (crlf (t ++ nl))) m = ORet m true.
Proof.
  intros T N E rd L io t m G IO. apply (load_nothing rd G E io IO). destruct (crlf_lines t) as (b & ls & Q & H). rewrite Q. cbn [tl].
  intros a I J. destruct (H a I) as [->|[b' ->]].
  - cbn in J. repeat (destruct J as [J|J]; [discriminate J|]). exact J.
    cbn in J. repeat (destruct J as [J|J]; [apply (f_equal (@rev ascii)) in J; rewrite rev_app_distr in J; discriminate J|]). exact J.
Qed.

(** Any saved model, converted to such line ends *)
Theorem load_saved_crlf : forall {T} {N : Num T} (E : env T) (put : T -> text) rd {L} (io : label_io (L := L)) (m : model T L) txt m0, eats rd -> eats (lb_get io) ->
  save_model put io m = Ok (true, txt) -> load_model rd E io (Some (crlf txt)) m0 = ORet m0 true.
Proof.
  intros T N E put rd L io m txt m0 G IO S. unfold save_model in S.
  destruct (layers_text put 0 (map snd (m_layers m))) as [t| |]; [|discriminate S|discriminate S]. injection S as <-.
  unfold labels_text. rewrite !app_assoc. apply load_crlf; assumption.
Qed.
