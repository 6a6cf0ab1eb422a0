(** Files in which the lines of a kernel are not the ones that Kernel.cpp 240-262 expects, like data/trained_model.model_data. *)
From Coq Require Import String ZArith List Bool Ascii Lia.
From Verif Require Import Base Dim Matrix View Num Expr Spec Batch Kernel Connected Float32 Pooling Activation
  Softmax Chars Model Net ModelThms Double Stream StreamFacts Text TextFacts LoadFacts.
Import ListNotations.
Local Open Scope Z_scope.

(** The first lines of data/trained_model.model_data *)
Definition shipped_start : text := lit "(0) ----------" ++ nl ++ lit "Kernel" ++ nl ++ lit "RELU" ++ nl ++ lit "x 5" ++ nl ++ lit "y 5" ++ nl ++ lit "z 1" ++ nl ++ lit "n 2" ++ nl ++
  lit "weights" ++ nl ++ lit "5 5 2" ++ nl.

Section Old.
Context {T : Type} {N : Num T} (E : env T) (rd : istream -> option T * istream) {L : Type} (io : label_io (L := L)).

Lemma load_old : forall a b m, no_nl a -> (forall t, b <> lit "x" ++ t) ->
  exists k, load_model rd E io (Some (a ++ nl ++ lit "Kernel" ++ nl ++ b)) m =
    ORet (Model (m_layers m ++ [(lit "Kernel_" ++ dec (m_kc m + 1), LKernel k)]) (m_labels m) (m_kc m + 1) (m_pc m) (m_fc m) (m_ac m)) false.
Proof.
  intros a b m A B. unfold load_model. cbn [open_file]. fold (open_text (a ++ nl ++ lit "Kernel" ++ nl ++ b)).
  rewrite load_loop_step. rewrite getline_ok by exact A. cbn [failb open_text]. fold (open_text (lit "Kernel" ++ nl ++ b)).
  rewrite read_line_ok by reflexivity. unfold load_branch. rewrite (proj2 (text_eqb_eq (lit "Kernel") (lit "Kernel")) eq_refl).
  unfold catch_runtime. unfold bind at 1, on_fst at 1, add_kernel.
  assert (K : exists k, k_make (T := T) (e_rand E) (e_rmax E) (e_sqrt E) (D3 0 0 0) 1 1 = Ok k) by (eexists; reflexivity). destruct K as (k & ->).
  unfold load_last at 1. cbn [m_layers]. rewrite rev_unit. cbn [l_load]. unfold k_load.
  unfold bind at 1, on_snd at 1. rewrite expect_void_ok. unfold bind at 1, on_snd at 1. unfold expect_int, expect_val. unfold bind at 1.
  destruct (expect_label_bad (lit "x") (open_text b)) as (s' & ->).
  - intros (c & Q). destruct c as [|c1 [|c2 c]]; discriminate.
  - discriminate.
  - intros (_ & t & Q). exact (B t Q).
  - exists k. cbn [map_fst m_labels m_kc m_pc m_fc m_ac map_out fst]. rewrite rev_involutive. reflexivity.
Qed.

(** A pooling layer of an unknown type *)
Lemma load_pool_type : forall a b t m, no_nl a -> no_nl b -> ~ In b [lit "MAX"; lit "MIN"; lit "AVG"] ->
  load_model rd E io (Some (a ++ nl ++ lit "Pooling" ++ nl ++ b ++ nl ++ t)) m =
    ORet (Model (m_layers m ++ [(lit "Pooling_" ++ dec (m_pc m + 1), LPool (q_make (D3 0 0 0) (D3 0 0 0) PMax))]) (m_labels m) (m_kc m) (m_pc m + 1) (m_fc m) (m_ac m)) false.
Proof.
  intros a b t m A NB B. unfold load_model. cbn [open_file]. fold (open_text (a ++ nl ++ lit "Pooling" ++ nl ++ b ++ nl ++ t)).
  rewrite load_loop_step. rewrite getline_ok by exact A. cbn [failb open_text]. fold (open_text (lit "Pooling" ++ nl ++ b ++ nl ++ t)).
  rewrite read_line_ok by reflexivity. unfold load_branch. change (text_eqb (lit "Pooling") (lit "Kernel")) with false. rewrite (proj2 (text_eqb_eq (lit "Pooling") (lit "Pooling")) eq_refl).
  unfold catch_runtime. unfold bind at 1, on_fst at 1, add_pooling.
  unfold load_last at 1. cbn [m_layers]. rewrite rev_unit. cbn [l_load]. unfold q_load.
  unfold bind at 1, on_snd at 1. rewrite expect_void_ok. unfold bind at 1, on_snd at 1, stm. rewrite getline_ok by exact NB. unfold bind at 1, lift, pool_of.
  assert (Q : forall w, In w [lit "MAX"; lit "MIN"; lit "AVG"] -> text_eqb b w = false).
  { intros w W. destruct (text_eqb b w) eqn:Q; [|reflexivity]. apply text_eqb_eq in Q. subst. contradiction. }
  rewrite !Q by (cbn [In]; auto). cbn [map_fst map_out fst m_labels m_kc m_pc m_fc m_ac]. rewrite rev_involutive. reflexivity.
Qed.
End Old.
