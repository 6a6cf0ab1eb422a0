(** With one thread, everything that train, validate and the program do is determined. *)
From Coq Require Import String ZArith List Bool Lia.
From Verif Require Import Base Dim Matrix View Num Expr Batch Kernel Connected Float32 Pooling Activation Softmax Chars Model
  Double Stream Text Mnist MnistFacts Train TrainLocal TrainRest Main Validate ValidateFacts Bar Report Program ProgramFeed.
Import ListNotations.
Local Open Scope Z_scope.

(** ** One step function *)
Section Steps.
Context {S : Type} (next : S -> option S).
Inductive path : S -> S -> Prop :=
| path_nil : forall g, path g g
| path_step : forall g g' g'', path g g' -> next g' = Some g'' -> path g g''.
Lemma path_front : forall g g' g'', next g = Some g' -> path g' g'' -> path g g''.
Proof. intros g g' g'' H K. induction K as [|a b c K IH E]; [eapply path_step; [apply path_nil|exact H]|]. eapply path_step; [apply IH; exact H|exact E]. Qed.
Lemma path_case : forall g g', path g g' -> g = g' \/ exists h, next g = Some h /\ path h g'.
Proof.
  intros g g' H. induction H as [g|g a b K IH E]; [left; reflexivity|]. right. destruct IH as [->|(h & H1 & H2)].
  - exists b. split; [exact E|apply path_nil].
  - exists h. split; [exact H1|]. eapply path_step; eassumption.
Qed.
(** Two paths: one continues the other *)
Lemma path_linear : forall g a b, path g a -> path g b -> path a b \/ path b a.
Proof.
  intros g a b H. revert b. induction H as [g|g a a' K IH E]; intros b B; [left; exact B|].
  destruct (IH b B) as [P|P].
  - destruct (path_case a b P) as [<-|(h & H1 & H2)].
    + right. eapply path_step; [apply path_nil|exact E].
    + rewrite E in H1. injection H1 as <-. left. exact H2.
  - right. eapply path_step; [exact P|exact E].
Qed.
Lemma path_end : forall g a b, path g a -> path g b -> next a = None -> next b = None -> a = b.
Proof.
  intros g a b A B EA EB. destruct (path_linear g a b A B) as [P|P]; destruct (path_case _ _ P) as [->|(h & H1 & _)]; congruence.
Qed.
End Steps.

Section Train.
Context {T : Type} {N : Num T} (E : env T).
Context {U L : Type} (cast : U -> T) (eqL : L -> L -> bool) (labels : list L).
Notation gstep := (gstep E cast eqL labels). Notation exec := (exec E cast eqL labels).
Notation shared := (shared (T := T) (U := U) (L := L)).

Definition gnext wc bs (g : shared) : option shared := match gstep wc bs 0 g with GNext g' => Some g' | _ => None end.
Lemma upd_len : forall {A} (l : list A) i v, length (upd l i v) = length l.
Proof. induction l; intros [|i] v; cbn; auto. Qed.
Lemma gstep_one : forall wc bs t g, (length (g_pcs g) <= 1)%nat -> gstep wc bs t g <> GBlocked -> t = 0%nat.
Proof.
  intros wc bs t g H NB. unfold Train.gstep in NB. destruct (nth_error (g_pcs g) t) eqn:Q; [|contradiction].
  assert (t < length (g_pcs g))%nat by (apply nth_error_Some; congruence). lia.
Qed.
Lemma gstep_len : forall wc bs t g g', gstep wc bs t g = GNext g' -> length (g_pcs g') = length (g_pcs g).
Proof.
  intros wc bs t g g' H. unfold Train.gstep in H. destruct (nth_error (g_pcs g) t) as [c|]; [|discriminate].
  destruct c as [b|b|b|b|b p|b p w|b|b]; try discriminate;
    repeat match type of H with
    | match ?x with _ => _ end = _ => destruct x; try discriminate
    end; injection H as <-; cbn [set_pc with_lock g_pcs]; apply upd_len.
Qed.
Lemma exec_path : forall P wc bs g g', (length (g_pcs g) <= 1)%nat -> exec P wc bs g g' -> path (gnext wc bs) g g' /\ (length (g_pcs g') <= 1)%nat.
Proof.
  intros P wc bs g g' LE X. induction X as [g|g t g1 g2 X IH ST _]; [split; [apply path_nil|exact LE]|].
  destruct (IH LE) as [I1 I2]. assert (t = 0%nat) as -> by (eapply gstep_one; [exact I2|rewrite ST; discriminate]).
  split; [|rewrite (gstep_len _ _ _ _ _ ST); exact I2]. eapply path_step; [exact I1|]. unfold gnext. rewrite ST. reflexivity.
Qed.
Lemma finished_blocked : forall wc bs (g : shared), finished g -> gstep wc bs 0 g = GBlocked.
Proof.
  intros wc bs g H. unfold Train.gstep. destruct (nth_error (g_pcs g) 0) as [c|] eqn:Q; [|reflexivity].
  destruct (H c) as [b ->]; [eapply nth_error_In; exact Q|reflexivity].
Qed.

Lemma batch_unique : forall P P' wc bs lr e o o', batch E cast eqL labels P wc bs 1 lr e o -> batch E cast eqL labels P' wc bs 1 lr e o' -> o = o'.
Proof.
  intros P P' wc bs lr e.
  assert (END : forall P0 pcs g, spawn (U := U) (L := L) (T := T) 1 0 wc = Ok pcs -> exec P0 wc bs (start e pcs) g ->
    path (gnext wc bs) (start e pcs) g /\ (length (g_pcs g) <= 1)%nat).
  { intros P0 pcs g SP X. apply (exec_path P0 wc bs (start e pcs) g); [|exact X]. cbn [spawn] in SP.
    destruct (i32 (Z.of_nat 0 * wc)); cbn [rbind] in SP; try discriminate. destruct (i32 ((Z.of_nat 0 + 1) * wc)); cbn [rbind] in SP; try discriminate.
    injection SP as <-. cbn [start g_pcs length]. lia. }
  assert (ONE : forall P0 o, batch E cast eqL labels P0 wc bs 1 lr e o ->
    (exists pcs g, spawn (U := U) (L := L) (T := T) 1 0 wc = Ok pcs /\ path (gnext wc bs) (start e pcs) g /\ gnext wc bs g = None /\
       o = match gstep wc bs 0 g with GStop x => OThrow (est_of g) x | GUB => OUB | _ => map_out (Train.with_layers (est_of g)) (apply_all lr (g_layers g)) end)
    \/ (spawn (U := U) (L := L) (T := T) 1 0 wc = UB /\ o = OUB)).
  { intros P0 o B. inversion B as [pcs g SP X FI EQ|pcs g t x SP X ST EQ|pcs g t SP X ST EQ|SP EQ]; subst.
    - left. exists pcs, g. destruct (END _ _ _ SP X) as [A1 A2]. pose proof (finished_blocked wc bs g FI) as FB. unfold gnext. rewrite FB. auto.
    - left. exists pcs, g. destruct (END _ _ _ SP X) as [A1 A2]. assert (t = 0%nat) as -> by (eapply gstep_one; [exact A2|rewrite ST; discriminate]).
      unfold gnext. rewrite ST. auto.
    - left. exists pcs, g. destruct (END _ _ _ SP X) as [A1 A2]. assert (t = 0%nat) as -> by (eapply gstep_one; [exact A2|rewrite ST; discriminate]).
      unfold gnext. rewrite ST. auto.
    - right. auto. }
  intros o o' B B'. destruct (ONE _ _ B) as [(pcs & g & SP & PA & NX & ->)|(SP & ->)]; destruct (ONE _ _ B') as [(pcs' & g' & SP' & PA' & NX' & ->)|(SP' & ->)]; try congruence.
  rewrite SP in SP'. injection SP' as <-. rewrite (path_end _ _ _ _ PA PA' NX NX'). reflexivity.
Qed.
Lemma batches_unique : forall P P' wc bs lr n e o o', batches E cast eqL labels P wc bs 1 lr n e o -> batches E cast eqL labels P' wc bs 1 lr n e o' -> o = o'.
Proof.
  intros P P' wc bs lr n e o o' B. revert o'. induction B as [e|n e e1 o B1 B IH|n e o B1 NO]; intros o' B'.
  - inversion B'. reflexivity.
  - inversion B' as [|n0 e0 e1' o0 B1' B0' |n0 e0 o0 B1' NO']; subst.
    + assert (Q : ORet e1 tt = ORet e1' tt) by (eapply batch_unique; eassumption). injection Q as <-. apply IH; assumption.
    + exfalso. apply (NO' e1). symmetry. eapply batch_unique; eassumption.
  - inversion B' as [|n0 e0 e1' o0 B1' B0' |n0 e0 o0 B1' NO']; subst.
    + exfalso. apply (NO e1'). eapply batch_unique; eassumption.
    + eapply batch_unique; eassumption.
Qed.
Lemma epoch_unique : forall P P' h size ls src o o', h_nt h = 1 -> epoch E cast eqL labels P h size ls src o -> epoch E cast eqL labels P' h size ls src o' -> o = o'.
Proof.
  intros P P' h size ls src o o' NT X X'.
  inversion X as [wc nb o0 A1 A2 A3 A4 A5|A1|wc A1 A2 A3|A1 A2]; subst; inversion X' as [wc' nb' o0' B1 B2 B3 B4 B5|B1|wc' B1 B2 B3|B1 B2]; subst;
    try reflexivity; try lia; try (destruct A2 as [A2|[A3 A2]]); try (destruct B2 as [B2|[B3 B2]]); try congruence; try lia.
  rewrite A3 in B3. injection B3 as <-. rewrite A4 in B4. injection B4 as <-. rewrite NT in *. change (Z.to_nat 1) with 1%nat in *. eapply batches_unique; eassumption.
Qed.
Lemma epochs_unique : forall P P' h size src n ls s o o', h_nt h = 1 -> epochs E cast eqL labels P h size src n ls s o ->
  epochs E cast eqL labels P' h size src n ls s o' -> o = o'.
Proof.
  intros P P' h size src n ls s o o' NT X. revert o'. induction X as [ls s|n ls s e o X1 X IH|n ls s e x X1|n ls s X1]; intros o' X'.
  - inversion X'. reflexivity.
  - inversion X' as [|? ? ? e' ? Y1 Y|? ? ? e' x' Y1|? ? ? Y1]; subst; pose proof (epoch_unique _ _ _ _ _ _ _ _ NT X1 Y1) as Q; try discriminate Q.
    injection Q as <-. apply IH; assumption.
  - inversion X' as [|? ? ? e' ? Y1 Y|? ? ? e' x' Y1|? ? ? Y1]; subst; pose proof (epoch_unique _ _ _ _ _ _ _ _ NT X1 Y1) as Q; try discriminate Q.
    injection Q as <- <-. reflexivity.
  - inversion X' as [|? ? ? e' ? Y1 Y|? ? ? e' x' Y1|? ? ? Y1]; subst; pose proof (epoch_unique _ _ _ _ _ _ _ _ NT X1 Y1) as Q; try discriminate Q. reflexivity.
Qed.
Theorem train_unique : forall P P' h size src ls s o o', h_nt h = 1 -> train E cast eqL labels P h size src ls s o ->
  train E cast eqL labels P' h size src ls s o' -> o = o'.
Proof.
  intros P P' h size src ls s o o' NT X X'.
  inversion X as [l1 s1 o1 A1 A2|l1 s1 x1 A1|s1 A1]; subst; inversion X' as [l2 s2 o2 B1 B2|l2 s2 x2 B1|s2 B1]; subst; try congruence.
  rewrite A1 in B1. injection B1 as <-. eapply epochs_unique; eassumption.
Qed.
End Train.

Section Validation.
Context {T : Type} {N : Num T} (E : env T) (cast : f32 -> T) (labels : list text) (big : bool) (limit : Z).
Notation vgstep := (vgstep E cast labels big limit). Notation vexec := (vexec E cast labels big limit).

Definition vnext nt n g := match vgstep nt n 0 g with VNext g' => Some g' | _ => None end.
Lemma vgstep_one : forall nt n t g, (length (v_pcs g) <= 1)%nat -> vgstep nt n t g <> VBlocked -> t = 0%nat.
Proof.
  intros nt n t g H NB. unfold Validate.vgstep in NB. destruct (nth_error (v_pcs g) t) eqn:Q; [|contradiction].
  assert (t < length (v_pcs g))%nat by (apply nth_error_Some; congruence). lia.
Qed.
Lemma vgstep_len : forall nt n t g g', vgstep nt n t g = VNext g' -> length (v_pcs g') = length (v_pcs g).
Proof.
  intros nt n t g g' H. unfold Validate.vgstep in H. destruct (nth_error (v_pcs g) t) as [c|]; [|discriminate].
  destruct c as [i|i|i|i m|i m w|i m r|]; try discriminate;
    repeat match type of H with
    | match ?x with _ => _ end = _ => destruct x; try discriminate
    end; injection H as <-; cbn [vset_pc vwith_lock v_pcs]; apply upd_len.
Qed.
Lemma vexec_path : forall nt n g g', (length (v_pcs g) <= 1)%nat -> vexec nt n g g' -> path (vnext nt n) g g' /\ (length (v_pcs g') <= 1)%nat.
Proof.
  intros nt n g g' LE X. induction X as [g|g t g1 g2 X IH ST]; [split; [apply path_nil|exact LE]|].
  destruct (IH LE) as [I1 I2]. assert (t = 0%nat) as -> by (eapply vgstep_one; [exact I2|rewrite ST; discriminate]).
  split; [|rewrite (vgstep_len _ _ _ _ _ ST); exact I2]. eapply path_step; [exact I1|]. unfold vnext. rewrite ST. reflexivity.
Qed.
Theorem validation_unique : forall ei el ls o o', validation E cast labels big limit ei el 1 ls o -> validation E cast labels big limit ei el 1 ls o' -> o = o'.
Proof.
  intros ei el ls.
  assert (ONE : forall o, validation E cast labels big limit ei el 1 ls o ->
    (exists rd g, reader_open big ei el = Ok rd /\ path (vnext 1 (s32 (num_images rd))) (vstart 1 ls rd) g /\ vnext 1 (s32 (num_images rd)) g = None /\
       o = match vgstep 1 (s32 (num_images rd)) 0 g with VStop x => OThrow (v_layers g) x | VUndef => OUB | _ => ORet (v_layers g) (v_count g, s32 (num_images rd), v_reader g) end)
    \/ (exists e, reader_open big ei el = Throw e /\ o = OThrow ls e) \/ (reader_open big ei el = UB /\ o = OUB)).
  { assert (L1 : forall rd, (length (v_pcs (vstart (T := T) 1 ls rd)) <= 1)%nat) by (intros; unfold vstart; cbn [v_pcs]; rewrite map_length, seq_length; lia).
    intros o V. inversion V as [rd g NN RO n X FI EQ|rd g t e NN RO n X ST EQ|rd g t NN RO n X ST EQ|e RO EQ|RO EQ|rd RO NN EQ]; subst; try lia.
    - left. exists rd, g. destruct (vexec_path _ _ _ _ (L1 rd) X) as [A1 A2].
      assert (FB : vgstep 1 n 0 g = VBlocked). { unfold Validate.vgstep. destruct (nth_error (v_pcs g) 0) as [c|] eqn:Q; [|reflexivity]. rewrite (FI c) by (eapply nth_error_In; exact Q). reflexivity. }
      unfold vnext. fold n. rewrite FB. auto.
    - left. exists rd, g. destruct (vexec_path _ _ _ _ (L1 rd) X) as [A1 A2]. assert (t = 0%nat) as -> by (eapply vgstep_one; [exact A2|rewrite ST; discriminate]).
      unfold vnext. fold n. rewrite ST. auto.
    - left. exists rd, g. destruct (vexec_path _ _ _ _ (L1 rd) X) as [A1 A2]. assert (t = 0%nat) as -> by (eapply vgstep_one; [exact A2|rewrite ST; discriminate]).
      unfold vnext. fold n. rewrite ST. auto.
    - right. left. exists e. auto.
    - right. right. auto. }
  intros o o' V V'. destruct (ONE _ V) as [(rd & g & RO & PA & NX & ->)|[(e & RO & ->)|(RO & ->)]]; destruct (ONE _ V') as [(rd' & g' & RO' & PA' & NX' & ->)|[(e' & RO' & ->)|(RO' & ->)]]; try congruence.
  rewrite RO in RO'. injection RO' as <-. rewrite (path_end _ _ _ _ PA PA' NX NX'). reflexivity.
Qed.
End Validation.

(** ** What validate prints after the count does not depend on what was printed before. *)
Section Printing.
Context (t1 t2 : text).
Definition after (a b : text) : Prop := exists t, a = t1 ++ t /\ b = t2 ++ t.
Lemma emit_after : forall t a b, after a b -> both after (emit t a) (emit t b).
Proof. intros t a b (u & -> & ->). cbn. split; [|reflexivity]. exists (u ++ t). rewrite !app_assoc. auto. Qed.
Lemma print_after : forall m a b, after a b -> both after (print_image m a) (print_image m b).
Proof.
  intros m a b H. unfold print_image. apply both_bind; [apply both_lift; exact H|]. intros mx a1 b1 H1. destruct (dz (mdim m) =? 3).
  - unfold print_color. apply mfor_n_both; [exact H1|]. intros x a2 b2 H2. apply both_bind; [|intros _ a3 b3 H3; apply emit_after; exact H3].
    apply mfor_n_both; [exact H2|]. intros y a3 b3 H3. apply both_bind; [apply emit_after; exact H3|]. intros _ a4 b4 H4.
    apply both_bind; [|intros _ a5 b5 H5; apply emit_after; exact H5]. apply mfor_n_both; [exact H4|]. intros z a5 b5 H5.
    apply both_bind; [apply both_lift; exact H5|]. intros v a6 b6 H6. apply both_bind; [apply both_lift; exact H6|]. intros c a7 b7 H7. apply emit_after. exact H7.
  - unfold print_bw. apply both_bind; [apply both_lift; exact H1|]. intros mn a2 b2 H2. apply mfor_n_both; [exact H2|]. intros x a3 b3 H3.
    apply both_bind; [|intros _ a4 b4 H4; apply emit_after; exact H4]. apply mfor_n_both; [exact H3|]. intros y a4 b4 H4.
    apply both_bind; [apply both_lift; exact H4|]. intros v a5 b5 H5. apply both_bind; [apply both_lift; exact H5|]. intros c a6 b6 H6. apply emit_after. exact H6.
Qed.
Definition after2 {A} (p q : A * text) : Prop := fst p = fst q /\ after (snd p) (snd q).
Lemma on_fst_after : forall {A C} (c : M A C) (p q : A * text), after2 p q -> both after2 (on_fst c p) (on_fst c q).
Proof. intros A C c [a s] [a' s'] [H1 H2]. cbn in *. subst a'. destruct (c a); cbn; auto. split; [split; [reflexivity|exact H2]|reflexivity]. Qed.
Lemma on_snd_after : forall {A C} (c : M text C), (forall a b, after a b -> both after (c a) (c b)) -> forall p q : A * text, after2 p q -> both after2 (on_snd c p) (on_snd c q).
Proof.
  intros A C c K [a s] [a' s'] [H1 H2]. cbn in *. subst a'. specialize (K s s' H2). destruct (c s), (c s'); cbn in *; try contradiction; auto.
  destruct K as [K1 K2]. split; [split; [reflexivity|exact K1]|exact K2].
Qed.
Section Samples.
Context {T : Type} {N : Num T} (E : env T) (cast : f32 -> T) (labels : list text) (show : T -> text) (big : bool) (limit : Z).
Lemma samples_after : forall rmax n rs p q, after2 p q ->
  both after2 (samples E cast labels show big limit rmax n rs p) (samples E cast labels show big limit rmax n rs q).
Proof.
  intros rmax n. induction rs as [|r rs IH]; intros p q H; cbn [samples]; [split; [exact H|reflexivity]|].
  apply both_bind; [|intros _ p1 q1 H1; apply IH; exact H1]. unfold sample. apply both_bind; [apply both_lift; exact H|]. intros i p1 q1 H1.
  apply both_bind; [apply on_fst_after; exact H1|]. intros d p2 q2 H2. apply both_bind; [apply on_fst_after; exact H2|]. intros res p3 q3 H3.
  apply both_bind; [apply both_lift; exact H3|]. intros l p4 q4 H4. apply both_bind; [apply on_snd_after; [intros; apply emit_after; assumption|exact H4]|]. intros _ p5 q5 H5.
  apply both_bind; [apply on_snd_after; [intros; apply print_after; assumption|exact H5]|]. intros _ p6 q6 H6.
  apply on_snd_after; [intros; apply emit_after; assumption|exact H6].
Qed.
End Samples.
End Printing.

(** ** The program *)
(** Two ways to end that differ in the measured time at most *)
Definition same_ending (e e' : ending) : Prop :=
  match e, e' with
  | Done c n t f, Done c' n' t' f' => c = c' /\ n = n' /\ f = f' /\ exists a ms ms' b, t = a ++ dec ms ++ b /\ t' = a ++ dec ms' ++ b
  | Failed x, Failed x' => x = x'
  | Undefined, Undefined => True
  | _, _ => False
  end.
Section Program.
Context {T : Type} {N : Num T} (E : env T) (cast : f32 -> T) (show : T -> text) (showf : f32 -> text) (wr : T -> text) (big : bool) (limit rmax : Z).
Lemma report_same : forall m ms ms' rs save o,
  same_ending (report E cast show showf wr big limit rmax m ms rs save o) (report E cast show showf wr big limit rmax m ms' rs save o).
Proof.
  intros m ms ms' rs save [ls [[c n] rd]|ls e|]; cbn [report same_ending]; try reflexivity; try exact I.
  pose proof (samples_after (count_text showf ms c n) (count_text showf ms' c n) E cast (m_labels m) show big limit rmax n rs (ls, rd, count_text showf ms c n) (ls, rd, count_text showf ms' c n)) as S.
  specialize (S ltac:(split; [reflexivity|]; exists []; rewrite !app_nil_r; auto)).
  destruct (samples _ _ _ _ _ _ _ _ _ (ls, rd, count_text showf ms c n)) as [[[l1 r1] o1] u1|[[l1 r1] o1] x1|],
    (samples _ _ _ _ _ _ _ _ _ (ls, rd, count_text showf ms' c n)) as [[[l2 r2] o2] u2|[[l2 r2] o2] x2|]; cbn [both] in S; try contradiction; cbn [same_ending]; try exact I.
  - destruct S as [[Q (t & E1 & E2)] _]. cbn [fst snd] in Q, E1, E2. subst o1 o2. injection Q as <- <-.
    assert (TX : exists a b, forall k, count_text showf k c n ++ t = a ++ dec k ++ b).
    { exists (lit "Running model validation test..." ++ nl ++ nl ++ lit "Validation finished in "). eexists. intros k. unfold count_text. rewrite <- !app_assoc. reflexivity. }
    destruct TX as (a & b & TX). destruct save.
    + destruct (save_model wr word_io (with_layers m l1)) as [[b0 f]|x|]; cbn [same_ending]; try reflexivity; try exact I. rewrite !TX. repeat split; try reflexivity. exists a, ms, ms', b. auto.
    + cbn [same_ending]. rewrite !TX. repeat split; try reflexivity. exists a, ms, ms', b. auto.
  - exact S.
Qed.
Theorem main_unique : forall P P' ti tl vi vl u lr rs save e e', main_run E cast show showf wr big limit rmax P ti tl vi vl u lr 1 rs save e ->
  main_run E cast show showf wr big limit rmax P' ti tl vi vl u lr 1 rs save e' -> same_ending e e'.
Proof.
  intros P P' ti tl vi vl u lr rs save e e' X X'.
  inversion X as [x1 A1|A1|r1 x1 A1 A2|r1 A1 A2|r1 m1 ps1 ls1 x1 A1 A2 A3 A4|r1 m1 ps1 A1 A2 A3 A4|r1 m1 ps1 ls1 o1 ms1 A1 A2 A3 A4 A5 A6]; subst;
  inversion X' as [x2 B1|B1|r2 x2 B1 B2|r2 B1 B2|r2 m2 ps2 ls2 x2 B1 B2 B3 B4|r2 m2 ps2 B1 B2 B3 B4|r2 m2 ps2 ls2 o2 ms2 B1 B2 B3 B4 B5 B6]; subst;
  rewrite A1 in B1; try discriminate B1; try (injection B1 as <-); try (rewrite A2 in B2; try discriminate B2; try (injection B2 as <-)); cbn [same_ending]; try reflexivity; try exact I;
  rewrite <- (feed_fun _ _ _ _ A3 B3) in B4; pose proof (fun H => train_unique _ _ _ _ _ _ _ _ _ _ _ _ _ H A4 B4) as Q; specialize (Q eq_refl); try discriminate Q.
  - injection Q as _ <-. reflexivity.
  - injection Q as <-. rewrite (validation_unique _ _ _ _ _ _ _ _ _ _ A5 B5). apply report_same.
Qed.
End Program.
