(** Work ranges, outcomes of every epoch, large data sets, independence of the schedule. *)
From Coq Require Import ZArith List Bool Lia Reals Lra.
From Verif Require Import Base Dim Matrix View Num Expr Spec Iter Sums MatFacts Batch BatchThms Kernel Connected Float32 FloatFacts Pooling Activation Softmax LayerFacts Chars Model Net NetThms NetPass NetGrad ModelThms NetFresh
  Train TrainLocal TrainRest TrainInv TrainData TrainEnd TrainThms TrainCount TrainEpoch TrainNet TrainSgd.
Import ListNotations.
Local Open Scope Z_scope.

(** ** The ranges *)
Lemma ranges_disjoint : forall wc bs (t t' : nat) b, 0 <= wc ->
  Z.of_nat t * wc <= b < Z.min ((Z.of_nat t + 1) * wc) bs -> Z.of_nat t' * wc <= b < Z.min ((Z.of_nat t' + 1) * wc) bs -> t = t'.
Proof. intros wc bs t t' b HW H H'. exact (range_thread wc bs HW t t' b H H'). Qed.
Lemma ranges_cover : forall wc bs (nt : nat), 0 <= wc -> 0 <= bs -> bs < two31 ->
  (bs <= Z.of_nat nt * wc <-> forall b, 0 <= b < bs <-> exists t, (t < nt)%nat /\ Z.of_nat t * wc <= b < Z.min ((Z.of_nat t + 1) * wc) bs).
Proof.
  intros wc bs nt HW HB HB2. split.
  - intros CV b. split.
    + intros Hb. exact (cover wc bs nt HW HB HB2 CV b Hb).
    + intros (t & Ht & H). assert (0 <= Z.of_nat t * wc) by nia. lia.
  - intros H. destruct (Z.le_gt_cases bs (Z.of_nat nt * wc)) as [C|C]; [exact C|exfalso].
    assert (0 <= Z.of_nat nt * wc) by nia. destruct (proj1 (H (Z.of_nat nt * wc))) as (t & Ht & R); [lia|].
    assert ((Z.of_nat t + 1) * wc <= Z.of_nat nt * wc) by (apply Z.mul_le_mono_nonneg_r; lia). lia.
Qed.
Lemma ceil_cover : forall bs nt, 0 <= bs -> 1 <= nt -> bs <= nt * ((bs + nt - 1) / nt) < bs + nt /\ 0 <= (bs + nt - 1) / nt.
Proof.
  intros bs nt H1 H2. pose proof (Z.div_mod (bs + nt - 1) nt ltac:(lia)). pose proof (Z.mod_pos_bound (bs + nt - 1) nt ltac:(lia)).
  pose proof (Z.div_pos (bs + nt - 1) nt ltac:(lia) ltac:(lia)). lia.
Qed.
Theorem ranges_ok : forall (T U L : Type) bs nt, 0 <= bs < 2 ^ 24 -> 1 <= nt <= 2 ^ 24 ->
  exists wc (pcs : list (pc (T := T) (U := U) (L := L))), ceil_div bs nt = Ok wc /\ spawn (Z.to_nat nt) 0 wc = Ok pcs /\ length pcs = Z.to_nat nt /\
    (forall t, (t < Z.to_nat nt)%nat -> nth_error pcs t = Some (PLoop (Z.of_nat t * wc))) /\
    (forall b, 0 <= b < bs <-> exists t, (t < Z.to_nat nt)%nat /\ Z.of_nat t * wc <= b < Z.min ((Z.of_nat t + 1) * wc) bs) /\
    (forall b t t', Z.of_nat t * wc <= b < Z.min ((Z.of_nat t + 1) * wc) bs -> Z.of_nat t' * wc <= b < Z.min ((Z.of_nat t' + 1) * wc) bs -> t = t').
Proof.
  intros T U L bs nt Hb Hn. destruct (ceil_cover bs nt ltac:(lia) ltac:(lia)) as [C1 C2].
  assert (P24 : 2 ^ 24 = 16777216) by reflexivity.
  set (wc := (bs + nt - 1) / nt) in *. destruct (spawn_ok (U := U) (L := L) (Z.to_nat nt) 0 wc C2) as [pcsR SPR]. { unfold two31. rewrite Z2Nat.id by lia. lia. }
  assert (SPT : forall n t, (Z.of_nat t + Z.of_nat n) * wc < two31 -> exists pcs, spawn (T := T) (U := U) (L := L) n t wc = Ok pcs).
  { induction n as [|n IH]; intros t Ht; cbn [spawn]; [eauto|]. destruct (IH (S t)) as [r E]; [lia|].
    rewrite i32_ok by (unfold two31 in *; nia). cbn [rbind]. rewrite i32_ok by (unfold two31 in *; nia). cbn [rbind]. rewrite E. cbn [rbind]. eauto. }
  destruct (SPT (Z.to_nat nt) 0%nat) as [pcs SP]. { unfold two31. rewrite Z2Nat.id by lia. lia. }
  exists wc, pcs. split; [apply ceil_div_exact; lia|]. split; [exact SP|].
  destruct (spawn_nth wc C2 _ _ _ SP) as [L1 L2]. split; [exact L1|]. split; [intros t Ht; apply (L2 t Ht)|]. split.
  - apply ranges_cover; [exact C2|lia|unfold two31; lia|]. rewrite Z2Nat.id by lia. lia.
  - intros b t t'. apply ranges_disjoint. exact C2.
Qed.
Theorem ranges_gap : exists bs nt wc, 1 <= bs < two31 /\ 1 <= nt /\ ceil_div bs nt = Ok wc /\
  exists b, 0 <= b < bs /\ forall t, (t < Z.to_nat nt)%nat -> ~ (Z.of_nat t * wc <= b < Z.min ((Z.of_nat t + 1) * wc) bs).
Proof.
  exists (2 ^ 24 + 1), 1, (2 ^ 24). split; [unfold two31; lia|]. split; [lia|]. split; [vm_compute; reflexivity|].
  exists (2 ^ 24). split; [lia|]. intros t Ht. change (Z.to_nat 1) with 1%nat in Ht. assert (t = 0%nat) by lia. subst t. lia.
Qed.

(** ** Every epoch has an outcome: it does not run forever and does not get stuck. *)
Section Total.
Context {T : Type} {N : Num T} (E : env T).
Context {U L : Type} (cast : U -> T) (eqL : L -> L -> bool) (labels : list L).
Local Notation shared := (shared (T := T) (U := U) (L := L)).
Local Notation pc := (pc (T := T) (U := U) (L := L)).
Local Notation estate := (estate (T := T) (U := U) (L := L)).
Local Notation tr := (fun _ : shared => True).

Lemma run_app : forall wc bs s1 s2 g, run E cast eqL labels wc bs (s1 ++ s2) g =
  match run E cast eqL labels wc bs s1 g with GNext g' => run E cast eqL labels wc bs s2 g' | o => o end.
Proof. induction s1 as [|t s1 IH]; intros s2 g; [reflexivity|]. cbn [app run]. destruct (gstep E cast eqL labels wc bs t g); auto. Qed.
Lemma run_exec : forall wc bs s g0 g, run E cast eqL labels wc bs s g0 = GNext g -> exec E cast eqL labels tr wc bs g0 g.
Proof.
  intros wc bs s. induction s as [|t s IH] using rev_ind; intros g0 g H. { injection H as <-. constructor. }
  rewrite run_app in H. destruct (run E cast eqL labels wc bs s g0) as [g1| | |] eqn:Q; try discriminate.
  cbn [run] in H. destruct (gstep E cast eqL labels wc bs t g1) as [g2| | |] eqn:ST; try discriminate. injection H as <-. eapply exec_step; [apply IH; exact Q|exact ST|exact I].
Qed.

Lemma batch_total : forall wc bs nt lr (e : estate), 0 <= wc -> 0 <= bs -> bs < two31 -> Z.of_nat (length (s_results e)) = bs ->
  exists o, batch E cast eqL labels tr wc bs nt lr e o.
Proof.
  intros wc bs nt lr e HW HB HB2 RL. destruct (spawn (T := T) (U := U) (L := L) nt 0 wc) as [pcs|x|] eqn:SP.
  2:{ exfalso. revert SP. generalize 0%nat as t. revert x. induction nt as [|n IH]; intros x t SP; cbn [spawn] in SP; [discriminate|].
      unfold i32 in SP. destruct ((_ <=? _) && _); [|discriminate]. cbn [rbind] in SP. destruct ((_ <=? _) && _); [|discriminate]. cbn [rbind] in SP.
      destruct (spawn (T := T) (U := U) (L := L) n (S t) wc) eqn:Q; try discriminate. exact (IH _ _ Q). }
  2:{ exists OUB. apply batch_overflow. exact SP. }
  destruct (batch_bounded E cast eqL labels wc bs nt e pcs HW HB HB2 SP RL) as [B HBD].
  assert (K : forall n s g, run E cast eqL labels wc bs s (start e pcs) = GNext g -> (B < length s + n)%nat -> exists o, batch E cast eqL labels tr wc bs nt lr e o).
  { induction n as [|n IH]; intros s g HR HL. { pose proof (HBD _ _ HR). lia. }
    pose proof (run_exec _ _ _ _ _ HR) as X.
    destruct (batch_no_deadlock E cast eqL labels wc bs nt e pcs HW HB HB2 SP RL _ _ X) as [F|[t F]]; [eexists; eapply batch_done; eassumption|].
    destruct (gstep E cast eqL labels wc bs t g) as [g'| |x|] eqn:ST; [|congruence| |].
    - apply (IH (s ++ [t]) g'); [rewrite run_app, HR; cbn [run]; rewrite ST; reflexivity|]. rewrite app_length. cbn. lia.
    - eexists. eapply batch_stop; eassumption.
    - eexists. eapply batch_ub; eassumption. }
  apply (K (S B) [] _ eq_refl). cbn. lia.
Qed.
Lemma batches_total : forall wc bs nt lr, 0 <= wc -> 0 <= bs -> bs < two31 -> forall n (e : estate), Z.of_nat (length (s_results e)) = bs ->
  exists o, batches E cast eqL labels tr wc bs nt lr n e o.
Proof.
  intros wc bs nt lr HW HB HB2. induction n as [|n IH]; intros e RL; [eexists; constructor|].
  destruct (batch_total wc bs nt lr e HW HB HB2 RL) as [o B]. destruct o as [e' []|e' x|].
  - destruct (IH e') as [o' H]; [|eexists; eapply batches_cons; eassumption].
    destruct (batch_has_log E cast eqL labels _ _ _ _ _ _ _ B) as (log & pcs & g & ls & S & X & F & A & ->). cbn.
    apply (batch_invA E cast eqL labels wc bs nt e pcs HW HB HB2 S RL) in X. exact (a_res _ _ _ _ _ _ X).
  - eexists. eapply batches_stop; [exact B|discriminate].
  - eexists. eapply batches_stop; [exact B|discriminate].
Qed.
Theorem epoch_total : forall h size ls src, 1 <= h_nt h < 2 ^ 24 -> 1 <= h_bs h < 2 ^ 24 -> 0 <= size < 2 ^ 24 -> exists o, epoch E cast eqL labels tr h size ls src o.
Proof.
  intros h size ls src Hn Hb HS. assert (P24 : 2 ^ 24 = 16777216) by reflexivity.
  destruct (ceil_cover (h_bs h) (h_nt h) ltac:(lia) ltac:(lia)) as [_ C2].
  destruct (batches_total ((h_bs h + h_nt h - 1) / h_nt h) (h_bs h) (Z.to_nat (h_nt h)) (h_lr h) C2 ltac:(lia) ltac:(unfold two31; lia)
    (Z.to_nat ((size + h_bs h - 1) / h_bs h)) (Est ls src (repeat None (Z.to_nat (h_bs h))) 0)) as [o H].
  { cbn [s_results]. rewrite repeat_length, Z2Nat.id; lia. }
  exists o. eapply epoch_run; [lia|lia|apply ceil_div_exact; lia|apply ceil_div_exact; lia|exact H].
Qed.

Theorem train_total : forall h size src ls s, 1 <= h_nt h < 2 ^ 24 -> 1 <= h_bs h < 2 ^ 24 -> 0 <= size < 2 ^ 24 -> exists o, train E cast eqL labels tr h size src ls s o.
Proof.
  intros h size src ls s Hn Hb HS.
  assert (EP : forall n ls s, exists o, epochs E cast eqL labels tr h size src n ls s o).
  { clear ls s. induction n as [|n IH]; intros ls s; [eexists; apply epochs_nil|].
    destruct (epoch_total h size ls s Hn Hb HS) as [[e []|e x|] H].
    - destruct (IH (s_layers e) src) as [o HO]. exists o. eapply epochs_cons; eauto.
    - eexists. eapply epochs_throw. exact H.
    - eexists. eapply epochs_ub. exact H. }
  destruct (set_batch_all (h_bs h) ls) as [ls' []|ls' x|] eqn:Q.
  - destruct (EP (Z.to_nat (h_epochs h)) ls' s) as [o HO]. exists o. eapply train_run; eauto.
  - eexists. eapply train_throw. exact Q.
  - eexists. eapply train_ub. exact Q.
Qed.

(** *** One data point more than 2^24, batches of one: the last data point is not taken. *)
Lemma large_rest : forall P h size ls src e, h_nt h = 1 -> h_bs h = 1 -> size = 2 ^ 24 + 1 -> size = Z.of_nat (length src) ->
  epoch E cast eqL labels P h size ls src (ORet e tt) -> s_source e = skipn (Z.to_nat (2 ^ 24)) src /\ length (s_source e) = 1%nat.
Proof.
  intros P h size ls src e Hn Hb Hs HS H. inversion H as [wc nb o N0 B0 C1 C2 BT EQ|X EQ|wc N0 X1 X EQ|N0 X EQ]. subst o.
  rewrite Hb, Hn in C1. rewrite Hb, Hs in C2. vm_compute in C1. vm_compute in C2. injection C1 as <-. injection C2 as <-.
  rewrite Hb, Hn in BT. change (Z.to_nat 1) with 1%nat in BT. destruct (batches_have_logs E cast eqL labels _ _ _ _ _ _ _ _ _ BT eq_refl) as (logs & HL & BL).
  assert (HLN : length logs = Z.to_nat (2 ^ 24)) by exact HL. clear HL BT H.
  assert (R1 : Z.of_nat (length (s_results (Est (T := T) ls src (repeat None 1) 0))) = 1) by reflexivity.
  destruct (batches_taken E cast eqL labels 1 1 1 ltac:(lia) ltac:(lia) ltac:(unfold two31; lia) ltac:(lia) P _ logs _ e R1 BL) as [_ S].
  cbn [s_source] in S. rewrite HLN in S. change (Z.to_nat 1) with 1%nat in S. rewrite Nat.mul_1_r in S. split; [exact S|].
  rewrite S, skipn_length. lia.
Qed.
End Total.

Section LargeR.
Context (rand : Z -> Z) (rmax : Z).
Context {U L : Type} (cast : U -> R) (eqL : L -> L -> bool) (labels : list L).
Local Notation nl := (Z.of_nat (length labels)).
Theorem large_epoch : forall h d J ss ls src, h_nt h = 1 -> h_bs h = 1 -> Z.of_nat (length src) = 2 ^ 24 + 1 ->
  net_ok ss d -> net_bkc true ss d -> labels_ok (net_out ss d) nl -> trainable ls ss d nl 1 -> (forall p, In p src -> good_point eqL labels d J p) ->
  exists e, epoch (envR rand rmax) cast eqL labels calm h (2 ^ 24 + 1) ls src (ORet e tt) /\ length (s_source e) = 1%nat.
Proof.
  intros h d J ss ls src Hn Hb HS OK BK LO TR GP.
  destruct (batches_ok rand rmax cast eqL labels 1 1 1 d J (h_lr h) ltac:(lia) ltac:(lia) ltac:(lia) ltac:(unfold two31; lia)
    (Z.to_nat (2 ^ 24)) ss (Est ls src (repeat None (Z.to_nat (h_bs h))) 0) OK BK LO) as [[o BT] ALL].
  - rewrite Hb. reflexivity.
  - exact TR.
  - cbn [s_source]. rewrite Z2Nat.id by lia. lia.
  - exact GP.
  - destruct (ALL o BT) as (e & -> & _). clear ALL.
    assert (EP : epoch (envR rand rmax) cast eqL labels calm h (2 ^ 24 + 1) ls src (ORet e tt)).
    { eapply epoch_run with (wc := 1) (nb := 2 ^ 24); [lia|lia|rewrite Hb, Hn; vm_compute; reflexivity|rewrite Hb; vm_compute; reflexivity|].
      rewrite Hn. rewrite Hb in *. exact BT. }
    exists e. split; [exact EP|]. eapply large_rest; [exact Hn|exact Hb|reflexivity|symmetry; exact HS|exact EP].
Qed.

(** ** The parameters after a full batch do not depend on the schedule, nor on the number of threads. *)
Theorem schedule_free : forall ss d J bs lr, 1 <= bs -> bs < two31 -> net_ok ss d -> net_bkc true ss d -> labels_ok (net_out ss d) nl ->
  forall wc nt wc' nt' (e e' : estate (T := R) (U := U) (L := L)) (pcs pcs' : list pc) g g',
  0 <= wc -> bs <= Z.of_nat nt * wc -> spawn nt 0 wc = Ok pcs -> 0 <= wc' -> bs <= Z.of_nat nt' * wc' -> spawn nt' 0 wc' = Ok pcs' ->
  Z.of_nat (length (s_results e)) = bs -> Z.of_nat (length (s_results e')) = bs -> s_source e = s_source e' ->
  trainable (s_layers e) ss d nl bs -> trainable (s_layers e') ss d nl bs ->
  bs <= Z.of_nat (length (s_source e)) -> (forall p, In p (firstn (Z.to_nat bs) (s_source e)) -> good_point eqL labels d J p) ->
  exec (envR rand rmax) cast eqL labels calm wc bs (start e pcs) g -> finished g ->
  exec (envR rand rmax) cast eqL labels calm wc' bs (start e' pcs') g' -> finished g' ->
  exists ls ls', apply_all lr (g_layers g) = ORet ls tt /\ apply_all lr (g_layers g') = ORet ls' tt /\ map params_of ls = map params_of ls'.
Proof.
  intros ss d J bs lr HB HB2 OK BK LO wc nt wc' nt' e e' pcs pcs' g g' HW CV SP HW' CV' SP' RL RL' SRC TR TR' SZ GP X F X' F'.
  destruct (full_batch rand rmax cast eqL labels wc bs nt ss d J HW HB HB2 CV OK BK LO e pcs g lr SP RL TR SZ GP X F) as (ls & A & B & _).
  rewrite SRC in SZ, GP.
  destruct (full_batch rand rmax cast eqL labels wc' bs nt' ss d J HW' HB HB2 CV' OK BK LO e' pcs' g' lr SP' RL' TR' SZ GP X' F') as (ls' & A' & B' & _).
  exists ls, ls'. split; [exact A|]. split; [exact A'|]. rewrite SRC in B. eapply trainable_params; [|exact B|exact B']. apply sgd_ok. exact OK.
Qed.
End LargeR.
