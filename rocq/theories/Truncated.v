(** Training files that are shorter than their headers say: with one thread the behaviour of the program is undefined. *)
From Coq Require Import String ZArith List Bool Lia.
From Verif Require Import Base Dim Matrix View Num Expr Spec Iter MatFacts Batch Kernel Connected Float32 Pooling Activation Softmax
  LayerFacts LayerTotal FloatFacts Chars Model Net NetGrad ModelThms Mnist MnistFacts MnistCut Train TrainLocal TrainRest TrainInv TrainData TrainEnd TrainThms TrainEpoch TrainNet TrainSgd TrainMore Shapes ShapeNet TrainSafe TrainOne
  Double Stream Text Main Validate Bar Report Program ProgramFeed.
Import ListNotations.
Local Open Scope Z_scope.

Section Bad.
Context {T : Type} {N : Num T} (E : env T).
Hypothesis ORD : e_moved E = false.
Context {U L : Type} (cast : U -> T) (eqL : L -> L -> bool) (labels : list L) (bad : point U L -> Prop).
Hypothesis BU : forall b p ls, bad p -> wstep E cast eqL labels b p WStart ls = OUB.
Local Notation nl := (Z.of_nat (length labels)).
Local Notation estate := (estate (T := T) (U := U) (L := L)).

Theorem batches_bad : forall P wc bs ss d lr, 1 <= bs < two31 -> bs <= wc < two31 -> h_ready ss d nl -> (forall p, bad p -> ~ pt_ok eqL labels d p) ->
  forall n (e : estate) o, Z.of_nat (length (s_results e)) = bs -> set_up labels (s_layers e) ss d bs ->
  (forall p, In p (s_source e) -> pt_ok eqL labels d p \/ bad p) -> (exists p, In p (s_source e) /\ bad p) -> Z.of_nat (length (s_source e)) <= Z.of_nat n * bs ->
  batches E cast eqL labels P wc bs 1 lr n e o -> o = OUB.
Proof.
  intros P wc bs ss d lr HB HW HR NB. induction n as [|n IH]; intros e o RL SU GP (p & I & B) LN H.
  - exfalso. destruct (s_source e); [destruct I|]. cbn [length] in LN. lia.
  - assert (FL : warm (s_layers e) ss d bs \/ bs <= Z.of_nat (length (s_source e)) \/ (exists p, In p (s_source e) /\ bad p /\ ~ pt_ok eqL labels d p)) by (right; right; exists p; auto).
    inversion H as [|n' e1 e' o' B1 B2 Q1 Q2 Q3|n' e1 o' B1 B2 Q1 Q2 Q3].
    + destruct (batch_mixed E ORD cast eqL labels P wc bs ss d bad e lr _ HB HW HR RL SU GP BU FL B1) as [(e2 & Q & S1 & S2 & S3 & S4 & S5)|(Q & _)]; [|discriminate Q].
      injection Q as <-. apply (IH e' o S3 S1); [| | |exact B2].
      * intros q HQ. apply GP. rewrite S4 in HQ. rewrite <- (firstn_skipn (Z.to_nat bs)). apply in_or_app. auto.
      * exists p. split; [|exact B]. rewrite S4. apply In_nth_error in I. destruct I as [i I]. destruct (Nat.lt_ge_cases i (Z.to_nat bs)) as [K|K].
        { exfalso. apply (NB p B). apply (S5 i p K I). }
        apply (nth_error_In _ (i - Z.to_nat bs)). rewrite <- I. rewrite <- (firstn_skipn (Z.to_nat bs) (s_source e)) at 2.
        assert (IL : (i < length (s_source e))%nat) by (apply nth_error_Some; congruence).
        rewrite nth_error_app2; rewrite firstn_length, Nat.min_l by lia; [reflexivity|lia].
      * rewrite S4, skipn_length. lia.
    + destruct (batch_mixed E ORD cast eqL labels P wc bs ss d bad e lr _ HB HW HR RL SU GP BU FL B1) as [(e2 & Q & _)|(Q & _)]; [|exact Q].
      exfalso. eapply B2. exact Q.
Qed.

Theorem train_bad : forall P h d size ss body sm src o, h_nt h = 1 -> 1 <= h_bs h < 2 ^ 24 -> Z.of_nat (length src) <= size -> size < 2 ^ 24 -> 1 <= h_epochs h ->
  h_ready ss d nl -> net_fit body ss d -> List.Forall idx_ok body -> sm_count sm = nl ->
  (forall p, In p src -> pt_ok eqL labels d p \/ bad p) -> (forall p, bad p -> ~ pt_ok eqL labels d p) -> (exists p, In p src /\ bad p) ->
  train E cast eqL labels P h size src (body ++ [LSoft sm]) src o -> o = OUB.
Proof.
  intros P h d size ss body sm src o Hn Hb HS HS2 HE HRd HF HI HC GP NB EX H.
  destruct (set_batch_shapes (h_bs h) body ss d ltac:(lia) HF HI) as (body' & EB & N1 & N2 & N3 & N4).
  assert (EA : set_batch_all (h_bs h) (body ++ [LSoft sm]) = ORet (body' ++ [LSoft sm]) tt) by (unfold set_batch_all in *; apply each_app; [exact EB|reflexivity]).
  inversion H as [ls1 s1 o1 Q H1|ls1 s1 x Q|s1 Q]; subst s1; rewrite EA in Q; try discriminate. injection Q as <-.
  assert (EP : forall o, epoch E cast eqL labels P h size (body' ++ [LSoft sm]) src o -> o = OUB).
  { intros o2 HO. assert (P24 : 2 ^ 24 = 16777216) by reflexivity. rewrite P24 in *.
    destruct (ceil_facts size (h_bs h)) as [D1 D2]; [lia|lia|].
    assert (E1 : ceil_div (h_bs h) (h_nt h) = Ok (h_bs h)). { rewrite ceil_div_exact by (rewrite ?P24; lia). rewrite Hn. f_equal. rewrite Z.div_1_r. lia. }
    assert (E2 : ceil_div size (h_bs h) = Ok ((size + h_bs h - 1) / h_bs h)) by (apply ceil_div_exact; rewrite ?P24; lia).
    inversion HO as [wc' nb o' N0 B0 W1 W2 BT EQ|X EQ|wc' N0 X1 X EQ|N0 [X|[_ X]] EQ]; subst o2; try congruence; [|lia|lia].
    rewrite E1 in W1. injection W1 as <-. rewrite E2 in W2. injection W2 as <-. rewrite Hn in BT.
    eapply (batches_bad P (h_bs h) (h_bs h) ss d (h_lr h) ltac:(unfold two31; lia) ltac:(unfold two31; lia) HRd NB); [| | | | |exact BT].
    - cbn [s_results]. rewrite repeat_length. lia.
    - exists body', sm. auto 8.
    - exact GP.
    - exact EX.
    - cbn [s_source]. rewrite Z2Nat.id by lia. nia. }
  destruct (Z.to_nat (h_epochs h)) as [|n] eqn:QE; [lia|].
  inversion H1 as [|? ? ? e ? B1 B2|? ? ? e x B1|? ? ? B1]; subst; pose proof (EP _ B1) as Q; try discriminate Q. reflexivity.
Qed.
End Bad.

(** The point that stands for data that cannot be read *)
Lemma damaged_ub : forall {T} {N : Num T} (E : env T) (cast : f32 -> T) labels b (ls : list (layer T)),
  wstep E cast text_eqb labels b damaged WStart ls = OUB.
Proof. reflexivity. Qed.
Lemma damaged_not_ok : forall labels d, ~ pt_ok text_eqb labels d damaged.
Proof. intros labels d [[_ H] _]. discriminate H. Qed.

Section Program.
Context {T : Type} {N : Num T} (E : env T) (ORD : e_moved E = false) (cast : f32 -> T) (show : T -> text) (showf : f32 -> text) (wr : T -> text) (big : bool) (limit rmax : Z).
Context (n m : Z) (ti tl : file) (C : cut limit n m 28 28 ti tl) (Hn : n <= 2 ^ 24) (DG : forall i, 1 <= i < m -> f_byte tl (8 + i) < 10).

(** What training gets *)
Lemma cut_source : 1 <= m -> exists r ps, gen_open big limit (Readable ti) (Readable tl) = Ok r /\ feed big r (ps ++ [damaged]) /\ gen_size r = n - 1 /\
  Z.of_nat (length ps) = m - 1 /\ forall p, In p ps -> pt_ok text_eqb main_labels (D3 28 28 1) p.
Proof.
  intros M1. pose proof (ct_m _ _ _ _ _ _ _ C) as MB. pose proof (ct_n _ _ _ _ _ _ _ C) as NB.
  destruct (cut_feed big _ _ _ _ _ _ _ C (Z.to_nat (m - 1)) 1) as (ps & D & LN & PN); [lia|lia|].
  eexists _, ps. split; [apply (cut_open_ok big _ _ _ _ _ _ _ C M1)|]. split; [exact D|]. split.
  { unfold gen_size, num_images. cbn [r_num]. rewrite (u64_id n) by (unfold two64, two31 in *; lia). apply u64_id. unfold two64, two31 in *. lia. }
  split; [lia|]. intros p HP. apply In_nth_error in HP. destruct HP as [k HK]. pose proof (PN k p HK) as [G1 G2].
  assert (KL : (k < length ps)%nat) by (apply nth_error_Some; congruence).
  split; [eapply is_has; exact G1|]. unfold label_idx. rewrite G2.
  assert (B : 0 <= f_byte tl (8 + (1 + Z.of_nat k)) < 10) by (split; [apply (ct_bytes _ _ _ _ _ _ _ C)|apply DG; lia]).
  rewrite digit_label by exact B. change (Z.of_nat (length main_labels)) with 10. exact B.
Qed.
Lemma cut_train : forall P r ps m0 body lr, feed big r (ps ++ [damaged]) -> gen_size r = n - 1 -> Z.of_nat (length ps) = m - 1 ->
  (forall p, In p ps -> pt_ok text_eqb main_labels (D3 28 28 1) p) ->
  m_labels m0 = main_labels -> map snd (m_layers m0) = body ++ [LSoft (sm_make 10)] -> net_fit body main_shapes (D3 28 28 1) -> List.Forall idx_ok body ->
  forall o, train E cast text_eqb (m_labels m0) P (main_params lr 1) (gen_size r) (ps ++ [damaged]) (map snd (m_layers m0)) (ps ++ [damaged]) o -> o = OUB.
Proof.
  intros P r ps m0 body lr D SZ LN GP ML LL NF IX o TN. pose proof (ct_m _ _ _ _ _ _ _ C) as MB. rewrite ML, LL in TN. assert (P24 : 2 ^ 24 = 16777216) by reflexivity. rewrite P24 in Hn.
    apply (train_bad E ORD cast text_eqb main_labels (fun p => p = damaged)) with (d := D3 28 28 1) (ss := main_shapes) in TN; auto; cbn [h_nt h_bs h_epochs main_params]; try lia.
    - intros b p ls0 ->. apply damaged_ub.
    - rewrite app_length. cbn [length]. lia.
    - exact main_fits.
    - intros p HP. apply in_app_or in HP. destruct HP as [HP|[<-|[]]]; auto.
    - intros p ->. apply damaged_not_ok.
    - exists damaged. split; [apply in_or_app; right; left; reflexivity|reflexivity].
Qed.
Theorem main_truncated : forall P vi vl u lr rs save e,
  main_run E cast show showf wr big limit rmax P (Readable ti) (Readable tl) vi vl u lr 1 rs save e -> e = Undefined.
Proof.
  intros P vi vl u lr rs save e H. pose proof (ct_m _ _ _ _ _ _ _ C) as MB. destruct (Z.eq_dec m 0) as [M0|M0].
  { pose proof (cut_open_ub big _ _ _ _ _ _ _ C M0) as ER.
    destruct H as [e ER'|ER'|r' e ER' EM'|r' ER' EM'|r' m' ps' ls e ER' EM' D' TN|r' m' ps' ER' EM' D' TN|r' m' ps' ls o ms ER' EM' D' TN V L5]; rewrite ER in ER'; try discriminate ER'. reflexivity. }
  destruct (cut_source ltac:(lia)) as (r & ps & ER & D & SZ & LN & GP).
  destruct (main_model_ok E u) as (m0 & body & EM & ML & LL & NF & IX & _).
  destruct H as [e ER'|ER'|r' e ER' EM'|r' ER' EM'|r' m' ps' ls e ER' EM' D' TN|r' m' ps' ER' EM' D' TN|r' m' ps' ls o ms ER' EM' D' TN V L5]; rewrite ER in ER'; try discriminate ER'; try reflexivity;
    injection ER' as <-; rewrite EM in EM'; try discriminate EM'; injection EM' as <-; rewrite (feed_fun _ _ _ _ D' D) in TN; pose proof (cut_train P r ps m0 body lr D SZ LN GP ML LL NF IX _ TN) as Q; discriminate Q.
Qed.
Theorem main_truncated_runs : forall vi vl u lr rs save,
  main_run E cast show showf wr big limit rmax (fun _ => True) (Readable ti) (Readable tl) vi vl u lr 1 rs save Undefined.
Proof.
  intros vi vl u lr rs save. pose proof (ct_m _ _ _ _ _ _ _ C) as MB. destruct (Z.eq_dec m 0) as [M0|M0].
  { apply run_open_ub. apply (cut_open_ub big _ _ _ _ _ _ _ C M0). }
  destruct (cut_source ltac:(lia)) as (r & ps & ER & D & SZ & LN & GP).
  destruct (main_model_ok E u) as (m0 & body & EM & ML & LL & NF & IX & _).
  destruct (train_total E cast text_eqb (m_labels m0) (main_params lr 1) (gen_size r) (ps ++ [damaged]) (map snd (m_layers m0)) (ps ++ [damaged])) as [o TN].
  1-3 : assert (P24 : 2 ^ 24 = 16777216) by reflexivity; rewrite P24 in *; cbn [h_nt h_bs main_params]; lia.
  pose proof (cut_train (fun _ => True) r ps m0 body lr D SZ LN GP ML LL NF IX o TN) as Q. subst o.
  exact (run_train_ub E cast show showf wr big limit rmax _ _ _ _ _ u lr 1 rs save r m0 (ps ++ [damaged]) ER EM D TN).
Qed.
End Program.
