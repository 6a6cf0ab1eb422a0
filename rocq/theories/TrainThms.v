(** Whole batches and epochs: which data points are taken, what is counted, termination. *)
From Coq Require Import ZArith List Bool Lia.
From Verif Require Import Base Dim Matrix View Num Expr Iter MatFacts Batch Kernel Connected Float32 FloatFacts Pooling Activation Softmax
  Chars Model Net ModelThms Train TrainLocal TrainRest TrainInv TrainData TrainEnd.
Import ListNotations.
Local Open Scope Z_scope.

(** The part of a layer object that belongs to slot [b] of the batch *)
Definition slot_data {T} (b : Z) (l : layer T) : option (mat T) * option (mat T) * option (mat dim3) :=
  let n := Z.to_nat b in
  match l with
  | LKernel k => (nth_error (p_wg (k_par k)) n, nth_error (p_bg (k_par k)) n, None)
  | LConn c => (nth_error (p_wg (c_par c)) n, nth_error (p_bg (c_par c)) n, None)
  | LPool q => (None, None, nth_error (q_idx q) n)
  | _ => (None, None, None)
  end.

Section Thms.
Context {T : Type} {N : Num T} (E : env T).
Context {U L : Type} (cast : U -> T) (eqL : L -> L -> bool) (labels : list L).
Local Notation shared := (shared (T := T) (U := U) (L := L)).
Local Notation pc := (pc (T := T) (U := U) (L := L)).
Local Notation idx := (label_idx eqL labels).
Local Notation nl := (Z.of_nat (length labels)).
Local Notation fwd p := (forward_pass E cast nl (pt_data (L := L) p)).
Local Notation estate := (estate (T := T) (U := U) (L := L)).
Local Notation entry := (entry (U := U) (L := L)).

Lemma nth_eq : forall {A} (l l' : list A), (forall i, nth_error l i = nth_error l' i) -> l = l'.
Proof.
  induction l as [|a l IH]; intros [|a' l'] H; [reflexivity|specialize (H 0%nat); discriminate|specialize (H 0%nat); discriminate|].
  f_equal; [specialize (H 0%nat); cbn in H; congruence|]. apply IH. intros i. exact (H (S i)).
Qed.
Lemma agree_slot : forall m b l l', 0 <= b -> agree m (Z.to_nat b) l l' -> slot_data (T := T) b l = slot_data b l'.
Proof.
  intros m b l l' Hb H. destruct H as [? ? ? ? ? ? ? ? ? H1 H2|? ? ? ? ? ? ? H1 H2|? ? ? ? ? H1|?|]; unfold slot_data; cbn;
    try rewrite (proj2 H1); try rewrite (proj2 H2); reflexivity.
Qed.
Lemma agreeL_slot : forall b ls ls', 0 <= b -> agreeL (Z.to_nat b) ls ls' -> map (slot_data (T := T) b) ls = map (slot_data b) ls'.
Proof.
  intros b ls ls' Hb [HL HA]. apply nth_eq. intros i. rewrite !nth_error_map.
  destruct (nth_error ls i) as [l|] eqn:Q.
  - destruct (HA _ _ Q) as (l' & Q' & H). rewrite Q'. cbn. f_equal. eapply agree_slot; eassumption.
  - apply nth_error_None in Q. rewrite (proj2 (nth_error_None ls' i)) by lia. reflexivity.
Qed.

(** ** The value of the forward pass does not depend on the slot. *)
Lemma it_from_rel : forall {S S'} (R : S -> S' -> Prop) (body : Z -> dim3 -> M S unit) (body' : Z -> dim3 -> M S' unit),
  (forall k i s s' t t', R s s' -> body k i s = ORet t tt -> body' k i s' = ORet t' tt -> R t t') ->
  forall n d i e k s s' t t', R s s' -> it_from n d i e k body s = ORet t tt -> it_from n d i e k body' s' = ORet t' tt -> R t t'.
Proof.
  intros S S' R body body' HB. induction n as [|n IH]; intros d i e k s s' t t' HR H H'; cbn [it_from] in H, H'.
  - destruct (dim_eqb i e); [|discriminate]. injection H as <-. injection H' as <-. exact HR.
  - destruct (dim_eqb i e). { injection H as <-. injection H' as <-. exact HR. }
    unfold bind in H, H'. destruct (body k i s) as [s1 []| |] eqn:Q; try discriminate. destruct (body' k i s') as [s1' []| |] eqn:Q'; try discriminate.
    eapply IH; [|exact H|exact H']. eapply HB; eassumption.
Qed.

Lemma q_value_slot : forall x b b' q q1 q2 y y', q_forward (T := T) x b q = ORet q1 y -> q_forward x b' q = ORet q2 y' -> y = y'.
Proof.
  intros x b b' q q1 q2 y y' H H'. unfold q_forward in H, H'.
  destruct (q_outdim q (mdim x)) as [d| |]; try discriminate. cbn [rbind] in H, H'. destruct (mat_fill d n0) as [o| |]; try discriminate.
  cbn [rbind] in H, H'. destruct (vget (q_idx q) b) as [s| |]; try discriminate. destruct (vget (q_idx q) b') as [s'| |]; try discriminate.
  cbn [rbind] in H, H'. destruct (resize (dim_fill 0) (mdim o) s) as [s1 []| |]; try discriminate. destruct (resize (dim_fill 0) (mdim o) s') as [s1' []| |]; try discriminate.
  destruct (it_loop _ _ (o, s1)) as [[t1 t2] []|[] ?|] eqn:Q; try discriminate. destruct (it_loop _ _ (o, s1')) as [[t1' t2'] []|[] ?|] eqn:Q'; try discriminate.
  injection H as _ <-. injection H' as _ <-. unfold it_loop in Q, Q'. destruct (dz (mdim o) <? 0); [discriminate|].
  change (fst (t1, t2) = fst (t1', t2')). revert Q Q'. generalize (eq_refl : fst (o, s1) = fst (o, s1')).
  apply (it_from_rel (fun a a' : mat T * mat dim3 => fst a = fst a')).
  clear. intros _ i [o s] [o' s'] [t1 t2] [t1' t2'] HO H H'. cbn [fst] in *. subst o'. unfold q_step in H, H'.
  unfold bind, lift in H, H'. destruct (q_corner q i) as [c| |]; try discriminate. destruct (mk_view (mdim x) c (q_size q)) as [v| |]; try discriminate.
  destruct (q_type q).
  - destruct (max_index3 _ _) as [j| |]; try discriminate. destruct (dim_add c j) as [pp| |]; try discriminate.
    destruct (on_snd (mwrite i pp) (o, s)) as [[o1 s1] ?|[] ?|] eqn:Q1; try discriminate. destruct (on_snd (mwrite i pp) (o, s')) as [[o2 s2] ?|[] ?|] eqn:Q2; try discriminate.
    destruct (mread x pp) as [av| |]; try discriminate. unfold on_snd in Q1, Q2. destruct (mwrite i pp s); try discriminate. destruct (mwrite i pp s'); try discriminate.
    injection Q1 as <- <- _. injection Q2 as <- <- _. cbn [on_fst] in H, H'. first [destruct (mwrite i av o)|destruct (mwrite i a o)]; try discriminate. congruence.
  - destruct (min_index3 _ _) as [j| |]; try discriminate. destruct (dim_add c j) as [pp| |]; try discriminate.
    destruct (on_snd (mwrite i pp) (o, s)) as [[o1 s1] ?|[] ?|] eqn:Q1; try discriminate. destruct (on_snd (mwrite i pp) (o, s')) as [[o2 s2] ?|[] ?|] eqn:Q2; try discriminate.
    destruct (mread x pp) as [av| |]; try discriminate. unfold on_snd in Q1, Q2. destruct (mwrite i pp s); try discriminate. destruct (mwrite i pp s'); try discriminate.
    injection Q1 as <- <- _. injection Q2 as <- <- _. cbn [on_fst] in H, H'. first [destruct (mwrite i av o)|destruct (mwrite i a o)]; try discriminate. congruence.
  - destruct (mean _ _) as [a| |]; try discriminate. cbn [on_fst] in H, H'. first [destruct (mwrite i av o)|destruct (mwrite i a o)]; try discriminate. congruence.
Qed.

Lemma l_value_slot : forall x b b' l l1 l2 y y', l_forward E x b l = ORet l1 y -> l_forward E x b' l = ORet l2 y' -> y = y'.
Proof.
  intros x b b' l l1 l2 y y' H H'. destruct l as [k|c|q|a|s]; cbn [l_forward] in H, H'; try congruence.
  destruct (q_forward x b q) eqn:Q; try discriminate. destruct (q_forward x b' q) eqn:Q'; try discriminate.
  cbn in H, H'. injection H as _ <-. injection H' as _ <-. eapply q_value_slot; eassumption.
Qed.

Lemma layers_value_slot : forall b b' ls x l1 l2 y y', fwd_layers E ls x b = ORet l1 y -> fwd_layers E ls x b' = ORet l2 y' -> y = y'.
Proof.
  intros b b'. induction ls as [|l ls IH]; intros x l1 l2 y y' H H'; cbn [fwd_layers] in H, H'; [congruence|].
  destruct (l_forward E x b l) as [a v| |] eqn:Q; try discriminate. destruct (l_forward E x b' l) as [a' v'| |] eqn:Q'; try discriminate.
  rewrite <- (l_value_slot _ _ _ _ _ _ _ _ Q Q') in H'. destruct (float_copy E v); try discriminate.
  destruct (fwd_layers E ls v b) as [c [rs o]| |] eqn:F; try discriminate. destruct (fwd_layers E ls v b') as [c' [rs' o']| |] eqn:F'; try discriminate.
  pose proof (IH _ _ _ _ _ F F'). cbn in H, H'. congruence.
Qed.

Theorem forward_value_slot : forall p b b' ls l1 l2 r r', fwd p b ls = ORet l1 r -> fwd p b' ls = ORet l2 r' -> r = r'.
Proof.
  intros p b b' ls l1 l2 r r' H H'. unfold forward_pass, bind, lift in H, H'.
  destruct (mat_of_lz _ _ _ _) as [x| |]; try discriminate. destruct (float_copy E x) as [r0| |]; try discriminate.
  destruct (fwd_layers E ls x b) as [a [rs o]| |] eqn:F; try discriminate. destruct (fwd_layers E ls x b') as [a' [rs' o']| |] eqn:F'; try discriminate.
  pose proof (layers_value_slot _ _ _ _ _ _ _ _ F F') as EQ. injection EQ as <- <-. cbn [fst snd] in H, H'.
  destruct (base_size (mdim o)) as [n| |]; try discriminate. destruct (n =? nl); try discriminate. cbn in H, H'.
  destruct (max_index o) as [m| |]; try discriminate. destruct (mread_flat o m) as [v| |]; try discriminate.
  injection H as _ <-. injection H' as _ <-. reflexivity.
Qed.

(** ** One batch *)
Section Batch.
Context (wc bs : Z) (nt : nat) (e : estate) (pcs : list pc).
Hypothesis HW : 0 <= wc.
Hypothesis HB : 0 <= bs.
Hypothesis HB2 : bs < two31.
Hypothesis SP : spawn nt 0 wc = Ok pcs.
Hypothesis RL : Z.of_nat (length (s_results e)) = bs.
Local Notation ls0 := (s_layers e).
Local Notation src0 := (s_source e).
Local Notation gst := (gstep E cast eqL labels wc bs).
Local Notation tex P := (texec E cast eqL labels P wc bs (start e pcs)).

Lemma batch_invA : forall P g log, tex P g log -> invA wc bs nt src0 log g.
Proof. intros P g log H. eapply invA_exec; try eassumption. Qed.

Theorem batch_bounded : exists B, forall sched g, run E cast eqL labels wc bs sched (start e pcs) = GNext g -> (length sched <= B)%nat.
Proof.
  exists (meas wc bs nt (length ls0) (start e pcs)). intros sched g H.
  assert (A : invA wc bs nt src0 [] (start e pcs)) by (eapply (batch_invA (fun _ => True)); constructor).
  pose proof (run_bound E cast eqL labels wc bs nt src0 HW HB HB2 (length ls0) sched _ _ [] A eq_refl H). lia.
Qed.

Lemma finished_dec : forall g : shared, finished g \/ ~ finished g.
Proof.
  intros g. unfold finished. destruct (Forall_dec (fun c : pc => exists b, c = PDone b)) with (l := g_pcs g) as [H|H].
  - intros [b|b|b|b|b p|b p w|b|b]; try (right; intros [? ?]; discriminate). left. eauto.
  - left. apply Forall_forall. exact H.
  - right. intros C. apply H. apply Forall_forall. exact C.
Qed.

Theorem batch_no_deadlock : forall P g, exec E cast eqL labels P wc bs (start e pcs) g -> finished g \/ exists t, gst t g <> GBlocked.
Proof.
  intros P g H. apply exec_texec in H. destruct H as [log H]. destruct (finished_dec g) as [F|F]; [auto|right].
  eapply no_deadlock; try eassumption. eapply batch_invA; eassumption.
Qed.

Theorem batch_taken : forall P g log, tex P g log ->
  NoDup (map (fun x => snd (fst x)) log) /\
  (forall t b p, In (t, b, p) log -> (t < nt)%nat /\ Z.of_nat t * wc <= b < Z.min ((Z.of_nat t + 1) * wc) bs) /\
  src0 = map snd log ++ g_source g /\
  (finished g -> bs <= Z.of_nat nt * wc -> map snd log = firstn (Z.to_nat bs) src0 /\ g_source g = skipn (Z.to_nat bs) src0).
Proof.
  intros P g log H. apply batch_invA in H. split; [|split; [|split]].
  - exact (a_nodup _ _ _ _ _ _ H).
  - intros t b p HI. destruct (invA_entry _ _ _ _ _ _ _ _ _ H HI) as [R (c & Q & _)]. split; [|exact R].
    rewrite <- (a_len _ _ _ _ _ _ H). apply nth_error_Some. congruence.
  - exact (a_src _ _ _ _ _ _ H).
  - intros F CV. destruct (taken_all wc bs nt src0 HW HB HB2 _ _ H F CV) as (_ & A & B). auto.
Qed.

(** *** The contents, when the fully connected layers are initialised *)
Hypothesis RD : List.Forall ready ls0.

Lemma count_of : exists cnt, forall body s, ls0 = body ++ [LSoft s] -> sm_count s = cnt.
Proof.
  exists (match rev ls0 with LSoft s :: _ => sm_count s | _ => 0 end). intros body s ->. rewrite rev_app_distr. reflexivity.
Qed.

Lemma batch_anyD : forall P g log, tex P g log -> exists cnt, invD E cast eqL labels ls0 (s_results e) cnt (fun _ _ => True) log g.
Proof.
  intros P g log H. destruct count_of as [cnt HC]. exists cnt. eapply invD_exec with (wc := wc) (bs := bs) (P := P) (src0 := src0) (pcs0 := pcs) (nt := nt); try eassumption; auto.
Qed.

Lemma batch_agree : forall P g log, tex P g log -> agreeL (Z.to_nat bs) (g_layers g) ls0.
Proof.
  intros P g log H. destruct (batch_anyD _ _ _ H) as [cnt D]. apply batch_invA in H. eapply free_bs with (wc := wc) (bs := bs); try eassumption.
Qed.
Lemma agreeL_ready : forall b (ls ls' : list (layer T)), agreeL b ls ls' -> List.Forall ready ls.
Proof.
  intros b ls ls' [_ H]. apply Forall_forall. intros l HI. apply In_nth_error in HI. destruct HI as [i HI]. destruct (H _ _ HI) as (l' & _ & A).
  exact (proj1 (agree_ready _ _ _ _ A)).
Qed.
Lemma agreeL_params : forall b (ls ls' : list (layer T)), agreeL b ls ls' -> map params_of ls = map params_of ls'.
Proof.
  intros b ls ls' [HL HA]. apply nth_eq. intros i. rewrite !nth_error_map. destruct (nth_error ls i) as [l|] eqn:Q.
  - destruct (HA _ _ Q) as (l' & Q' & H). rewrite Q'. cbn. f_equal. eapply agree_params; eassumption.
  - apply nth_error_None in Q. rewrite (proj2 (nth_error_None ls' i)) by lia. reflexivity.
Qed.

Theorem batch_params : forall P g log, tex P g log -> map params_of (g_layers g) = map params_of ls0.
Proof. intros P g log H. eapply agreeL_params. eapply batch_agree. eassumption. Qed.

(** A thread writes only to the slots of its own range. *)
Theorem batch_writes : forall P g log t g' b, tex P g log -> gst t g = GNext g' -> 0 <= b ->
  ~ (Z.of_nat t * wc <= b < Z.min ((Z.of_nat t + 1) * wc) bs) ->
  map (slot_data b) (g_layers g') = map (slot_data b) (g_layers g) /\ nth_error (g_results g') (Z.to_nat b) = nth_error (g_results g) (Z.to_nat b).
Proof.
  intros P g log t g' b H ST Hb NR. pose proof (agreeL_ready _ _ _ (batch_agree _ _ _ H)) as R. apply batch_invA in H. apply gstep_gs in ST.
  destruct ST; try (split; reflexivity).
  destruct (a_rng _ _ _ _ _ _ H _ _ H0) as [R1 R2]. cbn [cur inloop] in R1, R2. pose proof (lo_nonneg wc HW t). unfold lo in *. unfold cutoff in R2.
  assert (b0 <> b) by lia. cbn [set_pc g_layers g_results]. split.
  - symmetry. apply agreeL_slot; [exact Hb|]. eapply wstep_frame with (b := b0); try eassumption. lia.
  - eapply keep_other with (b := b0); try eassumption. lia.
Qed.

(** At the end each slot for which a data point was taken holds the result of that data point; the other slots are
    unchanged. *)
Theorem batch_results : forall P g log, tex P g log -> finished g ->
  (forall t b p, In (t, b, p) log -> exists ls1 r1 r,
     fwd p b ls0 = ORet ls1 r1 /\ assign_loss E r1 (idx p) = Ok r /\ nth_error (g_results g) (Z.to_nat b) = Some (Some r)) /\
  (forall b, 0 <= b -> ~ In b (map (fun x => snd (fst x)) log) ->
     map (slot_data b) (g_layers g) = map (slot_data b) ls0 /\ nth_error (g_results g) (Z.to_nat b) = nth_error (s_results e) (Z.to_nat b)).
Proof.
  intros P g log H F. destruct (batch_anyD _ _ _ H) as [cnt D]. apply batch_invA in H. split.
  - intros t b p HI. destruct (invA_entry _ _ _ _ _ _ _ _ _ H HI) as [_ (c & Q & _)].
    pose proof (d_ent _ _ _ _ _ _ _ _ _ _ D _ _ _ _ HI Q) as HE. destruct (F c (nth_error_In _ _ Q)) as [b' ->]. cbn [ent phase] in HE.
    destruct HE as (k & lsp & r & _ & PR & _ & NR). apply priv_end in PR. destruct PR as (ls1 & r1 & A & B & _). exists ls1, r1, r. auto.
  - intros b Hb NI. destruct (d_free _ _ _ _ _ _ _ _ _ _ D b Hb) as [A B].
    + intros t p HI. apply NI. apply in_map_iff. exists (t, b, p). auto.
    + split; [apply agreeL_slot; assumption|exact B].
Qed.

(** The counted successes *)
Definition predicts (p : point U L) (r : results T) : Prop := exists b ls1, fwd p b ls0 = ORet ls1 r.

Lemma count_exec : forall P g log, tex P g log -> g_success g = s_success e + sumZ (map (counted g) log).
Proof.
  intros P g log H. induction H as [|t g g' log H IH ST HP]; [cbn; lia|].
  eapply count_step with (wc := wc) (bs := bs); [exact HW|eapply batch_invA; exact H| |apply gstep_gs; exact ST|exact IH].
  intros t' b p w Q. destruct (a_rng _ _ _ _ _ _ (batch_invA _ _ _ H) _ _ Q) as [R _]. cbn [cur] in R. pose proof (lo_nonneg wc HW t'). lia.
Qed.

Theorem batch_count : forall P g log, tex P g log -> finished g ->
  exists rs, Forall2 predicts (map snd log) rs /\
    g_success g = s_success e + Z.of_nat (length (filter (fun x => r_label (snd x) =? idx (fst x)) (combine (map snd log) rs))).
Proof.
  intros P g log H F. pose proof (count_exec _ _ _ H) as HC. destruct (batch_results _ _ _ H F) as [HR _]. apply batch_invA in H. rewrite HC. clear HC.
  assert (G : forall l, incl l log -> exists rs, Forall2 predicts (map snd l) rs /\
    sumZ (map (counted g) l) = Z.of_nat (length (filter (fun x => r_label (snd x) =? idx (fst x)) (combine (map snd l) rs)))).
  { induction l as [|[[t b] p] l IH]; intros HL. { exists []. split; [constructor|reflexivity]. }
    destruct IH as (rs & IH1 & IH2). { intros x HX. apply HL. right. exact HX. }
    assert (HI : In (t, b, p) log) by (apply HL; left; reflexivity).
    destruct (HR _ _ _ HI) as (ls1 & r1 & r & A & B & C). exists (r1 :: rs). split.
    { constructor; [exists b, ls1; exact A|exact IH1]. }
    cbn [map sumZ fold_right]. change (fold_right Z.add 0 (map (counted g) l)) with (sumZ (map (counted g) l)). rewrite IH2. cbn [snd combine filter fst].
    destruct (invA_entry _ _ _ _ _ _ _ _ _ H HI) as [_ (c & Q & Q2)]. destruct (F c (nth_error_In _ _ Q)) as [b' ->]. cbn [upto] in Q2.
    unfold counted at 1. cbn [e_thread e_slot fst snd]. rewrite Q. cbn [cur]. replace (b <? b') with true by (symmetry; apply Z.ltb_lt; exact Q2).
    unfold hit. rewrite C. apply assign_true in B. destruct B as [B1 B2]. rewrite B1, B2. destruct (r_label r1 =? idx p); cbn [length]; lia. }
  destruct (G log (fun x h => h)) as (rs & G1 & G2). exists rs. rewrite G2. auto.
Qed.

(** The labels used. In all interleavings: that of some data point of the source *)
Theorem batch_some_label : forall P g log, tex P g log -> finished g -> forall t b p, In (t, b, p) log ->
  exists ls1 r1 r p' ls2, fwd p b ls0 = ORet ls1 r1 /\ assign_loss E r1 (idx p) = Ok r /\ In p' src0 /\
    backward_tail E (r_inputs r) (idx p') b ls1 = ORet ls2 tt /\ map (slot_data b) (g_layers g) = map (slot_data b) ls2.
Proof.
  intros P g log H F t b p HI. destruct count_of as [cnt HC].
  assert (D : invD E cast eqL labels ls0 (s_results e) cnt (fun _ k => exists p', In p' src0 /\ k = idx p') log g).
  { eapply invD_exec with (wc := wc) (bs := bs) (P := P) (src0 := src0) (pcs0 := pcs) (nt := nt); try eassumption; eauto. }
  apply batch_invA in H. destruct (invA_entry _ _ _ _ _ _ _ _ _ H HI) as [R (c & Q & _)]. pose proof (lo_nonneg wc HW t).
  pose proof (d_ent _ _ _ _ _ _ _ _ _ _ D _ _ _ _ HI Q) as HE. destruct (F c (nth_error_In _ _ Q)) as [b' ->]. cbn [ent phase] in HE.
  destruct HE as (k & lsp & r & (p' & HP & ->) & PR & AG & NR). apply priv_end in PR. destruct PR as (ls1 & r1 & A & B & C).
  exists ls1, r1, r, p', lsp. repeat (split; [assumption|]). apply agreeL_slot; [lia|exact AG].
Qed.

(** When no two hand-overs overlap: its own *)
Lemma calm_D : forall g log, tex calm g log -> exists cnt, invD E cast eqL labels ls0 (s_results e) cnt (fun p k => k = idx p) log g.
Proof.
  intros g log H. destruct count_of as [cnt HC]. exists cnt.
  eapply invD_exec with (wc := wc) (bs := bs) (P := calm) (src0 := src0) (pcs0 := pcs) (nt := nt); try eassumption; auto.
  intros g0 t t' b b' p p' CA NE W1 W2. exfalso. apply NE. eapply CA; eassumption.
Qed.

Lemma batch_own_agree : forall g log, tex calm g log -> finished g -> forall t b p, In (t, b, p) log ->
  exists ls1 r1 ls2 r, fwd p b ls0 = ORet ls1 r1 /\ backward_pass E r1 (idx p) b ls1 = ORet ls2 r /\
    nth_error (g_results g) (Z.to_nat b) = Some (Some r) /\ agreeL (Z.to_nat b) (g_layers g) ls2 /\ 0 <= b.
Proof.
  intros g log H F t b p HI. destruct (calm_D _ _ H) as [cnt D].
  apply batch_invA in H. destruct (invA_entry _ _ _ _ _ _ _ _ _ H HI) as [R (c & Q & _)]. pose proof (lo_nonneg wc HW t).
  pose proof (d_ent _ _ _ _ _ _ _ _ _ _ D _ _ _ _ HI Q) as HE. destruct (F c (nth_error_In _ _ Q)) as [b' ->]. cbn [ent phase] in HE.
  destruct HE as (k & lsp & r & -> & PR & AG & NR). apply priv_end_own in PR. destruct PR as (ls1 & r1 & A & B).
  exists ls1, r1, lsp, r. repeat (split; [assumption|]). lia.
Qed.
Theorem batch_own_label : forall g log, tex calm g log -> finished g -> forall t b p, In (t, b, p) log ->
  exists ls1 r1 ls2 r, fwd p b ls0 = ORet ls1 r1 /\ backward_pass E r1 (idx p) b ls1 = ORet ls2 r /\
    nth_error (g_results g) (Z.to_nat b) = Some (Some r) /\ map (slot_data b) (g_layers g) = map (slot_data b) ls2.
Proof.
  intros g log H F t b p HI. destruct (batch_own_agree _ _ H F _ _ _ HI) as (ls1 & r1 & ls2 & r & A & B & C & D & P0).
  exists ls1, r1, ls2, r. repeat (split; [assumption|]). apply agreeL_slot; assumption.
Qed.
End Batch.

(** With one thread no hand-overs overlap. *)
Lemma single_calm : forall wc bs nt e pcs g, (nt <= 1)%nat -> 0 <= wc -> 0 <= bs -> bs < two31 -> spawn nt 0 wc = Ok pcs -> Z.of_nat (length (s_results e)) = bs ->
  exec E cast eqL labels (fun _ => True) wc bs (start e pcs) g -> exec E cast eqL labels calm wc bs (start e pcs) g.
Proof.
  intros wc bs nt e pcs g HN HW HB HB2 SP RL H. remember (start e pcs) as g0 eqn:EQ. induction H as [g|g t g' g'' H IH ST _]; [constructor|].
  specialize (IH EQ). subst g. eapply exec_step; [exact IH|exact ST|].
  apply exec_texec in IH. destruct IH as [log IH].
  assert (TX : texec E cast eqL labels (fun _ => True) wc bs (start e pcs) g' log).
  { clear - IH. induction IH; econstructor; eauto. }
  pose proof (batch_invA wc bs nt e pcs HW HB HB2 SP RL _ _ _ (tx_step _ _ _ _ _ _ _ _ _ _ _ _ TX ST I)) as A.
  intros a a' b b' p p' (gr & r & W) (gr' & r' & W').
  assert (a < nt)%nat by (rewrite <- (a_len _ _ _ _ _ _ A); apply nth_error_Some; congruence).
  assert (a' < nt)%nat by (rewrite <- (a_len _ _ _ _ _ _ A); apply nth_error_Some; congruence). lia.
Qed.
End Thms.
