(** The end of a batch: it is reached, without deadlock; which data points are taken; the number of correct guesses. *)
From Coq Require Import ZArith List Bool Lia.
From Verif Require Import Base Dim Matrix View Num Expr Iter MatFacts Batch Kernel Connected Float32 Pooling Activation Softmax
  Chars Model Net ModelThms Train TrainLocal TrainRest TrainInv TrainData.
Import ListNotations.
Local Open Scope Z_scope.

Section End_.
Context {T : Type} {N : Num T} (E : env T).
Context {U L : Type} (cast : U -> T) (eqL : L -> L -> bool) (labels : list L).
Context (wc bs : Z).
Local Notation wst := (wstep E cast eqL labels).
Local Notation gst := (gstep E cast eqL labels wc bs).
Local Notation shared := (shared (T := T) (U := U) (L := L)).
Local Notation pc := (pc (T := T) (U := U) (L := L)).
Local Notation work := (work (T := T)).
Local Notation idx := (label_idx eqL labels).
Local Notation prv := (priv E cast eqL labels).
Local Notation entry := (entry (U := U) (L := L)).
Context (nt : nat) (src0 : list (point U L)).
Hypothesis HW : 0 <= wc.
Hypothesis HB : 0 <= bs.
Hypothesis HB2 : bs < two31.

(** *** No deadlock *)
Lemma no_deadlock : forall log (g : shared), invA wc bs nt src0 log g -> ~ finished g -> exists t, gst t g <> GBlocked.
Proof.
  intros log g A NF. destruct (g_lock g) as [t|] eqn:QL.
  - exists t. pose proof (a_lock2 _ _ _ _ _ _ A t QL) as Ht. unfold gstep. rewrite <- (a_len _ _ _ _ _ _ A) in Ht. apply nth_error_Some in Ht.
    destruct (nth_error (g_pcs g) t) as [c|] eqn:Q; [|congruence]. pose proof (proj2 (a_lock _ _ _ _ _ _ A t c Q) QL) as HH.
    destruct c as [b|b|b|b|b p|b p w|b|b]; try discriminate HH; destruct (g_source g); discriminate.
  - assert (HE : exists c, In c (g_pcs g) /\ forall b, c <> PDone b).
    { clear - NF. unfold finished in NF. induction (g_pcs g) as [|c l IH]; [exfalso; apply NF; intros ? []|].
      assert (DC : (exists b, c = PDone b) \/ forall b, c <> PDone b) by (destruct c; try (right; intros; discriminate); left; eauto).
      destruct DC as [DC|DC]; [|exists c; split; [left; reflexivity|exact DC]].
      destruct IH as (c' & H1 & H2); [|exists c'; split; [right; exact H1|exact H2]]. intros HA. apply NF. intros c0 [<-|HI]; [exact DC|]. apply HA. exact HI. }
    destruct HE as (c & HI & ND). apply In_nth_error in HI. destruct HI as [t Q]. exists t. unfold gstep. rewrite Q, QL.
    destruct c as [b|b|b|b|b p|b p w|b|b]; try discriminate.
    + destruct (g_source g); discriminate.
    + destruct (g_source g); discriminate.
    + destruct w; try discriminate; destruct (wst _ _ _ _); try discriminate; destruct (keep_result _ _ _); discriminate.
    + destruct (vget _ _) as [[|]| |]; discriminate.
    + exfalso. eapply ND. reflexivity.
Qed.

(** *** Every execution ends *)
Context (len : nat).
Definition wm (w : work) : nat :=
  match w with
  | WStart => 2 * len + 5 | WFwd i _ _ => len + 4 + (len - i) | WBack _ => len + 3 | WHand _ => len + 2
  | WBwd n _ _ => n + 1 | WEnd _ => 0 end.
Definition ph (c : pc) : nat :=
  match c with
  | PLoop _ => 2 * len + 12 | PLock _ => 2 * len + 11 | PHas _ => 2 * len + 10 | PNext _ => 2 * len + 9 | PFree _ _ => 2 * len + 8
  | PWork _ _ w => 2 + wm w | PCount _ => 1 | PDone _ => 0 end.
Definition tm (t : nat) (c : pc) : nat := ((2 * len + 13) * Z.to_nat (Z.max (lo wc t) (cutoff wc bs t) - cur c) + ph c)%nat.
Definition meas (g : shared) : nat := list_sum (map (fun t => match nth_error (g_pcs g) t with Some c => tm t c | None => 0%nat end) (seq 0 nt)).

Lemma list_sum_lt : forall (f f' : nat -> nat) l t, In t l -> (f' t < f t)%nat -> (forall x, x <> t -> f' x = f x) -> (list_sum (map f' l) < list_sum (map f l))%nat.
Proof.
  intros f f' l t HI HL HO. assert (LE : forall l', (list_sum (map f' l') <= list_sum (map f l'))%nat).
  { induction l' as [|a l' IH]; cbn; [lia|]. unfold list_sum in IH. destruct (Nat.eq_dec a t) as [->|D]; [lia|rewrite (HO a D); lia]. }
  induction l as [|a l IH]; [contradiction|]. cbn. destruct (Nat.eq_dec a t) as [->|D].
  - pose proof (LE l). unfold list_sum in *. lia.
  - rewrite (HO a D). destruct HI as [HI|HI]; [contradiction|]. specialize (IH HI). unfold list_sum in *. lia.
Qed.

Lemma wm_lt : forall b p w ls ls' w', length ls = len -> wst b p w ls = ORet ls' w' -> (forall r, w <> WEnd r) -> (wm w' < wm w)%nat.
Proof.
  intros b p w ls ls' w' HL ST NE. destruct w as [|i x recs|r|r|[|n] gr r|r]; cbn [wstep] in ST.
  - repeat (apply bind_inv in ST; destruct ST as (? & ? & ? & ST)). injection ST as _ <-. cbn [wm]. lia.
  - destruct (nth_error ls i) as [l|] eqn:QN; repeat (apply bind_inv in ST; destruct ST as (? & ? & ? & ST)); injection ST as _ <-; cbn [wm].
    + assert (i < len)%nat by (rewrite <- HL; apply nth_error_Some; congruence). lia.
    + lia.
  - repeat (apply bind_inv in ST; destruct ST as (? & ? & ? & ST)). injection ST as _ <-. cbn [wm]. lia.
  - change (wst b p (WHand r) ls = ORet ls' w') in ST. apply wstep_hand in ST. destruct ST as (? & ? & _ & _ & _ & ->). cbn [wm]. lia.
  - injection ST as _ <-. cbn [wm]. lia.
  - repeat (apply bind_inv in ST; destruct ST as (? & ? & ? & ST)). injection ST as _ <-. cbn [wm]. lia.
  - exfalso. eapply NE. reflexivity.
Qed.

Lemma gs_length : forall t g g', gs E cast eqL labels wc bs t g g' -> length (g_layers g') = length (g_layers g).
Proof. intros t g g' ST. destruct ST; try reflexivity. cbn. eapply wstep_length. eassumption. Qed.

Lemma gs_pcs : forall t g g', gs E cast eqL labels wc bs t g g' -> exists c c', nth_error (g_pcs g) t = Some c /\ g_pcs g' = upd (g_pcs g) t c'.
Proof. intros t g g' ST. destruct ST; do 2 eexists; (split; [eassumption|reflexivity]). Qed.

Lemma meas_lt : forall log t g g', invA wc bs nt src0 log g -> length (g_layers g) = len -> gs E cast eqL labels wc bs t g g' -> (meas g' < meas g)%nat.
Proof.
  intros log t g g' A HL ST.
  assert (KEY : forall c c', nth_error (g_pcs g) t = Some c -> g_pcs g' = upd (g_pcs g) t c' -> (tm t c' < tm t c)%nat -> (meas g' < meas g)%nat).
  { intros c c' Q HP LT. unfold meas. apply list_sum_lt with (t := t).
    - apply in_seq. split; [lia|]. rewrite <- (a_len _ _ _ _ _ _ A). apply nth_error_Some. congruence.
    - rewrite HP, nth_upd, Nat.eqb_refl, Q. exact LT.
    - intros x D. rewrite HP, nth_upd. destruct (Nat.eqb t x) eqn:QT; [apply Nat.eqb_eq in QT; congruence|reflexivity]. }
  destruct ST as [b Q C|b Q C|b Q QL|b Q QS|b p s Q QS|b p s Q QS|b p Q|b p r Q|b p w ls w' rs Q NE QW QK|b r Q QV];
    (eapply KEY; [exact Q|reflexivity|]); unfold tm; cbn [cur ph wm]; try lia.
  - pose proof (wm_lt _ _ _ _ _ _ HL QW NE). lia.
  - destruct (a_rng _ _ _ _ _ _ A t _ Q) as [R1 R2]. cbn in R1, R2.
    replace (Z.to_nat (Z.max (lo wc t) (cutoff wc bs t) - b)) with (S (Z.to_nat (Z.max (lo wc t) (cutoff wc bs t) - (b + 1)))) by lia. nia.
Qed.

Lemma run_bound : forall sched g g' log, invA wc bs nt src0 log g -> length (g_layers g) = len ->
  run E cast eqL labels wc bs sched g = GNext g' -> (length sched + meas g' <= meas g)%nat.
Proof.
  induction sched as [|t sched IH]; intros g g' log A HL H; cbn [run] in H.
  - injection H as <-. cbn. lia.
  - destruct (gst t g) as [g1| | |] eqn:Q; try discriminate. apply gstep_gs in Q. pose proof (meas_lt _ _ _ _ A HL Q).
    assert (A1 : invA wc bs nt src0 (log ++ took t g) g1) by (eapply invA_step with (5 := Q); assumption).
    specialize (IH _ _ _ A1 (eq_trans (gs_length _ _ _ Q) HL) H). cbn. lia.
Qed.

(** *** Which data points are taken *)
Lemma NoDup_range : forall n (l : list Z), NoDup l -> (forall x, In x l -> 0 <= x < Z.of_nat n) -> (length l <= n)%nat.
Proof.
  intros n l ND H. assert (INC : incl (map Z.to_nat l) (seq 0 n)).
  { intros y HY. apply in_map_iff in HY. destruct HY as (x & <- & HX). specialize (H x HX). apply in_seq. lia. }
  assert (ND2 : NoDup (map Z.to_nat l)).
  { clear INC. induction l as [|a l IH]; [constructor|]. inversion ND; subst. cbn. constructor.
    - intros HY. apply in_map_iff in HY. destruct HY as (x & EQ & HX). assert (x = a) by (pose proof (H x (or_intror HX)); pose proof (H a (or_introl eq_refl)); lia). subst x. contradiction.
    - apply IH; [assumption|]. intros x HX. apply H. right. exact HX. }
  pose proof (NoDup_incl_length ND2 INC) as LE. rewrite map_length, seq_length in LE. exact LE.
Qed.
Lemma cover_range : forall n (l : list Z), (forall x, 0 <= x < Z.of_nat n -> In x l) -> (n <= length l)%nat.
Proof.
  intros n l H. assert (INC : incl (map Z.of_nat (seq 0 n)) l).
  { intros y HY. apply in_map_iff in HY. destruct HY as (x & <- & HX). apply in_seq in HX. apply H. lia. }
  assert (ND2 : NoDup (map Z.of_nat (seq 0 n))) by (apply FinFun.Injective_map_NoDup; [intros x y; lia|apply seq_NoDup]).
  pose proof (NoDup_incl_length ND2 INC) as LE. rewrite map_length, seq_length in LE. exact LE.
Qed.

Lemma taken_bound : forall log (g : shared), invA wc bs nt src0 log g -> (length log <= Z.to_nat bs)%nat.
Proof.
  intros log g A. rewrite <- (map_length e_slot). apply NoDup_range; [apply (a_nodup _ _ _ _ _ _ A)|].
  intros x HX. apply in_map_iff in HX. destruct HX as ([[t b] p] & <- & HI). destruct (invA_entry _ _ _ _ _ _ _ _ _ A HI) as [R _].
  pose proof (lo_nonneg wc HW t). pose proof (cut_bs wc bs t). cbn. lia.
Qed.

(** The ranges cover all slots *)
Lemma cover : bs <= Z.of_nat nt * wc -> forall b, 0 <= b < bs -> exists t, (t < nt)%nat /\ lo wc t <= b < cutoff wc bs t.
Proof.
  intros HCV b Hb. assert (0 < wc) by nia. exists (Z.to_nat (b / wc)). pose proof (Z.div_pos b wc ltac:(lia) ltac:(lia)).
  pose proof (Z.div_mod b wc ltac:(lia)). pose proof (Z.mod_pos_bound b wc ltac:(lia)). unfold lo, cutoff. rewrite Z2Nat.id by lia.
  split; [|nia]. apply Nat2Z.inj_lt. rewrite Z2Nat.id by lia. apply Z.div_lt_upper_bound; lia.
Qed.

Lemma taken_all : forall log (g : shared), invA wc bs nt src0 log g -> finished g -> bs <= Z.of_nat nt * wc ->
  length log = Nat.min (Z.to_nat bs) (length src0) /\ map snd log = firstn (Z.to_nat bs) src0 /\ g_source g = skipn (Z.to_nat bs) src0.
Proof.
  intros log g A F HCV. pose proof (taken_bound _ _ A) as TB. pose proof (a_src _ _ _ _ _ _ A) as SRC.
  assert (LL : length src0 = (length log + length (g_source g))%nat) by (rewrite SRC, app_length, map_length; reflexivity).
  assert (KEY : g_source g = [] \/ length log = Z.to_nat bs).
  { destruct (g_source g) as [|p s] eqn:QS; [left; reflexivity|right]. apply Nat.le_antisymm; [exact TB|].
    rewrite <- (map_length e_slot). apply cover_range. intros b Hb. rewrite Z2Nat.id in Hb by lia. destruct (cover HCV b Hb) as (t & Ht & R).
    rewrite <- (a_len _ _ _ _ _ _ A) in Ht. apply nth_error_Some in Ht. destruct (nth_error (g_pcs g) t) as [c|] eqn:Q; [|congruence].
    destruct (F c (nth_error_In _ _ Q)) as [b0 ->]. destruct (a_done _ _ _ _ _ _ A t b0 Q) as [D|D]; [|rewrite QS in D; discriminate].
    destruct (proj2 (a_log _ _ _ _ _ _ A t b)) as [p' HI]; [exists (PDone b0); cbn; split; [exact Q|lia]|].
    change b with (e_slot (t, b, p')). apply in_map. exact HI. }
  assert (ML : length (map snd log) = length log) by apply map_length.
  destruct KEY as [KEY|KEY].
  - rewrite KEY in *. cbn in LL. rewrite app_nil_r in SRC. split; [lia|]. rewrite firstn_all2, skipn_all2 by lia. auto.
  - split; [lia|]. rewrite SRC, <- KEY. rewrite firstn_app, skipn_app, ML, Nat.sub_diag. cbn. rewrite app_nil_r.
    rewrite <- ML, firstn_all, skipn_all. auto.
Qed.

(** *** Counting *)
Definition hit (rs : list (option (results T))) (b : Z) : Z :=
  match nth_error rs (Z.to_nat b) with Some (Some r) => if r_label r =? r_true r then 1 else 0 | _ => 0 end.
Definition sumZ (l : list Z) : Z := fold_right Z.add 0 l.
Definition counted (g : shared) (e : entry) : Z :=
  match nth_error (g_pcs g) (e_thread e) with Some c => if e_slot e <? cur c then hit (g_results g) (e_slot e) else 0 | None => 0 end.

Lemma sumZ_app : forall l l', sumZ (l ++ l') = sumZ l + sumZ l'.
Proof. unfold sumZ. induction l as [|a l IH]; intros; cbn [app fold_right]; [lia|]. rewrite IH. lia. Qed.
Lemma sum_change : forall (f f' : entry -> Z) log b v, NoDup (map e_slot log) -> In b (map e_slot log) ->
  (forall e, In e log -> f' e = f e + (if e_slot e =? b then v else 0)) -> sumZ (map f' log) = sumZ (map f log) + v.
Proof.
  intros f f' log b v ND HI HF.
  assert (OUT : forall l, ~ In b (map e_slot l) -> (forall e, In e l -> f' e = f e + (if e_slot e =? b then v else 0)) -> sumZ (map f' l) = sumZ (map f l)).
  { induction l as [|e l IH]; intros NI HH; [reflexivity|]. cbn in NI |- *. rewrite (HH e (or_introl eq_refl)). destruct (e_slot e =? b) eqn:QB; [exfalso; apply NI; left; lia|].
    unfold sumZ in IH. rewrite IH; [lia|tauto|]. intros e' HE. apply HH. right. exact HE. }
  induction log as [|e log IH]; [contradiction|]. cbn in ND. inversion ND; subst. cbn. rewrite (HF e (or_introl eq_refl)). destruct HI as [HI|HI].
  - rewrite (proj2 (Z.eqb_eq _ _) HI). pose proof (OUT log) as O. unfold sumZ in O. rewrite O; [lia| |].
    + rewrite <- HI. assumption.
    + intros e' HE. apply HF. right. exact HE.
  - destruct (e_slot e =? b) eqn:QB.
    + exfalso. apply Z.eqb_eq in QB. apply H1. rewrite QB. exact HI.
    + unfold sumZ in IH. rewrite IH; auto; [lia|]. intros e' HE. apply HF. right. exact HE.
Qed.

Lemma count_step : forall log t g g' s0, invA wc bs nt src0 log g -> (forall t b p w, nth_error (g_pcs g) t = Some (PWork b p w) -> 0 <= b) ->
  gs E cast eqL labels wc bs t g g' -> g_success g = s0 + sumZ (map (counted g) log) -> g_success g' = s0 + sumZ (map (counted g') (log ++ took t g)).
Proof.
  intros log t g g' s0 A HPOS ST HC.
  assert (TN : forall c, nth_error (g_pcs g) t = Some c -> (forall b, c <> PNext b) -> took t g = []).
  { intros c H D. unfold took. rewrite H. destruct c; auto. exfalso. eapply D. reflexivity. }
  assert (SAME : forall g1 c c', nth_error (g_pcs g) t = Some c -> g_pcs g1 = upd (g_pcs g) t c' -> cur c' = cur c -> g_results g1 = g_results g ->
    map (counted g1) log = map (counted g) log).
  { intros g1 c c' Q HP HCu HR. apply map_ext. intros e. unfold counted. rewrite HP, HR, nth_upd. destruct (Nat.eqb t (e_thread e)) eqn:QT; [|reflexivity].
    apply Nat.eqb_eq in QT. rewrite <- QT, Q, HCu. reflexivity. }
  destruct ST as [b Q C|b Q C|b Q QL|b Q QS|b p s Q QS|b p s Q QS|b p Q|b p r Q|b p w ls w' rs Q NE QW QK|b r Q QV];
    try (rewrite (TN _ Q) by (intros; discriminate); rewrite app_nil_r).
  1-5: (erewrite SAME; [exact HC|exact Q|reflexivity|reflexivity|reflexivity]).
  - unfold took. rewrite Q, QS. rewrite map_app, sumZ_app. erewrite SAME; [|exact Q|reflexivity|reflexivity|reflexivity].
    cbn [map sumZ fold_right]. unfold counted at 2. cbn [e_thread e_slot fst snd set_pc g_pcs]. rewrite nth_upd, Nat.eqb_refl, Q. cbn [cur]. rewrite Z.ltb_irrefl. cbn. rewrite HC. lia.
  - erewrite SAME; [exact HC|exact Q|reflexivity|reflexivity|reflexivity].
  - erewrite SAME; [exact HC|exact Q|reflexivity|reflexivity|reflexivity].
  - cbn [set_pc g_success]. rewrite HC. f_equal. f_equal. apply map_ext_in. intros [[t' b'] p'] HI. unfold counted. cbn [set_pc g_pcs g_results e_thread e_slot fst snd].
    rewrite nth_upd. assert (SL : b' <> b -> hit rs b' = hit (g_results g) b').
    { intros D. unfold hit. rewrite (keep_other b b' w' _ _ (HPOS _ _ _ _ Q)) with (3 := QK); auto.
      destruct (invA_entry _ _ _ _ _ _ _ _ _ A HI) as [R _]. pose proof (lo_nonneg wc HW t'). lia. }
    destruct (Nat.eqb t t') eqn:QT.
    + apply Nat.eqb_eq in QT. subst t'. rewrite Q. cbn [cur]. destruct (b' <? b) eqn:QB; [|reflexivity]. symmetry. apply SL. lia.
    + apply Nat.eqb_neq in QT. destruct (nth_error (g_pcs g) t') as [c|] eqn:QC; [|reflexivity]. destruct (b' <? cur c) eqn:QB; [|reflexivity].
      symmetry. apply SL. intros ->. apply QT. destruct (invA_entry _ _ _ _ _ _ _ _ _ A HI) as [R1 _].
      destruct (a_rng _ _ _ _ _ _ A t _ Q) as [R2 R3]. cbn in R2, R3. eapply (range_thread wc bs HW); [|exact R1]. lia.
  - destruct (a_rng _ _ _ _ _ _ A t _ Q) as [R1 R2]. cbn in R1, R2.
    destruct (proj2 (a_log _ _ _ _ _ _ A t b)) as [p HI]; [exists (PCount b); cbn; split; [exact Q|lia]|].
    cbn [set_pc g_success]. rewrite HC. rewrite <- Z.add_assoc. f_equal. symmetry. apply sum_change with (b := b).
    + apply (a_nodup _ _ _ _ _ _ A).
    + change b with (e_slot (t, b, p)). apply in_map. exact HI.
    + intros [[t' b'] p'] HI'. unfold counted. cbn [set_pc g_pcs g_results e_thread e_slot fst snd]. rewrite nth_upd.
      assert (HV : hit (g_results g) b = (if r_label r =? r_true r then 1 else 0)).
      { unfold vget in QV. destruct ((0 <=? b) && (b <? Z.of_nat (length (g_results g)))); [|discriminate]. unfold hit.
        destruct (nth_error (g_results g) (Z.to_nat b)); [|discriminate]. injection QV as ->. reflexivity. }
      destruct (Nat.eqb t t') eqn:QT.
      * apply Nat.eqb_eq in QT. subst t'. rewrite Q. cbn [cur]. destruct (Z.lt_trichotomy b' b) as [D|[D|D]].
        -- replace (b' <? b + 1) with true by lia. replace (b' <? b) with true by lia. replace (b' =? b) with false by lia. lia.
        -- subst b'. replace (b <? b + 1) with true by lia. rewrite Z.ltb_irrefl, Z.eqb_refl, HV. lia.
        -- replace (b' <? b + 1) with false by lia. replace (b' <? b) with false by lia. replace (b' =? b) with false by lia. lia.
      * apply Nat.eqb_neq in QT. destruct (b' =? b) eqn:QB; [|lia]. exfalso. apply Z.eqb_eq in QB. subst b'.
        destruct (invA_unique _ _ _ _ HW _ _ _ _ _ _ _ A HI HI') as [X _]. contradiction.
Qed.
End End_.
