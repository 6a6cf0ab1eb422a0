(** What every interleaving of the worker threads within a batch preserves. *)
From Coq Require Import ZArith List Bool Lia Permutation.
From Verif Require Import Base Dim Matrix View Num Expr Iter MatFacts Batch Kernel Connected Float32 Pooling Activation Softmax
  Chars Model Net ModelThms Train TrainLocal TrainRest.
Import ListNotations.
Local Open Scope Z_scope.

Section Steps.
Context {T : Type} {N : Num T} (E : env T).
Context {U L : Type} (cast : U -> T) (eqL : L -> L -> bool) (labels : list L).
Local Notation wst := (wstep E cast eqL labels).

Lemma bind_inv : forall {S A B} (m : M S A) (k : A -> M S B) s s2 b, bind m k s = ORet s2 b -> exists s1 a, m s = ORet s1 a /\ k a s1 = ORet s2 b.
Proof. intros S A B m k s s2 b H. unfold bind in H. destruct (m s); try discriminate. eauto. Qed.
Lemma lift_inv : forall {S A} (r : res A) (s s1 : S) a, lift r s = ORet s1 a -> s1 = s /\ r = Ok a.
Proof. intros S A r s s1 a H. destruct r; cbn in H; try discriminate. injection H as <- <-. auto. Qed.

Lemma wstep_frame : forall b b' p w ls ls' w', 0 <= b -> 0 <= b' -> b <> b' -> List.Forall ready ls -> wst b p w ls = ORet ls' w' -> agreeL (Z.to_nat b') ls ls'.
Proof.
  intros b b' p w ls ls' w' H H' D R ST. destruct w as [|i x recs|r|r|[|n] g r|r]; cbn [wstep] in ST.
  - apply bind_inv in ST. destruct ST as (s1 & a & ST1 & ST). apply lift_inv in ST1. destruct ST1 as [-> _].
    apply bind_inv in ST. destruct ST as (s1 & a1 & ST1 & ST). apply lift_inv in ST1. destruct ST1 as [-> _]. injection ST as <- _. apply agreeL_refl. exact R.
  - destruct (nth_error ls i) as [l|] eqn:Q.
    + apply bind_inv in ST. destruct ST as (s1 & a & ST1 & ST). apply bind_inv in ST. destruct ST as (s2 & a2 & ST2 & ST).
      apply lift_inv in ST2. destruct ST2 as [-> _]. injection ST as <- _.
      apply on_nth_frame with (3 := ST1); [exact R|]. intros l0 l1 Hl HF. apply l_forward_frame with (5 := HF); auto.
      rewrite Forall_forall in R. apply R. eapply nth_error_In. exact Hl.
    + repeat (apply bind_inv in ST; let s1 := fresh in let a := fresh in let S1 := fresh in destruct ST as (s1 & a & S1 & ST);
        first [apply lift_inv in S1; destruct S1 as [-> _] | destruct (_ =? _) in S1; [injection S1 as <- <-|discriminate]]).
      injection ST as <- _. apply agreeL_refl. exact R.
  - apply bind_inv in ST. destruct ST as (s1 & a & ST1 & ST). apply lift_inv in ST1. destruct ST1 as [-> _]. injection ST as <- _. apply agreeL_refl. exact R.
  - apply bind_inv in ST. destruct ST as (s1 & a & ST1 & ST). apply hand_over_ok in ST1. destruct ST1 as (body & s & -> & K & ->).
    cbn in ST. injection ST as <- _. apply Forall_app in R. destruct R as [R _]. apply agreeL_last; [exact R|reflexivity].
  - injection ST as <- _. apply agreeL_refl. exact R.
  - do 4 (apply bind_inv in ST; let s1 := fresh in let a := fresh in let S1 := fresh in destruct ST as (s1 & a & S1 & ST); apply lift_inv in S1; destruct S1 as [-> _]).
    apply bind_inv in ST. destruct ST as (s1 & a & ST1 & ST). injection ST as <- _.
    apply on_nth_frame with (3 := ST1); [exact R|]. intros l0 l1 Hl HF. apply l_backward_frame with (5 := HF); auto.
    rewrite Forall_forall in R. apply R. eapply nth_error_In. exact Hl.
  - injection ST as <- _. apply agreeL_refl. exact R.
Qed.

Lemma wstep_local : forall b p w ls ls', 0 <= b -> agreeL (Z.to_nat b) ls ls' -> (forall r, w <> WHand r) -> (forall g r, w <> WBwd (length ls) g r) ->
  both (agreeL (Z.to_nat b)) (wst b p w ls) (wst b p w ls').
Proof.
  intros b p w ls ls' Hb AG N1 N2. destruct w as [|i x recs|r|r|[|n] g r|r]; cbn [wstep].
  - repeat (apply both_bind; [apply both_lift; assumption|]; intros). split; auto.
  - destruct (nth_error ls i) as [l|] eqn:Q.
    + destruct (proj2 AG i l Q) as (l' & Q' & _). rewrite Q'.
      apply both_bind; [|intros; apply both_bind; [apply both_lift; assumption|]; intros; split; auto].
      apply on_nth_local; [exact AG|]. intros l1 l2 _ _ HA. apply l_forward_local; assumption.
    + assert (Q' : nth_error ls' i = None) by (apply nth_error_None; rewrite <- (proj1 AG); apply nth_error_None; exact Q). rewrite Q'.
      apply both_bind; [apply both_lift; assumption|]; intros. apply both_bind; [destruct (_ =? _); [split; auto|reflexivity]|]; intros.
      repeat (apply both_bind; [apply both_lift; assumption|]; intros). split; auto.
  - apply both_bind; [apply both_lift; assumption|]; intros. split; auto.
  - exfalso. eapply N1. reflexivity.
  - split; auto.
  - unfold bind at 1 2 3 4 6 7 8 9. destruct (vat (r_inputs r) n) as [x| |]; cbn [lift]; [|exact eq_refl|exact I].
    destruct (vat (r_inputs r) (S n)) as [z| |]; cbn [lift]; [|exact eq_refl|exact I].
    destruct (double_copy x) as [x1| |]; cbn [lift]; [|exact eq_refl|exact I].
    destruct (double_copy z) as [z1| |]; cbn [lift]; [|exact eq_refl|exact I].
    apply both_bind; [|intros; split; auto].
    apply on_nth_local; [exact AG|]. intros l1 l2 _ _ HA. apply l_backward_local; auto. left. apply Nat.eqb_neq. intros Q. eapply N2. rewrite <- Q. reflexivity.
  - split; auto.
Qed.
End Steps.

Section Batch.
Context {T : Type} {N : Num T} (E : env T).
Context {U L : Type} (cast : U -> T) (eqL : L -> L -> bool) (labels : list L).
Context (wc bs : Z).
Local Notation wst := (wstep E cast eqL labels).
Local Notation gst := (gstep E cast eqL labels wc bs).
Local Notation shared := (shared (T := T) (U := U) (L := L)).
Local Notation pc := (pc (T := T) (U := U) (L := L)).

(** The steps, one constructor for each outcome *)
Inductive gs (t : nat) (g : shared) : shared -> Prop :=
| s_loop : forall b, nth_error (g_pcs g) t = Some (PLoop b) -> u64 b <? u64 (cutoff wc bs t) = true -> gs t g (set_pc t (PLock b) g)
| s_exit : forall b, nth_error (g_pcs g) t = Some (PLoop b) -> u64 b <? u64 (cutoff wc bs t) = false -> gs t g (set_pc t (PDone b) g)
| s_lock : forall b, nth_error (g_pcs g) t = Some (PLock b) -> g_lock g = None -> gs t g (with_lock (Some t) (set_pc t (PHas b) g))
| s_empty : forall b, nth_error (g_pcs g) t = Some (PHas b) -> g_source g = [] -> gs t g (with_lock None (set_pc t (PDone b) g))
| s_has : forall b p s, nth_error (g_pcs g) t = Some (PHas b) -> g_source g = p :: s -> gs t g (set_pc t (PNext b) g)
| s_next : forall b p s, nth_error (g_pcs g) t = Some (PNext b) -> g_source g = p :: s ->
    gs t g (set_pc t (PFree b p) (Shared (g_layers g) s (g_lock g) (g_results g) (g_success g) (g_pcs g)))
| s_free : forall b p, nth_error (g_pcs g) t = Some (PFree b p) -> gs t g (with_lock None (set_pc t (PWork b p WStart) g))
| s_end : forall b p r, nth_error (g_pcs g) t = Some (PWork b p (WEnd r)) -> gs t g (set_pc t (PCount b) g)
| s_work : forall b p w ls w' rs, nth_error (g_pcs g) t = Some (PWork b p w) -> (forall r, w <> WEnd r) ->
    wst b p w (g_layers g) = ORet ls w' -> keep_result b w' (g_results g) = Ok rs ->
    gs t g (set_pc t (PWork b p w') (Shared ls (g_source g) (g_lock g) rs (g_success g) (g_pcs g)))
| s_count : forall b r, nth_error (g_pcs g) t = Some (PCount b) -> vget (g_results g) b = Ok (Some r) ->
    gs t g (set_pc t (PLoop (b + 1)) (Shared (g_layers g) (g_source g) (g_lock g) (g_results g)
                   (g_success g + (if r_label r =? r_true r then 1 else 0)) (g_pcs g))).

Lemma gstep_gs : forall t g g', gst t g = GNext g' -> gs t g g'.
Proof.
  intros t g g' H. unfold gstep in H. destruct (nth_error (g_pcs g) t) as [c|] eqn:Q; [|discriminate].
  destruct c as [b|b|b|b|b p|b p w|b|b]; try discriminate.
  - injection H as <-. destruct (u64 b <? u64 (cutoff wc bs t)) eqn:QC; [apply s_loop|apply s_exit]; assumption.
  - destruct (g_lock g) eqn:QL; [discriminate|]. injection H as <-. apply s_lock; assumption.
  - destruct (g_source g) eqn:QS; injection H as <-; [apply s_empty|eapply s_has]; eassumption.
  - destruct (g_source g) eqn:QS; [discriminate|]. injection H as <-. apply s_next; assumption.
  - injection H as <-. apply s_free; assumption.
  - assert (D : (exists r, w = WEnd r) \/ (forall r, w <> WEnd r)) by (destruct w; try (right; intros; discriminate); left; eauto).
    destruct D as [[r ->]|D]; [injection H as <-; eapply s_end; exact Q|].
    assert (H' : match wst b p w (g_layers g) with
          | ORet ls w' => match keep_result b w' (g_results g) with
              | Ok rs => GNext (set_pc t (PWork b p w') (Shared ls (g_source g) (g_lock g) rs (g_success g) (g_pcs g)))
              | Throw e => GStop e | UB => GUB end
          | OThrow _ e => GStop e | OUB => GUB end = GNext g') by (destruct w; try exact H; exfalso; eapply D; reflexivity).
    destruct (wst b p w (g_layers g)) as [ls w'| |] eqn:QW; try discriminate.
    destruct (keep_result b w' (g_results g)) as [rs| |] eqn:QK; try discriminate. injection H' as <-. eapply s_work; eassumption.
  - destruct (vget (g_results g) b) as [[r|]| |] eqn:QV; try discriminate. injection H as <-. apply s_count; assumption.
Qed.

Local Notation entry := (entry (U := U) (L := L)).
Local Notation texec P := (texec E cast eqL labels P wc bs).
Definition e_thread (e : entry) : nat := fst (fst e).
Definition e_slot (e : entry) : Z := snd (fst e).

Lemma exec_texec : forall P g0 g, exec E cast eqL labels P wc bs g0 g -> exists log, texec P g0 g log.
Proof.
  intros P g0 g H. induction H as [g|g t g' g'' H IH ST HP]; [exists []; constructor|]. destruct IH as [log IH]. eexists. eapply tx_step; eassumption.
Qed.

Definition holds (c : pc) : bool := match c with PHas _ | PNext _ | PFree _ _ => true | _ => false end.
Definition cur (c : pc) : Z := match c with PLoop b | PLock b | PHas b | PNext b | PDone b | PFree b _ | PWork b _ _ | PCount b => b end.
Definition upto (c : pc) : Z := match c with PLoop b | PLock b | PHas b | PNext b | PDone b => b | PFree b _ | PWork b _ _ | PCount b => b + 1 end.
Definition inloop (c : pc) : bool := match c with PLoop _ | PDone _ => false | _ => true end.

Context (nt : nat) (src0 : list (point U L)).
Hypothesis HW : 0 <= wc.
Hypothesis HB : 0 <= bs.
Hypothesis HB2 : bs < two31.

Definition lo (t : nat) : Z := Z.of_nat t * wc.

Lemma spawn_nth : forall n t l, spawn n t wc = Ok l -> length l = n /\
  forall i, (i < n)%nat -> nth_error l i = Some (PLoop (T := T) (U := U) (L := L) (Z.of_nat (t + i) * wc)) /\ 0 <= Z.of_nat (t + i) * wc < two31.
Proof.
  induction n as [|n IH]; intros t l H; cbn [spawn] in H.
  - injection H as <-. split; [reflexivity|]. intros i Hi. lia.
  - unfold i32 in H. destruct ((- two31 <=? Z.of_nat t * wc) && (Z.of_nat t * wc <? two31)) eqn:Q1; [|discriminate]. cbn [rbind] in H.
    destruct ((- two31 <=? (Z.of_nat t + 1) * wc) && ((Z.of_nat t + 1) * wc <? two31)); [|discriminate]. cbn [rbind] in H.
    destruct (spawn n (S t) wc) as [r| |] eqn:QS; try discriminate. cbn [rbind] in H. injection H as <-.
    destruct (IH _ _ QS) as [A1 A2]. split; [cbn; lia|]. apply andb_true_iff in Q1. destruct Q1 as [_ Q1]. apply Z.ltb_lt in Q1.
    intros [|i] Hi.
    + rewrite Nat.add_0_r. split; [reflexivity|]. split; [|exact Q1]. apply Z.mul_nonneg_nonneg; lia.
    + cbn [nth_error]. replace (t + S i)%nat with (S t + i)%nat by lia. apply A2. lia.
Qed.

Lemma nth_upd : forall {A} (l : list A) t c t', nth_error (upd l t c) t' = if Nat.eqb t t' then (match nth_error l t with Some _ => Some c | None => None end) else nth_error l t'.
Proof.
  intros A l t c t'. destruct (Nat.eqb t t') eqn:Q.
  - apply Nat.eqb_eq in Q. subst t'. destruct (nth_error l t) eqn:Q2.
    + apply nth_upd_same. apply nth_error_Some. congruence.
    + apply nth_error_None. rewrite upd_length. apply nth_error_None. exact Q2.
  - apply Nat.eqb_neq in Q. apply nth_upd_other. exact Q.
Qed.

Record invA (log : list entry) (g : shared) : Prop := {
  a_len : length (g_pcs g) = nt;
  a_lock : forall t c, nth_error (g_pcs g) t = Some c -> (holds c = true <-> g_lock g = Some t);
  a_lock2 : forall t, g_lock g = Some t -> (t < nt)%nat;
  a_rng : forall t c, nth_error (g_pcs g) t = Some c -> lo t <= cur c < two31 /\ (if inloop c then cur c < cutoff wc bs t else cur c <= Z.max (lo t) (cutoff wc bs t));
  a_next : forall t b, nth_error (g_pcs g) t = Some (PNext b) -> g_source g <> [];
  a_src : src0 = map snd log ++ g_source g;
  a_log : forall t b, (exists p, In (t, b, p) log) <-> (exists c, nth_error (g_pcs g) t = Some c /\ lo t <= b < upto c);
  a_nodup : NoDup (map e_slot log);
  a_done : forall t b, nth_error (g_pcs g) t = Some (PDone b) -> cutoff wc bs t <= b \/ g_source g = [];
  a_res : Z.of_nat (length (g_results g)) = bs }.

Lemma lo_nonneg : forall t, 0 <= lo t.
Proof. intros. unfold lo. apply Z.mul_nonneg_nonneg; lia. Qed.
Lemma cut_nonneg : forall t, 0 <= cutoff wc bs t.
Proof. intros t. unfold cutoff. apply Z.min_glb; [apply Z.mul_nonneg_nonneg; lia|lia]. Qed.
Lemma u64_cmp : forall a b, 0 <= a < two31 -> 0 <= b < two31 -> (u64 a <? u64 b) = (a <? b).
Proof. intros a b Ha Hb. unfold u64. rewrite !Z.mod_small by (unfold two31, two64 in *; lia). reflexivity. Qed.
Lemma range_thread : forall t t' b, lo t <= b < cutoff wc bs t -> lo t' <= b < cutoff wc bs t' -> t = t'.
Proof.
  intros t t' b H H'. unfold lo, cutoff in *.
  destruct (Nat.lt_trichotomy t t') as [D|[D|D]]; [exfalso|exact D|exfalso].
  - assert ((Z.of_nat t + 1) * wc <= Z.of_nat t' * wc) by (apply Z.mul_le_mono_nonneg_r; lia). lia.
  - assert ((Z.of_nat t' + 1) * wc <= Z.of_nat t * wc) by (apply Z.mul_le_mono_nonneg_r; lia). lia.
Qed.
Lemma cut_bs : forall t, cutoff wc bs t <= bs.
Proof. intros. unfold cutoff. lia. Qed.

Lemma invA_entry : forall log g t b p, invA log g -> In (t, b, p) log -> lo t <= b < cutoff wc bs t /\ exists c, nth_error (g_pcs g) t = Some c /\ b < upto c.
Proof.
  intros log g t b p I HI. destruct (proj1 (a_log _ _ I t b)) as (c & Hc & Hb); [eauto|]. split; [|exists c; split; [exact Hc|lia]].
  destruct (a_rng _ _ I t c Hc) as [R1 R2]. destruct c; cbn in *; lia.
Qed.
Lemma invA_unique : forall log g t b p t' p', invA log g -> In (t, b, p) log -> In (t', b, p') log -> t = t' /\ p = p'.
Proof.
  intros log g t b p t' p' I H1 H2. destruct (invA_entry _ _ _ _ _ I H1) as [R1 _]. destruct (invA_entry _ _ _ _ _ I H2) as [R2 _].
  split; [eapply range_thread; eassumption|].
  pose proof (a_nodup _ _ I) as ND. clear - H1 H2 ND. induction log as [|[[t0 b0] p0] log IH]; [contradiction|]. cbn in ND. inversion ND as [|? ? N1 N2]; subst.
  destruct H1 as [H1|H1], H2 as [H2|H2].
  - congruence.
  - exfalso. injection H1 as -> -> ->. apply N1. change b with (e_slot (t', b, p')). apply in_map. exact H2.
  - exfalso. injection H2 as -> -> ->. apply N1. change b with (e_slot (t, b, p)). apply in_map. exact H1.
  - apply IH; assumption.
Qed.


Lemma keep_length : forall b w rs rs', keep_result (T := T) b w rs = Ok rs' -> length rs' = length rs.
Proof.
  intros b w rs rs' H. unfold keep_result, vset in H. destruct w; try (injection H as <-; reflexivity);
    destruct ((0 <=? b) && (b <? Z.of_nat (length rs))); try discriminate; injection H as <-; apply upd_length.
Qed.

Ltac pcs_case t t' H :=
  rewrite nth_upd in H; destruct (Nat.eqb t t') eqn:?QT;
  [apply Nat.eqb_eq in QT; subst t'; match goal with Q : nth_error _ t = Some _ |- _ => rewrite Q in H end; first [discriminate H|injection H as <-]|apply Nat.eqb_neq in QT].

Lemma invA_step : forall t g g' log, invA log g -> gs t g g' -> invA (log ++ took t g) g'.
Proof.
  intros t g g' log I ST.
  assert (TN : forall c, nth_error (g_pcs g) t = Some c -> (forall b, c <> PNext b) -> took t g = []).
  { intros c H D. unfold took. rewrite H. destruct c; auto. exfalso. eapply D. reflexivity. }
  assert (LEN : forall c, length (upd (g_pcs g) t c) = nt) by (intros; rewrite upd_length; apply (a_len _ _ I)).
  (* a step that changes only the position of the thread, keeping the set of taken slots *)
  assert (GEN : forall c c' lk src rs ls sc, nth_error (g_pcs g) t = Some c -> (forall b, c <> PNext b) -> (forall b, c' <> PNext b) ->
     upto c' = upto c -> cur c' = cur c \/ (cur c' = cur c + 1 /\ inloop c' = false /\ inloop c = true) ->
     (inloop c' = true -> cur c' < cutoff wc bs t) -> (inloop c' = false -> inloop c = true -> cur c' <= cur c + 1) ->
     src = g_source g -> Z.of_nat (length rs) = bs ->
     (forall b, c' = PDone b -> cutoff wc bs t <= b \/ src = []) ->
     ((lk = g_lock g /\ holds c' = holds c) \/ (lk = None /\ holds c = true /\ holds c' = false) \/ (lk = Some t /\ g_lock g = None /\ holds c' = true)) ->
     invA log (Shared ls src lk rs sc (upd (g_pcs g) t c'))).
  { intros c c' lk src rs ls sc Q D1 D2 HU HC HI HI2 -> HR HD HL. constructor; cbn [g_pcs g_lock g_source g_results].
    - apply LEN.
    - intros t' c0 H. pcs_case t t' H.
      + destruct HL as [[-> HL]|[[-> [HL1 HL2]]|[-> [HL1 HL2]]]].
        * rewrite HL. apply (a_lock _ _ I t c Q).
        * rewrite HL2. split; discriminate.
        * rewrite HL2. split; reflexivity.
      + destruct HL as [[-> HL]|[[-> [HL1 HL2]]|[-> [HL1 HL2]]]].
        * apply (a_lock _ _ I t' c0 H).
        * pose proof (proj1 (a_lock _ _ I t c Q) HL1) as K. split; [|discriminate]. intros K2. apply (a_lock _ _ I t' c0 H) in K2. congruence.
        * split; [|congruence]. intros K2. apply (a_lock _ _ I t' c0 H) in K2. congruence.
    - intros t' H. destruct HL as [[-> HL]|[[-> [HL1 HL2]]|[-> [HL1 HL2]]]]; [apply (a_lock2 _ _ I t' H)|discriminate|].
      injection H as <-. rewrite <- (a_len _ _ I). apply nth_error_Some. congruence.
    - intros t' c0 H. pcs_case t t' H; [|apply (a_rng _ _ I t' c0 H)].
      destruct (a_rng _ _ I t c Q) as [R1 R2]. pose proof (cut_bs t) as CB.
      destruct (inloop c') eqn:QI; destruct (inloop c) eqn:QI2; try specialize (HI eq_refl); try specialize (HI2 eq_refl eq_refl);
      destruct HC as [HC|[HC [HC1 HC2]]]; try congruence; try lia.
    - intros t' b H. rewrite nth_upd in H. destruct (Nat.eqb t t'); [|apply (a_next _ _ I t' b H)]. rewrite Q in H. exfalso. eapply D2. injection H as ->. reflexivity.
    - apply (a_src _ _ I).
    - intros t' b. rewrite (a_log _ _ I t' b). rewrite nth_upd. destruct (Nat.eqb t t') eqn:QT; [|tauto].
      apply Nat.eqb_eq in QT. subst t'. rewrite Q. split; intros (c0 & H1 & H2).
      + injection H1 as <-. exists c'. rewrite HU. auto.
      + injection H1 as <-. exists c. rewrite <- HU. auto.
    - apply (a_nodup _ _ I).
    - intros t' b H. rewrite nth_upd in H. destruct (Nat.eqb t t') eqn:QT; [|apply (a_done _ _ I t' b H)].
      apply Nat.eqb_eq in QT. subst t'. rewrite Q in H. apply HD. injection H as ->. reflexivity.
    - exact HR. }
  pose proof (a_res _ _ I) as RES.
  destruct ST as [b Q C|b Q C|b Q QL|b Q QS|b p s Q QS|b p s Q QS|b p Q|b p r Q|b p w ls w' rs Q NE QW QK|b r Q QV].
  1-5,7-10: rewrite (TN _ Q) by (intros; discriminate); rewrite app_nil_r.
  - destruct (a_rng _ _ I t _ Q) as [R1 R2]. pose proof (lo_nonneg t). pose proof (cut_nonneg t). pose proof (cut_bs t). cbn in R1, R2. rewrite u64_cmp in C by lia. apply Z.ltb_lt in C.
    apply GEN with (c := PLoop b); auto; try (intros; discriminate); cbn; auto; discriminate.
  - destruct (a_rng _ _ I t _ Q) as [R1 R2]. pose proof (lo_nonneg t). pose proof (cut_nonneg t). pose proof (cut_bs t). cbn in R1, R2. rewrite u64_cmp in C by lia. apply Z.ltb_ge in C.
    apply GEN with (c := PLoop b); auto; try (intros; discriminate); cbn; auto; try discriminate. intros b0 Hb. injection Hb as <-. left. exact C.
  - destruct (a_rng _ _ I t _ Q) as [R1 R2]. cbn in R2. apply GEN with (c := PLock b); auto; try (intros; discriminate); cbn; auto; try discriminate.
  - apply GEN with (c := PHas b); auto; try (intros; discriminate); cbn; auto; try discriminate. intros; lia.
  - (* the thread is about to call getNextDataPoint *)
    destruct (a_rng _ _ I t _ Q) as [R1 R2]. cbn in R1, R2. constructor; cbn [set_pc g_pcs g_lock g_source g_results].
    + apply LEN.
    + intros t' c0 H. pcs_case t t' H; [|apply (a_lock _ _ I t' c0 H)]. cbn. rewrite <- (a_lock _ _ I t _ Q). reflexivity.
    + apply (a_lock2 _ _ I).
    + intros t' c0 H. pcs_case t t' H; [cbn; lia|apply (a_rng _ _ I t' c0 H)].
    + rewrite QS. discriminate.
    + apply (a_src _ _ I).
    + intros t' b0. rewrite (a_log _ _ I t' b0). rewrite nth_upd. destruct (Nat.eqb t t') eqn:QT; [|tauto].
      apply Nat.eqb_eq in QT. subst t'. rewrite Q. split; intros (c0 & H1 & H2); injection H1 as <-; eexists; split; try reflexivity; exact H2.
    + apply (a_nodup _ _ I).
    + intros t' b0 H. pcs_case t t' H. apply (a_done _ _ I t' b0 H).
    + exact RES.
  - apply GEN with (c := PFree b p); auto; try (intros; discriminate); cbn; auto.
    all: try (intros _; destruct (a_rng _ _ I t _ Q) as [R1 R2]; exact R2); try discriminate.
  - apply GEN with (c := PWork b p (WEnd r)); auto; try (intros; discriminate); cbn; auto.
    all: try (intros _; destruct (a_rng _ _ I t _ Q) as [R1 R2]; exact R2); try discriminate.
  - apply GEN with (c := PWork b p w); auto; try (intros; discriminate); cbn; auto.
    all: try (intros _; destruct (a_rng _ _ I t _ Q) as [R1 R2]; exact R2); try discriminate. rewrite (keep_length _ _ _ _ QK). exact RES.
  - apply GEN with (c := PCount b); auto; try (intros; discriminate); cbn; auto; try discriminate. intros; lia.
  - (* a data point is taken *)
    destruct (a_rng _ _ I t _ Q) as [R1 R2]. cbn in R1, R2. unfold took. rewrite Q, QS.
    assert (NW : forall t' p', ~ In (t', b, p') log).
    { intros t' p' HI. destruct (invA_entry _ _ _ _ _ I HI) as [A1 (c & A2 & A3)]. assert (t' = t) by (eapply range_thread; [exact A1|lia]). subst t'.
      rewrite Q in A2. injection A2 as <-. cbn in A3. lia. }
    constructor; cbn [set_pc g_pcs g_lock g_source g_results].
    + apply LEN.
    + intros t' c0 H. pcs_case t t' H; [|apply (a_lock _ _ I t' c0 H)]. cbn. rewrite <- (a_lock _ _ I t _ Q). reflexivity.
    + apply (a_lock2 _ _ I).
    + intros t' c0 H. pcs_case t t' H; [cbn; lia|apply (a_rng _ _ I t' c0 H)].
    + intros t' b0 H. pcs_case t t' H. exfalso. pose proof (proj1 (a_lock _ _ I t' _ H) eq_refl). pose proof (proj1 (a_lock _ _ I t _ Q) eq_refl). congruence.
    + rewrite map_app. cbn [map snd]. rewrite <- app_assoc. cbn [app]. rewrite <- QS. apply (a_src _ _ I).
    + intros t' b0. rewrite nth_upd. destruct (Nat.eqb t t') eqn:QT.
      * apply Nat.eqb_eq in QT. subst t'. rewrite Q. split.
        -- intros [p' HI]. apply in_app_or in HI. exists (PFree b p). split; [reflexivity|]. cbn. destruct HI as [HI|[HI|[]]].
           ++ destruct (proj1 (a_log _ _ I t b0)) as (c & Hc & Hb); [eauto|]. rewrite Q in Hc. injection Hc as <-. cbn in Hb. lia.
           ++ injection HI as <- <-. lia.
        -- intros (c & Hc & Hb). injection Hc as <-. cbn in Hb. destruct (Z.eq_dec b0 b) as [->|D].
           ++ exists p. apply in_or_app. right. left. reflexivity.
           ++ destruct (proj2 (a_log _ _ I t b0)) as [p' HI]; [exists (PNext b); cbn; split; [exact Q|lia]|]. exists p'. apply in_or_app. auto.
      * apply Nat.eqb_neq in QT. rewrite <- (a_log _ _ I t' b0). split; intros [p' HI]; exists p'; [|apply in_or_app; auto].
        apply in_app_or in HI. destruct HI as [HI|[HI|[]]]; [exact HI|]. congruence.
    + rewrite map_app. cbn [map].
      rewrite <- rev_involutive, rev_app_distr. apply NoDup_rev. cbn [rev app]. constructor.
      * rewrite <- in_rev. intros HI. apply in_map_iff in HI. destruct HI as ([[t0 b0] p0] & EB & HI). cbn in EB. subst b0. eapply NW. exact HI.
      * apply NoDup_rev. apply (a_nodup _ _ I).
    + intros t' b0 H. pcs_case t t' H. destruct (a_done _ _ I t' b0 H) as [D|D]; [left; exact D|]. rewrite QS in D. discriminate.
    + exact RES.
Qed.

Context (ls0 : list (layer T)) (res0 : list (option (results T))) (succ0 : Z) (pcs0 : list pc).
Hypothesis SP : spawn nt 0 wc = Ok pcs0.
Hypothesis RL : Z.of_nat (length res0) = bs.
Local Notation g00 := (Shared ls0 src0 None res0 succ0 pcs0).

Lemma invA_start : invA [] g00.
Proof.
  destruct (spawn_nth _ _ _ SP) as [L1 L2]. assert (PCS : forall t c, nth_error pcs0 t = Some c -> c = PLoop (lo t) /\ lo t < two31).
  { intros t c H. assert (t < nt)%nat by (rewrite <- L1; apply nth_error_Some; congruence). destruct (L2 t H0) as [A B]. cbn [Nat.add] in A, B. rewrite A in H. injection H as <-. split; [reflexivity|]. apply B. }
  constructor; cbn [g_pcs g_lock g_source g_results].
  - exact L1.
  - intros t c H. destruct (PCS t c H) as [-> _]. split; discriminate.
  - discriminate.
  - intros t c H. destruct (PCS t c H) as [-> H2]. cbn. lia.
  - intros t b H. destruct (PCS _ _ H) as [H1 _]. discriminate.
  - reflexivity.
  - intros t b. split; [intros [p []]|]. intros (c & H & R). destruct (PCS t c H) as [-> _]. cbn in R. lia.
  - constructor.
  - intros t b H. destruct (PCS _ _ H) as [H1 _]. discriminate.
  - exact RL.
Qed.

Theorem invA_exec : forall P g log, texec P g00 g log -> invA log g.
Proof.
  intros P g log H. induction H as [|t g g' log H IH ST HP]; [apply invA_start|]. apply invA_step; [exact IH|]. apply gstep_gs. exact ST.
Qed.
End Batch.
