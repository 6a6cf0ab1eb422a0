(** validate in all interleavings: no thread fails, there is no deadlock, the threads end, and the count is the one of a
    run without threads. *)
From Coq Require Import ZArith List Bool Lia.
From Verif Require Import Base Dim Matrix View Num Expr Spec Iter Sums MatFacts MatThms Batch Kernel Connected Float32 FloatFacts Pooling Activation Softmax
  LayerFacts KernelThms ConnectedThms PoolingThms PoolGrad LayerTotal Chars Model Net NetGrad ModelThms Train TrainLocal TrainRest TrainSgd Shapes ShapeNet Mnist MnistFacts Validate ValidateFacts ValidateStep.
Import ListNotations.
Local Open Scope Z_scope.

Lemma vget_in : forall {A} (l : list A) i, 0 <= i < Z.of_nat (length l) -> exists a, vget l i = Ok a.
Proof.
  intros A l i H. unfold vget. rewrite (proj2 (Z.leb_le 0 i)), (proj2 (Z.ltb_lt i _)) by lia. cbn [andb].
  destruct (nth_error l (Z.to_nat i)) eqn:Q; [eauto|]. apply nth_error_None in Q. lia.
Qed.

(** How many of 0 .. n-1 *)
Definition tally (n : Z) (P : Z -> bool) : Z := Z.of_nat (length (filter P (map Z.of_nat (seq 0 (Z.to_nat n))))).

Lemma filter_flip : forall (P Q : Z -> bool) l i, NoDup l -> In i l -> P i = false -> (forall j, j <> i -> P j = Q j) ->
  length (filter Q l) = (length (filter P l) + if Q i then 1 else 0)%nat.
Proof.
  intros P Q l i ND. induction ND as [|a l NI ND IH]; intros H P0 K; [destruct H|]. cbn [filter]. destruct (Z.eq_dec a i) as [->|D].
  - rewrite P0. assert (X : forall l', ~ In i l' -> filter Q l' = filter P l').
    { induction l' as [|b l' IHl]; intros NB; [reflexivity|]. cbn. rewrite (K b) by (intros ->; apply NB; left; reflexivity).
      rewrite IHl by (intros X; apply NB; right; exact X). reflexivity. }
    rewrite X by exact NI. destruct (Q i); cbn; lia.
  - destruct H as [H|H]; [contradiction|]. rewrite <- (K a D). specialize (IH H P0 K). destruct (P a); cbn; lia.
Qed.
Lemma tally_flip : forall n P Q i, 0 <= i < n -> P i = false -> (forall j, j <> i -> P j = Q j) -> tally n Q = tally n P + if Q i then 1 else 0.
Proof.
  intros n P Q i H P0 K. unfold tally. rewrite (filter_flip P Q _ i).
  - rewrite Nat2Z.inj_add. destruct (Q i); reflexivity.
  - apply FinFun.Injective_map_NoDup; [intros a b X; lia|apply seq_NoDup].
  - apply in_map_iff. exists (Z.to_nat i). split; [lia|]. apply in_seq. lia.
  - exact P0.
  - exact K.
Qed.
Lemma tally_ext : forall n P Q, (forall j, 0 <= j < n -> P j = Q j) -> tally n P = tally n Q.
Proof.
  intros n P Q K. unfold tally. f_equal. f_equal. apply filter_ext_in. intros a H. apply in_map_iff in H. destruct H as (k & <- & H). apply in_seq in H. apply K. lia.
Qed.
Lemma tally_range : forall n P, 0 <= n -> 0 <= tally n P <= n.
Proof.
  intros n P H. unfold tally. split; [lia|].
  assert (X : forall (l : list Z), (length (filter P l) <= length l)%nat) by (induction l as [|a l IH]; cbn; [lia|]; destruct (P a); cbn; lia).
  specialize (X (map Z.of_nat (seq 0 (Z.to_nat n)))). rewrite map_length, seq_length in X. lia.
Qed.
Lemma tally_none : forall n P, (forall j, 0 <= j < n -> P j = false) -> tally n P = 0.
Proof.
  intros n P K. unfold tally. replace (filter P _) with (@nil Z); [reflexivity|]. symmetry.
  assert (X : forall l, (forall a, In a l -> P a = false) -> filter P l = []) by (induction l as [|a l IH]; intros H; [reflexivity|]; cbn; rewrite (H a) by (left; reflexivity); apply IH; intros; apply H; right; assumption).
  apply X. intros a H. apply in_map_iff in H. destruct H as (k & <- & H). apply in_seq in H. apply K. lia.
Qed.

(** No image is missing from complete files. *)
Definition none (i : Z) : Prop := False.
Lemma get_all : forall big limit n h w fi fl, mnist limit n h w fi fl -> forall i r, 0 <= i < n -> usable n h w fi fl r ->
  (~ none i /\ exists r' m, get_image big limit i r = ORet r' m /\ image_no h w fi fl i m /\ usable n h w fi fl r') \/ (none i /\ get_image big limit i r = OUB).
Proof.
  intros big limit n h w fi fl P i r Hi U. left. split; [intros []|].
  destruct (call_ok big limit n h w fi fl P (Get i) r U (index_reachable limit n h w fi fl P i ltac:(lia))) as [(_ & r' & m & EC & IM & U' & _)|(B & _)]; [|lia].
  cbn [do_call] in EC. eauto 6.
Qed.

Section Run.
Context {T : Type} {N : Num T} (E : env T) (cast : f32 -> T) (labels : list text).
Local Notation nl := (Z.of_nat (length labels)).
Context (ss : list shape) (h w : Z).
Local Notation d := (D3 h w 1).
Hypothesis OK : h_net_ok ss d.
Hypothesis LO : labels_ok (h_net_out ss d) nl.
(** [lost]: the images that cannot be read *)
Context (big : bool) (limit n : Z) (fi fl : file) (N31 : 0 <= n < two31) (lost : Z -> Prop).
Hypothesis GET : forall i r, 0 <= i < n -> usable n h w fi fl r ->
  (~ lost i /\ exists r' m, get_image big limit i r = ORet r' m /\ image_no h w fi fl i m /\ usable n h w fi fl r') \/ (lost i /\ get_image big limit i r = OUB).
Context (nt : Z) (NT : 1 <= nt) (NN : n + nt <= two31).
Context (ls0 : list (layer T)) (F0 : fit labels ss d ls0).

(** The result for image [i] without threads *)
Context (rs : Z -> results T).
Hypothesis RS : forall i m, 0 <= i < n -> ~ lost i -> image_no h w fi fl i m -> exists ls', forward_pass E cast nl (i_data m) 0 ls0 = ORet ls' (rs i).

(** Image [i] is recognised: the label of the result is the label of the image as a decimal number. *)
Definition hit (i : Z) : bool :=
  match vget labels (r_label (rs i)) with Ok l => text_eqb l (dec (f_byte fl (8 + i))) | _ => false end.

Definition var (c : vpc (T := T)) : Z :=
  match c with QLoop i | QLock i | QGet i | QFree i _ | QWork i _ _ | QCount i _ _ => i | QDone => n end.
Definition holds (c : vpc (T := T)) : bool := match c with QGet _ | QFree _ _ => true | _ => false end.
Definition pc_ok (ls : list (layer T)) (t : nat) (c : vpc (T := T)) : Prop :=
  match c with
  | QLoop i => 0 <= i /\ i mod nt = Z.of_nat t /\ i < n + nt
  | QLock i | QGet i => 0 <= i < n /\ i mod nt = Z.of_nat t
  | QFree i m => 0 <= i < n /\ i mod nt = Z.of_nat t /\ ~ lost i /\ image_no h w fi fl i m
  | QWork i m v => 0 <= i < n /\ i mod nt = Z.of_nat t /\ ~ lost i /\ image_no h w fi fl i m /\ wok labels ss d ls v /\ gives E cast labels (i_data m) v ls (rs i)
  | QCount i m r => 0 <= i < n /\ i mod nt = Z.of_nat t /\ ~ lost i /\ image_no h w fi fl i m /\ r = rs i /\ 0 <= r_label r < nl
  | QDone => True
  end.
(** Image [j] has been counted *)
Definition seen (pcs : list (vpc (T := T))) (j : Z) : bool :=
  match nth_error pcs (Z.to_nat (j mod nt)) with Some c => j <? var c | None => false end.

Record vinv (g : vshared (T := T)) : Prop := {
  iv_fit : fit labels ss d (v_layers g);
  iv_sims : sims ls0 (v_layers g);
  iv_reader : usable n h w fi fl (v_reader g);
  iv_len : length (v_pcs g) = Z.to_nat nt;
  iv_pcs : forall t c, nth_error (v_pcs g) t = Some c -> pc_ok (v_layers g) t c;
  iv_lock : forall t c, nth_error (v_pcs g) t = Some c -> holds c = true -> v_lock g = Some t;
  iv_held : forall t, v_lock g = Some t -> exists c, nth_error (v_pcs g) t = Some c /\ holds c = true;
  iv_count : v_count g = tally n (fun j => seen (v_pcs g) j && hit j);
  iv_there : forall j, 0 <= j < n -> seen (v_pcs g) j = true -> ~ lost j
}.

Lemma num_small : 0 <= n < two31 /\ 0 < two31.
Proof. split; [exact N31|reflexivity]. Qed.

Lemma image_has : forall i m, image_no h w fi fl i m -> has (i_data m) d.
Proof. intros i m [H _]. eapply is_has. exact H. Qed.

Lemma start_inv : forall rd, usable n h w fi fl rd -> vinv (vstart nt ls0 rd).
Proof.
  intros rd U. assert (PC : forall t c, nth_error (v_pcs (vstart nt ls0 rd)) t = Some c -> (t < Z.to_nat nt)%nat /\ c = QLoop (Z.of_nat t)).
  { intros t c H. cbn [vstart v_pcs] in H. assert (L : (t < Z.to_nat nt)%nat).
    { assert (t < length (map (fun t : nat => @QLoop T (s32 (Z.of_nat t))) (seq 0 (Z.to_nat nt))))%nat by (apply nth_error_Some; congruence). rewrite map_length, seq_length in H0. exact H0. }
    split; [exact L|]. rewrite nth_error_map in H. rewrite (nth_error_nth' _ 0%nat) in H by (rewrite seq_length; exact L). rewrite seq_nth in H by exact L. cbn in H.
    injection H as <-. f_equal. apply s32_id. pose proof num_small. lia. }
  assert (NO : forall j, 0 <= j < n -> seen (v_pcs (vstart nt ls0 rd)) j = false).
  { intros j Hj. unfold seen. destruct (nth_error _ _) as [c|] eqn:Q; [|reflexivity].
    apply PC in Q. destruct Q as [_ ->]. cbn [var]. rewrite Z2Nat.id by (apply Z.mod_pos_bound; lia).
    rewrite (proj2 (Z.ltb_ge _ _)); [reflexivity|]. apply Z.mod_le; lia. }
  split.
  - exact F0.
  - apply (fit_sims labels ss d). exact F0.
  - exact U.
  - cbn. rewrite map_length, seq_length. reflexivity.
  - intros t c H. apply PC in H. destruct H as [L ->]. cbn. pose proof num_small. split; [lia|]. split; [apply Z.mod_small; lia|lia].
  - intros t c H. apply PC in H. destruct H as [_ ->]. discriminate.
  - intros t H. discriminate.
  - cbn [vstart v_count]. symmetry. apply tally_none. intros j Hj. rewrite (NO j Hj). reflexivity.
  - intros j Hj SN. rewrite (NO j Hj) in SN. discriminate.
Qed.

(** The other threads are not disturbed. *)
Lemma pc_ok_moves : forall ls ls' t c, sims ls ls' -> (forall j, good ss d j ls -> good ss d j ls') -> pc_ok ls t c -> pc_ok ls' t c.
Proof.
  intros ls ls' t c S G H. destruct c as [i|i|i|i m|i m v|i m r|]; try exact H. cbn in *. destruct H as (H1 & H2 & H0 & H3 & H4 & H5).
  assert (W : wok labels ss d ls' v) by (destruct v; cbn in *; try exact H4; destruct H4 as (A1 & A2 & A3 & A4 & A5 & A6); auto 8).
  split; [exact H1|]. split; [exact H2|]. split; [exact H0|]. split; [exact H3|]. split; [exact W|]. eapply gives_sim; eassumption.
Qed.

Lemma seen_same : forall pcs t c c' j, nth_error pcs t = Some c -> var c = var c' -> seen (upd pcs t c') j = seen pcs j.
Proof.
  intros pcs t c c' j H V. unfold seen. assert (L : (t < length pcs)%nat) by (apply nth_error_Some; congruence).
  destruct (Nat.eq_dec (Z.to_nat (j mod nt)) t) as [->|D].
  - rewrite nth_error_upd_eq by exact L. rewrite H, V. reflexivity.
  - rewrite nth_error_upd_neq by lia. reflexivity.
Qed.

(** An update of one thread that keeps the lock *)
Lemma inv_move : forall g t c c' ls rd, vinv g -> nth_error (v_pcs g) t = Some c -> fit labels ss d ls -> sims (v_layers g) ls ->
  (forall j, good ss d j (v_layers g) -> good ss d j ls) -> usable n h w fi fl rd -> pc_ok ls t c' -> holds c' = holds c ->
  (forall j, 0 <= j < n -> seen (upd (v_pcs g) t c') j = seen (v_pcs g) j) ->
  vinv (VSh ls rd (v_lock g) (v_count g) (upd (v_pcs g) t c')).
Proof.
  intros g t c c' ls rd I Q F S G U PC HO SE. destruct I as [I1 I2 I3 I4 I5 I6 I7 I8 I9].
  assert (L : (t < length (v_pcs g))%nat) by (apply nth_error_Some; congruence).
  split; cbn [v_layers v_reader v_lock v_count v_pcs].
  - exact F.
  - eapply sims_trans; eassumption.
  - exact U.
  - rewrite upd_length. exact I4.
  - intros t' c0 H. destruct (Nat.eq_dec t' t) as [->|D].
    + rewrite nth_error_upd_eq in H by exact L. injection H as <-. exact PC.
    + rewrite nth_error_upd_neq in H by lia. eapply pc_ok_moves; [exact S|exact G|]. apply I5. exact H.
  - intros t' c0 H K. destruct (Nat.eq_dec t' t) as [->|D].
    + rewrite nth_error_upd_eq in H by exact L. injection H as <-. apply (I6 t c Q). congruence.
    + rewrite nth_error_upd_neq in H by lia. eapply I6; eassumption.
  - intros t' H. destruct (I7 t' H) as (c0 & H1 & H2). destruct (Nat.eq_dec t' t) as [->|D].
    + exists c'. split; [apply nth_error_upd_eq; exact L|]. congruence.
    + exists c0. rewrite nth_error_upd_neq by lia. auto.
  - rewrite I8. apply tally_ext. intros j Hj. rewrite SE by exact Hj. reflexivity.
  - intros j Hj. rewrite SE by exact Hj. apply I9. exact Hj.
Qed.

(** One step of any thread *)
Definition step_result (g : vshared (T := T)) (t : nat) : Prop :=
  match vgstep E cast labels big limit nt n t g with
  | VNext g' => vinv g'
  | VBlocked => nth_error (v_pcs g) t = None \/ nth_error (v_pcs g) t = Some QDone \/
                exists i t', nth_error (v_pcs g) t = Some (QLock i) /\ v_lock g = Some t'
  | VStop _ => False
  | VUndef => exists i, nth_error (v_pcs g) t = Some (QGet i) /\ 0 <= i < n /\ lost i
  end.

Lemma mod_step : forall i j t, 0 <= i -> i mod nt = t -> j mod nt = t -> i <= j -> j < i + nt -> j = i.
Proof.
  intros i j t H1 H2 H3 H4 H5. pose proof (Z.div_mod i nt ltac:(lia)) as A. pose proof (Z.div_mod j nt ltac:(lia)) as B. rewrite H2 in A. rewrite H3 in B.
  assert (j / nt = i / nt) by nia. nia.
Qed.

Theorem step_inv : forall g t, vinv g -> step_result g t.
Proof.
  intros g t I. unfold step_result, vgstep. destruct (nth_error (v_pcs g) t) as [c|] eqn:Q; [|left; reflexivity].
  pose proof (iv_pcs g I t c Q) as PC. pose proof (iv_fit g I) as F. pose proof (fit_sims labels ss d _ F) as SR. pose proof (iv_reader g I) as U. pose proof num_small as NS.
  assert (L : (t < length (v_pcs g))%nat) by (apply nth_error_Some; congruence).
  assert (TN : Z.of_nat t < nt) by (rewrite (iv_len g I) in L; lia).
  destruct c as [i|i|i|i m|i m v|i m r|].
  - cbn in PC. destruct PC as (A1 & A2 & A3). unfold vset_pc. destruct (i <? n) eqn:B.
    + apply Z.ltb_lt in B. eapply inv_move; try eassumption; auto; [cbn; auto|]. intros j Hj. eapply seen_same; [exact Q|reflexivity].
    + apply Z.ltb_ge in B. eapply inv_move; try eassumption; auto; [exact Logic.I|]. intros j Hj. unfold seen.
      destruct (Nat.eq_dec (Z.to_nat (j mod nt)) t) as [->|D].
      * rewrite nth_error_upd_eq by exact L. rewrite Q. cbn [var]. rewrite !(proj2 (Z.ltb_lt _ _)) by lia. reflexivity.
      * rewrite nth_error_upd_neq by lia. reflexivity.
  - cbn in PC. destruct (v_lock g) as [t'|] eqn:LK; [right; right; eauto|].
    destruct I as [I1 I2 I3 I4 I5 I6 I7 I8 I9]. unfold vwith_lock, vset_pc. split; cbn [v_layers v_reader v_lock v_count v_pcs]; auto.
    + rewrite upd_length. exact I4.
    + intros t' c0 H. destruct (Nat.eq_dec t' t) as [->|D]; [rewrite nth_error_upd_eq in H by exact L; injection H as <-; exact PC|].
      rewrite nth_error_upd_neq in H by lia. apply I5. exact H.
    + intros t' c0 H K. destruct (Nat.eq_dec t' t) as [->|D]; [reflexivity|]. rewrite nth_error_upd_neq in H by lia. specialize (I6 t' c0 H K). congruence.
    + intros t' H. injection H as <-. exists (QGet i). split; [apply nth_error_upd_eq; exact L|reflexivity].
    + rewrite I8. apply tally_ext. intros j Hj. rewrite (seen_same _ t (QLock i)) by (exact Q || reflexivity). reflexivity.
    + intros j Hj. rewrite (seen_same _ t (QLock i)) by (exact Q || reflexivity). apply I9. exact Hj.
  - cbn in PC. destruct PC as (A1 & A2). rewrite u64_id31 by lia.
    destruct (GET i (v_reader g) A1 U) as [(NL & r' & m & EC & IM & U')|(LO' & EC)]; [|rewrite EC; exists i; auto].
    rewrite EC. unfold vset_pc. cbn [v_layers v_reader v_lock v_count v_pcs].
    eapply inv_move; try eassumption; auto; [cbn; auto|]. intros j Hj. eapply seen_same; [exact Q|reflexivity].
  - cbn in PC. destruct PC as (A1 & A2 & AL & A3). pose proof (iv_lock g I t _ Q eq_refl) as LK. pose proof (iv_sims g I) as S0.
    destruct I as [I1 I2 I3 I4 I5 I6 I7 I8 I9]. unfold vwith_lock, vset_pc. split; cbn [v_layers v_reader v_lock v_count v_pcs]; auto.
    + rewrite upd_length. exact I4.
    + intros t' c0 H. destruct (Nat.eq_dec t' t) as [->|D].
      * rewrite nth_error_upd_eq in H by exact L. injection H as <-. cbn. split; [exact A1|]. split; [exact A2|]. split; [exact AL|]. split; [exact A3|]. split; [exact Logic.I|].
        eapply gives_sim with (ls := ls0) (ss := ss) (d := d); [exact S0|exact Logic.I|exact Logic.I|]. apply RS; assumption.
      * rewrite nth_error_upd_neq in H by lia. apply I5. exact H.
    + intros t' c0 H K. destruct (Nat.eq_dec t' t) as [->|D].
      * rewrite nth_error_upd_eq in H by exact L. injection H as <-. discriminate.
      * rewrite nth_error_upd_neq in H by lia. specialize (I6 t' c0 H K). congruence.
    + intros t' H. discriminate.
    + rewrite I8. apply tally_ext. intros j Hj. rewrite (seen_same _ t (QFree i m)) by (exact Q || reflexivity). reflexivity.
    + intros j Hj. rewrite (seen_same _ t (QFree i m)) by (exact Q || reflexivity). apply I9. exact Hj.
  - cbn in PC. destruct PC as (A1 & A2 & AL & A3 & A4 & A5).
    assert (D : (exists r, v = VEnd r) \/ (forall r, v <> VEnd r)) by (destruct v; [right|right|right|left; eauto]; discriminate). destruct D as [(r & ->)|NE].
    + unfold vset_pc. cbn [v_layers v_reader v_lock v_count v_pcs]. eapply inv_move; try eassumption; auto.
      * destruct A5 as (t' & A5). cbn in A5. injection A5 as _ ->. cbn. auto 8.
      * intros j Hj. eapply seen_same; [exact Q|reflexivity].
    + destruct (step_total E cast labels ss d OK LO (i_data m) v (v_layers g) (rs i) F A4 (image_has i m A3) A5 NE) as (ls' & w' & ES & F' & W' & S' & G' & GV & _).
      assert (X : match vstep E cast labels (i_data m) v (v_layers g) with
        | ORet ls w'0 => VNext (vset_pc t (QWork i m w'0) (VSh ls (v_reader g) (v_lock g) (v_count g) (v_pcs g))) | OThrow _ e => VStop e | OUB => VUndef end
        = VNext (VSh ls' (v_reader g) (v_lock g) (v_count g) (upd (v_pcs g) t (QWork i m w')))) by (rewrite ES; reflexivity).
      destruct v; try (exfalso; eapply NE; reflexivity); rewrite X; (eapply inv_move; try eassumption; auto; [cbn; auto 8|]; intros j0 Hj; eapply seen_same; [exact Q|reflexivity]).
  - cbn in PC. destruct PC as (A1 & A2 & AL & A3 & -> & A5). destruct (vget_in labels (r_label (rs i)) A5) as (l & VL). rewrite VL.
    unfold vset_pc. cbn [v_layers v_reader v_lock v_count v_pcs]. rewrite u64_id by (unfold two64, two31 in *; lia).
    assert (HT : text_eqb l (dec (i_label m)) = hit i) by (unfold hit; rewrite VL; destruct A3 as [_ ->]; reflexivity). rewrite HT.
    rewrite (s32_id (i + nt)) by lia. destruct I as [I1 I2 I3 I4 I5 I6 I7 I8 I9].
    assert (S0 : seen (v_pcs g) i = false) by (unfold seen; rewrite A2, Nat2Z.id, Q; cbn [var]; apply Z.ltb_irrefl).
    assert (S1 : seen (upd (v_pcs g) t (QLoop (i + nt))) i = true) by (unfold seen; rewrite A2, Nat2Z.id, nth_error_upd_eq by exact L; cbn [var]; apply Z.ltb_lt; lia).
    assert (S2 : forall j, 0 <= j < n -> j <> i -> seen (upd (v_pcs g) t (QLoop (i + nt))) j = seen (v_pcs g) j).
    { intros j Hj NJ. unfold seen. destruct (Nat.eq_dec (Z.to_nat (j mod nt)) t) as [D|D].
      - rewrite D, nth_error_upd_eq by exact L. rewrite Q. cbn [var]. assert (JM : j mod nt = Z.of_nat t) by (pose proof (Z.mod_pos_bound j nt ltac:(lia)); lia).
        destruct (Z.ltb_spec j i); [apply Z.ltb_lt; lia|]. apply Z.ltb_ge. destruct (Z.lt_ge_cases j (i + nt)) as [C|C]; [|lia].
        exfalso. apply NJ. eapply mod_step; [|exact A2|exact JM| |]; lia.
      - rewrite nth_error_upd_neq by lia. reflexivity. }
    assert (CT : tally n (fun j => seen (upd (v_pcs g) t (QLoop (i + nt))) j && hit j) = v_count g + (if hit i then 1 else 0)).
    { rewrite I8. set (Q1 := fun j => if Z.eq_dec j i then hit i else seen (v_pcs g) j && hit j).
      rewrite (tally_ext n _ Q1).
      - rewrite (tally_flip n (fun j => seen (v_pcs g) j && hit j) Q1 i A1).
        + unfold Q1. destruct (Z.eq_dec i i); [reflexivity|contradiction].
        + cbv beta. rewrite S0. reflexivity.
        + intros j NJ. unfold Q1. destruct (Z.eq_dec j i); [contradiction|reflexivity].
      - intros j Hj. unfold Q1. destruct (Z.eq_dec j i) as [->|NJ]; [rewrite S1; reflexivity|]. rewrite S2 by assumption. reflexivity. }
    split; cbn [v_layers v_reader v_lock v_count v_pcs]; auto.
    + rewrite upd_length. exact I4.
    + intros t' c0 H. destruct (Nat.eq_dec t' t) as [->|D].
      * rewrite nth_error_upd_eq in H by exact L. injection H as <-. cbn. split; [lia|]. split; [|lia].
        rewrite <- A2. replace (i + nt) with (i + 1 * nt) by ring. apply Z_mod_plus_full.
      * rewrite nth_error_upd_neq in H by lia. apply I5. exact H.
    + intros t' c0 H K. destruct (Nat.eq_dec t' t) as [->|D].
      * rewrite nth_error_upd_eq in H by exact L. injection H as <-. discriminate.
      * rewrite nth_error_upd_neq in H by lia. eapply I6; eassumption.
    + intros t' H. destruct (I7 t' H) as (c0 & H1 & H2). destruct (Nat.eq_dec t' t) as [->|D]; [rewrite Q in H1; injection H1 as <-; discriminate|].
      exists c0. rewrite nth_error_upd_neq by lia. auto.
    + rewrite CT. apply s32_id. pose proof (tally_range n (fun j => seen (upd (v_pcs g) t (QLoop (i + nt))) j && hit j) ltac:(lia)). lia.
    + intros j Hj. destruct (Z.eq_dec j i) as [->|NJ]; [intros _; exact AL|]. rewrite S2 by assumption. apply I9. exact Hj.
  - right. left. reflexivity.
Qed.

Lemma exec_inv : forall g g', vinv g -> vexec E cast labels big limit nt n g g' -> vinv g'.
Proof.
  intros g g' I X. induction X as [g|g t g' g'' X IH ST]; [exact I|]. pose proof (step_inv g' t (IH I)) as SR. unfold step_result in SR. rewrite ST in SR. exact SR.
Qed.

(** *** No failure, no deadlock *)
Theorem run_safe : forall rd g t, usable n h w fi fl rd -> vexec E cast labels big limit nt n (vstart nt ls0 rd) g ->
  match vgstep E cast labels big limit nt n t g with VStop _ => False | VUndef => exists i, 0 <= i < n /\ lost i | _ => True end.
Proof.
  intros rd g t U X. pose proof (step_inv g t (exec_inv _ _ (start_inv rd U) X)) as SR. unfold step_result in SR. destruct (vgstep _ _ _ _ _ _ _ _ _); auto. destruct SR as (i & _ & SR). eauto.
Qed.

Lemma inv_live : forall g, vinv g -> vfinished g \/ exists t, (exists g', vgstep E cast labels big limit nt n t g = VNext g') \/ (vgstep E cast labels big limit nt n t g = VUndef /\ exists i, 0 <= i < n /\ lost i).
Proof.
  intros g I.
  assert (MOVE : forall t, (exists c, nth_error (v_pcs g) t = Some c /\ c <> QDone) -> (forall i, nth_error (v_pcs g) t = Some (QLock i) -> v_lock g = None) ->
    (exists g', vgstep E cast labels big limit nt n t g = VNext g') \/ (vgstep E cast labels big limit nt n t g = VUndef /\ exists i, 0 <= i < n /\ lost i)).
  { intros t (c & Q & ND) NL. pose proof (step_inv g t I) as SR. unfold step_result in SR. destruct (vgstep E cast labels big limit nt n t g) as [g'| |e|] eqn:ST; [left; eauto| |contradiction|right; split; [reflexivity|destruct SR as (i & _ & SR); eauto]].
    exfalso. destruct SR as [SR|[SR|(i & t' & S1 & S2)]]; [congruence|congruence|]. specialize (NL i S1). congruence. }
  destruct (v_lock g) as [t|] eqn:LK.
  - right. destruct (iv_held g I t LK) as (c & Q & HC). exists t. apply MOVE.
    + exists c. split; [exact Q|]. intros ->. discriminate.
    + intros i Qi. rewrite Q in Qi. injection Qi as ->. discriminate.
  - assert (D : forall pcs : list (vpc (T := T)), (forall c, In c pcs -> c = QDone) \/ exists t c, nth_error pcs t = Some c /\ c <> QDone).
    { induction pcs as [|c pcs IH]; [left; intros c []|]. assert (C : c = QDone \/ c <> QDone) by (destruct c; [right|right|right|right|right|right|left]; congruence).
      destruct C as [->|C]; [|right; exists 0%nat, c; auto]. destruct IH as [IH|(t & c & H)].
      - left. intros c [<-|H]; auto.
      - right. exists (S t), c. exact H. }
    destruct (D (v_pcs g)) as [H|(t & c & H1 & H2)]; [left; exact H|]. right. exists t. apply MOVE; eauto.
Qed.
Theorem run_live : forall rd g, usable n h w fi fl rd -> vexec E cast labels big limit nt n (vstart nt ls0 rd) g ->
  vfinished g \/ exists t, (exists g', vgstep E cast labels big limit nt n t g = VNext g') \/ (vgstep E cast labels big limit nt n t g = VUndef /\ exists i, 0 <= i < n /\ lost i).
Proof. intros rd g U X. apply inv_live. exact (exec_inv _ _ (start_inv rd U) X). Qed.

(** *** The count *)
Theorem run_count : forall rd g, usable n h w fi fl rd -> vexec E cast labels big limit nt n (vstart nt ls0 rd) g -> vfinished g ->
  v_count g = tally n hit /\ sims ls0 (v_layers g) /\ usable n h w fi fl (v_reader g) /\ forall i, 0 <= i < n -> ~ lost i.
Proof.
  intros rd g U X FIN. pose proof (exec_inv _ _ (start_inv rd U) X) as I.
  assert (SE : forall j, 0 <= j < n -> seen (v_pcs g) j = true).
  { intros j Hj. unfold seen. destruct (nth_error (v_pcs g) (Z.to_nat (j mod nt))) as [c|] eqn:Q.
    - rewrite (FIN c (nth_error_In _ _ Q)). cbn [var]. apply Z.ltb_lt. lia.
    - apply nth_error_None in Q. rewrite (iv_len g I) in Q. pose proof (Z.mod_pos_bound j nt ltac:(lia)). lia. }
  split; [|split; [apply I|split; [apply I|]]].
  - rewrite (iv_count g I). apply tally_ext. intros j Hj. rewrite SE by exact Hj. reflexivity.
  - intros i Hi. apply (iv_there g I i Hi). apply SE. exact Hi.
Qed.

(** *** The threads end *)
Definition per_image : Z := lcost ss d 0 + 9.
Definition pc_cost (c : vpc (T := T)) : Z :=
  match c with
  | QLoop i => per_image * Z.max 0 (n - i) + 1
  | QLock i => per_image * (n - i)
  | QGet i => per_image * (n - i) - 1
  | QFree i _ => per_image * (n - i) - 2
  | QWork i _ v => per_image * (n - i - 1) + 3 + wcost ss d v
  | QCount i _ _ => per_image * (n - i - 1) + 2
  | QDone => 0
  end.
Definition total_cost (g : vshared (T := T)) : Z := sum_list (map pc_cost (v_pcs g)).

Lemma sum_upd : forall (l : list (vpc (T := T))) t c c', nth_error l t = Some c -> sum_list (map pc_cost (upd l t c')) = sum_list (map pc_cost l) - pc_cost c + pc_cost c'.
Proof. induction l as [|a l IH]; intros [|t] c c' H; cbn in *; try discriminate; [injection H as ->; lia|]. rewrite (IH t c c' H). lia. Qed.

Lemma step_cost : forall g t g', vinv g -> vgstep E cast labels big limit nt n t g = VNext g' -> total_cost g' < total_cost g.
Proof.
  intros g t g' I ST. unfold vgstep in ST. destruct (nth_error (v_pcs g) t) as [c|] eqn:Q; [|discriminate].
  pose proof (iv_pcs g I t c Q) as PC. pose proof num_small as NS. pose proof (lcost_pos ss d OK 0) as LP.
  assert (K : forall c' ls rd lk ct, pc_cost c' < pc_cost c -> total_cost (VSh ls rd lk ct (upd (v_pcs g) t c')) < total_cost g).
  { intros c' ls rd lk ct H. unfold total_cost. cbn [v_pcs]. rewrite (sum_upd _ t c c' Q). lia. }
  destruct c as [i|i|i|i m|i m v|i m r|].
  - injection ST as <-. unfold vset_pc. apply K. cbn in PC. destruct (i <? n) eqn:B; cbn [pc_cost].
    + apply Z.ltb_lt in B. rewrite Z.max_r by lia. lia.
    + assert (0 <= per_image * Z.max 0 (n - i)) by (unfold per_image; nia). lia.
  - destruct (v_lock g); [discriminate|]. injection ST as <-. unfold vwith_lock, vset_pc. cbn [v_layers v_reader v_lock v_count v_pcs]. apply K. cbn [pc_cost]. lia.
  - destruct (get_image big limit (u64 i) (v_reader g)); try discriminate. injection ST as <-. unfold vset_pc. apply K. cbn [pc_cost]. lia.
  - injection ST as <-. unfold vwith_lock, vset_pc. cbn [v_layers v_reader v_lock v_count v_pcs]. apply K. cbn [pc_cost wcost]. unfold per_image. nia.
  - cbn in PC. destruct PC as (A1 & A2 & AL & A3 & A4 & A5).
    assert (D : (exists r, v = VEnd r) \/ (forall r, v <> VEnd r)) by (destruct v; [right|right|right|left; eauto]; discriminate). destruct D as [(r & ->)|NE].
    + injection ST as <-. unfold vset_pc. apply K. cbn [pc_cost wcost]. lia.
    + destruct (step_total E cast labels ss d OK LO (i_data m) v (v_layers g) (rs i) (iv_fit g I) A4 (image_has i m A3) A5 NE) as (ls' & w' & ES & _ & _ & _ & _ & _ & CO).
      destruct v; try (exfalso; eapply NE; reflexivity); rewrite ES in ST; injection ST as <-; unfold vset_pc; apply K; cbn [pc_cost]; lia.
  - cbn in PC. destruct PC as (A1 & A2 & AL & A3 & A4 & A5). destruct (vget labels (r_label r)); try discriminate. injection ST as <-. unfold vset_pc. apply K. cbn [pc_cost].
    rewrite u64_id by (unfold two64, two31 in *; lia). rewrite s32_id by lia.
    assert (per_image * Z.max 0 (n - (i + nt)) <= per_image * (n - i - 1)) by (apply Z.mul_le_mono_nonneg_l; [unfold per_image; lia|lia]). lia.
  - discriminate.
Qed.
Lemma cost_pos : forall g, vinv g -> 0 <= total_cost g.
Proof.
  intros g I. unfold total_cost. pose proof (lcost_pos ss d OK 0) as LP.
  assert (K : forall c, In c (v_pcs g) -> 0 <= pc_cost c).
  { intros c H. apply In_nth_error in H. destruct H as [t Q]. pose proof (iv_pcs g I t c Q) as PC. unfold per_image.
    destruct c as [i|i|i|i m|i m v|i m r|]; cbn [pc_cost pc_ok] in *; unfold per_image.
    - nia. - nia. - nia. - nia.
    - destruct PC as (A1 & A2 & AL & A3 & A4 & A5). pose proof (wcost_pos labels ss d OK (v_layers g) v A4). nia.
    - nia. - lia. }
  induction (v_pcs g) as [|c l IH]; cbn; [lia|]. pose proof (K c (or_introl eq_refl)). specialize (IH (fun c H => K c (or_intror H))). lia.
Qed.

(** Executions with [k] steps have at most [total_cost] steps; every execution can be continued to an end. *)
Lemma vrun_inv : forall sched g g', vinv g -> vrun E cast labels big limit nt n sched g = VNext g' -> vinv g' /\ Z.of_nat (length sched) <= total_cost g - total_cost g'.
Proof.
  induction sched as [|t sched IH]; intros g g' I H; cbn in H; [injection H as <-; split; [exact I|cbn; lia]|].
  destruct (vgstep E cast labels big limit nt n t g) as [g1| | |] eqn:ST; try discriminate. pose proof (step_inv g t I) as SR. unfold step_result in SR. rewrite ST in SR.
  destruct (IH g1 g' SR H) as [I' C]. split; [exact I'|]. pose proof (step_cost g t g1 I ST). cbn [length]. lia.
Qed.
Lemma vrun_ends : forall k g, vinv g -> total_cost g <= Z.of_nat k -> exists sched g', vrun E cast labels big limit nt n sched g = VNext g' /\
  (vfinished g' \/ (exists t, vgstep E cast labels big limit nt n t g' = VUndef) /\ exists i, 0 <= i < n /\ lost i).
Proof.
  induction k as [|k IH]; intros g I H; (destruct (inv_live g I) as [FIN|(t & [(g1 & ST)|[ST LS]])]; [exists [], g; split; [reflexivity|left; exact FIN]| |exists [], g; split; [reflexivity|right; eauto]]);
    pose proof (step_cost g t g1 I ST) as C; pose proof (step_inv g t I) as SR; unfold step_result in SR; rewrite ST in SR.
  - pose proof (cost_pos g1 SR). lia.
  - destruct (IH g1 SR ltac:(lia)) as (sched & g' & R & FIN). exists (t :: sched), g'. split; [cbn; rewrite ST; exact R|exact FIN].
Qed.
Lemma vrun_exec : forall sched g0 g g', vexec E cast labels big limit nt n g0 g -> vrun E cast labels big limit nt n sched g = VNext g' -> vexec E cast labels big limit nt n g0 g'.
Proof.
  induction sched as [|t sched IH]; intros g0 g g' X H; cbn in H; [injection H as <-; exact X|].
  destruct (vgstep E cast labels big limit nt n t g) as [g1| | |] eqn:ST; try discriminate. eapply IH; [|exact H]. eapply vx_step; eassumption.
Qed.

Lemma start_cost : forall rd, total_cost (vstart nt ls0 rd) <= nt * (per_image * n + 1).
Proof.
  intros rd. unfold total_cost, vstart. cbn [v_pcs]. rewrite map_map. pose proof num_small as NS. pose proof (lcost_pos ss d OK 0) as LP.
  assert (K : forall l, (forall t, In t l -> (t < Z.to_nat nt)%nat) -> sum_list (map (fun t : nat => pc_cost (QLoop (s32 (Z.of_nat t)))) l) <= Z.of_nat (length l) * (per_image * n + 1)).
  { induction l as [|t l IH]; intros H; cbn [map sum_list length]; [lia|]. specialize (IH (fun t H' => H t (or_intror H'))). specialize (H t (or_introl eq_refl)).
    change (pc_cost (QLoop (s32 (Z.of_nat t)))) with (per_image * Z.max 0 (n - s32 (Z.of_nat t)) + 1). rewrite (s32_id (Z.of_nat t)) by lia.
    assert (per_image * Z.max 0 (n - Z.of_nat t) <= per_image * n) by (apply Z.mul_le_mono_nonneg_l; [unfold per_image; lia|lia]). rewrite Nat2Z.inj_succ, Z.mul_succ_l. lia. }
  specialize (K (seq 0 (Z.to_nat nt)) ltac:(intros t H; apply in_seq in H; lia)). rewrite seq_length, Z2Nat.id in K by lia. exact K.
Qed.
Theorem run_ends : forall rd, usable n h w fi fl rd ->
  (forall sched g, vrun E cast labels big limit nt n sched (vstart nt ls0 rd) = VNext g -> Z.of_nat (length sched) <= nt * (per_image * n + 1)) /\
  (forall sched g, vrun E cast labels big limit nt n sched (vstart nt ls0 rd) = VNext g ->
     exists sched' g', vrun E cast labels big limit nt n sched' g = VNext g' /\
       (vfinished g' \/ (exists t, vgstep E cast labels big limit nt n t g' = VUndef) /\ exists i, 0 <= i < n /\ lost i)).
Proof.
  intros rd U. pose proof (start_inv rd U) as I. split; intros sched g R; destruct (vrun_inv _ _ _ I R) as [I' C].
  - pose proof (cost_pos g I'). pose proof (start_cost rd). lia.
  - apply (vrun_ends (Z.to_nat (total_cost g)) g I'). pose proof (cost_pos g I'). lia.
Qed.
End Run.
