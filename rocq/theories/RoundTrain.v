(** Accuracy of a batch of training with doubles: how far the new parameters are from those of one step of gradient
    descent with exact arithmetic. *)
From Coq Require Import ZArith Bool Lia Reals Lra Psatz List Permutation.
From Coquelicot Require Import Coquelicot.
From Flocq Require Import Core BinarySingleNaN.
From Verif Require Import Base Dim Matrix View Num Expr Spec Iter Sums MatFacts MatThms ViewThms ExprThms Batch Kernel Connected Float32
  FloatFacts Pooling Activation Softmax LayerFacts KernelThms KernelGrad BatchThms ConnectedThms PoolingThms PoolGrad ActivationThms SoftmaxThms LayerTotal Calc Chars
  Double Bar BarFacts Model Net NetThms NetPass NetGrad ModelThms Train TrainLocal TrainRest TrainInv TrainData TrainEnd TrainThms TrainEpoch TrainNet TrainSgd TrainMore Shapes ShapeNet TrainSafe
  Main ReportFacts FiniteFacts FiniteSoft FiniteInit FiniteNet FiniteReal FiniteMain FiniteBack FiniteTrain Rounding RoundLayers RoundNet RoundPass RoundBack.
Import ListNotations.
Local Open Scope Z_scope.

Local Notation pw := (bpow radix2).

(** Bound for the error of a new parameter: [n] data points, learning rate [lr], old parameter [W], [M] the mean of the
    absolute values of the derivatives, gradients with errors of at most 2^k *)
Definition step_err (n : Z) (lr W M : R) (k : Z) : R :=
  (Rabs lr * pw k + IZR (n + 3) * pw (-52) * (Rabs W + Rabs lr * (M + pw k)) + (Rabs lr + 1) * pw (-1074))%R.

Lemma mean_close : forall n f g c, 1 <= n -> (forall i, 0 <= i < n -> (Rabs (f i - g i) <= c)%R) -> (Rabs (rsum n f / IZR n - rsum n g / IZR n) <= c)%R.
Proof.
  intros n f g c Hn H. assert (P : (0 < IZR n)%R) by (apply IZR_lt; lia). replace (rsum n f / IZR n - rsum n g / IZR n)%R with ((rsum n f - rsum n g) * / IZR n)%R by (field; lra).
  rewrite Rabs_mult, (Rabs_pos_eq (/ IZR n)) by (left; apply Rinv_0_lt_compat; exact P). apply Rmult_le_reg_r with (IZR n); [exact P|].
  rewrite Rmult_assoc, Rinv_l, Rmult_1_r by lra. rewrite Rmult_comm. apply rsum_abs; [lia|exact H].
Qed.
Lemma step_close : forall n k (X W lr : R) G D, 1 <= n -> (forall i, 0 <= i < n -> (Rabs (G i - D i) <= pw k)%R) ->
  (Rabs (X - (W - lr * (rsum n G / IZR n))) <= IZR (n + 3) * pw (-52) * (Rabs W + Rabs lr * (rsum n (fun i => Rabs (G i)) / IZR n)) + (Rabs lr + 1) * pw (-1074))%R ->
  (Rabs (X - (W - lr * (rsum n D / IZR n))) <= step_err n lr W (rsum n (fun i => Rabs (D i)) / IZR n) k)%R.
Proof.
  intros n k X W lr G D Hn HD HX. unfold step_err. pose proof (mean_close n G D (pw k) Hn HD) as C1.
  assert (C2 : (Rabs (rsum n (fun i => Rabs (G i)) / IZR n - rsum n (fun i => Rabs (D i)) / IZR n) <= pw k)%R).
  { apply mean_close; [exact Hn|]. intros i Hi. eapply Rle_trans; [apply Rabs_triang_inv2|]. apply HD. exact Hi. }
  set (mG := (rsum n G / IZR n)%R) in *. set (mD := (rsum n D / IZR n)%R) in *. set (mA := (rsum n (fun i => Rabs (G i)) / IZR n)%R) in *. set (mB := (rsum n (fun i => Rabs (D i)) / IZR n)%R) in *.
  assert (C3 : (mA <= mB + pw k)%R) by (apply Rabs_le_inv in C2; lra).
  replace (X - (W - lr * mD))%R with ((X - (W - lr * mG)) + - (lr * (mG - mD)))%R by ring.
  eapply Rle_trans; [apply Rabs_triang|]. rewrite Rabs_Ropp, Rabs_mult.
  assert (P1 : (Rabs lr * Rabs (mG - mD) <= Rabs lr * pw k)%R) by (apply Rmult_le_compat_l; [apply Rabs_pos|exact C1]).
  assert (P2 : (Rabs lr * mA <= Rabs lr * (mB + pw k))%R) by (apply Rmult_le_compat_l; [apply Rabs_pos|exact C3]).
  assert (N3 : (0 <= IZR (n + 3) * pw (-52))%R) by (apply Rmult_le_pos; [apply IZR_le; lia|left; apply bpow_gt_0]).
  assert (P3 : (IZR (n + 3) * pw (-52) * (Rabs W + Rabs lr * mA) <= IZR (n + 3) * pw (-52) * (Rabs W + Rabs lr * (mB + pw k)))%R) by (apply Rmult_le_compat_l; [exact N3|lra]).
  lra.
Qed.

(** *** The parameters of one layer *)
Lemma small_rd : forall e m d a b c, small e m d -> fits d -> inb d a b c -> within 1 e (rd n0 m a b c).
Proof. intros e m d a b c (f & H & B) F I. rewrite (rd_ok n0 m d f a b c H F I). apply B. exact I. Qed.
Lemma close_rd : forall k m d F a b c, close_to k m d F -> fits d -> inb d a b c -> (Rabs (B2R (rd n0 m a b c) - F a b c) <= pw k)%R.
Proof. intros k m d F a b c (f & H & _ & B) Fd I. rewrite (rd_ok n0 m d f a b c H Fd I). apply B. exact I. Qed.
Lemma small_is : forall e m d, small e m d -> fits d -> is_mat m d (rd n0 m).
Proof. intros e m d (f & H & _) F. eapply is_mat_ext; [exact H|]. intros x y z I. symmetry. exact (rd_ok n0 m d f x y z H F I). Qed.

Lemma close_is : forall k m d F, close_to k m d F -> fits d -> is_mat m d (rd n0 m).
Proof. intros k m d F (f & H & _) Fd. eapply is_mat_ext; [exact H|]. intros x y z I. symmetry. exact (rd_ok n0 m d f x y z H Fd I). Qed.

Definition slot_rd (l : list (mat double)) (i : Z) : Z -> Z -> Z -> double := match vget l i with Ok m => rd n0 m | _ => fun _ _ _ => n0 end.
Lemma params_close : forall (lr : double) bs w w2 k (p : @params double) dw db w' b' wg' bg' (DW DB : Z -> fn), 1 <= bs < 2 ^ 31 ->
  fits dw -> pos dw -> fits db -> pos db -> Z.of_nat (length (p_wg p)) = bs -> Z.of_nat (length (p_bg p)) = bs ->
  p_apply lr p = ORet (Par w' b' wg' bg') tt ->
  (forall i, 0 <= i < bs -> exists gw gb, vget (p_wg p) i = Ok gw /\ close_to k gw dw (DW i) /\ vget (p_bg p) i = Ok gb /\ close_to k gb db (DB i)) ->
  small w (p_w p) dw -> small w (p_b p) db -> small w2 w' dw -> small w2 b' db ->
  (forall a b c, inb dw a b c -> (Rabs (B2R (rd n0 w' a b c) - (B2R (rd n0 (p_w p) a b c) - B2R lr * (rsum bs (fun i => DW i a b c) / IZR bs))) <=
    step_err bs (B2R lr) (B2R (rd n0 (p_w p) a b c)) (rsum bs (fun i => Rabs (DW i a b c)) / IZR bs) k)%R) /\
  (forall a b c, inb db a b c -> (Rabs (B2R (rd n0 b' a b c) - (B2R (rd n0 (p_b p) a b c) - B2R lr * (rsum bs (fun i => DB i a b c) / IZR bs))) <=
    step_err bs (B2R lr) (B2R (rd n0 (p_b p) a b c)) (rsum bs (fun i => Rabs (DB i a b c)) / IZR bs) k)%R).
Proof.
  intros lr bs w w2 k p dw db w' b' wg' bg' DW DB Hb FW PW FB PB L1 L2 EA SC SW SB SW' SB'.
  assert (KS : forall l d D, fits d -> Z.of_nat (length l) = bs -> (forall i, 0 <= i < bs -> exists m, vget l i = Ok m /\ close_to k m d (D i)) -> slots_are l d (slot_rd l)).
  { intros l d D F HL' H i Hi. rewrite HL' in Hi. destruct (H i Hi) as (m & V & S). exists m. split; [exact V|]. unfold slot_rd. rewrite V. eapply close_is; eassumption. }
  pose proof EA as EA0. unfold p_apply in EA0. destruct (apply_batch lr (p_wg p) (p_bg p) (p_w p, p_b p)) as [[w1 b1] []|[? ?] ?|] eqn:Q; try discriminate. injection EA0 as <- <- <- <-.
  assert (S1 : slots_are (p_wg p) dw (slot_rd (p_wg p))) by (apply KS with DW; [exact FW|exact L1|intros i Hi; destruct (SC i Hi) as (gw & gb & A1 & A2 & A3 & A4); eauto]).
  assert (S2 : slots_are (p_bg p) db (slot_rd (p_bg p))) by (apply KS with DB; [exact FB|exact L2|intros i Hi; destruct (SC i Hi) as (gw & gb & A1 & A2 & A3 & A4); eauto]).
  destruct (batch_round lr (p_wg p) (p_bg p) (p_w p) (p_b p) dw db _ _ _ _ bs FW (pos_iterable _ PW) FB (pos_iterable _ PB) (eq_sym L1) (eq_sym L2) Hb S1 S2 (small_is _ _ _ SW FW) (small_is _ _ _ SB FB))
    as (w3 & b3 & W' & B' & EB & IW & IB & RW & RB). rewrite Q in EB. injection EB as <- <-.
  split; intros a b c I.
  - rewrite (rd_ok n0 _ dw W' a b c IW FW I). destruct (small_rd _ _ _ _ _ _ SW' FW I) as (FN & _). rewrite (rd_ok n0 _ dw W' a b c IW FW I) in FN.
    eapply step_close; [lia| |exact (RW a b c I FN)]. intros i Hi; unfold slot_rd.
    destruct (SC i Hi) as (gw & gb & A1 & A2 & _). rewrite A1. apply close_rd with (1 := A2); assumption.
  - rewrite (rd_ok n0 _ db B' a b c IB FB I). destruct (small_rd _ _ _ _ _ _ SB' FB I) as (FN & _). rewrite (rd_ok n0 _ db B' a b c IB FB I) in FN.
    eapply step_close; [lia| |exact (RB a b c I FN)]. intros i Hi; unfold slot_rd.
    destruct (SC i Hi) as (gw & gb & _ & _ & A1 & A2). rewrite A1. apply close_rd with (1 := A2); assumption.
Qed.

(** *** One layer *)
Lemma apply_close : forall (lr : double) bs w w2 k l l' s d D, 1 <= bs < 2 ^ 31 -> l_fit l s d -> ready l -> h_ok s d -> nslots bs l -> learns s = true ->
  l_apply lr l = ORet l' tt -> (forall i, 0 <= i < bs -> slot_close k l s d i (D i)) -> l_small w l s d -> l_small w2 l' s d ->
  (forall a b c, inb (h_wdim s d) a b c -> (Rabs (s_w (real_layer s l') a b c - (s_w (real_layer s l) a b c - B2R lr * (rsum bs (fun i => fst (D i) a b c) / IZR bs))) <=
    step_err bs (B2R lr) (s_w (real_layer s l) a b c) (rsum bs (fun i => Rabs (fst (D i) a b c)) / IZR bs) k)%R) /\
  (forall a b c, inb (h_bdim s) a b c -> (Rabs (s_b (real_layer s l') a b c - (s_b (real_layer s l) a b c - B2R lr * (rsum bs (fun i => snd (D i) a b c) / IZR bs))) <=
    step_err bs (B2R lr) (s_b (real_layer s l) a b c) (rsum bs (fun i => Rabs (snd (D i) a b c)) / IZR bs) k)%R).
Proof.
  intros lr bs w w2 k l l' s d D Hb HF RD (P & F & OK) NS LN EA SC HW HW'.
  destruct l as [k0|c|q|a|sm]; destruct s as [fx fy C n|n|t qx qy sx sy|ac]; cbn in HF; try contradiction; try discriminate LN; cbn [l_apply] in EA.
  - destruct HF as ((W & B & HK) & HT). destruct OK as (A1 & A2 & A3 & A4 & F1 & F2 & F3). destruct NS as [N1 N2]. destruct HW as (S1 & S2).
    unfold on_par in EA. destruct (p_apply lr (k_par k0)) as [[w1 b1 wg1 bg1] []| |] eqn:Q; try discriminate. injection EA as <-.
    assert (P1 : pos (D3 fx fy (C * n))) by (unfold pos in *; cbn; nia). assert (P2 : pos (D3 n 1 1)) by (unfold pos; cbn; lia). destruct HW' as (S3 & S4).
    exact (params_close lr bs w w2 k (k_par k0) _ _ w1 b1 wg1 bg1 (fun i => fst (D i)) (fun i => snd (D i)) Hb F1 P1 F2 P2 N1 N2 Q SC S1 S2 S3 S4).
  - destruct OK as (A1 & F1 & F2). destruct NS as [N1 N2]. cbn in RD. destruct (HW RD) as (S1 & S2).
    unfold on_cpar in EA. destruct (p_apply lr (c_par c)) as [[w1 b1 wg1 bg1] []| |] eqn:Q; try discriminate. injection EA as <-.
    assert (P1 : pos (D3 n (vol d) 1)) by (pose proof (vol_pos1 d P); unfold pos; cbn; lia). assert (P2 : pos (D3 n 1 1)) by (unfold pos; cbn; lia). destruct (HW' RD) as (S3 & S4).
    exact (params_close lr bs w w2 k (c_par c) _ _ w1 b1 wg1 bg1 (fun i => fst (D i)) (fun i => snd (D i)) Hb F1 P1 F2 P2 N1 N2 Q SC S1 S2 S3 S4).
Qed.

(** *** A layer of a network *)
Lemma net_fit_nth : forall j ls ss d (l : layer double) s, net_fit ls ss d -> nth_error ls j = Some l -> nth_error ss j = Some s -> l_fit l s (h_net_out (firstn j ss) d).
Proof.
  induction j as [|j IH]; intros [|l0 ls] [|s0 ss] d l s H N1 N2; try discriminate; destruct H as (H1 & H2); cbn [nth_error firstn h_net_out] in *; [injection N1 as ->; injection N2 as ->; exact H1|].
  eapply IH; eassumption.
Qed.
Lemma net_small_nth : forall w j ls ss d l s, net_small w ls ss d -> nth_error ls j = Some l -> nth_error ss j = Some s -> l_small w l s (h_net_out (firstn j ss) d).
Proof.
  intros w. induction j as [|j IH]; intros [|l0 ls] [|s0 ss] d l s H N1 N2; try discriminate; destruct H as (H1 & H2); cbn [nth_error firstn h_net_out] in *; [injection N1 as ->; injection N2 as ->; exact H1|].
  eapply IH; eassumption.
Qed.
Lemma h_net_ok_nth : forall j ss d s, h_net_ok ss d -> nth_error ss j = Some s -> h_ok s (h_net_out (firstn j ss) d).
Proof.
  induction j as [|j IH]; intros [|s0 ss] d s H N; try discriminate; destruct H as (H1 & H2); cbn [nth_error firstn h_net_out] in *; [injection N as ->; exact H1|].
  apply IH; assumption.
Qed.
Lemma apply_nth : forall lr j ls ls' (l : layer double), apply_all lr ls = ORet ls' tt -> nth_error ls j = Some l -> exists l', nth_error ls' j = Some l' /\ l_apply lr l = ORet l' tt.
Proof.
  intros lr. unfold apply_all. induction j as [|j IH]; intros [|l0 ls] ls' l H N; try discriminate; cbn [each_layer nth_error] in *;
    (destruct (l_apply lr l0) as [l1 []| |] eqn:Q; try discriminate; destruct (each_layer (l_apply lr) ls) as [ls1 []| |] eqn:Q2; try discriminate; cbn [map_out] in H; injection H as <-).
  - injection N as <-. exists l1. auto.
  - apply (IH ls ls1 l Q2 N).
Qed.
Lemma real_net_params : forall ss ls ls' d, net_fit ls ss d -> net_fit ls' ss d -> map params_of ls' = map params_of ls -> real_net ss ls' = real_net ss ls.
Proof.
  induction ss as [|s ss IH]; intros [|l ls] [|l' ls'] d H H' G; cbn in H, H'; try contradiction; [reflexivity|]. destruct H as (H1 & H2). destruct H' as (H1' & H2'). injection G as G1 G2.
  cbn [real_net]. rewrite (IH ls ls' _ H2 H2' G2). f_equal.
  destruct l, s; cbn in H1; try contradiction; destruct l'; cbn in H1'; try contradiction; try reflexivity; cbn in G1; injection G1 as G3 G4; cbn [real_layer]; unfold k_w, k_b, c_w, c_b in *; rewrite G3, G4; reflexivity.
Qed.
Lemma agree_close : forall m i (l l' : layer double) k s d D, 0 <= i -> agree m (Z.to_nat i) l l' -> slot_close k l s d i D -> slot_close k l' s d i D.
Proof.
  intros m i l l' k s d D Hi H HL. destruct H as [? ? ? ? ? ? ? ? ? S1 S2|? ? ? ? ? ? ? S1 S2|? ? ? ? ? S1|?|]; destruct s; cbn in *; auto;
    rewrite <- (slots_vget _ _ _ Hi S1), <- (slots_vget _ _ _ Hi S2); exact HL.
Qed.

(** ** A full batch *)
Lemma find_point : forall {U L A} (h : point U L -> A) z (log : list (entry (U := U) (L := L))) t b p, NoDup (map (fun x => snd (fst x)) log) -> In (t, b, p) log ->
  match find (fun x => snd (fst x) =? b) log with Some x => h (snd x) | None => z end = h p.
Proof.
  intros U L A h z log t b p ND HI. induction log as [|[[t1 b1] p1] log IH]; [contradiction|]. cbn [find fst snd map] in *.
  inversion ND as [|? ? N1 N2]; subst. destruct HI as [HI|HI].
  - injection HI as -> -> ->. rewrite Z.eqb_refl. reflexivity.
  - destruct (Z.eqb_spec b1 b) as [->|NE]; [|apply IH; assumption]. exfalso. apply N1. apply in_map_iff. exists (t, b, p). auto.
Qed.
Lemma mean_slots : forall n l F, NoDup l -> length l = n -> (forall x, In x l -> 0 <= x < Z.of_nat n) -> (rsum (Z.of_nat n) F / IZR (Z.of_nat n))%R = rmean (map F l).
Proof.
  intros n l F ND HL HR. pose proof (slots_perm n l ND HL HR) as PM. unfold rmean. rewrite map_length, HL, <- INR_IZR_INZ. f_equal. rewrite rsum_seq. symmetry. apply sum_perm.
  apply Permutation_map. exact PM.
Qed.
Lemma w_setp : forall s l W B, learns s = true -> s_w (setp (real_layer s l) W B) = W /\ s_b (setp (real_layer s l) W B) = B.
Proof. intros s l W B H. destruct s; try discriminate; destruct l; split; reflexivity. Qed.
Lemma f2_nth : forall {A B} (P : A -> B -> Prop) l l' j a, Forall2 P l l' -> nth_error l j = Some a -> exists b, nth_error l' j = Some b /\ P a b.
Proof. intros A B P l l' j a H. revert j. induction H; intros [|j] N; try discriminate; cbn [nth_error] in *; [injection N as <-; eauto|auto]. Qed.

Section Accurate.
Variable E : env double.
Hypothesis AO : acc_ok E.
Hypothesis CV1 : B2R (e_c01 E) = d01.
Hypothesis ORD : e_moved E = false.
Context {U L : Type} (cast : U -> double) (eqL : L -> L -> bool) (labels : list L).
Local Notation estate := (estate (T := double) (U := U) (L := L)).
Local Notation idx := (label_idx eqL labels).
Local Notation nl := (Z.of_nat (length labels)).

Theorem batch_close : forall m wc bs nt ss d r e w g gi h0 (s : estate) body sm lr o (F : point U L -> fn),
  0 <= wc -> 1 <= bs < two31 -> bs <= Z.of_nat nt * wc -> h_ready ss d nl -> spawn (T := double) (U := U) (L := L) nt 0 wc <> UB ->
  Z.of_nat (length (s_results s)) = bs -> s_layers s = body ++ [LSoft sm] -> set_up labels (s_layers s) ss d bs -> List.Forall ready (s_layers s) ->
  (forall p, In p (s_source s) -> pt_small cast eqL labels d e p) -> bs <= Z.of_nat (length (s_source s)) ->
  within 1 r lr -> 0 <= w -> 0 <= g -> 0 <= e -> batch_lim ss d r e w g -> tame bs ss d w g (all_filled (s_layers s) ss d bs) 0 (s_layers s) ->
  h_net_exp w ss d e <= 49 -> h_net_err w ss d e gi <= -2 -> h_net_fine w ss d e gi -> (prob_err w ss d e gi <= pw h0)%R ->
  (forall p J, In p (firstn (Z.to_nat bs) (s_source s)) -> is_mat (pt_data p) d J ->
    nearby gi d (fun a b c => cast (J a b c)) (F p) /\ net_apart_from m w ss (real_net ss body) d e gi (F p)) ->
  batch E cast eqL labels calm wc bs nt lr s o ->
  exists s' body' sm', o = ORet s' tt /\ s_layers s' = body' ++ [LSoft sm'] /\ length body' = length ss /\
    let rs := real_net ss body in let rs' := real_net ss body' in
    let gs := map (fun p => label_grad rs d (F p) (idx p)) (firstn (Z.to_nat bs) (s_source s)) in
    forall j t, (m <= j)%nat -> nth_error ss j = Some t -> learns t = true ->
    exists k s0 s1 s2, nth_error (h_net_gerr w ss d e gi 0 (Z.max h0 (-52) + 1)) j = Some k /\ nth_error rs j = Some s0 /\ nth_error (sgd (B2R lr) rs gs) j = Some s1 /\ nth_error rs' j = Some s2 /\
      (forall a b c, inb (s_wdim s0 (net_dim rs d j)) a b c ->
        (Rabs (s_w s2 a b c - s_w s1 a b c) <= step_err bs (B2R lr) (s_w s0 a b c) (rmean (map (fun g => Rabs (fst (nth j g nog) a b c)) gs)) k)%R) /\
      (forall a b c, inb (s_bdim s0) a b c ->
        (Rabs (s_b s2 a b c - s_b s1 a b c) <= step_err bs (B2R lr) (s_b s0 a b c) (rmean (map (fun g => Rabs (snd (nth j g nog) a b c)) gs)) k)%R).
Proof.
  intros m wc bs nt ss d r e w g gi h0 s body sm lr o F HW HB CV HR NU RL EL SU RD GP SZ HL Hw Hg He BL TM LE LG FI HE HF H.
  pose proof AO as (EO & _). assert (HB0 : 0 <= bs) by lia. set (g' := g_next ss d e w g) in *.
  destruct (batch_tame_threads E EO ORD cast eqL labels calm wc bs nt ss d r e w g s lr o HW HB CV HR NU RL SU RD GP (or_intror SZ) HL Hw Hg He BL TM H) as (s' & EO' & SU' & _ & _ & _ & _ & TM').
  fold g' in TM'. destruct BL as (LF & LB & L3 & L4 & L5). fold g' in L4, L5.
  inversion H as [pcs gg SP X FN Q|pcs gg t x SP X ST Q|pcs gg t SP X ST Q|ST Q]; clear H; [|rewrite EO' in Q; discriminate..].
  apply exec_texec in X. destruct X as [log X].
  destruct (batch_taken E cast eqL labels wc bs nt s pcs HW HB0 (proj2 HB) SP RL _ _ _ X) as (ND & RG & SRC & TK). destruct (TK FN CV) as [TK1 TK2]. clear TK.
  assert (LL : length log = Z.to_nat bs). { assert (Q0 : length (map snd log) = Z.to_nat bs) by (rewrite TK1; apply firstn_length_le; lia). rewrite map_length in Q0. exact Q0. }
  set (sl := map (fun x : entry (U := U) (L := L) => snd (fst x)) log) in *.
  assert (SLl : length sl = Z.to_nat bs) by (unfold sl; rewrite map_length; exact LL).
  assert (RS : forall x, In x sl -> 0 <= x < Z.of_nat (Z.to_nat bs)).
  { intros x HX. apply in_map_iff in HX. destruct HX as ([[t b] p] & <- & HX). cbn. specialize (RG _ _ _ HX). nia. }
  assert (COV : forall i, 0 <= i < bs -> In i sl).
  { intros i Hi. pose proof (slots_perm _ sl ND SLl RS) as HP. eapply Permutation_in; [apply Permutation_sym; exact HP|]. apply in_map_iff. exists (Z.to_nat i). split; [lia|]. apply in_seq. lia. }
  (* the layers before the update *)
  destruct SU as (body0 & sm0 & EL0 & NF & HC & NS & SO). rewrite EL in EL0. apply app_inj_tail in EL0. destruct EL0 as [<- EL0]. injection EL0 as <-.
  destruct TM as (body0 & sm0 & EL0 & HWs & _). rewrite EL in EL0. apply app_inj_tail in EL0. destruct EL0 as [<- EL0]. injection EL0 as <-.
  pose proof (batch_agree E cast eqL labels wc bs nt s pcs HW HB0 (proj2 HB) SP RL RD _ _ _ X) as AG.
  rewrite EL in AG. apply agreeL_sym in AG. destruct (agreeL_split _ _ _ _ AG) as (bodyg & smg & EG & _ & AF).
  pose proof (fit_agree _ _ _ _ _ AF NF) as NFg.
  assert (NSg : List.Forall (nslots bs) bodyg) by (eapply Forall_agree; [|exact AF|exact NS]; intros l l' AA; apply (agree_nslots _ _ _ _ _ AA)).
  assert (RDb : List.Forall ready body) by (rewrite EL in RD; apply Forall_app in RD; apply RD).
  (* after the update *)
  destruct (apply_all lr (g_layers gg)) as [lsn []| |] eqn:EA; [|rewrite EO' in Q; discriminate..]. rewrite EO' in Q. cbn [map_out] in Q. injection Q as EQs.
  destruct SU' as (body' & sm' & EL' & NF' & _). destruct TM' as (body1 & sm1 & EL1 & HWs' & HSl'). rewrite EL' in EL1. apply app_inj_tail in EL1. destruct EL1 as [<- _].
  assert (ELn : lsn = body' ++ [LSoft sm']) by (rewrite <- EL', <- EQs; reflexivity). subst lsn.
  exists s', body', sm'. split; [cbn [map_out]; rewrite EQs; reflexivity|]. split; [exact EL'|]. split; [apply net_fit_length with (1 := NF')|]. cbv zeta. set (rs := real_net ss body) in *.
  set (h := fun p => label_grad rs d (F p) (idx p)).
  set (D := fun i => match find (fun x : entry (U := U) (L := L) => snd (fst x) =? i) log with Some x => h (snd x) | None => [] end).
  pose proof (net_fit_length _ _ _ NF) as LB0. pose proof (net_fit_length _ _ _ NFg) as LBg. pose proof (net_fit_length _ _ _ NF') as LB'.
  intros j t LJ Ht LN.
  destruct (nth_error body j) as [l|] eqn:Hl. 2:{ exfalso. apply nth_error_None in Hl. assert (nth_error ss j <> None) by congruence. apply nth_error_Some in H. lia. }
  destruct (f2_nth _ _ _ _ _ AF Hl) as (lg & Hlg & AGl).
  destruct (apply_nth lr j (g_layers gg) _ lg EA) as (l' & Hl' & EAl). { rewrite EG, nth_error_app1; [exact Hlg|]. apply nth_error_Some. congruence. }
  assert (Hl2 : nth_error body' j = Some l'). { rewrite nth_error_app1 in Hl'; [exact Hl'|]. assert (nth_error ss j <> None) by congruence. apply nth_error_Some in H. lia. }
  assert (Hrs : nth_error rs j = Some (real_layer t l)).
  { unfold rs. clear - Ht Hl. revert j body Ht Hl. induction ss as [|s0 ss0 IH]; intros [|j] [|l0 b0] Ht Hl; try discriminate; cbn in *; [congruence|eauto]. }
  assert (Hrs' : nth_error (real_net ss body') j = Some (real_layer t l')).
  { clear - Ht Hl2. revert j body' Ht Hl2. induction ss as [|s0 ss0 IH]; intros [|j] [|l0 b0] Ht Hl; try discriminate; cbn in *; [congruence|eauto]. }
  assert (ERg : real_layer t lg = real_layer t l) by (clear - AGl; destruct AGl; destruct t; reflexivity).
  (* the gradients in the slots *)
  assert (CL : exists k, nth_error (h_net_gerr w ss d e gi 0 (Z.max h0 (-52) + 1)) j = Some k /\ forall i, 0 <= i < bs -> slot_close k lg t (h_net_out (firstn j ss) d) i (nth j (D i) nog)).
  { assert (ALL : forall i, 0 <= i < bs -> exists k, nth_error (h_net_gerr w ss d e gi 0 (Z.max h0 (-52) + 1)) j = Some k /\ slot_close k lg t (h_net_out (firstn j ss) d) i (nth j (D i) nog)).
    { intros i Hi. pose proof (COV i Hi) as IS. apply in_map_iff in IS. destruct IS as ([[t1 b] p] & HEq & HI). cbn in HEq. subst b.
      assert (ED : D i = h p) by (unfold D; eapply (find_point h []); eassumption). rewrite ED.
      assert (HP : In p (firstn (Z.to_nat bs) (s_source s))) by (rewrite <- TK1; apply in_map_iff; exists (t1, i, p); auto).
      assert (HP2 : In p (s_source s)) by (rewrite SRC; apply in_or_app; left; apply in_map_iff; exists (t1, i, p); auto).
      destruct (GP p HP2) as ((J & HJ & BJ) & HK). destruct (HF p J HP HJ) as (CJ & AP).
      destruct (batch_own_agree E cast eqL labels wc bs nt s pcs HW HB0 (proj2 HB) SP RL RD _ _ X FN _ _ _ HI) as (ls1 & r1 & ls2 & r2 & EF & EB & _ & AGi & _). rewrite EL in EF.
      pose proof HR as (OK & BK & Z1 & Z2 & Z3). destruct (h_net_end _ _ OK) as [Po Fo]. set (dd := h_net_out ss d) in *. assert (DD : dd = D3 (dx dd) (dy dd) (dz dd)) by (destruct dd; reflexivity).
      destruct (idx_of_inb (dx dd) (dy dd) (dz dd) (idx p)) as [I1 I2]; [unfold pos in Po; lia|unfold pos in Po; lia|unfold vol in Z3; lia|]. rewrite <- DD in I1, I2.
      set (y := idx_of (dx dd) (dy dd) (idx p)) in *.
      assert (FK : forall b1 s1 r0, forward_pass E cast nl (pt_data p) i (body ++ [LSoft sm]) = ORet (b1 ++ [LSoft s1]) r0 -> net_fit b1 ss d -> real_net ss b1 = rs).
      { intros b1 s1 r0 Q0 N1. assert (RD2 : List.Forall ready (body ++ [LSoft sm])) by (rewrite <- EL; exact RD). pose proof (forward_keeps E U cast nl (pt_data p) i _ RD2) as KP. rewrite Q0 in KP. destruct KP as (KP & _).
        rewrite !map_app in KP. apply app_inj_tail in KP. apply real_net_params with d; [exact NF|exact N1|apply KP]. }
      assert (IX : List.Forall (fun l => index_slot l i) body) by (eapply Forall_impl; [intros l0; apply slot_index|exact (SO i Hi)]).
      assert (FT : forall b1 s1 r0, forward_pass E cast nl (pt_data p) i (body ++ [LSoft sm]) = ORet (b1 ++ [LSoft s1]) r0 -> net_fit b1 ss d).
      { intros b1 s1 r0 Q0. destruct (forward_total E body sm ss d nl i U cast (pt_data p) NF HC IX OK (conj Z1 (conj Z2 Z3)) (is_has _ _ _ HJ)) as (b2 & x0 & rs0 & q & r3 & EF3 & _ & _ & _ & _ & _ & T1 & _).
        rewrite Q0 in EF3. injection EF3 as EQ _. apply app_inj_tail in EQ. destruct EQ as [-> _]. exact T1. }
      destruct (passes_close_from E AO CV1 ORD m w body sm ss d nl i (dx y) (dy y) (dz y) e gi h0 U cast (pt_data p) J (F p) NF HC (SO i Hi) HR HJ BJ CJ HWs Hw He LF LE LG FI LB HE I1)
        as (b1 & r3 & b2 & r4 & EF3 & EB3 & LB1 & _ & NC).
      { intros b1 s1 r0 Q0. rewrite (FK _ _ _ Q0 (FT _ _ _ Q0)). exact AP. }
      pose proof (FK _ _ _ EF3 (FT _ _ _ EF3)) as ER. rewrite ER in NC. rewrite EF in EF3. injection EF3 as -> ->. fold dd in EB3. rewrite I2 in EB3. rewrite EB in EB3. injection EB3 as -> _.
      apply agreeL_sym in AGi. destruct (agreeL_split _ _ _ _ AGi) as (bg2 & sm3 & EG2 & _ & AF2). rewrite EG in EG2. apply app_inj_tail in EG2. destruct EG2 as [<- _].
      assert (OUT : net_out rs d = dd) by (apply real_out_net; exact LB0).
      unfold h, label_grad. rewrite OUT. fold y. set (Gr := net_grads rs d (F p) (out_grad dd (net_sem rs d (F p)) (dx y) (dy y) (dz y))) in *.
      destruct (nth_error Gr j) as [Dj|] eqn:NG. 2:{ exfalso. apply nth_error_None in NG. unfold Gr in NG. rewrite grads_length in NG. apply nth_error_None in NG. congruence. }
      destruct (net_close_from_nth _ _ _ _ _ _ _ _ _ NC LJ NG) as (k & l2 & t2 & K1 & K2 & K3 & SC). rewrite Ht in K3. injection K3 as <-.
      exists k. split; [exact K1|]. rewrite (nth_error_nth _ _ nog NG).
      destruct (f2_nth _ _ _ _ _ AF2 K2) as (l3 & N3 & A3). rewrite Hlg in N3. injection N3 as <-. eapply agree_close; [lia|exact A3|exact SC]. }
    destruct (ALL 0 ltac:(lia)) as (k & K1 & _). exists k. split; [exact K1|]. intros i Hi. destruct (ALL i Hi) as (k2 & K2 & SC). rewrite K1 in K2. injection K2 as <-. exact SC. }
  destruct CL as (k & K1 & CL). exists k. eexists. eexists. eexists. split; [exact K1|]. split; [exact Hrs|]. split; [apply sgd_nth; exact Hrs|]. split; [exact Hrs'|].
  destruct (w_setp t l (fun x y z => (s_w (real_layer t l) x y z - B2R lr * rmean (map (fun gs => fst (nth j gs nog) x y z) (map h (firstn (Z.to_nat bs) (s_source s)))))%R)
      (fun x y z => (s_b (real_layer t l) x y z - B2R lr * rmean (map (fun gs => snd (nth j gs nog) x y z) (map h (firstn (Z.to_nat bs) (s_source s)))))%R) LN) as (-> & ->).
  assert (MS : forall f : list (fn * fn) -> R, rmean (map f (map h (firstn (Z.to_nat bs) (s_source s)))) = (rsum bs (fun i => f (D i)) / IZR bs)%R).
  { intros f. rewrite <- (Z2Nat.id bs) at 2 3 by lia. rewrite (mean_slots _ sl (fun i => f (D i)) ND SLl RS). rewrite <- TK1. unfold sl. rewrite !map_map. f_equal. apply map_ext_in.
    intros [[t1 b] p] HI. cbn [fst snd]. f_equal. symmetry. unfold D. eapply (find_point h []); eassumption. }
  assert (LW : l_small w lg t (h_net_out (firstn j ss) d)).
  { assert (Q0 : l_small w l t (h_net_out (firstn j ss) d)) by (eapply net_small_nth; eassumption). clear - AGl Q0. destruct AGl; exact Q0. }
  assert (RDg : ready lg) by (clear - AGl; destruct AGl; cbn; auto).
  destruct (apply_close lr bs w (w_next w r g') k lg l' t (h_net_out (firstn j ss) d) (fun i => nth j (D i) nog) ltac:(unfold two31 in HB; lia)) as (C1 & C2).
  - eapply net_fit_nth; eassumption.
  - exact RDg.
  - apply h_net_ok_nth; [apply HR|exact Ht].
  - rewrite Forall_forall in NSg. apply NSg. eapply nth_error_In. exact Hlg.
  - exact LN.
  - exact EAl.
  - exact CL.
  - exact LW.
  - eapply net_small_nth; eassumption.
  - rewrite ERg in C1, C2. destruct (real_wdim t l (net_dim rs d j)) as (WD & BD). rewrite WD, BD. unfold rs at 1. rewrite (real_dim ss body d j LB0).
    split; intros a b c Ia; cbv beta; [rewrite (MS (fun gs => fst (nth j gs nog) a b c)), (MS (fun gs => Rabs (fst (nth j gs nog) a b c))); apply C1; exact Ia|].
    rewrite (MS (fun gs => snd (nth j gs nog) a b c)), (MS (fun gs => Rabs (snd (nth j gs nog) a b c))). apply C2. exact Ia.
Qed.

(** The same with the derivatives of the loss; [F p] is the exact image of the data point [p]. *)
Theorem batch_descends : forall m wc bs nt ss d r e w g gi h0 (s : estate) body sm lr o (F : point U L -> fn),
  0 <= wc -> 1 <= bs < two31 -> bs <= Z.of_nat nt * wc -> h_ready ss d nl -> List.Forall plain (skipn m ss) -> spawn (T := double) (U := U) (L := L) nt 0 wc <> UB ->
  Z.of_nat (length (s_results s)) = bs -> s_layers s = body ++ [LSoft sm] -> set_up labels (s_layers s) ss d bs -> List.Forall ready (s_layers s) ->
  (forall p, In p (s_source s) -> pt_small cast eqL labels d e p) -> bs <= Z.of_nat (length (s_source s)) ->
  within 1 r lr -> 0 <= w -> 0 <= g -> 0 <= e -> batch_lim ss d r e w g -> tame bs ss d w g (all_filled (s_layers s) ss d bs) 0 (s_layers s) ->
  h_net_exp w ss d e <= 49 -> h_net_err w ss d e gi <= -2 -> h_net_fine w ss d e gi -> (prob_err w ss d e gi <= pw h0)%R ->
  (forall p J, In p (firstn (Z.to_nat bs) (s_source s)) -> is_mat (pt_data p) d J ->
    nearby gi d (fun a b c => cast (J a b c)) (F p) /\ net_apart_from m w ss (real_net ss body) d e gi (F p)) ->
  batch E cast eqL labels calm wc bs nt lr s o ->
  exists s' body' sm', o = ORet s' tt /\ s_layers s' = body' ++ [LSoft sm'] /\
    let rs := real_net ss body in let rs' := real_net ss body' in let dd := h_net_out ss d in let ps := firstn (Z.to_nat bs) (s_source s) in
    forall j t, (m <= j)%nat -> nth_error ss j = Some t -> learns t = true ->
    exists k s0 s2, nth_error (h_net_gerr w ss d e gi 0 (Z.max h0 (-52) + 1)) j = Some k /\ nth_error rs j = Some s0 /\ nth_error rs' j = Some s2 /\
      (forall a b c, inb (s_wdim s0 (net_dim rs d j)) a b c -> exists D,
        (forall p y1 y2 y3, In p ps -> inb dd y1 y2 y3 -> lin dd y1 y2 y3 = idx p ->
          is_derive (fun x => nll dd (net_sem (upd rs j (setw s0 (fupd (s_w s0) a b c x))) d (F p)) y1 y2 y3) (s_w s0 a b c) (D p)) /\
        (Rabs (s_w s2 a b c - (s_w s0 a b c - B2R lr * rmean (map D ps))) <= step_err bs (B2R lr) (s_w s0 a b c) (rmean (map (fun p => Rabs (D p)) ps)) k)%R) /\
      (forall a b c, inb (s_bdim s0) a b c -> exists D,
        (forall p y1 y2 y3, In p ps -> inb dd y1 y2 y3 -> lin dd y1 y2 y3 = idx p ->
          is_derive (fun x => nll dd (net_sem (upd rs j (setb s0 (fupd (s_b s0) a b c x))) d (F p)) y1 y2 y3) (s_b s0 a b c) (D p)) /\
        (Rabs (s_b s2 a b c - (s_b s0 a b c - B2R lr * rmean (map D ps))) <= step_err bs (B2R lr) (s_b s0 a b c) (rmean (map (fun p => Rabs (D p)) ps)) k)%R).
Proof.
  intros m wc bs nt ss d r e w g gi h0 s body sm lr o F HW HB CV HR PL NU RL EL SU RD GP SZ HL Hw Hg He BL TM LE LG FI HE HF H.
  destruct (batch_close m wc bs nt ss d r e w g gi h0 s body sm lr o F HW HB CV HR NU RL EL SU RD GP SZ HL Hw Hg He BL TM LE LG FI HE HF H) as (s' & body' & sm' & EO & EL' & _ & C).
  exists s', body', sm'. split; [exact EO|]. split; [exact EL'|]. cbv zeta in C |- *. set (rs := real_net ss body) in *. set (dd := h_net_out ss d) in *. set (ps := firstn (Z.to_nat bs) (s_source s)) in *.
  intros j t LJ Ht LN. destruct (C j t LJ Ht LN) as (k & s0 & s1 & s2 & K & N0 & N1 & N2 & CW & CB). exists k, s0, s2. split; [exact K|]. split; [exact N0|]. split; [exact N2|].
  destruct SU as (body0 & sm0 & EL0 & NF & _). rewrite EL in EL0. apply app_inj_tail in EL0. destruct EL0 as [<- _]. pose proof (net_fit_length _ _ _ NF) as LB.
  destruct HR as (OK & _ & _). assert (NO : net_ok rs d) by (apply real_net_ok; [exact OK|exact LB]). assert (ED : net_out rs d = dd) by (apply real_out_net; exact LB).
  destruct (real_net_nth _ _ _ _ N0) as (t0 & l0 & T0 & _ & ES). rewrite Ht in T0. injection T0 as <-.
  rewrite (sgd_nth _ _ _ _ _ N0) in N1. injection N1 as <-. rewrite ES in CW, CB. rewrite !(proj1 (w_setp t l0 _ _ LN)) in CW. rewrite !(proj2 (w_setp t l0 _ _ LN)) in CB. rewrite <- ES in CW, CB.
  assert (GR : forall p y1 y2 y3, In p ps -> inb dd y1 y2 y3 -> lin dd y1 y2 y3 = idx p -> exists g0, nth j (label_grad rs d (F p) (idx p)) nog = g0 /\
    (forall a b c, inb (s_wdim s0 (net_dim rs d j)) a b c -> is_derive (fun x => nll dd (net_sem (upd rs j (setw s0 (fupd (s_w s0) a b c x))) d (F p)) y1 y2 y3) (s_w s0 a b c) (fst g0 a b c)) /\
    (forall a b c, inb (s_bdim s0) a b c -> is_derive (fun x => nll dd (net_sem (upd rs j (setb s0 (fupd (s_b s0) a b c x))) d (F p)) y1 y2 y3) (s_b s0 a b c) (snd g0 a b c))).
  { intros p y1 y2 y3 HP HY HI. destruct (GP p) as ((J & HJ & _) & _). { unfold ps in HP. rewrite <- (firstn_skipn (Z.to_nat bs) (s_source s)). apply in_or_app. auto. }
    destruct (HF p J HP HJ) as (_ & AP). assert (SM : net_smooth_from m rs d (F p)) by (apply net_apart_from_smooth with w e gi; assumption).
    assert (EY : idx_of (dx dd) (dy dd) (idx p) = D3 y1 y2 y3) by (rewrite <- HI; destruct dd; apply idx_of_lin; exact HY).
    unfold label_grad. rewrite ED, EY. cbn [dx dy dz].
    destruct (nth_error (net_grads rs d (F p) (out_grad dd (net_sem rs d (F p)) y1 y2 y3)) j) as [g0|] eqn:NG. 2:{ exfalso. apply nth_error_None in NG. rewrite grads_length in NG. apply nth_error_None in NG. congruence. }
    exists g0. split; [apply nth_error_nth; exact NG|]. rewrite <- ED in HY, NG |- *. apply (grad_derive_from m rs d (F p) j s0 g0 y1 y2 y3 NO SM HY LJ N0 NG). }
  split; intros a b c Ia.
  - exists (fun p => fst (nth j (label_grad rs d (F p) (idx p)) nog) a b c). split.
    + intros p y1 y2 y3 HP HY HI. destruct (GR p y1 y2 y3 HP HY HI) as (g0 & -> & DW & _). apply DW. exact Ia.
    + specialize (CW a b c Ia). rewrite !map_map in CW. exact CW.
  - exists (fun p => snd (nth j (label_grad rs d (F p) (idx p)) nog) a b c). split.
    + intros p y1 y2 y3 HP HY HI. destruct (GR p y1 y2 y3 HP HY HI) as (g0 & -> & _ & DB). apply DB. exact Ia.
    + specialize (CB a b c Ia). rewrite !map_map in CB. exact CB.
Qed.
End Accurate.

(** ** The network of main.cpp: a batch whose parameters are at most 1 and whose learning rate is at most 1 *)
Lemma main_prob : (prob_err 0 main_shapes main_d 8 (-60) <= pw (-15))%R.
Proof.
  unfold prob_err, main_d. change (h_net_out main_shapes (D3 28 28 1)) with (D3 10 1 1).
  change (h_net_err 0 main_shapes (D3 28 28 1) 8 (-60)) with (-18). change (h_net_exp 0 main_shapes (D3 28 28 1) 8) with 12.
  change (-18 + 2) with (-16). change (12 - 50) with (-38). change (vol (D3 10 1 1) + 3) with 13.
  assert (A1 : (pw (-38) <= pw (-18))%R) by (apply bpow_le; lia). assert (A2 : (13 * pw (-51) <= pw (-18))%R).
  { apply Rle_trans with (16 * pw (-51))%R; [pose proof (pw_pos (-51)); lra|]. change 16%R with (pw 4). rewrite pw_mul. apply bpow_le. lia. }
  assert (A3 : (pw (-25) <= pw (-18))%R) by (apply bpow_le; lia). pose proof (pw_pos (-18)).
  assert (A4 : (pw (-16) = 4 * pw (-18))%R) by (change 4%R with (pw 2); rewrite pw_mul; reflexivity).
  assert (A5 : (pw (-15) = 8 * pw (-18))%R) by (change 8%R with (pw 3); rewrite pw_mul; reflexivity). lra.
Qed.
Theorem main_step : forall E, acc_ok E -> B2R (e_c01 E) = d01 -> e_moved E = false -> forall U L (cast : U -> double) (eqL : L -> L -> bool) labels,
  length labels = 10%nat -> forall wc bs nt (s : estate (U := U) (L := L)) body sm lr g o (F : point U L -> fn),
  0 <= wc -> 1 <= bs < two31 -> bs <= Z.of_nat nt * wc -> spawn (T := double) (U := U) (L := L) nt 0 wc <> UB -> Z.of_nat (length (s_results s)) = bs ->
  s_layers s = body ++ [LSoft sm] -> set_up labels (s_layers s) main_shapes main_d bs -> List.Forall ready (s_layers s) ->
  (forall p, In p (s_source s) -> pt_small cast eqL labels main_d 8 p) -> bs <= Z.of_nat (length (s_source s)) -> within 1 0 lr -> 0 <= g <= 900 ->
  tame bs main_shapes main_d 0 g (all_filled (s_layers s) main_shapes main_d bs) 0 (s_layers s) ->
  (forall p J a b c, In p (s_source s) -> is_mat (pt_data p) main_d J -> inb main_d a b c -> F p a b c = B2R (cast (J a b c))) ->
  batch E cast eqL labels calm wc bs nt lr s o ->
  exists s' body' sm' s0 s2, o = ORet s' tt /\ s_layers s' = body' ++ [LSoft sm'] /\ nth_error (real_net main_shapes body) 6 = Some s0 /\ nth_error (real_net main_shapes body') 6 = Some s2 /\
    let rs := real_net main_shapes body in let ps := firstn (Z.to_nat bs) (s_source s) in
    (forall a b, 0 <= a < 10 -> 0 <= b < 100 -> exists D,
      (forall p, In p ps -> is_derive (fun x => nll (D3 10 1 1) (net_sem (upd rs 6 (setw s0 (fupd (s_w s0) a b 0 x))) main_d (F p)) (label_idx eqL labels p) 0 0) (s_w s0 a b 0%Z) (D p)) /\
      (Rabs (s_w s2 a b 0%Z - (s_w s0 a b 0%Z - B2R lr * rmean (map D ps))) <= step_err bs (B2R lr) (s_w s0 a b 0%Z) (rmean (map (fun p => Rabs (D p)) ps)) (-6))%R) /\
    (forall a, 0 <= a < 10 -> exists D,
      (forall p, In p ps -> is_derive (fun x => nll (D3 10 1 1) (net_sem (upd rs 6 (setb s0 (fupd (s_b s0) a 0 0 x))) main_d (F p)) (label_idx eqL labels p) 0 0) (s_b s0 a 0%Z 0%Z) (D p)) /\
      (Rabs (s_b s2 a 0%Z 0%Z - (s_b s0 a 0%Z 0%Z - B2R lr * rmean (map D ps))) <= step_err bs (B2R lr) (s_b s0 a 0%Z 0%Z) (rmean (map (fun p => Rabs (D p)) ps)) (-6))%R).
Proof.
  intros E AO CV1 ORD U L cast eqL labels NL wc bs nt s body sm lr g o F HW HB CV NU RL EL SU RD GP SZ HL Hg TM HF H.
  assert (HR : h_ready main_shapes main_d (Z.of_nat (length labels))) by (rewrite NL; exact main_fits).
  assert (SUB : forall p, In p (firstn (Z.to_nat bs) (s_source s)) -> In p (s_source s)) by (intros p HP; rewrite <- (firstn_skipn (Z.to_nat bs) (s_source s)); apply in_or_app; auto).
  assert (BL : batch_lim main_shapes main_d 0 8 0 g).
  { unfold batch_lim, w_next, g_next. assert (LG : h_net_gexp 0 main_shapes main_d 8 0 = 48) by reflexivity. rewrite LG. split; [vm_compute; intuition congruence|]. split; [vm_compute; intuition congruence|]. lia. }
  assert (Q1 : h_net_exp 0 main_shapes main_d 8 <= 49) by (vm_compute; congruence). assert (Q2 : h_net_err 0 main_shapes main_d 8 (-60) <= -2) by (vm_compute; congruence).
  assert (Q3 : h_net_fine 0 main_shapes main_d 8 (-60)) by (vm_compute; intuition congruence).
  destruct (batch_descends E AO CV1 ORD cast eqL labels 6 wc bs nt main_shapes main_d 0 8 0 g (-60) (-15) s body sm lr o F HW HB CV HR ltac:(repeat constructor) NU RL EL SU RD GP SZ HL
    ltac:(lia) ltac:(lia) ltac:(lia) BL TM Q1 Q2 Q3 main_prob) as (s' & body' & sm' & EO & EL' & C).
  - intros p J HP HJ. split.
    + intros a b c Ia. rewrite (HF p J a b c (SUB p HP) HJ Ia). rewrite Rminus_diag_eq, Rabs_R0 by reflexivity. left. apply pw_pos.
    + unfold main_shapes. do 7 (destruct body as [|? body]; [exact Logic.I|]). cbn [real_net net_apart_from net_apart apart]. auto.
  - exact H.
  - cbv zeta in C. destruct (C 6%nat (HConn 10) ltac:(lia) eq_refl eq_refl) as (k & s0 & s2 & K & N0 & N2 & CW & CB). exists s', body', sm', s0, s2.
    split; [exact EO|]. split; [exact EL'|]. split; [exact N0|]. split; [exact N2|]. cbv zeta. vm_compute in K. injection K as <-.
    destruct SU as (body0 & sm0 & EL0 & NF & _). rewrite EL in EL0. apply app_inj_tail in EL0. destruct EL0 as [<- _]. pose proof (net_fit_length _ _ _ NF) as LB.
    assert (DM : net_dim (real_net main_shapes body) main_d 6 = D3 5 5 4) by (rewrite real_dim by exact LB; reflexivity). rewrite DM in CW.
    destruct (real_net_nth _ _ _ _ N0) as (t0 & l0 & M1 & _ & ES). injection M1 as <-.
    destruct (real_wdim (HConn 10) l0 (D3 5 5 4)) as (WD & BD). rewrite <- ES in WD, BD. rewrite WD in CW. rewrite BD in CB. cbn [h_wdim h_bdim] in *. change (vol (D3 5 5 4)) with 100 in *.
    change (h_net_out main_shapes main_d) with (D3 10 1 1) in *.
    assert (LY : forall p, In p (firstn (Z.to_nat bs) (s_source s)) -> inb (D3 10 1 1) (label_idx eqL labels p) 0 0 /\ lin (D3 10 1 1) (label_idx eqL labels p) 0 0 = label_idx eqL labels p).
    { intros p HP. destruct (GP p (SUB p HP)) as (_ & HI). rewrite NL in HI. unfold inb, lin. cbn [dx dy dz]. lia. }
    split.
    + intros a b Ha Hb. destruct (CW a b 0) as (D & D1 & D2); [unfold inb; cbn [dx dy dz]; lia|]. exists D. split; [|exact D2]. intros p HP. destruct (LY p HP) as (L1 & L2). exact (D1 p _ _ _ HP L1 L2).
    + intros a Ha. destruct (CB a 0 0) as (D & D1 & D2); [unfold inb; cbn [dx dy dz]; lia|]. exists D. split; [|exact D2]. intros p HP. destruct (LY p HP) as (L1 & L2). exact (D1 p _ _ _ HP L1 L2).
Qed.

(** With one thread there is a run of a batch, and all of them keep the hand-overs of the labels apart. *)
Lemma single_total : forall {T} {N : Num T} (E : env T) {U L} (cast : U -> T) (eqL : L -> L -> bool) labels wc bs lr (e : estate (T := T) (U := U) (L := L)),
  0 <= wc -> 0 <= bs < two31 -> Z.of_nat (length (s_results e)) = bs -> exists o, batch E cast eqL labels calm wc bs 1 lr e o.
Proof.
  intros T N E U L cast eqL labels wc bs lr e HW [HB HB2] RL. destruct (batch_total E cast eqL labels wc bs 1 lr e HW HB HB2 RL) as [o H]. exists o.
  destruct H as [pcs g SP X F|pcs g t x SP X ST|pcs g t SP X ST|SP]; [eapply batch_done|eapply batch_stop|eapply batch_ub|apply batch_overflow]; try eassumption;
    (eapply single_calm; [|exact HW|exact HB|exact HB2|exact SP|exact RL|exact X]; lia).
Qed.

(** ** A batch for which everything is satisfied: the network of [two_derive] with all parameters 0, and one data point *)
Definition two_ready : list (layer double) :=
  [LAct (a_make Relu); LConn (Conn (Par (Mat (D3 2 2 1) [n0; n0; n0; n0]) (Mat (D3 2 1 1) [n0; n0]) [mat_empty] [mat_empty]) (D3 2 1 1) true)].
Definition two_state : estate (T := double) (U := double) (L := Z) :=
  Est (two_ready ++ [LSoft (sm_make 2)]) [Point (mk_mat (D3 2 1 1) (fun x _ _ => two_image x)) 1] [None] 0.
Lemma two_step : let E := d_env (fun _ => 0) in let F := fun x y z : Z => B2R (two_image x) in let rs := real_net two_shapes two_ready in
  exists s' body' sm' s0 s2, batch E (fun v => v) Z.eqb [0; 1] calm 1 1 1 n1 two_state (ORet s' tt) /\ s_layers s' = body' ++ [LSoft sm'] /\
    nth_error rs 1 = Some s0 /\ nth_error (real_net two_shapes body') 1 = Some s2 /\
    forall a b, 0 <= a < 2 -> 0 <= b < 2 -> exists D,
      is_derive (fun t => nll (D3 2 1 1) (net_sem (upd rs 1 (setw s0 (fupd (s_w s0) a b 0 t))) (D3 2 1 1) F) 1 0 0) 0%R D /\
      (Rabs (s_w s2 a b 0%Z - (0 - D)) <= step_err 1 1 0 (Rabs D) (-20))%R.
Proof.
  intros E F rs. assert (I1 : B2R (two_image 0) = 1%R) by (cbn; rewrite <- (proj2 one_ok); reflexivity).
  assert (I2 : B2R (two_image 1) = (-1)%R).
  { cbn. change (bpow radix2 (-52)) with (/ IZR (2 ^ 52))%R. change (2 ^ 52) with 4503599627370496. change (F2R _) with (IZR (-4503599627370496) * (/ IZR 4503599627370496))%R. field. }
  assert (FD : fits (D3 2 1 1)) by (vm_compute; intuition congruence). assert (FD2 : fits (D3 2 2 1)) by (vm_compute; intuition congruence).
  assert (Hv : forall x y z, inb (D3 2 1 1) x y z -> x = 0 \/ x = 1) by (intros x y z (X & Y & Z'); cbn in X; lia).
  assert (Z2 : is_mat (Mat (D3 2 1 1) [n0; n0]) (D3 2 1 1) (fun _ _ _ => n0 : double)) by apply (mk_mat_ok (D3 2 1 1) (fun _ _ _ => n0 : double) FD).
  assert (Z4 : is_mat (Mat (D3 2 2 1) [n0; n0; n0; n0]) (D3 2 2 1) (fun _ _ _ => n0 : double)) by apply (mk_mat_ok (D3 2 2 1) (fun _ _ _ => n0 : double) FD2).
  assert (W0 : within 1 0 (n0 : double)) by (split; [reflexivity|]; cbn; rewrite Rabs_R0; lra).
  assert (NF : net_fit two_ready two_shapes (D3 2 1 1)).
  { cbn. split; [auto|]. split; [|exact Logic.I]. left. split; [|reflexivity]. exists (fun _ _ _ => n0), (fun _ _ _ => n0). split; [reflexivity|]. split; [exact Z4|]. split; [exact Z2|]. split; [lia|]. split; [lia|]. split; assumption. }
  assert (SU : set_up [0; 1] (s_layers two_state) two_shapes (D3 2 1 1) 1).
  { exists two_ready, (sm_make 2). split; [reflexivity|]. split; [exact NF|]. split; [reflexivity|]. split; [repeat constructor|]. intros i Hi. repeat constructor; cbn; lia. }
  destruct (single_total E (fun v : double => v) Z.eqb [0; 1] 1 1 n1 two_state) as [o HB]; [lia|unfold two31; lia|reflexivity|].
  assert (LE : h_net_exp 0 two_shapes (D3 2 1 1) 0 <= 49) by (vm_compute; congruence).
  destruct (batch_descends E (d_env_acc (fun _ => 0) ltac:(intros; lia)) c_01_val eq_refl (fun v : double => v) Z.eqb [0; 1] 0 1 1 1 two_shapes (D3 2 1 1) 0 0 0 0 (-60) (-24) two_state two_ready (sm_make 2) n1 o (fun _ => F))
    as (s' & body' & sm' & EO & EL & C).
  - lia.
  - unfold two31. lia.
  - lia.
  - unfold h_ready, two_shapes. cbn [h_net_ok h_net_bkc h_net_bk h_net_out h_out dx dy dz]. unfold h_ok, h_bk, labels_ok, pos, fits, vol, two31. cbn [dx dy dz length]. lia.
  - repeat constructor.
  - vm_compute. discriminate.
  - reflexivity.
  - reflexivity.
  - exact SU.
  - repeat constructor.
  - intros p [<-|[]]. split; [|cbn; lia]. exists (fun x _ _ => two_image x). split; [apply mk_mat_ok; exact FD|].
    intros a b c Ia. destruct (Hv _ _ _ Ia) as [-> | ->]; (split; [reflexivity|]); rewrite ?I1, ?I2; unfold Rabs; destruct (Rcase_abs _); cbn; lra.
  - cbn. lia.
  - split; [reflexivity|]. rewrite (proj2 one_ok), Rabs_R1. cbn. lra.
  - lia.
  - lia.
  - lia.
  - vm_compute. intuition congruence.
  - exists two_ready, (sm_make 2). split; [reflexivity|]. split.
    + cbn. split; [exact Logic.I|]. split; [|exact Logic.I]. intros _. split; eexists; (split; [eassumption|]); intros; exact W0.
    + intros i Hi [(b & q & EQ & NFi)|Hb]; [|lia]. exfalso. apply (app_inj_tail two_ready b (LSoft (sm_make 2)) (LSoft q)) in EQ. destruct EQ as [<- _].
      destruct (NFi 0 ltac:(lia)) as (_ & (gw & gb & G1 & G2 & _) & _). injection G1 as <-. destruct G2 as (G2 & _). discriminate G2.
  - exact LE.
  - vm_compute. congruence.
  - vm_compute. intuition congruence.
  - unfold prob_err. assert (A1 : (pw (h_net_err 0 two_shapes (D3 2 1 1) 0 (-60) + 2) <= pw (-27))%R) by (apply bpow_le; vm_compute; congruence).
    assert (A2 : (pw (h_net_exp 0 two_shapes (D3 2 1 1) 0 - 50) <= pw (-27))%R) by (apply bpow_le; vm_compute; congruence).
    assert (A3 : (IZR (vol (h_net_out two_shapes (D3 2 1 1)) + 3) * pw (-51) <= 8 * pw (-51))%R) by (apply Rmult_le_compat_r; [left; apply pw_pos|apply IZR_le; vm_compute; congruence]).
    assert (A4 : (8 * pw (-51) = pw (-48))%R) by (change 8%R with (pw 3); rewrite pw_mul; reflexivity). assert (A5 : (pw (-48) <= pw (-27))%R) by (apply bpow_le; lia).
    assert (A6 : (pw (-25) = 4 * pw (-27))%R) by (change 4%R with (pw 2); rewrite pw_mul; reflexivity). assert (A7 : (pw (-24) = 8 * pw (-27))%R) by (change 8%R with (pw 3); rewrite pw_mul; reflexivity).
    pose proof (pw_pos (-27)). lra.
  - intros p J [<-|[]] HJ. assert (HJ2 : forall a b c, inb (D3 2 1 1) a b c -> J a b c = two_image a).
    { intros a b c Ia. destruct HJ as (_ & _ & K1). destruct (mk_mat_ok (D3 2 1 1) (fun x _ _ => two_image x) FD) as (_ & _ & K2). specialize (K1 a b c Ia). specialize (K2 a b c Ia). cbn [pt_data] in K1. rewrite K2 in K1. injection K1 as K1. symmetry. exact K1. }
    split.
    + intros a b c Ia. unfold F. rewrite (HJ2 a b c Ia). rewrite Rminus_diag_eq, Rabs_R0 by reflexivity. left. apply pw_pos.
    + cbn [two_shapes two_ready real_net net_apart_from net_apart apart]. split; [|split; exact Logic.I].
      intros x y z Ia; unfold F; assert (K : (pw (-60 + 1) < 1)%R) by (change 1%R with (pw 0); apply bpow_lt; lia); destruct (Hv _ _ _ Ia) as [-> | ->]; rewrite ?I1, ?I2; unfold Rabs; destruct (Rcase_abs _); lra.
  - exact HB.
  - subst o. cbv zeta in C. destruct (C 1%nat (HConn 2) ltac:(lia) eq_refl eq_refl) as (k & s0 & s2 & K & N0 & N2 & CW & _). exists s', body', sm', s0, s2.
    split; [exact HB|]. split; [exact EL|]. split; [exact N0|]. split; [exact N2|]. intros a b Ha Hb. vm_compute in K. injection K as <-.
    pose proof N0 as N3. cbn [real_net two_shapes two_ready nth_error] in N3. injection N3 as ES.
    destruct (CW a b 0) as (D & D1 & D2).
    { rewrite <- ES. cbn. unfold inb. cbn. lia. }
    assert (E0 : s_w s0 a b 0 = 0%R).
    { rewrite <- ES. assert (Ca : a = 0 \/ a = 1) by lia. assert (Cb : b = 0 \/ b = 1) by lia. destruct Ca as [-> | ->]; destruct Cb as [-> | ->]; reflexivity. }
    rewrite E0 in D1, D2. exists (D (Point (mk_mat (D3 2 1 1) (fun x _ _ => two_image x)) 1)). split; [apply D1; [left; reflexivity|unfold inb; cbn; lia|reflexivity]|].
    assert (RM : forall x, rmean [x] = x) by (intros x; unfold rmean; cbn; field). set (pt := Point _ 1) in *. change (firstn (Z.to_nat 1) (s_source two_state)) with [pt] in D2. change (map D [pt]) with [D pt] in D2. change (map (fun p => Rabs (D p)) [pt]) with [Rabs (D pt)] in D2. rewrite !RM, (proj2 one_ok), Rmult_1_l in D2. exact D2.
Qed.
