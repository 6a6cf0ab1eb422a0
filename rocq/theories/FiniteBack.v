(** The backward pass and the update of the parameters in IEEE-754 double precision: the gradients and the new parameters
    stay finite. *)
From Coq Require Import ZArith Bool Lia Reals Lra Psatz List.
From Flocq Require Import Core BinarySingleNaN.
From Verif Require Import Base Dim Matrix View Num Expr Spec Iter Sums MatFacts MatThms ViewThms ExprThms Batch Kernel Connected Float32
  FloatFacts Pooling Activation Softmax LayerFacts KernelThms BatchThms ConnectedThms PoolingThms PoolGrad ActivationThms SoftmaxThms LayerTotal Calc Chars
  Double Bar BarFacts Model Net NetPass NetGrad ModelThms Train TrainLocal TrainRest TrainNet TrainSgd Shapes ShapeNet ReportFacts FiniteFacts FiniteSoft FiniteInit FiniteNet.
Import ListNotations.
Local Open Scope Z_scope.

(** Exponent bounds of the gradient that a layer hands on, for parameters of at most 2^w and an incoming gradient of at most 2^b *)
Definition h_bexp (w : Z) (s : shape) (d : dim3) (b : Z) : Z :=
  match s with
  | HConv _ _ _ _ | HConn _ => b + w + bits (vol (h_out s d))
  | HPool _ _ _ _ _ => b + bits (vol (h_out s d))
  | HAct _ => b
  end.
(** Exponent bounds of the gradients that a layer stores, for an input of at most 2^e *)
Definition h_gexp (s : shape) (d : dim3) (e b : Z) : Z :=
  match s with
  | HConv _ _ _ _ => e + b + bits (vol (h_out s d))
  | HConn _ => e + b
  | _ => 0
  end.
(** The gradient at the input of a network whose output has a gradient of at most 2^b *)
Fixpoint h_net_bexp (w : Z) (ss : list shape) (d : dim3) (b : Z) : Z :=
  match ss with [] => b | s :: r => h_bexp w s d (h_net_bexp w r (h_out s d) b) end.
(** No gradient exceeds 2^lim. *)
Fixpoint h_net_blim (lim w : Z) (ss : list shape) (d : dim3) (e b : Z) : Prop :=
  match ss with
  | [] => b <= lim
  | s :: r => let b' := h_net_bexp w r (h_out s d) b in
      h_bexp w s d b' <= lim /\ h_gexp s d e b' <= lim /\ h_net_blim lim w r (h_out s d) (h_exp w s d e) b
  end.
(** The largest of the stored gradients *)
Fixpoint h_net_gexp (w : Z) (ss : list shape) (d : dim3) (e b : Z) : Z :=
  match ss with
  | [] => 0
  | s :: r => Z.max (h_gexp s d e (h_net_bexp w r (h_out s d) b)) (h_net_gexp w r (h_out s d) (h_exp w s d e) b)
  end.

(** The gradients in slot [i] are at most 2^g. *)
Definition slot_small (g : Z) (l : layer double) (s : shape) (d : dim3) (i : Z) : Prop :=
  match l with
  | LKernel k => exists gw gb, vget (p_wg (k_par k)) i = Ok gw /\ small g gw (h_wdim s d) /\ vget (p_bg (k_par k)) i = Ok gb /\ small g gb (h_bdim s)
  | LConn c => exists gw gb, vget (p_wg (c_par c)) i = Ok gw /\ small g gw (h_wdim s d) /\ vget (p_bg (c_par c)) i = Ok gb /\ small g gb (h_bdim s)
  | _ => True
  end.
Fixpoint net_slot (g : Z) (ls : list (layer double)) (ss : list shape) (d : dim3) (i : Z) : Prop :=
  match ls, ss with l :: ls', s :: ss' => slot_small g l s d i /\ net_slot g ls' ss' (h_out s d) i | _, _ => True end.
Lemma slot_small_up : forall g g' l s d i, slot_small g l s d i -> g <= g' -> slot_small g' l s d i.
Proof.
  intros g g' l s d i H L. destruct l; cbn in *; try exact I; destruct H as (gw & gb & A & B & C & D); exists gw, gb; eauto 8 using small_up.
Qed.
Lemma slot_filled : forall g l s d i, slot_small g l s d i -> filled l s d i.
Proof.
  intros g l s d i H. destruct l; cbn in *; try exact I; destruct H as (gw & gb & A & B & C & D); exists gw, gb; eauto 8 using small_has.
Qed.
Lemma net_slot_up : forall g g' ls ss d i, net_slot g ls ss d i -> g <= g' -> net_slot g' ls ss d i.
Proof. induction ls as [|l ls IH]; intros [|s ss] d i H L; cbn in *; auto. destruct H. split; [eapply slot_small_up; eassumption|auto]. Qed.

Lemma h_bexp_nonneg : forall w s d b, 0 <= w -> 0 <= b -> b <= h_bexp w s d b.
Proof.
  intros w s d b Hw Hb. pose proof (Z.log2_up_nonneg (vol (h_out s d))). destruct s; cbn [h_bexp]; unfold bits; lia.
Qed.
Lemma h_net_bexp_nonneg : forall w ss d b, 0 <= w -> 0 <= b -> b <= h_net_bexp w ss d b.
Proof.
  induction ss as [|s ss IH]; intros d b Hw Hb; cbn [h_net_bexp]; [lia|]. specialize (IH (h_out s d) b Hw Hb).
  pose proof (h_bexp_nonneg w s d (h_net_bexp w ss (h_out s d) b) Hw ltac:(lia)). lia.
Qed.
Lemma h_net_blim_g : forall lim w ss d e b, 0 <= lim -> h_net_blim lim w ss d e b -> 0 <= h_net_gexp w ss d e b <= lim.
Proof.
  induction ss as [|s ss IH]; intros d e b L H; cbn [h_net_gexp h_net_blim] in *; [lia|]. destruct H as (_ & H2 & H3). specialize (IH _ _ _ L H3). lia.
Qed.

(** The scattered sum of the pooling layers *)
Lemma scatter_within : forall d here G e k, fits d -> -1074 <= e <= 970 -> 0 <= k <= vol d -> (forall x y z, inb d x y z -> within 1 e (G x y z)) ->
  within k e (scatter d here G k).
Proof.
  intros d here G e k F He Hk HG. pose proof (fits_box d F) as V.
  assert (A : forall j, 0 <= j -> j <= k -> within j e (scatter d here G j)); [|apply A; lia].
  intros j. induction j using Zrange_ind; intros J L.
  - replace j with 0 by lia. unfold scatter. rewrite fold_z_0 by lia. apply within_zero. lia.
  - destruct (position_case d j F ltac:(lia)) as (x & y & z & I & EJ & _). specialize (IHj ltac:(lia) ltac:(lia)). rewrite EJ in *. rewrite scatter_S by exact I.
    destruct (here x y z); [|eapply within_more; [exact IHj|lia]]. apply within_add; [exact IHj|apply HG; exact I|unfold scale; lia].
Qed.
Lemma unit_within : forall v : double, unit_const v -> within 1 0 v.
Proof. intros v (F & B). split; [exact F|]. rewrite Rabs_pos_eq by lra. cbn [bpow]. lra. Qed.

Section Back.
Variable E : env double.
Hypothesis ORD : e_moved E = false.
Hypothesis EX : exp_ok (e_exp E).
Hypothesis TH : tanh_ok (e_tanh E).
Hypothesis CD : unit_const (e_c01 E).

Lemma double_small : forall e m d, small e m d -> pos d -> fits d -> exists m', double_copy m = Ok m' /\ small e m' d.
Proof.
  intros e m d (f & H & B) P F. unfold double_copy.
  destruct (mat_of_lz_ok n0 (fun t : double => t) (l_val m) tt d f F (pos_iterable d P) (is_mat_lz m d f tt H F)) as (m' & Q & H'). exists m'. split; [exact Q|].
  exists f. auto.
Qed.

(** One layer *)
Lemma bwd_small : forall w l s d i x z g last e ez b, l_fit l s d -> ready l -> h_ok s d -> marked l s d i -> (last = false -> h_bk s d) ->
  small e x d -> small ez z (h_out s d) -> small b g (h_out s d) -> l_small w l s d -> 0 <= e -> 0 <= w -> 0 <= b ->
  h_bexp w s d b <= 970 -> h_gexp s d e b <= 970 ->
  exists l' r, l_backward E x z g i last l = ORet l' r /\ (last = false -> small (h_bexp w s d b) r d) /\ slot_small (h_gexp s d e b) l' s d i /\ l_small w l' s d /\
    forall g' j, j <> i -> slot_small g' l s d j -> slot_small g' l' s d j.
Proof.
  intros w l s d i x z g last e ez b HL RD OK0 HR HB (I & HX & BI) (Zf & HZ & BZ) (G & HG & BG) HW He Hw Hb LB LG.
  destruct (h_ok_out s d OK0) as [PO FO]. pose proof (fits_box _ FO) as VB. pose proof (vol_pos1 _ PO) as VP. destruct (bits_ok (vol (h_out s d)) VP) as (B0 & B1).
  destruct OK0 as (P & F & OK).
  destruct l as [k|c|q|a|sm]; destruct s as [fx fy C n|n|t qx qy sx sy|ac]; cbn in HL; try contradiction; cbn [l_backward h_out h_bexp h_gexp] in *.
  - destruct HL as ((W0 & B00 & HK0) & HT). destruct OK as (A1 & A2 & A3 & A4 & F1 & F2 & F3). cbn in HR. destruct HR as [R1 R2].
    pose proof HW as ((W & IW & BW) & (B & IB & BB)). assert (HK : kernel_is k fx fy C n W B) by (unfold kernel_is in *; tauto).
    assert (HX' : is_mat x (D3 (dx d) (dy d) C) I) by (rewrite A3; destruct d; exact HX).
    assert (F' : fits (D3 (dx d) (dy d) C)) by (rewrite A3; destruct d; exact F).
    assert (BI' : forall a b c, inb (D3 (dx d) (dy d) C) a b c -> within 1 e (I a b c)) by (rewrite A3; destruct d; exact BI).
    destruct (k_dw_ok k x g fx fy C n (dx d) (dy d) (dx d - fx + 1) (dy d - fy + 1) W B I G HK HX' F' eq_refl eq_refl ltac:(lia) ltac:(lia) HG F3) as (dw & Edw & Hdw).
    destruct (k_db_ok k g fx fy C n (dx d - fx + 1) (dy d - fy + 1) W B G HK ltac:(lia) ltac:(lia) HG F3) as (db & Edb & Hdb).
    set (OX := dx d - fx + 1) in *. set (OY := dy d - fy + 1) in *. assert (HO : 1 <= OX /\ 1 <= OY) by (unfold OX, OY; lia).
    unfold vol in VB, VP, B0, B1, LB, LG. cbn [dx dy dz] in VB, VP, B0, B1, LB, LG.
    assert (P1 : 1 <= OX * OY) by nia. assert (V1 : OX * OY * 1 <= OX * OY * n) by (apply Z.mul_le_mono_nonneg_l; lia).
    assert (SL : slot_small (e + b + bits (OX * OY * n)) (LKernel (with_par k (store (k_par k) i dw db))) (HConv fx fy C n) d i).
    { exists dw, db. cbn [with_par k_par store p_wg p_bg h_wdim h_bdim]. rewrite !vget_upd_same by assumption. split; [reflexivity|]. split; [|split; [reflexivity|]].
      - eexists. split; [exact Hdw|]. intros u v zz Hu. unfold inb in Hu. cbn [dx dy dz] in Hu.
        apply within_pow with (OX * OY * 1); [|exact B0|lia]. unfold dw_elem. apply nsum2_within; try lia; [|unfold scale; lia].
        assert (HC : 1 <= C) by (rewrite A3; apply P).
        intros a0 b0 Ha Hb0. pose proof (Z.mod_pos_bound zz C ltac:(lia)). pose proof (Z.div_lt_upper_bound zz C n ltac:(lia) ltac:(lia)). pose proof (Z.div_pos zz C ltac:(lia) ltac:(lia)).
        apply within_1 with b e; [apply BI'|apply BG|lia|lia]; unfold inb; cbn [dx dy dz]; unfold OX, OY in *; lia.
      - eexists. split; [exact Hdb|]. intros u v zz Hu. unfold inb in Hu. cbn [dx dy dz] in Hu.
        apply within_up with (b + bits (OX * OY * n)); [|lia]. apply within_pow with (OX * OY * 1); [|exact B0|lia].
        replace (OX * OY * 1) with (OX * OY * 1 * 1) at 1 by ring. apply nsum_within; [lia|lia| |unfold scale; lia].
        intros m Hm. assert (F4 : fits (D3 OX OY 1)) by (apply fits_1 with n; [exact F3|lia]).
        destruct (position_case (D3 OX OY 1) m F4) as (a' & b' & c1 & I' & -> & _); [unfold vol; cbn [dx dy dz]; lia|]. rewrite elem_no_lin by exact I'.
        unfold inb in I'. cbn [dx dy dz] in I'. apply BG. unfold inb. cbn [dx dy dz]. lia. }
    assert (KP : forall g' j, j <> i -> slot_small g' (LKernel k) (HConv fx fy C n) d j -> slot_small g' (LKernel (with_par k (store (k_par k) i dw db))) (HConv fx fy C n) d j).
    { intros g' j NE HJ. cbn [slot_small with_par k_par store p_wg p_bg] in *. rewrite !vget_upd_neq by lia. exact HJ. }
    rewrite (k_backward_ok k x g dw db i last Edw Edb R1 R2). destruct last.
    + cbn [lift map_out]. eexists _, _. split; [reflexivity|]. split; [discriminate|]. split; [exact SL|split; [exact HW|exact KP]].
    + destruct (HB eq_refl) as [B2 B3].
      assert (F4 : fits (D3 (fx + 2 * (OX - 1)) (fy + 2 * (OX - 1)) 1)).
      { replace (fx + 2 * (OX - 1)) with (dx d + (dx d - fx)) by (unfold OX; lia).
        replace (fy + 2 * (OX - 1)) with (dy d + (dy d - fy)) by (unfold OX; lia). exact B3. }
      assert (B4 : 2 * (OX - 1) < two31).
      { pose proof (fits_vol _ F4) as [_ V]. cbn [dx dy] in V.
        set (u := 2 * (OX - 1)) in *. assert (0 <= u) by (unfold u; lia).
        assert (fx + u <= (fx + u) * (fy + u)) by (apply Z.le_mul_diag_r; lia). lia. }
      assert (EY : OY = OX) by (unfold OX, OY; lia).
      rewrite EY in HG, F3, BG, SL, LB, LG, VB, B0, B1, P1, V1 |- *.
      destruct (k_dx_ok k x g fx fy C n (dx d) (dy d) OX W B I G HK HX' F' eq_refl (eq_sym EY) ltac:(lia) B4 HG F3 F4) as (r & Er & Hr).
      rewrite Er. cbn [lift map_out]. eexists _, _. split; [reflexivity|]. split; [|split; [exact SL|split; [exact HW|exact KP]]].
      intros _. exists (dx_elem OX OX fx fy C n W G). split; [rewrite A3 in Hr |- *; destruct d; exact Hr|].
      intros u v zz Hu. unfold inb in Hu. unfold vol. cbn [dx dy dz].
      apply within_pow with (n * (OX * OX * 1)); [|exact B0|lia]. unfold dx_elem. apply nsum_within; [lia|lia| |unfold scale; lia].
      intros f Hf. apply nsum2_within; try lia; [|unfold scale; lia]. intros a0 b0 Ha Hb0.
      apply within_1 with b w; [|apply BG; unfold inb; cbn [dx dy dz]; lia|lia|lia].
      unfold padded. destruct (((OX - 1 <=? a0 + u) && (a0 + u <? OX - 1 + fx)) && ((OX - 1 <=? b0 + v) && (b0 + v <? OX - 1 + fy))) eqn:Q; [|apply within_zero; lia].
      apply BW. unfold inb. cbn [dx dy dz]. nia.
  - cbn in RD. assert (HL' : (exists W B, conn_is c n (vol d) W B) /\ c_in c = d) by (destruct HL as [H|H]; [exact H|destruct H as (H & _); congruence]).
    destruct HL' as ((W0 & B00 & HK0) & HT). destruct OK as (A1 & F1 & F2). cbn in HR. destruct HR as [R1 R2].
    pose proof (HW RD) as ((W & IW & BW) & (B & IB & BB)). assert (HK : conn_is c n (vol d) W B) by (unfold conn_is in *; tauto).
    destruct (c_dw_ok x g n d I G HX F HG A1 (vol_pos1 d P) F2 F1) as (dw & Edw & Hdw).
    unfold vol in VB, VP, B0, B1, LB, LG. cbn [dx dy dz] in VB, VP, B0, B1, LB, LG.
    assert (SL : slot_small (e + b) (LConn (Conn (store (c_par c) i dw g) (c_in c) (c_ready c))) (HConn n) d i).
    { exists dw, g. cbn [c_par store p_wg p_bg h_wdim h_bdim]. rewrite !vget_upd_same by assumption. split; [reflexivity|]. split; [|split; [reflexivity|]].
      - eexists. split; [exact Hdw|]. intros u v zz Hu. unfold inb in Hu. cbn [dx dy dz] in Hu.
        apply (within_add 0 1 (e + b)); [apply within_zero; lia| |unfold scale; lia].
        destruct (position_case d v F ltac:(lia)) as (a' & b' & c1 & I' & -> & _). rewrite elem_no_lin by exact I'.
        apply within_1 with e b; [apply BG; unfold inb; cbn [dx dy dz]; lia|apply BI; exact I'|lia|lia].
      - exists G. split; [exact HG|]. intros. apply within_up with b; [apply BG; assumption|lia]. }
    assert (KP : forall g' j, j <> i -> slot_small g' (LConn c) (HConn n) d j -> slot_small g' (LConn (Conn (store (c_par c) i dw g) (c_in c) (c_ready c))) (HConn n) d j).
    { intros g' j NE HJ. cbn [slot_small c_par store p_wg p_bg] in *. rewrite !vget_upd_neq by lia. exact HJ. }
    rewrite ORD, (c_backward_ok false c x g dw i last Edw R1 R2). destruct last.
    + cbn [lift map_out]. eexists _, _. split; [reflexivity|]. split; [discriminate|]. split; [exact SL|split; [exact HW|exact KP]].
    + destruct (c_dx_ok c g n (vol d) W B G HK HG ltac:(rewrite HT; exact F) ltac:(rewrite HT; reflexivity)) as (r & Er & Hr).
      rewrite Er. cbn [lift map_out]. eexists _, _. split; [reflexivity|]. split; [|split; [exact SL|split; [exact HW|exact KP]]].
      intros _. rewrite HT in Hr. eexists. split; [exact Hr|]. intros u v zz Hu. pose proof (lin_range _ _ _ _ Hu).
      unfold vol. cbn [dx dy dz]. apply within_pow with (n * 1); [|exact B0|lia]. apply nsum_within; [lia|lia| |unfold scale; lia].
      intros m Hm. apply within_1 with b w; [apply BW|apply BG|lia|lia]; unfold inb; cbn [dx dy dz]; lia.
  - destruct HL as (HGe & HT). cbn in HR. destruct HR as (m & Em & Cm & Sm). set (gg := pgeom qx qy sx sy d) in *.
    assert (HX' : is_mat x (xdim gg) I) by (unfold gg; rewrite pgeom_dim; exact HX).
    assert (D : t = PAvg \/ t <> PAvg) by (destruct t; [right|right|left]; congruence).
    assert (QD : exists r, q_dx q x g i = Ok r /\ small (b + bits (vol (odim gg))) r d).
    { destruct D as [-> | D].
      + destruct (q_dx_avg q _ x I i m g G OK HGe HT HX' Em HG) as (r & Er & Hr). exists r. split; [exact Er|]. unfold gg in Hr at 1. rewrite pgeom_dim in Hr. eexists. split; [exact Hr|].
        intros u v zz Hu. apply within_pow with (vol (odim gg)); [|exact B0|exact B1]. apply scatter_within; [exact FO|lia|lia|].
        intros a0 b0 c0 H0. pose proof (win_fits gg OK) as FW. pose proof (fits_box _ FW) as V. unfold vol in V. cbn [dx dy dz] in V.
        assert (V1 : 1 <= g_qx gg * g_qy gg) by (pose proof OK as (Q1 & Q2 & _); nia).
        apply within_div with (g_qx gg * g_qy gg); [|exact V1| |unfold scale; lia].
        * apply within_more with 1; [apply BG; exact H0|lia].
        * change (@nofZ double NumD) with d_of_Z. destruct (d_of_Z_ok (g_qx gg * g_qy gg)) as (Q & _); [lia|]. rewrite Q. lra.
      + destruct (Sm D) as (SF & Hm & Se).
        destruct (q_dx_ext q _ x I i m SF g G OK ltac:(rewrite HT; exact D) HX' Em Hm HG Se) as (r & Er & Hr). exists r. split; [exact Er|].
        unfold gg in Hr at 1. rewrite pgeom_dim in Hr. eexists. split; [exact Hr|].
        intros u v zz Hu. apply within_pow with (vol (odim gg)); [|exact B0|exact B1]. apply scatter_within; [exact FO|lia|lia|exact BG]. }
    destruct QD as (r & Er & Hr). unfold q_backward, bind, mget. rewrite Er. cbn [lift map_out].
    exists (LPool q), r. split; [reflexivity|]. split; [intros _; exact Hr|]. split; [exact Logic.I|]. split; [exact Logic.I|auto].
  - destruct HL as (H1 & H2).
    destruct (a_backward_ok (e_exp E) (e_tanh E) (e_c01 E) ac z g d _ G HZ HG F (pos_iterable d P)) as (r & Er & Hr).
    rewrite H2, Er. cbn [lift]. exists (LAct a), r. split; [reflexivity|]. split; [|split; [exact Logic.I|split; [exact Logic.I|auto]]].
    intros _. eexists. split; [exact Hr|]. intros u v zz Hu. apply within_1 with 0 b; [apply BG; exact Hu| |lia|lia].
    apply unit_within. apply act_grad_unit; auto. apply BZ. exact Hu.
Qed.

(** The layers of a network, from the last to the first *)
Lemma recs_small_has : forall w rs ss d e, recs_small w rs ss d e -> recs_has rs ss d.
Proof. induction rs as [|r rs IH]; intros [|s ss] d e H; cbn in *; try contradiction; auto. destruct H. split; [eapply small_has; eassumption|eauto]. Qed.
Lemma bwd_net_small : forall w b ls ss d i pre post precs x rs prs g e, net_fit ls ss d -> List.Forall ready ls -> h_net_ok ss d -> net_marked ls ss d i ->
  small e x d -> recs_small w rs ss d e -> length precs = length pre -> small b g (h_net_out ss d) -> h_net_bkc (Nat.eqb (length pre) 0) ss d ->
  net_small w ls ss d -> 0 <= w -> 0 <= e -> 0 <= b -> h_net_blim 970 w ss d e b ->
  exists ls' gin,
    bwd_layers E (length pre + length ls) (precs ++ x :: rs ++ prs) g i (pre ++ ls ++ post) =
    bwd_layers E (length pre) (precs ++ x :: rs ++ prs) gin i (pre ++ ls' ++ post) /\
    (ls = [] \/ pre <> [] -> small (h_net_bexp w ss d b) gin d) /\ net_small w ls' ss d /\ net_slot (h_net_gexp w ss d e b) ls' ss d i /\
    forall g' j, j <> i -> net_slot g' ls ss d j -> net_slot g' ls' ss d j.
Proof.
  intros w b. induction ls as [|l ls IH]; intros ss d i pre post precs x rs prs g e HN HRd OK HR HX RS HL HG BK HW Hw He Hb LM; destruct ss as [|s ss]; cbn in HN; try contradiction.
  - exists [], g. rewrite Nat.add_0_r. cbn. auto.
  - destruct HN as [H1 H2]. destruct OK as [O1 O2]. cbn [net_marked] in HR. destruct HR as [R1 R2]. inversion HRd as [|? ? Q1 Q2]; subst.
    destruct rs as [|z rs]; cbn in RS; [contradiction|]. destruct RS as [Z1 Z2]. destruct BK as [B1 B2]. destruct HW as [W1 W2].
    cbn [h_net_blim] in LM. destruct LM as (M1 & M2 & M3).
    destruct (IH ss (h_out s d) i (pre ++ [l]) post (precs ++ [x]) z rs prs g (h_exp w s d e) H2 Q2 O2 R2 Z1 Z2
               ltac:(rewrite !app_length; cbn; lia) HG ltac:(apply h_net_bk_bkc; exact B2) W2 Hw ltac:(apply h_exp_nonneg; assumption) Hb M3) as (ls' & g1 & E1 & G1 & N1 & N2 & N3).
    rewrite app_length in E1. cbn [length] in E1. rewrite <- !app_assoc in E1. cbn [app] in E1.
    assert (HG1 : small (h_net_bexp w ss (h_out s d) b) g1 (h_out s d)) by (apply G1; right; destruct pre; discriminate).
    destruct (h_ok_out _ _ O1) as [P2 F2]. pose proof O1 as (P1 & F1 & _).
    destruct (double_small e x d HX P1 F1) as (x' & Ex & Hx). destruct (double_small _ z _ Z1 P2 F2) as (z' & Ez & Hz).
    pose proof (h_net_bexp_nonneg w ss (h_out s d) b Hw Hb) as NB.
    destruct (bwd_small w l s d i x' z' g1 (Nat.eqb (length pre) 0) e _ _ H1 Q1 O1 R1 B1 Hx Hz HG1 W1 He Hw ltac:(lia) M1 M2) as (l' & gin & EB & GB & SB & WB & KB).
    exists (l' :: ls'), gin. split.
    + cbn [length app] in *. replace (length pre + S (length ls))%nat with (length pre + 1 + length ls)%nat by lia. rewrite E1.
      rewrite Nat.add_1_r. apply (bwd_step E) with (x' := x') (z' := z'); assumption.
    + split; [|split; [|split]].
      * intros [C|C]; [discriminate|]. apply GB. apply Nat.eqb_neq. destruct pre; [congruence|discriminate].
      * cbn [net_small]. auto.
      * cbn [net_slot h_net_gexp]. split; [eapply slot_small_up; [exact SB|lia]|eapply net_slot_up; [exact N2|lia]].
      * intros g' j NE [J1 J2]. cbn [net_slot]. auto.
Qed.

(** The gradient that the softmax layer starts with: the probabilities, with 1 subtracted for the label *)
Lemma sm_dx_small : forall (y : mat double) d P k, is_mat y d P -> fits d -> pos d -> 0 <= k < vol d -> (forall a b c, inb d a b c -> unit_const (P a b c)) ->
  exists r, sm_dx y k = Ok r /\ small 0 r d.
Proof.
  intros y d f k H F P Hk U. destruct (flat_total y d f k H F P Hk) as (a & b & c & I & -> & Q). unfold sm_dx. rewrite Q. cbn [rbind].
  destruct (mwrite_is y d f a b c (nsub (f a b c) n1) H F I) as (r & Er & Hr). exists r. split.
  - unfold mwrite in Er. rewrite (is_mat_dim _ _ _ H), get_index_lin in Er by assumption.
    unfold run_state, mwrite_flat. rewrite (is_mat_dim _ _ _ H). rewrite Er. reflexivity.
  - eexists. split; [exact Hr|]. intros x' y' z' I'. unfold fupd. destruct ((x' =? a) && (y' =? b) && (z' =? c)); [|apply unit_within, U; exact I'].
    destruct (U a b c I) as (F1 & B1). destruct one_ok as (O1 & O2). destruct (sub_exact (f a b c) n1 1 F1 O1 cap_1) as (A1 & A2).
    { rewrite O2. apply Rabs_le. lra. }
    split; [exact A1|]. rewrite A2. cbn [bpow]. rewrite Rmult_1_r. apply cap_small; [exact cap_1|]. rewrite O2. apply Rabs_le. lra.
Qed.

(** backwardsPropagation after a forward pass *)
Theorem backward_finite : forall w body sm ss d n i k e x0 rs p P recs,
  net_fit body ss d -> List.Forall ready body -> net_marked body ss d i -> sm_count sm = n -> h_net_ok ss d -> h_net_bkc true ss d -> labels_ok (h_net_out ss d) n ->
  recs = x0 :: rs ++ [p] -> small e x0 d -> recs_small w rs ss d e -> is_mat p (h_net_out ss d) P -> (forall a b c, inb (h_net_out ss d) a b c -> unit_const (P a b c)) -> 0 <= k < n ->
  net_small w body ss d -> 0 <= w -> 0 <= e -> h_net_blim 970 w ss d e 0 ->
  exists body', backward_tail E recs k i (body ++ [LSoft sm]) = ORet (body' ++ [LSoft (Soft true k n)]) tt /\
    net_small w body' ss d /\ net_slot (h_net_gexp w ss d e 0) body' ss d i /\
    forall g' j, j <> i -> net_slot g' body ss d j -> net_slot g' body' ss d j.
Proof.
  intros w body sm ss d n i k e x0 rs p P recs HN HRd HR HC OK BK LO -> HX RS HP UP Hk HW Hw He LM.
  destruct (h_net_head _ _ OK) as [Pd Fd]. destruct (h_net_end _ _ OK) as [Po Fo]. pose proof LO as (_ & _ & LV).
  assert (CP : exists q, double_copy p = Ok q /\ is_mat q (h_net_out ss d) P).
  { unfold double_copy. destruct (mat_of_lz_ok n0 (fun t : double => t) (l_val p) tt _ P Fo (pos_iterable _ Po) (is_mat_lz p _ P tt HP Fo)) as (q & Q & H'). eauto. }
  destruct CP as (q & Eq & Hq).
  assert (E2 : hand_over k (body ++ [LSoft sm]) = ORet (body ++ [LSoft (Soft true k n)]) tt) by (rewrite hand_over_at by lia; rewrite HC; reflexivity).
  pose proof (recs_small_has _ _ _ _ _ RS) as RH.
  assert (LR : length rs = length body) by (rewrite (recs_length _ _ _ RH), (net_fit_length _ _ _ HN); reflexivity).
  destruct (sm_dx_small q _ P k Hq Fo Po ltac:(rewrite LV; exact Hk) UP) as (g & Eg & Hg).
  assert (Z0 : exists z z', nth_error (x0 :: rs) (length body) = Some z /\ double_copy z = Ok z').
  { rewrite <- LR. pose proof (small_has _ _ _ HX) as HX0. clear - RH HX0 Pd Fd OK E. revert rs d x0 RH HX0 Pd Fd OK.
    induction ss as [|s ss IH]; intros rs d x0 RS HX Pd Fd OK; destruct rs as [|r0 rs]; cbn in RS; try contradiction.
    - exists x0. destruct (copies E x0 d HX Pd Fd) as [_ (z' & Ez & _)]. exists z'. split; [reflexivity|exact Ez].
    - destruct OK as [O1 O2]. destruct (h_ok_out _ _ O1) as [P2 F2]. cbn [length nth_error]. apply (IH rs (h_out s d) r0); tauto. }
  destruct Z0 as (z & z' & Nz & Ez).
  assert (SP : exists zs, x0 :: rs = zs ++ [z] /\ length zs = length body).
  { clear - Nz LR. destruct (nth_error_split _ _ Nz) as (l1 & l2 & E & L). exists l1. split; [|exact L].
    assert (l2 = []) as ->; [|exact E]. apply (f_equal (@length _)) in E. rewrite app_length in E. cbn in E. destruct l2; [reflexivity|cbn in E; lia]. }
  destruct SP as (zs & Ezs & Lzs).
  assert (E3 : bwd_layers E (S (length body)) (zs ++ z :: p :: []) mat_empty i (body ++ LSoft (Soft true k n) :: []) =
               bwd_layers E (length body) (zs ++ z :: p :: []) g i (body ++ LSoft (Soft true k n) :: [])).
  { apply (bwd_step E) with (x' := z') (z' := q); [exact Lzs|exact Ez|exact Eq|]. cbn [l_backward sm_backward sm_known sm_label]. rewrite Eg. reflexivity. }
  destruct (bwd_net_small w 0 body ss d i [] [LSoft (Soft true k n)] [] x0 rs [p] g e HN HRd OK HR HX RS eq_refl Hg BK HW Hw He ltac:(lia) LM) as (body' & gin & E4 & _ & N1 & N2 & N3).
  cbn [length app Nat.add] in E4.
  exists body'. split; [|auto].
  unfold backward_tail, bind. rewrite E2. unfold mget. rewrite app_length. cbn [length]. rewrite Nat.add_1_r.
  replace (x0 :: rs ++ [p]) with (zs ++ z :: [p]) by (change (x0 :: rs ++ [p]) with ((x0 :: rs) ++ [p]); rewrite Ezs, <- app_assoc; reflexivity).
  rewrite E3. replace (zs ++ z :: [p]) with (x0 :: rs ++ [p]) by (change (x0 :: rs ++ [p]) with ((x0 :: rs) ++ [p]); rewrite Ezs, <- app_assoc; reflexivity).
  rewrite E4. reflexivity.
Qed.
End Back.

(** The forward pass leaves the gradients alone. *)
Lemma l_forward_grads : forall {T} {N : Num T} (E : env T) x i (l l' : layer T) o, l_forward E x i l = ORet l' o -> grads_of l' = grads_of l.
Proof.
  intros T N E x i l l' o H. destruct l as [k|c|q|a|sm]; cbn [l_forward] in H.
  - unfold lift in H. destruct (k_forward k x); try discriminate. injection H as <- _. reflexivity.
  - destruct (c_forward _ _ _ x c) as [c' o'| |] eqn:Q; try discriminate. cbn [map_out] in H. injection H as <- _.
    unfold c_forward, bind in Q. destruct (c_check _ _ _ x c) as [c1 ok| |] eqn:Q1; try discriminate.
    assert (G : grads_of (LConn c1) = grads_of (LConn c)).
    { unfold c_check in Q1. destruct (base_size (mdim (c_b c))); try discriminate. destruct (base_size (mdim x)); try discriminate.
      destruct (c_ready c); [injection Q1 as <- _; reflexivity|]. destruct (mat_fill _ n0); try discriminate. destruct (init_params _ _ _ _) as [[w' b'] u|s u|]; try discriminate; try (destruct s; discriminate).
      injection Q1 as <- _. reflexivity. }
    rewrite <- G. destruct (negb ok); [discriminate|]. unfold mget, lift in Q. destruct (c_apply _ _ x); try discriminate. injection Q as <- _. reflexivity.
  - destruct (q_forward x i q) as [q' o'| |] eqn:Q; try discriminate. cbn [map_out] in H. injection H as <- _. reflexivity.
  - unfold lift in H. destruct (a_forward _ _ _ _ x); try discriminate. injection H as <- _. reflexivity.
  - unfold lift in H. destruct (sm_forward _ sm x); try discriminate. injection H as <- _. reflexivity.
Qed.
Lemma fwd_layers_grads : forall {T} {N : Num T} (E : env T) i (ls : list (layer T)) x ls' o, fwd_layers E ls x i = ORet ls' o -> map grads_of ls' = map grads_of ls.
Proof.
  intros T N E i. induction ls as [|l ls IH]; intros x ls' o H; cbn [fwd_layers] in H; [injection H as <- _; reflexivity|].
  destruct (l_forward E x i l) as [l' y| |] eqn:Q; try discriminate. destruct (float_copy E y); try discriminate.
  destruct (fwd_layers E ls y i) as [t [rs z]| |] eqn:Q2; try discriminate. cbn [map_out] in H. injection H as <- _. cbn [map].
  rewrite (l_forward_grads _ _ _ _ _ _ Q), (IH _ _ _ Q2). reflexivity.
Qed.
Lemma forward_grads : forall {T} {N : Num T} (E : env T) U (cast : U -> T) n input i ls ls' r, forward_pass E cast n input i ls = ORet ls' r -> map grads_of ls' = map grads_of ls.
Proof.
  intros T N E U cast n input i ls ls' r H. unfold forward_pass, bind, lift in H.
  destruct (mat_of_lz n0 cast (l_val input) tt) as [m| |]; try discriminate. destruct (float_copy E m) as [fm| |]; try discriminate.
  destruct (fwd_layers E ls m i) as [t [rs z]| |] eqn:Q; try discriminate. apply fwd_layers_grads in Q. cbn [fst snd] in H.
  destruct (base_size (mdim z)) as [a| |]; try discriminate. destruct (a =? n); try discriminate. cbn [ret] in H. destruct (max_index z); try discriminate.
  destruct (mread_flat z _); try discriminate. injection H as <- _. exact Q.
Qed.
Lemma net_slot_grads : forall g ls ls' ss d i, net_fit ls ss d -> net_fit ls' ss d -> map grads_of ls' = map grads_of ls -> net_slot g ls ss d i -> net_slot g ls' ss d i.
Proof.
  intros g. induction ls as [|l ls IH]; intros [|l' ls'] [|s ss] d i H H' G S; cbn in H, H'; try contradiction; cbn [net_slot]; auto.
  injection G as G1 G2. destruct H as [H1 H2]. destruct H' as [H1' H2']. destruct S as [S1 S2]. split; [|eauto].
  destruct l, s; cbn in H1; try contradiction; destruct l'; cbn in H1'; try contradiction; try exact I; cbn in G1; injection G1 as G3 G4; cbn [slot_small]; rewrite G3, G4; exact S1.
Qed.

(** *** applyBatch: p - rate * (sum of the slots / number of slots) *)
Definition w_next (w r g : Z) : Z := Z.max w (r + g) + 1.
Lemma step_within : forall lr r bs w g (p : double) G, within 1 r lr -> 1 <= bs < 2 ^ 31 -> -1074 <= g <= 970 -> -1074 <= r + g -> -1074 <= w -> w_next w r g <= 970 ->
  within 1 w p -> (forall i, 0 <= i < bs -> within 1 g (G i)) -> within 1 (w_next w r g) (step_val lr bs p G).
Proof.
  intros lr r bs w g p G HL Hb Hg Hr Hw L HP HG. unfold w_next in *. set (M := Z.max w (r + g)) in *. unfold step_val.
  apply within_pow with (1 + 1); [|lia|lia]. apply within_sub; [apply within_up with w; [exact HP|lia]| |unfold scale; lia].
  apply within_up with (r + g); [|lia]. apply (within_mul 1 1 r g); [exact HL| |unfold scale; lia].
  apply within_div with bs; [|lia| |unfold scale; lia].
  - apply nsum_within; [lia|lia|exact HG|unfold scale; lia].
  - change (@nofZ double NumD) with d_of_Z. destruct (d_of_Z_ok bs) as (Q & _); [lia|]. rewrite Q. lra.
Qed.

Lemma slots_small : forall g (l : list (mat double)) d bs, fits d -> Z.of_nat (length l) = bs -> (forall i, 0 <= i < bs -> exists m, vget l i = Ok m /\ small g m d) ->
  exists G, slots_are l d G /\ forall i x y z, 0 <= i < bs -> inb d x y z -> within 1 g (G i x y z).
Proof.
  intros g l d bs F HL H. exists (fun i x y z => match vget l i with Ok m => match mread m (D3 x y z) with Ok v => v | _ => n0 end | _ => n0 end). split.
  - intros i Hi. rewrite HL in Hi. destruct (H i Hi) as (m & V & f & Hf & _). exists m. split; [exact V|]. eapply is_mat_ext; [exact Hf|].
    intros x y z I. cbn beta. rewrite V, (is_mat_read _ _ _ x y z Hf F I). reflexivity.
  - intros i x y z Hi I. destruct (H i Hi) as (m & V & f & Hf & B). rewrite V, (is_mat_read _ _ _ x y z Hf F I). apply B. exact I.
Qed.
Lemma params_small : forall lr r bs w g (p : @params double) dw db, within 1 r lr -> 1 <= bs < 2 ^ 31 -> -1074 <= g <= 970 -> -1074 <= r + g -> -1074 <= w -> w_next w r g <= 970 ->
  fits dw -> pos dw -> fits db -> pos db -> Z.of_nat (length (p_wg p)) = bs -> Z.of_nat (length (p_bg p)) = bs ->
  (forall i, 0 <= i < bs -> exists gw gb, vget (p_wg p) i = Ok gw /\ small g gw dw /\ vget (p_bg p) i = Ok gb /\ small g gb db) ->
  small w (p_w p) dw -> small w (p_b p) db ->
  exists w' b', p_apply lr p = ORet (Par w' b' (p_wg p) (p_bg p)) tt /\ small (w_next w r g) w' dw /\ small (w_next w r g) b' db.
Proof.
  intros lr r bs w g p dw db HL Hb Hg Hr Hw L FW PW FB PB L1 L2 ST (W & IW & BW) (B & IB & BB).
  destruct (slots_small g (p_wg p) dw bs FW L1) as (GW & SW & UW). { intros i Hi. destruct (ST i Hi) as (gw & gb & A1 & A2 & A3 & A4). eauto. }
  destruct (slots_small g (p_bg p) db bs FB L2) as (GB & SB & UB). { intros i Hi. destruct (ST i Hi) as (gw & gb & A1 & A2 & A3 & A4). eauto. }
  destruct (apply_batch_ok lr (p_wg p) (p_bg p) (p_w p) (p_b p) dw db W B GW GB bs FW (pos_iterable _ PW) FB (pos_iterable _ PB) (eq_sym L1) (eq_sym L2) SW SB IW IB) as (w' & b' & E1 & W1 & B1).
  exists w', b'. split; [unfold p_apply; rewrite E1; reflexivity|]. split; eexists; (split; [eassumption|]); intros; apply step_within; auto.
Qed.

Lemma apply_small : forall lr r bs w g l s d, within 1 r lr -> 1 <= bs < 2 ^ 31 -> -1074 <= g <= 970 -> -1074 <= r + g -> -1074 <= w -> w_next w r g <= 970 ->
  l_fit l s d -> ready l -> h_ok s d -> nslots bs l -> (forall i, 0 <= i < bs -> slot_small g l s d i) -> l_small w l s d ->
  exists l', l_apply lr l = ORet l' tt /\ l_small (w_next w r g) l' s d /\ forall g' j, slot_small g' l s d j -> slot_small g' l' s d j.
Proof.
  intros lr r bs w g l s d HL Hb Hg Hr Hw LN HF RD (P & F & OK) NS ST HW.
  destruct l as [k|c|q|a|sm]; destruct s as [fx fy C n|n|t qx qy sx sy|ac]; cbn in HF; try contradiction; cbn [l_apply].
  - destruct HF as ((W & B & HK) & HT). destruct OK as (A1 & A2 & A3 & A4 & F1 & F2 & F3). destruct NS as [N1 N2]. destruct HW as (S1 & S2).
    assert (P1 : pos (D3 fx fy (C * n))) by (unfold pos in *; cbn; nia). assert (P2 : pos (D3 n 1 1)) by (unfold pos; cbn; lia).
    destruct (params_small lr r bs w g (k_par k) _ _ HL Hb Hg Hr Hw LN F1 P1 F2 P2 N1 N2 ST S1 S2) as (w' & b' & E1 & W1 & B1).
    unfold on_par. rewrite E1. cbn [map_out with_par]. eexists. split; [reflexivity|]. split; [cbn; auto|auto].
  - destruct OK as (A1 & F1 & F2). destruct NS as [N1 N2]. cbn in RD. destruct (HW RD) as (S1 & S2).
    assert (P1 : pos (D3 n (vol d) 1)) by (pose proof (vol_pos1 d P); unfold pos; cbn; lia). assert (P2 : pos (D3 n 1 1)) by (unfold pos; cbn; lia).
    destruct (params_small lr r bs w g (c_par c) _ _ HL Hb Hg Hr Hw LN F1 P1 F2 P2 N1 N2 ST S1 S2) as (w' & b' & E1 & W1 & B1).
    unfold on_cpar. rewrite E1. cbn [map_out]. eexists. split; [reflexivity|]. split; [cbn; auto|auto].
  - eexists. split; [reflexivity|]. split; [exact I|auto].
  - eexists. split; [reflexivity|]. split; [exact I|auto].
Qed.
Lemma apply_all_small : forall lr r bs w g, within 1 r lr -> 1 <= bs < 2 ^ 31 -> -1074 <= g <= 970 -> -1074 <= r + g -> -1074 <= w -> w_next w r g <= 970 ->
  forall ls ss d, net_fit ls ss d -> List.Forall ready ls -> h_net_ok ss d -> List.Forall (nslots bs) ls -> (forall i, 0 <= i < bs -> net_slot g ls ss d i) -> net_small w ls ss d ->
  exists ls', apply_all lr ls = ORet ls' tt /\ net_small (w_next w r g) ls' ss d /\ forall g' j, net_slot g' ls ss d j -> net_slot g' ls' ss d j.
Proof.
  intros lr r bs w g HL Hb Hg Hr Hw LN. induction ls as [|l ls IH]; intros [|s ss] d HN RD OK NS ST HW; cbn in HN; try contradiction.
  - exists []. cbn. auto.
  - destruct HN as [H1 H2]. destruct OK as [O1 O2]. inversion NS as [|? ? S1 S2]; subst. inversion RD as [|? ? R1 R2]; subst. destruct HW as [W1 W2].
    destruct (apply_small lr r bs w g l s d HL Hb Hg Hr Hw LN H1 R1 O1 S1) as (l' & E1 & L1 & K1); [intros i Hi; apply (ST i Hi)|exact W1|].
    destruct (IH ss (h_out s d) H2 R2 O2 S2) as (ls' & E2 & L2 & K2); [intros i Hi; apply (ST i Hi)|exact W2|].
    exists (l' :: ls'). unfold apply_all in *. cbn [each_layer]. rewrite E1, E2. cbn [map_out net_small]. split; [reflexivity|]. split; [auto|]. intros g' j [J1 J2]. cbn [net_slot]. auto.
Qed.
