(** Networks for which the passes do not give the derivatives of the loss: convolutions with outputs that are not square, and
    activations that are neither ReLU nor linear. *)
From Coq Require Import ZArith Bool Lia Reals Lra List.
From Coquelicot Require Import Coquelicot.
From Verif Require Import Base Dim Matrix View Num Expr Spec Iter Sums MatFacts MatThms ExprThms Batch Kernel Connected Float32
  FloatFacts Pooling Activation Softmax LayerFacts KernelThms KernelGrad BatchThms ConnectedThms PoolingThms PoolGrad ActivationThms SoftmaxThms LayerTotal Calc Chars
  Model Net NetThms NetPass NetGrad ModelThms NetFresh Train TrainLocal TrainRest TrainLocal TrainNet Shapes ShapeNet.
Import ListNotations.
Local Open Scope Z_scope.

(** ** Outputs that are not square *)
Section Square.
Context {T : Type} {N : Num T} (E : env T).
Hypothesis ORD : e_moved E = false.

(** The layer raises the exception after it has stored its own gradients. *)
Lemma square_layer : forall l fx fy C n d i x z g, l_fit l (HConv fx fy C n) d -> ready l -> h_ok (HConv fx fy C n) d -> marked l (HConv fx fy C n) d i ->
  dx d - fx <> dy d - fy -> has x d -> has z (h_out (HConv fx fy C n) d) -> has g (h_out (HConv fx fy C n) d) ->
  exists l', l_backward E x z g i false l = OThrow l' MatrixTransform.
Proof.
  intros l fx fy C n d i x z g HL RD OK0 HR NS HX0 HZ0 HG0. destruct (h_ok_out _ d OK0) as [PO FO]. destruct OK0 as (P & F & OK).
  destruct (has_is x d HX0 P F) as (I & HX). destruct (has_is g _ HG0 PO FO) as (G & HG).
  destruct l as [k|c|q|a|sm]; cbn in HL; try contradiction. cbn [l_backward h_out] in *.
  destruct HL as ((W & B & HK) & HT). destruct OK as (A1 & A2 & A3 & A4 & F1 & F2 & F3). cbn in HR. destruct HR as [R1 R2].
  assert (HX' : is_mat x (D3 (dx d) (dy d) C) I) by (rewrite A3; destruct d; exact HX).
  assert (F' : fits (D3 (dx d) (dy d) C)) by (rewrite A3; destruct d; exact F).
  destruct (k_dw_ok k x g fx fy C n (dx d) (dy d) (dx d - fx + 1) (dy d - fy + 1) W B I G HK HX' F' eq_refl eq_refl ltac:(lia) ltac:(lia) HG F3) as (dw & Edw & Hdw).
  destruct (k_db_ok k g fx fy C n (dx d - fx + 1) (dy d - fy + 1) W B G HK ltac:(lia) ltac:(lia) HG F3) as (db & Edb & Hdb).
  rewrite (k_backward_ok k x g dw db i false Edw Edb R1 R2).
  assert (Q : k_dx k x g = Throw MatrixTransform).
  { apply (conv_dx_throws T k x g fx fy C n (dx d) (dy d) W B I G); [|unfold pos in P; lia|lia|exact NS]. unfold conv_case. repeat (split; [assumption || lia|]). exact F3. }
  rewrite Q. cbn [lift map_out]. eexists. reflexivity.
Qed.

Lemma bwd_throw : forall pre l post precs x z rs x' z' g i l' e, length precs = length pre ->
  double_copy x = Ok x' -> double_copy z = Ok z' ->
  l_backward E x' z' g i (Nat.eqb (length pre) 0) l = OThrow l' e ->
  bwd_layers E (S (length pre)) (precs ++ x :: z :: rs) g i (pre ++ l :: post) = OThrow (pre ++ l' :: post) e.
Proof.
  intros pre l post precs x z rs x' z' g i l' e HL EX EZ EB. cbn [bwd_layers]. unfold bind, vat.
  assert (N1 : nth_error (precs ++ x :: z :: rs) (length pre) = Some x) by (rewrite <- HL; apply nth_error_mid).
  assert (N2 : nth_error (precs ++ x :: z :: rs) (S (length pre)) = Some z).
  { rewrite nth_error_app2 by lia. replace (S (length pre) - length precs)%nat with 1%nat by lia. reflexivity. }
  rewrite N1, N2. cbn [lift]. rewrite EX, EZ. cbn [lift]. unfold on_nth. rewrite nth_error_mid, EB. cbn [map_out]. rewrite upd_app. reflexivity.
Qed.
Lemma net_fit_split : forall ss1 s ss2 (ls : list (layer T)) d, net_fit ls (ss1 ++ s :: ss2) d ->
  exists l1 l l2, ls = l1 ++ l :: l2 /\ length l1 = length ss1 /\ l_fit l s (h_net_out ss1 d) /\ net_fit l2 ss2 (h_out s (h_net_out ss1 d)).
Proof.
  induction ss1 as [|s1 ss1 IH]; intros s ss2 ls d H; destruct ls as [|a ls]; cbn in H; try contradiction; destruct H as [H1 H2].
  - exists [], a, ls. auto.
  - destruct (IH _ _ _ _ H2) as (l1 & l & l2 & -> & L & A & B). exists (a :: l1), l, l2. cbn. auto.
Qed.
Lemma h_ok_split : forall ss1 s ss2 d, h_net_ok (ss1 ++ s :: ss2) d -> h_ok s (h_net_out ss1 d) /\ h_net_ok ss2 (h_out s (h_net_out ss1 d)).
Proof. induction ss1 as [|s1 ss1 IH]; intros s ss2 d H; cbn in *; [exact H|]. apply IH. apply H. Qed.
Lemma marked_split : forall ss1 s ss2 l1 (l : layer T) l2 d i, length l1 = length ss1 -> net_marked (l1 ++ l :: l2) (ss1 ++ s :: ss2) d i ->
  marked l s (h_net_out ss1 d) i /\ net_marked l2 ss2 (h_out s (h_net_out ss1 d)) i.
Proof. induction ss1 as [|s1 ss1 IH]; intros s ss2 l1 l l2 d i HL H; destruct l1; cbn in HL; try lia; cbn in *; [exact H|]. apply (IH s ss2 l1); [lia|apply H]. Qed.
Lemma recs_split : forall ss1 s ss2 (x : mat T) rs d, has x d -> recs_has rs (ss1 ++ s :: ss2) d ->
  exists pr y z qr, x :: rs = pr ++ y :: z :: qr /\ length pr = length ss1 /\ has y (h_net_out ss1 d) /\ has z (h_out s (h_net_out ss1 d)) /\ recs_has qr ss2 (h_out s (h_net_out ss1 d)).
Proof.
  induction ss1 as [|s1 ss1 IH]; intros s ss2 x rs d HX H; destruct rs as [|r rs]; cbn in H; try contradiction; destruct H as [H1 H2].
  - exists [], x, r, rs. auto.
  - destruct (IH s ss2 r rs _ H1 H2) as (pr & y & z & qr & EQ & L & A). exists (x :: pr), y, z, qr. cbn. rewrite EQ. split; [reflexivity|]. split; [lia|exact A].
Qed.

(** A convolution that is not the first layer and whose output is not square: the backward pass ends with an exception. *)
Theorem not_square : forall body sm ss1 fx fy C m ss2 d n i k U (cast : U -> T) (input : mat U),
  let ss := ss1 ++ HConv fx fy C m :: ss2 in let d1 := h_net_out ss1 d in
  net_fit body ss d -> sm_count sm = n -> List.Forall (fun l => slot_ok l i) body -> h_net_ok ss d -> labels_ok (h_net_out ss d) n -> has input d -> 0 <= k < n ->
  ss1 <> [] -> dx d1 - fx <> dy d1 - fy -> h_net_bk ss2 (h_out (HConv fx fy C m) d1) ->
  exists l1 r l2, forward_pass E cast n input i (body ++ [LSoft sm]) = ORet l1 r /\ backward_pass E r k i l1 = OThrow l2 MatrixTransform.
Proof.
  intros body sm ss1 fx fy C m ss2 d n i k U cast input ss d1 HN HC HS OK LO HX Hk NE NS BK.
  destruct (forward_total E body sm ss d n i U cast input HN HC ltac:(eapply Forall_impl; [intros l0; apply slot_index|exact HS]) OK LO HX)
    as (b1 & x0 & rs & p & r & EF & RI & X0 & RA & IP & _ & N1 & N2 & N3 & _ & _). specialize (N3 HS).
  destruct (assign_total E ss d n r x0 rs p k OK LO RI IP Hk) as (r' & EA & RI' & _).
  exists (b1 ++ [LSoft sm]), r. 
  destruct (h_net_head _ _ OK) as [Pd Fd]. destruct (h_net_end _ _ OK) as [Po Fo]. pose proof LO as (_ & _ & LV).
  destruct (copies E p _ IP Po Fo) as [_ (q & Eq & Hq)]. destruct (has_is q _ Hq Po Fo) as (fq & Hfq).
  assert (E2 : hand_over k (b1 ++ [LSoft sm]) = ORet (b1 ++ [LSoft (Soft true k n)]) tt) by (rewrite hand_over_at by lia; rewrite HC; reflexivity).
  destruct (sm_dx_total q _ fq k Hfq Fo Po ltac:(rewrite LV; exact Hk)) as (g & Eg & Hg).
  assert (LR : length rs = length b1) by (rewrite (recs_length _ _ _ RA), (net_fit_length _ _ _ N1); reflexivity).
  assert (SP : exists zs z z', x0 :: rs = zs ++ [z] /\ length zs = length b1 /\ double_copy z = Ok z').
  { rewrite <- LR. clear - RA X0 Pd Fd OK E. clearbody ss. revert rs d x0 RA X0 Pd Fd OK.
    induction ss as [|s ss IH]; intros rs d x0 RS HX Pd Fd OK; destruct rs as [|r0 rs]; cbn in RS; try contradiction.
    - exists [], x0. destruct (copies E x0 d HX Pd Fd) as [_ (z' & Ez & _)]. exists z'. auto.
    - destruct OK as [O1 O2]. destruct (h_ok_out _ _ O1) as [P2 F2]. destruct (IH rs (h_out s d) r0) as (zs & z & z' & A & B & C0); try tauto.
      exists (x0 :: zs), z, z'. cbn. rewrite A. split; [reflexivity|]. split; [lia|exact C0]. }
  destruct SP as (zs & z & z' & Ezs & Lzs & Ez).
  assert (ER : x0 :: rs ++ [p] = zs ++ z :: [p]) by (change (x0 :: rs ++ [p]) with ((x0 :: rs) ++ [p]); rewrite Ezs, <- app_assoc; reflexivity).
  assert (E3 : bwd_layers E (S (length b1)) (x0 :: rs ++ [p]) mat_empty i (b1 ++ LSoft (Soft true k n) :: []) =
               bwd_layers E (length b1) (x0 :: rs ++ [p]) g i (b1 ++ LSoft (Soft true k n) :: [])).
  { rewrite ER. apply (bwd_step E) with (x' := z') (z' := q); [exact Lzs|exact Ez|exact Eq|]. cbn [l_backward sm_backward sm_known sm_label]. rewrite Eg. reflexivity. }
  destruct (net_fit_split _ _ _ _ _ N1) as (a1 & l & a2 & EB1 & La & Fl & F2). destruct (h_ok_split _ _ _ _ OK) as [Ol O2]. fold d1 in Fl, F2, Ol, O2.
  rewrite EB1 in N3. destruct (marked_split _ _ _ _ _ _ _ _ La N3) as [Ml M2]. fold d1 in Ml, M2.
  destruct (recs_split _ _ _ _ _ _ X0 RA) as (pr & y & z1 & qr & ERS & Lp & Hy & Hz & Hqr). fold d1 in Hy, Hz, Hqr.
  assert (RDl : ready l /\ List.Forall ready a2). { rewrite EB1 in N2. apply Forall_app in N2. destruct N2 as [_ N2]. inversion N2; auto. }
  destruct RDl as [RDl RD2].
  assert (EO : h_net_out ss d = h_net_out ss2 (h_out (HConv fx fy C m) d1)).
  { unfold ss, d1. clear. revert d. induction ss1 as [|s1 ss1 IH]; intros d; [reflexivity|]. cbn [app h_net_out]. apply IH. }
  assert (ER2 : x0 :: rs ++ [p] = (pr ++ [y]) ++ z1 :: qr ++ [p]) by (change (x0 :: rs ++ [p]) with ((x0 :: rs) ++ [p]); rewrite ERS, <- !app_assoc; reflexivity).
  destruct (bwd_net E ORD a2 ss2 (h_out (HConv fx fy C m) d1) i (a1 ++ [l]) [LSoft (Soft true k n)] (pr ++ [y]) z1 qr [p] g F2 RD2 O2 M2 Hz Hqr
    ltac:(rewrite !app_length; cbn; lia) ltac:(rewrite <- EO; exact Hg) ltac:(apply h_net_bk_bkc; exact BK)) as (a2' & g1 & E4 & G1 & _).
  assert (HG1 : has g1 (h_out (HConv fx fy C m) d1)) by (apply G1; right; destruct a1; discriminate).
  destruct (h_ok_out _ _ Ol) as [P2 F3]. pose proof Ol as (P1 & F1 & _).
  destruct (copies E y d1 Hy P1 F1) as [_ (y' & Ey & Hy')]. destruct (copies E z1 _ Hz P2 F3) as [_ (z1' & Ez1 & Hz')].
  destruct (square_layer l fx fy C m d1 i y' z1' g1 Fl RDl Ol Ml NS Hy' Hz' HG1) as (l' & EB).
  exists (a1 ++ l' :: a2' ++ [LSoft (Soft true k n)]). split; [exact EF|].
  unfold backward_pass, bind. rewrite EA. cbn [lift]. rewrite RI', RI. unfold backward_tail, bind. rewrite E2. unfold mget. rewrite app_length. cbn [length]. rewrite Nat.add_1_r.
  rewrite E3, ER2. rewrite EB1 at 1 2. rewrite app_length. cbn [length]. rewrite app_length in E4. cbn [length] in E4. rewrite <- !app_assoc in E4. cbn [app] in E4.
  rewrite <- !app_assoc. cbn [app]. replace (length a1 + S (length a2))%nat with (length a1 + 1 + length a2)%nat by lia. rewrite E4. rewrite Nat.add_1_r.
  assert (NZ : Nat.eqb (length a1) 0 = false) by (apply Nat.eqb_neq; rewrite La; destruct ss1; [congruence|discriminate]).
  rewrite (bwd_throw a1 l (a2' ++ [LSoft (Soft true k n)]) pr y z1 (qr ++ [p]) y' z1' g1 i l' MatrixTransform ltac:(lia) Ey Ez1 ltac:(rewrite NZ; exact EB)). reflexivity.
Qed.
End Square.

(** ** Activations whose derivative is not the one the code uses *)
(** Two outputs with weights 0 and biases [v], followed by the activation [a] *)
Definition bent (a : act) (v : R) : list lspec := [SConn 2 (fun _ _ _ => 0%R) (fun _ _ _ => v); SAct a].
Lemma rsum3_2 : forall f, rsum3 (D3 2 1 1) f = (f 0%Z 0%Z 0%Z + f 1%Z 0%Z 0%Z)%R.
Proof.
  intros f. unfold rsum3. cbn [dx dy dz]. rewrite !rsum_1. change 2 with (1 + 1). rewrite rsum_split by lia. rewrite !rsum_1. reflexivity.
Qed.
Lemma bent_sem : forall a v (I : fn) t i, 0 <= i < 2 ->
  net_sem (upd (bent a v) 0 (setw (SConn 2 (fun _ _ _ => 0%R) (fun _ _ _ => v)) (fupd (fun _ _ _ => 0%R) 0 0 0 t))) (D3 1 1 1) I i 0%Z 0%Z =
  act_R a ((if i =? 0 then t * I 0%Z 0%Z 0%Z else 0) + v)%R.
Proof.
  intros a v I t i Hi. cbn [upd bent net_sem sem setw setp s_b]. f_equal. unfold affine. change (vol (D3 1 1 1)) with 1. change (@nsum R NumR) with rsum. rewrite rsum_1.
  unfold elem_no, fupd. cbn. destruct (i =? 0); cbn; lra.
Qed.
Theorem bent_wrong : forall rand rmax a v D, is_derive (act_R a) v D -> actg_R a (act_R a v) <> D ->
  forall layers i U (cast : U -> R) (input : mat U) J, network layers (bent a v) (D3 1 1 1) 2 i -> is_mat input (D3 1 1 1) J -> cast (J 0 0 0) = 1%R ->
  exists layers1 r layers2 r' s l DW DB, forward_pass (envR rand rmax) cast 2 input i layers = ORet layers1 r /\
    backward_pass (envR rand rmax) r 0 i layers1 = ORet layers2 r' /\ nth_error (bent a v) 0 = Some s /\
    nth_error layers2 0 = Some l /\ stored l s (D3 1 1 1) i DW DB /\
    forall Pt, (forall t, net_prob rand rmax (upd (bent a v) 0 (setw s (fupd (s_w s) 0 0 0 t))) (D3 1 1 1) (fun x y z => cast (J x y z)) 0 (Pt t)) ->
      ~ is_derive (fun t => - ln (Pt t))%R (s_w s 0 0 0) (DW 0 0 0).
Proof.
  intros rand rmax a v D HD NE layers i U cast input J NW HJ H1. set (I := fun x y z => cast (J x y z)). set (ss := bent a v). set (d := D3 1 1 1).
  assert (F1 : fits (D3 1 1 1)) by (unfold fits, two31; cbn; lia). assert (F2 : fits (D3 2 1 1)) by (unfold fits, two31; cbn; lia).
  assert (OK : net_ok ss d). { unfold ss, bent. cbn [net_ok s_out]. unfold s_ok, d. change (vol (D3 1 1 1)) with 1. unfold pos. cbn [dx dy dz]. repeat (assumption || exact Logic.I || lia || match goal with |- _ /\ _ => split end). }
  assert (OO : net_out ss d = D3 2 1 1) by reflexivity.
  assert (LO : labels_ok (net_out ss d) 2) by (rewrite OO; repeat split; auto).
  destruct (forward_ok rand rmax layers ss d 2 i U cast input J NW OK LO HJ) as (ls & sm & ls' & x0 & rs & p & r & a0 & b0 & c0 & EL & _ & EF & RI & HX & RS & HP & N1 & N2 & N3 & _).
  fold I in HX, RS, HP, N3.
  assert (SC : sm_count sm = 2). { destruct NW as (ls0 & sm0 & E0 & C0 & _). rewrite E0 in EL. apply app_inj_tail in EL. destruct EL as [_ EL]. injection EL as <-. exact C0. }
  assert (Hy : inb (net_out ss d) 0 0 0) by (rewrite OO; unfold inb; cbn; lia).
  destruct (backward_ok rand rmax ls' sm ss d 2 i I x0 rs p r 0 0 0 N1 N2 N3 SC OK ltac:(cbn; auto) LO RI HX RS HP Hy) as (ls2 & r' & EB & M1 & M2 & _).
  destruct (stored_nth ls2 ss d i _ 0 _ M2 eq_refl) as (l & g & Nl & Ng & St).
  exists (ls' ++ [LSoft sm]), r, (ls2 ++ [LSoft (Soft true 0 2)]), r', (SConn 2 (fun _ _ _ => 0%R) (fun _ _ _ => v)), l, (fst g), (snd g).
  split; [exact EF|]. split; [exact EB|]. split; [reflexivity|]. split; [rewrite nth_error_app1 by (apply nth_error_Some; congruence); exact Nl|]. split; [exact St|].
  intros Pt HPt HDer. apply NE. cbn [s_w] in *.
  (* the stored number *)
  assert (HI : I 0 0 0 = 1%R) by exact H1.
  assert (SE : forall k, 0 <= k < 2 -> net_sem ss d I k 0 0 = act_R a v).
  { intros k Hk. pose proof (bent_sem a v I 0 k Hk) as Q.
    assert (EU : fupd (fun _ _ _ : Z => 0%R) 0 0 0 0%R = (fun _ _ _ => 0%R)) by apply (fupd_self (fun _ _ _ => 0%R) 0 0 0). cbn [upd bent setw setp s_b] in Q. rewrite EU in Q. fold (bent a v) ss in Q.
    fold d in Q. rewrite Q. f_equal. destruct (k =? 0); lra. }
  assert (SO : soft (D3 2 1 1) (net_sem ss d I) 0 0 0 = (1 / 2)%R).
  { unfold soft. rewrite rsum3_2, !SE by lia. pose proof (exp_pos (act_R a v)). field. lra. }
  assert (S1 : sem (SConn 2 (fun _ _ _ => 0%R) (fun _ _ _ => v)) d I 0 0 0 = v).
  { cbn [sem]. unfold affine. change (vol d) with 1. change (@nsum R NumR) with rsum. rewrite rsum_1. cbn. lra. }
  assert (EG : fst g 0 0 0 = (- (1 / 2) * actg_R a (act_R a v))%R).
  { set (Go := out_grad (net_out ss d) (net_sem ss d I) 0 0 0) in *. assert (G0 : Go 0 0 0 = (- (1 / 2))%R).
    { unfold Go, out_grad. rewrite fupd_eq, OO, SO. lra. }
    transitivity (0 + Go 0%Z 0%Z 0%Z * actg_R a (act_R a (sem (SConn 2 (fun _ _ _ => 0%R) (fun _ _ _ => v)) d I 0%Z 0%Z 0%Z)) * elem_no d I 0)%R; [injection Ng as <-; reflexivity|]. rewrite S1, G0. unfold elem_no. cbn [dx dy dz d]. change (I (0 mod 1) ((0 / 1) mod 1) (0 / (1 * 1))) with (I 0 0 0). rewrite HI. lra. }
  rewrite EG in HDer. 
  (* the derivative *)
  assert (TD : is_derive (fun t => - ln (Pt t))%R 0%R (- (1 / 2) * D)%R).
  { assert (PV : forall t, Pt t = soft (D3 2 1 1) (net_sem (upd ss 0 (setw (SConn 2 (fun _ _ _ => 0%R) (fun _ _ _ => v)) (fupd (fun _ _ _ => 0%R) 0 0 0 t))) d I) 0 0 0).
    { intros t. set (st := upd ss 0 _). assert (OKt : net_ok st d) by exact OK. assert (LOt : labels_ok (net_out st d) 2) by exact LO. assert (Hyt : inb (net_out st d) 0 0 0) by exact Hy.
      exact (net_prob_value rand rmax st d I 0 0 0 (Pt t) 2 OKt LOt Hyt (HPt t)). }
    pose proof (nll_curve (D3 2 1 1) (fun t => net_sem (upd ss 0 (setw (SConn 2 (fun _ _ _ => 0%R) (fun _ _ _ => v)) (fupd (fun _ _ _ => 0%R) 0 0 0 t))) d I) 0%R (fun k _ _ => if k =? 0 then D else 0%R) 0 0 0) as NC.
    apply (is_derive_ext (fun t => nll (D3 2 1 1) (net_sem (upd ss 0 (setw (SConn 2 (fun _ _ _ => 0%R) (fun _ _ _ => v)) (fupd (fun _ _ _ => 0%R) 0 0 0 t))) d I) 0 0 0)).
    { intros t. rewrite PV. reflexivity. }
    cbv beta in NC. assert (E0 : upd ss 0 (setw (SConn 2 (fun _ _ _ => 0%R) (fun _ _ _ => v)) (fupd (fun _ _ _ => 0%R) 0 0 0 0%R)) = ss) by (rewrite (fupd_self (fun _ _ _ => 0%R) 0 0 0); reflexivity).
    rewrite E0 in NC. unfold dotp in NC. rewrite rsum3_2 in NC. rewrite fupd_eq, SO in NC. cbn [Z.eqb] in NC.
    replace (- (1 / 2) * D)%R with ((1 / 2 - 1) * D + fupd (soft (D3 2 1 1) (net_sem ss d I)) 0 0 0 (1 / 2 - 1) 1%Z 0%Z 0%Z * 0)%R by lra. apply NC; [unfold pos; cbn; lia|rewrite OO in Hy; exact Hy|].
    intros x y z (Ix & Iy & Iz). cbn [dx dy dz] in *. assert (y = 0) as -> by lia. assert (z = 0) as -> by lia.
    apply (is_derive_ext (fun t => act_R a ((if x =? 0 then t * I 0%Z 0%Z 0%Z else 0) + v)%R)). { intros t. symmetry. apply bent_sem. exact Ix. }
    rewrite HI. destruct (x =? 0).
    - replace D with (scal 1%R D) by (cbn; unfold scal; cbn; unfold mult; cbn; lra). apply (is_derive_comp (act_R a) (fun t => t * 1 + v)%R 0%R D 1%R).
      + replace (0 * 1 + v)%R with v by lra. exact HD.
      + auto_derive; [exact Logic.I|lra].
    - apply @is_derive_const. }
  pose proof (is_derive_unique _ _ _ HDer) as Q1. pose proof (is_derive_unique _ _ _ TD) as Q2. rewrite Q1 in Q2. lra.
Qed.
Theorem activation_wrong : forall rand rmax a, a = Sigmoid \/ a = Tangent \/ a = LeakyRelu ->
  exists ss d n layers i input I idx, network layers ss d n i /\ net_ok ss d /\ net_bkc true ss d /\ labels_ok (net_out ss d) n /\ is_mat input d I /\ 0 <= idx < n /\ nth_error ss 1 = Some (SAct a) /\
    exists layers1 r layers2 r' s l DW DB, forward_pass (envR rand rmax) (fun t => t) n input i layers = ORet layers1 r /\
      backward_pass (envR rand rmax) r idx i layers1 = ORet layers2 r' /\ nth_error ss 0 = Some s /\ nth_error layers2 0 = Some l /\ stored l s d i DW DB /\
      exists x y z, inb (s_wdim s d) x y z /\
        forall Pt, (forall t, net_prob rand rmax (upd ss 0 (setw s (fupd (s_w s) x y z t))) d I idx (Pt t)) -> ~ is_derive (fun t => - ln (Pt t))%R (s_w s x y z) (DW x y z).
Proof.
  intros rand rmax a HA. assert (W : exists v D, is_derive (act_R a) v D /\ actg_R a (act_R a v) <> D).
  { destruct HA as [-> | [-> | ->]]; [exact sigmoid_output_wrong|exact tanh_output_wrong|]. destruct (leaky_output_error (-1)%R ltac:(lra)) as (A & B & C). exists (-1)%R, f01. split; [exact A|]. rewrite B. lra. }
  destruct W as (v & D & HD & NE). set (d := D3 1 1 1). assert (F1 : fits (D3 1 1 1)) by (unfold fits, two31; cbn; lia). assert (F2 : fits (D3 2 1 1)) by (unfold fits, two31; cbn; lia).
  assert (OK : net_ok (bent a v) d). { unfold bent. cbn [net_ok s_out]. unfold s_ok, d. change (vol (D3 1 1 1)) with 1. unfold pos. cbn [dx dy dz]. repeat (assumption || exact Logic.I || lia || match goal with |- _ /\ _ => split end). }
  pose proof (mk_network (bent a v) d 2 OK) as NW. assert (HJ : is_mat (mk_mat d (fun _ _ _ => 1%R)) d (fun _ _ _ => 1%R)) by (apply mk_mat_ok; exact F1).
  destruct (bent_wrong rand rmax a v D HD NE _ 0 R (fun t => t) _ _ NW HJ eq_refl) as (layers1 & r & layers2 & r' & s & l & DW & DB & A1 & A2 & A3 & A4 & A5 & A6).
  exists (bent a v), d, 2, (mk_net (bent a v) d ++ [LSoft (sm_make 2)]), 0, (mk_mat d (fun _ _ _ => 1%R)), (fun _ _ _ => 1%R), 0.
  split; [exact NW|]. split; [exact OK|]. split; [cbn; auto|]. split; [repeat split; auto|]. split; [exact HJ|]. split; [lia|]. split; [reflexivity|].
  exists layers1, r, layers2, r', s, l, DW, DB. split; [exact A1|]. split; [exact A2|]. split; [exact A3|]. split; [exact A4|]. split; [exact A5|].
  exists 0, 0, 0. split; [injection A3 as <-; unfold inb; cbn; lia|]. exact A6.
Qed.
