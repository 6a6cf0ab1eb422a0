(** Networks in which fully connected layers have not received their first input yet; existence of the networks that the
    theorems speak about. *)
From Coq Require Import ZArith List Bool Lia Reals Lra.
From Coquelicot Require Import Coquelicot.
From Verif Require Import Base Dim Matrix View Num Expr Spec Iter Sums MatFacts MatThms ExprThms Batch Kernel Connected Float32
  FloatFacts Pooling Activation Softmax LayerFacts KernelThms Calc KernelGrad BatchThms ConnectedThms PoolingThms PoolGrad
  ActivationThms SoftmaxThms LayerTotal Chars Model Net NetThms NetPass NetGrad ModelThms.
Import ListNotations.
Local Open Scope Z_scope.

Section Fresh.
Context (rand : Z -> Z) (rmax : Z).
Local Notation ER := (envR rand rmax).

(** A fully connected layer before its first input; [s] holds the parameters it will get. *)
Definition l_fresh (l : layer R) (s : lspec) (d : dim3) : Prop :=
  match l, s with
  | LConn c, SConn n W B => conn_fresh c n /\ W = init_val rand rmax sqrt 0 (D3 n (vol d) 1) /\
      B = init_val rand rmax sqrt (Z.of_nat (it_fuel (D3 n (vol d) 1))) (D3 n 1 1)
  | _, _ => False
  end.
Fixpoint net_is0 (ls : list (layer R)) (ss : list lspec) (d : dim3) : Prop :=
  match ls, ss with
  | [], [] => True
  | l :: ls', s :: ss' => (l_is l s d \/ l_fresh l s d) /\ net_is0 ls' ss' (s_out s d)
  | _, _ => False
  end.
Definition network0 (layers : list (layer R)) (ss : list lspec) (d : dim3) (n i : Z) : Prop :=
  exists ls sm, layers = ls ++ [LSoft sm] /\ sm_count sm = n /\ net_is0 ls ss d /\ List.Forall (fun l => slot_ok l i) ls.

Lemma net_is_is0 : forall ls ss d, net_is ls ss d -> net_is0 ls ss d.
Proof. induction ls; destruct ss; cbn; intros d H; try contradiction; auto. destruct H. auto. Qed.

Lemma warm_layer : forall l s d i x I, l_fresh l s d -> slot_ok l i -> s_ok s d -> is_mat x d I ->
  exists l1 o, l_is l1 s d /\ slot_ok l1 i /\ l_forward ER x i l = ORet l1 o /\ l_forward ER x i l1 = ORet l1 o /\ is_mat o (s_out s d) (sem s d I).
Proof.
  intros l s d i x I HF HS (P & F & OK) HX. destruct l as [k|c|q|a|sm], s as [fx fy C n W B|n W B|t qx qy sx sy|ac]; cbn in HF; try contradiction.
  destruct HF as (FC & -> & ->). destruct OK as (A1 & F1 & F2).
  destruct (c_forward_first rand rmax sqrt c n x d I FC HX F (vol_pos1 d P) F1) as (c' & o & E1 & CI & CD & G1 & G2 & E2).
  exists (LConn c'), o. split; [split; [exact CI|exact CD]|]. split; [cbn in *; rewrite G1, G2; exact HS|].
  cbn [l_forward envR e_rand e_rmax e_sqrt]. rewrite E1, E2. split; [reflexivity|]. split; [reflexivity|].
  destruct (c_forward_ready rand rmax sqrt c' n (vol d) _ _ x d I CI HX F eq_refl) as (o' & Eo & Ho). rewrite E2 in Eo. injection Eo as <-. exact Ho.
Qed.

Lemma warm : forall ls ss d i x I b, net_is0 ls ss d -> List.Forall (fun l => slot_ok l i) ls -> net_ok ss d -> is_mat x d I ->
  exists ls1, net_is ls1 ss d /\ List.Forall (fun l => slot_ok l i) ls1 /\ fwd_layers ER (ls ++ b) x i = fwd_layers ER (ls1 ++ b) x i.
Proof.
  induction ls as [|l ls IH]; intros ss d i x I b HN HS OK HX; destruct ss as [|s ss]; cbn in HN; try contradiction.
  - exists []. cbn. auto.
  - destruct HN as [HL HN]. cbn in OK. destruct OK as [OK1 OK2]. inversion HS as [|? ? S1 S2]; subst.
    assert (W : exists l1 l' o, l_is l1 s d /\ slot_ok l1 i /\ l_forward ER x i l = ORet l' o /\ l_forward ER x i l1 = ORet l' o /\ is_mat o (s_out s d) (sem s d I)).
    { destruct HL as [HL|HL].
      - destruct (layer_fwd rand rmax l s d i x I HL S1 OK1 HX) as (l' & o & E1 & Ho & _). exists l, l', o. auto.
      - destruct (warm_layer l s d i x I HL S1 OK1 HX) as (l1 & o & A & B & C & D & F). exists l1, l1, o. auto. }
    destruct W as (l1 & l' & o & W1 & W2 & W3 & W4 & W5).
    destruct (IH ss (s_out s d) i o (sem s d I) b HN S2 OK2 W5) as (ls1 & N1 & N2 & N3).
    exists (l1 :: ls1). split; [cbn; auto|]. split; [constructor; auto|]. cbn [app fwd_layers]. rewrite W3, W4, N3.
    destruct (s_ok_out s d OK1) as [Po Fo]. destruct (copy_ok rand rmax o _ _ W5 Fo Po) as [(r & Er & _) _]. rewrite Er. reflexivity.
Qed.

(** A forward pass through such a network is a forward pass through the initialised network. *)
Theorem fresh_forward : forall layers ss d n i U (cast : U -> R) (input : mat U) J,
  network0 layers ss d n i -> net_ok ss d -> is_mat input d J ->
  exists layers1, network layers1 ss d n i /\ forward_pass ER cast n input i layers = forward_pass ER cast n input i layers1.
Proof.
  intros layers ss d n i U cast input J (ls & sm & EL & HC & HN & HS) OK HX. destruct (net_ok_head _ _ OK) as [Pd Fd].
  destruct (mat_of_lz_ok (n0 : R) cast (l_val input) tt d J Fd (iterable_pos d Pd) (is_mat_lz input d J tt HX Fd)) as (x & Ex & Hx).
  destruct (warm ls ss d i x _ [LSoft sm] HN HS OK Hx) as (ls1 & N1 & N2 & N3).
  destruct (copy_ok rand rmax x d _ Hx Fd Pd) as [(x0 & Ex0 & _) _].
  exists (ls1 ++ [LSoft sm]). split; [exists ls1, sm; auto|]. subst layers. unfold forward_pass, bind. rewrite Ex. cbn [lift].
  rewrite Ex0. cbn [lift]. rewrite N3. reflexivity.
Qed.

(** The gradients after the first pass are exact as well. *)
Theorem net_gradient0 : forall layers ss d n i U (cast : U -> R) (input : mat U) J idx,
  network0 layers ss d n i -> net_ok ss d -> net_bkc true ss d -> labels_ok (net_out ss d) n -> is_mat input d J -> 0 <= idx < n ->
  let I := fun x y z => cast (J x y z) in
  net_smooth ss d I ->
  exists layers1 r layers2 r', forward_pass ER cast n input i layers = ORet layers1 r /\
    backward_pass ER r idx i layers1 = ORet layers2 r' /\
    forall j s, nth_error ss j = Some s -> exists l DW DB, nth_error layers2 j = Some l /\ stored l s (net_dim ss d j) i DW DB /\
      (forall a b c Pt, inb (s_wdim s (net_dim ss d j)) a b c ->
        (forall t, net_prob rand rmax (upd ss j (setw s (fupd (s_w s) a b c t))) d I idx (Pt t)) ->
        is_derive (fun t => - ln (Pt t))%R (s_w s a b c) (DW a b c)) /\
      (forall a b c Pt, inb (s_bdim s) a b c ->
        (forall t, net_prob rand rmax (upd ss j (setb s (fupd (s_b s) a b c t))) d I idx (Pt t)) ->
        is_derive (fun t => - ln (Pt t))%R (s_b s a b c) (DB a b c)).
Proof.
  intros layers ss d n i U cast input J idx NW OK BK LO HJ Hidx I SM.
  destruct (fresh_forward layers ss d n i U cast input J NW OK HJ) as (layers0 & NW0 & ->).
  exact (net_gradient rand rmax layers0 ss d n i U cast input J idx NW0 OK BK LO HJ Hidx SM).
Qed.

(** *** Every configuration is the configuration of some network *)
Definition mk_layer (s : lspec) (d : dim3) : layer R :=
  match s with
  | SConv fx fy C n W B => LKernel (Kern (Par (mk_mat (D3 fx fy (C * n)) W) (mk_mat (D3 n 1 1) B) [mat_empty] [mat_empty]) (D3 fx fy C) 1 n)
  | SConn n W B => LConn (Conn (Par (mk_mat (D3 n (vol d) 1) W) (mk_mat (D3 n 1 1) B) [mat_empty] [mat_empty]) d true)
  | SPool t qx qy sx sy => LPool (Pool (D3 qx qy 1) (D3 sx sy 1) t [mat_empty])
  | SAct a => LAct (a_make a)
  end.
Fixpoint mk_net (ss : list lspec) (d : dim3) : list (layer R) := match ss with [] => [] | s :: r => mk_layer s d :: mk_net r (s_out s d) end.

Lemma mk_net_ok : forall ss d, net_ok ss d -> net_is (mk_net ss d) ss d /\ List.Forall (fun l => slot_ok l 0) (mk_net ss d).
Proof.
  induction ss as [|s ss IH]; intros d OK; cbn [mk_net net_is net_ok] in *; [auto|]. destruct OK as [OK1 OK2]. destruct (IH _ OK2) as [A B].
  pose proof OK1 as (P & F & OKs). pose proof (vol_pos1 d P) as VP.
  assert (C : l_is (mk_layer s d) s d /\ slot_ok (mk_layer s d) 0).
  { destruct s as [fx fy C n W B'|n W B'|t qx qy sx sy|a]; cbn [mk_layer l_is slot_ok].
    - destruct OKs as (A1 & A2 & A3 & A4 & F1 & F2 & F3). split; [|cbn; lia]. split; [|reflexivity]. unfold kernel_is. cbn [k_w k_b k_par p_w p_b k_dim k_n].
      pose proof (mk_mat_ok _ W F1). pose proof (mk_mat_ok _ B' F2). assert (1 <= C) by (unfold pos in P; lia).
      repeat (split; [first [assumption|lia]|]). split; reflexivity.
    - destruct OKs as (A1 & F1 & F2). split; [|cbn; lia]. split; [|reflexivity]. unfold conn_is. cbn [c_ready c_w c_b c_par p_w p_b].
      pose proof (mk_mat_ok _ W F1). pose proof (mk_mat_ok _ B' F2). auto 10.
    - split; [repeat split|]. exists mat_empty. split; reflexivity.
    - repeat split. }
  destruct C. auto.
Qed.
Theorem mk_network : forall ss d n, net_ok ss d -> network (mk_net ss d ++ [LSoft (sm_make n)]) ss d n 0.
Proof. intros ss d n OK. destruct (mk_net_ok ss d OK). exists (mk_net ss d), (sm_make n). auto. Qed.

(** The probability exists, is unique, positive and at most 1; over the labels it sums to 1. *)
Theorem net_prob_total : forall ss d n I, net_ok ss d -> labels_ok (net_out ss d) n ->
  exists P, (forall idx, 0 <= idx < n -> net_prob rand rmax ss d I idx (P idx) /\ (0 < P idx <= 1)%R /\ forall v, net_prob rand rmax ss d I idx v -> v = P idx).
Proof.
  intros ss d n I OK LO. destruct (net_ok_head _ _ OK) as [Pd Fd]. destruct (net_ok_out _ _ OK) as [Po Fo].
  destruct (forward_ok rand rmax _ ss d n 0 R (fun t => t) (mk_mat d I) I (mk_network ss d n OK) OK LO (mk_mat_ok d I Fd))
    as (ls & sm & ls' & x0 & rs & p & r & a & b & c & _ & _ & EF & RI & _ & _ & HP & _).
  set (dd := net_out ss d) in *.
  exists (fun idx => elem_no dd (soft dd (net_sem ss d I)) idx). intros idx Hidx.
  assert (IX : exists a b c, inb dd a b c /\ lin dd a b c = idx).
  { destruct LO as (_ & _ & LV). destruct dd as [X Y K] eqn:EDD. unfold pos in Po. cbn [dx dy dz] in *.
    destruct (idx_of_inb X Y K idx ltac:(lia) ltac:(lia)) as [Q1 Q2]; [unfold vol in LV; cbn [dx dy dz] in LV; lia|]. eauto. }
  destruct IX as (u & v & w & Hi & <-). rewrite elem_no_lin by exact Hi.
  split; [|split].
  - exists (mk_net ss d ++ [LSoft (sm_make n)]), n, 0, (mk_mat d I), (ls' ++ [LSoft sm]), r, p, (x0 :: rs).
    split; [apply mk_network; exact OK|]. split; [apply mk_mat_ok; exact Fd|]. split; [exact EF|]. split; [rewrite RI; reflexivity|].
    apply (is_mat_flat p dd _ u v w HP Hi).
  - apply soft_props; assumption.
  - intros v0 HV. exact (net_prob_value rand rmax ss d I u v w v0 n OK LO Hi HV).
Qed.

(** The result of a forward pass *)
Theorem forward_result : forall layers ss d n i U (cast : U -> R) (input : mat U) J,
  network0 layers ss d n i -> net_ok ss d -> labels_ok (net_out ss d) n -> is_mat input d J ->
  exists layers' r rs p P a b c, forward_pass ER cast n input i layers = ORet layers' r /\
    length (r_inputs r) = S (length layers) /\ r_inputs r = rs ++ [p] /\ is_mat p (net_out ss d) P /\ inb (net_out ss d) a b c /\
    r_label r = a + dx (net_out ss d) * b + dx (net_out ss d) * dy (net_out ss d) * c /\ r_conf r = P a b c /\
    (1 / IZR n <= r_conf r)%R /\ rsum3 (net_out ss d) P = 1%R /\
    (forall x y z, inb (net_out ss d) x y z -> (P x y z <= P a b c)%R /\ (0 < P x y z)%R) /\
    (forall x y z, inb (net_out ss d) x y z -> x + dx (net_out ss d) * y + dx (net_out ss d) * dy (net_out ss d) * z < r_label r -> (P x y z < P a b c)%R).
Proof.
  intros layers ss d n i U cast input J NW OK LO HJ. destruct (net_ok_out _ _ OK) as [Po Fo].
  destruct (fresh_forward layers ss d n i U cast input J NW OK HJ) as (layers0 & NW0 & EF).
  destruct (forward_ok rand rmax layers0 ss d n i U cast input J NW0 OK LO HJ)
    as (ls & sm & ls' & x0 & rs & p & r & a & b & c & EL & _ & EF' & RI & _ & _ & HP & _ & _ & _ & _ & Hi & RL & RC & Mx & Fs).
  rewrite EF' in EF. destruct (forward_records ER U cast n input i layers _ r EF) as (_ & x1 & rs1 & o1 & c1 & L1 & _ & _ & (r1 & _ & RI1) & _).
  eexists _, r, (x0 :: rs), p, _, a, b, c. split; [exact EF|]. split; [rewrite RI1; cbn; lia|]. split; [exact RI|]. split; [exact HP|].
  split; [exact Hi|]. split; [exact RL|]. split; [exact RC|]. destruct LO as (_ & _ & LV).
  split; [rewrite RC, <- LV; apply soft_max_ge; assumption|]. destruct (soft_props (net_out ss d) (net_sem ss d (fun x y z => cast (J x y z))) Po) as (S1 & S2 & _).
  split; [exact S2|]. split; [intros x y z H; split; [apply Mx; exact H|apply S1; exact H]|]. intros x y z H HL. rewrite RL in HL. apply Fs; assumption.
Qed.

(** The first pass through a fully connected layer creates its weights. *)
Theorem first_pass_changes : forall n, 1 <= n -> n < two31 -> exists c layers' r,
  c_make n = Ok c /\ forward_pass ER (fun t : R => t) n (mk_mat (D3 1 1 1) (fun _ _ _ => 1%R)) 0 [LConn c; LSoft (sm_make n)] = ORet layers' r /\
  map params_of layers' <> map params_of [LConn c; LSoft (sm_make n)].
Proof.
  intros n H1 H2. destruct (c_make_fresh (T := R) n H1 H2) as (c & Ec & FC & _).
  assert (FB : fits (D3 n 1 1)) by (unfold fits; cbn [dx dy dz]; rewrite (Z.max_r 1 n), (Z.max_r 1 1) by lia; lia).
  assert (F1 : fits (D3 1 1 1)) by (unfold fits, two31; cbn; lia).
  set (d := D3 1 1 1). set (J := fun _ _ _ : Z => 1%R).
  pose proof (mk_mat_ok d J F1) as HX.
  assert (EX : exists c' o, c_forward rand rmax sqrt (mk_mat d J) c = ORet c' o /\ conn_is c' n (vol d) (init_val rand rmax sqrt 0 (D3 n 1 1)) (init_val rand rmax sqrt (Z.of_nat (it_fuel (D3 n 1 1))) (D3 n 1 1)) /\ c_in c' = d
     /\ c_forward rand rmax sqrt (mk_mat d J) c' = ORet c' o).
  { destruct (c_forward_first rand rmax sqrt c n (mk_mat d J) d J FC HX F1 ltac:(cbn; lia) FB) as (c' & o & E1 & CI & CD & _ & _ & E2). exists c', o. auto. }
  assert (WG : forall c0 : connected R, c_make n = Ok c0 -> c_w c0 = Mat (D3 0 0 0) []).
  { intros c0 H. unfold c_make in H. destruct (mat_fill (D3 (s32 n) 1 1) (n0 : R)); cbn in H; try discriminate. injection H as <-. reflexivity. }
  destruct EX as (c' & o & E1 & CI & CD & E2).
  destruct (c_forward_ready rand rmax sqrt c' n (vol d) _ _ (mk_mat d J) d J CI HX F1 eq_refl) as (o' & Eo & Ho). rewrite E2 in Eo. injection Eo as <-.
  pose proof (proj1 (sm_forward_ok (sm_make n) o _ _ Ho FB ltac:(unfold pos; cbn; lia)) ltac:(cbn; unfold vol; cbn; lia)) as ES.
  destruct (sm_apply_ok o _ _ Ho FB ltac:(unfold pos; cbn; lia)) as (p & m & Ep & Hp & _). rewrite Ep in ES.
  assert (PB : pos (D3 n 1 1)) by (unfold pos; cbn; lia).
  destruct (mat_of_lz_ok (n0 : R) (fun t : R => t) (l_val (mk_mat d J)) tt d J F1 (iterable_pos d ltac:(unfold pos; cbn; lia)) (is_mat_lz (mk_mat d J) d J tt HX F1)) as (x & Ex & Hx).
  destruct (copy_ok rand rmax x d J Hx F1 ltac:(unfold pos; cbn; lia)) as [(x0 & Ex0 & _) _].
  assert (XE : x = mk_mat d J).
  { exact (is_mat_unique x (mk_mat d J) d J F1 Hx HX). }
  destruct (copy_ok rand rmax o _ _ Ho FB PB) as [(o0 & Eo0 & _) _]. destruct (copy_ok rand rmax p _ _ Hp FB PB) as [(p0 & Ep0 & _) _].
  destruct (max_ok unit (l_val p) tt _ _ (is_mat_lz p _ _ tt Hp FB) FB PB) as (a & b & e & Hi & _ & Em & _).
  destruct (member_index R NumR p _ _ strict_weak_R_max strict_weak_R_min Hp FB PB) as [MI _]. destruct (MI a b e Em) as [_ EI].
  exists c, [LConn c'; LSoft (sm_make n)]. eexists. split; [exact Ec|]. split.
  - unfold forward_pass, bind. fold d J. rewrite Ex. cbn [lift]. rewrite Ex0. cbn [lift]. rewrite XE. cbn [fwd_layers l_forward envR e_rand e_rmax e_sqrt e_exp].
    rewrite E1. cbn [map_out lift]. rewrite Eo0. cbn [fwd_layers l_forward envR e_exp]. rewrite ES. cbn [lift]. rewrite Ep0. cbn [fwd_layers map_out fst snd].
    rewrite (is_mat_dim _ _ _ Hp), base_size_fits by exact FB. cbn [lift]. unfold vol; cbn [dx dy dz]. rewrite !Z.mul_1_r, Z.eqb_refl. cbn [ret].
    rewrite EI. cbn [lift]. rewrite (is_mat_flat p _ _ a b e Hp Hi). reflexivity.
  - cbn [map params_of]. intros C. injection C as C _. destruct CI as (_ & (DW & _) & _). rewrite C, (WG c Ec) in DW. cbn in DW. injection DW as DW _. lia.
Qed.
End Fresh.
