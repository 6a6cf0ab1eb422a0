(** Whole networks over the real numbers: forward pass, backward pass and the chain rule. *)
From Coq Require Import ZArith List Bool Lia Reals Lra FunctionalExtensionality.
From Coquelicot Require Import Coquelicot.
From Verif Require Import Base Dim Matrix View Num Expr Spec Iter Sums MatFacts MatThms ExprThms Batch Kernel Connected Float32
  FloatFacts Pooling Activation Softmax LayerFacts KernelThms Calc KernelGrad BatchThms ConnectedThms PoolingThms PoolGrad
  ActivationThms SoftmaxThms LayerTotal Chars Model Net.
Import ListNotations.
Local Open Scope Z_scope.

(** *** One layer whose parameters and input depend on a real number *)
Definition smooth (s : lspec) (d : dim3) (I : fn) : Prop :=
  match s with
  | SAct a => forall x y z, inb d x y z -> act_smooth a (I x y z)
  | SPool PAvg _ _ _ _ => True
  | SPool t qx qy sx sy => exists SF, strict_sel t (pgeom qx qy sx sy d) I SF
  | _ => True
  end.

Section Curve.
Context (rand : Z -> Z) (rmax : Z).

Lemma conv_sem_gives : forall fx fy C n W B d I, s_ok (SConv fx fy C n W B) d ->
  conv_gives fx fy C n (dx d) (dy d) W B I (sem (SConv fx fy C n W B) d I).
Proof.
  intros fx fy C n W B d I (P & F & A1 & A2 & A3 & A4 & F1 & F2 & F3).
  set (k := Kern (Par (mk_mat (D3 fx fy (C * n)) W) (mk_mat (D3 n 1 1) B) [] []) (D3 fx fy C) 1 n).
  assert (F' : fits (D3 (dx d) (dy d) C)) by (rewrite A3; destruct d; exact F).
  assert (HC : 1 <= C) by (unfold pos in P; lia).
  assert (K : kernel_is k fx fy C n W B).
  { unfold kernel_is. cbn [k k_w k_b k_par p_w p_b k_dim k_n]. pose proof (mk_mat_ok _ W F1). pose proof (mk_mat_ok _ B F2).
    repeat (split; [first [assumption|lia]|]). split; reflexivity. }
  destruct (k_forward_ok k (mk_mat _ I) fx fy C n (dx d) (dy d) W B I K eq_refl (mk_mat_ok _ I F') F' ltac:(lia) ltac:(lia) F3) as (o & Eo & Ho).
  exists k, (mk_mat (D3 (dx d) (dy d) C) I), o. split; [exact K|]. split; [reflexivity|]. split; [apply mk_mat_ok; exact F'|]. split; [exact Eo|exact Ho].
Qed.

Lemma conn_sem_gives : forall n W B d I, s_ok (SConn n W B) d -> conn_gives rand rmax n (vol d) d W B I (sem (SConn n W B) d I).
Proof.
  intros n W B d I (P & F & A1 & F1 & F2). pose proof (vol_pos1 d P).
  set (c := Conn (Par (mk_mat (D3 n (vol d) 1) W) (mk_mat (D3 n 1 1) B) [] []) d true).
  assert (K : conn_is c n (vol d) W B).
  { unfold conn_is. cbn [c c_ready c_w c_b c_par p_w p_b]. pose proof (mk_mat_ok _ W F1). pose proof (mk_mat_ok _ B F2). auto 10. }
  destruct (c_forward_ready rand rmax sqrt c n (vol d) W B (mk_mat d I) d I K (mk_mat_ok d I F) F eq_refl) as (o & Eo & Ho).
  exists c, (mk_mat d I), o. split; [exact K|]. split; [apply mk_mat_ok; exact F|]. split; [exact Eo|exact Ho].
Qed.

Lemma pool_sem_gives : forall t qx qy sx sy d I, s_ok (SPool t qx qy sx sy) d ->
  pool_gives t (pgeom qx qy sx sy d) I (sem (SPool t qx qy sx sy) d I).
Proof.
  intros t qx qy sx sy d I OK. pose proof OK as (P & F & GO).
  set (q := Pool (D3 qx qy 1) (D3 sx sy 1) t [mat_empty]).
  assert (HL : l_is (LPool q) (SPool t qx qy sx sy) d) by (cbn; repeat split).
  assert (HS : slot_ok (LPool (T := R) q) 0) by (exists mat_empty; split; reflexivity).
  destruct (layer_fwd rand rmax (LPool q) _ d 0 (mk_mat d I) I HL HS OK (mk_mat_ok d I F)) as (l' & o & Eo & Ho & _).
  cbn [l_forward] in Eo. destruct (q_forward (mk_mat d I) 0 q) as [q' o'| |] eqn:Q; cbn in Eo; try discriminate. injection Eo as <- <-.
  exists q, (mk_mat d I), 0, mat_empty, q', o'. split; [repeat split|]. split; [reflexivity|].
  split; [rewrite pgeom_dim; apply mk_mat_ok; exact F|]. split; [reflexivity|]. split; [reflexivity|]. split; [exact Q|exact Ho].
Qed.

Lemma layer_curve : forall s d (It Wt Bt : R -> fn) t0 (I' W' B' G : fn), s_ok s d -> smooth s d (It t0) ->
  dcurve d It t0 I' -> dcurve (s_wdim s d) Wt t0 W' -> dcurve (s_bdim s) Bt t0 B' ->
  let s0 := setp s (Wt t0) (Bt t0) in
  exists O', dcurve (s_out s d) (fun t => sem (setp s (Wt t) (Bt t)) d (It t)) t0 O' /\
    dotp (s_out s d) G O' = (dotp d (s_dx s0 d (It t0) G) I' + (dotp (s_wdim s d) (s_dw s0 d (It t0) G) W' + dotp (s_bdim s) (s_db s0 d G) B'))%R.
Proof.
  intros s d It Wt Bt t0 I' W' B' G OK SM DI DW DB. pose proof OK as (P & F & OKs).
  destruct s as [fx fy C n W B|n W B|t qx qy sx sy|a]; cbn [setp s_out s_wdim s_bdim s_dx s_dw s_db] in *; cbv zeta.
  - destruct OKs as (A1 & A2 & A3 & A4 & F1 & F2 & F3).
    assert (F' : fits (D3 (dx d) (dy d) C)) by (rewrite A3; destruct d; exact F).
    assert (DI' : dcurve (D3 (dx d) (dy d) C) It t0 I') by (rewrite A3; destruct d; exact DI).
    destruct (conv_curve fx fy C n (dx d) (dy d) Wt Bt It (fun t => sem (SConv fx fy C n (Wt t) (Bt t)) d (It t)) t0 W' B' I' G
      ltac:(lia) ltac:(lia) ltac:(unfold pos in P; lia) ltac:(lia) F' ltac:(lia) ltac:(lia) F3 DI' DW DB) as (O' & D1 & D2).
    { apply filter_forall. intros t. apply conv_sem_gives. exact OK. }
    exists O'. split; [exact D1|]. rewrite D2. rewrite A3. destruct d as [X Y K]; cbn [dx dy dz]. ring.
  - destruct (conn_curve rand rmax n (vol d) d Wt Bt It (fun t => sem (SConn n (Wt t) (Bt t)) d (It t)) t0 W' B' I' G F eq_refl DW DB DI) as (O' & D1 & D2).
    { apply filter_forall. intros t. apply conn_sem_gives. exact OK. }
    exists O'. split; [exact D1|]. rewrite D2. ring.
  - assert (Z0 : forall A B, dotp (D3 0 0 0) A B = 0%R) by reflexivity. rewrite !Z0, !Rplus_0_r.
    assert (DI' : dcurve (xdim (pgeom qx qy sx sy d)) It t0 I') by (rewrite pgeom_dim; exact DI).
    assert (L : locally t0 (fun u => pool_gives t (pgeom qx qy sx sy d) (It u) (sem (SPool t qx qy sx sy) d (It u)))).
    { apply filter_forall. intros u. apply pool_sem_gives. exact OK. }
    assert (D : t = PAvg \/ t <> PAvg) by (destruct t; [right|right|left]; congruence). destruct D as [-> | D].
    + destruct (avg_curve _ It _ t0 I' G OKs DI' L) as (O' & D1 & D2). rewrite pgeom_dim in D2. exists O'. split; [exact D1|exact D2].
    + assert (SM' : exists SF, strict_sel t (pgeom qx qy sx sy d) (It t0) SF) by (destruct t; [exact SM|exact SM|congruence]).
      destruct SM' as (SF & SS).
      destruct (ext_curve t _ It _ t0 I' SF G D OKs DI' SS L) as (O' & D1 & D2). rewrite pgeom_dim in D2. exists O'. split; [exact D1|].
      rewrite D2. assert (EQ : forall x y z, inb d x y z -> sel_dx (pgeom qx qy sx sy d) SF G x y z =
                          sel_dx (pgeom qx qy sx sy d) (pool_sel t (pgeom qx qy sx sy d) (It t0)) G x y z).
      { intros x y z Hi. unfold sel_dx. rewrite !scatter_R by (apply odim_fits; exact OKs). apply rsum3_ext. intros i j c Hc.
        rewrite (strict_selected t _ (It t0) SF i j c _ SS Hc (pool_sel_ok t _ (It t0) OKs D i j c Hc)). reflexivity. }
      rewrite (dotp_ext d _ I' _ I' EQ ltac:(reflexivity)). destruct t; [reflexivity|reflexivity|congruence].
  - assert (Z0 : forall A B, dotp (D3 0 0 0) A B = 0%R) by reflexivity. rewrite !Z0, !Rplus_0_r.
    destruct (act_curve a d It (fun t x y z => act_R a (It t x y z)) t0 I' G DI SM) as (O' & D1 & D2).
    { apply filter_forall. reflexivity. }
    exists O'. split; [exact D1|exact D2].
Qed.
End Curve.

(** *** Networks *)
Fixpoint net_out (ss : list lspec) (d : dim3) : dim3 := match ss with [] => d | s :: r => net_out r (s_out s d) end.
Fixpoint net_sem (ss : list lspec) (d : dim3) (I : fn) : fn := match ss with [] => I | s :: r => net_sem r (s_out s d) (sem s d I) end.
Fixpoint net_ok (ss : list lspec) (d : dim3) : Prop := match ss with [] => pos d /\ fits d | s :: r => s_ok s d /\ net_ok r (s_out s d) end.
Fixpoint net_bk (ss : list lspec) (d : dim3) : Prop := match ss with [] => True | s :: r => s_bk s d /\ net_bk r (s_out s d) end.
Fixpoint net_smooth (ss : list lspec) (d : dim3) (I : fn) : Prop :=
  match ss with [] => True | s :: r => smooth s d I /\ net_smooth r (s_out s d) (sem s d I) end.
Fixpoint net_dx (ss : list lspec) (d : dim3) (I G : fn) : fn :=
  match ss with [] => G | s :: r => s_dx s d I (net_dx r (s_out s d) (sem s d I) G) end.
Fixpoint net_grads (ss : list lspec) (d : dim3) (I G : fn) : list (fn * fn) :=
  match ss with
  | [] => []
  | s :: r => let G1 := net_dx r (s_out s d) (sem s d I) G in
              (s_dw s d I G1, s_db s d G1) :: net_grads r (s_out s d) (sem s d I) G
  end.
Fixpoint net_is (ls : list (layer R)) (ss : list lspec) (d : dim3) : Prop :=
  match ls, ss with
  | [], [] => True
  | l :: ls', s :: ss' => l_is l s d /\ net_is ls' ss' (s_out s d)
  | _, _ => False
  end.
Fixpoint net_recorded (ls : list (layer R)) (ss : list lspec) (d : dim3) (i : Z) (I : fn) : Prop :=
  match ls, ss with
  | l :: ls', s :: ss' => recorded l s d i I /\ net_recorded ls' ss' (s_out s d) i (sem s d I)
  | _, _ => True
  end.
Fixpoint recs_are (rs : list (mat R)) (ss : list lspec) (d : dim3) (I : fn) : Prop :=
  match rs, ss with
  | [], [] => True
  | r :: rs', s :: ss' => is_mat r (s_out s d) (sem s d I) /\ recs_are rs' ss' (s_out s d) (sem s d I)
  | _, _ => False
  end.
Fixpoint net_stored (ls : list (layer R)) (ss : list lspec) (d : dim3) (i : Z) (gs : list (fn * fn)) : Prop :=
  match ls, ss, gs with
  | [], [], [] => True
  | l :: ls', s :: ss', g :: gs' => stored l s d i (fst g) (snd g) /\ net_stored ls' ss' (s_out s d) i gs'
  | _, _, _ => False
  end.

(** A network whose parameters depend on a real number *)
Record pcurve := PC { pc_s : lspec; pc_w : R -> fn; pc_b : R -> fn; pc_w' : fn; pc_b' : fn }.
Definition pc_at (t : R) (p : pcurve) : lspec := setp (pc_s p) (pc_w p t) (pc_b p t).
Fixpoint pc_ok (cs : list pcurve) (d : dim3) (t0 : R) : Prop :=
  match cs with
  | [] => True
  | p :: r => dcurve (s_wdim (pc_s p) d) (pc_w p) t0 (pc_w' p) /\ dcurve (s_bdim (pc_s p)) (pc_b p) t0 (pc_b' p) /\
              pc_ok r (s_out (pc_s p) d) t0
  end.
(** Σ over the parameters of gradient times direction *)
Fixpoint gdot (cs : list pcurve) (d : dim3) (gs : list (fn * fn)) : R :=
  match cs, gs with
  | p :: r, g :: gr => ((dotp (s_wdim (pc_s p) d) (fst g) (pc_w' p) + dotp (s_bdim (pc_s p)) (snd g) (pc_b' p)) + gdot r (s_out (pc_s p) d) gr)%R
  | _, _ => 0%R
  end.

Lemma net_out_at : forall cs t d, net_out (map (pc_at t) cs) d = net_out (map pc_s cs) d.
Proof. induction cs; intros; cbn [map net_out]; [reflexivity|]. unfold pc_at at 2. rewrite s_out_setp. apply IHcs. Qed.
Lemma s_wdim_setp : forall s d W B, s_wdim (setp s W B) d = s_wdim s d.
Proof. destruct s; reflexivity. Qed.
Lemma s_bdim_setp : forall s W B, s_bdim (setp s W B) = s_bdim s.
Proof. destruct s; reflexivity. Qed.
Lemma smooth_setp : forall s d W B I, smooth (setp s W B) d I <-> smooth s d I.
Proof. destruct s; intros; reflexivity. Qed.

Section NetCurve.
Context (rand : Z -> Z) (rmax : Z).

(** Chain rule for a network of any depth *)
Lemma net_curve : forall cs d (It : R -> fn) t0 (I' G : fn), net_ok (map pc_s cs) d -> net_smooth (map (pc_at t0) cs) d (It t0) ->
  dcurve d It t0 I' -> pc_ok cs d t0 ->
  exists O', dcurve (net_out (map pc_s cs) d) (fun t => net_sem (map (pc_at t) cs) d (It t)) t0 O' /\
    dotp (net_out (map pc_s cs) d) G O' =
      (dotp d (net_dx (map (pc_at t0) cs) d (It t0) G) I' + gdot cs d (net_grads (map (pc_at t0) cs) d (It t0) G))%R.
Proof.
  induction cs as [|p r IH]; intros d It t0 I' G OK SM DI PO.
  - exists I'. cbn. split; [exact DI|ring].
  - cbn [map net_ok net_out net_sem net_dx net_grads pc_ok net_smooth gdot] in *.
    destruct OK as [OK1 OK2]. destruct SM as [SM1 SM2]. destruct PO as (PW & PB & PO).
    assert (EO : forall t, s_out (pc_at t p) d = s_out (pc_s p) d) by (intros; unfold pc_at; apply s_out_setp).
    assert (SM1' : smooth (pc_s p) d (It t0)) by (unfold pc_at in SM1; rewrite smooth_setp in SM1; exact SM1).
    rewrite EO in SM2.
    set (M := fun t => sem (pc_at t p) d (It t)).
    set (G1 := net_dx (map (pc_at t0) r) (s_out (pc_at t0 p) d) (sem (pc_at t0 p) d (It t0)) G).
    destruct (layer_curve rand rmax (pc_s p) d It (pc_w p) (pc_b p) t0 I' (pc_w' p) (pc_b' p) G1 OK1 SM1' DI PW PB) as (M' & DM & EM).
    destruct (IH (s_out (pc_s p) d) M t0 M' G OK2 SM2 DM PO) as (O' & DO & EOq).
    exists O'. split.
    + intros x y z Hi. apply (is_derive_ext (fun t => net_sem (map (pc_at t) r) (s_out (pc_s p) d) (M t) x y z)).
      * intros t. rewrite EO. reflexivity.
      * apply DO. exact Hi.
    + rewrite EOq. unfold M. rewrite <- (EO t0) at 1 2 4 5. fold G1. rewrite (EO t0). rewrite EM. unfold pc_at. cbn [fst snd]. ring.
Qed.
End NetCurve.
