(** validate with two threads: both can be writing to the same slot of a pooling layer at the same time. *)
From Coq Require Import ZArith List Bool Lia.
From Verif Require Import Base Dim Matrix View Num Expr Spec Iter Sums MatFacts MatThms Batch Kernel Connected Float32 FloatFacts Pooling Activation Softmax
  LayerFacts KernelThms ConnectedThms PoolingThms PoolGrad LayerTotal Chars Model Net NetGrad ModelThms Train TrainLocal TrainRest TrainSgd Shapes ShapeNet Mnist MnistFacts Validate ValidateFacts ValidateStep ValidateRun ValidateThms.
Import ListNotations.
Local Open Scope Z_scope.

Section Race.
Context {T : Type} {N : Num T} (E : env T) (cast : f32 -> T) (labels : list text).
Local Notation nl := (Z.of_nat (length labels)).

(** The next step of thread [t] writes an index to slot 0 of layer [j] (Pooling.cpp 67 or 75). *)
Definition writes_slot (j : nat) (g : vshared (T := T)) (t : nat) : Prop :=
  exists i m x recs o k idx q, nth_error (v_pcs g) t = Some (QWork i m (VPool j x recs o k idx)) /\ idx <> it_end (mdim o) /\
    nth_error (v_layers g) j = Some (LPool q) /\ q_type q <> PAvg.

(** Before the loop of pooling layer [j] *)
Definition before (j : nat) (v : vwork (T := T)) : Prop :=
  match v with VStart => True | VFwd i _ _ => (i <= j)%nat | VPool i _ _ _ _ _ => (i < j)%nat | VEnd _ => False end.

Lemma vstep_before : forall input v ls ls' v' j q, before j v -> nth_error ls j = Some (LPool q) -> vstep E cast labels input v ls = ORet ls' v' ->
  before j v' \/ exists x recs o, v' = VPool j x recs o 0 it_begin.
Proof.
  intros input v ls ls' v' j q B Q H. destruct v as [|i x recs|i x recs o k idx|r]; cbn in B; try contradiction.
  - cbn [vstep] in H. unfold bind in H. destruct (mat_of_lz n0 cast (l_val input) tt) as [x| |]; try discriminate. cbn [lift] in H.
    destruct (float_copy E x); try discriminate. cbn in H. injection H as _ <-. left. cbn. lia.
  - cbn [vstep] in H. destruct (nth_error ls i) as [l|] eqn:Ql.
    + destruct (Nat.eq_dec i j) as [->|D].
      * rewrite Q in Ql. injection Ql as <-. destruct (pool_begin x q); try discriminate. injection H as _ <-. right. eauto.
      * assert (K : (y <- on_nth i (l_forward E x 0) ;; r <- lift (float_copy E y) ;; ret (VFwd (S i) y (recs ++ [r])))%st ls = ORet ls' v' -> before j v').
        { intros K. unfold bind in K. destruct (on_nth i (l_forward E x 0) ls) as [s y| |]; try discriminate. destruct (float_copy E y); try discriminate. cbn in K. injection K as _ <-. cbn. lia. }
        destruct l as [a|a|a|a|a]; try (left; apply K; exact H). destruct (pool_begin x a); try discriminate. injection H as _ <-. left. cbn. lia.
    + exfalso. apply nth_error_None in Ql. assert (j < length ls)%nat by (apply nth_error_Some; congruence). lia.
  - cbn [vstep] in H. destruct (nth_error ls i) as [[a|a|a|a|a]|]; try discriminate. destruct (dim_eqb idx (it_end (mdim o))).
    + unfold bind in H. destruct (float_copy E o); try discriminate. cbn in H. injection H as _ <-. left. cbn. lia.
    + destruct (pool_element x o idx a); try discriminate. injection H as _ <-. left. cbn. lia.
Qed.

Context (ls : list (layer T)) (ss : list shape) (h w : Z) (big : bool) (limit n : Z) (fi fl : file) (nt : Z).
Hypothesis U : usable_net labels ls ss (D3 h w 1).
Hypothesis P : mnist limit n h w fi fl.
Hypothesis NT : 2 <= nt.
Hypothesis NN : n + nt <= 2 ^ 31.
Hypothesis N2 : 2 <= n.
Context (j : nat) (q0 : pooling) (QJ : nth_error ls j = Some (LPool q0)) (TY : q_type q0 <> PAvg).
Context (rs : Z -> results T) (A : alone E cast labels h w fi fl n ls rs).

Local Notation inv := (vinv E cast labels ss h w n fi fl none nt ls rs).
Local Notation step := (vgstep E cast labels big limit nt n).

Lemma two31_bound : n + nt <= two31.
Proof. unfold two31. exact NN. Qed.
Lemma pool_there : forall g, inv g -> exists q, nth_error (v_layers g) j = Some (LPool q) /\ q_type q = q_type q0.
Proof.
  intros g I. pose proof (iv_sims _ _ _ _ _ _ _ _ _ _ _ _ _ _ I) as S. destruct (sims_nth _ _ _ _ S QJ) as (l' & Q' & SL).
  inversion SL; subst; [|contradiction]. exists (Pool d st t i'). split; [exact Q'|reflexivity].
Qed.

(** Thread [t] alone, from its image to the loop of the layer *)
Lemma to_pool : forall c g t i m v, (Z.to_nat (wcost ss (D3 h w 1) v) <= c)%nat -> inv g -> nth_error (v_pcs g) t = Some (QWork i m v) -> before j v ->
  exists g' x recs o, vexec E cast labels big limit nt n g g' /\ inv g' /\ nth_error (v_pcs g') t = Some (QWork i m (VPool j x recs o 0 it_begin)) /\
    v_lock g' = v_lock g /\ (forall t', t' <> t -> nth_error (v_pcs g') t' = nth_error (v_pcs g) t').
Proof.
  induction c as [|c IH]; intros g t i m v C I Q B;
    (pose proof (iv_pcs _ _ _ _ _ _ _ _ _ _ _ _ _ _ I t _ Q) as PC; cbn in PC; destruct PC as (A1 & A2 & AL & A3 & A4 & A5));
    destruct U as [UB OK LO]; pose proof (wcost_pos labels ss (D3 h w 1) OK (v_layers g) v A4) as WP.
  - exfalso. destruct v; cbn in B; try contradiction; cbn [wcost] in *.
    + pose proof (lcost_pos ss (D3 h w 1) OK 0). lia.
    + pose proof (lcost_pos ss (D3 h w 1) OK j0). lia.
    + destruct A4 as (_ & _ & _ & K & _). pose proof (lcost_pos ss (D3 h w 1) OK (S j0)). lia.
  - assert (NE : forall r, v <> VEnd r) by (intros r ->; exact B).
    destruct (step_total E cast labels ss (D3 h w 1) OK LO (i_data m) v (v_layers g) (rs i) (iv_fit _ _ _ _ _ _ _ _ _ _ _ _ _ _ I) A4 (is_has _ _ _ (proj1 A3)) A5 NE)
      as (ls' & v' & ES & _ & _ & _ & _ & _ & CO).
    set (g1 := VSh ls' (v_reader g) (v_lock g) (v_count g) (upd (v_pcs g) t (QWork i m v'))).
    assert (ST : step t g = VNext g1) by (unfold vgstep; rewrite Q; destruct v; try contradiction; rewrite ES; reflexivity).
    pose proof (step_inv E cast labels ss h w OK LO big limit n fi fl (mn_n _ _ _ _ _ _ P) none (get_all big limit n h w fi fl P) nt ltac:(lia) two31_bound ls rs (fun i m Hi _ => A i m Hi) g t I) as I1. unfold step_result in I1. rewrite ST in I1.
    assert (TL : (t < length (v_pcs g))%nat) by (apply nth_error_Some; congruence).
    assert (Q1 : nth_error (v_pcs g1) t = Some (QWork i m v')) by (cbn; apply nth_error_upd_eq; exact TL).
    assert (X1 : vexec E cast labels big limit nt n g g1) by (eapply vx_step; [apply vx_nil|exact ST]).
    assert (O1 : forall t', t' <> t -> nth_error (v_pcs g1) t' = nth_error (v_pcs g) t') by (intros t' D; cbn; apply nth_error_upd_neq; lia).
    destruct (pool_there g I) as (q & QG & _). destruct (vstep_before _ _ _ _ _ j q B QG ES) as [B'|(x & recs & o & ->)].
    + destruct (IH g1 t i m v' ltac:(lia) I1 Q1 B') as (g' & x & recs & o & X & I' & Q' & LK & OT). exists g', x, recs, o. split.
      { clear - X1 X. induction X as [g1|g1 t' g2 g3 X IHX ST]; [exact X1|]. eapply vx_step; [apply IHX; exact X1|exact ST]. }
      split; [exact I'|]. split; [exact Q'|]. split; [exact LK|]. intros t' D. rewrite OT by exact D. apply O1. exact D.
    + exists g1, x, recs, o. auto.
Qed.

Lemma exec_trans : forall g g' g'', vexec E cast labels big limit nt n g g' -> vexec E cast labels big limit nt n g' g'' -> vexec E cast labels big limit nt n g g''.
Proof. intros g g' g'' X Y. induction Y as [g1|g1 t' g2 g3 Y IHY ST]; [exact X|]. eapply vx_step; [apply IHY; exact X|exact ST]. Qed.

(** From the loop to the image: the mutex is free before and after. *)
Lemma to_image : forall g t i, inv g -> nth_error (v_pcs g) t = Some (QLoop i) -> i < n -> v_lock g = None ->
  exists g' m, vexec E cast labels big limit nt n g g' /\ inv g' /\ nth_error (v_pcs g') t = Some (QWork i m VStart) /\ v_lock g' = None /\
    (forall t', t' <> t -> nth_error (v_pcs g') t' = nth_error (v_pcs g) t').
Proof.
  intros g t i I Q Hi LK. pose proof U as [UB OK LO]. pose proof (iv_pcs _ _ _ _ _ _ _ _ _ _ _ _ _ _ I t _ Q) as PC. cbn in PC.
  assert (TL : (t < length (v_pcs g))%nat) by (apply nth_error_Some; congruence).
  pose proof (fun g t => step_inv E cast labels ss h w OK LO big limit n fi fl (mn_n _ _ _ _ _ _ P) none (get_all big limit n h w fi fl P) nt ltac:(lia) two31_bound ls rs (fun i m Hi _ => A i m Hi) g t) as SI. unfold step_result in SI.
  set (g1 := VSh (v_layers g) (v_reader g) (v_lock g) (v_count g) (upd (v_pcs g) t (QLock i))).
  assert (S1 : step t g = VNext g1) by (unfold vgstep; rewrite Q, (proj2 (Z.ltb_lt _ _) Hi); reflexivity).
  assert (I1 : inv g1) by (specialize (SI g t I); rewrite S1 in SI; exact SI).
  assert (L1 : (t < length (v_pcs g1))%nat) by (cbn; rewrite upd_length; exact TL).
  assert (Q1 : nth_error (v_pcs g1) t = Some (QLock i)) by (cbn; apply nth_error_upd_eq; exact TL).
  set (g2 := VSh (v_layers g) (v_reader g) (Some t) (v_count g) (upd (v_pcs g1) t (QGet i))).
  assert (S2 : step t g1 = VNext g2) by (unfold vgstep; rewrite Q1; change (v_lock g1) with (v_lock g); rewrite LK; reflexivity).
  assert (I2 : inv g2) by (specialize (SI g1 t I1); rewrite S2 in SI; exact SI).
  assert (Q2 : nth_error (v_pcs g2) t = Some (QGet i)) by (cbn [g2 v_pcs]; apply nth_error_upd_eq; exact L1).
  assert (L2 : (t < length (v_pcs g2))%nat) by (cbn [g2 v_pcs]; rewrite upd_length; exact L1).
  pose proof (mn_n _ _ _ _ _ _ P) as NB.
  destruct (call_ok big limit n h w fi fl P (Get i) (v_reader g2) (iv_reader _ _ _ _ _ _ _ _ _ _ _ _ _ _ I2) (index_reachable limit n h w fi fl P i ltac:(lia))) as [(_ & r' & m & EC & _ & _ & _)|(B & _)]; [|lia].
  cbn [do_call] in EC.
  set (g3 := VSh (v_layers g) r' (Some t) (v_count g) (upd (v_pcs g2) t (QFree i m))).
  assert (S3 : step t g2 = VNext g3) by (unfold vgstep; rewrite Q2, u64_id31 by lia; rewrite EC; reflexivity).
  assert (I3 : inv g3) by (specialize (SI g2 t I2); rewrite S3 in SI; exact SI).
  assert (Q3 : nth_error (v_pcs g3) t = Some (QFree i m)) by (cbn [g3 v_pcs]; apply nth_error_upd_eq; exact L2).
  assert (L3 : (t < length (v_pcs g3))%nat) by (cbn [g3 v_pcs]; rewrite upd_length; exact L2).
  set (g4 := VSh (v_layers g) r' None (v_count g) (upd (v_pcs g3) t (QWork i m VStart))).
  assert (S4 : step t g3 = VNext g4) by (unfold vgstep; rewrite Q3; reflexivity).
  assert (I4 : inv g4) by (specialize (SI g3 t I3); rewrite S4 in SI; exact SI).
  exists g4, m. split; [|split; [exact I4|split; [|split; [reflexivity|]]]].
  - eapply vx_step; [|exact S4]. eapply vx_step; [|exact S3]. eapply vx_step; [|exact S2]. eapply vx_step; [|exact S1]. apply vx_nil.
  - cbn [g4 v_pcs]. apply nth_error_upd_eq. exact L3.
  - intros t' D. cbn [g4 g3 g2 g1 v_pcs]. rewrite !nth_error_upd_neq by lia. reflexivity.
Qed.

Theorem race : forall rd, usable n h w fi fl rd ->
  exists g, vexec E cast labels big limit nt n (vstart nt ls rd) g /\ writes_slot j g 0 /\ writes_slot j g 1.
Proof.
  intros rd UR. pose proof (un_fit labels _ _ _ U) as F. pose proof U as [UB OK LO].
  pose proof (start_inv E cast labels ss h w n fi fl (mn_n _ _ _ _ _ _ P) none nt ltac:(lia) two31_bound ls F rs rd UR) as I0.
  assert (ST : forall t, (t < 2)%nat -> nth_error (v_pcs (vstart nt ls rd)) t = Some (QLoop (Z.of_nat t))).
  { intros t Ht. cbn [vstart v_pcs]. rewrite nth_error_map. rewrite (nth_error_nth' _ 0%nat) by (rewrite seq_length; lia). rewrite seq_nth by lia. cbn [option_map Nat.add].
    rewrite s32_id by (unfold two31; lia). reflexivity. }
  destruct (to_image _ 0%nat 0 I0 (ST 0%nat ltac:(lia)) ltac:(lia) eq_refl) as (g1 & m0 & X1 & I1 & Q1 & LK1 & O1).
  destruct (to_pool (Z.to_nat (wcost ss (D3 h w 1) VStart)) g1 0%nat 0 m0 VStart (Nat.le_refl _) I1 Q1 Logic.I) as (g2 & x0 & rc0 & o0 & X2 & I2 & Q2 & LK2 & O2).
  assert (QS : nth_error (v_pcs g2) 1 = Some (QLoop 1)) by (rewrite O2, O1 by lia; apply (ST 1%nat); lia).
  destruct (to_image g2 1%nat 1 I2 QS ltac:(lia) ltac:(congruence)) as (g3 & m1 & X3 & I3 & Q3 & LK3 & O3).
  destruct (to_pool (Z.to_nat (wcost ss (D3 h w 1) VStart)) g3 1%nat 1 m1 VStart (Nat.le_refl _) I3 Q3 Logic.I) as (g4 & x1 & rc1 & o1 & X4 & I4 & Q4 & LK4 & O4).
  assert (Q0 : nth_error (v_pcs g4) 0 = Some (QWork 0 m0 (VPool j x0 rc0 o0 0 it_begin))) by (rewrite O4, O3 by lia; exact Q2).
  exists g4. split; [exact (exec_trans _ _ _ (exec_trans _ _ _ (exec_trans _ _ _ X1 X2) X3) X4)|].
  destruct (pool_there g4 I4) as (q & QG & TQ).
  assert (W : forall t i m x rc o, nth_error (v_pcs g4) t = Some (QWork i m (VPool j x rc o 0 it_begin)) -> writes_slot j g4 t).
  { intros t i m x rc o Q. exists i, m, x, rc, o, 0, it_begin, q. split; [exact Q|]. split; [|split; [exact QG|congruence]].
    pose proof (iv_pcs _ _ _ _ _ _ _ _ _ _ _ _ _ _ I4 t _ Q) as PC. cbn in PC. destruct PC as (_ & _ & _ & _ & (_ & _ & (HO & _) & _) & _). change (mdim o = dim_at ss (D3 h w 1) (S j)) in HO. rewrite HO.
    destruct (dim_at_good ss (D3 h w 1) OK (S j)) as [(P1 & P2 & P3) _]. intros C. apply (f_equal dz) in C. cbn [it_begin it_end dz] in C. lia. }
  split; eapply W; eassumption.
Qed.

(** What is used by one thread at a time, or only read *)
Theorem shared_use : forall rd g, usable n h w fi fl rd -> vexec E cast labels big limit nt n (vstart nt ls rd) g ->
  (forall t t' i i', nth_error (v_pcs g) t = Some (QGet i) -> nth_error (v_pcs g) t' = Some (QGet i') -> t = t') /\
  (forall k l, nth_error ls k = Some l -> (forall q, l <> LPool q) -> nth_error (v_layers g) k = Some l) /\
  (forall k q, nth_error ls k = Some (LPool q) -> exists q', nth_error (v_layers g) k = Some (LPool q') /\ q_dim q' = q_dim q /\ q_stride q' = q_stride q /\ q_type q' = q_type q).
Proof.
  intros rd g UR X. pose proof (un_fit labels _ _ _ U) as F. pose proof U as [UB OK LO].
  pose proof (exec_inv E cast labels ss h w OK LO big limit n fi fl (mn_n _ _ _ _ _ _ P) none (get_all big limit n h w fi fl P) nt ltac:(lia) two31_bound ls rs (fun i m Hi _ => A i m Hi) _ _ (start_inv E cast labels ss h w n fi fl (mn_n _ _ _ _ _ _ P) none nt ltac:(lia) two31_bound ls F rs rd UR) X) as I.
  split; [|split].
  - intros t t' i i' Q Q'. pose proof (iv_lock _ _ _ _ _ _ _ _ _ _ _ _ _ _ I _ _ Q eq_refl) as L1. pose proof (iv_lock _ _ _ _ _ _ _ _ _ _ _ _ _ _ I _ _ Q' eq_refl) as L2. congruence.
  - intros k l Q NP. destruct (sims_nth _ _ _ _ (iv_sims _ _ _ _ _ _ _ _ _ _ _ _ _ _ I) Q) as (l' & Q' & SL). inversion SL; subst; [edestruct NP; reflexivity|exact Q'].
  - intros k q Q. destruct (sims_nth _ _ _ _ (iv_sims _ _ _ _ _ _ _ _ _ _ _ _ _ _ I) Q) as (l' & Q' & SL). inversion SL; subst; [|contradiction].
    exists (Pool d st t i'). auto.
Qed.
End Race.
