(** The batch update is a descent step: derivative of the batch loss in the learning rate. *)
From Coq Require Import ZArith List Bool Lia Reals Lra Permutation FunctionalExtensionality.
From Coquelicot Require Import Coquelicot.
From Verif Require Import Base Dim Matrix View Num Expr Spec Iter Sums MatFacts MatThms ExprThms Batch Kernel Connected Float32
  FloatFacts Pooling Activation Softmax LayerFacts KernelThms Calc KernelGrad BatchThms ConnectedThms PoolingThms PoolGrad
  ActivationThms SoftmaxThms LayerTotal Chars Model Net NetThms NetPass NetGrad ModelThms
  Train TrainLocal TrainRest TrainInv TrainData TrainEnd TrainThms TrainEpoch TrainNet TrainSgd.
Import ListNotations.
Local Open Scope Z_scope.
Local Notation stored := Net.stored.

(** The mean of the gradients of the data points *)
Fixpoint mean_grads (n : nat) (gss : list (list (fn * fn))) : list (fn * fn) :=
  match n with
  | O => []
  | S m => ((fun x y z => rmean (map (fun gs => fst (nth 0 gs nog) x y z) gss)),
            (fun x y z => rmean (map (fun gs => snd (nth 0 gs nog) x y z) gss))) :: mean_grads m (map (@tl _) gss)
  end.
(** Sum of the squares of all elements *)
Fixpoint norm2 (ss : list lspec) (d : dim3) (gs : list (fn * fn)) : R :=
  match ss, gs with
  | s :: r, g :: gr => (dotp (s_wdim s d) (fst g) (fst g) + dotp (s_bdim s) (snd g) (snd g) + norm2 r (s_out s d) gr)%R
  | _, _ => 0%R
  end.

(** *** Means *)
Lemma rmean_plus : forall {A} (f g : A -> R) l, rmean (map (fun a => f a + g a)%R l) = (rmean (map f l) + rmean (map g l))%R.
Proof.
  intros A f g l. unfold rmean. rewrite !map_length. unfold Rdiv. rewrite <- Rmult_plus_distr_r. f_equal.
  induction l as [|a l IH]; cbn [map fold_right]; [lra|]. rewrite IH. lra.
Qed.
Lemma rmean_zero : forall {A} (l : list A), rmean (map (fun _ => 0%R) l) = 0%R.
Proof. intros A l. unfold rmean. replace (fold_right Rplus 0%R (map (fun _ => 0%R) l)) with 0%R; [unfold Rdiv; ring|]. induction l; cbn; lra. Qed.
Lemma rmean_ext : forall {A} (f g : A -> R) l, (forall a, In a l -> f a = g a) -> rmean (map f l) = rmean (map g l).
Proof. intros A f g l H. f_equal. apply map_ext_in. exact H. Qed.
Lemma dotp_add_l : forall d F G V, dotp d (fun x y z => F x y z + G x y z)%R V = (dotp d F V + dotp d G V)%R.
Proof. intros. rewrite dotp_comm, dotp_plus, !(dotp_comm _ V). reflexivity. Qed.
Lemma dotp_scal_l : forall d k F V, dotp d (fun x y z => F x y z * k)%R V = (dotp d F V * k)%R.
Proof. intros. unfold dotp. rewrite (Rmult_comm _ k), <- rsum3_scal. apply rsum3_ext. intros. ring. Qed.
Lemma rmean_dotp : forall {A} d (F : A -> fn) V l, rmean (map (fun a => dotp d (F a) V) l) = dotp d (fun x y z => rmean (map (fun a => F a x y z) l)) V.
Proof.
  intros A d F V l.
  assert (S : fold_right Rplus 0%R (map (fun a => dotp d (F a) V) l) = dotp d (fun x y z => fold_right Rplus 0%R (map (fun a => F a x y z) l)) V).
  { induction l as [|a l IH]; cbn [map fold_right]; [rewrite dotp_comm, dotp_0; reflexivity|]. rewrite IH, dotp_add_l. reflexivity. }
  unfold rmean. rewrite map_length, S. unfold Rdiv. rewrite <- dotp_scal_l. apply dotp_ext; intros; [rewrite map_length; reflexivity|reflexivity].
Qed.
Lemma is_derive_rmean : forall {A} (f : R -> A -> R) (f' : A -> R) t0 l, (forall a, In a l -> is_derive (fun t => f t a) t0 (f' a)) ->
  is_derive (fun t => rmean (map (f t) l)) t0 (rmean (map f' l)).
Proof.
  intros A f f' t0 l H. unfold rmean. rewrite map_length.
  apply (is_derive_ext (fun t => (/ INR (length l)) * fold_right Rplus 0 (map (f t) l))%R). { intros t. rewrite map_length. unfold Rdiv. apply Rmult_comm. }
  replace (fold_right Rplus 0%R (map f' l) / INR (length l))%R with (/ INR (length l) * fold_right Rplus 0 (map f' l))%R by (unfold Rdiv; ring).
  apply is_derive_scal. induction l as [|a l IH]; cbn [map fold_right]; [apply @is_derive_const|].
  apply @is_derive_plus; [apply H; left; reflexivity|]. apply IH. intros b Hb. apply H. right. exact Hb.
Qed.

(** *** The line of the update *)
Fixpoint line (ss : list lspec) (gss : list (list (fn * fn))) : list pcurve :=
  match ss with
  | [] => []
  | s :: r => PC s (fun t x y z => (s_w s x y z - t * rmean (map (fun gs => fst (nth 0 gs nog) x y z) gss))%R)
                   (fun t x y z => (s_b s x y z - t * rmean (map (fun gs => snd (nth 0 gs nog) x y z) gss))%R)
                   (fun x y z => (- rmean (map (fun gs => fst (nth 0 gs nog) x y z) gss))%R)
                   (fun x y z => (- rmean (map (fun gs => snd (nth 0 gs nog) x y z) gss))%R) :: line r (map (@tl _) gss)
  end.
Lemma line_at : forall t ss gss, map (pc_at t) (line ss gss) = sgd t ss gss.
Proof. induction ss as [|s ss IH]; intros gss; [reflexivity|]. cbn [line map sgd]. rewrite IH. reflexivity. Qed.
Lemma line_s : forall ss gss, map pc_s (line ss gss) = ss.
Proof. induction ss as [|s ss IH]; intros gss; [reflexivity|]. cbn [line map]. rewrite IH. reflexivity. Qed.
Lemma sgd_zero : forall ss gss, sgd 0 ss gss = ss.
Proof.
  induction ss as [|s ss IH]; intros gss; [reflexivity|]. cbn [sgd]. rewrite IH. f_equal. transitivity (setp s (s_w s) (s_b s)); [|apply setp_self].
  f_equal; extensionality x; extensionality y; extensionality z; ring.
Qed.
Lemma line_ok : forall ss gss d t0, pc_ok (line ss gss) d t0.
Proof.
  induction ss as [|s ss IH]; intros gss d t0; [exact Logic.I|]. cbn [line pc_ok pc_s pc_w pc_b pc_w' pc_b'].
  split; [|split; [|apply IH]]; intros x y z _; auto_derive; auto; ring.
Qed.
Lemma mean_gdot : forall cs d gss, List.Forall (fun g => length g = length cs) gss ->
  rmean (map (gdot cs d) gss) = gdot cs d (mean_grads (length cs) gss).
Proof.
  induction cs as [|p cs IH]; intros d gss HL; cbn [gdot mean_grads length]; [apply rmean_zero|].
  rewrite <- (IH (s_out (pc_s p) d) (map (@tl _) gss)).
  2:{ apply Forall_forall. intros g HG. apply in_map_iff in HG. destruct HG as (g0 & <- & HG). rewrite Forall_forall in HL. specialize (HL g0 HG). destruct g0; cbn in *; lia. }
  rewrite map_map. cbn [fst snd]. rewrite <- !rmean_dotp, <- !rmean_plus. apply rmean_ext. intros g HG. rewrite Forall_forall in HL. specialize (HL g HG).
  destruct g as [|g0 g]; [discriminate|]. reflexivity.
Qed.
Lemma line_length : forall ss gss, length (line ss gss) = length ss.
Proof. induction ss; intros; cbn; auto. Qed.
Lemma line_gdot : forall ss gss d, gdot (line ss gss) d (mean_grads (length ss) gss) = (- norm2 ss d (mean_grads (length ss) gss))%R.
Proof.
  induction ss as [|s ss IH]; intros gss d; cbn [line gdot mean_grads length norm2 pc_s pc_w' pc_b' fst snd]; [lra|]. rewrite IH.
  assert (N : forall d F, dotp d F (fun x y z => - F x y z)%R = (- dotp d F F)%R).
  { intros. unfold dotp. rewrite (rsum3_ext _ _ (fun x y z => (-1) * (F x y z * F x y z))%R) by (intros; ring). rewrite rsum3_scal. ring. }
  rewrite !N. ring.
Qed.

Section Descent.
Context (rand : Z -> Z) (rmax : Z).
Local Notation ER := (envR rand rmax).

(** The loss of one data point: input [I], label number [k] *)
Definition point_loss (ss : list lspec) (d : dim3) (I : fn) (k : Z) : R :=
  let dd := net_out ss d in let i := idx_of (dx dd) (dy dd) k in nll dd (net_sem ss d I) (dx i) (dy i) (dz i).

Theorem descent : forall (pts : list (fn * Z)) ss d n, net_ok ss d -> labels_ok (net_out ss d) n ->
  (forall I k, In (I, k) pts -> net_smooth ss d I /\ 0 <= k < n) ->
  let gss := map (fun p => label_grad ss d (fst p) (snd p)) pts in
  is_derive (fun lr => rmean (map (fun p => point_loss (sgd lr ss gss) d (fst p) (snd p)) pts)) 0%R (- norm2 ss d (mean_grads (length ss) gss))%R.
Proof.
  intros pts ss d n OK (Z1 & Z2 & Z3) HP gss. rewrite <- line_gdot.
  replace (mean_grads (length ss) gss) with (mean_grads (length (line ss gss)) gss) by (rewrite line_length; reflexivity).
  rewrite <- (mean_gdot (line ss gss) d gss).
  2:{ apply Forall_forall. intros g HG. apply in_map_iff in HG. destruct HG as ([I k] & <- & _). rewrite line_length. unfold label_grad. apply grads_length. }
  unfold gss at 3. rewrite map_map. apply is_derive_rmean. intros [I k] HI. cbn [fst snd]. destruct (HP I k HI) as [SM Hk].
  destruct (net_ok_out _ _ OK) as [Po Fo].
  set (dd := net_out ss d) in *. assert (DD : dd = D3 (dx dd) (dy dd) (dz dd)) by (destruct dd; reflexivity).
  destruct (idx_of_inb (dx dd) (dy dd) (dz dd) k) as [I1 _]; [unfold pos in Po; lia|unfold pos in Po; lia|unfold vol in Z3; lia|].
  rewrite <- DD in I1.
  pose proof (net_loss_curve rand rmax (line ss gss) d I 0%R (dx (idx_of (dx dd) (dy dd) k)) (dy (idx_of (dx dd) (dy dd) k)) (dz (idx_of (dx dd) (dy dd) k))) as LC.
  rewrite line_s, line_at, sgd_zero in LC. specialize (LC OK SM (line_ok ss gss d 0%R) I1). cbv zeta in LC. fold dd in LC.
  unfold label_grad. fold dd. eapply is_derive_ext; [|exact LC]. intros t. cbv beta. unfold point_loss. rewrite sgd_out, line_at. reflexivity.
Qed.

(** A differentiable function with negative derivative decreases. *)
Lemma derive_decrease : forall (f : R -> R) (l : R), is_derive f 0%R l -> (l < 0)%R -> exists eps, (0 < eps)%R /\ forall t, (0 < t < eps)%R -> (f t < f 0)%R.
Proof.
  intros f l H HL. apply is_derive_Reals in H. destruct (H (- l / 2)%R) as [del HD]; [lra|]. destruct del as [del DP]. cbn [RIneq.pos] in HD. exists del. split; [exact DP|].
  intros t Ht. specialize (HD t). rewrite Rplus_0_l in HD. assert (t <> 0)%R by lra. specialize (HD H0). rewrite Rabs_right in HD by lra. specialize (HD (proj2 Ht)).
  apply Rabs_def2 in HD. destruct HD as [HD _].
  assert (((f t - f 0%R) / t) < l / 2)%R by lra.
  assert ((f t - f 0%R) < 0)%R; [|lra]. replace (f t - f 0%R)%R with ((f t - f 0%R) / t * t)%R by (field; lra). nra.
Qed.
Lemma norm2_nonneg : forall ss d gs, (0 <= norm2 ss d gs)%R.
Proof.
  assert (K : forall d F, (0 <= dotp d F F)%R) by (intros; unfold dotp; apply rsum3_nonneg; intros; nra).
  induction ss as [|s ss IH]; intros d gs; destruct gs as [|g gs]; cbn [norm2]; try lra. pose proof (K (s_wdim s d) (fst g)). pose proof (K (s_bdim s) (snd g)). specialize (IH (s_out s d) gs). lra.
Qed.
End Descent.

(** *** The same about executions: the probabilities computed after the update *)
Section Exec.
Context (rand : Z -> Z) (rmax : Z).
Local Notation ER := (envR rand rmax).
Context {U L : Type} (cast : U -> R) (eqL : L -> L -> bool) (labels : list L).
Local Notation pc := (pc (T := R) (U := U) (L := L)).
Local Notation estate := (estate (T := R) (U := U) (L := L)).
Local Notation idx := (label_idx eqL labels).
Local Notation nl := (Z.of_nat (length labels)).
Local Notation fwd p := (forward_pass ER cast nl (pt_data (L := L) p)).
Local Notation inp J p := (fun x y z => cast (J p x y z)).

Lemma point_prob : forall ls ss d bs J p b, trainable ls ss d nl bs -> net_ok ss d -> labels_ok (net_out ss d) nl ->
  good_point eqL labels d J p -> 0 <= b < bs ->
  exists ls' r rs q v, fwd p b ls = ORet ls' r /\ r_inputs r = rs ++ [q] /\ mread_flat q (idx p) = Ok v /\ point_loss ss d (inp J p) (idx p) = (- ln v)%R.
Proof.
  intros ls ss d bs J p b (body & sm & -> & HC & HN & HS & _) OK LO [HM HK] Hb.
  destruct (forward_ok rand rmax (body ++ [LSoft sm]) ss d nl b U cast (pt_data p) (J p)) as (ls0 & sm0 & ls' & x0 & rs & q & r & a & b' & c & EQ & _ & EF & RI & X0 & RA & IQ & _); auto.
  { exists body, sm. repeat split; auto. }
  apply app_inj_tail in EQ. destruct EQ as [<- EQ]. injection EQ as <-.
  destruct LO as (Z1 & Z2 & Z3). destruct (net_ok_out _ _ OK) as [Po Fo]. unfold point_loss.
  set (dd := net_out ss d) in *. assert (DD : dd = D3 (dx dd) (dy dd) (dz dd)) by (destruct dd; reflexivity).
  destruct (idx_of_inb (dx dd) (dy dd) (dz dd) (idx p)) as [I1 I2]; [unfold pos in Po; lia|unfold pos in Po; lia|unfold vol in Z3; lia|].
  rewrite <- DD in I1, I2. pose proof (is_mat_flat q _ _ _ _ _ IQ I1) as RQ. rewrite I2 in RQ.
  exists (ls' ++ [LSoft sm]), r, (x0 :: rs), q. eexists. split; [exact EF|]. split; [exact RI|]. split; [exact RQ|]. reflexivity.
Qed.

Theorem batch_descent : forall wc bs nt ss d J, 0 <= wc -> 1 <= bs -> bs < two31 -> bs <= Z.of_nat nt * wc ->
  net_ok ss d -> net_bkc true ss d -> labels_ok (net_out ss d) nl ->
  forall (e : estate) (pcs : list pc) g, spawn nt 0 wc = Ok pcs -> Z.of_nat (length (s_results e)) = bs ->
  trainable (s_layers e) ss d nl bs -> bs <= Z.of_nat (length (s_source e)) ->
  let pts := firstn (Z.to_nat bs) (s_source e) in
  (forall p, In p pts -> good_point eqL labels d J p /\ net_smooth ss d (inp J p)) ->
  exec ER cast eqL labels calm wc bs (start e pcs) g -> finished g ->
  exists (ls : R -> list (layer R)) (prob : R -> point U L -> R),
    (forall lr, apply_all lr (g_layers g) = ORet (ls lr) tt) /\
    (forall lr p b, In p pts -> 0 <= b < bs -> exists ls' r rs q, fwd p b (ls lr) = ORet ls' r /\ r_inputs r = rs ++ [q] /\ mread_flat q (idx p) = Ok (prob lr p)) /\
    let N := norm2 ss d (mean_grads (length ss) (map (fun p => label_grad ss d (inp J p) (idx p)) pts)) in
    let loss := fun lr => rmean (map (fun p => (- ln (prob lr p))%R) pts) in
    is_derive loss 0%R (- N)%R /\
    ((0 < N)%R -> exists eps, (0 < eps)%R /\ forall lr, (0 < lr < eps)%R -> (loss lr < loss 0)%R).
Proof.
  intros wc bs nt ss d J HW HB HB2 CV OK BK LO e pcs g SP RL TR SZ pts GP X F.
  set (gss := map (fun p => label_grad ss d (inp J p) (idx p)) pts).
  assert (FB : forall lr, exists ls', apply_all lr (g_layers g) = ORet ls' tt /\ trainable ls' (sgd lr ss gss) d nl bs).
  { intros lr. destruct (full_batch rand rmax cast eqL labels wc bs nt ss d J HW HB HB2 CV OK BK LO e pcs g lr SP RL TR SZ) as (ls' & EA & T1 & _); auto.
    - intros p HP. apply (GP p HP).
    - eauto. }
  set (ls := fun lr => match apply_all lr (g_layers g) with ORet l _ => l | _ => [] end).
  assert (LS : forall lr, apply_all lr (g_layers g) = ORet (ls lr) tt /\ trainable (ls lr) (sgd lr ss gss) d nl bs).
  { intros lr. destruct (FB lr) as (ls' & EA & T1). unfold ls. rewrite EA. auto. }
  set (prob := fun lr p => exp (- point_loss (sgd lr ss gss) d (inp J p) (idx p))%R).
  assert (PR : forall lr p b, In p pts -> 0 <= b < bs -> exists ls' r rs q, fwd p b (ls lr) = ORet ls' r /\ r_inputs r = rs ++ [q] /\ mread_flat q (idx p) = Ok (prob lr p)).
  { intros lr p b HP Hb. destruct (GP p HP) as [GPp _].
    destruct (point_prob (ls lr) (sgd lr ss gss) d bs J p b (proj2 (LS lr))) as (ls' & r & rs & q & v & A & B & C & D); auto; [apply sgd_ok; exact OK|rewrite sgd_out; exact LO|].
    exists ls', r, rs, q. split; [exact A|]. split; [exact B|]. rewrite C. f_equal. unfold prob. rewrite D, Ropp_involutive.
    symmetry. apply exp_ln.
    assert (V : exists a b c, v = soft (net_out (sgd lr ss gss) d) (net_sem (sgd lr ss gss) d (inp J p)) a b c).
    { destruct (proj2 (LS lr)) as (body & sm & EL & HC & HN & HS & _).
      destruct (forward_ok rand rmax (ls lr) (sgd lr ss gss) d nl b U cast (pt_data p) (J p)) as (ls0 & sm0 & ls1 & x0 & rs0 & q0 & r0 & a & b' & c & _ & _ & EF & RI & _ & _ & IQ & _); auto.
      - exists body, sm. repeat split; auto.
      - apply sgd_ok. exact OK.
      - rewrite sgd_out. exact LO.
      - apply GPp.
      - rewrite A in EF. injection EF as _ <-. rewrite B in RI. change (x0 :: rs0 ++ [q0]) with ((x0 :: rs0) ++ [q0]) in RI. apply app_inj_tail in RI. destruct RI as [_ ->].
        rewrite sgd_out in IQ |- *. destruct LO as (Z1 & Z2 & Z3). destruct (net_ok_out _ _ OK) as [Po Fo].
        set (dd := net_out ss d) in *. assert (DD : dd = D3 (dx dd) (dy dd) (dz dd)) by (destruct dd; reflexivity).
        destruct (idx_of_inb (dx dd) (dy dd) (dz dd) (idx p)) as [I1 I2]; [unfold pos in Po; lia|unfold pos in Po; lia|destruct GPp; unfold vol in Z3; lia|].
        rewrite <- DD in I1, I2. pose proof (is_mat_flat q0 _ _ _ _ _ IQ I1) as RQ. rewrite I2, C in RQ. injection RQ as ->. eauto. }
    destruct V as (a & b' & c & ->). unfold soft. apply Rdiv_lt_0_compat; [apply exp_pos|]. apply exp_sum_pos. rewrite sgd_out. apply (net_ok_out _ _ OK). }
  exists ls, prob. split; [intros lr; apply LS|]. split; [exact PR|]. intros N loss.
  assert (DV : is_derive loss 0%R (- N)%R).
  { pose proof (descent rand rmax (map (fun p => (inp J p, idx p)) pts) ss d nl OK LO) as DS. cbv zeta in DS. rewrite map_map in DS. cbn [fst snd] in DS. fold gss in DS. fold N in DS.
    eapply is_derive_ext; [|apply DS].
    - intros t. unfold loss. rewrite map_map. apply rmean_ext. intros p _. unfold prob. cbn [fst snd]. rewrite ln_exp, Ropp_involutive. reflexivity.
    - intros I k HI. apply in_map_iff in HI. destruct HI as (p & Q & HP). injection Q as <- <-. destruct (GP p HP) as [[_ A] B]. auto. }
  split; [exact DV|]. intros HN. eapply derive_decrease; [exact DV|lra].
Qed.
End Exec.
