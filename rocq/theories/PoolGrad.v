(** Gradients of the pooling layer over the real numbers. *)
From Coq Require Import ZArith List Bool Lia Reals Lra.
From Coquelicot Require Import Coquelicot.
From Verif Require Import Base Dim Matrix View Num Expr Spec Iter MatFacts MatThms ViewThms ExprThms Sums Batch Pooling LayerFacts PoolingThms Calc.
Import ListNotations.
Local Open Scope Z_scope.

Lemma vget_range : forall {A} (l : list A) k v, vget l k = Ok v -> 0 <= k < Z.of_nat (length l).
Proof.
  intros A l k v H. unfold vget in H. destruct (Z.leb_spec 0 k); [|discriminate]. destruct (Z.ltb_spec k (Z.of_nat (length l))); [lia|discriminate].
Qed.
Lemma vget_upd_eq : forall {A} (l : list A) k v v0, vget l k = Ok v0 -> vget (upd l (Z.to_nat k) v) k = Ok v.
Proof.
  intros A l k v v0 H. pose proof (vget_range l k v0 H). unfold vget. rewrite upd_length.
  destruct (Z.leb_spec 0 k); [|lia]. destruct (Z.ltb_spec k (Z.of_nat (length l))); [|lia]. cbn [andb].
  rewrite nth_error_upd_eq by lia. reflexivity.
Qed.
Lemma vget_upd_neq : forall {A} (l : list A) k j v, k <> j -> 0 <= j -> vget (upd l (Z.to_nat j) v) k = vget l k.
Proof.
  intros A l k j v NE L. unfold vget. rewrite upd_length. destruct (Z.leb_spec 0 k); [|reflexivity].
  rewrite nth_error_upd_neq by lia. reflexivity.
Qed.

Lemma rsum_rsum3 : forall n d (f : Z -> Z -> Z -> Z -> R),
  rsum n (fun k => rsum3 d (fun x y z => f k x y z)) = rsum3 d (fun x y z => rsum n (fun k => f k x y z)).
Proof.
  intros. unfold rsum3. rewrite rsum_exchange. apply rsum_ext. intros. rewrite rsum_exchange. apply rsum_ext. intros. apply rsum_exchange.
Qed.
Lemma rsum3_exchange : forall d e (f : Z -> Z -> Z -> Z -> Z -> Z -> R),
  rsum3 d (fun i j c => rsum3 e (fun x y z => f i j c x y z)) = rsum3 e (fun x y z => rsum3 d (fun i j c => f i j c x y z)).
Proof.
  intros d e f. unfold rsum3 at 1.
  rewrite (rsum_ext (dz d) _ (fun c => rsum3 e (fun x y z => rsum (dy d) (fun j => rsum (dx d) (fun i => f i j c x y z))))).
  - rewrite rsum_rsum3. reflexivity.
  - intros c Hc. rewrite (rsum_ext (dy d) _ (fun j => rsum3 e (fun x y z => rsum (dx d) (fun i => f i j c x y z)))).
    + apply rsum_rsum3.
    + intros. apply rsum_rsum3.
Qed.

Lemma scatter_R : forall d here G, fits d ->
  scatter d here G (vol d) = rsum3 d (fun i j c => if here i j c then G i j c else 0%R).
Proof.
  intros d here G F. rewrite <- rsum3_storage by exact F. unfold scatter, rsum. apply fold_z_ext. intros k s Hk.
  unfold elem_no. destruct (here _ _ _); cbn; [reflexivity|ring].
Qed.

(** Each window element contributes to the output with a weight [A]; the transposed sum. *)
Lemma adjoint : forall od xd A G I',
  dotp od G (fun i j c => rsum3 xd (fun x y z => A i j c x y z * I' x y z)%R) =
  dotp xd (fun x y z => rsum3 od (fun i j c => A i j c x y z * G i j c)%R) I'.
Proof.
  intros. unfold dotp.
  rewrite (rsum3_ext od _ (fun i j c => rsum3 xd (fun x y z => G i j c * (A i j c x y z * I' x y z))%R)) by (intros; rewrite rsum3_scal; reflexivity).
  rewrite rsum3_exchange. apply rsum3_ext. intros. rewrite Rmult_comm, <- rsum3_scal. apply rsum3_ext. intros. ring.
Qed.

(** The total of the gradient is kept when every output position contributes to exactly one input element. *)
Lemma scatter_total : forall od xd (SF : Z -> Z -> Z -> dim3) G, fits od ->
  (forall i j c, inb od i j c -> inb xd (dx (SF i j c)) (dy (SF i j c)) (dz (SF i j c))) ->
  rsum3 xd (fun x y z => scatter od (fun i j c => dim_eqb (SF i j c) (D3 x y z)) G (vol od)) = rsum3 od G.
Proof.
  intros od xd SF G F H.
  rewrite (rsum3_ext xd _ (fun x y z => rsum3 od (fun i j c => if dim_eqb (SF i j c) (D3 x y z) then G i j c else 0%R))) by (intros; apply scatter_R; exact F).
  rewrite rsum3_exchange. apply rsum3_ext. intros i j c I.
  rewrite (rsum3_single xd _ (dx (SF i j c)) (dy (SF i j c)) (dz (SF i j c)) (H i j c I)).
  - destruct (SF i j c) as [a b e]. cbn [dx dy dz]. rewrite dim_eqb_refl. reflexivity.
  - intros x y z Ix NE. destruct (dim_eqb (SF i j c) (D3 x y z)) eqn:E; [|reflexivity].
    apply dim_eqb_eq in E. rewrite E in NE. cbn in NE. congruence.
Qed.

Definition pool_gives (t : pool_type) (g : pool_geom) (I O : Z -> Z -> Z -> R) : Prop :=
  exists q x slot s0 q' o, has_geom q g /\ q_type q = t /\ is_mat x (xdim g) I /\
    vget (q_idx q) slot = Ok s0 /\ consistent s0 /\ q_forward x slot q = ORet q' o /\ is_mat o (odim g) O.

Lemma strict_weak_of : forall t, strict_weak (@better_of R NumR t).
Proof. intros []; [apply strict_weak_R_max|apply strict_weak_R_min|apply strict_weak_R_max]. Qed.

(** ** Average *)
Lemma win_mean_R : forall g I i j c, geom_ok g -> inb (odim g) i j c ->
  win_mean g I i j c = rsum3 (xdim g) (fun x y z => (if in_winb g i j c x y z then / IZR (g_qx g * g_qy g) else 0) * I x y z)%R.
Proof.
  intros g I i j c G Io. destruct (win_region g i j c G Io) as (R & A & B). unfold region_in, xdim in R. cbn [vstart vdim dx dy dz] in R.
  pose proof G as (H1 & H2 & H3 & _).
  unfold win_mean. change (@nsum _ NumR) with rsum. rewrite rsum3_storage by (apply win_fits; exact G).
  unfold vol, rsum3, xdim. cbn [dx dy dz]. rewrite Z.mul_1_r.
  rewrite (rsum_single (g_C g) _ c); [|lia|].
  2:{ intros k Hk Nk. apply rsum_all_zero. intros y Hy. apply rsum_all_zero. intros x Hx. unfold in_winb.
      destruct (Z.eqb_spec c k); [lia|]. rewrite andb_false_r. ring. }
  rewrite (rsum_window (g_Y g) (j * g_sy g) (g_qy g)); try lia.
  - change 1 with (0 + 1) at 1. rewrite rsum_S by lia. rewrite rsum_neg by lia. rewrite Rplus_0_l.
    cbn [ndiv NumR nofZ]. unfold Rdiv. rewrite Rmult_comm, <- rsum_scal. apply rsum_ext. intros b Hb.
    rewrite (rsum_window (g_X g) (i * g_sx g) (g_qx g)); try lia.
    + rewrite <- rsum_scal. apply rsum_ext. intros a Ha. unfold in_winb.
      destruct (Z.leb_spec (i * g_sx g) (i * g_sx g + a)); [|lia]. destruct (Z.ltb_spec (i * g_sx g + a) (i * g_sx g + g_qx g)); [|lia].
      destruct (Z.leb_spec (j * g_sy g) (j * g_sy g + b)); [|lia]. destruct (Z.ltb_spec (j * g_sy g + b) (j * g_sy g + g_qy g)); [|lia].
      rewrite Z.eqb_refl. cbn. reflexivity.
    + intros k Hk Nk. unfold in_winb. destruct (Z.leb_spec (i * g_sx g) k); destruct (Z.ltb_spec k (i * g_sx g + g_qx g)); try lia; cbn; ring.
  - intros k Hk Nk. apply rsum_all_zero. intros x Hx. unfold in_winb. destruct (Z.leb_spec (j * g_sy g) k); destruct (Z.ltb_spec k (j * g_sy g + g_qy g)); try lia; cbn; rewrite ?andb_false_r; cbn; ring.
Qed.

Definition avg_dx (g : pool_geom) (G : Z -> Z -> Z -> R) (x y z : Z) : R :=
  scatter (odim g) (fun i j c => in_winb g i j c x y z) (fun i j c => ndiv (G i j c) (nofZ (g_qx g * g_qy g))) (vol (odim g)).

Lemma avg_gives : forall g I O, geom_ok g -> pool_gives PAvg g I O -> forall i j c, inb (odim g) i j c -> O i j c = win_mean g I i j c.
Proof.
  intros g I O G (q & x & slot & s0 & q' & o & HG & Et & HX & Es & Cs & E & HO) i j c Io.
  destruct (q_forward_avg q g x I slot s0 G HG Et HX Es Cs) as (o' & s & E' & HO' & _).
  rewrite E in E'. injection E' as _ <-. apply (is_mat_det o _ _ _ i j c HO HO' Io).
Qed.

Lemma avg_curve : forall g (It Ot : R -> Z -> Z -> Z -> R) t0 I' G, geom_ok g -> dcurve (xdim g) It t0 I' ->
  locally t0 (fun t => pool_gives PAvg g (It t) (Ot t)) ->
  exists O', dcurve (odim g) Ot t0 O' /\ dotp (odim g) G O' = dotp (xdim g) (avg_dx g G) I'.
Proof.
  intros g It Ot t0 I' G GO DI HL.
  exists (fun i j c => rsum3 (xdim g) (fun x y z => (if in_winb g i j c x y z then / IZR (g_qx g * g_qy g) else 0) * I' x y z)%R). split.
  - intros i j c Io. eapply (is_derive_ext_loc (fun t => win_mean g (It t) i j c)).
    + eapply filter_imp; [|exact HL]. intros t Ht. symmetry. apply (avg_gives g (It t)); assumption.
    + eapply is_derive_ext; [intros t; symmetry; apply win_mean_R; assumption|].
      apply (is_derive_rsum3 (xdim g) (fun t x y z => (if in_winb g i j c x y z then / IZR (g_qx g * g_qy g) else 0) * It t x y z)%R).
      intros x y z Ix. apply (is_derive_scal (fun t => It t x y z)). apply DI. exact Ix.
  - rewrite (adjoint (odim g) (xdim g) (fun i j c x y z => if in_winb g i j c x y z then / IZR (g_qx g * g_qy g) else 0)%R).
    apply dotp_ext; [|reflexivity]. intros x y z Ix. unfold avg_dx. rewrite scatter_R by (apply odim_fits; exact GO).
    apply rsum3_ext. intros i j c Io. cbn [ndiv nofZ NumR]. unfold Rdiv. destruct (in_winb g i j c x y z); ring.
Qed.

Definition pool_case (t : pool_type) q (x gr : mat R) slot s g I G : Prop :=
  geom_ok g /\ has_geom q g /\ q_type q = t /\ is_mat x (xdim g) I /\ is_mat gr (odim g) G /\
  vget (q_idx q) slot = Ok s.

Theorem avg_dx_exact : forall q x gr slot s g I G, pool_case PAvg q x gr slot s g I G ->
  exists r D, q_dx q x gr slot = Ok r /\ is_mat r (xdim g) D /\
    (forall a b e, inb (xdim g) a b e ->
       D a b e = rsum3 (odim g) (fun i j c => if in_winb g i j c a b e then (G i j c / IZR (g_qx g * g_qy g))%R else 0%R)) /\
    forall a b e (Ot : R -> Z -> Z -> Z -> R), inb (xdim g) a b e ->
      (forall t, pool_gives PAvg g (fupd I a b e t) (Ot t)) ->
      is_derive (fun t => dotp (odim g) G (Ot t)) (I a b e) (D a b e).
Proof.
  intros q x gr slot s g I G (GO & HG & Et & HX & Hgr & Es).
  destruct (q_dx_avg q g x I slot s gr G GO HG Et HX Es Hgr) as (r & E & Hr).
  exists r, (avg_dx g G). split; [exact E|]. split; [exact Hr|]. split.
  { intros a b e Ia. unfold avg_dx. rewrite scatter_R by (apply odim_fits; exact GO). reflexivity. }
  intros a b e Ot Ia HO.
  destruct (avg_curve g (fun t => fupd I a b e t) Ot (I a b e) (delta a b e) G GO) as (O' & D & A).
  - apply dcurve_fupd.
  - apply filter_forall. exact HO.
  - rewrite (dotp_delta _ _ _ _ _ Ia) in A. rewrite <- A. apply is_derive_dotp. exact D.
Qed.

(** ** Maximum and minimum *)
(** One element of every window beats all the others. *)
Definition strict_sel (t : pool_type) (g : pool_geom) (I : Z -> Z -> Z -> R) (SF : Z -> Z -> Z -> dim3) : Prop :=
  forall i j c, inb (odim g) i j c ->
    dz (SF i j c) = c /\ in_win g i j (dx (SF i j c)) (dy (SF i j c)) /\
    forall x y, in_win g i j x y -> (x, y) <> (dx (SF i j c), dy (SF i j c)) ->
      better_of t (I (dx (SF i j c)) (dy (SF i j c)) c) (I x y c) = true.

Lemma ext_gives : forall t g I O, t <> PAvg -> geom_ok g -> pool_gives t g I O -> exists SF,
  forall i j c, inb (odim g) i j c -> selected (better_of t) g I i j c (SF i j c) /\ O i j c = I (dx (SF i j c)) (dy (SF i j c)) c.
Proof.
  intros t g I O Nt G (q & x & slot & s0 & q' & o & HG & Et & HX & Es & Cs & E & HO).
  destruct (q_forward_ext q g x I t slot s0 G HG Et Nt (strict_weak_of t) HX Es Cs) as (o' & s & OF & SF & E' & HO' & HS & H).
  rewrite E in E'. injection E' as _ <-. exists SF. intros i j c Io. destruct (H i j c Io) as (H1 & H2). split; [exact H1|].
  rewrite <- H2. apply (is_mat_det o _ _ _ i j c HO HO' Io).
Qed.

Lemma strict_selected : forall t g I SF i j c p, strict_sel t g I SF -> inb (odim g) i j c ->
  selected (better_of t) g I i j c p -> p = SF i j c.
Proof.
  intros t g I SF i j c p H Io (Z1 & W & NB & _). destruct (H i j c Io) as (Z2 & W2 & B).
  destruct p as [px py pz]. destruct (SF i j c) as [a b e]. cbn [dx dy dz] in *. subst.
  destruct (Z.eq_dec px a) as [Ex|N]; [destruct (Z.eq_dec py b) as [Ey|N]; [congruence|]|]; exfalso;
    specialize (B px py W ltac:(congruence)); rewrite (NB a b W2) in B; discriminate.
Qed.

Lemma locally_range : forall (t0 : R) (P : R -> Z -> Prop) lo n, (forall k, lo <= k < lo + n -> locally t0 (fun t => P t k)) ->
  locally t0 (fun t => forall k, lo <= k < lo + n -> P t k).
Proof.
  intros t0 P lo n. induction n using Zrange_ind; intro Q.
  - apply filter_forall. intros. lia.
  - assert (H1 : locally t0 (fun t => forall k, lo <= k < lo + n -> P t k)) by (apply IHn; intros; apply Q; lia).
    assert (H2 : locally t0 (fun t => P t (lo + n))) by (apply Q; lia).
    eapply filter_imp; [|exact (filter_and _ _ H1 H2)]. intros t (A & B) k Hk.
    destruct (Z.eq_dec k (lo + n)) as [->|]; [exact B|apply A; lia].
Qed.

Lemma locally_lt : forall (u v : R -> R) t0 u' v', is_derive u t0 u' -> is_derive v t0 v' -> (u t0 < v t0)%R ->
  locally t0 (fun t => (u t < v t)%R).
Proof.
  intros u v t0 u' v' Du Dv L.
  assert (Dw : is_derive (fun t => v t - u t)%R t0 (v' - u')%R) by (apply @is_derive_minus; assumption).
  assert (Cw : continuous (fun t => v t - u t)%R t0) by (apply (@ex_derive_continuous R_AbsRing R_NormedModule (fun t => v t - u t)%R t0); eexists; exact Dw).
  assert (H : locally (v t0 - u t0)%R (fun y => (0 < y)%R)) by (apply (open_gt 0); lra).
  specialize (Cw _ H). unfold filtermap in Cw. eapply filter_imp; [|exact Cw]. intros t Ht. cbn in Ht. lra.
Qed.

Lemma locally_better : forall t (u v : R -> R) t0 u' v', is_derive u t0 u' -> is_derive v t0 v' -> @better_of R NumR t (u t0) (v t0) = true ->
  locally t0 (fun s => @better_of R NumR t (u s) (v s) = true).
Proof.
  assert (RL : forall a b, Rltb a b = true <-> (a < b)%R) by (intros; unfold Rltb; destruct (Rlt_dec a b); split; intros; try discriminate; try reflexivity; lra).
  intros t u v t0 u' v' Du Dv L. destruct t; cbn [better_of] in *; unfold lt_max, lt_min in *; cbn [nltb NumR] in *; rewrite RL in L.
  - pose proof (locally_lt v u t0 v' u' Dv Du L) as H. eapply filter_imp; [|exact H]. intros s Hs. apply RL. exact Hs.
  - pose proof (locally_lt u v t0 u' v' Du Dv L) as H. eapply filter_imp; [|exact H]. intros s Hs. apply RL. exact Hs.
  - pose proof (locally_lt v u t0 v' u' Dv Du L) as H. eapply filter_imp; [|exact H]. intros s Hs. apply RL. exact Hs.
Qed.

Definition sel_dx (g : pool_geom) (SF : Z -> Z -> Z -> dim3) (G : Z -> Z -> Z -> R) (x y z : Z) : R :=
  scatter (odim g) (fun i j c => dim_eqb (SF i j c) (D3 x y z)) G (vol (odim g)).

Lemma strict_sel_inb : forall t g I SF i j c, geom_ok g -> strict_sel t g I SF -> inb (odim g) i j c ->
  inb (xdim g) (dx (SF i j c)) (dy (SF i j c)) (dz (SF i j c)).
Proof.
  intros t g I SF i j c G H Io. destruct (H i j c Io) as (Z1 & W & _). apply (win_inb g i j); [exact G| |exact W]. rewrite Z1. exact Io.
Qed.

Lemma ext_curve : forall t g (It Ot : R -> Z -> Z -> Z -> R) t0 I' SF G, t <> PAvg -> geom_ok g -> dcurve (xdim g) It t0 I' ->
  strict_sel t g (It t0) SF ->
  locally t0 (fun s => pool_gives t g (It s) (Ot s)) ->
  exists O', dcurve (odim g) Ot t0 O' /\ dotp (odim g) G O' = dotp (xdim g) (sel_dx g SF G) I'.
Proof.
  intros t g It Ot t0 I' SF G Nt GO DI SS HL.
  exists (fun i j c => I' (dx (SF i j c)) (dy (SF i j c)) (dz (SF i j c))). split.
  - intros i j c Io. pose proof (strict_sel_inb t g _ SF i j c GO SS Io) as IP. destruct (SS i j c Io) as (Z1 & W & B).
    set (p := SF i j c) in *.
    assert (L : locally t0 (fun s => forall x, i * g_sx g <= x < i * g_sx g + g_qx g -> forall y, j * g_sy g <= y < j * g_sy g + g_qy g ->
       (x, y) <> (dx p, dy p) -> better_of t (It s (dx p) (dy p) c) (It s x y c) = true)).
    { apply (locally_range t0 (fun s x => forall y, j * g_sy g <= y < j * g_sy g + g_qy g -> (x, y) <> (dx p, dy p) -> better_of t (It s (dx p) (dy p) c) (It s x y c) = true)). intros x Hx.
      apply (locally_range t0 (fun s y => (x, y) <> (dx p, dy p) -> better_of t (It s (dx p) (dy p) c) (It s x y c) = true)). intros y Hy.
      destruct (Z.eq_dec x (dx p)) as [Ex|Nx]; [destruct (Z.eq_dec y (dy p)) as [Ey|Ny]|].
      - apply filter_forall. intros s NE. exfalso. apply NE. congruence.
      - assert (BB := B x y (conj Hx Hy) ltac:(congruence)).
        eapply filter_imp; [|eapply (locally_better t (fun s => It s (dx p) (dy p) c) (fun s => It s x y c))]; [intros s Hs _; exact Hs| | |exact BB]; apply DI.
        + rewrite <- Z1. exact IP.
        + apply (win_inb g i j); [exact GO|exact Io|split; assumption].
      - assert (BB := B x y (conj Hx Hy) ltac:(congruence)).
        eapply filter_imp; [|eapply (locally_better t (fun s => It s (dx p) (dy p) c) (fun s => It s x y c))]; [intros s Hs _; exact Hs| | |exact BB]; apply DI.
        + rewrite <- Z1. exact IP.
        + apply (win_inb g i j); [exact GO|exact Io|split; assumption]. }
    eapply (is_derive_ext_loc (fun s => It s (dx p) (dy p) (dz p))); [|apply DI; exact IP].
    eapply filter_imp; [|exact (filter_and _ _ L HL)]. intros s (Hs & Hg).
    destruct (ext_gives t g (It s) (Ot s) Nt GO Hg) as (SF' & HS'). destruct (HS' i j c Io) as (Sel & EO).
    assert (EP : SF' i j c = p).
    { destruct Sel as (Z3 & W3 & NB & _). destruct (SF' i j c) as [a b e]. destruct p as [pa pb pe]. cbn [dx dy dz] in *. subst e pe.
      destruct (Z.eq_dec a pa) as [Ea|Na]; [destruct (Z.eq_dec b pb) as [Eb|Nb]; [congruence|]|]; exfalso;
      destruct W3 as (W31 & W32); pose proof (Hs a W31 b W32 ltac:(congruence)) as Q; rewrite (NB pa pb W) in Q; discriminate. }
    rewrite EO, EP, Z1. reflexivity.
  - rewrite (dotp_ext (odim g) G _ G (fun i j c => rsum3 (xdim g) (fun x y z => (if dim_eqb (SF i j c) (D3 x y z) then 1 else 0) * I' x y z)%R)); [|reflexivity|].
    + rewrite (adjoint (odim g) (xdim g) (fun i j c x y z => if dim_eqb (SF i j c) (D3 x y z) then 1%R else 0%R)).
      apply dotp_ext; [|reflexivity]. intros x y z Ix. unfold sel_dx. rewrite scatter_R by (apply odim_fits; exact GO).
      apply rsum3_ext. intros i j c Io. destruct (dim_eqb _ _); ring.
    + intros i j c Io. pose proof (strict_sel_inb t g _ SF i j c GO SS Io) as IP.
      rewrite (rsum3_single (xdim g) _ _ _ _ IP).
      * destruct (SF i j c) as [a b e]. cbn [dx dy dz]. rewrite dim_eqb_refl. ring.
      * intros x y z Ix NE. destruct (dim_eqb (SF i j c) (D3 x y z)) eqn:E; [|ring]. apply dim_eqb_eq in E. rewrite E in NE. cbn in NE. congruence.
Qed.

(** A forward pass followed by a backward pass on the same slot. *)
Theorem ext_dx_exact : forall t q x gr slot s0 g I G, t <> PAvg -> geom_ok g -> has_geom q g -> q_type q = t ->
  is_mat x (xdim g) I -> is_mat gr (odim g) G -> vget (q_idx q) slot = Ok s0 -> consistent s0 ->
  exists q' o r SF D, q_forward x slot q = ORet q' o /\ q_dx q' x gr slot = Ok r /\ is_mat r (xdim g) D /\
    (forall i j c, inb (odim g) i j c -> selected (better_of t) g I i j c (SF i j c)) /\
    (forall a b e, inb (xdim g) a b e ->
       D a b e = rsum3 (odim g) (fun i j c => if dim_eqb (SF i j c) (D3 a b e) then G i j c else 0%R)) /\
    rsum3 (xdim g) D = rsum3 (odim g) G /\
    (strict_sel t g I SF -> forall a b e (Ot : R -> Z -> Z -> Z -> R), inb (xdim g) a b e ->
      (forall s, pool_gives t g (fupd I a b e s) (Ot s)) ->
      is_derive (fun s => dotp (odim g) G (Ot s)) (I a b e) (D a b e)).
Proof.
  intros t q x gr slot s0 g I G Nt GO HG Et HX Hgr Es Cs.
  destruct (q_forward_ext q g x I t slot s0 GO HG Et Nt (strict_weak_of t) HX Es Cs) as (o & s & OF & SF & E & HO & HS & H).
  assert (IN : forall i j c, inb (odim g) i j c -> inb (xdim g) (dx (SF i j c)) (dy (SF i j c)) (dz (SF i j c))).
  { intros i j c Io. destruct (H i j c Io) as ((Z1 & W & _) & _). rewrite Z1. apply (win_inb g i j); assumption. }
  destruct (q_dx_ext (with_slot q slot s) g x I slot s SF gr G GO) as (r & Er & Hr); auto.
  { cbn [with_slot q_type]. rewrite Et. exact Nt. }
  { cbn [with_slot q_idx]. eapply vget_upd_eq. exact Es. }
  exists (with_slot q slot s), o, r, SF, (sel_dx g SF G). split; [exact E|]. split; [exact Er|]. split; [exact Hr|].
  split; [intros i j c Io; exact (proj1 (H i j c Io))|]. split.
  { intros a b e Ia. unfold sel_dx. apply scatter_R. apply odim_fits. exact GO. }
  split; [apply scatter_total; [apply odim_fits; exact GO|exact IN]|].
  intros SS a b e Ot Ia HOt.
  destruct (ext_curve t g (fun t => fupd I a b e t) Ot (I a b e) (delta a b e) SF G Nt GO) as (O' & D & A).
  - apply dcurve_fupd.
  - intros i j c Io. rewrite !fupd_same. destruct (SS i j c Io) as (Z1 & W & B). split; [exact Z1|]. split; [exact W|].
    intros x' y' W' NE. rewrite !fupd_same. apply B; assumption.
  - apply filter_forall. exact HOt.
  - rewrite (dotp_delta _ _ _ _ _ Ia) in A. rewrite <- A. apply is_derive_dotp. exact D.
Qed.

(** Earlier passes and other slots have no influence. *)
Theorem pool_history_on : forall T (N : Num T) P t q1 q2 (x gr : mat T) sl1 sl2 s1 s2 g I G, strict_weak_on P (@better_of T N t) -> geom_ok g ->
  has_geom q1 g -> q_type q1 = t -> vget (q_idx q1) sl1 = Ok s1 -> consistent s1 ->
  has_geom q2 g -> q_type q2 = t -> vget (q_idx q2) sl2 = Ok s2 -> consistent s2 ->
  is_mat x (xdim g) I -> (forall a b c, inb (xdim g) a b c -> P (I a b c)) -> is_mat gr (odim g) G ->
  exists q1' q2' o r, q_forward x sl1 q1 = ORet q1' o /\ q_forward x sl2 q2 = ORet q2' o /\
    q_dx q1' x gr sl1 = Ok r /\ q_dx q2' x gr sl2 = Ok r /\
    (forall k, k <> sl1 -> 0 <= sl1 -> vget (q_idx q1') k = vget (q_idx q1) k).
Proof.
  assert (UPD : forall q sl s s0, vget (q_idx q) sl = Ok s0 -> vget (q_idx (with_slot q sl s)) sl = Ok s).
  { intros. eapply vget_upd_eq. eassumption. }
  assert (OTH : forall q sl s k, k <> sl -> 0 <= sl -> vget (q_idx (with_slot q sl s)) k = vget (q_idx q) k).
  { intros. apply vget_upd_neq; assumption. }
  intros T N P t q1 q2 x gr sl1 sl2 s1 s2 g I G SW GO H1 T1 E1 C1 H2 T2 E2 C2 HX PI Hgr.
  pose proof (odim_fits g GO) as FO. pose proof GO as (_ & _ & _ & _ & _ & _ & _ & FX).
  assert (D : t = PAvg \/ t <> PAvg) by (destruct t; [right|right|left]; congruence). destruct D as [->|Nt].
  - destruct (q_forward_avg q1 g x I sl1 s1 GO H1 T1 HX E1 C1) as (o1 & u1 & F1 & O1 & _).
    destruct (q_forward_avg q2 g x I sl2 s2 GO H2 T2 HX E2 C2) as (o2 & u2 & F2 & O2 & _).
    assert (o2 = o1) by (symmetry; apply (is_mat_unique o1 o2 (odim g) (win_mean g I) FO O1 O2)). subst o2.
    destruct (q_dx_avg (with_slot q1 sl1 u1) g x I sl1 u1 gr G GO H1 T1 HX (UPD q1 sl1 u1 s1 E1) Hgr) as (r1 & R1 & Q1).
    destruct (q_dx_avg (with_slot q2 sl2 u2) g x I sl2 u2 gr G GO H2 T2 HX (UPD q2 sl2 u2 s2 E2) Hgr) as (r2 & R2 & Q2).
    assert (r2 = r1) by (symmetry; eapply is_mat_unique; [exact FX|exact Q1|exact Q2]). subst r2.
    exists (with_slot q1 sl1 u1), (with_slot q2 sl2 u2), o1, r1. repeat (split; [assumption|]). intros. apply OTH; assumption.
  - destruct (q_forward_on P q1 g x I t sl1 s1 GO H1 T1 Nt SW HX PI E1 C1) as (o1 & u1 & OF1 & SF1 & F1 & O1 & S1 & P1).
    destruct (q_forward_on P q2 g x I t sl2 s2 GO H2 T2 Nt SW HX PI E2 C2) as (o2 & u2 & OF2 & SF2 & F2 & O2 & S2 & P2).
    assert (SE : forall i j c, inb (odim g) i j c -> SF2 i j c = SF1 i j c).
    { intros i j c Io. eapply selected_unique; [apply (P2 i j c Io)|apply (P1 i j c Io)]. }
    assert (o2 = o1).
    { symmetry. apply (is_mat_unique o1 o2 (odim g) OF1 FO O1). eapply is_mat_ext; [exact O2|]. intros i j c Io.
      rewrite (proj2 (P2 i j c Io)), (proj2 (P1 i j c Io)), (SE i j c Io). reflexivity. }
    assert (u2 = u1).
    { symmetry. apply (is_mat_unique u1 u2 (odim g) SF1 FO S1). eapply is_mat_ext; [exact S2|]. exact SE. }
    subst o2 u2.
    assert (IN : forall i j c, inb (odim g) i j c -> inb (xdim g) (dx (SF1 i j c)) (dy (SF1 i j c)) (dz (SF1 i j c))).
    { intros i j c Io. destruct (P1 i j c Io) as ((Z1 & W & _) & _). rewrite Z1. apply (win_inb g i j); assumption. }
    destruct (q_dx_ext (with_slot q1 sl1 u1) g x I sl1 u1 SF1 gr G GO) as (r1 & R1 & Q1); auto.
    { cbn [with_slot q_type]. rewrite T1. exact Nt. } { eapply UPD. exact E1. }
    destruct (q_dx_ext (with_slot q2 sl2 u1) g x I sl2 u1 SF1 gr G GO) as (r2 & R2 & Q2); auto.
    { cbn [with_slot q_type]. rewrite T2. exact Nt. } { eapply UPD. exact E2. }
    assert (r2 = r1) by (symmetry; eapply is_mat_unique; [exact FX|exact Q1|exact Q2]). subst r2.
    exists (with_slot q1 sl1 u1), (with_slot q2 sl2 u1), o1, r1. repeat (split; [assumption|]). intros. apply OTH; assumption.
Qed.
Theorem pool_history : forall T (N : Num T) t q1 q2 (x gr : mat T) sl1 sl2 s1 s2 g I G, strict_weak (@better_of T N t) -> geom_ok g ->
  has_geom q1 g -> q_type q1 = t -> vget (q_idx q1) sl1 = Ok s1 -> consistent s1 ->
  has_geom q2 g -> q_type q2 = t -> vget (q_idx q2) sl2 = Ok s2 -> consistent s2 ->
  is_mat x (xdim g) I -> is_mat gr (odim g) G ->
  exists q1' q2' o r, q_forward x sl1 q1 = ORet q1' o /\ q_forward x sl2 q2 = ORet q2' o /\
    q_dx q1' x gr sl1 = Ok r /\ q_dx q2' x gr sl2 = Ok r /\
    (forall k, k <> sl1 -> 0 <= sl1 -> vget (q_idx q1') k = vget (q_idx q1) k).
Proof. intros T N t q1 q2 x gr sl1 sl2 s1 s2 g I G SW GO H1 T1 E1 C1 H2 T2 E2 C2 HX Hgr. apply (pool_history_on T N (fun _ => True) t q1 q2 x gr sl1 sl2 s1 s2 g I G); auto using strict_weak_all. Qed.
