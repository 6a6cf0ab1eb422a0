(** Convolution layer over the real numbers: the gradients are the derivatives of the forward function. *)
From Coq Require Import ZArith Bool Reals Lra Lia.
From Coquelicot Require Import Coquelicot.
From Verif Require Import Base Dim Matrix View Num Expr Spec Iter MatFacts Sums ExprThms Batch Kernel LayerFacts KernelThms Calc.
Local Open Scope Z_scope.

Lemma corr_R : forall fx fy C (I W : Z -> Z -> Z -> R) x y f,
  corr fx fy C I W x y f = rsum C (fun c => rsum fx (fun a => rsum fy (fun b => I (a + x)%Z (b + y)%Z c * W a b (f * C + c)%Z))%R).
Proof. intros. unfold corr. change (@nsum R NumR) with rsum. apply rsum_ext. intros. apply nsum2_R. Qed.

Definition fwd_R fx fy C (I W B : Z -> Z -> Z -> R) : Z -> Z -> Z -> R :=
  fun x y f => (corr fx fy C I W x y f + B f 0%Z 0%Z)%R.

Lemma fwd_dcurve : forall fx fy C n X Y I W B t0 I' W' B', 0 <= C -> 0 <= n ->
  dcurve (D3 X Y C) I t0 I' -> dcurve (D3 fx fy (C * n)) W t0 W' -> dcurve (D3 n 1 1) B t0 B' ->
  dcurve (D3 (X - fx + 1) (Y - fy + 1) n) (fun t => fwd_R fx fy C (I t) (W t) (B t)) t0
    (fun x y f => corr fx fy C I' (W t0) x y f + corr fx fy C (I t0) W' x y f + B' f 0%Z 0%Z)%R.
Proof.
  intros fx fy C n X Y I W B t0 I' W' B' HC Hn HI HW HB x y f (A1 & A2 & A3). cbn [dx dy dz] in *.
  unfold fwd_R. apply @is_derive_plus; [|apply HB; unfold inb; cbn; lia].
  apply (is_derive_ext (fun t => rsum C (fun c => rsum fx (fun a => rsum fy (fun b => I t (a + x)%Z (b + y)%Z c * W t a b (f * C + c)%Z))%R))).
  { intros. symmetry. apply corr_R. }
  rewrite !corr_R. rewrite <- rsum_plus.
  apply (is_derive_rsum C (fun t c => rsum fx (fun a => rsum fy (fun b => I t (a + x)%Z (b + y)%Z c * W t a b (f * C + c)%Z))%R)).
  intros c Hc. cbn beta. rewrite <- rsum_plus.
  apply (is_derive_rsum fx (fun t a => rsum fy (fun b => I t (a + x)%Z (b + y)%Z c * W t a b (f * C + c)%Z))%R).
  intros a Ha. cbn beta. rewrite <- rsum_plus.
  apply (is_derive_rsum fy (fun t b => I t (a + x)%Z (b + y)%Z c * W t a b (f * C + c)%Z)%R).
  intros b Hb. cbn beta.
  pose proof (mul_small C n f HC A3) as (M1 & M2).
  apply (is_derive_mult (fun t => I t (a + x)%Z (b + y)%Z c) (fun t => W t a b (f * C + c)%Z) t0).
  - apply HI. unfold inb; cbn [dx dy dz]; lia.
  - apply HW. unfold inb; cbn [dx dy dz]; lia.
  - intros. apply Rmult_comm.
Qed.

Lemma corr_adjoint_w : forall fx fy C n OX OY (I W' G : Z -> Z -> Z -> R), 0 <= C -> 0 <= n ->
  dotp (D3 OX OY n) G (corr fx fy C I W') = dotp (D3 fx fy (C * n)) (dw_elem OX OY C I G) W'.
Proof.
  intros fx fy C n OX OY I W' G HC Hn. unfold dotp, rsum3. cbn [dx dy dz].
  rewrite rsum_mult by assumption. apply rsum_ext. intros f Hf.
  transitivity (rsum OY (fun y => rsum OX (fun x => rsum C (fun c => rsum fx (fun a => rsum fy (fun b =>
      G x y f * (I (a + x)%Z (b + y)%Z c * W' a b (f * C + c)%Z))))))%R).
  { apply rsum_ext; intros y _. apply rsum_ext; intros x _. rewrite corr_R. rewrite <- rsum_scal. apply rsum_ext; intros c _.
    rewrite <- rsum_scal. apply rsum_ext; intros a _. rewrite <- rsum_scal. reflexivity. }
  transitivity (rsum C (fun c => rsum OY (fun y => rsum OX (fun x => rsum fx (fun a => rsum fy (fun b =>
      G x y f * (I (a + x)%Z (b + y)%Z c * W' a b (f * C + c)%Z))))))%R).
  { rewrite (rsum_exchange C OY). apply rsum_ext; intros y _. apply rsum_exchange. }
  apply rsum_ext. intros c Hc. rewrite rsum2_exchange3. rewrite (rsum_exchange fy fx).
  apply rsum_ext; intros a _. apply rsum_ext; intros b _.
  unfold dw_elem. replace (c + C * f) with (f * C + c) by lia.
  replace ((f * C + c) mod C) with c by (rewrite Z.add_comm, Z_mod_plus_full, Z.mod_small; lia).
  replace ((f * C + c) / C) with f by (rewrite Z.div_add_l, Z.div_small; lia).
  rewrite nsum2_R. cbn [nmul NumR]. rewrite rsum_exchange. rewrite <- rsum_scal_r. apply rsum_ext; intros x _.
  rewrite <- rsum_scal_r. apply rsum_ext; intros y _.
  rewrite (Z.add_comm a x), (Z.add_comm b y). ring.
Qed.

Lemma corr_adjoint_x : forall fx fy C n X Y (I' W G : Z -> Z -> Z -> R), 0 <= C -> 0 <= n ->
  1 <= fx -> 1 <= fy -> fx <= X -> fy <= Y ->
  dotp (D3 (X - fx + 1) (Y - fy + 1) n) G (corr fx fy C I' W) =
  dotp (D3 X Y C) (dx_elem (X - fx + 1) (Y - fy + 1) fx fy C n W G) I'.
Proof.
  intros fx fy C n X Y I' W G HC Hn Hfx Hfy HX HY. unfold dotp, rsum3. cbn [dx dy dz].
  set (OX := X - fx + 1). set (OY := Y - fy + 1).
  transitivity (rsum n (fun f => rsum C (fun c => rsum OY (fun y => rsum OX (fun x => rsum fx (fun a => rsum fy (fun b =>
      G x y f * (I' (a + x)%Z (b + y)%Z c * W a b (f * C + c)%Z)))))))%R).
  { apply rsum_ext; intros f _. 
    transitivity (rsum OY (fun y => rsum OX (fun x => rsum C (fun c => rsum fx (fun a => rsum fy (fun b =>
      G x y f * (I' (a + x)%Z (b + y)%Z c * W a b (f * C + c)%Z))))))%R).
    { apply rsum_ext; intros y _. apply rsum_ext; intros x _. rewrite corr_R. rewrite <- rsum_scal. apply rsum_ext; intros c _.
      rewrite <- rsum_scal. apply rsum_ext; intros a _. rewrite <- rsum_scal. reflexivity. }
    rewrite (rsum_exchange C OY). apply rsum_ext; intros y _. apply rsum_exchange. }
  rewrite rsum_exchange. apply rsum_ext. intros c Hc.
  transitivity (rsum n (fun f => rsum Y (fun v => rsum X (fun u => rsum OX (fun i => rsum OY (fun j =>
      padded (OX - 1) (OY - 1) fx fy (fun a b => W a b (f * C + c)%Z) (i + u) (j + v) * G (OX - 1 - i)%Z (OY - 1 - j)%Z f)) * I' u v c)))%R).
  2:{ rewrite rsum_exchange. apply rsum_ext; intros v _. rewrite rsum_exchange. apply rsum_ext; intros u _.
      unfold dx_elem. change (@nsum R NumR) with rsum. rewrite <- rsum_scal_r. apply rsum_ext; intros f _. rewrite nsum2_R. reflexivity. }
  apply rsum_ext. intros f Hf.
  transitivity (rsum Y (fun v => rsum X (fun u => rsum OY (fun j => rsum OX (fun i =>
      padded (OX - 1) (OY - 1) fx fy (fun a b => W a b (f * C + c)%Z) (OX - 1 - i + u) (OY - 1 - j + v) * G i j f * I' u v c))))%R).
  2:{ apply rsum_ext; intros v _. apply rsum_ext; intros u _.
      rewrite (rsum_exchange OY OX). rewrite <- rsum_scal_r.
      rewrite <- (rsum_rev OX (fun i => rsum OY _)). apply rsum_ext; intros i Hi. rewrite <- rsum_scal_r.
      rewrite <- (rsum_rev OY). apply rsum_ext; intros j Hj.
      replace (OX - 1 - (OX - 1 - i)) with i by lia. replace (OY - 1 - (OY - 1 - j)) with j by lia. reflexivity. }
  rewrite (rsum2_exchange3 Y X OY OX). apply rsum_ext; intros j Hj. apply rsum_ext; intros i Hi.
  rewrite (rsum_exchange fx fy).
  rewrite (rsum_window Y j fy); [ | lia | lia | unfold OY in *; lia | ].
  2:{ intros v Hv Hout. apply rsum_all_zero. intros u Hu. unfold padded.
      destruct (Z.leb_spec (OY - 1) (OY - 1 - j + v)), (Z.ltb_spec (OY - 1 - j + v) (OY - 1 + fy)); try lia;
      rewrite ?andb_false_r; cbn [n0 NumR]; ring. }
  apply rsum_ext; intros b Hb.
  rewrite (rsum_window X i fx); [ | lia | lia | unfold OX in *; lia | ].
  2:{ intros u Hu Hout. unfold padded.
      destruct (Z.leb_spec (OX - 1) (OX - 1 - i + u)), (Z.ltb_spec (OX - 1 - i + u) (OX - 1 + fx)); try lia;
      rewrite ?andb_false_r; cbn [andb n0 NumR]; ring. }
  apply rsum_ext; intros a Ha. unfold padded.
  destruct (Z.leb_spec (OX - 1) (OX - 1 - i + (i + a))), (Z.ltb_spec (OX - 1 - i + (i + a)) (OX - 1 + fx)); try lia.
  destruct (Z.leb_spec (OY - 1) (OY - 1 - j + (j + b))), (Z.ltb_spec (OY - 1 - j + (j + b)) (OY - 1 + fy)); try lia.
  cbn [andb]. replace (OX - 1 - i + (i + a) - (OX - 1)) with a by lia. replace (OY - 1 - j + (j + b) - (OY - 1)) with b by lia.
  rewrite (Z.add_comm a i), (Z.add_comm b j). ring.
Qed.

Lemma bias_adjoint : forall n OX OY (B' G : Z -> Z -> Z -> R), 0 <= OX -> 0 <= OY -> fits (D3 OX OY 1) ->
  dotp (D3 OX OY n) G (fun x y f => B' f 0%Z 0%Z) =
  dotp (D3 n 1 1) (fun f _ _ => nsum (OX * OY * 1) (elem_no (D3 OX OY 1) (fun x y _ => G x y f))) B'.
Proof.
  intros n OX OY B' G HX HY F. unfold dotp, rsum3. cbn [dx dy dz].
  assert (E1 : forall g, rsum 1 g = g 0).
  { intros g. change 1 with (0 + 1). rewrite rsum_S by lia. rewrite rsum_neg by lia. ring. }
  rewrite !E1. apply rsum_ext; intros f Hf. change (@nsum R NumR) with rsum.
  change (OX * OY * 1) with (vol (D3 OX OY 1)). rewrite rsum3_storage by exact F. unfold rsum3. cbn [dx dy dz]. rewrite E1.
  rewrite <- rsum_scal_r. apply rsum_ext; intros y _. rewrite <- rsum_scal_r. reflexivity.
Qed.

(** The three gradients together give the derivative of Σ G Y along every differentiable curve of inputs and
    parameters. *)
Lemma kernel_adjoint : forall fx fy C n X Y (I W I' W' B' G : Z -> Z -> Z -> R), 0 <= C -> 0 <= n ->
  1 <= fx -> 1 <= fy -> fx <= X -> fy <= Y -> fits (D3 (X - fx + 1) (Y - fy + 1) 1) ->
  dotp (D3 (X - fx + 1) (Y - fy + 1) n) G (fun x y f => corr fx fy C I' W x y f + corr fx fy C I W' x y f + B' f 0%Z 0%Z)%R =
  (dotp (D3 X Y C) (dx_elem (X - fx + 1) (Y - fy + 1) fx fy C n W G) I' +
   dotp (D3 fx fy (C * n)) (dw_elem (X - fx + 1) (Y - fy + 1) C I G) W' +
   dotp (D3 n 1 1) (fun f _ _ => nsum ((X - fx + 1) * (Y - fy + 1) * 1) (elem_no (D3 (X - fx + 1) (Y - fy + 1) 1) (fun x y _ => G x y f))) B')%R.
Proof.
  intros. rewrite dotp_plus, dotp_plus. rewrite corr_adjoint_x, corr_adjoint_w, bias_adjoint by (assumption || lia). reflexivity.
Qed.

Lemma fits_flat : forall X Y Z0, fits (D3 X Y Z0) -> 1 <= Z0 -> fits (D3 X Y 1).
Proof.
  intros X Y Z0 (A & B & C & D) H. unfold fits in *. cbn [dx dy dz] in *. split; [lia|]. split; [lia|]. split; [lia|].
  rewrite (Z.max_r 1 Z0) in D by lia. assert (0 < Z.max 1 X * Z.max 1 Y) by (apply Z.mul_pos_pos; lia). rewrite (Z.max_r 1 1) by lia. nia.
Qed.

(** A layer of [n] filters of size fx x fy, an accepted input and an output gradient. *)
Definition conv_case {T} (k : kernel T) (x g : mat T) (fx fy C n X Y : Z) (W B I G : Z -> Z -> Z -> T) : Prop :=
  kernel_is k fx fy C n W B /\ k_stride k = 1 /\ is_mat x (D3 X Y C) I /\ fits (D3 X Y C) /\ fx <= X /\ fy <= Y /\
  is_mat g (D3 (X - fx + 1) (Y - fy + 1) n) G /\ fits (D3 (X - fx + 1) (Y - fy + 1) n).

(** The forward pass of a layer with weights [W] and biases [B] gives [Y] on an input with elements [I]. *)
Definition conv_gives (fx fy C n X Y : Z) (W B I O : Z -> Z -> Z -> R) : Prop :=
  exists k x o, kernel_is k fx fy C n W B /\ k_stride k = 1 /\ is_mat x (D3 X Y C) I /\
    k_forward k x = Ok o /\ is_mat o (D3 (X - fx + 1) (Y - fy + 1) n) O.

Lemma conv_gives_fwd : forall fx fy C n X Y W B I O, fits (D3 X Y C) -> fx <= X -> fy <= Y ->
  fits (D3 (X - fx + 1) (Y - fy + 1) n) -> conv_gives fx fy C n X Y W B I O ->
  forall x y z, inb (D3 (X - fx + 1) (Y - fy + 1) n) x y z -> O x y z = fwd_R fx fy C I W B x y z.
Proof.
  intros fx fy C n X Y W B I O FX HX HY FO (k & x & o & HK & HS & HI & E & HO) a b c Iabc.
  destruct (k_forward_ok k x fx fy C n X Y W B I HK HS HI FX HX HY FO) as (o' & E' & HO').
  rewrite E in E'. injection E' as <-. apply (is_mat_det o _ _ _ a b c HO HO' Iabc).
Qed.

(** The loss moves along any curve of outputs of the layer. *)
Lemma conv_curve : forall fx fy C n X Y (Wt Bt It Ot : R -> Z -> Z -> Z -> R) t0 W' B' I' G,
  1 <= fx -> 1 <= fy -> 0 <= C -> 1 <= n ->
  fits (D3 X Y C) -> fx <= X -> fy <= Y -> fits (D3 (X - fx + 1) (Y - fy + 1) n) ->
  dcurve (D3 X Y C) It t0 I' -> dcurve (D3 fx fy (C * n)) Wt t0 W' -> dcurve (D3 n 1 1) Bt t0 B' ->
  locally t0 (fun t => conv_gives fx fy C n X Y (Wt t) (Bt t) (It t) (Ot t)) ->
  exists O', dcurve (D3 (X - fx + 1) (Y - fy + 1) n) Ot t0 O' /\
    dotp (D3 (X - fx + 1) (Y - fy + 1) n) G O' =
    (dotp (D3 X Y C) (dx_elem (X - fx + 1) (Y - fy + 1) fx fy C n (Wt t0) G) I' +
     dotp (D3 fx fy (C * n)) (dw_elem (X - fx + 1) (Y - fy + 1) C (It t0) G) W' +
     dotp (D3 n 1 1) (fun f _ _ => nsum ((X - fx + 1) * (Y - fy + 1) * 1) (elem_no (D3 (X - fx + 1) (Y - fy + 1) 1) (fun x y _ => G x y f))) B')%R.
Proof.
  intros fx fy C n X Y Wt Bt It Ot t0 W' B' I' G Hfx Hfy HC Hn FX HX HY FO DI DW DB HL.
  eexists. split; [|apply kernel_adjoint; try assumption; try lia; eapply fits_flat; eauto].
  intros x y z Ixyz. eapply (is_derive_ext_loc (fun t => fwd_R fx fy C (It t) (Wt t) (Bt t) x y z)).
  - eapply filter_imp; [|exact HL]. intros t Ht. symmetry. eapply conv_gives_fwd; eauto.
  - eapply (fwd_dcurve fx fy C n X Y It Wt Bt t0 I' W' B'); eauto; lia.
Qed.

Lemma inb_vol_pos : forall d a b c, inb d a b c -> 1 <= dz d.
Proof. intros d a b c (A & B & C). lia. Qed.

Theorem conv_dw_exact : forall k x g fx fy C n X Y W B I G, conv_case k x g fx fy C n X Y W B I G ->
  exists dw DW, k_dw k x g = Ok dw /\ is_mat dw (D3 fx fy (C * n)) DW /\
  forall a b c (Ot : R -> Z -> Z -> Z -> R), inb (D3 fx fy (C * n)) a b c ->
    (forall t, conv_gives fx fy C n X Y (fupd W a b c t) B I (Ot t)) ->
    is_derive (fun t => dotp (D3 (X - fx + 1) (Y - fy + 1) n) G (Ot t)) (W a b c) (DW a b c).
Proof.
  intros k x g fx fy C n X Y W B I G (HK & HS & HI & FX & HX & HY & HG & FO).
  pose proof HK as (Hfx & Hfy & HC & Hn & FW & FB & HW & HB & Kd & Kn).
  destruct (k_dw_ok k x g fx fy C n X Y _ _ W B I G HK HI FX eq_refl eq_refl) as (dw & E & Hdw); auto; try lia.
  exists dw, (dw_elem (X - fx + 1) (Y - fy + 1) C I G). split; [exact E|]. split; [exact Hdw|].
  intros a b c Ot Iabc HO.
  destruct (conv_curve fx fy C n X Y (fun t => fupd W a b c t) (fun _ => B) (fun _ => I) Ot (W a b c)
     (delta a b c) (fun _ _ _ => 0%R) (fun _ _ _ => 0%R) G) as (O' & D & A); auto.
  - destruct Iabc as (_ & _ & I3). cbn [dz] in I3. nia.
  - apply dcurve_const.
  - apply dcurve_fupd.
  - apply dcurve_const.
  - apply filter_forall. exact HO.
  - rewrite (dotp_delta _ _ _ _ _ Iabc), !dotp_0 in A.
    replace (dw_elem _ _ _ _ _ a b c) with (dotp (D3 (X - fx + 1) (Y - fy + 1) n) G O') by (rewrite A; ring).
    apply is_derive_dotp. exact D.
Qed.

Theorem conv_db_exact : forall k x g fx fy C n X Y W B I G, conv_case k x g fx fy C n X Y W B I G ->
  exists db DB, k_db k g = Ok db /\ is_mat db (D3 n 1 1) DB /\
  forall f, 0 <= f < n ->
    (DB f 0 0 = rsum (Y - fy + 1) (fun y => rsum (X - fx + 1) (fun x => G x y f))) /\
    forall (Ot : R -> Z -> Z -> Z -> R),
    (forall t, conv_gives fx fy C n X Y W (fupd B f 0 0 t) I (Ot t)) ->
    is_derive (fun t => dotp (D3 (X - fx + 1) (Y - fy + 1) n) G (Ot t)) (B f 0 0) (DB f 0 0).
Proof.
  intros k x g fx fy C n X Y W B I G (HK & HS & HI & FX & HX & HY & HG & FO).
  pose proof HK as (Hfx & Hfy & HC & Hn & FW & FB & HW & HB & Kd & Kn).
  destruct (k_db_ok k g fx fy C n (X - fx + 1) (Y - fy + 1) W B G HK) as (db & E & Hdb); auto; try lia.
  eexists db, _. split; [exact E|]. split; [exact Hdb|].
  intros f Hf. split.
  { cbn beta. change (@nsum R NumR) with rsum.
    change ((X - fx + 1) * (Y - fy + 1) * 1) with (vol (D3 (X - fx + 1) (Y - fy + 1) 1)).
    rewrite rsum3_storage by (eapply fits_flat; eauto; lia). unfold rsum3. cbn [dx dy dz].
    change 1 with (0 + 1) at 1. rewrite rsum_S by lia. rewrite rsum_neg by lia. ring. }
  intros Ot HO.
  destruct (conv_curve fx fy C n X Y (fun _ => W) (fun t => fupd B f 0 0 t) (fun _ => I) Ot (B f 0 0)
     (fun _ _ _ => 0%R) (delta f 0 0) (fun _ _ _ => 0%R) G) as (O' & D & A); auto.
  - lia.
  - apply dcurve_const.
  - apply dcurve_const.
  - apply dcurve_fupd.
  - apply filter_forall. exact HO.
  - rewrite (dotp_delta (D3 n 1 1) _ f 0 0), !dotp_0 in A by (unfold inb; cbn; lia).
    match goal with |- is_derive _ _ ?v => replace v with (dotp (D3 (X - fx + 1) (Y - fy + 1) n) G O') by (rewrite A; ring) end.
    apply is_derive_dotp. exact D.
Qed.

(** For square outputs. *)
Theorem conv_dx_exact : forall k x g fx fy C n X Y W B I G, conv_case k x g fx fy C n X Y W B I G ->
  X - fx = Y - fy -> fits (D3 (X + (X - fx)) (Y + (Y - fy)) 1) ->
  exists dx DX, k_dx k x g = Ok dx /\ is_mat dx (D3 X Y C) DX /\
  forall a b c (Ot : R -> Z -> Z -> Z -> R), inb (D3 X Y C) a b c ->
    (forall t, conv_gives fx fy C n X Y W B (fupd I a b c t) (Ot t)) ->
    is_derive (fun t => dotp (D3 (X - fx + 1) (Y - fy + 1) n) G (Ot t)) (I a b c) (DX a b c).
Proof.
  intros k x g fx fy C n X Y W B I G (HK & HS & HI & FX & HX & HY & HG & FO) SQ FP.
  pose proof HK as (Hfx & Hfy & HC & Hn & FW & FB & HW & HB & Kd & Kn).
  pose proof (fits_dims _ FP) as (P1 & P2 & P3). cbn [dx dy dz] in P1, P2, P3.
  assert (ESQ : Y - fy + 1 = X - fx + 1) by lia.
  destruct (k_dx_ok k x g fx fy C n X Y (X - fx + 1) W B I G HK HI FX eq_refl (eq_sym ESQ)) as (dx' & E & Hdx).
  - lia.
  - unfold two31 in *. lia.
  - rewrite ESQ in HG. exact HG.
  - rewrite ESQ in FO. exact FO.
  - replace (fx + 2 * (X - fx + 1 - 1)) with (X + (X - fx)) by lia.
    replace (fy + 2 * (X - fx + 1 - 1)) with (Y + (Y - fy)) by lia. exact FP.
  - exists dx', (dx_elem (X - fx + 1) (X - fx + 1) fx fy C n W G). split; [exact E|]. split; [exact Hdx|].
    intros a b c Ot Iabc HO.
    assert (Hn0 : n <= 0 \/ 1 <= n) by lia. destruct Hn0 as [Hn0|Hn1].
    { (* no filter: no output *)
      assert (n = 0) by lia. subst n. unfold dx_elem, nsum. rewrite fold_z_0 by lia.
      apply (is_derive_ext (fun _ => 0%R)); [|apply @is_derive_const].
      intros t. unfold dotp, rsum3. cbn [dz]. rewrite rsum_neg by lia. reflexivity. }
    destruct (conv_curve fx fy C n X Y (fun _ => W) (fun _ => B) (fun t => fupd I a b c t) Ot (I a b c)
       (fun _ _ _ => 0%R) (fun _ _ _ => 0%R) (delta a b c) G) as (O' & D & A); auto.
    + apply dcurve_fupd.
    + apply dcurve_const.
    + apply dcurve_const.
    + apply filter_forall. exact HO.
    + rewrite (dotp_delta _ _ _ _ _ Iabc), !dotp_0 in A. rewrite ESQ in A at 2.
      replace (dx_elem _ _ _ _ _ _ _ _ a b c) with (dotp (D3 (X - fx + 1) (Y - fy + 1) n) G O') by (rewrite A; ring).
      apply is_derive_dotp. exact D.
Qed.

Lemma mfor_throw : forall {S} (body : Z -> M S unit) n s s' e, 1 <= n -> body 0 s = OThrow s' e -> mfor n body s = OThrow s' e.
Proof.
  intros S body n s s' e Hn H. unfold mfor. destruct (Z.to_nat n) as [|m] eqn:E; [lia|]. cbn. unfold bind. rewrite H. reflexivity.
Qed.

(** For every other output shape the input gradient is not computed: rotate<2> throws. *)
Theorem conv_dx_throws : forall T {N : Num T} (k : kernel T) x g fx fy C n X Y W B I G, conv_case k x g fx fy C n X Y W B I G ->
  1 <= C -> 1 <= n -> X - fx <> Y - fy -> k_dx k x g = Throw MatrixTransform.
Proof.
  intros T N k x g fx fy C n X Y W B I G (HK & HS & HI & FX & HX & HY & HG & FO) HC1 Hn1 NS.
  pose proof HK as (Hfx & Hfy & HC & Hn & FW & FB & HW & HB & Kd & Kn).
  pose proof (fits_dims _ FW) as (W1 & W2 & W3). cbn [dx dy dz] in *.
  unfold k_dx. rewrite Kd, Kn, (is_mat_dim _ _ _ HW), (is_mat_dim _ _ _ HI), (is_mat_dim _ _ _ HG). cbn [dz].
  destruct (mat_fill_ok (D3 X Y C) n0 FX) as (d0 & E0 & I0). rewrite E0. cbn [rbind]. unfold run_state at 1.
  rewrite (mfor_throw _ n d0 d0 MatrixTransform Hn1); [reflexivity|].
  rewrite Z.mul_0_l.
  unfold bind at 1. rewrite i32_ok by (unfold two31 in *; lia). rewrite lift_ok.
  unfold bind at 1. rewrite slices_ok by (auto; cbn [dx dy dz]; nia). rewrite lift_ok.
  unfold bind at 1. rewrite slice_ok by (auto; cbn [dz]; lia). rewrite lift_ok.
  unfold bind at 1, mget at 1. unfold bind at 1. rewrite (is_mat_dim _ _ _ I0), E0, lift_ok.
  unfold bind at 1. unfold run_state at 1.
  rewrite (mfor_throw _ C d0 d0 MatrixTransform HC1); [reflexivity|].
  unfold bind at 1. rewrite view_slice_ok by (auto; cbn [dx dy dz]; nia). rewrite lift_ok.
  unfold bind at 1, mget at 1. unfold bind at 1. rewrite rotate_not_square; [reflexivity|].
  cbn. lia.
Qed.
