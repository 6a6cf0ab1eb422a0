(** Accuracy of the backward pass with doubles: how far the stored gradients are from those of the same network with exact
    arithmetic. *)
From Coq Require Import ZArith Bool Lia Reals Lra Psatz List.
From Coquelicot Require Import Coquelicot.
From Flocq Require Import Core BinarySingleNaN.
From Verif Require Import Base Dim Matrix View Num Expr Spec Iter Sums MatFacts MatThms ViewThms ExprThms Batch Kernel Connected Float32
  FloatFacts Pooling Activation Softmax LayerFacts KernelThms KernelGrad BatchThms ConnectedThms PoolingThms PoolGrad ActivationThms SoftmaxThms LayerTotal Calc Chars
  Double Bar BarFacts Model Net NetThms NetPass NetGrad ModelThms Train TrainLocal TrainRest TrainNet TrainSgd Shapes ShapeNet Main ReportFacts FiniteFacts FiniteSoft FiniteInit FiniteNet FiniteReal
  FiniteMain FiniteBack Rounding RoundLayers RoundNet RoundPass.
Import ListNotations.
Local Open Scope Z_scope.

Local Notation fexp64 := (SpecFloat.fexp prec emax).
Local Notation rnd64 := (round radix2 fexp64 ZnearestE).
#[local] Instance valid64 : Valid_exp fexp64 := fexp_correct prec emax prec_pos.
Local Notation fexp32 := (SpecFloat.fexp 24 128).
Local Notation rnd32 := (round radix2 fexp32 ZnearestE).
#[local] Instance valid32 : Valid_exp fexp32 := fexp_correct 24 128 eq_refl.
Local Notation pw := (bpow radix2).

(** *** Conversion to float *)
Lemma rnd32_error : forall x e, 0 <= e -> (Rabs x <= pw e)%R -> (Rabs (rnd32 x - x) <= pw (e - 24))%R.
Proof.
  intros x e He H. apply Rle_trans with (/ 2 * ulp radix2 fexp32 x)%R; [apply error_le_half_ulp; typeclasses eauto|].
  apply Rle_trans with (/ 2 * pw (e - 23))%R.
  - apply Rmult_le_compat_l; [lra|]. apply Rle_trans with (ulp radix2 fexp32 (pw e)).
    + change fexp32 with (FLT_exp (-149) 24). apply ulp_le; [typeclasses eauto| |rewrite (Rabs_pos_eq (pw e)) by apply bpow_ge_0; exact H]. apply FLT_exp_monotone.
    + rewrite ulp_bpow. apply bpow_le. rewrite fexp32_eq. lia.
  - change (/ 2)%R with (pw (-1)). rewrite pw_mul. apply bpow_le. lia.
Qed.

(** The matrix [m] holds doubles of at most 2^e that are within 2^g of the real numbers [F]. *)
Definition tracks (e g : Z) (m : mat double) (d : dim3) (F : fn) : Prop :=
  exists f, is_mat m d f /\ (forall a b c, inb d a b c -> within 1 e (f a b c)) /\ nearby g d f F.
Lemma tracks_small : forall e g m d F, tracks e g m d F -> small e m d.
Proof. intros e g m d F (f & A & B & _). exists f. auto. Qed.

(** The exponent of the error of a recorded matrix, which is rounded to float *)
Definition r_err (e g : Z) : Z := Z.max g (e - 24) + 1.
Lemma record_near : forall e g (v : double) x, 0 <= e <= 127 -> within 1 e v -> (Rabs (B2R v - x) <= pw g)%R -> (Rabs (B2R (d_float v) - x) <= pw (r_err e g))%R.
Proof.
  intros e g v x He W H. destruct (d_float_ok v e He W) as (_ & ->). destruct W as (_ & W). rewrite Rmult_1_l in W.
  replace (rnd32 (B2R v) - x)%R with ((B2R v - x) + (rnd32 (B2R v) - B2R v))%R by ring. apply Rle_trans with (1 := Rabs_triang _ _). apply pw_max; [exact H|].
  apply rnd32_error; [lia|exact W].
Qed.

(** *** Sums of products *)
Lemma sum_close : forall M N q h e v X Y A, 1 <= M <= N -> N < 2 ^ 52 -> 0 <= q <= N + 2 -> -900 <= e ->
  (Rabs (v - X) <= IZR q * pw (-52) * A + IZR M * pw (-1074))%R -> (Rabs (X - Y) <= IZR M * pw h)%R -> (0 <= A <= IZR M * pw e)%R ->
  (Rabs (v - Y) <= pw (Z.max (h + bits N) (e + bits N - 52 + bits (N + 3)) + 1))%R.
Proof.
  intros M N q h e v X Y A HM HN Hq He HA HB HC. replace (v - Y)%R with ((X - Y) + (v - X))%R by ring. apply Rle_trans with (1 := Rabs_triang _ _).
  assert (MN : (0 <= IZR M <= IZR N)%R) by (split; apply IZR_le; lia). apply pw_max.
  - apply Rle_trans with (1 := HB). apply Rle_trans with (IZR N * pw h)%R; [apply Rmult_le_compat_r; [left; apply pw_pos|lra]|apply pw_bits; lia].
  - apply Rle_trans with (1 := HA). set (k := e + bits N).
    assert (C' : (A <= pw k)%R).
    { apply Rle_trans with (IZR N * pw e)%R; [|apply pw_bits; lia]. apply Rle_trans with (1 := proj2 HC). apply Rmult_le_compat_r; [left; apply pw_pos|lra]. }
    assert (D : (IZR M * pw (-1074) <= pw (k - 52))%R).
    { apply Rle_trans with (IZR N * pw (-1074))%R; [apply Rmult_le_compat_r; [left; apply pw_pos|lra]|]. apply Rle_trans with (1 := pw_bits N (-1074) ltac:(lia)). apply bpow_le. unfold k. lia. }
    assert (G : (IZR q * pw (-52) * A <= IZR (N + 2) * pw (k - 52))%R).
    { replace (pw (k - 52)) with (pw (-52) * pw k)%R by (rewrite pw_mul; f_equal; lia). rewrite Rmult_assoc. apply Rmult_le_compat; [apply IZR_le; lia| |apply IZR_le; lia|].
      - apply Rmult_le_pos; [left; apply pw_pos|lra].
      - apply Rmult_le_compat_l; [left; apply pw_pos|exact C']. }
    apply Rle_trans with (IZR (N + 3) * pw (k - 52))%R; [|apply pw_bits; lia]. replace (N + 3) with ((N + 2) + 1) by ring. rewrite (plus_IZR (N + 2)). lra.
Qed.
Lemma rsum3_abs : forall d f g c, fits d -> (forall x y z, inb d x y z -> (Rabs (f x y z - g x y z) <= c)%R) -> (Rabs (rsum3 d f - rsum3 d g) <= IZR (vol d) * c)%R.
Proof.
  intros d f g c F H. rewrite <- !rsum3_storage by exact F. pose proof (fits_box d F). apply rsum_abs; [lia|]. intros k Hk.
  destruct (position_case d k F Hk) as (x & y & z & I & -> & _). rewrite !elem_no_lin by exact I. apply H. exact I.
Qed.
Lemma rsum_pos : forall n f, (forall k, 0 <= k < n -> (0 <= f k)%R) -> (0 <= rsum n f)%R.
Proof.
  intros n f H. destruct (Z_lt_le_dec n 0) as [L|L]; [rewrite rsum_neg by lia; lra|]. replace 0%R with (rsum n (fun _ => 0%R)) by (rewrite rsum_const by exact L; ring).
  apply rsum_le. exact H.
Qed.
Lemma rsum3_pos : forall d f, fits d -> (forall x y z, inb d x y z -> (0 <= f x y z)%R) -> (0 <= rsum3 d f)%R.
Proof.
  intros d f F H. rewrite <- rsum3_storage by exact F. apply rsum_pos. intros k Hk. destruct (position_case d k F Hk) as (x & y & z & I & -> & _). rewrite elem_no_lin by exact I. apply H. exact I.
Qed.
Lemma rsum3_top : forall d f c, fits d -> (forall x y z, inb d x y z -> (f x y z <= c)%R) -> (rsum3 d f <= IZR (vol d) * c)%R.
Proof.
  intros d f c F H. rewrite <- rsum3_storage by exact F. pose proof (fits_box d F). apply rsum_top; [lia|]. intros k Hk. destruct (position_case d k F Hk) as (x & y & z & I & -> & _). rewrite elem_no_lin by exact I. apply H. exact I.
Qed.
Lemma le_more : forall x a c, (x <= a -> 0 <= c -> x <= a + c)%R.
Proof. intros. lra. Qed.
Lemma div_abs : forall x n, (1 <= n)%R -> (Rabs (x * / n) <= Rabs x)%R.
Proof.
  intros x n H. rewrite Rabs_mult. assert (Q : (0 <= / n <= 1)%R) by (split; [left; apply Rinv_0_lt_compat; lra|rewrite <- Rinv_1; apply Rinv_le; lra]).
  rewrite (Rabs_pos_eq (/ n)) by lra. pose proof (Rabs_pos x). nra.
Qed.
(** A product whose factors are both inexact *)
Lemma product_both : forall e b gx h (u v : double) x y, within 1 e u -> within 1 b v -> gx <= e -> (Rabs (B2R u - x) <= pw gx)%R -> (Rabs (B2R v - y) <= pw h)%R ->
  (Rabs (B2R u * B2R v - x * y) <= pw (Z.max (gx + b) (e + 1 + h) + 1))%R.
Proof.
  intros e b gx h u v x y (_ & U) (_ & V) L A B. rewrite Rmult_1_l in U, V. replace (B2R u * B2R v - x * y)%R with ((B2R u - x) * B2R v + x * (B2R v - y))%R by ring.
  apply Rle_trans with (1 := Rabs_triang _ _). rewrite !Rabs_mult. apply pw_max; rewrite bpow_plus; apply Rmult_le_compat; auto using Rabs_pos.
  assert (Q : (pw gx <= pw e)%R) by (apply bpow_le; exact L). rewrite bpow_plus. change (pw 1) with 2%R. replace x with (B2R u - (B2R u - x))%R by ring.
  apply Rle_trans with (1 := Rabs_triang _ _). rewrite Rabs_Ropp. lra.
Qed.

(** *** Exponents of the errors of gradients *)
(** The gradient that a layer hands on: parameters of at most 2^w, an incoming gradient of at most 2^b with errors of at most
    2^h, a recorded output with errors of at most 2^gz *)
Definition h_berr (w : Z) (s : shape) (d : dim3) (b h gz : Z) : Z :=
  let N := vol (h_out s d) in
  match s with
  | HConv _ _ _ _ | HConn _ => Z.max (h + w + bits N) (b + w + bits N - 52 + bits (N + 3)) + 1
  | HPool _ _ _ _ _ => Z.max (h + bits N) (b + bits N - 52 + bits (N + 3)) + 1
  | HAct (Sigmoid | Tangent) => Z.max h (b + Z.max gz (-50) + 3) + 1
  | HAct _ => Z.max h (b - 52) + 1
  end.
(** The gradients that a layer stores: a recorded input of at most 2^e with errors of at most 2^gx *)
Definition h_gerr (s : shape) (d : dim3) (e gx b h : Z) : Z :=
  let N := vol (h_out s d) in
  match s with
  | HConv _ _ _ _ => Z.max (Z.max (gx + b) (e + 1 + h) + 1 + bits N) (e + b + bits N - 52 + bits (N + 3)) + 1
  | HConn _ => Z.max (Z.max (gx + b) (e + 1 + h) + 1) (e + b - 52) + 1
  | _ => 0
  end.
(** The gradient at the input of a network whose output has a gradient of at most 2^b with errors of at most 2^h *)
Fixpoint h_net_berr (w : Z) (ss : list shape) (d : dim3) (e g b h : Z) : Z :=
  match ss with
  | [] => h
  | s :: r => let e' := h_exp w s d e in let g' := h_err w s d e g in
      h_berr w s d (h_net_bexp w r (h_out s d) b) (h_net_berr w r (h_out s d) e' g' b h) (r_err e' g')
  end.
(** The gradients stored by each layer *)
Fixpoint h_net_gerr (w : Z) (ss : list shape) (d : dim3) (e g b h : Z) : list Z :=
  match ss with
  | [] => []
  | s :: r => let e' := h_exp w s d e in let g' := h_err w s d e g in
      h_gerr s d e (r_err e g) (h_net_bexp w r (h_out s d) b) (h_net_berr w r (h_out s d) e' g' b h) :: h_net_gerr w r (h_out s d) e' g' b h
  end.
(** The bounds for the errors of the forward pass are smaller than those for the values, and powers of two in the range of float. *)
Fixpoint h_net_fine (w : Z) (ss : list shape) (d : dim3) (e g : Z) : Prop :=
  match ss with [] => True | s :: r => -149 <= g < e /\ h_net_fine w r (h_out s d) (h_exp w s d e) (h_err w s d e g) end.

(** No decision of the layer is so close that rounding may change it: the exact input [F] of a ReLU or leaky ReLU is further
    from 0 than twice its error; the maximum or minimum of a window is further from the other elements than twice the error. *)
Definition apart (s : shape) (d : dim3) (g : Z) (F : fn) : Prop :=
  match s with
  | HAct (Relu | LeakyRelu) => forall x y z, inb d x y z -> (pw (g + 1) < Rabs (F x y z))%R
  | HPool PAvg _ _ _ _ => True
  | HPool t qx qy sx sy => let gg := pgeom qx qy sx sy d in
      forall i j c, inb (odim gg) i j c -> exists x y, in_win gg i j x y /\
        forall x' y', in_win gg i j x' y' -> (x', y') <> (x, y) ->
        match t with PMin => (F x y c + pw (g + 1) < F x' y' c)%R | _ => (F x' y' c + pw (g + 1) < F x y c)%R end
  | _ => True
  end.
Fixpoint net_apart (w : Z) (ss : list shape) (rs : list lspec) (d : dim3) (e g : Z) (F : fn) : Prop :=
  match ss, rs with
  | s :: ss', r :: rs' => apart s d g F /\ net_apart w ss' rs' (h_out s d) (h_exp w s d e) (h_err w s d e g) (sem r d F)
  | _, _ => True
  end.

(** *** The selected elements *)
Lemma selected_only : forall {T} {N : Num T} better g (I : Z -> Z -> Z -> T) i j c p x y, selected better g I i j c p -> in_win g i j x y ->
  (forall x' y', in_win g i j x' y' -> (x', y') <> (x, y) -> better (I x y c) (I x' y' c) = true) -> p = D3 x y c.
Proof.
  intros T N better g I i j c [px py pz] x y (Z1 & W1 & N1 & _) W H. cbn [dx dy dz] in *. subst pz.
  destruct (Z.eq_dec px x) as [->|E]; [destruct (Z.eq_dec py y) as [->|E]; [reflexivity|]|]; exfalso;
    specialize (N1 x y W); rewrite H in N1; [discriminate|exact W1|congruence|discriminate|exact W1|congruence].
Qed.
Lemma same_selection : forall t g (I : Z -> Z -> Z -> double) (F : fn) k i j c p x y, t <> PAvg -> geom_ok g -> inb (odim g) i j c ->
  (forall a b e, inb (xdim g) a b e -> is_finite (I a b e) = true /\ (Rabs (B2R (I a b e) - F a b e) <= pw k)%R) -> in_win g i j x y ->
  (forall x' y', in_win g i j x' y' -> (x', y') <> (x, y) -> match t with PMin => (F x y c + pw (k + 1) < F x' y' c)%R | _ => (F x' y' c + pw (k + 1) < F x y c)%R end) ->
  selected (better_of t) g I i j c p -> p = pool_sel t g F i j c.
Proof.
  intros t g I F k i j c p x y NT G Hi HI W FA S. pose proof (pw_pos k) as K0. assert (K1 : (pw (k + 1) = 2 * pw k)%R) by (rewrite bpow_plus; change (pw 1) with 2%R; ring).
  rewrite (selected_only _ _ _ _ _ _ _ x y S W). symmetry. apply (selected_only _ _ _ _ _ _ _ x y (pool_sel_ok t g F G NT i j c Hi) W).
  - intros x' y' W' NE. specialize (FA x' y' W' NE). unfold better_of, lt_max, lt_min. destruct t; [| |congruence]; cbn [nltb NumR]; apply Rltb_true; lra.
  - intros x' y' W' NE. specialize (FA x' y' W' NE). destruct (HI _ _ _ (win_inb g i j c _ _ G Hi W)) as (F1 & C1). destruct (HI _ _ _ (win_inb g i j c _ _ G Hi W')) as (F2 & C2).
    apply Rabs_le_inv in C1. apply Rabs_le_inv in C2. unfold better_of, lt_max, lt_min. destruct t; [| |congruence]; rewrite ltb_R by assumption; apply Rlt_bool_true; lra.
Qed.

(** What the backward pass needs of the forward pass besides the recorded matrices: the selection of the exact network, and the
    signs of the inputs of (leaky) ReLUs *)
Definition sel_at (l : layer double) (s : shape) (d : dim3) (i : Z) (F : fn) : Prop :=
  match l, s with
  | LPool q, HPool t qx qy sx sy => t <> PAvg -> exists m SF, vget (q_idx q) i = Ok m /\ is_mat m (odim (pgeom qx qy sx sy d)) SF /\
      forall a b c, inb (odim (pgeom qx qy sx sy d)) a b c -> SF a b c = pool_sel t (pgeom qx qy sx sy d) F a b c
  | _, _ => True
  end.
Fixpoint net_sel (ls : list (layer double)) (ss : list shape) (rs : list lspec) (d : dim3) (i : Z) (F : fn) : Prop :=
  match ls, ss, rs with l :: ls', s :: ss', r :: rs' => sel_at l s d i F /\ net_sel ls' ss' rs' (h_out s d) i (sem r d F) | _, _, _ => True end.
Definition sign_kept (s : shape) (d : dim3) (z : mat double) (F : fn) : Prop :=
  match s with
  | HAct (Relu | LeakyRelu) => forall f, is_mat z d f -> forall a b c, inb d a b c -> (0 < B2R (f a b c) <-> 0 < F a b c)%R
  | _ => True
  end.
Fixpoint recs_track (w : Z) (rs : list (mat double)) (ss : list shape) (ls : list lspec) (d : dim3) (e g : Z) (F : fn) : Prop :=
  match rs, ss, ls with
  | [], [], [] => True
  | r :: rs', s :: ss', l :: ls' => let e' := h_exp w s d e in let g' := h_err w s d e g in
      tracks e' (r_err e' g') r (h_out s d) (sem l d F) /\ sign_kept s d r F /\ recs_track w rs' ss' ls' (h_out s d) e' g' (sem l d F)
  | _, _, _ => False
  end.

Lemma relu_sign : forall g e (v : double) x, -149 <= g -> within 1 e v -> (Rabs (B2R v - x) <= pw g)%R -> (pw (g + 1) < Rabs x)%R ->
  (0 < x /\ pw g <= B2R v \/ x < 0 /\ B2R v < 0)%R.
Proof.
  intros g e v x Hg _ H L. rewrite bpow_plus in L. change (pw 1) with 2%R in L. pose proof (pw_pos g). apply Rabs_le_inv in H.
  destruct (Rlt_le_dec 0 x) as [P|P]; [rewrite Rabs_pos_eq in L by lra; left; lra|]. rewrite Rabs_left1 in L by exact P. right. lra.
Qed.
Lemma float_sign : forall g e (v : double), -149 <= g -> 0 <= e <= 127 -> within 1 e v -> ((pw g <= B2R v)%R -> (0 < B2R (d_float v))%R) /\ ((B2R v <= 0)%R -> (B2R (d_float v) <= 0)%R).
Proof.
  intros g e v Hg He W. destruct (d_float_ok v e He W) as (_ & ->). split; intros H.
  - apply Rlt_le_trans with (pw g); [apply pw_pos|]. apply round_ge_generic; [typeclasses eauto|typeclasses eauto| |exact H].
    apply generic_format_bpow. rewrite fexp32_eq. lia.
  - rewrite <- (round_0 radix2 fexp32 ZnearestE). apply round_le; [typeclasses eauto|typeclasses eauto|exact H].
Qed.

(** The same conditions for all but the first [m] layers. For the first [m] layers the recorded outputs are close, but their
    decisions may differ. *)
Fixpoint net_apart_from (m : nat) (w : Z) (ss : list shape) (rs : list lspec) (d : dim3) (e g : Z) (F : fn) : Prop :=
  match m with
  | O => net_apart w ss rs d e g F
  | S m' => match ss, rs with
            | s :: ss', r :: rs' => net_apart_from m' w ss' rs' (h_out s d) (h_exp w s d e) (h_err w s d e g) (sem r d F)
            | _, _ => True
            end
  end.
Fixpoint net_sel_from (m : nat) (ls : list (layer double)) (ss : list shape) (rs : list lspec) (d : dim3) (i : Z) (F : fn) : Prop :=
  match m with
  | O => net_sel ls ss rs d i F
  | S m' => match ls, ss, rs with l :: ls', s :: ss', r :: rs' => net_sel_from m' ls' ss' rs' (h_out s d) i (sem r d F) | _, _, _ => True end
  end.
Fixpoint recs_track_from (m : nat) (w : Z) (rs : list (mat double)) (ss : list shape) (ls : list lspec) (d : dim3) (e g : Z) (F : fn) : Prop :=
  match m with
  | O => recs_track w rs ss ls d e g F
  | S m' => match rs, ss, ls with
            | [], [], [] => True
            | r :: rs', s :: ss', l :: ls' => let e' := h_exp w s d e in let g' := h_err w s d e g in
                tracks e' (r_err e' g') r (h_out s d) (sem l d F) /\ recs_track_from m' w rs' ss' ls' (h_out s d) e' g' (sem l d F)
            | _, _, _ => False
            end
  end.

Section Forward.
Variable E : env double.
Hypothesis AO : acc_ok E.

(** One layer: its output, the recorded output, and the decisions it took *)
Lemma fwd_track : forall w l s d i x e g F, l_fit l s d -> index_slot l i -> h_ok s d -> tracks e g x d F -> l_small w l s d ->
  0 <= e -> 0 <= w -> e <= 127 -> h_exp w s d e <= 127 -> -149 <= g -> apart s d g F ->
  exists l' o r, l_forward E x i l = ORet l' o /\ float_copy E o = Ok r /\ tracks (h_exp w s d e) (h_err w s d e g) o (h_out s d) (sem (real_layer s l') d F) /\
    tracks (h_exp w s d e) (r_err (h_exp w s d e) (h_err w s d e g)) r (h_out s d) (sem (real_layer s l') d F) /\
    sign_kept s d r F /\ sel_at l' s d i F /\ l_small w l' s d.
Proof.
  intros w l s d i x e g F HL HS OK (I & HX & BI & CI) HW He Hw LE L Hg AP. pose proof AO as ((EX & TH & LG & CF & CD & EP & SQ & RN & HR & OD & MX) & EA & TA & CV & EMo & EG).
  destruct (fwd_close E EX EA TH TA CF CV SQ HR OD MX w l s d i x e g I F HL HS OK HX BI CI HW He Hw ltac:(lia) ltac:(lia)) as (l' & o & O & E1 & HO & BO & CO & SL).
  pose proof (h_exp_nonneg w s d e Hw He) as L4. destruct (h_ok_out _ _ OK) as (PO & FO).
  destruct (float_copy_small E RN o _ O HO PO FO) as (r & Er & Hr).
  exists l', o, r. split; [exact E1|]. split; [exact Er|]. split; [exists O; auto|]. split.
  { eexists. split; [exact Hr|]. split; intros a b c Ia.
    - apply d_float_ok; [lia|apply BO; exact Ia].
    - apply record_near; [lia|apply BO; exact Ia|apply CO; exact Ia]. }
  destruct OK as (P & FD & OK). split; [|split; [|exact SL]].
  - destruct s as [fx fy C n|n|t qx qy sx sy|ac]; try exact Logic.I. destruct l as [k|c|q|a|sm]; cbn in HL; try contradiction. destruct HL as (H1 & H2). cbn [l_forward h_out] in *.
    destruct (a_forward_ok (e_exp E) (e_tanh E) (e_c01f E) ac x d I HX FD (pos_iterable d P)) as (o' & Eo & HV). rewrite H1, Eo in E1. cbn [lift] in E1. injection E1 as <- <-.
    assert (Q : forall f, is_mat r d f -> forall a b c, inb d a b c -> f a b c = d_float (act_fcn (e_exp E) (e_tanh E) (e_c01f E) ac (I a b c))).
    { intros f Hf a0 b c Ia. rewrite (is_mat_eq r d f _ Hf Hr FD _ _ _ Ia). f_equal. apply (is_mat_eq o' d O _ HO HV FD _ _ _ Ia). }
    destruct ac; cbn [sign_kept]; try exact Logic.I; intros f Hf a0 b c Ia; rewrite (Q f Hf _ _ _ Ia); cbn [apart] in AP.
    + pose proof (BO a0 b c Ia) as BV. rewrite (is_mat_eq o' d O _ HO HV FD _ _ _ Ia) in BV. cbn [act_fcn h_exp] in *.
      destruct (float_sign g e _ Hg ltac:(lia) BV) as (S1 & S2). destruct (BI _ _ _ Ia) as (FV & _). destruct (relu_ok (I a0 b c) FV) as (_ & RV). rewrite RV in S1, S2.
      destruct (relu_sign g e _ _ Hg (BI _ _ _ Ia) (CI _ _ _ Ia) (AP _ _ _ Ia)) as [(A1 & A2)|(A1 & A2)].
      * split; [intros _; exact A1|intros _; apply S1]. apply Rle_trans with (1 := A2). apply Rmax_r.
      * split; [|lra]. intros X. exfalso. rewrite Rmax_left in S2 by lra. specialize (S2 ltac:(lra)). lra.
    + pose proof (BO a0 b c Ia) as BV. rewrite (is_mat_eq o' d O _ HO HV FD _ _ _ Ia) in BV. cbn [act_fcn h_exp] in *.
      destruct (float_sign g e _ Hg ltac:(lia) BV) as (S1 & S2). destruct (BI _ _ _ Ia) as (FV & _). destruct (leaky_ok (e_c01f E) CF (I a0 b c) FV) as (_ & RV & _). rewrite RV in S1, S2.
      destruct (relu_sign g e _ _ Hg (BI _ _ _ Ia) (CI _ _ _ Ia) (AP _ _ _ Ia)) as [(A1 & A2)|(A1 & A2)].
      * split; [intros _; exact A1|intros _; apply S1]. apply Rle_trans with (1 := A2). apply Rmax_r.
      * split; [|lra]. intros X. exfalso. assert (M : (rnd64 (B2R (e_c01f E) * B2R (I a0 b c)) <= 0)%R).
        { rewrite <- (round_0 radix2 fexp64 ZnearestE). apply round_le; [typeclasses eauto|typeclasses eauto|]. destruct CF as (_ & CB). nra. }
        assert (M2 : (Rmax (rnd64 (B2R (e_c01f E) * B2R (I a0 b c))) (B2R (I a0 b c)) <= 0)%R) by (apply Rmax_lub; lra).
        specialize (S2 M2). lra.
  - destruct s as [fx fy C n|n|t qx qy sx sy|ac]; destruct l as [k|c|q|a|sm]; cbn in HL; try contradiction; cbn [l_forward] in E1.
    + unfold lift in E1. destruct (k_forward k x); try discriminate. injection E1 as <- _. exact Logic.I.
    + destruct (c_forward _ _ _ x c); try discriminate. cbn [map_out] in E1. injection E1 as <- _. exact Logic.I.
    + destruct HL as (HG & HT). cbn in HS. destruct HS as (s0 & Es & Cs). set (gg := pgeom qx qy sx sy d) in *.
      assert (HX' : is_mat x (xdim gg) I) by (unfold gg; rewrite pgeom_dim; exact HX).
      assert (BI' : forall a b c, inb (xdim gg) a b c -> is_finite (I a b c) = true /\ (Rabs (B2R (I a b c) - F a b c) <= pw g)%R).
      { unfold gg. rewrite pgeom_dim. intros a b c Ia. split; [apply BI; exact Ia|apply CI; exact Ia]. }
      assert (D : t = PAvg \/ t <> PAvg) by (destruct t; [right|right|left]; congruence). destruct D as [D|D].
      * destruct (q_forward x i q) as [q' y| |]; try discriminate. cbn [map_out] in E1. injection E1 as <- _. cbn [sel_at]. congruence.
      * destruct (q_forward_finite t q gg x I i s0 D OK HG HT HX' Es Cs ltac:(intros; apply BI'; assumption)) as (m & o' & OF & SF & Eo & HV & Hm & Q).
        rewrite Eo in E1. cbn [map_out] in E1. injection E1 as <- _. intros _. exists m, SF. split; [cbn [with_slot q_idx]; eapply vget_upd_eq; exact Es|]. split; [exact Hm|].
        intros a b c Ia. assert (AP' : exists x y, in_win gg a b x y /\ forall x' y', in_win gg a b x' y' -> (x', y') <> (x, y) ->
          match t with PMin => (F x y c + pw (g + 1) < F x' y' c)%R | _ => (F x' y' c + pw (g + 1) < F x y c)%R end) by (destruct t; [apply AP; exact Ia|apply AP; exact Ia|congruence]).
        destruct AP' as (x0 & y0 & W0 & FA). apply (same_selection t gg I F g a b c _ x0 y0); auto. apply (Q a b c Ia).
    + unfold lift in E1. destruct (a_forward _ _ _ _ x); try discriminate. injection E1 as <- _. exact Logic.I.
Qed.

(** The layers of a network *)
Theorem fwd_net_track : forall w ls ss d i x e g F, net_fit ls ss d -> List.Forall (fun l => index_slot l i) ls -> h_net_ok ss d ->
  tracks e g x d F -> net_small w ls ss d -> 0 <= w -> 0 <= e -> h_net_lim 127 w ss d e -> h_net_fine w ss d e g ->
  (forall ls' r, fwd_layers E ls x i = ORet ls' r -> net_apart w ss (real_net ss ls') d e g F) ->
  exists ls' rs o, fwd_layers E ls x i = ORet ls' (rs, o) /\ tracks (h_net_exp w ss d e) (h_net_err w ss d e g) o (h_net_out ss d) (net_sem (real_net ss ls') d F) /\
    recs_track w rs ss (real_net ss ls') d e g F /\ net_sel ls' ss (real_net ss ls') d i F /\ net_small w ls' ss d.
Proof.
  intros w. induction ls as [|l ls IH]; intros ss d i x e g F HN HS OK HX HW Hw He HL FI AP; destruct ss as [|s ss]; cbn in HN; try contradiction.
  - exists [], [], x. cbn. auto.
  - destruct HN as [H1 H2]. destruct OK as [O1 O2]. inversion HS as [|? ? S1 S2]; subst. destruct HW as [W1 W2]. pose proof AO as ((EX & TH & LG & CF & CD & EP & SQ & RN & HR & OD & MX) & EA & TA & CV & EMo & EG).
    cbn [h_net_lim] in HL. destruct HL as (L1 & L2). pose proof (FiniteNet.h_net_lim_head E MX _ _ _ _ _ L2) as L3. pose proof (h_exp_nonneg w s d e Hw He) as L4.
    cbn [h_net_fine] in FI. destruct FI as (G1 & FI).
    destruct (fwd_small E EX TH CF SQ HR OD MX w l s d i x e H1 S1 O1 (tracks_small _ _ _ _ _ HX) W1 He Hw ltac:(lia) ltac:(lia)) as (l1 & y1 & Ey1 & Hy1 & _).
    destruct (h_ok_out _ _ O1) as [P2 F2]. destruct (record_small E RN _ y1 _ Hy1 P2 F2 ltac:(lia)) as (r1 & Er1 & _).
    destruct (fwd_net_small E EX TH CF SQ HR OD MX RN w ls ss (h_out s d) i y1 _ H2 S2 O2 Hy1 W2 Hw L4 L2) as (ls1 & rs1 & o1 & Eo1 & _).
    assert (EF : fwd_layers E (l :: ls) x i = ORet (l1 :: ls1) (r1 :: rs1, o1)) by (cbn [fwd_layers]; rewrite Ey1, Er1, Eo1; reflexivity).
    destruct (AP _ _ EF) as (A1 & A2).
    destruct (fwd_track w l s d i x e g F H1 S1 O1 HX W1 He Hw ltac:(lia) ltac:(lia) ltac:(lia) A1) as (l' & y & r & Ey & Er & Hy & Tr & Sr & Se & Wl).
    rewrite Ey1 in Ey. injection Ey as <- <-. rewrite Er1 in Er. injection Er as <-.
    destruct (IH ss (h_out s d) i y1 _ _ (sem (real_layer s l1) d F) H2 S2 O2 Hy W2 Hw L4 L2 FI) as (ls' & rs & o & Eo & Ho & N1 & N2 & N3).
    { intros ls' r Q. rewrite Eo1 in Q. injection Q as <- _. exact A2. }
    rewrite Eo1 in Eo. injection Eo as <- <- <-.
    exists (l1 :: ls1), (r1 :: rs1), o1. split; [exact EF|]. cbn [h_net_exp h_net_out h_net_err real_net net_sem recs_track net_sel net_small]. rewrite real_out. auto 8.
Qed.

(** The same with decisions that may be close in the first [m] layers *)
Lemma fwd_rec : forall w l s d i x e g F, l_fit l s d -> index_slot l i -> h_ok s d -> tracks e g x d F -> l_small w l s d ->
  0 <= e -> 0 <= w -> e <= 127 -> h_exp w s d e <= 127 ->
  exists l' o r, l_forward E x i l = ORet l' o /\ float_copy E o = Ok r /\ tracks (h_exp w s d e) (h_err w s d e g) o (h_out s d) (sem (real_layer s l') d F) /\
    tracks (h_exp w s d e) (r_err (h_exp w s d e) (h_err w s d e g)) r (h_out s d) (sem (real_layer s l') d F) /\ l_small w l' s d.
Proof.
  intros w l s d i x e g F HL HS OK (I & HX & BI & CI) HW He Hw LE L. pose proof AO as ((EX & TH & LG & CF & CD & EP & SQ & RN & HR & OD & MX) & EA & TA & CV & EMo & EG).
  destruct (fwd_close E EX EA TH TA CF CV SQ HR OD MX w l s d i x e g I F HL HS OK HX BI CI HW He Hw ltac:(lia) ltac:(lia)) as (l' & o & O & E1 & HO & BO & CO & SL).
  pose proof (h_exp_nonneg w s d e Hw He) as L4. destruct (h_ok_out _ _ OK) as (PO & FO).
  destruct (float_copy_small E RN o _ O HO PO FO) as (r & Er & Hr).
  exists l', o, r. split; [exact E1|]. split; [exact Er|]. split; [exists O; auto|]. split; [|exact SL].
  eexists. split; [exact Hr|]. split; intros a b c Ia; [apply d_float_ok; [lia|apply BO; exact Ia]|apply record_near; [lia|apply BO; exact Ia|apply CO; exact Ia]].
Qed.
Theorem fwd_net_track_from : forall w m ls ss d i x e g F, net_fit ls ss d -> List.Forall (fun l => index_slot l i) ls -> h_net_ok ss d ->
  tracks e g x d F -> net_small w ls ss d -> 0 <= w -> 0 <= e -> h_net_lim 127 w ss d e -> h_net_fine w ss d e g ->
  (forall ls' r, fwd_layers E ls x i = ORet ls' r -> net_apart_from m w ss (real_net ss ls') d e g F) ->
  exists ls' rs o, fwd_layers E ls x i = ORet ls' (rs, o) /\ tracks (h_net_exp w ss d e) (h_net_err w ss d e g) o (h_net_out ss d) (net_sem (real_net ss ls') d F) /\
    recs_track_from m w rs ss (real_net ss ls') d e g F /\ net_sel_from m ls' ss (real_net ss ls') d i F /\ net_small w ls' ss d.
Proof.
  intros w. induction m as [|m IH]; [exact (fwd_net_track w)|]. intros ls ss d i x e g F HN HS OK HX HW Hw He HL FI AP; destruct ls as [|l ls]; destruct ss as [|s ss]; cbn in HN; try contradiction.
  - exists [], [], x. cbn. auto.
  - destruct HN as [H1 H2]. destruct OK as [O1 O2]. inversion HS as [|? ? S1 S2]; subst. destruct HW as [W1 W2]. pose proof AO as ((EX & TH & LG & CF & CD & EP & SQ & RN & HR & OD & MX) & EA & TA & CV & EMo & EG).
    cbn [h_net_lim] in HL. destruct HL as (L1 & L2). pose proof (FiniteNet.h_net_lim_head E MX _ _ _ _ _ L2) as L3. pose proof (h_exp_nonneg w s d e Hw He) as L4.
    cbn [h_net_fine] in FI. destruct FI as (G1 & FI).
    destruct (fwd_rec w l s d i x e g F H1 S1 O1 HX W1 He Hw ltac:(lia) ltac:(lia)) as (l1 & y1 & r1 & Ey & Er & Hy & Tr & Wl).
    destruct (IH ls ss (h_out s d) i y1 _ _ (sem (real_layer s l1) d F) H2 S2 O2 Hy W2 Hw L4 L2 FI) as (ls' & rs & o & Eo & Ho & N1 & N2 & N3).
    { intros ls' (rs' & o') Q. assert (EF : fwd_layers E (l :: ls) x i = ORet (l1 :: ls') (r1 :: rs', o')) by (cbn [fwd_layers]; rewrite Ey, Er, Q; reflexivity). exact (AP _ _ EF). }
    exists (l1 :: ls'), (r1 :: rs), o. split; [cbn [fwd_layers]; rewrite Ey, Er, Eo; reflexivity|]. cbn [h_net_exp h_net_out h_net_err real_net net_sem recs_track_from net_sel_from net_small]. rewrite real_out. auto 8.
Qed.
End Forward.

(** *** The derivatives of the activation functions *)
Lemma unit_error : forall x, (0 <= x <= 1)%R -> (Rabs (rnd64 x - x) <= pw (-52))%R.
Proof.
  intros x H. destruct (round_any x) as (e & h & He & Hh & Q). rewrite Q. replace (x * (1 + e) + h - x)%R with (x * e + h)%R by ring.
  apply Rle_trans with (1 := Rabs_triang _ _). rewrite Rabs_mult, (Rabs_pos_eq x) by lra.
  assert (x * Rabs e <= 1 * pw (-53))%R by (apply Rmult_le_compat; auto using Rabs_pos; lra).
  assert (pw (-1075) <= pw (-53))%R by (apply bpow_le; lia). replace (pw (-52)) with (2 * pw (-53))%R by (change 2%R with (pw 1); rewrite pw_mul; reflexivity). lra.
Qed.
Lemma actg_unit : forall a x, (0 <= actg_R a (act_R a x) <= 1)%R.
Proof.
  intros a x. unfold actg_R. destruct a; cbn [act_grad].
  - unfold relu_grad. cbn [nltb NumR n0 n1]. destruct (Rltb _ _); lra.
  - unfold sigmoid_grad. cbn [nmul nsub n1 NumR]. change (sigmoid_fcn exp (act_R Sigmoid x)) with (act_R Sigmoid (act_R Sigmoid x)). pose proof (sigmoid_bounds (act_R Sigmoid x)). set (s := act_R Sigmoid (act_R Sigmoid x)) in *. nra.
  - unfold linear_grad. cbn [n1 NumR]. lra.
  - unfold tangent_grad, tangent_fcn. cbn [nmul nsub n1 NumR]. pose proof (tanh_bounds (act_R Tangent x)). set (s := tanh (act_R Tangent x)) in *. nra.
  - unfold leaky_grad. cbn [nltb NumR n0 n1]. destruct (Rltb _ _); unfold d01; lra.
Qed.
Definition is_curved (a : act) : bool := match a with Sigmoid | Tangent => true | _ => false end.
Lemma grad_close : forall E, acc_ok E -> B2R (e_c01 E) = d01 -> forall a gz (z : double) x, is_finite z = true -> (Rabs (B2R z - act_R a x) <= pw gz)%R ->
  (a = Relu \/ a = LeakyRelu -> (0 < B2R z <-> 0 < x)%R) ->
  (Rabs (B2R (act_grad (e_exp E) (e_tanh E) (e_c01 E) a z) - actg_R a (act_R a x)) <= if is_curved a then 5 * pw (Z.max gz (-50)) else 0)%R.
Proof.
  intros E ((EX & TH & LG & CF & CD & EP & SQ & RN & HR & OD & MX) & EA & TA & CV & EMo & EG) CV1 a gz z x F H SG. destruct one_ok as (O1 & O2).
  assert (Z0 : (0 <= pw (-52))%R) by (left; apply pw_pos). set (M := Z.max gz (-50)).
  assert (M1 : (pw gz <= pw M)%R) by (apply bpow_le; unfold M; lia). assert (M2 : (pw (-50) <= pw M)%R) by (apply bpow_le; unfold M; lia).
  assert (M3 : (pw (-50) = 4 * pw (-52))%R) by (change 4%R with (pw 2); rewrite pw_mul; reflexivity).
  unfold actg_R. destruct a; cbn [act_grad is_curved].
  - unfold relu_grad. rewrite ltb_R by (try reflexivity; exact F). change (B2R (n0 : double)) with 0%R. cbn [nltb NumR n0 n1]. rewrite relu_R. specialize (SG (or_introl eq_refl)).
    destruct (Rlt_bool_spec 0 (B2R z)) as [L|L].
    + rewrite (proj2 (Rltb_true _ _)) by (rewrite Rmax_right; lra). rewrite O2. rewrite Rminus_diag_eq, Rabs_R0 by reflexivity. lra.
    + rewrite (proj2 (Rltb_false _ _)) by (apply Rmax_lub; [lra|]; destruct (Rlt_le_dec 0 x) as [X|X]; [apply SG in X; lra|exact X]). change (B2R (n0 : double)) with 0%R. rewrite Rminus_diag_eq, Rabs_R0 by reflexivity. lra.
  - unfold sigmoid_grad. set (s := sigmoid_fcn (e_exp E) z). pose proof (sigmoid_unit (e_exp E) EX z F) as (S1 & S2). fold s in S1, S2.
    pose proof (sigmoid_close (e_exp E) EX EA z F) as C1. fold s in C1. pose proof (sigmoid_lip (B2R z) (act_R Sigmoid x)) as C2.
    cbn [nmul nsub n1 NumR]. change (sigmoid_fcn exp (act_R Sigmoid x)) with (act_R Sigmoid (act_R Sigmoid x)). set (S := act_R Sigmoid (act_R Sigmoid x)) in *.
    assert (SB : (0 < S < 1)%R) by apply sigmoid_bounds.
    destruct (unit_compl s (conj S1 S2)) as (T1 & T2). destruct (unit_mul s (nsub n1 s) (conj S1 S2) (conj T1 T2)) as (U1 & U2).
    destruct (mul_fin _ _ U1) as (_ & _ & UV). destruct (sub_fin _ _ T1) as (_ & _ & TV). rewrite O2 in TV. set (t := nsub n1 s) in *.
    change (Bmult mode_NE s t) with (nmul s t). rewrite UV.
    pose proof (unit_error (1 - B2R s) ltac:(lra)) as E1. rewrite <- TV in E1. pose proof (unit_error (B2R s * B2R t) ltac:(nra)) as E2.
    set (p := rnd64 (B2R s * B2R t)) in *. apply Rabs_le_inv in E1. apply Rabs_le_inv in E2.
    assert (C3 : (Rabs (B2R s - S) <= 2 * pw M)%R).
    { replace (B2R s - S)%R with ((B2R s - act_R Sigmoid (B2R z)) + (act_R Sigmoid (B2R z) - S))%R by ring. apply Rle_trans with (1 := Rabs_triang _ _). lra. }
    replace (p - S * (1 - S))%R with ((p - B2R s * B2R t) + (B2R s * (B2R t - (1 - B2R s)) + (B2R s - S) * (1 - B2R s - S)))%R by ring.
    apply Rle_trans with (1 := Rabs_triang _ _). apply Rle_trans with (pw (-52) + (pw (-52) + 2 * pw M * 1))%R; [|lra].
    apply Rplus_le_compat; [apply Rabs_le; lra|]. apply Rle_trans with (1 := Rabs_triang _ _). apply Rplus_le_compat.
    + rewrite Rabs_mult, (Rabs_pos_eq (B2R s)) by lra. assert (Q : (Rabs (B2R t - (1 - B2R s)) <= pw (-52))%R) by (apply Rabs_le; lra). pose proof (Rabs_pos (B2R t - (1 - B2R s))). nra.
    + rewrite Rabs_mult. apply Rmult_le_compat; auto using Rabs_pos. apply Rabs_le. lra.
  - unfold linear_grad. cbn [n1 NumR]. rewrite O2. rewrite Rminus_diag_eq, Rabs_R0 by reflexivity. lra.
  - unfold tangent_grad, tangent_fcn. cbn [nmul nsub n1 NumR]. set (t := e_tanh E z). destruct (TH z F) as (T1 & T2). fold t in T1, T2.
    pose proof (TA z F) as C1. fold t in C1. change (act_R Tangent x) with (tanh x) in *. pose proof (tanh_lip (B2R z) (tanh x)) as C2. set (S := tanh (tanh x)) in *.
    assert (SB : (-1 < S < 1)%R) by apply tanh_bounds. assert (PB : (0 <= B2R t * B2R t <= 1)%R) by nra.
    destruct (mul_exact t t 1 T1 T1 cap_1) as (U1 & UV); [rewrite Rabs_pos_eq; apply PB|]. assert (U2 : unit_const (nmul t t)) by (split; [exact U1|rewrite UV; apply rnd_unit; exact PB]).
    destruct (unit_compl _ U2) as (V1 & V2). destruct (sub_fin _ _ V1) as (_ & _ & VV). rewrite O2 in VV.
    change (Bminus mode_NE Bone (Bmult mode_NE t t)) with (nsub n1 (nmul t t) : double). rewrite VV. destruct U2 as (_ & U2).
    pose proof (unit_error (1 - B2R (nmul t t))) as E1. pose proof (unit_error (B2R t * B2R t) PB) as E2. rewrite <- UV in E2.
    set (q := B2R (nmul t t)) in *. specialize (E1 ltac:(lra)). set (p := rnd64 (1 - q)) in *. apply Rabs_le_inv in E1. apply Rabs_le_inv in E2.
    assert (C3 : (Rabs (B2R t - S) <= 2 * pw M)%R).
    { replace (B2R t - S)%R with ((B2R t - tanh (B2R z)) + (tanh (B2R z) - S))%R by ring. apply Rle_trans with (1 := Rabs_triang _ _). lra. }
    replace (p - (1 - S * S))%R with ((p - (1 - q)) + ((B2R t * B2R t - q) + - ((B2R t - S) * (B2R t + S))))%R by ring.
    apply Rle_trans with (1 := Rabs_triang _ _). apply Rle_trans with (pw (-52) + (pw (-52) + 2 * pw M * 2))%R; [|lra].
    apply Rplus_le_compat; [apply Rabs_le; lra|]. apply Rle_trans with (1 := Rabs_triang _ _). apply Rplus_le_compat; [apply Rabs_le; lra|].
    rewrite Rabs_Ropp, Rabs_mult. apply Rmult_le_compat; auto using Rabs_pos. apply Rabs_le. lra.
  - unfold leaky_grad. rewrite ltb_R by (try reflexivity; exact F). change (B2R (n0 : double)) with 0%R. cbn [nltb NumR n0 n1]. rewrite leaky_R. specialize (SG (or_intror eq_refl)).
    destruct (Rlt_bool_spec 0 (B2R z)) as [L|L].
    + rewrite (proj2 (Rltb_true _ _)) by (apply Rlt_le_trans with x; [apply SG; exact L|apply Rmax_r]). rewrite O2. rewrite Rminus_diag_eq, Rabs_R0 by reflexivity. lra.
    + assert (X : (x <= 0)%R) by (destruct (Rlt_le_dec 0 x) as [X|X]; [apply SG in X; lra|exact X]).
      rewrite (proj2 (Rltb_false _ _)) by (apply Rmax_lub; [unfold f01; lra|exact X]). rewrite CV1. rewrite Rminus_diag_eq, Rabs_R0 by reflexivity. lra.
Qed.

Lemma factor_close : forall b h c (u f : double) y z, 0 <= b <= 970 -> within 1 b u -> unit_const f -> (Rabs (B2R u - y) <= pw h)%R -> (0 <= z <= 1)%R -> (Rabs (B2R f - z) <= c)%R ->
  (Rabs (B2R (nmul u f) - y * z) <= pw h + (pw b * c + pw (b - 52)))%R.
Proof.
  intros b h c u f y z Hb (U1 & U2) (F1 & F2) HU HZ HF. rewrite Rmult_1_l in U2.
  assert (P : (Rabs (B2R u * B2R f) <= pw b)%R).
  { rewrite Rabs_mult, (Rabs_pos_eq (B2R f)) by lra. apply Rle_trans with (pw b * 1)%R; [apply Rmult_le_compat; auto using Rabs_pos; lra|lra]. }
  assert (W : within 1 b (nmul u f)) by (apply within_1 with 0 b; [split; [exact U1|lra]|apply unit_within; split; assumption|lia|lia]). destruct W as (W1 & _).
  destruct (mul_fin _ _ W1) as (_ & _ & ->). destruct (round_any (B2R u * B2R f)) as (r & k & Hr & Hk & ->). set (x := (B2R u * B2R f)%R) in *.
  replace (x * (1 + r) + k - y * z)%R with ((B2R u - y) * z + (B2R u * (B2R f - z) + (x * r + k)))%R by (unfold x; ring).
  apply Rle_trans with (1 := Rabs_triang _ _). apply Rplus_le_compat.
  - rewrite Rabs_mult, (Rabs_pos_eq z) by lra. apply Rle_trans with (pw h * 1)%R; [apply Rmult_le_compat; auto using Rabs_pos; lra|lra].
  - apply Rle_trans with (1 := Rabs_triang _ _). apply Rplus_le_compat; [rewrite Rabs_mult; apply Rmult_le_compat; auto using Rabs_pos|].
    apply Rle_trans with (1 := Rabs_triang _ _). rewrite Rabs_mult. assert (Q : (Rabs x * Rabs r <= pw b * pw (-53))%R) by (apply Rmult_le_compat; auto using Rabs_pos).
    rewrite pw_mul in Q. assert (pw (-1075) <= pw (b + -53))%R by (apply bpow_le; lia). replace (pw (b - 52)) with (2 * pw (b + -53))%R by (change 2%R with (pw 1); rewrite pw_mul; f_equal; lia). lra.
Qed.
(** The gradient of the input of a convolution with exact arithmetic, in terms of the weights that are doubles *)
Lemma dx_real : forall s fx fy C n (W : Z -> Z -> Z -> double) (G : fn) a b c,
  dx_elem s s fx fy C n (real_fn W) G a b c = rsum n (fun f => rsum s (fun i => rsum s (fun j => (weight_at fx fy W (a - i) (b - j) (f * C + c) * G i j f)%R))).
Proof.
  intros. unfold dx_elem. change (@nsum R NumR) with rsum. apply rsum_ext. intros f Hf. rewrite nsum2_R. rewrite <- (rsum_rev s). apply rsum_ext. intros i Hi. rewrite <- (rsum_rev s). apply rsum_ext. intros j Hj.
  replace (s - 1 - (s - 1 - i)) with i by lia. replace (s - 1 - (s - 1 - j)) with j by lia. cbn [nmul NumR]. f_equal.
  unfold padded, weight_at, real_fn. replace (s - 1 <=? s - 1 - i + a) with (0 <=? a - i) by lia. replace (s - 1 - i + a <? s - 1 + fx) with (a - i <? fx) by lia.
  replace (s - 1 <=? s - 1 - j + b) with (0 <=? b - j) by lia. replace (s - 1 - j + b <? s - 1 + fy) with (b - j <? fy) by lia.
  replace (s - 1 - i + a - (s - 1)) with (a - i) by lia. replace (s - 1 - j + b - (s - 1)) with (b - j) by lia. destruct (_ && _); reflexivity.
Qed.
Lemma weight_top : forall w fx fy D (W : Z -> Z -> Z -> double) a b z, (forall a b c, inb (D3 fx fy D) a b c -> within 1 w (W a b c)) -> 0 <= z < D -> (Rabs (weight_at fx fy W a b z) <= pw w)%R.
Proof.
  intros w fx fy D W a b z H Hz. unfold weight_at. destruct (_ && _) eqn:Q; [|rewrite Rabs_R0; left; apply pw_pos].
  destruct (H a b z) as (_ & B); [unfold inb; cbn [dx dy dz]; lia|]. lra.
Qed.

(** The gradients in slot [i] of a layer are within 2^k of [DW] and [DB]. *)
Definition close_to (k : Z) (m : mat double) (d : dim3) (F : fn) : Prop := exists f, is_mat m d f /\ (forall a b c, inb d a b c -> is_finite (f a b c) = true) /\ nearby k d f F.
Definition slot_close (k : Z) (l : layer double) (s : shape) (d : dim3) (i : Z) (D : fn * fn) : Prop :=
  match s, l with
  | HConv _ _ _ _, LKernel k0 => exists gw gb, vget (p_wg (k_par k0)) i = Ok gw /\ close_to k gw (h_wdim s d) (fst D) /\ vget (p_bg (k_par k0)) i = Ok gb /\ close_to k gb (h_bdim s) (snd D)
  | HConn _, LConn c => exists gw gb, vget (p_wg (c_par c)) i = Ok gw /\ close_to k gw (h_wdim s d) (fst D) /\ vget (p_bg (c_par c)) i = Ok gb /\ close_to k gb (h_bdim s) (snd D)
  | HConv _ _ _ _, _ | HConn _, _ => False
  | _, _ => True
  end.
Fixpoint net_close (ks : list Z) (ls : list (layer double)) (ss : list shape) (d : dim3) (i : Z) (Ds : list (fn * fn)) : Prop :=
  match ks, ls, ss, Ds with
  | [], [], [], [] => True
  | k :: ks', l :: ls', s :: ss', D :: Ds' => slot_close k l s d i D /\ net_close ks' ls' ss' (h_out s d) i Ds'
  | _, _, _, _ => False
  end.
Fixpoint net_close_from (m : nat) (ks : list Z) (ls : list (layer double)) (ss : list shape) (d : dim3) (i : Z) (Ds : list (fn * fn)) : Prop :=
  match m with
  | O => net_close ks ls ss d i Ds
  | S m' => match ks, ls, ss, Ds with
            | [], [], [], [] => True
            | k :: ks', l :: ls', s :: ss', D :: Ds' => net_close_from m' ks' ls' ss' (h_out s d) i Ds'
            | _, _, _, _ => False
            end
  end.
Lemma near_small : forall e k m d f F V, small e m d -> is_mat m d f -> fits d -> is_mat m d V -> (forall a b c, inb d a b c -> is_finite (V a b c) = true -> (Rabs (B2R (V a b c) - F a b c) <= pw k)%R) ->
  (forall a b c, inb d a b c -> within 1 e (f a b c)) /\ nearby k d f F.
Proof.
  intros e k m d f F V (f0 & H0 & B0) Hf FD HV Q. assert (B : forall a b c, inb d a b c -> within 1 e (f a b c)).
  { intros a b c Ia. rewrite (is_mat_eq m d f f0 Hf H0 FD _ _ _ Ia). apply B0. exact Ia. }
  split; [exact B|]. intros a b c Ia. destruct (B a b c Ia) as (FV & _). rewrite (is_mat_eq m d f V Hf HV FD _ _ _ Ia) in FV |- *. apply Q; assumption.
Qed.
Lemma small_close : forall e k m d F V, small e m d -> fits d -> is_mat m d V -> (forall a b c, inb d a b c -> is_finite (V a b c) = true -> (Rabs (B2R (V a b c) - F a b c) <= pw k)%R) -> close_to k m d F.
Proof. intros e k m d F V S FD HV Q. destruct (near_small e k m d V F V S HV FD HV Q) as (A & B). exists V. split; [exact HV|]. split; [intros; apply A; assumption|exact B]. Qed.
Lemma small_tracks : forall e k m d F V, small e m d -> fits d -> is_mat m d V -> (forall a b c, inb d a b c -> is_finite (V a b c) = true -> (Rabs (B2R (V a b c) - F a b c) <= pw k)%R) -> tracks e k m d F.
Proof. intros e k m d F V S FD HV Q. destruct (near_small e k m d V F V S HV FD HV Q) as (A & B). exists V. auto. Qed.

(** The layers and the records of the forward pass of a network that ends in softmax *)
Lemma fwd_app_eq : forall {T} {N : Num T} (E : env T) i (a b : list (layer T)) x t q a' ra oa, fwd_layers E (a ++ b) x i = ORet t q -> fwd_layers E a x i = ORet a' (ra, oa) ->
  exists b' rb, t = a' ++ b' /\ fst q = ra ++ rb /\ fwd_layers E b oa i = ORet b' (rb, snd q).
Proof.
  intros T N E i. induction a as [|l a IH]; intros b x t q a' ra oa H H1; cbn [app fwd_layers] in *.
  - injection H1 as <- <- <-. destruct q as (rb & o). exists t, rb. auto.
  - destruct (l_forward E x i l) as [l' y| |]; try discriminate. destruct (float_copy E y) as [r| |]; try discriminate.
    destruct (fwd_layers E (a ++ b) y i) as [t1 [r1 z1]| |] eqn:Q1; try discriminate. destruct (fwd_layers E a y i) as [t2 [r2 z2]| |] eqn:Q2; try discriminate.
    cbn [map_out] in H, H1. injection H as <- <-. injection H1 as <- <- <-. destruct (IH b y t1 (r1, z1) t2 r2 z2 Q1 Q2) as (b' & rb & -> & Q3 & Q4). cbn [fst snd] in *.
    exists b', rb. split; [reflexivity|]. split; [rewrite Q3; reflexivity|exact Q4].
Qed.
Lemma forward_parts : forall {T} {N : Num T} (E : env T) U (cast : U -> T) n input i body sm t r x x0 ls rs o,
  forward_pass E cast n input i (body ++ [LSoft sm]) = ORet t r -> mat_of_lz n0 cast (l_val input) tt = Ok x -> float_copy E x = Ok x0 -> fwd_layers E body x i = ORet ls (rs, o) ->
  exists p, t = ls ++ [LSoft sm] /\ r_inputs r = x0 :: rs ++ [p].
Proof.
  intros T N E U cast n input i body sm t r x x0 ls rs o H Ex E0 EL. unfold forward_pass, bind in H. rewrite Ex in H. cbn [lift] in H. rewrite E0 in H. cbn [lift] in H.
  destruct (fwd_layers E (body ++ [LSoft sm]) x i) as [t1 q| |] eqn:Q; try discriminate. destruct (fwd_app_eq E i _ _ _ _ _ _ _ _ Q EL) as (b' & rb & -> & Q3 & Q4).
  cbn [fwd_layers l_forward] in Q4. unfold lift in Q4 at 1. destruct (sm_forward _ sm o) as [p'| |]; try discriminate. destruct (float_copy E p') as [p0| |]; try discriminate. injection Q4 as <- <- Q5.
  destruct (lift (base_size (mdim (snd q))) (ls ++ [LSoft sm])) as [l1 a1| |] eqn:Q6; try discriminate. unfold lift in Q6. destruct (base_size _); try discriminate. injection Q6 as <- <-.
  destruct (_ =? n); try discriminate. cbn [ret] in H. unfold lift in H. destruct (max_index (snd q)); try discriminate. destruct (mread_flat (snd q) _); try discriminate.
  cbn [ret] in H. injection H as <- <-. cbn [r_inputs]. exists p0. rewrite Q3. auto.
Qed.

Section Backward.
Variable E : env double.
Hypothesis AO : acc_ok E.
Hypothesis CV1 : B2R (e_c01 E) = d01.
Hypothesis ORD : e_moved E = false.

(** One layer *)
Lemma bwd_track : forall w l s d i x z g last e gx ez gz b h F G', l_fit l s d -> ready l -> h_ok s d -> marked l s d i -> (last = false -> h_bk s d) ->
  tracks e gx x d F -> tracks ez gz z (h_out s d) (sem (real_layer s l) d F) -> sign_kept s d z F -> sel_at l s d i F -> tracks b h g (h_out s d) G' ->
  l_small w l s d -> 0 <= e -> 0 <= w -> 0 <= b -> gx <= e -> h_bexp w s d b <= 970 -> h_gexp s d e b <= 970 ->
  exists l' r, l_backward E x z g i last l = ORet l' r /\ (last = false -> tracks (h_bexp w s d b) (h_berr w s d b h gz) r d (s_dx (real_layer s l) d F G')) /\
    slot_close (h_gerr s d e gx b h) l' s d i (s_dw (real_layer s l) d F G', s_db (real_layer s l) d G').
Proof.
  intros w l s d i x z g last e gx ez gz b h F G' HL RD OK0 HR HB TX TZ SG SE TG HW He Hw Hb Hgx LB LG.
  pose proof AO as ((EX & TH & LGh & CF & CD & EP & SQ & RN & HRd & OD & MX) & EA & TA & CV & EMo & EG).
  destruct (bwd_small E ORD EX TH CD w l s d i x z g last e ez b HL RD OK0 HR HB (tracks_small _ _ _ _ _ TX) (tracks_small _ _ _ _ _ TZ) (tracks_small _ _ _ _ _ TG) HW He Hw Hb LB LG)
    as (l' & r & E1 & SR & SS & SL & _).
  exists l', r. split; [exact E1|]. destruct TX as (I & HX & BI & CI). destruct TZ as (Zf & HZ & BZ & CZ). destruct TG as (G & HG & BG & CG).
  destruct (h_ok_out s d OK0) as [PO FO]. pose proof (fits_box _ FO) as VB. pose proof (vol_pos1 _ PO) as VP. destruct (bits_ok (vol (h_out s d)) VP) as (B0 & B1).
  destruct OK0 as (P & FD & OK).
  destruct l as [k|c|q|a|sm]; destruct s as [fx fy C n|n|t qx qy sx sy|ac]; cbn in HL; try contradiction; cbn [l_backward h_out h_bexp h_gexp h_berr h_gerr] in *.
  - destruct HL as ((W0 & B00 & HK0) & HT). destruct OK as (A1 & A2 & A3 & A4 & F1 & F2 & F3). cbn in HR. destruct HR as [R1 R2].
    pose proof HW as (S1 & S2). destruct (small_rd w (k_w k) _ S1 F1) as (IW & BW). destruct (small_rd w (k_b k) _ S2 F2) as (IB & BB).
    assert (HK : kernel_is k fx fy C n (rd n0 (k_w k)) (rd n0 (k_b k))) by (unfold kernel_is in *; tauto).
    cbn [real_layer s_dx s_dw s_db]. set (W := rd n0 (k_w k)) in *. set (B := rd n0 (k_b k)) in *.
    assert (HX' : is_mat x (D3 (dx d) (dy d) C) I) by (rewrite A3; destruct d; exact HX).
    assert (F' : fits (D3 (dx d) (dy d) C)) by (rewrite A3; destruct d; exact FD).
    destruct (k_dw_round k x g fx fy C n (dx d) (dy d) (dx d - fx + 1) (dy d - fy + 1) W B I G HK HX' F' eq_refl eq_refl ltac:(lia) ltac:(lia) HG F3) as (dw & VW & Edw & Hdw & Qw).
    destruct (k_db_round k g fx fy C n (dx d - fx + 1) (dy d - fy + 1) W B G HK ltac:(lia) ltac:(lia) HG F3) as (db & VD & Edb & Hdb & Qb).
    set (OX := dx d - fx + 1) in *. set (OY := dy d - fy + 1) in *. assert (HO : 1 <= OX /\ 1 <= OY) by (unfold OX, OY; lia).
    unfold vol in VB, VP, B0, B1, LB, LG |- *. cbn [dx dy dz] in VB, VP, B0, B1, LB, LG |- *.
    assert (P1 : 1 <= OX * OY) by nia. assert (V1 : OX * OY * 1 <= OX * OY * n) by (apply Z.mul_le_mono_nonneg_l; lia). assert (HC : 1 <= C) by (rewrite A3; apply P).
    assert (SC : slot_close (Z.max (Z.max (gx + b) (e + 1 + h) + 1 + bits (OX * OY * n)) (e + b + bits (OX * OY * n) - 52 + bits (OX * OY * n + 3)) + 1)
      (LKernel (with_par k (store (k_par k) i dw db))) (HConv fx fy C n) d i (dw_elem OX OY C F G', fun f _ _ => nsum (OX * OY * 1) (elem_no (D3 OX OY 1) (fun x y _ => G' x y f))) /\
      l' = LKernel (with_par k (store (k_par k) i dw db))).
    { assert (EL : l' = LKernel (with_par k (store (k_par k) i dw db))).
      { rewrite (k_backward_ok k x g dw db i last Edw Edb R1 R2) in E1. destruct last; [cbn [lift map_out] in E1; congruence|]. destruct (k_dx k x g); cbn in E1; congruence. }
      split; [|exact EL]. subst l'. destruct SS as (gw & gb & G1 & G2 & G3 & G4). cbn [with_par k_par store p_wg p_bg h_wdim h_bdim] in G1, G2, G3, G4. rewrite vget_upd_same in G1 by assumption. rewrite vget_upd_same in G3 by assumption.
      injection G1 as <-. injection G3 as <-. exists dw, db. cbn [with_par k_par store p_wg p_bg h_wdim h_bdim fst snd]. rewrite !vget_upd_same by assumption. split; [reflexivity|]. split; [|split; [reflexivity|]].
      - apply (small_close _ _ _ _ _ VW G2 F1 Hdw). intros u v zz Hu FV. specialize (Qw u v zz Hu FV). unfold inb in Hu. cbn [dx dy dz] in Hu. unfold dw_elem. rewrite nsum2_R. cbn [nmul NumR].
        pose proof (Z.mod_pos_bound zz C ltac:(lia)). pose proof (Z.div_lt_upper_bound zz C n ltac:(lia) ltac:(lia)). pose proof (Z.div_pos zz C ltac:(lia) ltac:(lia)).
        assert (IN : forall i j, 0 <= i < OX -> 0 <= j < OY -> inb d (i + u) (j + v) (zz mod C) /\ inb (D3 OX OY n) i j (zz / C)) by (intros i0 j0 X1 X2; unfold inb; cbn [dx dy dz]; unfold OX, OY in *; lia).
        eapply (sum_close (OX * OY) _ (OX * OY + 1) _ (e + b)); [lia|lia|lia|lia|exact Qw| |].
        + rewrite mult_IZR, Rmult_assoc. apply rsum_abs; [lia|]. intros i0 Hi. apply rsum_abs; [lia|]. intros j0 Hj. destruct (IN i0 j0 Hi Hj) as (J1 & J2).
          apply product_both; auto.
        + split; [apply rsum_pos; intros; apply rsum_pos; intros; apply Rabs_pos|]. rewrite mult_IZR, Rmult_assoc. apply rsum_top; [lia|]. intros i0 Hi. apply rsum_top; [lia|]. intros j0 Hj. destruct (IN i0 j0 Hi Hj) as (J1 & J2).
          apply product_top; auto.
      - apply (small_close _ _ _ _ _ VD G4 F2 Hdb). intros u v zz Hu FV. specialize (Qb u v zz Hu FV). unfold inb in Hu. cbn [dx dy dz] in Hu.
        assert (F4 : fits (D3 OX OY 1)) by (apply fits_1 with n; [exact F3|lia]).
        assert (QS : nsum (OX * OY * 1) (elem_no (D3 OX OY 1) (fun x y _ => G' x y u)) = rsum OX (fun i => rsum OY (fun j => G' i j u))).
        { change (@nsum R NumR) with rsum. change (OX * OY * 1) with (vol (D3 OX OY 1)). rewrite rsum3_storage by exact F4. unfold rsum3. cbn [dx dy dz]. rewrite rsum_1. apply rsum_exchange. }
        rewrite QS. apply Rle_trans with (pw (Z.max (h + bits (OX * OY * n)) (b + bits (OX * OY * n) - 52 + bits (OX * OY * n + 3)) + 1)); [|apply bpow_le; lia].
        assert (IN : forall i j, 0 <= i < OX -> 0 <= j < OY -> inb (D3 OX OY n) i j u) by (intros i0 j0 X1 X2; unfold inb; cbn [dx dy dz]; lia).
        eapply (sum_close (OX * OY) _ (OX * OY) _ b); [lia|lia|lia|lia| | |].
        + apply le_more; [exact Qb|apply Rmult_le_pos; [apply IZR_le; lia|left; apply pw_pos]].
        + rewrite mult_IZR, Rmult_assoc. apply rsum_abs; [lia|]. intros i0 Hi. apply rsum_abs; [lia|]. intros j0 Hj. apply CG. apply IN; assumption.
        + split; [apply rsum_pos; intros; apply rsum_pos; intros; apply Rabs_pos|]. rewrite mult_IZR, Rmult_assoc. apply rsum_top; [lia|]. intros i0 Hi. apply rsum_top; [lia|]. intros j0 Hj.
          destruct (BG _ _ _ (IN i0 j0 Hi Hj)) as (_ & Q2). rewrite Rmult_1_l in Q2. exact Q2. }
    destruct SC as (SC & ->). split; [|exact SC]. intros ->. rewrite (k_backward_ok k x g dw db i false Edw Edb R1 R2) in E1. specialize (SR eq_refl).
    destruct (HB eq_refl) as [B2 B3].
    assert (F4 : fits (D3 (fx + 2 * (OX - 1)) (fy + 2 * (OX - 1)) 1)).
    { replace (fx + 2 * (OX - 1)) with (dx d + (dx d - fx)) by (unfold OX; lia).
      replace (fy + 2 * (OX - 1)) with (dy d + (dy d - fy)) by (unfold OX; lia). exact B3. }
    assert (B4 : 2 * (OX - 1) < two31).
    { pose proof (fits_vol _ F4) as [_ V]. cbn [dx dy] in V.
      set (u := 2 * (OX - 1)) in *. assert (0 <= u) by (unfold u; lia).
      assert (fx + u <= (fx + u) * (fy + u)) by (apply Z.le_mul_diag_r; lia). lia. }
    assert (EY : OY = OX) by (unfold OX, OY; lia). clear SC Qw Qb.
    rewrite EY in HG, F3, BG, CG, LB, LG, VB, B0, B1, P1, V1, SR |- *.
    destruct (k_dx_round k x g fx fy C n (dx d) (dy d) OX W B I G HK HX' F' eq_refl (eq_sym EY) ltac:(lia) B4 HG F3 F4) as (r' & V & Er & Hr & Q).
    assert (Er2 : k_dx k x g = Ok r') by exact Er. rewrite Er2 in E1. cbn [lift map_out] in E1. assert (ER : r' = r) by congruence. subst r'.
    apply (small_tracks _ _ _ _ _ V SR FD); [rewrite A3 in Hr; destruct d; exact Hr|]. intros u v zz Hu FV.
    assert (Hu' : inb (D3 (dx d) (dy d) C) u v zz) by (rewrite A3; destruct d; exact Hu). specialize (Q u v zz Hu' FV). unfold inb in Hu'. cbn [dx dy dz] in Hu'. rewrite dx_real.
    assert (ZC : forall f, 0 <= f < n -> 0 <= f * C + zz < C * n) by (intros f Hf; pose proof (mul_small C n f ltac:(lia) ltac:(lia)); nia).
    assert (IN : forall f i j, 0 <= f < n -> 0 <= i < OX -> 0 <= j < OX -> inb (D3 OX OX n) i j f) by (intros; unfold inb; cbn [dx dy dz]; lia).
    assert (NN : OX * OX + n <= OX * OX * n + 1) by nia.
    replace (n * (OX * OX)) with (OX * OX * n) in Q by ring.
    assert (MI : IZR (OX * OX * n) = (IZR n * (IZR OX * IZR OX))%R) by (rewrite !mult_IZR; ring).
    eapply (sum_close (OX * OX * n) _ (OX * OX + n + 1) _ (b + w)); [lia|lia|lia|lia|exact Q| |].
    + rewrite MI, !Rmult_assoc. apply rsum_abs; [lia|]. intros f Hf. apply rsum_abs; [lia|]. intros i0 Hi. apply rsum_abs; [lia|]. intros j0 Hj.
      rewrite <- Rmult_minus_distr_l, Rabs_mult, bpow_plus, Rmult_comm. apply Rmult_le_compat; auto using Rabs_pos. apply weight_top with (C * n); auto.
    + split; [apply rsum_pos; intros; apply rsum_pos; intros; apply rsum_pos; intros; apply Rabs_pos|]. rewrite MI, !Rmult_assoc. apply rsum_top; [lia|]. intros f Hf. apply rsum_top; [lia|]. intros i0 Hi. apply rsum_top; [lia|]. intros j0 Hj.
      rewrite Rabs_mult, bpow_plus, Rmult_comm. apply Rmult_le_compat; auto using Rabs_pos; [|apply weight_top with (C * n); auto]. destruct (BG _ _ _ (IN f i0 j0 Hf Hi Hj)) as (_ & Q2). rewrite Rmult_1_l in Q2. exact Q2.
  - cbn in RD. assert (HL' : (exists W B, conn_is c n (vol d) W B) /\ c_in c = d) by (destruct HL as [H|H]; [exact H|destruct H as (H & _); congruence]).
    destruct HL' as ((W0 & B00 & HK0) & HT). destruct OK as (A1 & F1 & F2). cbn in HR. destruct HR as [R1 R2].
    destruct (HW RD) as (S1 & S2). destruct (small_rd w (c_w c) _ S1 F1) as (IW & BW). destruct (small_rd w (c_b c) _ S2 F2) as (IB & BB).
    assert (HK : conn_is c n (vol d) (rd n0 (c_w c)) (rd n0 (c_b c))) by (unfold conn_is in *; tauto).
    cbn [real_layer s_dx s_dw s_db]. set (W := rd n0 (c_w c)) in *. set (B := rd n0 (c_b c)) in *.
    destruct (c_dw_round x g n d I G HX FD HG A1 (vol_pos1 d P) F2 F1) as (dw & VW & Edw & Hdw & Qw).
    unfold vol in VB, VP, B0, B1, LB, LG |- *. cbn [dx dy dz] in VB, VP, B0, B1, LB, LG |- *.
    assert (SC : slot_close (Z.max (Z.max (gx + b) (e + 1 + h) + 1) (e + b - 52) + 1) (LConn (Conn (store (c_par c) i dw g) (c_in c) (c_ready c))) (HConn n) d i
      ((fun i k _ => (0 + G' i 0%Z 0%Z * elem_no d F k)%R), G') /\ l' = LConn (Conn (store (c_par c) i dw g) (c_in c) (c_ready c))).
    { assert (EL : l' = LConn (Conn (store (c_par c) i dw g) (c_in c) (c_ready c))).
      { rewrite ORD, (c_backward_ok false c x g dw i last Edw R1 R2) in E1. destruct last; [cbn [lift map_out] in E1; congruence|]. destruct (c_dx false c g); cbn in E1; congruence. }
      split; [|exact EL]. subst l'. destruct SS as (gw & gb & G1 & G2 & G3 & G4). cbn [c_par store p_wg p_bg h_wdim h_bdim] in G1, G2, G3, G4. rewrite vget_upd_same in G1 by assumption. rewrite vget_upd_same in G3 by assumption.
      injection G1 as <-. injection G3 as <-. exists dw, g. cbn [c_par store p_wg p_bg h_wdim h_bdim fst snd]. rewrite !vget_upd_same by assumption. split; [reflexivity|]. split; [|split; [reflexivity|]].
      - apply (small_close _ _ _ _ _ VW G2 F1 Hdw). intros u v zz Hu FV. specialize (Qw u v zz Hu FV). unfold inb in Hu. cbn [dx dy dz] in Hu. rewrite Rplus_0_l.
        destruct (position_case d v FD ltac:(lia)) as (a' & b' & c1 & I' & -> & _). rewrite !elem_no_lin in Qw by exact I'. rewrite !elem_no_lin by exact I'.
        assert (IG : inb (D3 n 1 1) u 0 0) by (unfold inb; cbn [dx dy dz]; lia).
        pose proof (product_both e b gx h _ _ _ _ (BI _ _ _ I') (BG _ _ _ IG) Hgx (CI _ _ _ I') (CG _ _ _ IG)) as PB. rewrite (Rmult_comm (F a' b' c1)), (Rmult_comm (B2R (I a' b' c1))) in PB.
        pose proof (product_top _ _ _ _ (BG _ _ _ IG) (BI _ _ _ I')) as PT. rewrite (Z.add_comm b e) in PT.
        match goal with |- (Rabs (?v - ?y) <= _)%R => replace (v - y)%R with ((B2R (G u 0%Z 0%Z) * B2R (I a' b' c1) - y) + (v - B2R (G u 0%Z 0%Z) * B2R (I a' b' c1)))%R by ring end.
        apply Rle_trans with (1 := Rabs_triang _ _). apply pw_max; [exact PB|]. apply Rle_trans with (1 := Qw).
        replace (pw (e + b - 52)) with (pw (-53) * pw (e + b) + pw (e + b - 53))%R by (rewrite pw_mul; replace (-53 + (e + b)) with (e + b - 53) by lia; replace (e + b - 52) with (1 + (e + b - 53)) by lia; rewrite (bpow_plus radix2 1); change (pw 1) with 2%R; ring).
        apply Rplus_le_compat; [apply Rmult_le_compat_l; [left; apply pw_pos|exact PT]|apply bpow_le; lia].
      - exists G. split; [exact HG|]. split; [intros; apply BG; assumption|]. intros u v zz Hu. apply Rle_trans with (1 := CG u v zz Hu). apply bpow_le. lia. }
    destruct SC as (SC & ->). split; [|exact SC]. intros ->. rewrite ORD, (c_backward_ok false c x g dw i false Edw R1 R2) in E1. specialize (SR eq_refl).
    destruct (c_dx_round c g n (vol d) W B G HK HG ltac:(rewrite HT; exact FD) ltac:(rewrite HT; reflexivity)) as (r' & V & Er & Hr & Q).
    rewrite Er in E1. cbn [lift map_out] in E1. assert (ER : r' = r) by congruence. subst r'. rewrite HT in Hr, Q.
    apply (small_tracks _ _ _ _ _ V SR FD Hr). intros u v zz Hu FV. specialize (Q u v zz Hu FV). pose proof (lin_range _ _ _ _ Hu) as LR.
    assert (IN : forall m, 0 <= m < n -> inb (D3 n 1 1) m 0 0 /\ inb (D3 n (vol d) 1) m (lin d u v zz) 0) by (intros; unfold inb; cbn [dx dy dz]; lia).
    eapply (sum_close n _ (n + 1) _ (b + w)); [lia|lia|lia|lia|exact Q| |].
    + apply rsum_abs; [lia|]. intros m Hm. destruct (IN m Hm) as (J1 & J2). unfold real_fn. rewrite !(Rmult_comm (B2R (W m (lin d u v zz) 0%Z))). apply product_close; auto.
    + split; [apply rsum_pos; intros; apply Rabs_pos|]. apply rsum_top; [lia|]. intros m Hm. destruct (IN m Hm) as (J1 & J2). rewrite Rmult_comm. apply product_top; auto.
  - split; [|destruct (q_backward x g i q); cbn [map_out] in E1; try discriminate; injection E1 as <- _; exact Logic.I].
    intros ->. specialize (SR eq_refl). destruct HL as (HGe & HT). cbn in HR. destruct HR as (m & Em & Cm & Sm). set (gg := pgeom qx qy sx sy d) in *.
    assert (HX' : is_mat x (xdim gg) I) by (unfold gg; rewrite pgeom_dim; exact HX). assert (XD : xdim gg = d) by (unfold gg; apply pgeom_dim).
    unfold q_backward, bind, mget in E1.
    assert (D : t = PAvg \/ t <> PAvg) by (destruct t; [right|right|left]; congruence). destruct D as [-> | D].
    + destruct (q_dx_avg_round q gg x I i m g G OK HGe HT HX' Em HG) as (r' & V & Er & Hr & Q). rewrite Er in E1. cbn [lift map_out] in E1. assert (ER : r' = r) by congruence. subst r'. rewrite XD in Hr, Q.
      cbn [real_layer s_dx]. fold gg. apply (small_tracks _ _ _ _ _ V SR FD Hr). intros u v zz Hu FV. specialize (Q u v zz Hu FV). cbv zeta in Q. unfold avg_dx. rewrite scatter_R by exact FO. cbn [ndiv nofZ NumR].
      pose proof OK as (G1 & G2 & _). set (N := g_qx gg * g_qy gg) in *. assert (N1 : 1 <= N) by (unfold N; nia). assert (NR : (1 <= IZR N)%R) by (apply IZR_le; lia).
      eapply (sum_close (vol (odim gg)) _ (vol (odim gg) + 1) h b); [lia|lia|lia|lia|exact Q| |].
      * apply rsum3_abs; [exact FO|]. intros i0 j0 c0 H0. destruct (in_winb gg i0 j0 c0 u v zz); [|rewrite Rminus_0_r, Rabs_R0; left; apply pw_pos].
        unfold Rdiv. rewrite <- Rmult_minus_distr_r. apply Rle_trans with (Rabs (B2R (G i0 j0 c0) - G' i0 j0 c0)); [|apply CG; exact H0]. apply div_abs; exact NR.
      * split; [apply rsum3_pos; [exact FO|]; intros i0 j0 c0 H0|apply rsum3_top; [exact FO|]; intros i0 j0 c0 H0]; destruct (in_winb gg i0 j0 c0 u v zz).
        -- apply Rmult_le_pos; [apply Rabs_pos|]. left. apply Rinv_0_lt_compat. lra.
        -- lra.
        -- destruct (BG _ _ _ H0) as (_ & Q2). apply Rle_trans with (Rabs (B2R (G i0 j0 c0))); [|lra]. rewrite <- (Rabs_Rabsolu (B2R (G i0 j0 c0))) at 2.
           apply Rle_trans with (Rabs (Rabs (B2R (G i0 j0 c0)) / IZR N)); [apply Rle_abs|]. apply div_abs; exact NR.
        -- left. apply pw_pos.
    + destruct (SE D) as (m' & SF & Em' & Hm & Hs). fold gg in Hm, Hs. assert (EM : m' = m) by congruence. subst m'.
      destruct (q_dx_ext_round q gg x I i m SF g G OK ltac:(rewrite HT; exact D) HX' Em Hm HG) as (r' & V & Er & Hr & Q).
      { intros i0 j0 c0 H0. rewrite (Hs i0 j0 c0 H0). destruct (pool_sel_ok t gg F OK D i0 j0 c0 H0) as (Z1 & Z2 & _). rewrite Z1. apply (win_inb gg i0 j0); assumption. }
      rewrite Er in E1. cbn [lift map_out] in E1. assert (ER : r' = r) by congruence. subst r'. rewrite XD in Hr, Q.
      assert (DX : s_dx (SPool t qx qy sx sy) d F G' = sel_dx gg (pool_sel t gg F) G') by (cbn [s_dx]; destruct t; [reflexivity|reflexivity|congruence]).
      cbn [real_layer]. rewrite DX. apply (small_tracks _ _ _ _ _ V SR FD Hr). intros u v zz Hu FV. specialize (Q u v zz Hu FV). unfold sel_dx. rewrite scatter_R by exact FO.
      eapply (sum_close (vol (odim gg)) _ (vol (odim gg)) h b); [lia|lia|lia|lia| | |].
      * apply le_more; [exact Q|apply Rmult_le_pos; [apply IZR_le; lia|left; apply pw_pos]].
      * apply rsum3_abs; [exact FO|]. intros i0 j0 c0 H0. rewrite (Hs i0 j0 c0 H0). destruct (dim_eqb _ _); [apply CG; exact H0|rewrite Rminus_0_r, Rabs_R0; left; apply pw_pos].
      * split; [apply rsum3_pos; [exact FO|]; intros i0 j0 c0 H0|apply rsum3_top; [exact FO|]; intros i0 j0 c0 H0]; destruct (dim_eqb _ _).
        -- apply Rabs_pos.
        -- lra.
        -- destruct (BG _ _ _ H0) as (_ & Q2). rewrite Rmult_1_l in Q2. exact Q2.
        -- left. apply pw_pos.
  - destruct HL as (H1 & H2).
    destruct (a_backward_ok (e_exp E) (e_tanh E) (e_c01 E) ac z g d Zf G HZ HG FD (pos_iterable d P)) as (r' & Er & Hr).
    rewrite H2, Er in E1. cbn [lift] in E1. injection E1 as <- <-. split; [|exact Logic.I]. intros ->. specialize (SR eq_refl).
    apply (small_tracks _ _ _ _ _ _ SR FD Hr). intros u v zz Hu _. cbn [real_layer s_dx sem] in *. destruct (BZ _ _ _ Hu) as (FZ & _).
    assert (GC : (Rabs (B2R (act_grad (e_exp E) (e_tanh E) (e_c01 E) ac (Zf u v zz)) - actg_R ac (act_R ac (F u v zz))) <= if is_curved ac then 5 * pw (Z.max gz (-50)) else 0)%R).
    { apply grad_close; auto. intros [-> | ->]; apply (SG Zf HZ _ _ _ Hu). }
    assert (GU : unit_const (act_grad (e_exp E) (e_tanh E) (e_c01 E) ac (Zf u v zz))) by (apply act_grad_unit; auto).
    pose proof (factor_close b h _ _ _ _ _ ltac:(lia) (BG _ _ _ Hu) GU (CG _ _ _ Hu) (actg_unit ac (F u v zz)) GC) as Q.
    apply Rle_trans with (1 := Q). set (M := Z.max gz (-50)) in *.
    assert (C1 : (pw b * (5 * pw M) + pw (b - 52) <= pw (b + M + 3))%R).
    { replace (pw (b + M + 3)) with (8 * pw (b + M))%R by (change 8%R with (pw 3); rewrite pw_mul; f_equal; lia). assert (pw (b - 52) <= pw (b + M))%R by (apply bpow_le; unfold M; lia).
      replace (pw b * (5 * pw M))%R with (5 * pw (b + M))%R by (rewrite bpow_plus; ring). pose proof (pw_pos (b + M)). lra. }
    destruct ac; cbn [is_curved]; apply pw_max; try apply Rle_refl; try exact C1; rewrite Rmult_0_r, Rplus_0_l; apply Rle_refl.
Qed.

Lemma double_tracks : forall e g m d F, tracks e g m d F -> pos d -> fits d -> exists m', double_copy m = Ok m' /\ tracks e g m' d F /\ forall f, is_mat m' d f -> exists f', is_mat m d f' /\ forall a b c, inb d a b c -> f a b c = f' a b c.
Proof.
  intros e g m d F (f & H & B & C) P FD. unfold double_copy.
  destruct (mat_of_lz_ok n0 (fun t : double => t) (l_val m) tt d f FD (pos_iterable d P) (is_mat_lz m d f tt H FD)) as (m' & Q & H'). exists m'. split; [exact Q|].
  split; [exists f; auto|]. intros f0 H0. exists f. split; [exact H|]. intros a b c Ia. apply (is_mat_eq m' d f0 f H0 H' FD _ _ _ Ia).
Qed.
Lemma recs_track_small : forall w rs ss ls d e g F, recs_track w rs ss ls d e g F -> recs_small w rs ss d e.
Proof.
  intros w. induction rs as [|r rs IH]; intros [|s ss] [|l ls] d e g F H; cbn in *; try contradiction; auto.
  destruct H as (A & _ & B). split; [eapply tracks_small; exact A|eapply IH; exact B].
Qed.
Lemma real_out_net : forall ss ls d, length ls = length ss -> net_out (real_net ss ls) d = h_net_out ss d.
Proof. induction ss as [|s ss IH]; intros [|l ls] d H; cbn in *; try discriminate; auto. rewrite real_out. apply IH. lia. Qed.

(** The layers of a network, from the last to the first *)
Theorem bwd_net_track : forall w b h ls ss d i pre post precs x rs prs g e ge F G', net_fit ls ss d -> List.Forall ready ls -> h_net_ok ss d -> net_marked ls ss d i ->
  tracks e (r_err e ge) x d F -> recs_track w rs ss (real_net ss ls) d e ge F -> net_sel ls ss (real_net ss ls) d i F -> length precs = length pre ->
  tracks b h g (h_net_out ss d) G' -> h_net_bkc (Nat.eqb (length pre) 0) ss d ->
  net_small w ls ss d -> 0 <= w -> 0 <= e -> 0 <= b -> h_net_fine w ss d e ge -> h_net_blim 970 w ss d e b ->
  exists ls' gin,
    bwd_layers E (length pre + length ls) (precs ++ x :: rs ++ prs) g i (pre ++ ls ++ post) =
    bwd_layers E (length pre) (precs ++ x :: rs ++ prs) gin i (pre ++ ls' ++ post) /\
    (ls = [] \/ pre <> [] -> tracks (h_net_bexp w ss d b) (h_net_berr w ss d e ge b h) gin d (net_dx (real_net ss ls) d F G')) /\
    net_close (h_net_gerr w ss d e ge b h) ls' ss d i (net_grads (real_net ss ls) d F G').
Proof.
  intros w b h. induction ls as [|l ls IH]; intros ss d i pre post precs x rs prs g e ge F G' HN HRd OK HR HX RS SE HL HG BK HW Hw He Hb FI LM; destruct ss as [|s ss]; cbn in HN; try contradiction.
  - exists [], g. rewrite Nat.add_0_r. cbn. auto.
  - destruct HN as [H1 H2]. destruct OK as [O1 O2]. cbn [net_marked] in HR. destruct HR as [R1 R2]. inversion HRd as [|? ? Q1 Q2]; subst.
    destruct rs as [|z rs]; cbn [real_net recs_track] in RS; [contradiction|]. destruct RS as (Z1 & ZS & Z2). destruct BK as [B1 B2]. destruct HW as [W1 W2].
    cbn [h_net_blim] in LM. destruct LM as (M1 & M2 & M3). cbn [real_net net_sel] in SE. destruct SE as (S1 & S2). cbn [h_net_fine] in FI. destruct FI as (FI1 & FI2).
    destruct (IH ss (h_out s d) i (pre ++ [l]) post (precs ++ [x]) z rs prs g (h_exp w s d e) (h_err w s d e ge) (sem (real_layer s l) d F) G' H2 Q2 O2 R2 Z1 Z2 S2
               ltac:(rewrite !app_length; cbn; lia) HG ltac:(apply h_net_bk_bkc; exact B2) W2 Hw ltac:(apply h_exp_nonneg; assumption) Hb FI2 M3) as (ls' & g1 & E1 & G1 & N1).
    rewrite app_length in E1. cbn [length] in E1. rewrite <- !app_assoc in E1. cbn [app] in E1.
    assert (HG1 : tracks (h_net_bexp w ss (h_out s d) b) (h_net_berr w ss (h_out s d) (h_exp w s d e) (h_err w s d e ge) b h) g1 (h_out s d) (net_dx (real_net ss ls) (h_out s d) (sem (real_layer s l) d F) G'))
      by (apply G1; right; destruct pre; discriminate).
    destruct (h_ok_out _ _ O1) as [P2 F2]. pose proof O1 as (P1 & F1 & _).
    destruct (double_tracks _ _ x d _ HX P1 F1) as (x' & Ex & Hx & _). destruct (double_tracks _ _ z _ _ Z1 P2 F2) as (z' & Ez & Hz & Cz).
    assert (ZS' : sign_kept s d z' F).
    { destruct s as [fx fy C n|n|t qx qy sx sy|[]]; try exact Logic.I; cbn [sign_kept h_out] in *; intros f Hf a0 b0 c0 Ia; destruct (Cz f Hf) as (f' & Hf' & EQ); rewrite (EQ _ _ _ Ia); apply (ZS f' Hf' _ _ _ Ia). }
    pose proof (h_net_bexp_nonneg w ss (h_out s d) b Hw Hb) as NB.
    destruct (bwd_track w l s d i x' z' g1 (Nat.eqb (length pre) 0) e _ _ _ _ _ F _ H1 Q1 O1 R1 B1 Hx Hz ZS' S1 HG1 W1 He Hw ltac:(lia) ltac:(unfold r_err; lia) M1 M2) as (l' & gin & EB & GB & SB).
    exists (l' :: ls'), gin. split.
    + cbn [length app] in *. replace (length pre + S (length ls))%nat with (length pre + 1 + length ls)%nat by lia. rewrite E1.
      rewrite Nat.add_1_r. apply (bwd_step E) with (x' := x') (z' := z'); assumption.
    + cbn [real_net net_dx net_grads h_net_bexp h_net_berr h_net_gerr net_close]. rewrite real_out. split; [|split; [exact SB|exact N1]].
      intros [C|C]; [discriminate|]. apply GB. apply Nat.eqb_neq. destruct pre; [congruence|discriminate].
Qed.

Theorem bwd_net_track_from : forall w b h m ls ss d i pre post precs x rs prs g e ge F G', net_fit ls ss d -> List.Forall ready ls -> h_net_ok ss d -> net_marked ls ss d i ->
  tracks e (r_err e ge) x d F -> recs_track_from m w rs ss (real_net ss ls) d e ge F -> net_sel_from m ls ss (real_net ss ls) d i F -> length precs = length pre ->
  tracks b h g (h_net_out ss d) G' -> h_net_bkc (Nat.eqb (length pre) 0) ss d ->
  net_small w ls ss d -> 0 <= w -> 0 <= e -> 0 <= b -> h_net_fine w ss d e ge -> h_net_blim 970 w ss d e b ->
  exists ls' gin,
    bwd_layers E (length pre + length ls) (precs ++ x :: rs ++ prs) g i (pre ++ ls ++ post) =
    bwd_layers E (length pre) (precs ++ x :: rs ++ prs) gin i (pre ++ ls' ++ post) /\
    (ls = [] \/ pre <> [] -> small (h_net_bexp w ss d b) gin d) /\
    net_close_from m (h_net_gerr w ss d e ge b h) ls' ss d i (net_grads (real_net ss ls) d F G').
Proof.
  intros w b h. induction m as [|m IH]; intros ls ss d i pre post precs x rs prs g e ge F G' HN HRd OK HR HX RS SE HL HG BK HW Hw He Hb FI LM.
  { destruct (bwd_net_track w b h ls ss d i pre post precs x rs prs g e ge F G' HN HRd OK HR HX RS SE HL HG BK HW Hw He Hb FI LM) as (ls' & gin & A & B & C).
    exists ls', gin. split; [exact A|]. split; [|exact C]. intros Q. eapply tracks_small. apply B. exact Q. }
  destruct ls as [|l ls]; destruct ss as [|s ss]; cbn in HN; try contradiction.
  - exists [], g. rewrite Nat.add_0_r. cbn. split; [reflexivity|]. split; [|exact Logic.I]. intros _. eapply tracks_small. exact HG.
  - destruct HN as [H1 H2]. destruct OK as [O1 O2]. cbn [net_marked] in HR. destruct HR as [R1 R2]. inversion HRd as [|? ? Q1 Q2]; subst.
    destruct rs as [|z rs]; cbn [real_net recs_track_from] in RS; [contradiction|]. destruct RS as (Z1 & Z2). destruct BK as [B1 B2]. destruct HW as [W1 W2].
    cbn [h_net_blim] in LM. destruct LM as (M1 & M2 & M3). cbn [real_net net_sel_from] in SE. cbn [h_net_fine] in FI. destruct FI as (FI1 & FI2).
    pose proof AO as ((EX & TH & LGh & CF & CD & EP & SQ & RN & HRd' & OD & MX) & EA & TA & CV & EMo & EG).
    destruct (IH ls ss (h_out s d) i (pre ++ [l]) post (precs ++ [x]) z rs prs g (h_exp w s d e) (h_err w s d e ge) (sem (real_layer s l) d F) G' H2 Q2 O2 R2 Z1 Z2 SE
               ltac:(rewrite !app_length; cbn; lia) HG ltac:(apply h_net_bk_bkc; exact B2) W2 Hw ltac:(apply h_exp_nonneg; assumption) Hb FI2 M3) as (ls' & g1 & E1 & G1 & N1).
    rewrite app_length in E1. cbn [length] in E1. rewrite <- !app_assoc in E1. cbn [app] in E1.
    assert (HG1 : small (h_net_bexp w ss (h_out s d) b) g1 (h_out s d)) by (apply G1; right; destruct pre; discriminate).
    destruct (h_ok_out _ _ O1) as [P2 F2]. pose proof O1 as (P1 & F1 & _).
    destruct (double_small e x d (tracks_small _ _ _ _ _ HX) P1 F1) as (x' & Ex & Hx). destruct (double_small _ z _ (tracks_small _ _ _ _ _ Z1) P2 F2) as (z' & Ez & Hz).
    pose proof (h_net_bexp_nonneg w ss (h_out s d) b Hw Hb) as NB.
    destruct (bwd_small E ORD EX TH CD w l s d i x' z' g1 (Nat.eqb (length pre) 0) e _ _ H1 Q1 O1 R1 B1 Hx Hz HG1 W1 He Hw ltac:(lia) M1 M2) as (l' & gin & EB & GB & _).
    exists (l' :: ls'), gin. split.
    + cbn [length app] in *. replace (length pre + S (length ls))%nat with (length pre + 1 + length ls)%nat by lia. rewrite E1.
      rewrite Nat.add_1_r. apply (bwd_step E) with (x' := x') (z' := z'); assumption.
    + cbn [real_net net_grads h_net_gerr net_close_from h_net_bexp]. rewrite real_out. split; [|exact N1].
      intros [C|C]; [discriminate|]. apply GB. apply Nat.eqb_neq. destruct pre; [congruence|discriminate].
Qed.

(** The gradient that the softmax layer starts with *)
Lemma sm_dx_track : forall (y : mat double) d P k a b c X, is_mat y d P -> fits d -> pos d -> inb d a b c -> (forall a b c, inb d a b c -> unit_const (P a b c)) ->
  (forall a b c, inb d a b c -> (Rabs (B2R (P a b c) - soft d X a b c) <= pw k)%R) ->
  exists r, sm_dx y (lin d a b c) = Ok r /\ tracks 0 (Z.max k (-52) + 1) r d (out_grad d X a b c).
Proof.
  intros y d f k a b c X H F P I U Q. pose proof (lin_range _ _ _ _ I) as LR.
  destruct (sm_dx_small y d f (lin d a b c) H F P LR U) as (r & Er & f0 & H0 & B0). exists r. split; [exact Er|].
  unfold sm_dx in Er. rewrite (is_mat_flat y d f a b c H I) in Er. cbn [rbind] in Er.
  destruct (mwrite_is y d f a b c (nsub (f a b c) n1) H F I) as (r' & Er' & Hr). unfold mwrite in Er'. rewrite (is_mat_dim _ _ _ H), get_index_lin in Er' by assumption.
  assert (ER : r' = r). { unfold run_state, mwrite_flat in Er. rewrite (is_mat_dim _ _ _ H) in Er. rewrite Er' in Er. cbn in Er. congruence. } subst r'.
  exists (fupd f a b c (nsub (f a b c) n1)). split; [exact Hr|]. split.
  - intros x' y' z' I'. rewrite (is_mat_eq r d _ f0 Hr H0 F _ _ _ I'). apply B0. exact I'.
  - intros x' y' z' I'. unfold out_grad, fupd. destruct ((x' =? a) && (y' =? b) && (z' =? c)).
    + destruct (U a b c I) as (F1 & B1). destruct one_ok as (O1 & O2). destruct (sub_exact (f a b c) n1 1 F1 O1 cap_1) as (A1 & A2).
      { rewrite O2. apply Rabs_le. lra. }
      rewrite A2, O2. specialize (Q a b c I). set (s := soft d X a b c) in *. set (v := B2R (f a b c)) in *.
      replace (rnd64 (v - 1) - (s - 1))%R with ((v - s) + (rnd64 (v - 1) - (v - 1)))%R by ring. apply Rle_trans with (1 := Rabs_triang _ _). apply pw_max; [exact Q|].
      replace (v - 1)%R with (- (1 - v))%R by ring. rewrite round_NE_opp. replace (- rnd64 (1 - v) - - (1 - v))%R with (- (rnd64 (1 - v) - (1 - v)))%R by ring. rewrite Rabs_Ropp. apply unit_error. lra.
    + apply Rle_trans with (1 := Q _ _ _ I'). apply bpow_le. lia.
Qed.

(** Both passes. Decisions in the first [m] layers may be close; nothing is said about the gradients of these layers. *)
Theorem passes_close_from : forall m w body sm ss d n i a b c e g h0 U (cast : U -> double) (input : mat U) J F,
  net_fit body ss d -> sm_count sm = n -> List.Forall (fun l => slot_ok l i) body -> h_ready ss d n ->
  is_mat input d J -> (forall a b c, inb d a b c -> within 1 e (cast (J a b c))) -> nearby g d (fun a b c => cast (J a b c)) F ->
  net_small w body ss d -> 0 <= w -> 0 <= e -> h_net_lim 127 w ss d e -> h_net_exp w ss d e <= 49 -> h_net_err w ss d e g <= -2 ->
  h_net_fine w ss d e g -> h_net_blim 970 w ss d e 0 -> (prob_err w ss d e g <= pw h0)%R -> inb (h_net_out ss d) a b c ->
  (forall body' sm' r, forward_pass E cast n input i (body ++ [LSoft sm]) = ORet (body' ++ [LSoft sm']) r -> net_apart_from m w ss (real_net ss body') d e g F) ->
  exists body' r body2 r', forward_pass E cast n input i (body ++ [LSoft sm]) = ORet (body' ++ [LSoft sm]) r /\
    backward_pass E r (lin (h_net_out ss d) a b c) i (body' ++ [LSoft sm]) = ORet (body2 ++ [LSoft (Soft true (lin (h_net_out ss d) a b c) n)]) r' /\
    length body' = length ss /\ net_apart_from m w ss (real_net ss body') d e g F /\
    let X := net_sem (real_net ss body') d F in
    net_close_from m (h_net_gerr w ss d e g 0 (Z.max h0 (-52) + 1)) body2 ss d i (net_grads (real_net ss body') d F (out_grad (h_net_out ss d) X a b c)).
Proof.
  intros m w body sm ss d n i a b c e g h0 U cast input J F HN HC HSl (OK & BK & LO) HJ BJ CJ HW Hw He HL LE LG FI LM HE Hy AP.
  pose proof AO as ((EX & TH & LGh & CF & CD & EP & SQ & RN & HR & OD & MX) & EA & TA & CV & EMo & EG).
  assert (HS : List.Forall (fun l => index_slot l i) body) by (eapply Forall_impl; [intros l0; apply slot_index|exact HSl]).
  destruct (h_net_head _ _ OK) as [Pd Fd]. destruct (h_net_end _ _ OK) as [Po Fo]. pose proof LO as (_ & _ & LV).
  destruct (pass_close E EX EA TH TA CF CV SQ HR OD MX RN w body sm ss d n i e g U cast input J F HN HC HS OK LO HJ BJ CJ HW Hw He HL LE LG) as (body' & x0 & rs & p & r & P & EF & RI & HP & Q & _).
  destruct (forward_finite E EX TH CF SQ HR OD MX RN w body sm ss d n i e U cast input J HN HC HS OK LO HJ BJ HW Hw He HL) as (body1 & x1 & rs1 & p1 & r1 & P1 & EF1 & RI1 & HX1 & RS1 & (HP1 & UP1) & _).
  rewrite EF in EF1. injection EF1 as EB1 ER1. apply app_inj_tail in EB1. destruct EB1 as (<- & _). subst r1.
  rewrite RI in RI1. injection RI1 as -> RI1. apply app_inj_tail in RI1. destruct RI1 as (<- & <-).
  assert (UP : forall a b c, inb (h_net_out ss d) a b c -> unit_const (P a b c)).
  { intros a' b' c' I'. rewrite (is_mat_eq p _ P P1 HP HP1 Fo _ _ _ I'). apply UP1. exact I'. }
  set (od := h_net_out ss d) in *. set (k := lin od a b c).
  (* the recorded matrices *)
  destruct (mat_of_lz_ok (n0 : double) cast (l_val input) tt d J Fd (pos_iterable d Pd) (is_mat_lz input d J tt HJ Fd)) as (x & Ex & Hx).
  pose proof (FiniteNet.h_net_lim_head E MX _ _ _ _ _ HL) as LH.
  destruct (float_copy_small E RN x d _ Hx Pd Fd) as (x0' & Ex0 & Hx0).
  assert (TX : tracks e g x d F) by (eexists; split; [exact Hx|]; split; [exact BJ|exact CJ]).
  assert (TX0 : tracks e (r_err e g) x0' d F).
  { eexists. split; [exact Hx0|]. split; intros a' b' c' Ia; [apply d_float_ok; [lia|apply BJ; exact Ia]|apply record_near; [lia|apply BJ; exact Ia|apply CJ; exact Ia]]. }
  destruct (fwd_net E body ss d i x HN HS OK (small_has _ _ _ (tracks_small _ _ _ _ _ TX))) as (ls1 & rs2 & o2 & Ef2 & _ & N1 & N2 & N3 & _). specialize (N3 HSl).
  destruct (fwd_net_track_from E AO w m body ss d i x e g F HN HS OK TX HW Hw He HL FI) as (ls2 & rs3 & o3 & Ef3 & _ & T1 & T2 & T3).
  { intros ls' (rs' & o') Q0. destruct (forward_parts E U cast n input i body sm _ _ _ _ _ _ _ EF Ex Ex0 Q0) as (p' & ZZ & _). apply app_inj_tail in ZZ. destruct ZZ as (<- & _). eapply AP. exact EF. }
  rewrite Ef2 in Ef3. injection Ef3 as <- <- <-.
  destruct (forward_parts E U cast n input i body sm _ _ _ _ _ _ _ EF Ex Ex0 Ef2) as (p' & ZZ & RI2). apply app_inj_tail in ZZ. destruct ZZ as (-> & _).
  rewrite RI in RI2. injection RI2 as -> RI2. apply app_inj_tail in RI2. destruct RI2 as (-> & _).
  (* the loss and the label *)
  assert (HPs : has p od) by (eapply small_has; exists P; split; [exact HP|]; intros; apply unit_within; apply UP; assumption).
  assert (Hk : 0 <= k < n) by (unfold k; pose proof (lin_range _ _ _ _ Hy); lia).
  destruct (assign_total E ss d n r x0' rs2 p k OK LO RI HPs Hk) as (r' & EA' & RI' & _).
  assert (CP : exists q, double_copy p = Ok q /\ is_mat q od P).
  { unfold double_copy. destruct (mat_of_lz_ok n0 (fun t : double => t) (l_val p) tt _ P Fo (pos_iterable _ Po) (is_mat_lz p _ P tt HP Fo)) as (q & Q0 & H'). eauto. }
  destruct CP as (q & Eq & Hq).
  assert (E2 : hand_over k (ls1 ++ [LSoft sm]) = ORet (ls1 ++ [LSoft (Soft true k n)]) tt) by (rewrite hand_over_at by lia; rewrite HC; reflexivity).
  pose proof (recs_small_has _ _ _ _ _ RS1) as RH.
  assert (LR : length rs2 = length ls1) by (rewrite (recs_length _ _ _ RH), (net_fit_length _ _ _ N1); reflexivity).
  set (X := net_sem (real_net ss ls1) d F) in *.
  destruct (sm_dx_track q od P h0 a b c X Hq Fo Po Hy UP) as (gr & Eg & Hg).
  { intros a' b' c' I'. apply Rle_trans with (2 := HE). apply Q. exact I'. }
  fold k in Eg.
  assert (Z0 : exists z z', nth_error (x0' :: rs2) (length ls1) = Some z /\ double_copy z = Ok z').
  { rewrite <- LR. pose proof (small_has _ _ _ HX1) as HX0. clear - RH HX0 Pd Fd OK E. revert rs2 d x0' RH HX0 Pd Fd OK.
    induction ss as [|s ss IH]; intros rs d x0 RS HX Pd Fd OK; destruct rs as [|r0 rs]; cbn in RS; try contradiction.
    - exists x0. destruct (copies E x0 d HX Pd Fd) as [_ (z' & Ez & _)]. exists z'. split; [reflexivity|exact Ez].
    - destruct OK as [O1 O2]. destruct (h_ok_out _ _ O1) as [P2 F2]. cbn [length nth_error]. apply (IH rs (h_out s d) r0); tauto. }
  destruct Z0 as (z & z' & Nz & Ez).
  assert (SP : exists zs, x0' :: rs2 = zs ++ [z] /\ length zs = length ls1).
  { clear - Nz LR. destruct (nth_error_split _ _ Nz) as (l1 & l2 & E & L). exists l1. split; [|exact L].
    assert (l2 = []) as ->; [|exact E]. apply (f_equal (@length _)) in E. rewrite app_length in E. cbn in E. destruct l2; [reflexivity|cbn in E; lia]. }
  destruct SP as (zs & Ezs & Lzs).
  assert (E3 : bwd_layers E (S (length ls1)) (zs ++ z :: p :: []) mat_empty i (ls1 ++ LSoft (Soft true k n) :: []) =
               bwd_layers E (length ls1) (zs ++ z :: p :: []) gr i (ls1 ++ LSoft (Soft true k n) :: [])).
  { apply (bwd_step E) with (x' := z') (z' := q); [exact Lzs|exact Ez|exact Eq|]. cbn [l_backward sm_backward sm_known sm_label]. rewrite Eg. reflexivity. }
  destruct (bwd_net_track_from w 0 _ m ls1 ss d i [] [LSoft (Soft true k n)] [] x0' rs2 [p] gr e g F _ N1 N2 OK N3 TX0 T1 T2 eq_refl Hg BK T3 Hw He ltac:(lia) FI LM) as (body2 & gin & E4 & _ & NC).
  cbn [length app Nat.add] in E4.
  exists ls1, r, body2, r'. split; [exact EF|]. split; [|split; [apply (net_fit_length _ _ _ N1)|split; [eapply AP; exact EF|exact NC]]].
  unfold backward_pass, bind. rewrite EA'. cbn [lift]. rewrite RI', RI. unfold backward_tail, bind. rewrite E2. unfold mget. rewrite app_length. cbn [length]. rewrite Nat.add_1_r.
  replace (x0' :: rs2 ++ [p]) with (zs ++ z :: [p]) by (change (x0' :: rs2 ++ [p]) with ((x0' :: rs2) ++ [p]); rewrite Ezs, <- app_assoc; reflexivity).
  rewrite E3. replace (zs ++ z :: [p]) with (x0' :: rs2 ++ [p]) by (change (x0' :: rs2 ++ [p]) with ((x0' :: rs2) ++ [p]); rewrite Ezs, <- app_assoc; reflexivity).
  rewrite E4. reflexivity.
Qed.
Theorem passes_close : forall w body sm ss d n i a b c e g h0 U (cast : U -> double) (input : mat U) J F,
  net_fit body ss d -> sm_count sm = n -> List.Forall (fun l => slot_ok l i) body -> h_ready ss d n ->
  is_mat input d J -> (forall a b c, inb d a b c -> within 1 e (cast (J a b c))) -> nearby g d (fun a b c => cast (J a b c)) F ->
  net_small w body ss d -> 0 <= w -> 0 <= e -> h_net_lim 127 w ss d e -> h_net_exp w ss d e <= 49 -> h_net_err w ss d e g <= -2 ->
  h_net_fine w ss d e g -> h_net_blim 970 w ss d e 0 -> (prob_err w ss d e g <= pw h0)%R -> inb (h_net_out ss d) a b c ->
  (forall body' sm' r, forward_pass E cast n input i (body ++ [LSoft sm]) = ORet (body' ++ [LSoft sm']) r -> net_apart w ss (real_net ss body') d e g F) ->
  exists body' r body2 r', forward_pass E cast n input i (body ++ [LSoft sm]) = ORet (body' ++ [LSoft sm]) r /\
    backward_pass E r (lin (h_net_out ss d) a b c) i (body' ++ [LSoft sm]) = ORet (body2 ++ [LSoft (Soft true (lin (h_net_out ss d) a b c) n)]) r' /\
    length body' = length ss /\ net_apart w ss (real_net ss body') d e g F /\
    let X := net_sem (real_net ss body') d F in
    net_close (h_net_gerr w ss d e g 0 (Z.max h0 (-52) + 1)) body2 ss d i (net_grads (real_net ss body') d F (out_grad (h_net_out ss d) X a b c)).
Proof. exact (passes_close_from 0). Qed.
End Backward.

(** ** The true derivatives of the loss *)
Lemma grad_derive : forall rs d I j s g ya yb yc, net_ok rs d -> net_smooth rs d I -> inb (net_out rs d) ya yb yc -> nth_error rs j = Some s ->
  nth_error (net_grads rs d I (out_grad (net_out rs d) (net_sem rs d I) ya yb yc)) j = Some g ->
  (forall a b c, inb (s_wdim s (net_dim rs d j)) a b c ->
    is_derive (fun t => nll (net_out rs d) (net_sem (upd rs j (setw s (fupd (s_w s) a b c t))) d I) ya yb yc) (s_w s a b c) (fst g a b c)) /\
  (forall a b c, inb (s_bdim s) a b c ->
    is_derive (fun t => nll (net_out rs d) (net_sem (upd rs j (setb s (fupd (s_b s) a b c t))) d I) ya yb yc) (s_b s a b c) (snd g a b c)).
Proof.
  intros ss d I j s g ya yb yc OK SM Hy Hs Ng. set (dd := net_out ss d) in *.
  assert (KEY : forall q, pc_s q = s -> forall t0 dir, pc_at t0 q = s ->
     dcurve (s_wdim s (net_dim ss d j)) (pc_w q) t0 (pc_w' q) -> dcurve (s_bdim s) (pc_b q) t0 (pc_b' q) ->
     dir = (dotp (s_wdim s (net_dim ss d j)) (fst g) (pc_w' q) + dotp (s_bdim s) (snd g) (pc_b' q))%R ->
     is_derive (fun t => nll dd (net_sem (upd ss j (pc_at t q)) d I) ya yb yc) t0 dir).
  { intros q Eq t0 dir At D1 D2 ->.
    assert (ES : map pc_s (upd (map pconst ss) j q) = ss) by (rewrite map_upd, map_s_const, Eq; apply upd_self; exact Hs).
    assert (EA : forall t, map (pc_at t) (upd (map pconst ss) j q) = upd ss j (pc_at t q)) by (intros; rewrite map_upd, map_at_const; reflexivity).
    assert (E0 : map (pc_at t0) (upd (map pconst ss) j q) = ss) by (rewrite EA, At; apply upd_self; exact Hs).
    pose proof (net_loss_curve (fun _ => 0) 0 (upd (map pconst ss) j q) d I t0 ya yb yc) as LC. rewrite ES, E0 in LC. cbv zeta in LC. fold dd in LC.
    specialize (LC OK SM (pc_ok_upd ss d j q s t0 Hs Eq D1 D2) Hy). rewrite (gdot_upd ss d _ j q g s Hs Ng Eq) in LC.
    eapply is_derive_ext; [|exact LC]. intros t. cbv beta. rewrite EA. reflexivity. }
  split.
  - intros a b c Hi. apply (KEY (pc_one_w s a b c) eq_refl (s_w s a b c)).
    + unfold pc_at, pc_one_w. cbn [pc_s pc_w pc_b]. rewrite fupd_self. apply setp_self.
    + apply dcurve_fupd.
    + intros x y z _. cbn [pc_one_w pc_one_b pc_w pc_b pc_w' pc_b']. apply @is_derive_const.
    + cbn [pc_one_w pc_w' pc_b']. rewrite dotp_0, dotp_delta by exact Hi. ring.
  - intros a b c Hi. apply (KEY (pc_one_b s a b c) eq_refl (s_b s a b c)).
    + unfold pc_at, pc_one_b. cbn [pc_s pc_w pc_b]. rewrite fupd_self. apply setp_self.
    + intros x y z _. cbn [pc_one_w pc_one_b pc_w pc_b pc_w' pc_b']. apply @is_derive_const.
    + apply dcurve_fupd.
    + cbn [pc_one_b pc_w' pc_b']. rewrite dotp_0, dotp_delta by exact Hi. ring.
Qed.

(** Networks whose activations are ReLU or linear are differentiable where no decision is close. *)
Definition plain (s : shape) : Prop := match s with HAct (Relu | Linear) => True | HAct _ => False | _ => True end.
Lemma apart_smooth : forall s l d g F, h_ok s d -> plain s -> apart s d g F -> smooth (real_layer s l) d F.
Proof.
  intros s l d g F (_ & _ & OK) PL AP. pose proof (pw_pos (g + 1)) as K.
  destruct s as [fx fy C n|n|t qx qy sx sy|[]]; cbn [plain real_layer] in *; try contradiction; try (destruct l; exact Logic.I).
  - assert (D : t = PAvg \/ t <> PAvg) by (destruct t; [right|right|left]; congruence). destruct D as [-> | D]; [exact Logic.I|]. set (gg := pgeom qx qy sx sy d) in *.
    assert (Q : strict_sel t gg F (pool_sel t gg F)).
    { intros i j c Ia. assert (AP' : exists x y, in_win gg i j x y /\ forall x' y', in_win gg i j x' y' -> (x', y') <> (x, y) -> better_of t (F x y c) (F x' y' c) = true).
      { destruct t; [| |congruence]; destruct (AP i j c Ia) as (x & y & W & H); exists x, y; (split; [exact W|]); intros x' y' W' NE; specialize (H x' y' W' NE); unfold better_of, lt_max, lt_min; cbn [nltb NumR]; apply Rltb_true; lra. }
      destruct AP' as (x & y & W & H). rewrite (selected_only _ _ _ _ _ _ _ x y (pool_sel_ok t gg F OK D i j c Ia) W H). cbn [dx dy dz]. auto. }
    destruct t; [exists (pool_sel PMax gg F); exact Q|exists (pool_sel PMin gg F); exact Q|congruence].
  - intros x y z Ia. cbn [act_smooth]. specialize (AP x y z Ia). intros Q. rewrite Q, Rabs_R0 in AP. lra.
  - intros x y z Ia. exact Logic.I.
Qed.
Lemma net_apart_smooth : forall w ss ls d e g F, h_net_ok ss d -> List.Forall plain ss -> length ls = length ss -> net_apart w ss (real_net ss ls) d e g F -> net_smooth (real_net ss ls) d F.
Proof.
  intros w. induction ss as [|s ss IH]; intros [|l ls] d e g F OK PL LE AP; cbn in LE; try discriminate; [exact Logic.I|]. destruct OK as (O1 & O2). inversion PL as [|? ? P1 P2]; subst.
  cbn [real_net net_apart net_smooth] in *. destruct AP as (A1 & A2). rewrite real_out. split; [apply apart_smooth with g; assumption|]. apply (IH ls _ (h_exp w s d e) (h_err w s d e g)); [exact O2|exact P2|lia|exact A2].
Qed.
Lemma real_net_ok : forall ss ls d, h_net_ok ss d -> length ls = length ss -> net_ok (real_net ss ls) d.
Proof.
  induction ss as [|s ss IH]; intros [|l ls] d OK LE; cbn in LE; try discriminate; [exact OK|]. destruct OK as (O1 & O2). cbn [real_net net_ok]. rewrite real_out. split; [|apply IH; [exact O2|lia]].
  destruct s; destruct l; exact O1.
Qed.
Lemma real_wdim : forall s l d, s_wdim (real_layer s l) d = h_wdim s d /\ s_bdim (real_layer s l) = h_bdim s.
Proof. intros s l d. destruct s; destruct l; split; reflexivity. Qed.
Lemma net_close_nth : forall ks ls ss d i Ds j D, net_close ks ls ss d i Ds -> nth_error Ds j = Some D ->
  exists k l s, nth_error ks j = Some k /\ nth_error ls j = Some l /\ nth_error ss j = Some s /\ slot_close k l s (h_net_out (firstn j ss) d) i D.
Proof.
  induction ks as [|k ks IH]; intros [|l ls] [|s ss] d i [|D0 Ds] j D H N; cbn in H; try contradiction; [destruct j; discriminate|]. destruct H as (H1 & H2).
  destruct j; cbn [nth_error firstn h_net_out] in *; [injection N as <-; exists k, l, s; auto|]. apply (IH _ _ _ _ _ _ _ H2 N).
Qed.
Lemma real_net_nth : forall ss ls j s, nth_error (real_net ss ls) j = Some s -> exists s0 l0, nth_error ss j = Some s0 /\ nth_error ls j = Some l0 /\ s = real_layer s0 l0.
Proof. induction ss as [|s0 ss IH]; intros [|l ls] j s H; destruct j; cbn in *; try discriminate; [injection H as <-; eauto|apply IH; exact H]. Qed.
Lemma real_dim : forall ss ls d j, length ls = length ss -> net_dim (real_net ss ls) d j = h_net_out (firstn j ss) d.
Proof.
  unfold net_dim. induction ss as [|s ss IH]; intros [|l ls] d j H; cbn in H; try discriminate; destruct j; cbn [real_net firstn net_out h_net_out]; try reflexivity. rewrite real_out. apply IH. lia.
Qed.

(** The gradients that a layer holds in slot [i] *)
Definition grads_in (l : layer double) (i : Z) (gw gb : mat double) : Prop :=
  match l with
  | LKernel k => vget (p_wg (k_par k)) i = Ok gw /\ vget (p_bg (k_par k)) i = Ok gb
  | LConn c => vget (p_wg (c_par c)) i = Ok gw /\ vget (p_bg (c_par c)) i = Ok gb
  | _ => False
  end.

Definition learns (s : shape) : bool := match s with HConv _ _ _ _ | HConn _ => true | _ => false end.
Fixpoint net_smooth_from (m : nat) (ss : list lspec) (d : dim3) (I : fn) : Prop :=
  match m with O => net_smooth ss d I | S m' => match ss with [] => True | s :: r => net_smooth_from m' r (s_out s d) (sem s d I) end end.
Lemma net_apart_from_smooth : forall w m ss ls d e g F, h_net_ok ss d -> List.Forall plain (skipn m ss) -> length ls = length ss -> net_apart_from m w ss (real_net ss ls) d e g F ->
  net_smooth_from m (real_net ss ls) d F.
Proof.
  intros w. induction m as [|m IH]; [exact (net_apart_smooth w)|]. intros [|s ss] [|l ls] d e g F OK PL LE AP; cbn in LE; try discriminate; [exact Logic.I|]. destruct OK as (O1 & O2).
  cbn [real_net net_apart_from net_smooth_from skipn] in *. rewrite real_out. apply (IH ss ls _ (h_exp w s d e) (h_err w s d e g)); [exact O2|exact PL|lia|exact AP].
Qed.
Lemma grad_derive_from : forall m rs d I j s g ya yb yc, net_ok rs d -> net_smooth_from m rs d I -> inb (net_out rs d) ya yb yc -> (m <= j)%nat -> nth_error rs j = Some s ->
  nth_error (net_grads rs d I (out_grad (net_out rs d) (net_sem rs d I) ya yb yc)) j = Some g ->
  (forall a b c, inb (s_wdim s (net_dim rs d j)) a b c ->
    is_derive (fun t => nll (net_out rs d) (net_sem (upd rs j (setw s (fupd (s_w s) a b c t))) d I) ya yb yc) (s_w s a b c) (fst g a b c)) /\
  (forall a b c, inb (s_bdim s) a b c ->
    is_derive (fun t => nll (net_out rs d) (net_sem (upd rs j (setb s (fupd (s_b s) a b c t))) d I) ya yb yc) (s_b s a b c) (snd g a b c)).
Proof.
  induction m as [|m IH]; intros rs d I j s g ya yb yc OK SM Hy LE Hs Ng; [apply grad_derive; assumption|].
  destruct j as [|j]; [lia|]. destruct rs as [|s0 rs]; [discriminate|]. destruct OK as (_ & OK).
  exact (IH rs (s_out s0 d) (sem s0 d I) j s g ya yb yc OK SM Hy ltac:(lia) Hs Ng).
Qed.
Lemma net_close_from_nth : forall m ks ls ss d i Ds j D, net_close_from m ks ls ss d i Ds -> (m <= j)%nat -> nth_error Ds j = Some D ->
  exists k l s, nth_error ks j = Some k /\ nth_error ls j = Some l /\ nth_error ss j = Some s /\ slot_close k l s (h_net_out (firstn j ss) d) i D.
Proof.
  induction m as [|m IH]; intros ks ls ss d i Ds j D H LE N; [eapply net_close_nth; eassumption|]. destruct j as [|j]; [lia|].
  destruct ks, ls, ss, Ds; cbn [net_close_from] in H; try contradiction; try discriminate N. cbn [nth_error firstn h_net_out] in *. assert (LE' : (m <= j)%nat) by lia. apply (IH _ _ _ _ _ _ _ _ H LE' N).
Qed.

Theorem passes_derive_from : forall E, acc_ok E -> B2R (e_c01 E) = d01 -> e_moved E = false ->
  forall m w body sm ss d n i ya yb yc e g h0 U (cast : U -> double) (input : mat U) J F,
  net_fit body ss d -> sm_count sm = n -> List.Forall (fun l => slot_ok l i) body -> h_ready ss d n -> List.Forall plain (skipn m ss) ->
  is_mat input d J -> (forall a b c, inb d a b c -> within 1 e (cast (J a b c))) -> nearby g d (fun a b c => cast (J a b c)) F ->
  net_small w body ss d -> 0 <= w -> 0 <= e -> h_net_lim 127 w ss d e -> h_net_exp w ss d e <= 49 -> h_net_err w ss d e g <= -2 ->
  h_net_fine w ss d e g -> h_net_blim 970 w ss d e 0 -> (prob_err w ss d e g <= pw h0)%R -> inb (h_net_out ss d) ya yb yc ->
  (forall body' sm' r, forward_pass E cast n input i (body ++ [LSoft sm]) = ORet (body' ++ [LSoft sm']) r -> net_apart_from m w ss (real_net ss body') d e g F) ->
  exists body' r body2 r', forward_pass E cast n input i (body ++ [LSoft sm]) = ORet (body' ++ [LSoft sm]) r /\
    backward_pass E r (lin (h_net_out ss d) ya yb yc) i (body' ++ [LSoft sm]) = ORet (body2 ++ [LSoft (Soft true (lin (h_net_out ss d) ya yb yc) n)]) r' /\ length body' = length ss /\
    let rs := real_net ss body' in
    forall j s0 s, (m <= j)%nat -> nth_error ss j = Some s0 -> learns s0 = true -> nth_error rs j = Some s ->
      exists l gw gb k fw fb, nth_error body2 j = Some l /\ grads_in l i gw gb /\ nth_error (h_net_gerr w ss d e g 0 (Z.max h0 (-52) + 1)) j = Some k /\ is_mat gw (s_wdim s (net_dim rs d j)) fw /\ is_mat gb (s_bdim s) fb /\
        (forall a b c, inb (s_wdim s (net_dim rs d j)) a b c -> is_finite (fw a b c) = true /\ exists D,
          is_derive (fun t => nll (h_net_out ss d) (net_sem (upd rs j (setw s (fupd (s_w s) a b c t))) d F) ya yb yc) (s_w s a b c) D /\ (Rabs (B2R (fw a b c) - D) <= pw k)%R) /\
        (forall a b c, inb (s_bdim s) a b c -> is_finite (fb a b c) = true /\ exists D,
          is_derive (fun t => nll (h_net_out ss d) (net_sem (upd rs j (setb s (fupd (s_b s) a b c t))) d F) ya yb yc) (s_b s a b c) D /\ (Rabs (B2R (fb a b c) - D) <= pw k)%R).
Proof.
  intros E AO CV1 ORD m w body sm ss d n i ya yb yc e g h0 U cast input J F HN HC HSl HRy PL HJ BJ CJ HW Hw He HL LE LG FI LM HE Hy AP.
  destruct (passes_close_from E AO CV1 ORD m w body sm ss d n i ya yb yc e g h0 U cast input J F HN HC HSl HRy HJ BJ CJ HW Hw He HL LE LG FI LM HE Hy AP) as (body' & r & body2 & r' & EF & EB & LB & NA & NC).
  exists body', r, body2, r'. split; [exact EF|]. split; [exact EB|]. split; [exact LB|]. cbv zeta. intros j s1 s LJ H1 HLn Hs. destruct HRy as (OK & _ & _).
  set (rs := real_net ss body') in *. assert (ED : net_out rs d = h_net_out ss d) by (apply real_out_net; exact LB). rewrite <- ED in NC, Hy |- *.
  assert (SM : net_smooth_from m rs d F) by (apply net_apart_from_smooth with w e g; assumption). assert (NO : net_ok rs d) by (apply real_net_ok; assumption).
  destruct (nth_error (net_grads rs d F (out_grad (net_out rs d) (net_sem rs d F) ya yb yc)) j) as [D|] eqn:ND.
  2: { exfalso. apply nth_error_None in ND. rewrite grads_length in ND. apply nth_error_None in ND. congruence. }
  destruct (grad_derive_from m rs d F j s D ya yb yc NO SM Hy LJ Hs ND) as (DW & DB).
  destruct (net_close_from_nth _ _ _ _ _ _ _ _ _ NC LJ ND) as (k & l & s2 & K1 & K2 & K3 & SC). rewrite H1 in K3. injection K3 as <-.
  destruct (real_net_nth _ _ _ _ Hs) as (s0 & l0 & N1 & N2 & ES). rewrite H1 in N1. injection N1 as <-.
  assert (DM : net_dim rs d j = h_net_out (firstn j ss) d) by (apply real_dim; exact LB). destruct (real_wdim s1 l0 (net_dim rs d j)) as (WD & BD). rewrite <- ES in WD, BD.
  rewrite <- DM in SC.
  assert (SC2 : exists gw gb, grads_in l i gw gb /\ close_to k gw (h_wdim s1 (net_dim rs d j)) (fst D) /\ close_to k gb (h_bdim s1) (snd D)).
  { destruct s1; try discriminate HLn; destruct l; cbn [slot_close] in SC; try contradiction; destruct SC as (gw' & gb' & A1 & A2 & A3 & A4); exists gw', gb'; cbn [grads_in]; auto. }
  destruct SC2 as (gw & gb & HG & SC2).
  rewrite <- WD, <- BD in SC2. destruct SC2 as ((fw & W1 & W2 & W3) & (fb & B1 & B2 & B3)).
  exists l, gw, gb, k, fw, fb. split; [exact K2|]. split; [exact HG|]. split; [exact K1|]. split; [exact W1|]. split; [exact B1|]. split; intros a b c Ia.
  - split; [apply W2; exact Ia|]. exists (fst D a b c). split; [apply DW; exact Ia|apply W3; exact Ia].
  - split; [apply B2; exact Ia|]. exists (snd D a b c). split; [apply DB; exact Ia|apply B3; exact Ia].
Qed.

Theorem passes_derive : forall E, acc_ok E -> B2R (e_c01 E) = d01 -> e_moved E = false ->
  forall w body sm ss d n i ya yb yc e g h0 U (cast : U -> double) (input : mat U) J F,
  net_fit body ss d -> sm_count sm = n -> List.Forall (fun l => slot_ok l i) body -> h_ready ss d n -> List.Forall plain ss ->
  is_mat input d J -> (forall a b c, inb d a b c -> within 1 e (cast (J a b c))) -> nearby g d (fun a b c => cast (J a b c)) F ->
  net_small w body ss d -> 0 <= w -> 0 <= e -> h_net_lim 127 w ss d e -> h_net_exp w ss d e <= 49 -> h_net_err w ss d e g <= -2 ->
  h_net_fine w ss d e g -> h_net_blim 970 w ss d e 0 -> (prob_err w ss d e g <= pw h0)%R -> inb (h_net_out ss d) ya yb yc ->
  (forall body' sm' r, forward_pass E cast n input i (body ++ [LSoft sm]) = ORet (body' ++ [LSoft sm']) r -> net_apart w ss (real_net ss body') d e g F) ->
  exists body' r body2 r', forward_pass E cast n input i (body ++ [LSoft sm]) = ORet (body' ++ [LSoft sm]) r /\
    backward_pass E r (lin (h_net_out ss d) ya yb yc) i (body' ++ [LSoft sm]) = ORet (body2 ++ [LSoft (Soft true (lin (h_net_out ss d) ya yb yc) n)]) r' /\ length body' = length ss /\
    let rs := real_net ss body' in
    forall j s0 s, nth_error ss j = Some s0 -> learns s0 = true -> nth_error rs j = Some s ->
      exists l gw gb k fw fb, nth_error body2 j = Some l /\ grads_in l i gw gb /\ nth_error (h_net_gerr w ss d e g 0 (Z.max h0 (-52) + 1)) j = Some k /\ is_mat gw (s_wdim s (net_dim rs d j)) fw /\ is_mat gb (s_bdim s) fb /\
        (forall a b c, inb (s_wdim s (net_dim rs d j)) a b c -> is_finite (fw a b c) = true /\ exists D,
          is_derive (fun t => nll (h_net_out ss d) (net_sem (upd rs j (setw s (fupd (s_w s) a b c t))) d F) ya yb yc) (s_w s a b c) D /\ (Rabs (B2R (fw a b c) - D) <= pw k)%R) /\
        (forall a b c, inb (s_bdim s) a b c -> is_finite (fb a b c) = true /\ exists D,
          is_derive (fun t => nll (h_net_out ss d) (net_sem (upd rs j (setb s (fupd (s_b s) a b c t))) d F) ya yb yc) (s_b s a b c) D /\ (Rabs (B2R (fb a b c) - D) <= pw k)%R).
Proof.
  intros E AO CV1 ORD w body sm ss d n i ya yb yc e g h0 U cast input J F HN HC HSl HRy PL HJ BJ CJ HW Hw He HL LE LG FI LM HE Hy AP.
  destruct (passes_derive_from E AO CV1 ORD 0 w body sm ss d n i ya yb yc e g h0 U cast input J F HN HC HSl HRy PL HJ BJ CJ HW Hw He HL LE LG FI LM HE Hy AP) as (body' & r & body2 & r' & A & B & L & C).
  exists body', r, body2, r'. split; [exact A|]. split; [exact B|]. split; [exact L|]. cbv zeta. intros j s0 s. exact (C j s0 s (Nat.le_0_l j)).
Qed.

(** ** A network for which everything is satisfied: ReLU and a connected layer with two inputs, 1 and -1 *)
Lemma c_01_val : B2R c_01 = d01.
Proof.
  unfold c_01. rewrite lit_val. unfold d01. change (bpow radix2 (-56)) with (/ IZR (2 ^ 56))%R. change (2 ^ 56) with 72057594037927936.
  apply Rmult_eq_reg_r with (IZR 72057594037927936); [|apply not_0_IZR; lia]. lra.
Qed.
Definition two_image (x : Z) : double := if x =? 0 then n1 else @B754_finite prec emax true 4503599627370496 (-52) eq_refl.
Definition two_conn : connected double := Conn (Par mat_empty (Mat (D3 2 1 1) [n0; n0]) [mat_empty] [mat_empty]) (D3 0 0 0) false.
Definition two_shapes : list shape := [HAct Relu; HConn 2].
Definition two_net : list (layer double) := [LAct (a_make Relu); LConn two_conn].
Lemma two_derive : let E := d_env (fun _ => 0) in let F := fun x y z => B2R (two_image x) in
  exists body' r body2 r', forward_pass E (fun v => v) 2 (mk_mat (D3 2 1 1) (fun x _ _ => two_image x)) 0 (two_net ++ [LSoft (sm_make 2)]) = ORet (body' ++ [LSoft (sm_make 2)]) r /\
    backward_pass E r 1 0 (body' ++ [LSoft (sm_make 2)]) = ORet (body2 ++ [LSoft (Soft true 1 2)]) r' /\
    let rs := real_net two_shapes body' in
    forall s, nth_error rs 1 = Some s -> exists l gw gb fw, nth_error body2 1 = Some l /\ grads_in l 0 gw gb /\ is_mat gw (D3 2 2 1) fw /\
        forall a b, 0 <= a < 2 -> 0 <= b < 2 -> is_finite (fw a b 0) = true /\ exists D,
          is_derive (fun t => nll (D3 2 1 1) (net_sem (upd rs 1 (setw s (fupd (s_w s) a b 0 t))) (D3 2 1 1) F) 1 0 0) (s_w s a b 0) D /\ (Rabs (B2R (fw a b 0%Z) - D) <= pw (-20))%R.
Proof.
  intros E F. assert (I1 : B2R (two_image 0) = 1%R) by (cbn; rewrite <- (proj2 one_ok); reflexivity).
  assert (I2 : B2R (two_image 1) = (-1)%R).
  { cbn. change (bpow radix2 (-52)) with (/ IZR (2 ^ 52))%R. change (2 ^ 52) with 4503599627370496. change (F2R _) with (IZR (-4503599627370496) * (/ IZR 4503599627370496))%R. field. }
  assert (FD : fits (D3 2 1 1)) by (vm_compute; intuition congruence).
  assert (Hv : forall x y z, inb (D3 2 1 1) x y z -> x = 0 \/ x = 1) by (intros x y z (X & Y & Z'); cbn in X; lia).
  destruct (passes_derive E (d_env_acc (fun _ => 0) ltac:(intros; lia)) c_01_val eq_refl 0 two_net (sm_make 2) two_shapes (D3 2 1 1) 2 0 1 0 0 0 (-60) (-24) double (fun v => v)
      (mk_mat (D3 2 1 1) (fun x _ _ => two_image x)) (fun x _ _ => two_image x) F) as (body' & r & body2 & r' & A & B & L & C).
  - cbn. split; [auto|]. split; [|exact Logic.I]. right. split; [reflexivity|]. split; [|split; [lia|exact FD]].
    exists (fun _ _ _ => n0). apply (mk_mat_ok (D3 2 1 1) (fun _ _ _ => n0 : double) FD).
  - reflexivity.
  - repeat constructor; cbn; lia.
  - unfold h_ready, two_shapes. cbn [h_net_ok h_net_bkc h_net_bk h_net_out h_out dx dy dz]. unfold h_ok, h_bk, labels_ok, pos, fits, vol, two31. cbn [dx dy dz]. lia.
  - repeat constructor.
  - apply mk_mat_ok. exact FD.
  - intros a b c Ia. destruct (Hv _ _ _ Ia) as [-> | ->]; (split; [reflexivity|]); rewrite ?I1, ?I2; unfold Rabs; destruct (Rcase_abs _); cbn; lra.
  - intros a b c Ia. unfold F. rewrite Rminus_diag_eq, Rabs_R0 by reflexivity. left. apply pw_pos.
  - cbn. split; [exact Logic.I|]. split; [discriminate|exact Logic.I].
  - lia.
  - lia.
  - vm_compute. intuition congruence.
  - vm_compute. congruence.
  - vm_compute. congruence.
  - vm_compute. intuition congruence.
  - vm_compute. intuition congruence.
  - unfold prob_err. assert (A1 : (pw (h_net_err 0 two_shapes (D3 2 1 1) 0 (-60) + 2) <= pw (-27))%R) by (apply bpow_le; vm_compute; congruence).
    assert (A2 : (pw (h_net_exp 0 two_shapes (D3 2 1 1) 0 - 50) <= pw (-27))%R) by (apply bpow_le; vm_compute; congruence).
    assert (A3 : (IZR (vol (h_net_out two_shapes (D3 2 1 1)) + 3) * pw (-51) <= 8 * pw (-51))%R) by (apply Rmult_le_compat_r; [left; apply pw_pos|apply IZR_le; vm_compute; congruence]).
    assert (A4 : (8 * pw (-51) = pw (-48))%R) by (change 8%R with (pw 3); rewrite pw_mul; reflexivity). assert (A5 : (pw (-48) <= pw (-27))%R) by (apply bpow_le; lia).
    assert (A6 : (pw (-25) = 4 * pw (-27))%R) by (change 4%R with (pw 2); rewrite pw_mul; reflexivity). assert (A7 : (pw (-24) = 8 * pw (-27))%R) by (change 8%R with (pw 3); rewrite pw_mul; reflexivity).
    pose proof (pw_pos (-27)). lra.
  - vm_compute. intuition congruence.
  - intros body1 sm1 r1 _. destruct body1 as [|l1 [|l2 b1]]; cbn [two_shapes real_net net_apart]; try exact Logic.I; (split; [|try (split; [exact Logic.I|]); try exact Logic.I]).
    1,2: intros x y z Ia; unfold F; assert (K : (pw (-60 + 1) < 1)%R) by (change 1%R with (pw 0); apply bpow_lt; lia); destruct (Hv _ _ _ Ia) as [-> | ->]; rewrite ?I1, ?I2; unfold Rabs; destruct (Rcase_abs _); lra.
  - exists body', r, body2, r'. split; [exact A|]. split; [exact B|]. cbv zeta in C |- *. intros s Hs. destruct (C 1%nat (HConn 2) s eq_refl eq_refl Hs) as (l & gw & gb & k & fw & fb & Hl & HG & K1 & K2 & _ & K3 & _).
    assert (EW : s_wdim s (net_dim (real_net two_shapes body') (D3 2 1 1) 1) = D3 2 2 1).
    { destruct body' as [|l1 [|l2 b1]]; cbn in Hs; try discriminate Hs. injection Hs as <-. destruct l2; reflexivity. }
    rewrite EW in K2, K3. exists l, gw, gb, fw. split; [exact Hl|]. split; [exact HG|]. split; [exact K2|]. intros a b Ha Hb. destruct (K3 a b 0) as (Q1 & D & Q2 & Q3); [unfold inb; cbn; lia|]. split; [exact Q1|]. exists D. split; [exact Q2|].
    vm_compute in K1. injection K1 as <-. exact Q3.
Qed.
