(** Whole networks in IEEE-754 double precision: the numbers stay finite. *)
From Coq Require Import ZArith Bool Lia Reals Lra Psatz List.
From Flocq Require Import Core BinarySingleNaN.
From Verif Require Import Base Dim Matrix View Num Expr Spec Iter Sums MatFacts MatThms ViewThms ExprThms Batch Kernel Connected Float32
  FloatFacts Pooling Activation Softmax LayerFacts KernelThms BatchThms ConnectedThms PoolingThms PoolGrad ActivationThms SoftmaxThms LayerTotal Calc Chars
  Double Bar BarFacts Model Net NetPass NetGrad ModelThms TrainNet TrainSgd Shapes ShapeNet ReportFacts FiniteFacts FiniteSoft FiniteInit.
Import ListNotations.
Local Open Scope Z_scope.

Local Notation fexp64 := (SpecFloat.fexp prec emax).
Local Notation rnd64 := (round radix2 fexp64 ZnearestE).
Local Notation fexp32 := (SpecFloat.fexp 24 128).
Local Notation rnd32 := (round radix2 fexp32 ZnearestE).
#[local] Instance valid64 : Valid_exp fexp64 := fexp_correct prec emax prec_pos.
#[local] Instance valid32 : Valid_exp fexp32 := fexp_correct 24 128 prec32.

(** *** double to float: round to nearest, ties to even (the conversions to the floats of ModelDescription.h 21-23) *)
Definition f32_of_d (x : double) : f32 :=
  match x with
  | B754_zero s => B754_zero s
  | B754_infinity s => B754_infinity s
  | B754_nan => B754_nan
  | B754_finite s m e _ => binary_normalize 24 128 prec32 emax32 mode_NE (SpecFloat.cond_Zopp s (Z.pos m)) e s
  end.
(** a double stored as a float and read back as a double *)
Definition d_float (x : double) : double := d_of_f32 (f32_of_d x).
Lemma pow32 : forall e, 0 <= e <= 127 -> generic_format radix2 fexp32 (bpow radix2 e).
Proof. intros e H. apply generic_format_bpow. rewrite fexp32_eq. lia. Qed.
Lemma d_float_ok : forall (x : double) e, 0 <= e <= 127 -> within 1 e x -> within 1 e (d_float x) /\ B2R (d_float x) = rnd32 (B2R x).
Proof.
  intros x e He (F & B). rewrite Rmult_1_l in B.
  assert (RB : (Rabs (rnd32 (B2R x)) <= bpow radix2 e)%R) by (apply abs_round_le_generic; [typeclasses eauto|typeclasses eauto|apply pow32; exact He|exact B]).
  assert (H : is_finite (f32_of_d x) = true /\ B2R (f32_of_d x) = rnd32 (B2R x)).
  { destruct x as [s|s| |s m k b] eqn:X; try discriminate F.
    - split; [reflexivity|]. cbn [f32_of_d B2R]. symmetry. apply round_0. typeclasses eauto.
    - unfold f32_of_d. pose proof (binary_normalize_correct 24 128 prec32 emax32 mode_NE (SpecFloat.cond_Zopp s (Z.pos m)) k s) as C.
      cbn zeta in C. cbn [round_mode] in C. change (F2R (Float radix2 (SpecFloat.cond_Zopp s (Z.pos m)) k)) with (B2R (B754_finite s m k b : double)) in C.
      rewrite Rlt_bool_true in C.
      + destruct C as (C1 & C2 & _). split; [exact C2|exact C1].
      + apply Rle_lt_trans with (1 := RB). apply bpow_lt. lia. }
  destruct H as (H1 & H2). destruct (d_of_f32_ok _ H1) as (A & C). unfold d_float. split; [|rewrite A; exact H2]. split; [exact C|]. rewrite A, H2, Rmult_1_l. exact RB.
Qed.
Lemma d_float_unit : forall x : double, unit_const x -> unit_const (d_float x).
Proof.
  intros x (F & B). destruct (d_float_ok x 0 ltac:(lia)) as ((A & _) & E).
  { split; [exact F|]. rewrite Rabs_pos_eq by lra. cbn [bpow]. lra. }
  split; [exact A|]. rewrite E. split.
  - rewrite <- (round_0 radix2 fexp32 ZnearestE) at 1. apply round_le; [typeclasses eauto|typeclasses eauto|lra].
  - apply round_le_generic; [typeclasses eauto|typeclasses eauto|apply (pow32 0); lia|cbn [bpow]; lra].
Qed.

(** *** Matrices with elements of absolute value at most 2^e *)
Definition small (e : Z) (m : mat double) (d : dim3) : Prop := exists f, is_mat m d f /\ forall x y z, inb d x y z -> within 1 e (f x y z).
Lemma small_has : forall e m d, small e m d -> has m d.
Proof. intros e m d (f & H & _). eapply is_has. exact H. Qed.
Lemma small_up : forall e e' m d, small e m d -> e <= e' -> small e' m d.
Proof. intros e e' m d (f & H & B) L. exists f. split; [exact H|]. intros. apply within_up with e; auto. Qed.

(** Exponent bounds of a layer output, for parameters of absolute value at most 2^w and inputs of at most 2^e *)
Definition bits (n : Z) : Z := Z.log2_up n.
Definition h_exp (w : Z) (s : shape) (d : dim3) (e : Z) : Z :=
  match s with
  | HConv fx fy C n => e + w + bits (fx * fy * C + 1)
  | HConn n => e + w + bits (vol d + 1)
  | HPool _ _ _ _ _ => e
  | HAct (Sigmoid | Tangent) => 0
  | HAct _ => e
  end.
(** No layer output exceeds 2^lim. *)
Fixpoint h_net_lim (lim w : Z) (ss : list shape) (d : dim3) (e : Z) : Prop :=
  e <= lim /\ match ss with [] => True | s :: r => h_net_lim lim w r (h_out s d) (h_exp w s d e) end.
Fixpoint h_net_exp (w : Z) (ss : list shape) (d : dim3) (e : Z) : Z :=
  match ss with [] => e | s :: r => h_net_exp w r (h_out s d) (h_exp w s d e) end.

(** The parameters of a layer are at most 2^w. The parameters of a fully connected layer before its first use do not matter. *)
Definition l_small (w : Z) (l : layer double) (s : shape) (d : dim3) : Prop :=
  match l, s with
  | LKernel k, HConv fx fy C n => small w (k_w k) (D3 fx fy (C * n)) /\ small w (k_b k) (D3 n 1 1)
  | LConn c, HConn n => c_ready c = true -> small w (c_w c) (D3 n (vol d) 1) /\ small w (c_b c) (D3 n 1 1)
  | _, _ => True
  end.
Fixpoint net_small (w : Z) (ls : list (layer double)) (ss : list shape) (d : dim3) : Prop :=
  match ls, ss with l :: ls', s :: ss' => l_small w l s d /\ net_small w ls' ss' (h_out s d) | _, _ => True end.

Lemma bits_ok : forall n, 1 <= n -> 0 <= bits n /\ n <= 2 ^ bits n.
Proof.
  intros n H. unfold bits. split; [apply Z.log2_up_nonneg|]. destruct (Z.eq_dec n 1) as [->|]; [cbn; lia|]. apply Z.log2_up_spec. lia.
Qed.
Lemma within_1 : forall a b e x y, within 1 e x -> within 1 b y -> 0 <= e + b <= 970 -> a = e + b -> within 1 a (nmul x y).
Proof. intros a b e x y X Y L ->. apply (within_mul 1 1 e b x y X Y). unfold scale. lia. Qed.

(** A sum of n products and a bias *)
Lemma plus_bias : forall n e w (s b : double), 0 <= n < 2 ^ 52 -> 0 <= e -> 0 <= w -> e + w <= 970 -> within n (e + w) s -> within 1 w b ->
  within 1 (e + w + bits (n + 1)) (nadd s b).
Proof.
  intros n e w s b Hn He Hw L S B. destruct (bits_ok (n + 1) ltac:(lia)) as (B0 & B1). apply within_pow with (n + 1); [|exact B0|exact B1].
  apply within_add; [exact S|apply within_up with w; [exact B|lia]|]. unfold scale. lia.
Qed.

Section Net.
Variable E : env double.
Hypothesis EX : exp_ok (e_exp E).
Hypothesis TH : tanh_ok (e_tanh E).
Hypothesis CF : unit_const (e_c01f E).
Hypothesis CD : unit_const (e_c01 E).
Hypothesis SQ : e_sqrt E = d_sqrt.
Hypothesis HR : forall k, 0 <= e_rand E k <= e_rmax E.
Hypothesis OD : Z.odd (e_rmax E) = true.
Hypothesis MX : 1 <= e_rmax E < 2 ^ 31.

Lemma init_within : forall k0 d x y z, fits d -> 1 <= vol d -> inb d x y z -> within 1 0 (init_val (T := double) (e_rand E) (e_rmax E) (e_sqrt E) k0 d x y z).
Proof.
  intros k0 d x y z F V I. rewrite SQ. destruct (init_double _ _ HR OD MX k0 d F V) as (A & _). destruct (A x y z I) as (B & C).
  split; [exact B|]. cbn [bpow]. lra.
Qed.

Lemma fits_box : forall d, fits d -> 0 <= vol d < 2 ^ 31.
Proof. intros d F. pose proof (fits_vol d F) as V. unfold two31 in V. lia. Qed.

Lemma conv_within : forall fx fy C n X Y W B I e w, 1 <= fx <= X -> 1 <= fy <= Y -> 0 <= C -> fits (D3 fx fy (C * n)) -> fits (D3 X Y C) ->
  0 <= e -> 0 <= w -> e + w <= 970 ->
  (forall x y z, inb (D3 X Y C) x y z -> within 1 e (I x y z)) -> (forall x y z, inb (D3 fx fy (C * n)) x y z -> within 1 w (W x y z)) ->
  (forall x y z, inb (D3 n 1 1) x y z -> within 1 w (B x y z)) ->
  forall x y f, inb (D3 (X - fx + 1) (Y - fy + 1) n) x y f ->
  within 1 (e + w + bits (fx * fy * C + 1)) (nadd (corr fx fy C I W x y f) (B f 0 0)).
Proof.
  intros fx fy C n X Y W B I e w Hx Hy HC FW FX He Hw L HI HW HB x y f If. unfold inb in *. cbn [dx dy dz] in *.
  assert (CN : C <= C * n) by nia.
  pose proof (fits_box _ FW) as V. unfold vol in V. cbn [dx dy dz] in V.
  assert (P1 : 1 <= fx * fy) by nia.
  assert (V2 : fx * fy * C <= fx * fy * (C * n)) by (apply Z.mul_le_mono_nonneg_l; lia).
  assert (V3 : 0 <= fx * fy * C) by (apply Z.mul_nonneg_nonneg; lia).
  apply plus_bias; try lia; [|apply HB; lia].
  unfold corr. replace (fx * fy * C) with (C * (fx * fy * 1)) by ring. apply nsum_within; [lia|lia| |unfold scale; nia].
  intros c Hc. apply nsum2_within; try lia; [|unfold scale; nia]. intros a b Ha Hb. apply within_1 with w e; [apply HI; lia| |lia|reflexivity].
  apply HW. split; [lia|]. split; [lia|]. split; [nia|]. apply (proj2 (mul_small C n f HC ltac:(lia))) || (pose proof (mul_small C n f HC ltac:(lia)); lia).
Qed.

Lemma fwd_small : forall w l s d i x e, l_fit l s d -> index_slot l i -> h_ok s d -> small e x d -> l_small w l s d ->
  0 <= e -> 0 <= w -> e <= 970 -> h_exp w s d e <= 970 ->
  exists l' o, l_forward E x i l = ORet l' o /\ small (h_exp w s d e) o (h_out s d) /\ l_small w l' s d.
Proof.
  intros w l s d i x e HL HS (P & F & OK) (I & HX & BI) HW He Hw LE L.
  destruct l as [k|c|q|a|sm]; destruct s as [fx fy C n|n|t qx qy sx sy|ac]; cbn in HL; try contradiction; cbn [l_forward h_out].
  - destruct HL as ((W0 & B0 & HK) & HT). destruct OK as (A1 & A2 & A3 & A4 & F1 & F2 & F3). pose proof HW as ((W & IW & BW) & (B & IB & BB)).
    assert (HK' : kernel_is k fx fy C n W B) by (unfold kernel_is in *; tauto).
    assert (HX' : is_mat x (D3 (dx d) (dy d) C) I) by (rewrite A3; destruct d; exact HX).
    assert (F' : fits (D3 (dx d) (dy d) C)) by (rewrite A3; destruct d; exact F).
    assert (BI' : forall a b c, inb (D3 (dx d) (dy d) C) a b c -> within 1 e (I a b c)) by (rewrite A3; destruct d; exact BI).
    destruct (k_forward_ok k x fx fy C n (dx d) (dy d) W B I HK' HT HX' F' ltac:(lia) ltac:(lia) F3) as (o & Eo & Ho).
    rewrite Eo. exists (LKernel k), o. cbn [lift]. split; [reflexivity|]. split; [|exact HW]. cbn [h_exp] in *.
    eexists. split; [exact Ho|]. pose proof (bits_ok (fx * fy * C + 1)) as BB1. destruct P as (P1 & P2 & P3).
    assert (N0 : 0 <= fx * fy * C) by (apply Z.mul_nonneg_nonneg; nia).
    apply (conv_within fx fy C n (dx d) (dy d)); auto; lia.
  - destruct OK as (A1 & F1 & F2).
    assert (G : forall c', (exists W B, conn_is c' n (vol d) W B) -> small w (c_w c') (D3 n (vol d) 1) -> small w (c_b c') (D3 n 1 1) ->
      exists o, c_forward (e_rand E) (e_rmax E) (e_sqrt E) x c' = ORet c' o /\ small (h_exp w (HConn n) d e) o (D3 n 1 1)).
    { intros c' (W0 & B0 & HK) (W & IW & BW) (B & IB & BB). assert (HK' : conn_is c' n (vol d) W B) by (unfold conn_is in *; tauto).
      destruct (c_forward_ready (e_rand E) (e_rmax E) (e_sqrt E) c' n (vol d) W B x d I HK' HX F eq_refl) as (o & Eo & Ho).
      exists o. split; [exact Eo|]. eexists. split; [exact Ho|]. intros a b c0 J. cbn [h_exp] in *. unfold inb in J. cbn [dx dy dz] in J.
      pose proof (fits_box d F) as V. pose proof (bits_ok (vol d + 1) ltac:(lia)) as BB1.
      unfold affine. apply plus_bias; try lia; [|apply BB; unfold inb; cbn [dx dy dz]; lia].
      replace (vol d) with (vol d * 1) at 1 by ring. apply nsum_within; [lia|lia| |unfold scale; lia].
      intros k Hk. apply within_1 with e w; [apply BW; unfold inb; cbn [dx dy dz]; lia| |lia|lia].
      destruct (position_case d k F Hk) as (a' & b' & c1 & I' & -> & _). rewrite elem_no_lin by exact I'. apply BI. exact I'. }
    destruct HL as [(HK & HT)|HFr].
    + assert (RD : c_ready c = true) by (destruct HK as (W & B & HK); apply HK). cbn [l_small] in HW. destruct (HW RD) as (S1 & S2).
      destruct (G c HK S1 S2) as (o & Eo & Ho). rewrite Eo. exists (LConn c), o. cbn [map_out]. split; [reflexivity|]. split; [exact Ho|exact HW].
    + destruct (c_forward_first (e_rand E) (e_rmax E) (e_sqrt E) c n x d I HFr HX F (vol_pos1 d P) F1) as (c' & o & Eo & HK & HI & G1 & G2 & Eo').
      assert (S1 : small w (c_w c') (D3 n (vol d) 1)).
      { eexists. split; [apply HK|]. intros. apply within_up with 0; [|exact Hw]. apply init_within; [exact F1| |assumption].
        pose proof (vol_pos1 d P). unfold vol at 1. cbn [dx dy dz]. nia. }
      assert (S2 : small w (c_b c') (D3 n 1 1)).
      { eexists. split; [apply HK|]. intros. apply within_up with 0; [|exact Hw]. apply init_within; [exact F2| |assumption]. unfold vol. cbn [dx dy dz]. lia. }
      destruct (G c' (ex_intro _ _ (ex_intro _ _ HK)) S1 S2) as (o2 & Eo2 & Ho2). rewrite Eo' in Eo2. injection Eo2 as <-.
      rewrite Eo. exists (LConn c'), o. cbn [map_out]. split; [reflexivity|]. split; [exact Ho2|]. cbn [l_small]. auto.
  - destruct HL as (HG & HT). cbn in HS. destruct HS as (s0 & Es & Cs).
    assert (HX' : is_mat x (xdim (pgeom qx qy sx sy d)) I) by (rewrite pgeom_dim; exact HX).
    destruct (q_forward_total q _ x I i s0 OK HG HX' Es Cs) as (o & m & OF & Eo & Ho & _ & _ & QA & QE).
    rewrite Eo. exists (LPool (with_slot q i m)), o. cbn [map_out]. split; [reflexivity|]. split; [|exact Logic.I]. cbn [h_exp].
    exists OF. split; [exact Ho|]. intros a b c J. set (g := pgeom qx qy sx sy d) in *.
    assert (BI' : forall a b c, inb (xdim g) a b c -> within 1 e (I a b c)) by (unfold g; rewrite pgeom_dim; exact BI).
    assert (D : q_type q = PAvg \/ q_type q <> PAvg) by (destruct (q_type q); [right|right|left]; congruence). destruct D as [D|D].
    + rewrite (QA D). unfold win_mean. pose proof (win_fits g OK) as FW. set (dw := D3 (g_qx g) (g_qy g) 1) in *.
      pose proof (fits_box dw FW) as V. assert (V1 : 1 <= vol dw).
      { pose proof OK as (Q1 & Q2 & _). unfold vol, dw. cbn [dx dy dz]. nia. }
      apply within_div with (vol dw); [|exact V1| |unfold scale; lia].
      * replace (vol dw * 1) with (vol dw * 1) by reflexivity. apply nsum_within; [lia|lia| |unfold scale; lia].
        intros k Hk. destruct (position_case dw k FW Hk) as (a' & b' & c1 & I' & -> & _). rewrite elem_no_lin by exact I'.
        apply BI'. apply (win_inb g a b c); [exact OK|exact J|]. unfold inb, dw in I'. cbn [dx dy dz] in I'. unfold in_win. lia.
      * change (@nofZ double NumD) with d_of_Z. destruct (d_of_Z_ok (vol dw)) as (Q & _); [lia|]. rewrite Q. lra.
    + destruct (QE D a b c J) as (a' & b' & c1 & I' & ->). apply BI'. exact I'.
  - destruct HL as (H1 & H2).
    destruct (a_forward_ok (e_exp E) (e_tanh E) (e_c01f E) ac x d I HX F (pos_iterable d P)) as (o & Eo & Ho).
    rewrite H1, Eo. exists (LAct a), o. cbn [lift]. split; [reflexivity|]. split; [|exact Logic.I].
    eexists. split; [exact Ho|]. intros u v z J. destruct (BI u v z J) as (FI & B1).
    destruct (act_finite (e_exp E) (e_tanh E) (e_c01f E) EX TH CF ac (I u v z) FI) as (A1 & A2).
    destruct (act_ranges (e_exp E) (e_tanh E) (e_c01f E) EX TH (I u v z) FI) as (R1 & R2 & R3 & R4).
    assert (GEN : within 1 e (act_fcn (e_exp E) (e_tanh E) (e_c01f E) ac (I u v z))).
    { split; [exact A1|]. apply Rle_trans with (1 := A2). apply Rmax_lub; [|exact B1]. rewrite Rmult_1_l. change 1%R with (bpow radix2 0). apply bpow_le. exact He. }
    destruct ac; cbn [h_exp]; try exact GEN; (split; [exact A1|]); cbn [bpow]; rewrite Rmult_1_r; apply Rabs_le; lra.
Qed.

Hypothesis RN : e_rnd E = d_float.

Lemma float_copy_small : forall m d f, is_mat m d f -> pos d -> fits d -> exists m', float_copy E m = Ok m' /\ is_mat m' d (fun x y z => d_float (f x y z)).
Proof.
  intros m d f H P F. unfold float_copy. rewrite RN.
  destruct (mat_of_lz_ok n0 d_float (l_val m) tt d f F (pos_iterable d P) (is_mat_lz m d f tt H F)) as (m' & Q & H'). eauto.
Qed.
Lemma record_small : forall e m d, small e m d -> pos d -> fits d -> 0 <= e <= 127 -> exists m', float_copy E m = Ok m' /\ small e m' d.
Proof.
  intros e m d (f & H & B) P F He. destruct (float_copy_small m d f H P F) as (m' & Q & H'). exists m'. split; [exact Q|].
  eexists. split; [exact H'|]. intros. apply d_float_ok; auto.
Qed.

(** The recorded matrices: one for each layer, no larger than the bound of the layer *)
Fixpoint recs_small (w : Z) (rs : list (mat double)) (ss : list shape) (d : dim3) (e : Z) : Prop :=
  match rs, ss with
  | [], [] => True
  | r :: rs', s :: ss' => small (h_exp w s d e) r (h_out s d) /\ recs_small w rs' ss' (h_out s d) (h_exp w s d e)
  | _, _ => False
  end.
Lemma h_exp_nonneg : forall w s d e, 0 <= w -> 0 <= e -> 0 <= h_exp w s d e.
Proof.
  intros w s d e Hw He. destruct s as [fx fy C n|n|t qx qy sx sy|[]]; cbn [h_exp]; try lia; unfold bits;
    [pose proof (Z.log2_up_nonneg (fx * fy * C + 1))|pose proof (Z.log2_up_nonneg (vol d + 1))]; lia.
Qed.
Lemma h_net_exp_nonneg : forall w ss d e, 0 <= w -> 0 <= e -> 0 <= h_net_exp w ss d e.
Proof. induction ss as [|s ss IH]; intros d e Hw He; cbn [h_net_exp]; [exact He|]. apply IH; [exact Hw|]. apply h_exp_nonneg; assumption. Qed.
Lemma h_net_lim_head : forall lim w ss d e, h_net_lim lim w ss d e -> e <= lim.
Proof. destruct ss; cbn; tauto. Qed.
Lemma h_net_lim_end : forall lim w ss d e, h_net_lim lim w ss d e -> h_net_exp w ss d e <= lim.
Proof. induction ss as [|s ss IH]; intros d e (A & B); cbn [h_net_exp]; [exact A|]. apply IH. exact B. Qed.

Lemma fwd_net_small : forall w ls ss d i x e, net_fit ls ss d -> List.Forall (fun l => index_slot l i) ls -> h_net_ok ss d -> small e x d ->
  net_small w ls ss d -> 0 <= w -> 0 <= e -> h_net_lim 127 w ss d e ->
  exists ls' rs o, fwd_layers E ls x i = ORet ls' (rs, o) /\ small (h_net_exp w ss d e) o (h_net_out ss d) /\ recs_small w rs ss d e /\ net_small w ls' ss d.
Proof.
  intros w. induction ls as [|l ls IH]; intros ss d i x e HN HS OK HX HW Hw He HL; destruct ss as [|s ss]; cbn in HN; try contradiction.
  - exists [], [], x. cbn. auto.
  - destruct HN as [H1 H2]. destruct OK as [O1 O2]. inversion HS as [|? ? S1 S2]; subst. destruct HW as [W1 W2].
    cbn [h_net_lim] in HL. destruct HL as (L1 & L2). pose proof (h_net_lim_head _ _ _ _ _ L2) as L3. pose proof (h_exp_nonneg w s d e Hw He) as L4.
    destruct (fwd_small w l s d i x e H1 S1 O1 HX W1 He Hw ltac:(lia) ltac:(lia)) as (l' & y & Ey & Hy & Wy).
    destruct (h_ok_out _ _ O1) as [P2 F2]. destruct (record_small _ y _ Hy P2 F2 ltac:(lia)) as (r & Er & Hr).
    destruct (IH ss (h_out s d) i y _ H2 S2 O2 Hy W2 Hw L4 L2) as (ls' & rs & o & Eo & Ho & N1 & N2).
    exists (l' :: ls'), (r :: rs), o. split; [cbn [fwd_layers]; rewrite Ey, Er, Eo; reflexivity|]. cbn [h_net_exp recs_small net_small h_net_out]. auto.
Qed.

Lemma rnd32_unit_error : forall x, (0 <= x <= 1)%R -> (Rabs (rnd32 x - x) <= bpow radix2 (-25))%R.
Proof.
  intros x H. destruct (Req_dec x 1) as [->|N].
  { rewrite round_generic; [|typeclasses eauto|apply (pow32 0); lia]. rewrite Rminus_diag_eq by reflexivity. rewrite Rabs_R0. apply bpow_ge_0. }
  apply Rle_trans with (/ 2 * ulp radix2 fexp32 x)%R; [apply error_le_half_ulp; typeclasses eauto|].
  apply Rle_trans with (/ 2 * bpow radix2 (-24))%R.
  - apply Rmult_le_compat_l; [lra|]. destruct (Req_dec x 0) as [->|NZ].
    + change fexp32 with (FLT_exp (-149) 24). rewrite ulp_FLT_0 by exact prec32. apply bpow_le. lia.
    + rewrite ulp_neq_0 by exact NZ. apply bpow_le. unfold cexp. rewrite fexp32_eq.
      assert (mag radix2 x <= 0); [|lia]. apply mag_le_bpow; [exact NZ|]. rewrite Rabs_pos_eq by lra. cbn [bpow]. lra.
  - change (/ 2)%R with (bpow radix2 (-1)). rewrite <- bpow_plus. apply bpow_le. lia.
Qed.

(** The recorded probabilities: floats in [0,1] whose sum is close to 1 *)
Definition probs (p : mat double) (d : dim3) (P : Z -> Z -> Z -> double) : Prop :=
  is_mat p d P /\ (forall a b c, inb d a b c -> is_finite (P a b c) = true /\ (0 <= B2R (P a b c) <= 1)%R) /\
  (Rabs (rsum3 d (fun a b c => B2R (P a b c)) - 1) <= IZR (vol d) * bpow radix2 (-24))%R.

Theorem forward_finite : forall w body sm ss d n i e U (cast : U -> double) (input : mat U) J,
  net_fit body ss d -> sm_count sm = n -> List.Forall (fun l => index_slot l i) body -> h_net_ok ss d -> labels_ok (h_net_out ss d) n ->
  is_mat input d J -> (forall a b c, inb d a b c -> within 1 e (cast (J a b c))) ->
  net_small w body ss d -> 0 <= w -> 0 <= e -> h_net_lim 127 w ss d e ->
  exists body' x0 rs p r P, forward_pass E cast n input i (body ++ [LSoft sm]) = ORet (body' ++ [LSoft sm]) r /\
    r_inputs r = x0 :: rs ++ [p] /\ small e x0 d /\ recs_small w rs ss d e /\ probs p (h_net_out ss d) P /\ net_small w body' ss d /\
    exists a b c, inb (h_net_out ss d) a b c /\ r_label r = lin (h_net_out ss d) a b c /\ r_conf r = P a b c /\ (bpow radix2 (-31) <= B2R (r_conf r))%R /\
      (forall a' b' c', inb (h_net_out ss d) a' b' c' -> (B2R (P a' b' c') <= B2R (r_conf r))%R).
Proof.
  intros w body sm ss d n i e U cast input J HN HC HS OK LO HJ BJ HW Hw He HL.
  destruct (h_net_head _ _ OK) as [Pd Fd]. destruct (h_net_end _ _ OK) as [Po Fo].
  destruct (mat_of_lz_ok (n0 : double) cast (l_val input) tt d J Fd (pos_iterable d Pd) (is_mat_lz input d J tt HJ Fd)) as (x & Ex & Hx).
  assert (SX : small e x d) by (eexists; split; [exact Hx|exact BJ]).
  pose proof (h_net_lim_head _ _ _ _ _ HL) as LH.
  destruct (record_small e x d SX Pd Fd ltac:(lia)) as (x0 & Ex0 & Hx0).
  destruct (fwd_net_small w body ss d i x e HN HS OK SX HW Hw He HL) as (body' & rs & o & Ef & (fo & Hfo & Bo) & N1 & N2).
  set (od := h_net_out ss d) in *.
  destruct (softmax_finite (e_exp E) EX sm o od fo Hfo Fo Po ltac:(rewrite HC; exact LO)) as (p & P & Ep & Hp & P1 & P2 & P3 & _).
  { intros. apply Bo. assumption. }
  destruct (float_copy_small p od P Hp Po Fo) as (p0 & Ep0 & Hp0).
  assert (Ef2 : fwd_layers E (body ++ [LSoft sm]) x i = ORet (body' ++ [LSoft sm]) (rs ++ [p0], p)).
  { eapply fwd_layers_app; [exact Ef|]. cbn [fwd_layers l_forward]. rewrite Ep. cbn [lift]. rewrite Ep0. reflexivity. }
  destruct (mmax_double p od P Hp Fo Po ltac:(intros; apply P1; assumption)) as (a & b & c & Hi & _ & EI & Mx & _).
  destruct (mmax_double o od fo Hfo Fo Po ltac:(intros; apply Bo; assumption)) as (a1 & b1 & c1 & Hi1 & _ & _ & Mx1 & _).
  destruct (P3 a1 b1 c1 Hi1 Mx1) as (Q1 & _).
  assert (FE : forall a b c, inb od a b c -> B2R (d_float (P a b c)) = rnd32 (B2R (P a b c))).
  { intros a' b' c' I'. apply (d_float_ok _ 0); [lia|]. destruct (P1 _ _ _ I') as (A & B). split; [exact A|]. rewrite Rabs_pos_eq by lra. cbn [bpow]. lra. }
  pose proof LO as (_ & _ & LV).
  exists body', x0, rs, p0, (Results (lin od a b c) 0 (nsub n0 n1) (e_rnd E (P a b c)) (x0 :: rs ++ [p0])), (fun a b c => d_float (P a b c)).
  split.
  { unfold forward_pass, bind. rewrite Ex. cbn [lift]. rewrite Ex0. cbn [lift]. rewrite Ef2. cbn [snd fst].
    rewrite (is_mat_dim _ _ _ Hp), base_size_fits by exact Fo. cbn [lift].
    rewrite LV, Z.eqb_refl. cbn [ret]. rewrite EI. cbn [lift]. rewrite (is_mat_flat p _ _ a b c Hp Hi). reflexivity. }
  split; [reflexivity|]. split; [exact Hx0|]. split; [exact N1|]. split; [split; [exact Hp0|split]|split; [exact N2|]].
  - intros a' b' c' I'. apply d_float_unit. apply P1. exact I'.
  - rewrite (rsum3_ext od _ (fun a b c => rnd32 (B2R (P a b c)))) by exact FE.
    pose proof (fits_box od Fo) as V.
    assert (D : (Rabs (rsum3 od (fun a b c => rnd32 (B2R (P a b c))) - rsum3 od (fun a b c => B2R (P a b c))) <= IZR (vol od) * bpow radix2 (-25))%R).
    { rewrite <- !rsum3_storage by exact Fo.
      assert (G : forall k, 0 <= k -> k <= vol od -> (Rabs (rsum k (elem_no od (fun a b c => rnd32 (B2R (P a b c)))) - rsum k (elem_no od (fun a b c => B2R (P a b c)))) <= IZR k * bpow radix2 (-25))%R).
      { intros k. induction k using Zrange_ind; intros K L.
        - replace k with 0 by lia. rewrite !rsum_neg by lia. rewrite Rminus_diag_eq by reflexivity. rewrite Rabs_R0. lra.
        - rewrite !rsum_S by lia. specialize (IHk ltac:(lia) ltac:(lia)). destruct (position_case od k Fo ltac:(lia)) as (a' & b' & c' & I' & EK & _).
          rewrite plus_IZR. pose proof (rnd32_unit_error (B2R (P a' b' c')) (proj2 (P1 _ _ _ I'))) as Q.
          assert (EA : elem_no od (fun a b c => rnd32 (B2R (P a b c))) k = rnd32 (B2R (P a' b' c'))) by (rewrite EK, elem_no_lin by exact I'; reflexivity).
          assert (EB : elem_no od (fun a b c => B2R (P a b c)) k = B2R (P a' b' c')) by (rewrite EK, elem_no_lin by exact I'; reflexivity).
          rewrite EA, EB. set (s1 := rsum k (elem_no od (fun a b c => rnd32 (B2R (P a b c))))) in *. set (s2 := rsum k (elem_no od (fun a b c => B2R (P a b c)))) in *.
          replace (s1 + rnd32 (B2R (P a' b' c')) - (s2 + B2R (P a' b' c')))%R with ((s1 - s2) + (rnd32 (B2R (P a' b' c')) - B2R (P a' b' c')))%R by ring.
          apply Rle_trans with (1 := Rabs_triang _ _). lra. }
      apply G; lia. }
    set (s1 := rsum3 od (fun a b c => rnd32 (B2R (P a b c)))) in *. set (s2 := rsum3 od (fun a b c => B2R (P a b c))) in *.
    replace (s1 - 1)%R with ((s1 - s2) + (s2 - 1))%R by ring. apply Rle_trans with (1 := Rabs_triang _ _).
    assert (V1 : (0 <= IZR (vol od))%R) by (apply IZR_le; lia).
    assert (B24 : (bpow radix2 (-24) = 2 * bpow radix2 (-25))%R) by (change 2%R with (bpow radix2 1); rewrite <- bpow_plus; reflexivity).
    assert (B51 : (bpow radix2 (-51) <= bpow radix2 (-25))%R) by (apply bpow_le; lia).
    rewrite B24. apply (Rmult_le_compat_l (IZR (vol od))) in B51; [|exact V1]. lra.
  - exists a, b, c. cbn [r_label r_conf]. rewrite RN. split; [exact Hi|]. split; [reflexivity|]. split; [reflexivity|]. rewrite FE by exact Hi. split.
    + apply round_ge_generic; [typeclasses eauto|typeclasses eauto|apply generic_format_bpow; rewrite fexp32_eq; lia|].
      apply Rle_trans with (1 := Q1). apply Mx. exact Hi1.
    + intros a' b' c' I'. rewrite FE by exact I'. apply round_le; [typeclasses eauto|typeclasses eauto|]. apply Mx. exact I'.
Qed.

(** ** The loss *)
(** log2: finite for positive numbers, exact for powers of two and monotone around them *)
Definition log2_ok (l : double -> double) : Prop := forall v : double, is_finite v = true -> (0 < B2R v)%R ->
  is_finite (l v) = true /\ (forall k, (bpow radix2 k <= B2R v)%R -> (IZR k <= B2R (l v))%R) /\ (forall k, (B2R v <= bpow radix2 k)%R -> (B2R (l v) <= IZR k)%R).
Hypothesis LG : log2_ok (e_log2 E).
Hypothesis EP : is_finite (e_eps E) = true /\ (bpow radix2 (-17) <= B2R (e_eps E) <= 1)%R.

Lemma minus_one : is_finite (nsub n0 n1 : double) = true /\ B2R (nsub n0 n1 : double) = (-1)%R.
Proof. destruct one_ok as (F & V). destruct (neg_ok (n1 : double) F) as (A & B). unfold nneg in *. split; [exact A|]. rewrite B, V. reflexivity. Qed.

Lemma loss_value : forall v : double, unit_const v ->
  let l := nmul (nsub n0 n1) (e_log2 E (nadd v (e_eps E))) in
  let r := d_float (if nltb l n0 then n0 else l) in is_finite r = true /\ (0 <= B2R r <= 17)%R /\ ((1 - B2R (e_eps E) <= B2R v)%R -> B2R r = 0%R).
Proof.
  intros v (F & B) l r. destruct EP as (FE & BE). pose proof (bpow_gt_0 radix2 (-17)) as B17.
  assert (C2 : cap 2). { pose proof (cap_scale 2 0 ltac:(unfold scale; lia)) as C. cbn [bpow] in C. rewrite Rmult_1_r in C. exact C. }
  destruct (add_exact v (e_eps E) 2 F FE C2) as (A1 & A2); [rewrite Rabs_pos_eq; lra|]. set (s := nadd v (e_eps E)) in *.
  assert (S1 : (bpow radix2 (-17) <= B2R s)%R).
  { rewrite A2. apply round_ge_generic; [typeclasses eauto|typeclasses eauto|apply pow_fmt; lia|lra]. }
  assert (S2 : (B2R s <= bpow radix2 1)%R).
  { rewrite A2. apply round_le_generic; [typeclasses eauto|typeclasses eauto|apply pow_fmt; lia|]. change (bpow radix2 1) with 2%R. lra. }
  destruct (LG s A1 ltac:(lra)) as (G1 & G2 & G3). pose proof (G2 (-17) S1) as G4. pose proof (G3 1 S2) as G5.
  destruct minus_one as (M1 & M2).
  assert (C32 : cap 32). { pose proof (cap_scale 32 0 ltac:(unfold scale; lia)) as C. cbn [bpow] in C. rewrite Rmult_1_r in C. exact C. }
  destruct (mul_exact (nsub n0 n1) (e_log2 E s) 32 M1 G1 C32) as (L1 & L2); [rewrite M2; apply Rabs_le; lra|].
  fold l in L1, L2. rewrite M2 in L2. replace (-1 * B2R (e_log2 E s))%R with (- B2R (e_log2 E s))%R in L2 by ring. rewrite round_NE_opp, rnd_id in L2.
  assert (R0 : is_finite (if nltb l n0 then n0 else l) = true /\ (0 <= B2R (if nltb l n0 then n0 else l) <= 17)%R /\
    ((1 - B2R (e_eps E) <= B2R v)%R -> B2R (if nltb l n0 then n0 else l) = 0%R)).
  { assert (F0 : is_finite (n0 : double) = true) by reflexivity. rewrite (ltb_R l n0 L1 F0). change (B2R (n0 : double)) with 0%R.
    assert (Z : (1 - B2R (e_eps E) <= B2R v)%R -> (B2R l <= 0)%R).
    { intros Q. assert (bpow radix2 0 <= B2R s)%R; [|specialize (G2 0 H); lra]. rewrite A2. cbn [bpow]. apply rnd_one. lra. }
    destruct (Rlt_bool_spec (B2R l) 0) as [Q|Q].
    - split; [exact F0|]. change (B2R (n0 : double)) with 0%R. split; [lra|reflexivity].
    - split; [exact L1|]. rewrite L2 in *. split; [lra|]. intros K. specialize (Z K). lra. }
  destruct R0 as (R1 & R2 & R3). set (t := if nltb l n0 then n0 else l) in *.
  destruct (d_float_ok t 5 ltac:(lia)) as ((D1 & _) & D2).
  { clear - R1 R2. split; [exact R1|]. rewrite Rmult_1_l. change (bpow radix2 5) with (IZR 32). rewrite Rabs_pos_eq by exact (proj1 R2). apply Rle_trans with (1 := proj2 R2). apply IZR_le. lia. }
  fold r in D1, D2. split; [exact D1|]. rewrite D2. split; [split|].
  - rewrite <- (round_0 radix2 fexp32 ZnearestE) at 1. apply round_le; [typeclasses eauto|typeclasses eauto|exact (proj1 R2)].
  - apply round_le_generic; [typeclasses eauto|typeclasses eauto| |exact (proj2 R2)]. apply (int_format 17). lia.
  - intros K. pose proof (R3 K) as Q. match type of D2 with _ = round _ _ _ ?a => change (a = 0%R) in Q end. rewrite Q. apply round_0. typeclasses eauto.
Qed.

Theorem loss_finite : forall ss d n r x0 rs p k P, h_net_ok ss d -> labels_ok (h_net_out ss d) n -> r_inputs r = x0 :: rs ++ [p] -> is_mat p (h_net_out ss d) P ->
  (forall a b c, inb (h_net_out ss d) a b c -> unit_const (P a b c)) -> 0 <= k < n ->
  exists r', assign_loss E r k = Ok r' /\ r_inputs r' = r_inputs r /\ r_label r' = r_label r /\ r_true r' = k /\ r_conf r' = r_conf r /\
    is_finite (r_loss r') = true /\ (0 <= B2R (r_loss r') <= 17)%R.
Proof.
  intros ss d n r x0 rs p k P OK (_ & _ & LV) RI HP UP Hk. destruct (h_net_end _ _ OK) as [Po Fo]. set (od := h_net_out ss d) in *.
  assert (CP : exists q, double_copy p = Ok q /\ is_mat q od P).
  { unfold double_copy. destruct (mat_of_lz_ok n0 (fun t : double => t) (l_val p) tt od P Fo (pos_iterable od Po) (is_mat_lz p od P tt HP Fo)) as (q & Q & H'). eauto. }
  destruct CP as (q & Eq & Hq). destruct (flat_total q od P k Hq Fo Po ltac:(lia)) as (a & b & c & I & _ & Q).
  destruct (loss_value (P a b c) (UP a b c I)) as (L1 & L2 & _).
  eexists (Results (r_label r) k _ (r_conf r) (r_inputs r)). split.
  - unfold assign_loss.
    replace (rev (r_inputs r)) with (p :: rev (x0 :: rs)) by (rewrite RI; change (x0 :: rs ++ [p]) with ((x0 :: rs) ++ [p]); rewrite last_rev; reflexivity).
    rewrite Eq. cbn [rbind]. unfold loss_fcn. rewrite Q. cbn [rbind]. reflexivity.
  - cbn [r_inputs r_label r_true r_conf r_loss]. rewrite RN. auto 8.
Qed.
End Net.
