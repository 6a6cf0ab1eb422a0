(** Accuracy of the forward pass with doubles: how far the results are from those of the same network with exact
    arithmetic. *)
From Coq Require Import ZArith Bool Lia Reals Lra Psatz List.
From Coquelicot Require Import Coquelicot.
From Flocq Require Import Core BinarySingleNaN.
From Verif Require Import Base Dim Matrix View Num Expr Spec Iter Sums MatFacts MatThms ViewThms ExprThms Batch Kernel Connected Float32
  FloatFacts Pooling Activation Softmax LayerFacts KernelThms KernelGrad BatchThms ConnectedThms PoolingThms PoolGrad ActivationThms SoftmaxThms LayerTotal Calc Chars
  Double Bar BarFacts Model Net NetThms NetPass NetGrad ModelThms TrainNet TrainSgd Shapes ShapeNet ReportFacts FiniteFacts FiniteSoft FiniteInit FiniteNet FiniteReal
  Rounding RoundLayers.
Import ListNotations.
Local Open Scope Z_scope.

Local Notation fexp64 := (SpecFloat.fexp prec emax).
Local Notation rnd64 := (round radix2 fexp64 ZnearestE).
#[local] Instance valid64 : Valid_exp fexp64 := fexp_correct prec emax prec_pos.
Local Notation pw := (bpow radix2).

(** *** Powers of two *)
Lemma pw_pos : forall e, (0 < pw e)%R.
Proof. intros. apply bpow_gt_0. Qed.
Lemma pw_mul : forall a b, (pw a * pw b = pw (a + b))%R.
Proof. intros. symmetry. apply bpow_plus. Qed.
Lemma pw_bits : forall n e, 1 <= n -> (IZR n * pw e <= pw (e + bits n))%R.
Proof.
  intros n e H. destruct (bits_ok n H) as (A & B). rewrite Z.add_comm, bpow_plus. apply Rmult_le_compat_r; [left; apply pw_pos|].
  rewrite <- IZR_Zpower by exact A. apply IZR_le. exact B.
Qed.
Lemma pw_max : forall a b x y, (x <= pw a)%R -> (y <= pw b)%R -> (x + y <= pw (Z.max a b + 1))%R.
Proof.
  intros a b x y A B. rewrite bpow_plus. change (pw 1) with 2%R.
  assert (pw a <= pw (Z.max a b))%R by (apply bpow_le; lia). assert (pw b <= pw (Z.max a b))%R by (apply bpow_le; lia). lra.
Qed.

(** *** Sums *)
Lemma rsum_abs : forall n f g c, 0 <= n -> (forall k, 0 <= k < n -> (Rabs (f k - g k) <= c)%R) -> (Rabs (rsum n f - rsum n g) <= IZR n * c)%R.
Proof.
  intros n f g c Hn H. replace (rsum n f - rsum n g)%R with (rsum n (fun k => f k + -1 * g k)%R) by (rewrite rsum_plus, rsum_scal; ring).
  apply Rabs_le. rewrite <- (rsum_const n c Hn). replace (- rsum n (fun _ => c))%R with (rsum n (fun _ => - c)%R) by (rewrite !rsum_const by exact Hn; ring).
  split; apply rsum_le; intros k Hk; specialize (H k Hk); apply Rabs_le_inv in H; lra.
Qed.
Lemma rsum_top : forall n f c, 0 <= n -> (forall k, 0 <= k < n -> (f k <= c)%R) -> (rsum n f <= IZR n * c)%R.
Proof. intros n f c Hn H. rewrite <- (rsum_const n c Hn). apply rsum_le. exact H. Qed.

(** *** The order of finite doubles *)
Lemma double_order : forall t, strict_weak_on (fun v : double => is_finite v = true) (better_of t).
Proof.
  assert (MX : strict_weak_on (fun v : double => is_finite v = true) lt_max).
  { unfold lt_max. split; [|split].
    - intros a A. rewrite ltb_R by assumption. apply Rlt_bool_false. lra.
    - intros a b c A B C. rewrite !ltb_R by assumption. intros X Y. apply Rlt_bool_true. destruct (Rlt_bool_spec (B2R b) (B2R a)); [|discriminate].
      destruct (Rlt_bool_spec (B2R c) (B2R b)); [|discriminate]. lra.
    - intros a b c A B C. rewrite !ltb_R by assumption. intros X Y. apply Rlt_bool_false. destruct (Rlt_bool_spec (B2R b) (B2R a)); [discriminate|].
      destruct (Rlt_bool_spec (B2R c) (B2R b)); [discriminate|]. lra. }
  intros []; cbn [better_of]; auto. unfold lt_min. split; [|split].
  - intros a A. rewrite ltb_R by assumption. apply Rlt_bool_false. lra.
  - intros a b c A B C. rewrite !ltb_R by assumption. intros X Y. apply Rlt_bool_true. destruct (Rlt_bool_spec (B2R a) (B2R b)); [|discriminate].
    destruct (Rlt_bool_spec (B2R b) (B2R c)); [|discriminate]. lra.
  - intros a b c A B C. rewrite !ltb_R by assumption. intros X Y. apply Rlt_bool_false. destruct (Rlt_bool_spec (B2R a) (B2R b)); [discriminate|].
    destruct (Rlt_bool_spec (B2R b) (B2R c)); [discriminate|]. lra.
Qed.
(** Pooling by maximum or minimum of finite doubles *)
Theorem q_forward_finite : forall t q g x (I : Z -> Z -> Z -> double) slot s0, t <> PAvg -> geom_ok g -> has_geom q g -> q_type q = t ->
  is_mat x (xdim g) I -> vget (q_idx q) slot = Ok s0 -> consistent s0 -> (forall a b c, inb (xdim g) a b c -> is_finite (I a b c) = true) ->
  exists s o OF SF, q_forward x slot q = ORet (with_slot q slot s) o /\ is_mat o (odim g) OF /\ is_mat s (odim g) SF /\
    forall i j c, inb (odim g) i j c -> selected (better_of t) g I i j c (SF i j c) /\ OF i j c = I (dx (SF i j c)) (dy (SF i j c)) c /\
      forall a b, in_win g i j a b -> match t with PMin => (B2R (OF i j c) <= B2R (I a b c))%R | _ => (B2R (I a b c) <= B2R (OF i j c))%R end.
Proof.
  intros t q g x I slot s0 NT G HG QT Hx Hs Cs FI.
  destruct (q_forward_on (fun v : double => is_finite v = true) q g x I t slot s0 G HG QT NT (double_order t) Hx FI Hs Cs) as (o & s & OF & SF & E & Ho & HS & S).
  exists s, o, OF, SF. split; [exact E|]. split; [exact Ho|]. split; [exact HS|]. intros i j c Hi. destruct (S i j c Hi) as (SE & Ev). split; [exact SE|]. split; [exact Ev|].
  destruct SE as (Sz & Sw & Sb & _). intros a b Hw. specialize (Sb a b Hw).
  assert (F1 : is_finite (I a b c) = true) by (apply FI; apply (win_inb g i j c); assumption).
  assert (F2 : is_finite (I (dx (SF i j c)) (dy (SF i j c)) c) = true) by (apply FI; apply (win_inb g i j c); assumption).
  rewrite Ev. unfold better_of, lt_min, lt_max in Sb. destruct t; [| |congruence]; rewrite ltb_R in Sb by assumption;
    match type of Sb with Rlt_bool ?u ?v = _ => destruct (Rlt_bool_spec u v) end; try discriminate; lra.
Qed.

(** ** The same layer with exact arithmetic *)
Definition real_fn (f : Z -> Z -> Z -> double) : fn := fun x y z => B2R (f x y z).
Definition real_layer (s : shape) (l : layer double) : lspec :=
  match s, l with
  | HConv fx fy C n, LKernel k => SConv fx fy C n (real_fn (rd n0 (k_w k))) (real_fn (rd n0 (k_b k)))
  | HConn n, LConn c => SConn n (real_fn (rd n0 (c_w c))) (real_fn (rd n0 (c_b c)))
  | HPool t qx qy sx sy, _ => SPool t qx qy sx sy
  | HAct a, _ => SAct a
  | HConv fx fy C n, _ => SConv fx fy C n (fun _ _ _ => 0%R) (fun _ _ _ => 0%R)
  | HConn n, _ => SConn n (fun _ _ _ => 0%R) (fun _ _ _ => 0%R)
  end.
Fixpoint real_net (ss : list shape) (ls : list (layer double)) : list lspec :=
  match ss, ls with s :: ss', l :: ls' => real_layer s l :: real_net ss' ls' | _, _ => [] end.

(** The doubles [f] are within 2^g of the real numbers [F]. *)
Definition nearby (g : Z) (d : dim3) (f : Z -> Z -> Z -> double) (F : fn) : Prop :=
  forall a b c, inb d a b c -> (Rabs (B2R (f a b c) - F a b c) <= pw g)%R.

(** Exponents of error bounds: parameters of absolute value at most 2^w, inputs of at most 2^e with errors of at most 2^g *)
Definition h_err (w : Z) (s : shape) (d : dim3) (e g : Z) : Z :=
  match s with
  | HConv fx fy C n => Z.max (g + w + bits (fx * fy * C)) (e + w + bits (fx * fy * C + 1) - 52 + bits (fx * fy + C + 3)) + 1
  | HConn n => Z.max (g + w + bits (vol d)) (e + w + bits (vol d + 1) - 52 + bits (vol d + 3)) + 1
  | HPool PAvg qx qy _ _ => Z.max g (e - 52 + bits (qx * qy + 2)) + 1
  | HPool _ _ _ _ _ => g
  | HAct LeakyRelu => Z.max g (e - 52) + 1
  | HAct (Sigmoid | Tangent) => Z.max g (-50) + 1
  | HAct _ => g
  end.
Fixpoint h_net_err (w : Z) (ss : list shape) (d : dim3) (e g : Z) : Z :=
  match ss with [] => g | s :: r => h_net_err w r (h_out s d) (h_exp w s d e) (h_err w s d e g) end.

(** What is required of exp and tanh: an error of about one unit in the last place, and four for tanh near 1 *)
Definition exp_acc (e : double -> double) : Prop := forall v : double, is_finite v = true ->
  (is_finite (e v) = true -> (Rabs (B2R (e v) - exp (B2R v)) <= pw (-52) * exp (B2R v) + pw (-1074))%R) /\ (e v = posinf -> (pw 1022 <= exp (B2R v))%R).
Definition tanh_acc (t : double -> double) : Prop := forall v : double, is_finite v = true -> (Rabs (B2R (t v) - tanh (B2R v)) <= pw (-50))%R.

Lemma r_exp_acc : exp_acc r_exp.
Proof.
  intros v F. rewrite (r_exp_fin v F). pose proof (exp_pos (B2R v)) as P. set (x := exp (B2R v)) in *. destruct (round_any x) as (e & h & He & Hh & Q). split.
  - intros FE. destruct (d_of_R_cases x) as [(_ & C)|(_ & C)]; [|rewrite C in FE; discriminate]. rewrite C, Q.
    replace (x * (1 + e) + h - x)%R with (x * e + h)%R by ring. apply Rle_trans with (1 := Rabs_triang _ _). rewrite Rabs_mult, (Rabs_pos_eq x) by lra.
    apply Rplus_le_compat.
    + rewrite Rmult_comm. apply Rmult_le_compat_r; [lra|]. apply Rle_trans with (1 := He). apply bpow_le. lia.
    + apply Rle_trans with (1 := Hh). apply bpow_le. lia.
  - intros EI. destruct (d_of_R_cases x) as [(C & _)|(C & _)]; [rewrite EI in C; discriminate|].
    assert (0 <= rnd64 x)%R by (rewrite <- rnd_0; apply rnd_le; lra). rewrite Rabs_pos_eq in C by assumption.
    assert (N : ~ (x < pw 1022)%R).
    { intros L. assert (rnd64 x <= pw 1022)%R; [|assert (pw 1022 < pw emax)%R by (apply bpow_lt; reflexivity); lra].
      apply round_le_generic; [typeclasses eauto|typeclasses eauto| |lra]. apply generic_format_bpow. rewrite fexp64_eq. lia. }
    lra.
Qed.
Lemma r_tanh_acc : tanh_acc r_tanh.
Proof.
  intros v F. destruct (r_tanh_val v F) as (_ & C). rewrite C. pose proof (tanh_unit (B2R v)) as (L & U). set (x := tanh (B2R v)) in *.
  destruct (round_any x) as (e & h & He & Hh & Q). rewrite Q. replace (x * (1 + e) + h - x)%R with (x * e + h)%R by ring.
  apply Rle_trans with (1 := Rabs_triang _ _). rewrite Rabs_mult.
  assert (Rabs x * Rabs e <= 1 * pw (-53))%R by (apply Rmult_le_compat; auto using Rabs_pos; apply Rabs_le; lra).
  assert (T1 : (pw (-1075) <= pw (-53))%R) by (apply bpow_le; lia). assert (T2 : (pw (-50) = 8 * pw (-53))%R) by (change 8%R with (pw 3); rewrite pw_mul; reflexivity).
  pose proof (pw_pos (-53)). lra.
Qed.

(** Functions with a derivative of absolute value at most 1 *)
Lemma lipschitz_1 : forall f df : R -> R, (forall x, is_derive f x (df x)) -> (forall x, (Rabs (df x) <= 1)%R) -> forall a b, (Rabs (f a - f b) <= Rabs (a - b))%R.
Proof.
  intros f df D B a b. destruct (MVT_gen f b a df) as (c & _ & E).
  - intros x _. apply D.
  - intros x _. apply continuity_pt_filterlim. apply (ex_derive_continuous f x). exists (df x). apply D.
  - rewrite E, Rabs_mult. pose proof (B c). pose proof (Rabs_pos (a - b)). nra.
Qed.
Lemma sigmoid_lip : forall a b, (Rabs (act_R Sigmoid a - act_R Sigmoid b) <= Rabs (a - b))%R.
Proof.
  apply (lipschitz_1 _ _ sigmoid_derive). intros x. pose proof (sigmoid_bounds x). set (s := act_R Sigmoid x) in *. apply Rabs_le. nra.
Qed.
Lemma tanh_lip : forall a b, (Rabs (tanh a - tanh b) <= Rabs (a - b))%R.
Proof. apply (lipschitz_1 _ _ tanh_derive). intros x. pose proof (tanh_bounds x). set (s := tanh x) in *. apply Rabs_le. nra. Qed.
Lemma Rmax_lip : forall a b c d m, (Rabs (a - c) <= m)%R -> (Rabs (b - d) <= m)%R -> (Rabs (Rmax a b - Rmax c d) <= m)%R.
Proof.
  intros a b c d m A B. apply Rabs_le_inv in A. apply Rabs_le_inv in B. apply Rabs_le. unfold Rmax. destruct (Rle_dec a b), (Rle_dec c d); lra.
Qed.

(** The sigmoid function *)
Lemma sigmoid_close : forall e, exp_ok e -> exp_acc e -> forall v : double, is_finite v = true -> (Rabs (B2R (sigmoid_fcn e v) - act_R Sigmoid (B2R v)) <= pw (-50))%R.
Proof.
  intros e EX EA v F. rewrite sigmoid_R. destruct (neg_ok v F) as (FN & VN). unfold sigmoid_fcn. destruct (EA _ FN) as (A1 & A2). rewrite VN in A1, A2.
  set (w := e (nneg v)) in *. pose proof (exp_pos (- B2R v)) as Y0. set (y := exp (- B2R v)) in *.
  assert (W : w = posinf \/ is_finite w = true /\ (0 <= B2R w)%R) by (apply (exp_nonneg e EX); exact FN).
  assert (U0 : (0 < pw (-53))%R) by apply pw_pos. assert (E50 : (pw (-50) = 8 * pw (-53))%R) by (change 8%R with (pw 3); rewrite pw_mul; reflexivity).
  assert (E52 : (pw (-52) = 2 * pw (-53))%R) by (change 2%R with (pw 1); rewrite pw_mul; reflexivity).
  assert (T1 : (pw (-1075) <= pw (-53))%R) by (apply bpow_le; lia). assert (T2 : (pw (-1074) <= pw (-53))%R) by (apply bpow_le; lia).
  assert (TZ : (0 < pw (-1074))%R) by apply pw_pos.
  assert (BIG : (pw 1021 <= y)%R -> (Rabs (0 - / (1 + y)) <= pw (-50))%R).
  { intros L. rewrite Rminus_0_l, Rabs_Ropp, Rabs_pos_eq by (left; apply Rinv_0_lt_compat; lra). apply Rle_trans with (/ pw 1021)%R.
    - apply Rinv_le; [apply pw_pos|lra].
    - rewrite <- bpow_opp. apply bpow_le. lia. }
  destruct (one_plus w W) as [(Q & QB)|(Q1 & Q2 & Q3)].
  - destruct (one_over (nadd n1 w) (or_introl Q)) as (_ & _ & Z0 & _). rewrite (Z0 Q). apply BIG.
    destruct W as [W|(W1 & W2)].
    + apply Rle_trans with (pw 1022); [apply bpow_le; lia|apply A2; exact W].
    + specialize (QB W1). specialize (A1 W1). destruct one_ok as (O1 & O2).
      destruct (round_sum (n1 : double) w O1 W1) as (d & D1 & D2). rewrite O2 in D2. rewrite D2 in QB.
      assert (DB : (-1 <= d <= 1)%R) by (apply Rabs_le_inv; apply Rle_trans with (1 := D1); change 1%R with (pw 0); apply bpow_le; lia).
      apply Rabs_le_inv in A1. assert (B1 : ((1 + B2R w) * (1 + d) <= (1 + B2R w) * 2)%R) by (apply Rmult_le_compat_l; lra).
      assert (E24 : (pw emax = 8 * pw 1021)%R) by (change 8%R with (pw 3); rewrite pw_mul; reflexivity).
      assert (ONE : (pw (-52) <= 1)%R) by (change 1%R with (pw 0); apply bpow_le; lia).
      assert (B2 : (pw (-52) * y <= 1 * y)%R) by (apply Rmult_le_compat_r; lra).
      assert (4 <= pw 1021)%R by (change 4%R with (pw 2); apply bpow_le; lia). assert (pw (-1074) <= 1)%R by (change 1%R with (pw 0); apply bpow_le; lia). lra.
  - destruct (one_over (nadd n1 w) (or_intror (conj Q1 Q2))) as (_ & _ & _ & Z1).
    assert (NP : nadd n1 w <> posinf) by (intros X; rewrite X in Q1; discriminate). rewrite (Z1 NP). clear Z1 NP.
    destruct W as [W|(W1 & W2)]; [exfalso; rewrite W in Q1; vm_compute in Q1; discriminate|]. specialize (A1 W1).
    destruct one_ok as (O1 & O2). destruct (round_sum (n1 : double) w O1 W1) as (d & D1 & D2). rewrite O2, <- Q3 in D2. clear Q3.
    set (D := B2R (nadd n1 w)) in *. destruct (round_any (1 / D)) as (a & h & Ha & Hh & R1). rewrite R1. unfold Rdiv. rewrite Rmult_1_l.
    set (x := B2R w) in *. assert (ID : (0 < / D <= 1)%R) by (split; [apply Rinv_0_lt_compat; lra|rewrite <- Rinv_1; apply Rinv_le; lra]).
    replace (/ D * (1 + a) + h - / (1 + y))%R with ((/ D * a + h) + ((/ D - / (1 + x)) + (/ (1 + x) - / (1 + y))))%R by ring.
    assert (S1 : (Rabs (/ D * a + h) <= 2 * pw (-53))%R).
    { apply Rle_trans with (1 := Rabs_triang _ _). rewrite Rabs_mult, (Rabs_pos_eq (/ D)) by lra.
      assert (/ D * Rabs a <= 1 * pw (-53))%R by (apply Rmult_le_compat; auto using Rabs_pos; lra). lra. }
    assert (S2 : (Rabs (/ D - / (1 + x)) <= pw (-53))%R).
    { assert (N0 : (1 + d <> 0)%R) by (intros X; rewrite X, Rmult_0_r in D2; lra). assert (N1 : (1 + x <> 0)%R) by lra.
      replace (/ D - / (1 + x))%R with (- d * / D)%R by (rewrite D2; field; split; assumption).
      rewrite Rabs_mult, Rabs_Ropp, (Rabs_pos_eq (/ D)) by lra. assert (Rabs d * / D <= pw (-53) * 1)%R by (apply Rmult_le_compat; auto using Rabs_pos; lra). lra. }
    assert (S3 : (Rabs (/ (1 + x) - / (1 + y)) <= 3 * pw (-53))%R).
    { replace (/ (1 + x) - / (1 + y))%R with ((y - x) * / (1 + y) * / (1 + x))%R by (field; lra).
      assert (IX : (0 < / (1 + x) <= 1)%R) by (split; [apply Rinv_0_lt_compat; lra|rewrite <- Rinv_1 at 2; apply Rinv_le; lra]).
      assert (IY : (0 < / (1 + y) <= 1)%R) by (split; [apply Rinv_0_lt_compat; lra|rewrite <- Rinv_1 at 2; apply Rinv_le; lra]).
      rewrite !Rabs_mult, (Rabs_pos_eq (/ (1 + y))), (Rabs_pos_eq (/ (1 + x))) by lra. rewrite (Rabs_minus_sym y x).
      assert (YY : (y * / (1 + y) <= 1)%R) by (apply (div_le y (1 + y) 1); lra).
      assert (B1 : (Rabs (x - y) * / (1 + y) <= (pw (-52) * y + pw (-1074)) * / (1 + y))%R) by (apply Rmult_le_compat_r; lra).
      assert (B2 : (pw (-52) * (y * / (1 + y)) <= pw (-52) * 1)%R) by (apply Rmult_le_compat_l; lra).
      assert (B3 : (pw (-1074) * / (1 + y) <= pw (-1074) * 1)%R) by (apply Rmult_le_compat_l; lra).
      assert (B4 : (Rabs (x - y) * / (1 + y) <= 3 * pw (-53))%R) by lra.
      assert (B5 : (0 <= Rabs (x - y) * / (1 + y))%R) by (apply Rmult_le_pos; [apply Rabs_pos|lra]).
      assert (Rabs (x - y) * / (1 + y) * / (1 + x) <= (3 * pw (-53)) * 1)%R by (apply Rmult_le_compat; lra). lra. }
    apply Rle_trans with (1 := Rabs_triang _ _). apply Rle_trans with (2 * pw (-53) + (pw (-53) + 3 * pw (-53)))%R; [|lra].
    apply Rplus_le_compat; [exact S1|]. apply Rle_trans with (1 := Rabs_triang _ _). lra.
Qed.

(** The activation functions *)
Lemma act_close : forall E : env double, exp_ok (e_exp E) -> exp_acc (e_exp E) -> tanh_acc (e_tanh E) -> unit_const (e_c01f E) -> B2R (e_c01f E) = f01 ->
  forall a d w e g (v : double) x, 0 <= e -> within 1 e v -> (Rabs (B2R v - x) <= pw g)%R ->
  (Rabs (B2R (act_fcn (e_exp E) (e_tanh E) (e_c01f E) a v) - act_R a x) <= pw (h_err w (HAct a) d e g))%R.
Proof.
  intros E EX EA TA CF CV a d w e g v x He (F & B) H. rewrite Rmult_1_l in B. destruct a; cbn [act_fcn h_err].
  - destruct (relu_ok v F) as (_ & Q). rewrite Q, relu_R. apply Rmax_lip; [|exact H]. rewrite Rminus_diag_eq, Rabs_R0 by reflexivity. left. apply pw_pos.
  - replace (B2R (sigmoid_fcn (e_exp E) v) - act_R Sigmoid x)%R with ((act_R Sigmoid (B2R v) - act_R Sigmoid x) + (B2R (sigmoid_fcn (e_exp E) v) - act_R Sigmoid (B2R v)))%R by ring.
    apply Rle_trans with (1 := Rabs_triang _ _). apply pw_max; [|apply sigmoid_close; assumption]. apply Rle_trans with (1 := sigmoid_lip _ _). exact H.
  - exact H.
  - unfold tangent_fcn. change (act_R Tangent x) with (tanh x).
    replace (B2R (e_tanh E v) - tanh x)%R with ((tanh (B2R v) - tanh x) + (B2R (e_tanh E v) - tanh (B2R v)))%R by ring.
    apply Rle_trans with (1 := Rabs_triang _ _). apply pw_max; [|apply TA; exact F]. apply Rle_trans with (1 := tanh_lip _ _). exact H.
  - destruct (leaky_ok (e_c01f E) CF v F) as (_ & Q & _). rewrite Q, leaky_R, CV. destruct (round_any (f01 * B2R v)) as (r & h & Hr & Hh & R1). rewrite R1.
    assert (FB : (0 <= f01 <= 1)%R) by (rewrite <- CV; apply CF).
    apply Rmax_lip; [|apply Rle_trans with (1 := H); apply bpow_le; lia].
    replace (f01 * B2R v * (1 + r) + h - f01 * x)%R with (f01 * (B2R v - x) + (f01 * B2R v * r + h))%R by ring.
    apply Rle_trans with (1 := Rabs_triang _ _). apply pw_max.
    + rewrite Rabs_mult, (Rabs_pos_eq f01) by lra. pose proof (Rabs_pos (B2R v - x)). nra.
    + apply Rle_trans with (1 := Rabs_triang _ _). rewrite !Rabs_mult, (Rabs_pos_eq f01) by lra. pose proof (Rabs_pos (B2R v)) as V0.
      assert (A : (f01 * Rabs (B2R v) <= 1 * pw e)%R) by (apply Rmult_le_compat; lra).
      assert (A2 : (f01 * Rabs (B2R v) * Rabs r <= (1 * pw e) * pw (-53))%R) by (apply Rmult_le_compat; auto using Rabs_pos; apply Rmult_le_pos; lra).
      rewrite Rmult_1_l, pw_mul in A2. assert (A3 : (pw (-1075) <= pw (e + -53))%R) by (apply bpow_le; lia).
      replace (pw (e - 52)) with (2 * pw (e + -53))%R by (change 2%R with (pw 1); rewrite pw_mul; f_equal; lia). lra.
Qed.

(** A value computed from N products and a bias *)
Lemma affine_close : forall N q w e g v X Y a, 1 <= N < 2 ^ 52 -> 0 <= q -> 0 <= e -> 0 <= w ->
  (Rabs (v - X) <= IZR (q + 2) * pw (-52) * a + IZR N * pw (-1074))%R -> (Rabs (X - Y) <= IZR N * pw (g + w))%R -> (a <= IZR (N + 1) * pw (e + w))%R ->
  (Rabs (v - Y) <= pw (Z.max (g + w + bits N) (e + w + bits (N + 1) - 52 + bits (q + 3)) + 1))%R.
Proof.
  intros N q w e g v X Y a HN Hq He Hw A B C. replace (v - Y)%R with ((X - Y) + (v - X))%R by ring. apply Rle_trans with (1 := Rabs_triang _ _). apply pw_max.
  - apply Rle_trans with (1 := B). apply pw_bits. lia.
  - apply Rle_trans with (1 := A). set (h := e + w + bits (N + 1)).
    assert (C' : (a <= pw h)%R) by (apply Rle_trans with (1 := C); apply pw_bits; lia).
    assert (D : (IZR N * pw (-1074) <= pw (h - 52))%R).
    { apply Rle_trans with (1 := pw_bits N (-1074) ltac:(lia)). apply bpow_le. pose proof (Z.log2_up_le_mono N (N + 1) ltac:(lia)). unfold h, bits. lia. }
    assert (G : (IZR (q + 2) * pw (-52) * a <= IZR (q + 2) * pw (h - 52))%R).
    { replace (pw (h - 52)) with (pw (-52) * pw h)%R by (rewrite pw_mul; f_equal; lia). rewrite Rmult_assoc. apply Rmult_le_compat_l; [apply IZR_le; lia|].
      apply Rmult_le_compat_l; [left; apply pw_pos|exact C']. }
    apply Rle_trans with (IZR (q + 3) * pw (h - 52))%R; [|apply pw_bits; lia]. replace (q + 3) with ((q + 2) + 1) by ring. rewrite (plus_IZR (q + 2)). lra.
Qed.
Lemma product_close : forall w g (v u : double) x, within 1 w u -> (Rabs (B2R v - x) <= pw g)%R -> (Rabs (B2R v * B2R u - x * B2R u) <= pw (g + w))%R.
Proof.
  intros w g v u x (_ & U) V. rewrite Rmult_1_l in U. replace (B2R v * B2R u - x * B2R u)%R with ((B2R v - x) * B2R u)%R by ring.
  rewrite Rabs_mult, bpow_plus. apply Rmult_le_compat; auto using Rabs_pos.
Qed.
Lemma product_top : forall e w (v u : double), within 1 e v -> within 1 w u -> (Rabs (B2R v * B2R u) <= pw (e + w))%R.
Proof. intros e w v u (_ & V) (_ & U). rewrite Rmult_1_l in U, V. rewrite Rabs_mult, bpow_plus. apply Rmult_le_compat; auto using Rabs_pos. Qed.

Lemma small_rd : forall w (m : mat double) d, small w m d -> fits d -> is_mat m d (rd n0 m) /\ forall x y z, inb d x y z -> within 1 w (rd n0 m x y z).
Proof.
  intros w m d (f & H & B) F. split.
  - apply (is_mat_ext m d f); [exact H|]. intros x y z I. symmetry. apply (rd_ok n0 m d f x y z H F I).
  - intros x y z I. rewrite (rd_ok n0 m d f x y z H F I). apply B. exact I.
Qed.

Section Net.
Variable E : env double.
Hypothesis EX : exp_ok (e_exp E).
Hypothesis EA : exp_acc (e_exp E).
Hypothesis TH : tanh_ok (e_tanh E).
Hypothesis TA : tanh_acc (e_tanh E).
Hypothesis CF : unit_const (e_c01f E).
Hypothesis CV : B2R (e_c01f E) = f01.
Hypothesis SQ : e_sqrt E = d_sqrt.
Hypothesis HR : forall k, 0 <= e_rand E k <= e_rmax E.
Hypothesis OD : Z.odd (e_rmax E) = true.
Hypothesis MX : 1 <= e_rmax E < 2 ^ 31.

Theorem fwd_close : forall w l s d i x e g I F, l_fit l s d -> index_slot l i -> h_ok s d -> is_mat x d I -> (forall a b c, inb d a b c -> within 1 e (I a b c)) ->
  nearby g d I F -> l_small w l s d -> 0 <= e -> 0 <= w -> e <= 970 -> h_exp w s d e <= 970 ->
  exists l' o O, l_forward E x i l = ORet l' o /\ is_mat o (h_out s d) O /\ (forall a b c, inb (h_out s d) a b c -> within 1 (h_exp w s d e) (O a b c)) /\
    nearby (h_err w s d e g) (h_out s d) O (sem (real_layer s l') d F) /\ l_small w l' s d.
Proof.
  intros w l s d i x e g I F HL HS OK HX BI CI HW He Hw LE L.
  destruct (fwd_small E EX TH CF SQ HR OD MX w l s d i x e HL HS OK (ex_intro _ I (conj HX BI)) HW He Hw LE L) as (l' & o & E1 & (O & HO & BO) & SL).
  exists l', o, O. split; [exact E1|]. split; [exact HO|]. split; [exact BO|]. split; [|exact SL].
  destruct (h_ok_out _ _ OK) as (_ & FO). destruct OK as (P & FD & OK).
  destruct l as [k|c|q|a|sm]; destruct s as [fx fy C n|n|t qx qy sx sy|ac]; cbn in HL; try contradiction; cbn [l_forward h_out] in *.
  - destruct HL as ((W0 & B0 & HK) & HT). destruct OK as (A1 & A2 & A3 & A4 & F1 & F2 & F3). pose proof HW as (S1 & S2).
    destruct (small_rd w (k_w k) _ S1 F1) as (IW & BW). destruct (small_rd w (k_b k) _ S2 F2) as (IB & BB).
    assert (HK' : kernel_is k fx fy C n (rd n0 (k_w k)) (rd n0 (k_b k))) by (unfold kernel_is in *; tauto).
    assert (HX' : is_mat x (D3 (dx d) (dy d) C) I) by (rewrite A3; destruct d; exact HX).
    assert (F' : fits (D3 (dx d) (dy d) C)) by (rewrite A3; destruct d; exact FD).
    destruct (k_forward_round k x fx fy C n (dx d) (dy d) _ _ I HK' HT HX' F' ltac:(lia) ltac:(lia) F3) as (o' & V & Eo & HV & Q).
    assert (Eo2 : k_forward k x = Ok o') by exact Eo. rewrite Eo2 in E1. cbn [lift] in E1. injection E1 as <- <-. intros a b f Ia. assert (EO : O a b f = V a b f) by (apply (is_mat_eq o' _ O V HO HV FO); exact Ia).
    destruct (BO a b f Ia) as (FV & _). rewrite EO in FV |- *. specialize (Q a b f Ia FV). cbn [real_layer sem h_err]. unfold inb in Ia. cbn [dx dy dz] in Ia.
    set (W := rd n0 (k_w k)) in *. set (B := rd n0 (k_b k)) in *. destruct P as (P1 & P2 & P3).
    pose proof (fits_box _ F1) as V1. unfold vol in V1. cbn [dx dy dz] in V1. assert (CN : C <= C * n) by nia. assert (N0 : 1 <= fx * fy) by nia.
    assert (V2 : fx * fy * C <= fx * fy * (C * n)) by (apply Z.mul_le_mono_nonneg_l; lia). assert (N1 : 1 <= fx * fy * C) by nia.
    assert (IN : forall a' b' c', 0 <= a' < fx -> 0 <= b' < fy -> 0 <= c' < C -> inb d (a' + a) (b' + b) c' /\ inb (D3 fx fy (C * n)) a' b' (f * C + c')).
    { intros a' b' c' X Y Z1. unfold inb. cbn [dx dy dz]. split; [lia|]. pose proof (mul_small C n f ltac:(lia) ltac:(lia)). lia. }
    assert (IBf : inb (D3 n 1 1) f 0 0) by (unfold inb; cbn [dx dy dz]; lia).
    replace (C * (fx * fy)) with (fx * fy * C) in Q by ring. apply (affine_close (fx * fy * C) (fx * fy + C) w e g _ _ _ _ ltac:(lia) ltac:(lia) He Hw Q).
    + unfold fwd_R, corr. change (@nsum R NumR) with rsum. cbn [nadd NumR].
      match goal with |- (Rabs (?u + ?b - (?v + ?b')) <= _)%R => change b' with b; replace (u + b - (v + b))%R with (u - v)%R by ring end.
      replace (IZR (fx * fy * C) * pw (g + w))%R with (IZR C * (IZR fx * (IZR fy * pw (g + w))))%R by (rewrite !mult_IZR; ring).
      apply rsum_abs; [lia|]. intros c' Hc'. rewrite nsum2_R. apply rsum_abs; [lia|]. intros a' Ha'. apply rsum_abs; [lia|]. intros b' Hb'. cbn [nmul NumR].
      destruct (IN a' b' c' Ha' Hb' Hc') as (J1 & J2). apply (product_close w g); [apply BW; exact J2|apply CI; exact J1].
    + rewrite plus_IZR, Rmult_plus_distr_r, Rmult_1_l. apply Rplus_le_compat.
      * replace (IZR (fx * fy * C) * pw (e + w))%R with (IZR C * (IZR fx * (IZR fy * pw (e + w))))%R by (rewrite !mult_IZR; ring).
        apply rsum_top; [lia|]. intros c' Hc'. apply rsum_top; [lia|]. intros a' Ha'. apply rsum_top; [lia|]. intros b' Hb'.
        destruct (IN a' b' c' Ha' Hb' Hc') as (J1 & J2). apply product_top; [apply BI; exact J1|apply BW; exact J2].
      * destruct (BB f 0 0 IBf) as (_ & Q2). rewrite Rmult_1_l in Q2. apply Rle_trans with (1 := Q2). apply bpow_le. lia.
  - destruct OK as (A1 & F1 & F2).
    assert (KV : 1 <= vol d) by (apply vol_pos1; exact P). pose proof (fits_box d FD) as KB.
    assert (R : exists c', l' = LConn c' /\ c_forward (e_rand E) (e_rmax E) (e_sqrt E) x c' = ORet c' o /\ exists W B, conn_is c' n (vol d) W B).
    { destruct HL as [((W & B & HK) & HT)|HFr].
      - destruct (c_forward_ready (e_rand E) (e_rmax E) (e_sqrt E) c n (vol d) W B x d I HK HX FD eq_refl) as (o' & Eo & _).
        rewrite Eo in E1. cbn [map_out] in E1. injection E1 as <- <-. exists c. eauto.
      - destruct (c_forward_first (e_rand E) (e_rmax E) (e_sqrt E) c n x d I HFr HX FD KV F1) as (c' & o' & Eo & HK & _ & _ & _ & Eo').
        rewrite Eo in E1. cbn [map_out] in E1. injection E1 as <- <-. exists c'. eauto. }
    destruct R as (c' & -> & E2 & (W0 & B0 & HK)). cbn [l_small] in SL. destruct (SL (proj1 HK)) as (S1 & S2).
    destruct (small_rd w (c_w c') _ S1 F1) as (IW & BW). destruct (small_rd w (c_b c') _ S2 F2) as (IB & BB).
    assert (HK' : conn_is c' n (vol d) (rd n0 (c_w c')) (rd n0 (c_b c'))) by (unfold conn_is in *; tauto).
    destruct (c_forward_round (e_rand E) (e_rmax E) (e_sqrt E) c' n (vol d) _ _ x d I HK' HX FD eq_refl) as (o' & V & Eo & HV & Q).
    rewrite E2 in Eo. injection Eo as <-. intros a b f Ia. assert (EO : O a b f = V a b f) by (apply (is_mat_eq o _ O V HO HV FO); exact Ia).
    destruct (BO a b f Ia) as (FV & _). rewrite EO in FV |- *. specialize (Q a b f Ia FV). cbn [real_layer sem h_err]. unfold inb in Ia. cbn [dx dy dz] in Ia.
    set (W := rd n0 (c_w c')) in *. set (B := rd n0 (c_b c')) in *.
    assert (IBf : inb (D3 n 1 1) a 0 0) by (unfold inb; cbn [dx dy dz]; lia).
    assert (IWf : forall k, 0 <= k < vol d -> inb (D3 n (vol d) 1) a k 0) by (intros; unfold inb; cbn [dx dy dz]; lia).
    assert (EL : forall k, 0 <= k < vol d -> within 1 e (elem_no d I k) /\ (Rabs (B2R (elem_no d I k) - elem_no d F k) <= pw g)%R).
    { intros k Hk. destruct (position_case d k FD Hk) as (a' & b' & c1 & I' & -> & _). rewrite !elem_no_lin by exact I'. split; [apply BI; exact I'|apply CI; exact I']. }
    apply (affine_close (vol d) (vol d) w e g _ _ _ _ ltac:(lia) ltac:(lia) He Hw Q).
    + unfold affine. change (@nsum R NumR) with rsum. cbn [nadd NumR].
      match goal with |- (Rabs (?u + ?b - (?v + ?b')) <= _)%R => change b' with b; replace (u + b - (v + b))%R with (u - v)%R by ring end.
      apply rsum_abs; [lia|]. intros k Hk. cbn [nmul NumR]. unfold real_fn. rewrite (Rmult_comm (B2R (W a k 0))), (Rmult_comm (B2R (W a k 0))).
      apply (product_close w g); [apply BW; apply IWf; exact Hk|apply EL; exact Hk].
    + rewrite plus_IZR, Rmult_plus_distr_r, Rmult_1_l. apply Rplus_le_compat.
      * apply rsum_top; [lia|]. intros k Hk. rewrite Rmult_comm. apply product_top; [apply EL; exact Hk|apply BW; apply IWf; exact Hk].
      * destruct (BB a 0 0 IBf) as (_ & Q2). rewrite Rmult_1_l in Q2. apply Rle_trans with (1 := Q2). apply bpow_le. lia.
  - destruct HL as (HG & HT). cbn in HS. destruct HS as (s0 & Es & Cs). set (gg := pgeom qx qy sx sy d) in *.
    assert (HX' : is_mat x (xdim gg) I) by (unfold gg; rewrite pgeom_dim; exact HX).
    assert (BI' : forall a b c, inb (xdim gg) a b c -> within 1 e (I a b c)) by (unfold gg; rewrite pgeom_dim; exact BI).
    assert (CI' : forall a b c, inb (xdim gg) a b c -> (Rabs (B2R (I a b c) - F a b c) <= pw g)%R) by (unfold gg; rewrite pgeom_dim; exact CI).
    assert (D : t = PAvg \/ t <> PAvg) by (destruct t; [right|right|left]; congruence). destruct D as [D|D].
    + subst t. destruct (q_forward_avg_round q gg x I i s0 OK HG D HX' Es Cs) as (o' & m & V & Eo & HV & Q).
      rewrite Eo in E1. cbn [map_out] in E1. injection E1 as <- <-. intros a b f Ia. rewrite D in *. assert (EO : O a b f = V a b f) by (apply (is_mat_eq o' _ O V HO HV FO); exact Ia).
      destruct (BO a b f Ia) as (FV & _). rewrite EO in FV |- *. specialize (Q a b f Ia FV). cbn [real_layer sem h_err]. fold gg. cbv zeta in Q.
      pose proof (win_fits gg OK) as FW. pose proof OK as (G1 & G2 & _). set (N := g_qx gg * g_qy gg) in *.
      assert (N1 : 1 <= N) by (unfold N; nia). assert (NR : (0 < IZR N)%R) by (apply IZR_lt; lia).
      assert (IN : forall a' b', 0 <= a' < g_qx gg -> 0 <= b' < g_qy gg -> inb (xdim gg) (a * g_sx gg + a') (b * g_sy gg + b') f).
      { intros a' b' Ha Hb. apply (win_inb gg a b f); [exact OK|exact Ia|]. unfold in_win. lia. }
      assert (WM : win_mean gg F a b f = (rsum (g_qx gg) (fun a' => rsum (g_qy gg) (fun b' => F (a * g_sx gg + a')%Z (b * g_sy gg + b')%Z f)) / IZR N)%R).
      { unfold win_mean. cbn [ndiv nofZ NumR]. rewrite nsum_R, rsum3_storage by exact FW. unfold rsum3. cbn [dx dy dz]. rewrite rsum_1, rsum_exchange. f_equal. f_equal. unfold vol, N. cbn [dx dy dz]. ring. }
      rewrite WM. set (X := rsum (g_qx gg) _) in Q. set (A := rsum (g_qx gg) _) in Q. set (Y := rsum (g_qx gg) _).
      assert (B1 : (Rabs (X - Y) <= IZR N * pw g)%R).
      { unfold N. rewrite mult_IZR, Rmult_assoc. apply rsum_abs; [lia|]. intros a' Ha. apply rsum_abs; [lia|]. intros b' Hb. apply CI'. apply IN; assumption. }
      assert (B2 : (A <= IZR N * pw e)%R).
      { unfold N. rewrite mult_IZR, Rmult_assoc. apply rsum_top; [lia|]. intros a' Ha. apply rsum_top; [lia|]. intros b' Hb.
        destruct (BI' _ _ _ (IN a' b' Ha Hb)) as (_ & T). rewrite Rmult_1_l in T. exact T. }
      replace (B2R (V a b f) - Y / IZR N)%R with ((X - Y) / IZR N + (B2R (V a b f) - X / IZR N))%R by (field; lra).
      apply Rle_trans with (1 := Rabs_triang _ _). apply pw_max.
      * unfold Rdiv. rewrite Rabs_mult, (Rabs_pos_eq (/ IZR N)) by (left; apply Rinv_0_lt_compat; exact NR).
        apply (div_le (Rabs (X - Y)) (IZR N) (pw g)); [exact NR|]. rewrite Rmult_comm. exact B1.
      * apply Rle_trans with (1 := Q). assert (B3 : (A / IZR N <= pw e)%R) by (apply div_le; [exact NR|rewrite Rmult_comm; exact B2]).
        assert (B4 : (IZR (N + 1) * pw (-52) * (A / IZR N) <= IZR (N + 1) * pw (e - 52))%R).
        { replace (pw (e - 52)) with (pw (-52) * pw e)%R by (rewrite pw_mul; f_equal; lia). rewrite Rmult_assoc. apply Rmult_le_compat_l; [apply IZR_le; lia|].
          apply Rmult_le_compat_l; [left; apply pw_pos|exact B3]. }
        assert (B5 : (pw (-1074) <= pw (e - 52))%R) by (apply bpow_le; lia).
        change (qx * qy) with N. apply Rle_trans with (IZR (N + 2) * pw (e - 52))%R; [|apply pw_bits; lia].
        replace (N + 2) with ((N + 1) + 1) by ring. rewrite (plus_IZR (N + 1)). lra.
    + destruct (q_forward_finite t q gg x I i s0 D OK HG HT HX' Es Cs ltac:(intros; apply BI'; assumption)) as (m & o' & OF & SF & Eo & HV & _ & Q).
      rewrite Eo in E1. cbn [map_out] in E1. injection E1 as <- <-. intros a b f Ia. assert (EO : O a b f = OF a b f) by (apply (is_mat_eq o' _ O OF HO HV FO); exact Ia).
      destruct (Q a b f Ia) as ((Sz & Sw & _) & EV & Mx). rewrite EO.
      destruct (pool_sel_ok t gg F OK D a b f Ia) as (Rz & Rw & Rb & _). set (p := pool_sel t gg F a b f) in *. set (p' := SF a b f) in *.
      assert (SEM : sem (SPool t qx qy sx sy) d F a b f = F (dx p) (dy p) f) by (destruct t; [reflexivity|reflexivity|congruence]).
      assert (HE : h_err w (HPool t qx qy sx sy) d e g = g) by (destruct t; [reflexivity|reflexivity|congruence]).
      cbn [real_layer]. rewrite SEM, HE. pose proof (CI' _ _ _ (win_inb gg a b f _ _ OK Ia Rw)) as C1. pose proof (CI' _ _ _ (win_inb gg a b f _ _ OK Ia Sw)) as C2.
      specialize (Rb _ _ Sw). specialize (Mx _ _ Rw). rewrite EV in Mx |- *. apply Rabs_le_inv in C1. apply Rabs_le_inv in C2. apply Rabs_le.
      unfold better_of, lt_min, lt_max in Rb. cbn [nltb NumR] in Rb. destruct t; [| |congruence]; apply Rltb_false in Rb; lra.
  - destruct HL as (H1 & H2).
    destruct (a_forward_ok (e_exp E) (e_tanh E) (e_c01f E) ac x d I HX FD (pos_iterable d P)) as (o' & Eo & HV).
    rewrite H1, Eo in E1. cbn [lift] in E1. injection E1 as <- <-. intros a0 b f Ia.
    rewrite (is_mat_eq o' _ O _ HO HV FO _ _ _ Ia). cbn [real_layer sem]. apply act_close; auto.
Qed.
End Net.
