(** Doubles: the label chosen after softmax, the loss of a whole pass, and the network of main.cpp on its first images. *)
From Coq Require Import ZArith Bool Lia Reals Lra Psatz List.
From Flocq Require Import Core BinarySingleNaN.
From Verif Require Import Base Dim Matrix View Num Expr Spec Iter Sums MatFacts MatThms ViewThms ExprThms Batch Kernel Connected Float32
  FloatFacts Pooling Activation Softmax LayerFacts KernelThms BatchThms ConnectedThms PoolingThms PoolGrad ActivationThms SoftmaxThms LayerTotal Calc Chars
  Double Bar BarFacts Model Net NetPass NetGrad ModelThms TrainNet TrainSgd Shapes ShapeNet Main ReportFacts FiniteFacts FiniteSoft FiniteInit FiniteNet FiniteReal.
Import ListNotations.
Local Open Scope Z_scope.

Local Notation fexp64 := (SpecFloat.fexp prec emax).
Local Notation rnd64 := (round radix2 fexp64 ZnearestE).
#[local] Instance valid64 : Valid_exp fexp64 := fexp_correct prec emax prec_pos.

(** ** The label: position of the first largest probability *)
Theorem label_soft : forall expT : double -> double, exp_ok expT -> exp_mono expT -> forall s (x : mat double) d f, is_mat x d f -> fits d -> pos d -> labels_ok d (sm_count s) ->
  (forall a b c, inb d a b c -> is_finite (f a b c) = true) ->
  exists o P a b c, sm_forward expT s x = Ok o /\ is_mat o d P /\ max_index o = Ok (lin d a b c) /\ inb d a b c /\
    (forall a' b' c', inb d a' b' c' -> (B2R (P a' b' c') <= B2R (P a b c))%R) /\
    (forall a' b' c', inb d a' b' c' -> (B2R (f a b c) <= B2R (f a' b' c'))%R -> B2R (P a' b' c') = B2R (P a b c)) /\
    (exp_gap expT -> forall a' b' c', inb d a' b' c' -> (B2R (f a' b' c') < B2R (f a b c) + bpow radix2 (-50))%R).
Proof.
  intros expT EX EM s x d f H F PO LO FI. destruct (softmax_finite expT EX s x d f H F PO LO FI) as (o & P & Eo & Ho & P1 & _ & P3 & P4 & P5).
  destruct (mmax_double o d P Ho F PO ltac:(intros; apply P1; assumption)) as (a & b & c & I & _ & EI & Mx & _).
  exists o, P, a, b, c. split; [exact Eo|]. split; [exact Ho|]. split; [exact EI|]. split; [exact I|]. split; [exact Mx|]. split.
  - intros a' b' c' I' L. apply Rle_antisym; [apply Mx; exact I'|apply P4; assumption].
  - intros EG a' b' c' I'. destruct (mmax_double x d f H F PO FI) as (a1 & b1 & c1 & I1 & _ & _ & Mx1 & _).
    apply Rnot_le_lt. intros L. apply (Rlt_not_le _ _ (P5 EG a1 b1 c1 a b c I1 I Mx1 ltac:(specialize (Mx1 a' b' c' I'); lra))). apply Mx. exact I1.
Qed.

(** A correctly rounded exp *)
Lemma r_exp_gap : exp_gap r_exp.
Proof.
  intros v [->|(F & L)].
  - cbn [r_exp neginf B2R]. assert (bpow radix2 (-51) <= bpow radix2 0)%R by (apply bpow_le; lia). cbn [bpow] in *. lra.
  - set (h := bpow radix2 (-51)) in *. assert (H0 : (0 < h)%R) by apply bpow_gt_0.
    assert (H1 : (h <= / 4)%R) by (change (/ 4)%R with (bpow radix2 (-2)); apply bpow_le; lia).
    assert (H2 : (bpow radix2 (-50) = 2 * h)%R) by (change 2%R with (bpow radix2 1); unfold h; rewrite <- bpow_plus; reflexivity). rewrite H2 in L.
    assert (B : (exp (B2R v) <= 1 - h)%R).
    { apply Rle_trans with (exp (- (2 * h))); [apply exp_le; exact L|].
      assert (Q : (1 + 2 * h <= exp (2 * h))%R) by (left; apply exp_ineq1; lra). rewrite exp_Ropp.
      apply Rmult_le_reg_l with (exp (2 * h)); [apply exp_pos|]. rewrite Rinv_r by (apply Rgt_not_eq, exp_pos).
      apply Rle_trans with ((1 + 2 * h) * (1 - h))%R; [|apply Rmult_le_compat_r; lra].
      assert (0 <= h * (1 - 2 * h))%R by (apply Rmult_le_pos; lra). lra. }
    rewrite r_exp_fin by exact F. pose proof (exp_pos (B2R v)). destruct (d_of_R_ok (exp (B2R v)) 1 cap_1) as (_ & C); [rewrite Rabs_pos_eq; lra|].
    rewrite C. apply round_le_generic; [typeclasses eauto|typeclasses eauto| |exact B].
    replace (1 - h)%R with (IZR (2 ^ 51 - 1) * bpow radix2 (-51))%R.
    { apply dyadic_format; lia. }
    rewrite minus_IZR. change (IZR (2 ^ 51)) with (bpow radix2 51). rewrite Rmult_minus_distr_r, <- bpow_plus. change (51 + -51) with 0. change (bpow radix2 0) with 1%R. unfold h. ring.
Qed.
(** tiny = 2^-60 *)
Definition tiny : double := @B754_finite prec emax false 4503599627370496 (-112) eq_refl.
Lemma r_exp_tiny : r_exp (Bopp tiny) = n1 /\ r_exp n0 = n1.
Proof.
  assert (ONE : forall x, rnd64 x = 1%R -> d_of_R x = n1).
  { intros x H. destruct one_ok as (O1 & O2). destruct (d_of_R_cases x) as [(A & C)|(A & C)].
    - assert (ST : forall v : double, is_finite v = true -> B2R v = 1%R -> is_finite_strict v = true).
      { intros v Fv Rv. destruct v as [z|z| |z mm ee bb]; try discriminate Fv; [cbn in Rv; lra|reflexivity]. }
      apply B2R_inj; [apply ST; [exact A|lra]|apply ST; assumption|lra].
    - exfalso. rewrite H, Rabs_R1 in A. assert (bpow radix2 0 < bpow radix2 emax)%R by (apply bpow_lt; reflexivity). cbn [bpow] in *. lra. }
  split.
  - rewrite r_exp_fin by reflexivity. apply ONE. assert (T : B2R (Bopp tiny) = (- bpow radix2 (-60))%R).
    { rewrite B2R_Bopp. f_equal. unfold tiny. cbn [B2R]. unfold F2R. cbn [Fnum Fexp SpecFloat.cond_Zopp].
      change (IZR 4503599627370496) with (bpow radix2 52). rewrite <- bpow_plus. reflexivity. }
    rewrite T. set (t := bpow radix2 (-60)) in *. assert (T0 : (0 < t)%R) by apply bpow_gt_0.
    assert (B : (1 - t <= exp (- t) <= 1)%R).
    { split; [left; apply exp_ineq1; lra|]. rewrite <- exp_0. apply exp_le. lra. }
    set (x := exp (- t)) in *. apply Rle_antisym.
    + rewrite <- rnd_1. apply rnd_le. apply B.
    + apply (round_N_ge_midp radix2 fexp64); [apply (int_format64 1); reflexivity|].
      change 1%R with (bpow radix2 0). rewrite pred_bpow. rewrite fexp64_eq. change (Z.max (0 - 53) (-1074)) with (-53). change (bpow radix2 0) with 1%R.
      assert (2 * t < bpow radix2 (-53))%R; [|lra]. change 2%R with (bpow radix2 1). unfold t. rewrite <- bpow_plus. apply bpow_lt. lia.
  - rewrite r_exp_fin by reflexivity. apply ONE. change (B2R (n0 : double)) with 0%R. rewrite exp_0. apply rnd_1.
Qed.
(** Rounding hides that the second of two inputs is larger: the first one is chosen. *)
Theorem label_tie : forall expT : double -> double, expT (Bopp tiny) = n1 -> expT n0 = n1 ->
  exists o, sm_forward expT (sm_make 2) (Mat (D3 2 1 1) [n0; tiny]) = Ok o /\ max_index o = Ok 0.
Proof.
  intros expT X1 X0. set (f := fun a _ _ : Z => if a =? 0 then (n0 : double) else tiny).
  assert (H : is_mat (Mat (D3 2 1 1) [n0; tiny]) (D3 2 1 1) f).
  { split; [reflexivity|]. split; [reflexivity|]. intros x y z (A & B & C). cbn [dx dy dz] in *. replace y with 0 by lia. replace z with 0 by lia.
    assert (D : x = 0 \/ x = 1) by lia. destruct D as [->| ->]; reflexivity. }
  assert (F : fits (D3 2 1 1)) by (vm_compute; intuition congruence). assert (PO : pos (D3 2 1 1)) by (unfold pos; cbn [dx dy dz]; lia).
  assert (LO : labels_ok (D3 2 1 1) (sm_count (sm_make 2))) by (vm_compute; intuition congruence).
  destruct (sm_forward_form _ _ expT (sm_make 2) _ _ f tiny H F PO LO) as (o & Eo & Ho); [vm_compute; reflexivity|].
  assert (S1 : nsub (n0 : double) tiny = Bopp tiny) by (apply B2SF_inj; vm_compute; reflexivity).
  assert (S0 : nsub tiny tiny = (n0 : double)) by (apply B2SF_inj; vm_compute; reflexivity).
  assert (V : forall a, expT (nsub (f a 0 0) tiny) = n1) by (intros a; unfold f; destruct (a =? 0); [rewrite S1; exact X1|rewrite S0; exact X0]).
  assert (T : nsum (vol (D3 2 1 1)) (elem_no (D3 2 1 1) (fun a b c => expT (nsub (f a b c) tiny))) = nadd (nadd n0 n1) n1).
  { change (nsum (vol (D3 2 1 1)) (elem_no (D3 2 1 1) (fun a b c => expT (nsub (f a b c) tiny)))) with (nadd (nadd n0 (expT (nsub (f 0 0 0) tiny))) (expT (nsub (f 1 0 0) tiny))).
    rewrite !V. reflexivity. }
  exists o. split; [exact Eo|].
  set (P := fun a b c => ndiv (expT (nsub (f a b c) tiny)) (nadd (nadd n0 n1) n1)).
  apply (is_mat_ext _ _ _ P) in Ho; [|intros; unfold P; f_equal; exact T].
  assert (PV : forall a b c, inb (D3 2 1 1) a b c -> P a b c = ndiv n1 (nadd (nadd n0 n1) n1)).
  { intros a b c (A & B & C). cbn [dx dy dz] in *. replace b with 0 by lia. replace c with 0 by lia. unfold P. rewrite V. reflexivity. }
  destruct (mmax_double o _ P Ho F PO) as (a & b & c & I & _ & EI & _ & Fi).
  { intros a b c I. rewrite PV by exact I. vm_compute. reflexivity. }
  rewrite EI. f_equal. destruct (Z.eq_dec (lin (D3 2 1 1) a b c) 0) as [E0|N]; [exact E0|exfalso].
  assert (I0 : inb (D3 2 1 1) 0 0 0) by (vm_compute; intuition congruence).
  specialize (Fi 0 0 0 I0). rewrite !PV in Fi by assumption. apply (Rlt_irrefl _ (Fi ltac:(pose proof (lin_range _ _ _ _ I); change (lin (D3 2 1 1) 0 0 0) with 0; lia))).
Qed.

(** ** What the environment of the program provides: correct square roots (IEEE-754), conversions to float, random
    numbers between 0 and an odd RAND_MAX below 2^31, and functions exp, tanh and log2 with the properties above *)
Definition env_ok (E : env double) : Prop :=
  exp_ok (e_exp E) /\ tanh_ok (e_tanh E) /\ log2_ok (e_log2 E) /\ unit_const (e_c01f E) /\ unit_const (e_c01 E) /\
  (is_finite (e_eps E) = true /\ (bpow radix2 (-17) <= B2R (e_eps E) <= 1)%R) /\ e_sqrt E = d_sqrt /\ e_rnd E = d_float /\
  (forall k, 0 <= e_rand E k <= e_rmax E) /\ Z.odd (e_rmax E) = true /\ 1 <= e_rmax E < 2 ^ 31.
(** The constants 0.1f, 0.1 and 1e-5f *)
Definition c_01f : double := @B754_finite prec emax false 7205759511166976 (-56) eq_refl.
Definition c_01 : double := @B754_finite prec emax false 7205759403792794 (-56) eq_refl.
Definition c_eps : double := @B754_finite prec emax false 5902957954465792 (-69) eq_refl.
Definition d_env (rand : Z -> Z) : env double := Env double rand (2 ^ 31 - 1) d_sqrt r_exp r_tanh r_log2 c_01f c_01 c_eps d_float false.
Lemma lit_val : forall m e H, B2R (@B754_finite prec emax false m e H) = (IZR (Zpos m) * bpow radix2 e)%R.
Proof. reflexivity. Qed.
Lemma d_env_ok : forall rand, (forall k, 0 <= rand k <= 2 ^ 31 - 1) -> env_ok (d_env rand).
Proof.
  intros rand HR. unfold env_ok, d_env. cbn [e_exp e_tanh e_log2 e_c01f e_c01 e_eps e_sqrt e_rnd e_rand e_rmax].
  assert (BK : forall a b c k, 0 <= a -> 0 <= k -> a * 2 ^ k <= b -> (bpow radix2 (c + k) * IZR a <= IZR b * bpow radix2 c)%R).
  { intros a b c k A K L. rewrite bpow_plus, Rmult_assoc, Rmult_comm. apply Rmult_le_compat_r; [left; apply bpow_gt_0|].
    rewrite <- IZR_Zpower by exact K. change (radix_val radix2) with 2. rewrite <- mult_IZR. apply IZR_le. lia. }
  assert (UP : forall b c k, 0 <= k -> b <= 2 ^ k -> (IZR b * bpow radix2 c <= bpow radix2 (c + k))%R).
  { intros b c k K L. rewrite bpow_plus, Rmult_comm. apply Rmult_le_compat_l; [left; apply bpow_gt_0|]. rewrite <- IZR_Zpower by exact K. apply IZR_le. exact L. }
  split; [exact r_exp_ok|]. split; [exact r_tanh_ok|]. split; [exact r_log2_ok|].
  assert (U : forall m e H, Zpos m <= 2 ^ (- e) -> e <= 0 -> unit_const (@B754_finite prec emax false m e H)).
  { intros m e H L N. split; [reflexivity|]. rewrite lit_val. split; [apply Rmult_le_pos; [apply IZR_le; lia|left; apply bpow_gt_0]|].
    change 1%R with (bpow radix2 0). replace 0 with (e + (- e)) by lia. apply UP; lia. }
  split; [apply U; lia|]. split; [apply U; lia|]. split.
  { split; [reflexivity|]. unfold c_eps. rewrite lit_val. split.
    - pose proof (BK 1 5902957954465792 (-69) 52) as Q. rewrite Rmult_1_r in Q. apply Q; lia.
    - apply Rle_trans with (bpow radix2 (-69 + 53)); [apply UP; lia|]. change 1%R with (bpow radix2 0). apply bpow_le. lia. }
  split; [reflexivity|]. split; [reflexivity|]. split; [exact HR|]. split; [reflexivity|lia].
Qed.

(** The loss of an image after the forward pass *)
Theorem pass_loss : forall E, env_ok E -> forall w body sm ss d n i e k U (cast : U -> double) (input : mat U) J,
  net_fit body ss d -> sm_count sm = n -> List.Forall (fun l => index_slot l i) body -> h_net_ok ss d -> labels_ok (h_net_out ss d) n ->
  is_mat input d J -> (forall a b c, inb d a b c -> within 1 e (cast (J a b c))) ->
  net_small w body ss d -> 0 <= w -> 0 <= e -> h_net_lim 127 w ss d e -> 0 <= k < n ->
  exists ls r r', forward_pass E cast n input i (body ++ [LSoft sm]) = ORet ls r /\ assign_loss E r k = Ok r' /\ r_true r' = k /\
    is_finite (r_loss r') = true /\ (0 <= B2R (r_loss r') <= 17)%R.
Proof.
  intros E (EX & TH & LG & CF & CD & EP & SQ & RN & HR & OD & MX) w body sm ss d n i e k U cast input J HN HC HS OK LO HJ BJ HW Hw He HL Hk.
  destruct (forward_finite E EX TH CF SQ HR OD MX RN w body sm ss d n i e U cast input J HN HC HS OK LO HJ BJ HW Hw He HL) as
    (body' & x0 & rs & p & r & P & EF & RI & _ & _ & HP & _). destruct HP as (HP & UP & _).
  destruct (loss_finite E RN LG EP ss d n r x0 rs p k P OK LO RI HP) as (r' & EL & _ & _ & RT & _ & L1 & L2); [exact UP|exact Hk|].
  exists (body' ++ [LSoft sm]), r, r'. auto 8.
Qed.

(** ** The network of main.cpp *)
Section Main.
Variable E : env double.
Hypothesis EX : exp_ok (e_exp E).
Hypothesis TH : tanh_ok (e_tanh E).
Hypothesis CF : unit_const (e_c01f E).
Hypothesis SQ : e_sqrt E = d_sqrt.
Hypothesis HR : forall k, 0 <= e_rand E k <= e_rmax E.
Hypothesis OD : Z.odd (e_rmax E) = true.
Hypothesis MX : 1 <= e_rmax E < 2 ^ 31.
Hypothesis RN : e_rnd E = d_float.

Lemma main_small : forall u, exists m body, main_model E u = Ok m /\ m_labels m = main_labels /\
  map snd (m_layers m) = body ++ [LSoft (sm_make 10)] /\ net_fit body main_shapes (D3 28 28 1) /\ List.Forall (fun l => index_slot l 0) body /\
  net_small 0 body main_shapes (D3 28 28 1).
Proof.
  intros u.
  destruct (k_make_ok (e_rand E) (e_rmax E) (e_sqrt E) 5 5 1 2 1) as (k1 & K1 & I1 & S1 & _); [lia..|vm_compute; intuition congruence|vm_compute; intuition congruence|].
  destruct (k_make_ok (e_rand E) (e_rmax E) (e_sqrt E) 3 3 2 4 1) as (k2 & K2 & I2 & S2 & _); [lia..|vm_compute; intuition congruence|vm_compute; intuition congruence|].
  destruct (c_make_fresh (T := double) 10) as (c & C1 & C2 & _); [lia|unfold two31; lia|].
  destruct (main_model_layers E u k1 k2 c K1 K2 C1) as (m & EM & ML & LL).
  destruct (main_body_ok u k1 k2 c) as (B1 & _ & B3); eauto.
  exists m, (main_body u k1 k2 c). split; [exact EM|]. split; [exact ML|]. split; [exact LL|]. split; [exact B1|]. split; [exact B3|].
  unfold main_body, main_shapes. cbn [net_small l_small]. split; [|split; [exact I|]; split; [exact I|]; split; [|split; [exact I|]; split; [exact I|]; split; [|exact I]]].
  - split; eexists; (split; [apply I1|]); intros x y z Hi; apply (init_within E SQ HR OD MX); try exact Hi; vm_compute; intuition congruence.
  - split; eexists; (split; [apply I2|]); intros x y z Hi; apply (init_within E SQ HR OD MX); try exact Hi; vm_compute; intuition congruence.
  - intros R. destruct C2 as (C2 & _). rewrite C2 in R. discriminate R.
Qed.

Theorem main_forward : forall u (cast : f32 -> double) (input : mat f32) J, is_mat input (D3 28 28 1) J -> (forall x y, 0 <= x < 28 -> 0 <= y < 28 -> within 1 8 (cast (J x y 0))) ->
  exists m ls r p P, main_model E u = Ok m /\ forward_pass E cast 10 input 0 (map snd (m_layers m)) = ORet ls r /\ (exists pre, r_inputs r = pre ++ [p]) /\ probs p (D3 10 1 1) P /\
    0 <= r_label r < 10 /\ r_conf r = P (r_label r) 0 0 /\ forall j, 0 <= j < 10 -> (B2R (P j 0%Z 0%Z) <= B2R (r_conf r))%R.
Proof.
  intros u cast input J HJ BJ. destruct (main_small u) as (m & body & EM & _ & LL & NF & IX & NS). destruct main_fits as (F1 & _ & F3).
  destruct (forward_finite E EX TH CF SQ HR OD MX RN 0 body (sm_make 10) main_shapes (D3 28 28 1) 10 0 8 _ cast input J NF eq_refl IX F1 F3 HJ) as
    (body' & x0 & rs & p & r & P & EF & RI & _ & _ & HP & _ & a & b & c & Hi & LB & RC & _ & Mx).
  - intros a b c (A & B & C). cbn [dx dy dz] in *. replace c with 0 by lia. apply BJ; lia.
  - exact NS.
  - lia.
  - lia.
  - vm_compute. intuition congruence.
  - change (h_net_out main_shapes (D3 28 28 1)) with (D3 10 1 1) in *.
    destruct Hi as (H1 & H2 & H3). cbn [dx dy dz] in *. assert (b = 0) by lia. assert (c = 0) by lia. subst b c.
    assert (LA : lin (D3 10 1 1) a 0 0 = a) by (unfold lin; cbn [dx dy dz]; lia). rewrite LA in LB.
    exists m, (body' ++ [LSoft (sm_make 10)]), r, p, P. rewrite LL. split; [exact EM|]. split; [exact EF|]. split.
    { exists (x0 :: rs). exact RI. }
    split; [exact HP|]. split; [lia|]. split; [rewrite LB; exact RC|]. intros j Hj. apply Mx. unfold inb. cbn [dx dy dz]. lia.
Qed.
End Main.
