(** printImage for bytes and ints; debugLayerWeights. *)
From Coq Require Import String ZArith List Bool Ascii Lia Reals Lra Psatz.
From Flocq Require Import Core.Core IEEE754.BinarySingleNaN Relative.
From Verif Require Import Base Dim Matrix View Num Expr Spec Iter MatFacts Batch BatchThms Kernel Connected Float32 Pooling Activation Softmax FloatFacts LayerFacts KernelThms ConnectedThms LayerTotal Chars Double DoubleFacts
  Bar BarFacts Decimal Stream StreamFacts Text TextFacts Model Net ModelThms TrainRest Shapes ShapeNet Mnist MnistFacts Main Validate ValidateFacts ValidateStep ValidateRun ValidateThms
  Report ReportFacts Print Sums ExprThms.
Import ListNotations.
Local Open Scope Z_scope.
Local Notation fexp64 := (SpecFloat.fexp prec emax).
Local Notation rnd64 := (round radix2 fexp64 ZnearestE).
Local Notation fexp32 := (SpecFloat.fexp 24 128).
Local Notation rnd32 := (round radix2 fexp32 ZnearestE).
#[local] Instance valid32 : Valid_exp fexp32 := fexp_correct 24 128 prec32.
#[local] Instance valid64 : Valid_exp fexp64 := fexp_correct prec emax prec_pos.

Lemma of_Z_rounded : forall z, Z.abs z <= 2 ^ 32 -> is_finite (f32_of_Z z) = true /\ B2R (f32_of_Z z) = rnd32 (IZR z).
Proof.
  intros z H. unfold f32_of_Z. pose proof (binary_normalize_correct 24 128 prec32 emax32 mode_NE z 0 false) as C. cbv zeta in C.
  assert (E : F2R (Float radix2 z 0) = IZR z) by (unfold F2R; cbn [Fnum Fexp bpow]; ring). rewrite E in C. cbn [round_mode] in C.
  rewrite small32 in C; [|apply le64; rewrite <- abs_IZR; apply IZR_le; lia]. split; apply C.
Qed.
Lemma power_format32 : forall k, 0 <= k <= 100 -> generic_format radix2 fexp32 (IZR (2 ^ k)).
Proof. intros k H. change (2 ^ k) with (radix2 ^ k). rewrite IZR_Zpower by lia. apply generic_format_bpow. unfold SpecFloat.fexp, SpecFloat.emin. lia. Qed.
Lemma power_format64 : forall k, 0 <= k <= 100 -> generic_format radix2 fexp64 (IZR (2 ^ k)).
Proof. intros k H. change (2 ^ k) with (radix2 ^ k). rewrite IZR_Zpower by lia. apply generic_format_bpow. unfold SpecFloat.fexp, SpecFloat.emin, prec, emax. lia. Qed.
Lemma le60 : forall x k, 0 <= k <= 60 -> (0 <= x <= IZR (2 ^ k))%R -> (Rabs x <= bpow radix2 64)%R.
Proof. intros x k K H. apply le64. rewrite Rabs_pos_eq by lra. apply Rle_trans with (1 := proj2 H). apply IZR_le. apply Z.pow_le_mono_r; lia. Qed.

Lemma Rabs_def2b : forall x b, (Rabs x <= b -> - b <= x <= b)%R.
Proof. intros x b H. split; [pose proof (Rle_abs (- x)); rewrite Rabs_Ropp in *|pose proof (Rle_abs x)]; lra. Qed.
Lemma err32 : forall x, (Rabs (rnd32 x - x) <= 0.0000001 * Rabs x + 0.000000001)%R.
Proof.
  intros x. destruct (error_N_FLT radix2 (-149) 24 eq_refl (fun z => negb (Z.even z)) x) as (e & h & E1 & E2 & _ & E3).
  change (round radix2 (FLT_exp (-149) 24) (Znearest (fun z => negb (Z.even z))) x) with (rnd32 x) in E3. rewrite E3.
  replace (x * (1 + e) + h - x)%R with (x * e + h)%R by ring. apply Rle_trans with (1 := Rabs_triang _ _). rewrite Rabs_mult.
  assert (B1 : (bpow radix2 (- (24) + 1) = / 8388608)%R) by reflexivity. rewrite B1 in E1.
  assert (B2 : (bpow radix2 (-149) <= bpow radix2 (-30))%R) by (apply bpow_le; lia). assert (B3 : (bpow radix2 (-30) = / 1073741824)%R) by reflexivity.
  apply Rplus_le_compat; [|lra]. rewrite Rmult_comm. apply Rmult_le_compat_r; [apply Rabs_pos|lra].
Qed.
Lemma err64 : forall x, (Rabs (rnd64 x - x) <= 0.000000001 * Rabs x + 0.000000001)%R.
Proof.
  intros x. destruct (error_N_FLT radix2 (-1074) 53 eq_refl (fun z => negb (Z.even z)) x) as (e & h & E1 & E2 & _ & E3).
  change (round radix2 (FLT_exp (-1074) 53) (Znearest (fun z => negb (Z.even z))) x) with (rnd64 x) in E3. rewrite E3.
  replace (x * (1 + e) + h - x)%R with (x * e + h)%R by ring. apply Rle_trans with (1 := Rabs_triang _ _). rewrite Rabs_mult.
  assert (B1 : (bpow radix2 (- (53) + 1) = / 4503599627370496)%R) by reflexivity. rewrite B1 in E1.
  assert (B2 : (bpow radix2 (-1074) <= bpow radix2 (-30))%R) by (apply bpow_le; lia). assert (B3 : (bpow radix2 (-30) = / 1073741824)%R) by reflexivity.
  apply Rplus_le_compat; [|lra]. rewrite Rmult_comm. apply Rmult_le_compat_r; [apply Rabs_pos|lra].
Qed.

(** The brightness of [v] among ints whose smallest one is [m], before it is cut off *)
Definition share_int (m v : Z) : R := rnd32 (1 - rnd32 (rnd32 (IZR (255 - v)) / rnd32 (IZR (255 - m)))).
Definition gray_int (m v : Z) : R := rnd64 (rnd64 (rnd32 (255 * share_int m v) / 255) * 255).
Definition code_int (m v : Z) : Z := Ztrunc (Rmin (gray_int m v) 255).
Section GrayInt.
Context (m : Z) (HM : 255 - 2 ^ 31 < m < 255).
Lemma range_int : (1 <= rnd32 (IZR (255 - m)) <= IZR (2 ^ 31))%R.
Proof. apply rnd32_range; [apply (int_format 1); lia|apply power_format32; lia|]. split; apply IZR_le; lia. Qed.
Lemma share_int_range : forall v, m <= v < 2 ^ 31 ->
  (Rabs (rnd32 (IZR (255 - v)) / rnd32 (IZR (255 - m))) <= bpow radix2 64)%R /\
  (Rabs (1 - rnd32 (rnd32 (IZR (255 - v)) / rnd32 (IZR (255 - m)))) <= bpow radix2 64)%R /\ (0 <= share_int m v <= IZR (2 ^ 32))%R.
Proof.
  intros v H. pose proof range_int as R. set (r := rnd32 (IZR (255 - m))) in *.
  assert (D : (- IZR (2 ^ 31) <= rnd32 (IZR (255 - v)) <= r)%R).
  { split; [apply round_ge_generic; [typeclasses eauto..|apply generic_format_opp; apply power_format32; lia|rewrite <- opp_IZR; apply IZR_le; lia]|].
    apply round_le; [typeclasses eauto..|]. apply IZR_le. lia. }
  set (dd := rnd32 (IZR (255 - v))) in *.
  assert (Q : (- IZR (2 ^ 31) <= dd / r <= 1)%R).
  { assert (I : (0 < / r)%R) by (apply Rinv_0_lt_compat; lra). assert (I2 : (r * / r = 1)%R) by (apply Rinv_r; lra). unfold Rdiv. split; [|nra].
    assert (I3 : (/ r <= 1)%R) by nra. assert (P : (0 <= IZR (2 ^ 31))%R) by (apply IZR_le; lia). nra. }
  assert (Q2 : (- IZR (2 ^ 31) <= rnd32 (dd / r) <= 1)%R).
  { apply rnd32_range; [apply generic_format_opp; apply power_format32; lia|apply (int_format 1); lia|exact Q]. }
  assert (B : (IZR (2 ^ 31) + 1 <= IZR (2 ^ 32))%R) by (rewrite <- plus_IZR; apply IZR_le; lia).
  assert (S : (0 <= 1 - rnd32 (dd / r) <= IZR (2 ^ 32))%R) by lra.
  split; [|split].
  - apply le64. apply Rabs_le. assert (B2 : (IZR (2 ^ 31) + 1 <= IZR (2 ^ 60))%R) by (rewrite <- plus_IZR; apply IZR_le; lia). assert (P : (0 <= IZR (2 ^ 31))%R) by (apply IZR_le; lia). lra.
  - apply (le60 _ 32); [lia|exact S].
  - unfold share_int. fold r dd. apply rnd32_range; [apply generic_format_0|apply power_format32; lia|exact S].
Qed.
Lemma gray_int_range : forall v, m <= v < 2 ^ 31 ->
  (0 <= 255 * share_int m v <= IZR (2 ^ 40))%R /\ (0 <= rnd32 (255 * share_int m v) / 255 <= IZR (2 ^ 40))%R /\
  (0 <= rnd64 (rnd32 (255 * share_int m v) / 255) * 255 <= IZR (2 ^ 48))%R /\ (0 <= gray_int m v)%R.
Proof.
  intros v H. destruct (share_int_range v H) as (_ & _ & S). unfold gray_int. set (s := share_int m v) in *.
  assert (B : (IZR (2 ^ 40) = 256 * IZR (2 ^ 32))%R) by (rewrite <- mult_IZR; reflexivity). assert (P : (0 <= IZR (2 ^ 32))%R) by (apply IZR_le; lia).
  assert (A1 : (0 <= 255 * s <= IZR (2 ^ 40))%R) by lra.
  assert (A2 : (0 <= rnd32 (255 * s) <= IZR (2 ^ 40))%R) by (apply rnd32_range; [apply generic_format_0|apply power_format32; lia|exact A1]).
  assert (A3 : (0 <= rnd32 (255 * s) / 255 <= IZR (2 ^ 40))%R) by lra.
  assert (A4 : (0 <= rnd64 (rnd32 (255 * s) / 255) <= IZR (2 ^ 40))%R) by (apply rnd64_range; [apply generic_format_0|apply power_format64; lia|exact A3]).
  assert (B2 : (IZR (2 ^ 48) = 256 * IZR (2 ^ 40))%R) by (rewrite <- mult_IZR; reflexivity).
  split; [exact A1|]. split; [exact A3|]. split; [lra|]. apply round_ge_generic; [typeclasses eauto..|apply generic_format_0|lra].
Qed.
Theorem gray_code_int_ok : forall v, m <= v < 2 ^ 31 -> gray_code_int m v = Ok (code_int m v) /\ 0 <= code_int m v <= 255.
Proof.
  intros v H. destruct (share_int_range v H) as (S1 & S2 & S3). destruct (gray_int_range v H) as (A1 & A2 & A3 & A4). pose proof range_int as RG.
  assert (CB : 0 <= code_int m v <= 255).
  { unfold code_int. apply trunc_range; [|lia]. split; [apply Rmin_glb; lra|apply Rmin_r]. }
  split; [|exact CB]. unfold gray_code_int.
  assert (I : forall z, m <= z < 2 ^ 31 -> i32 (255 - z) = Ok (255 - z)).
  { intros z Hz. unfold i32. replace ((- two31 <=? 255 - z) && (255 - z <? two31)) with true by (symmetry; apply andb_true_intro; unfold two31; lia). reflexivity. }
  rewrite !I by lia. cbn [rbind]. cbv zeta.
  destruct (of_Z_rounded (255 - v)) as [D1 D2]; [lia|]. destruct (of_Z_rounded (255 - m)) as [R1 R2]; [lia|].
  destruct (div32 (f32_of_Z (255 - v)) (f32_of_Z (255 - m)) D1) as [Q1 Q2]; [rewrite R2; lra|rewrite D2, R2; exact S1|]. rewrite D2, R2 in Q2.
  destruct (of_Z_exact 1) as [O1 O2]; [lia|]. destruct (of_Z_exact 255) as [W1 W2]; [lia|].
  destruct (sub32 (f32_of_Z 1) _ O2 Q1) as [T1 T2]; [rewrite O1, Q2; exact S2|]. rewrite O1, Q2 in T2. change (rnd32 (1 - _)) with (share_int m v) in T2.
  destruct (mul32 (f32_of_Z 255) _ W2 T1) as [M1 M2]; [rewrite W1, T2; apply (le60 _ 40); [lia|exact A1]|]. rewrite W1, T2 in M2.
  set (mapped := f32_mul _ _) in *. destruct (d_of_f32_ok mapped M1) as [P1 P2]. rewrite M2 in P1. destruct (d_of_Z_ok 255) as [K1 K2]; [lia|].
  destruct (div64 (d_of_f32 mapped) (d_of_Z 255) (2 ^ 40)) as [G1 G2]; [exact P2|rewrite K1; lra|rewrite P1, K1; exact A2|lia|]. rewrite P1, K1 in G2.
  destruct (mul64 (ndiv (d_of_f32 mapped) (d_of_Z 255)) (d_of_Z 255) (2 ^ 48) G1 K2) as [H1 H2]; [rewrite G2, K1; exact A3|lia|]. rewrite G2, K1 in H2.
  change (B2R (nmul (ndiv (d_of_f32 mapped) (d_of_Z 255)) (d_of_Z 255)) = gray_int m v) in H2.
  unfold min255. rewrite Bltb_correct by assumption. rewrite H2, K1. unfold to_uchar.
  assert (E : truncated (if Rlt_bool 255 (gray_int m v) then d_of_Z 255 else nmul (ndiv (d_of_f32 mapped) (d_of_Z 255)) (d_of_Z 255)) = Some (code_int m v)).
  { unfold code_int. destruct (Rlt_bool_spec 255 (gray_int m v)) as [C|C].
    - rewrite truncated_ok by exact K2. rewrite K1, Rmin_right by lra. reflexivity.
    - rewrite truncated_ok by exact H1. rewrite H2, Rmin_left by lra. reflexivity. }
  match goal with |- match ?t with Some _ => _ | None => _ end = _ => assert (E2 : t = Some (code_int m v)) by exact E; rewrite E2 end.
  destruct (0 <=? code_int m v) eqn:L1; [|lia]. destruct (code_int m v <? 256) eqn:L2; [|lia]. reflexivity.
Qed.
Lemma code_int_mono : forall v w, v <= w -> code_int m v <= code_int m w.
Proof.
  intros v w L. pose proof range_int as RG. unfold code_int. apply Ztrunc_le. apply Rle_min_compat_r. unfold gray_int. apply round_le; [typeclasses eauto..|]. apply Rmult_le_compat_r; [lra|].
  apply round_le; [typeclasses eauto..|]. apply Rmult_le_compat_r; [lra|]. apply round_le; [typeclasses eauto..|]. apply Rmult_le_compat_l; [lra|].
  unfold share_int. apply round_le; [typeclasses eauto..|]. apply Rplus_le_compat_l. apply Ropp_le_contravar. apply round_le; [typeclasses eauto..|].
  apply Rmult_le_compat_r; [apply Rlt_le, Rinv_0_lt_compat; lra|]. apply round_le; [typeclasses eauto..|]. apply IZR_le. lia.
Qed.
Lemma code_int_min : code_int m m = 0.
Proof.
  pose proof range_int as RG. unfold code_int, gray_int, share_int. unfold Rdiv at 2. rewrite Rinv_r by lra. rewrite (round_generic radix2 fexp32 ZnearestE 1) by (apply (int_format 1); lia).
  replace (1 - 1)%R with 0%R by ring. rewrite !round_0, Rmult_0_r, round_0 by typeclasses eauto. unfold Rdiv. rewrite Rmult_0_l, round_0, Rmult_0_l, round_0 by typeclasses eauto.
  rewrite Rmin_left by lra. apply (Ztrunc_IZR 0).
Qed.
Lemma code_int_white : forall v, 255 <= v < 2 ^ 31 -> code_int m v = 255.
Proof.
  intros v H. pose proof range_int as RG. unfold code_int, gray_int, share_int. set (r := rnd32 (IZR (255 - m))) in *. set (dd := rnd32 (IZR (255 - v))).
  assert (D : (dd <= 0)%R) by (apply round_le_generic; [typeclasses eauto..|apply generic_format_0|apply IZR_le; lia]).
  assert (Q : (dd / r <= 0)%R) by (assert (I : (0 < / r)%R) by (apply Rinv_0_lt_compat; lra); unfold Rdiv; nra).
  assert (Q2 : (rnd32 (dd / r) <= 0)%R) by (apply round_le_generic; [typeclasses eauto..|apply generic_format_0|exact Q]).
  assert (S : (1 <= rnd32 (1 - rnd32 (dd / r)))%R) by (apply round_ge_generic; [typeclasses eauto..|apply (int_format 1); lia|lra]).
  set (s := rnd32 (1 - rnd32 (dd / r))) in *. clearbody s.
  assert (A1 : (255 <= rnd32 (255 * s))%R) by (apply round_ge_generic; [typeclasses eauto..|apply (int_format 255); lia|lra]).
  assert (A2 : (1 <= rnd64 (rnd32 (255 * s) / 255))%R) by (apply round_ge_generic; [typeclasses eauto..|apply (int_format64 1); lia|lra]).
  assert (A3 : (255 <= rnd64 (rnd64 (rnd32 (255 * s) / 255) * 255))%R) by (apply round_ge_generic; [typeclasses eauto..|apply (int_format64 255); lia|lra]).
  rewrite Rmin_right by lra. apply (Ztrunc_IZR 255).
Qed.
(** The code is the share of the way from the smallest number to 255, cut off *)
Lemma code_int_near : forall v, m <= v <= 255 -> let g := (255 * IZR (v - m) / IZR (255 - m))%R in (g - 1.0002 < IZR (code_int m v) <= g + 0.0002)%R.
Proof.
  intros v H. assert (W : m <= v < 2 ^ 31) by lia. pose proof range_int as RG. destruct (share_int_range v W) as (_ & _ & S3). destruct (gray_int_range v W) as (_ & _ & _ & G0). cbv zeta.
  set (n := IZR (255 - m)). set (a := IZR (255 - v)). assert (N1 : (1 <= n)%R) by (apply IZR_le; lia). assert (A1 : (0 <= a <= n)%R) by (split; apply IZR_le; lia).
  assert (GE : (255 * IZR (v - m) / n = 255 * (1 - a / n))%R).
  { replace (IZR (v - m)) with (n - a)%R; [field; lra|]. unfold n, a. rewrite <- minus_IZR. f_equal. lia. }
  rewrite GE. clear GE. pose proof (err32 a) as E1. pose proof (err32 n) as E2. rewrite (Rabs_pos_eq a) in E1 by lra. rewrite (Rabs_pos_eq n) in E2 by lra.
  unfold code_int, gray_int in *. unfold share_int in *. fold n a in RG, S3, G0 |- *. set (dd := rnd32 a) in *. set (r := rnd32 n) in *. clearbody dd r.
  assert (T : (0 <= a / n <= 1)%R).
  { assert (I : (0 < / n)%R) by (apply Rinv_0_lt_compat; lra). assert (I2 : (n * / n = 1)%R) by (apply Rinv_r; lra). unfold Rdiv. split; nra. }
  assert (Q : (Rabs (dd / r - a / n) <= 0.00000025)%R).
  { replace (dd / r - a / n)%R with (((dd - a) - a / n * (r - n)) / r)%R by (field; split; lra). unfold Rdiv at 1. rewrite Rabs_mult. rewrite (Rabs_pos_eq (/ r)) by (apply Rlt_le, Rinv_0_lt_compat; lra).
    assert (X : (Rabs ((dd - a) - a / n * (r - n)) <= 0.00000025 * r)%R).
    { apply Rabs_def2b in E1. apply Rabs_def2b in E2. set (t := (a / n)%R) in *. clearbody t. apply Rabs_le. split; nra. }
    apply Rle_trans with (0.00000025 * r * / r)%R; [apply Rmult_le_compat_r; [apply Rlt_le, Rinv_0_lt_compat; lra|exact X]|]. rewrite Rmult_assoc, Rinv_r by lra. lra. }
  set (t := (a / n)%R) in *. clearbody t. set (q := (dd / r)%R) in *. clearbody q. clear E1 E2.
  assert (QB : (Rabs q <= 1.1)%R) by (apply Rabs_def2b in Q; apply Rabs_le; lra). pose proof (err32 q) as E1. set (q1 := rnd32 q) in *. clearbody q1.
  pose proof (err32 (1 - q1)) as E2. set (s := rnd32 (1 - q1)) in *. clearbody s.
  assert (SB : (Rabs (1 - q1) <= 1.1)%R) by (apply Rabs_def2b in Q; apply Rabs_def2b in E1; apply Rabs_le; lra).
  assert (SB2 : (Rabs (255 * s) <= 300)%R) by (apply Rabs_def2b in Q; apply Rabs_def2b in E1; apply Rabs_def2b in E2; apply Rabs_le; lra).
  pose proof (err32 (255 * s)) as E3. set (b := rnd32 (255 * s)) in *. clearbody b.
  assert (BB : (Rabs (b / 255) <= 2)%R) by (apply Rabs_def2b in E3; pose proof (Rabs_def2b _ _ SB2); apply Rabs_le; lra).
  pose proof (err64 (b / 255)) as E4. set (h := rnd64 (b / 255)) in *. clearbody h.
  assert (HB : (Rabs (h * 255) <= 600)%R) by (apply Rabs_def2b in E4; pose proof (Rabs_def2b _ _ BB); apply Rabs_le; lra).
  pose proof (err64 (h * 255)) as E5. set (g := rnd64 (h * 255)) in *. clearbody g.
  assert (GG : (255 * (1 - t) - 0.0002 <= g <= 255 * (1 - t) + 0.0002)%R).
  { apply Rabs_def2b in Q. apply Rabs_def2b in E1. apply Rabs_def2b in E2. apply Rabs_def2b in E3. apply Rabs_def2b in E4. apply Rabs_def2b in E5. lra. }
  assert (M : (255 * (1 - t) - 0.0002 <= Rmin g 255 <= 255 * (1 - t) + 0.0002)%R).
  { split; [apply Rmin_glb; lra|]. apply Rle_trans with g; [apply Rmin_l|lra]. }
  assert (M0 : (0 <= Rmin g 255)%R) by (apply Rmin_glb; lra).
  rewrite Ztrunc_floor by exact M0. pose proof (Zfloor_lb (Rmin g 255)). pose proof (Zfloor_ub (Rmin g 255)). lra.
Qed.
End GrayInt.

(** Colours: every byte is its own code *)
Definition bytes : list Z := map Z.of_nat (seq 0 256).
Lemma colour_table : forallb (fun v => match color_code_int v with Ok c => c =? v | _ => false end) bytes = true.
Proof. vm_compute. reflexivity. Qed.
Lemma color_code_byte : forall v, 0 <= v <= 255 -> color_code_int v = Ok v.
Proof.
  intros v H. pose proof (proj1 (forallb_forall _ _) colour_table v) as T. cbv beta in T.
  assert (I : In v bytes). { unfold bytes. apply in_map_iff. exists (Z.to_nat v). split; [lia|]. apply in_seq. lia. }
  specialize (T I). destruct (color_code_int v) as [c| |]; try discriminate T. apply Z.eqb_eq in T. congruence.
Qed.
(** Larger ints are cut off *)
Lemma color_code_nat : forall v, 0 <= v < 2 ^ 31 -> color_code_int v = Ok (Z.min 255 v).
Proof.
  intros v H. destruct (Z_le_gt_dec v 255) as [L|L]; [rewrite Z.min_r by lia; apply color_code_byte; lia|]. rewrite Z.min_l by lia. unfold color_code_int.
  destruct (d_of_Z_ok v) as [V1 V2]; [lia|]. destruct (d_of_Z_ok 255) as [K1 K2]; [lia|].
  assert (B : (1 <= IZR v / 255 <= IZR (2 ^ 31))%R).
  { assert (H1 : (255 <= IZR v)%R) by (apply IZR_le; lia). assert (H2 : (IZR v <= IZR (2 ^ 31))%R) by (apply IZR_le; lia). lra. }
  destruct (div64 (d_of_Z v) (d_of_Z 255) (2 ^ 31)) as [G1 G2]; [exact V2|rewrite K1; lra|rewrite V1, K1; lra|lia|]. rewrite V1, K1 in G2.
  assert (Q : (1 <= rnd64 (IZR v / 255) <= IZR (2 ^ 31))%R).
  { apply rnd64_range; [apply (int_format64 1); lia|apply int_format64; lia|exact B]. }
  destruct (mul64 (ndiv (d_of_Z v) (d_of_Z 255)) (d_of_Z 255) (2 ^ 40) G1 K2) as [H1 H2].
  { rewrite G2, K1. split; [lra|]. apply Rle_trans with (IZR (2 ^ 31) * 255)%R; [apply Rmult_le_compat_r; lra|]. change 255%R with (IZR 255). rewrite <- mult_IZR. apply IZR_le. lia. }
  { lia. }
  rewrite G2, K1 in H2.
  assert (R : (255 <= B2R (nmul (ndiv (d_of_Z v) (d_of_Z 255)) (d_of_Z 255)))%R).
  { rewrite H2. rewrite <- (round_generic radix2 fexp64 ZnearestE 255) at 1 by (apply (int_format64 255); lia). apply round_le; [typeclasses eauto..|]. lra. }
  unfold min255. rewrite Bltb_correct by assumption. rewrite K1. unfold to_uchar. destruct (Rlt_bool_spec 255 (B2R (nmul (ndiv (d_of_Z v) (d_of_Z 255)) (d_of_Z 255)))) as [C|C].
  - rewrite truncated_ok by exact K2. rewrite K1, Ztrunc_IZR. reflexivity.
  - rewrite truncated_ok by exact H1. replace (B2R (nmul (ndiv (d_of_Z v) (d_of_Z 255)) (d_of_Z 255))) with 255%R by lra. rewrite (Ztrunc_IZR 255). reflexivity.
Qed.

Section Image.
Context (m : mat Z) (d : dim3) (f : Z -> Z -> Z -> Z) (IM : is_mat m d f) (HF : fits d) (HP : pos d).
Lemma mmin_Z : exists x y z, inb d x y z /\ mmin (l_val m) tt = Ok (f x y z) /\ forall x' y' z', inb d x' y' z' -> f x y z <= f x' y' z'.
Proof.
  destruct (extremum_key (T := Z) lt_min (fun v => - IZR v)%R (l_val m) tt d f (is_mat_lz m d f tt IM HF) HF HP) as (x & y & z & I & Q & Mx & _).
  - intros. unfold lt_min. cbn [nltb NumZ]. destruct (Rlt_bool_spec (- IZR (f x' y' z')) (- IZR (f x y z))) as [L|L].
    + apply Z.ltb_lt. apply lt_IZR. lra.
    + apply Z.ltb_ge. apply le_IZR. lra.
  - exists x, y, z. split; [exact I|]. split; [unfold mmin; rewrite Q; reflexivity|]. intros x' y' z' I'. specialize (Mx x' y' z' I'). apply le_IZR. lra.
Qed.
Lemma first_layer_Z : forall x y, 0 <= x < dx d -> 0 <= y < dy d -> inb d x y 0.
Proof. intros x y X Y. destruct HP as (_ & _ & H). repeat split; lia. Qed.

Theorem print_gray_int_ok : forall o, dz d <> 3 -> (forall x y z, inb d x y z -> 255 - 2 ^ 31 < f x y z < 2 ^ 31) ->
  (exists x y z, inb d x y z /\ f x y z < 255) ->
  exists c, print_image_int m o = ORet (o ++ picture d c) tt /\
    (forall x y, 0 <= x < dx d -> 0 <= y < dy d -> 0 <= c x y <= 255) /\
    (forall x y x' y', 0 <= x < dx d -> 0 <= y < dy d -> 0 <= x' < dx d -> 0 <= y' < dy d -> f x y 0 <= f x' y' 0 -> c x y <= c x' y') /\
    (forall x y, 0 <= x < dx d -> 0 <= y < dy d -> (forall x' y' z', inb d x' y' z' -> f x y 0 <= f x' y' z') -> c x y = 0) /\
    (forall x y, 0 <= x < dx d -> 0 <= y < dy d -> 255 <= f x y 0 -> c x y = 255) /\
    (forall x y x' y' z', 0 <= x < dx d -> 0 <= y < dy d -> f x y 0 <= 255 -> inb d x' y' z' -> (forall x1 y1 z1, inb d x1 y1 z1 -> f x' y' z' <= f x1 y1 z1) ->
      let g := (255 * IZR (f x y 0 - f x' y' z') / IZR (255 - f x' y' z'))%R in (g - 1.0002 < IZR (c x y) <= g + 0.0002)%R).
Proof.
  intros o D3' BD (x0 & y0 & z0 & I0 & LT). destruct mmin_Z as (a & b & e & I & Q & Mn).
  assert (HM : 255 - 2 ^ 31 < f a b e < 255) by (pose proof (BD _ _ _ I); pose proof (Mn _ _ _ I0); lia).
  exists (fun x y => code_int (f a b e) (f x y 0)).
  assert (CK : forall x y, 0 <= x < dx d -> 0 <= y < dy d -> gray_code_int (f a b e) (f x y 0) = Ok (code_int (f a b e) (f x y 0)) /\ 0 <= code_int (f a b e) (f x y 0) <= 255).
  { intros x y X Y. pose proof (first_layer_Z x y X Y) as J. apply gray_code_int_ok; [exact HM|]. split; [apply Mn; exact J|apply BD; exact J]. }
  split.
  { unfold print_image_int. rewrite (is_mat_dim _ _ _ IM). destruct (dz d =? 3) eqn:DZ; [lia|]. unfold print_bw_int. rewrite (is_mat_dim _ _ _ IM).
    unfold bind at 1, lift at 1. rewrite Q. unfold bind at 1, lift at 1. unfold i32.
    replace ((- two31 <=? 255 - f a b e) && (255 - f a b e <? two31)) with true by (symmetry; apply andb_true_intro; unfold two31; lia).
    unfold picture. apply mfor_emit. intros x o' X. unfold bind at 1. rewrite (mfor_emit (dy d) _ (fun y => gray_cell (code_int (f a b e) (f x y 0)))).
    - unfold emit. rewrite app_assoc. reflexivity.
    - intros y o2 Y. pose proof (first_layer_Z x y X Y) as J. unfold bind, lift. rewrite (is_mat_read m d f x y 0 IM HF J). rewrite (proj1 (CK x y X Y)). reflexivity. }
  split; [intros x y X Y; apply CK; assumption|]. split; [|split; [|split]].
  - intros x y x' y' X Y X' Y' L. apply code_int_mono; [exact HM|exact L].
  - intros x y X Y L. assert (Q0 : f x y 0 = f a b e) by (pose proof (L _ _ _ I); pose proof (Mn _ _ _ (first_layer_Z x y X Y)); lia).
    rewrite Q0. apply code_int_min. exact HM.
  - intros x y X Y L. apply code_int_white; [exact HM|]. split; [exact L|]. apply (BD x y 0 (first_layer_Z x y X Y)).
  - intros x y x' y' z' X Y L J L'. assert (Q0 : f x' y' z' = f a b e) by (pose proof (L' _ _ _ I); pose proof (Mn _ _ _ J); lia).
    rewrite Q0. apply code_int_near; [exact HM|]. split; [apply Mn; apply first_layer_Z; assumption|exact L].
Qed.

Lemma gray_code_int_white : gray_code_int 255 255 = UB.
Proof. vm_compute. reflexivity. Qed.
Theorem print_gray_int_white : forall o, dz d <> 3 -> (forall x y z, inb d x y z -> f x y z = 255) -> print_image_int m o = OUB.
Proof.
  intros o D3' EQ. destruct mmin_Z as (a & b & e & I & Q & _). rewrite (EQ _ _ _ I) in Q.
  unfold print_image_int. rewrite (is_mat_dim _ _ _ IM). destruct (dz d =? 3) eqn:DZ; [lia|]. unfold print_bw_int. rewrite (is_mat_dim _ _ _ IM).
  unfold bind at 1, lift at 1. rewrite Q. unfold bind at 1, lift at 1. change (i32 (255 - 255)) with (Ok 0).
  destruct HP as (P1 & P2 & P3). unfold mfor. destruct (Z.to_nat (dx d)) as [|nx] eqn:NX; [lia|]. cbn [mfor_n]. unfold bind at 1.
  unfold bind at 1. destruct (Z.to_nat (dy d)) as [|ny] eqn:NY; [lia|]. cbn [mfor_n]. unfold bind at 1. unfold bind at 1. unfold lift at 1.
  assert (J : inb d 0 0 0) by (repeat split; lia). rewrite (is_mat_read m d f 0 0 0 IM HF J). rewrite (EQ _ _ _ J). unfold bind at 1, lift at 1.
  rewrite gray_code_int_white. reflexivity.
Qed.

Theorem print_color_int_ok : forall o, dz d = 3 -> (forall x y z, inb d x y z -> 0 <= f x y z < 2 ^ 31) ->
  print_image_int m o = ORet (o ++ colour_picture d (fun x y z => Z.min 255 (f x y z))) tt.
Proof.
  intros o D3' BD. unfold print_image_int. rewrite (is_mat_dim _ _ _ IM). destruct (dz d =? 3) eqn:DZ; [|lia]. unfold print_color_int. rewrite (is_mat_dim _ _ _ IM). apply mfor_emit.
  intros x o1 X. unfold bind at 1. rewrite (mfor_emit (dy d) _ (fun y => colour_cell (fun z => Z.min 255 (f x y z)))); [unfold emit; rewrite app_assoc; reflexivity|].
  intros y o2 Y. unfold bind at 1, emit at 1. unfold bind at 1.
  rewrite (mfor_emit 3 _ (fun z => lit ";" ++ dec (Z.min 255 (f x y z)))); [unfold emit, colour_cell; rewrite <- !app_assoc; reflexivity|].
  intros z o3 Zz. assert (J : inb d x y z) by (unfold inb; rewrite D3'; auto). unfold bind, lift.
  rewrite (is_mat_read m d f x y z IM HF J), (color_code_nat _ (BD _ _ _ J)). reflexivity.
Qed.
End Image.

(** ** debugLayerWeights *)
Section Debug.
Context {T : Type} {N : Num T} (sqrtT : T -> T) (show : T -> text).
(** The norm of a matrix: the root of the sum of the squares of its elements, in the order of the memory *)
Definition norm_is (m : mat T) (v : T) : Prop := exists d f, is_mat m d f /\ fits d /\ iterable d /\
  v = sqrtT (nsum (vol d) (elem_no d (fun x y z => nmul (f x y z) (f x y z)))).
Definition norm_lines (i : Z) (p : T * T) : text :=
  lit "Layer " ++ dec i ++ lit " has weights of norm " ++ show (fst p) ++ nl ++
  lit "Layer " ++ dec i ++ lit " has biases of norm " ++ show (snd p) ++ nl.
Fixpoint norm_text (i : Z) (ps : list (T * T)) : text :=
  match ps with [] => [] | p :: ps' => norm_lines i p ++ norm_text (i + 1) ps' end.
Theorem debug_weights_ok : forall ls ps i o,
  Forall2 (fun l p => norm_is (weights_of l) (fst p) /\ norm_is (biases_of l) (snd p)) ls ps ->
  debug_weights sqrtT show i ls o = ORet (o ++ norm_text i ps) tt.
Proof.
  intros ls ps i o H. revert i o. induction H as [|l [w b] ls ps [(d & f & IM & F & IT & EW) (d' & f' & IM' & F' & IT' & EB)] _ IH]; intros i o.
  - cbn. rewrite app_nil_r. reflexivity.
  - cbn [fst snd] in *. cbn [debug_weights]. unfold bind at 1, lift at 1. rewrite (l2norm_ok sqrtT _ _ _ F IT IM). unfold bind at 1, lift at 1. rewrite (l2norm_ok sqrtT _ _ _ F' IT' IM').
    rewrite <- EW, <- EB. unfold bind at 1, emit at 1. unfold bind at 1, emit at 1. rewrite IH. cbn [norm_text]. unfold norm_lines. cbn [fst snd]. rewrite <- !app_assoc. reflexivity.
Qed.
Lemma norm_empty : norm_is mat_empty (sqrtT n0).
Proof.
  exists (D3 0 0 0), (fun _ _ _ => n0). split; [|split; [|split]].
  - split; [reflexivity|]. split; [reflexivity|]. intros x y z ((A & B) & _). cbn [dx] in B. lia.
  - unfold fits. cbn. unfold two31. lia.
  - right. reflexivity.
  - reflexivity.
Qed.
(** For the layers of a network the norms exist *)
Theorem net_norms : forall labels ls ss d, usable_net labels ls ss d ->
  exists ps, Forall2 (fun l p => norm_is (weights_of l) (fst p) /\ norm_is (biases_of l) (snd p)) ls ps.
Proof.
  intros labels ls ss d [(body & sm & -> & _ & NF & R & _) OK _]. revert d NF OK. induction R as [|l body RL R IH] in ss |- *; intros d NF OK.
  - exists [(sqrtT n0, sqrtT n0)]. constructor; [|constructor]. split; apply norm_empty.
  - destruct ss as [|s ss]; [destruct NF|]. destruct NF as [LF NF]. destruct OK as [(PD & FD & H) OK]. destruct (IH ss _ NF OK) as [ps IHp].
    assert (L : exists p, norm_is (weights_of l) (fst p) /\ norm_is (biases_of l) (snd p)).
    { destruct l as [k|c|q|a|sf], s as [fx fy C n|n|t qx qy sx sy|a']; cbn [l_fit] in LF; try contradiction; cbn [weights_of biases_of].
      - destruct LF as [(W & B & K1 & K2 & K3 & K4 & FW & FB & IW & IB & _) _]. destruct H as (_ & _ & -> & N1 & _).
        eexists (_, _). cbn [fst snd]. split; [exists (D3 fx fy (dz d * n)), W|exists (D3 n 1 1), B]; (split; [assumption|]); (split; [assumption|]); (split; [|reflexivity]); left; cbn; nia.
      - destruct LF as [[(W & B & _ & IW & IB & N1 & K1 & FW & FB) _]|(NR & _)].
        + eexists (_, _). cbn [fst snd]. split; [exists (D3 n (vol d) 1), W|exists (D3 n 1 1), B]; (split; [assumption|]); (split; [assumption|]); (split; [|reflexivity]); left; cbn; lia.
        + exfalso. cbn in RL. congruence.
      - exists (sqrtT n0, sqrtT n0). split; apply norm_empty.
      - exists (sqrtT n0, sqrtT n0). split; apply norm_empty. }
    destruct L as [p0 L]. exists (p0 :: ps). constructor; assumption.
Qed.
End Debug.
