(** What the written numbers denote. *)
From Coq Require Import String ZArith List Bool Ascii Lia Reals Lra Psatz.
From Flocq Require Import Core.Core IEEE754.BinarySingleNaN.
From Verif Require Import Base Num Chars Double DoubleFacts Stream StreamFacts Float32 Bar BarFacts Decimal.
Import ListNotations.
Local Open Scope Z_scope.

(** ** The number that a text denotes *)
Definition digits_only (t : text) : Prop := t <> [] /\ forallb is_digit t = true.
Inductive plain : text -> R -> Prop :=
| plain_int : forall a, digits_only a -> plain a (IZR (num_of a))
| plain_frac : forall a b, digits_only a -> digits_only b ->
    plain (a ++ lit "." ++ b) (IZR (num_of a) + IZR (num_of b) / IZR (10 ^ Z.of_nat (length b))).
Inductive denotes : text -> R -> Prop :=
| de_plain : forall t v, plain t v -> denotes t v
| de_up : forall t v d, plain t v -> digits_only d -> denotes (t ++ lit "e+" ++ d) (v * IZR (10 ^ num_of d))
| de_down : forall t v d, plain t v -> digits_only d -> denotes (t ++ lit "e-" ++ d) (v / IZR (10 ^ num_of d))
| de_neg : forall t v, denotes t v -> denotes ("-"%char :: t) (- v).

Lemma pow10_pos : forall p, 0 <= p -> 0 < 10 ^ p.
Proof. intros. apply Z.pow_pos_nonneg; lia. Qed.

Lemma dec_fuel_low : forall f n, 1 <= n -> Z.log2 n <= Z.of_nat f -> 10 ^ (Z.of_nat (length (dec_fuel f n)) - 1) <= n.
Proof.
  induction f; intros n H L.
  - cbn. lia.
  - cbn [dec_fuel]. destruct (n <? 10) eqn:Q; [cbn; lia|].
    assert (L2 : Z.log2 (n / 10) <= Z.of_nat f).
    { assert (A : Z.log2 (n / 10) < Z.log2 n); [|lia].
      assert (B : 2 * (n / 10) <= n) by (pose proof (Z.div_mod n 10 ltac:(lia)); pose proof (Z.mod_pos_bound n 10 ltac:(lia)); lia).
      assert (1 <= n / 10) by (apply Z.div_le_lower_bound; lia).
      pose proof (Z.log2_le_mono _ _ B) as LM. rewrite Z.log2_double in LM by lia. lia. }
    assert (Q1 : 1 <= n / 10) by (apply Z.div_le_lower_bound; lia).
    specialize (IHf (n / 10) Q1 L2). rewrite app_length. cbn [length].
    set (l := Z.of_nat (length (dec_fuel f (n / 10)))) in *.
    assert (1 <= l). { subst l. pose proof (dec_fuel_nonempty f (n / 10)). destruct (dec_fuel f (n / 10)); [congruence|cbn [length]; lia]. }
    replace (Z.of_nat (length (dec_fuel f (n / 10)) + 1) - 1) with (1 + (l - 1)) by (subst l; lia). rewrite Z.pow_add_r by lia.
    pose proof (Z.div_mod n 10 ltac:(lia)); pose proof (Z.mod_pos_bound n 10 ltac:(lia)). change (10 ^ 1) with 10. lia.
Qed.
Lemma num_of_bound : forall t, forallb is_digit t = true -> 0 <= num_of t < 10 ^ Z.of_nat (length t).
Proof.
  intros t. induction t as [|c t IH] using rev_ind; intros D; [cbn; lia|].
  rewrite num_of_app, app_length. rewrite forallb_app in D. apply andb_prop in D. destruct D as [D1 D2]. specialize (IH D1).
  cbn [forallb] in D2. rewrite andb_true_r in D2. unfold is_digit in D2. cbn [length].
  replace (Z.of_nat (length t + 1)) with (1 + Z.of_nat (length t)) by lia. rewrite Z.pow_add_r by lia. change (10 ^ 1) with 10. lia.
Qed.
Lemma width_pos : forall n, 1 <= width n.
Proof. intros. unfold width. pose proof (dec_pos_nonempty n). destruct (dec_pos n); [congruence|cbn [length]; lia]. Qed.
Lemma width_ok : forall n, 1 <= n -> 10 ^ (width n - 1) <= n < 10 ^ width n.
Proof.
  intros n H. split.
  - unfold width, dec_pos. apply dec_fuel_low; [assumption|]. pose proof (Z.log2_nonneg n). lia.
  - pose proof (num_of_bound (dec_pos n) (dec_pos_digits n ltac:(lia))) as B. rewrite dec_pos_num in B by lia. apply B.
Qed.
(** A number below 10^w has at most w digits *)
Lemma width_le : forall n w, 1 <= w -> 0 <= n < 10 ^ w -> width n <= w.
Proof.
  intros n w W H. destruct (Z.eq_dec n 0) as [->|NZ]; [exact W|].
  destruct (width_ok n ltac:(lia)) as [L _]. destruct (Z_le_gt_dec (width n) w); [assumption|].
  assert (10 ^ w <= 10 ^ (width n - 1)) by (apply Z.pow_le_mono_r; lia). lia.
Qed.

(** ** Scaling *)
Lemma bpow_split : forall (r : radix) x, bpow r x = (IZR (r ^ Z.max x 0) / IZR (r ^ Z.max (- x) 0))%R.
Proof.
  intros r x. destruct (Z_le_gt_dec 0 x).
  - rewrite Z.max_l, (Z.max_r (- x)) by lia. rewrite <- IZR_Zpower by lia. change (r ^ 0) with 1. field.
  - rewrite Z.max_r, Z.max_l by lia. change (r ^ 0) with 1. rewrite <- (Z.opp_involutive x) at 1. rewrite bpow_opp, <- IZR_Zpower by lia.
    unfold Rdiv. rewrite Rmult_1_l. reflexivity.
Qed.
Lemma under_pos : forall e p, 0 < under e p.
Proof. intros. unfold under. apply Z.mul_pos_pos; apply Z.pow_pos_nonneg; lia. Qed.
Lemma over_pos : forall m e p, 0 < over m e p.
Proof. intros. unfold over. apply Z.mul_pos_pos; [apply Z.mul_pos_pos; [lia|]|]; apply Z.pow_pos_nonneg; lia. Qed.
Lemma ratio_ok : forall m e p, (IZR (over m e p) / IZR (under e p) = IZR (Z.pos m) * bpow radix2 e * bpow radix10 p)%R.
Proof.
  intros m e p. rewrite (bpow_split radix2 e), (bpow_split radix10 p). unfold over, under. rewrite !mult_IZR.
  change (radix_val radix2) with 2. change (radix_val radix10) with 10.
  assert (IZR (2 ^ Z.max (- e) 0) <> 0)%R by (apply not_0_IZR; pose proof (Z.pow_pos_nonneg 2 (Z.max (- e) 0)); lia).
  assert (IZR (10 ^ Z.max (- p) 0) <> 0)%R by (apply not_0_IZR; pose proof (Z.pow_pos_nonneg 10 (Z.max (- p) 0)); lia).
  field. auto.
Qed.
Lemma scaled_ok : forall m e p, scaled m e p = ZnearestE (IZR (Z.pos m) * bpow radix2 e * bpow radix10 p).
Proof.
  intros. unfold scaled. pose proof (over_pos m e p). rewrite rne_div_ok by (try apply under_pos; lia). rewrite ratio_ok. reflexivity.
Qed.
Lemma exponent10_ok : forall m e, let x := exponent10 m e in
  (bpow radix10 x <= IZR (Z.pos m) * bpow radix2 e < bpow radix10 (x + 1))%R.
Proof.
  intros m e. cbv zeta. pose proof (ratio_ok m e 0) as V. change (bpow radix10 0) with 1%R in V. rewrite Rmult_1_r in V. rewrite <- V.
  unfold exponent10. pose proof (over_pos m e 0) as A. pose proof (under_pos e 0) as B.
  set (a := over m e 0) in *. set (b := under e 0) in *. clearbody a b. clear V.
  assert (RA : (0 < IZR a)%R) by (apply IZR_lt; lia). assert (RB : (0 < IZR b)%R) by (apply IZR_lt; lia).
  destruct (b <=? a) eqn:Q.
  - assert (Q1 : 1 <= a / b) by (apply Z.div_le_lower_bound; lia). pose proof (width_ok _ Q1) as [W1 W2]. pose proof (width_pos (a / b)) as W0.
    rewrite !bpow10_pos by lia. replace (width (a / b) - 1 + 1) with (width (a / b)) by lia. set (w := width (a / b)) in *. clearbody w.
    pose proof (Z.div_mod a b ltac:(lia)) as DM. pose proof (Z.mod_pos_bound a b ltac:(lia)) as MB.
    assert (L1 : b * 10 ^ (w - 1) <= a) by nia. assert (L2 : a < b * 10 ^ w) by nia.
    apply IZR_le in L1. apply IZR_lt in L2. rewrite mult_IZR in L1, L2.
    split; [apply Rmult_le_reg_r with (IZR b)|apply Rmult_lt_reg_r with (IZR b)]; try assumption; unfold Rdiv; rewrite Rmult_assoc, Rinv_l by lra; lra.
  - assert (Q1 : 1 <= (b - 1) / a) by (apply Z.div_le_lower_bound; lia). pose proof (width_ok _ Q1) as [W1 W2]. pose proof (width_pos ((b - 1) / a)) as W0.
    set (w := width ((b - 1) / a)) in *. clearbody w. rewrite !bpow10_neg by lia. replace (- - w) with w by lia. replace (- (- w + 1)) with (w - 1) by lia.
    pose proof (Z.div_mod (b - 1) a ltac:(lia)) as DM. pose proof (Z.mod_pos_bound (b - 1) a ltac:(lia)) as MB.
    pose proof (pow10_pos w ltac:(lia)) as P1. pose proof (pow10_pos (w - 1) ltac:(lia)) as P2.
    assert (L1 : b <= a * 10 ^ w) by nia. assert (L2 : a * 10 ^ (w - 1) < b) by nia.
    apply IZR_le in L1. apply IZR_lt in L2. rewrite mult_IZR in L1, L2. apply IZR_lt in P1, P2.
    split.
    + apply Rmult_le_reg_r with (IZR b * IZR (10 ^ w))%R; [apply Rmult_lt_0_compat; lra|].
      replace (/ IZR (10 ^ w) * (IZR b * IZR (10 ^ w)))%R with (IZR b) by (field; lra).
      replace (IZR a / IZR b * (IZR b * IZR (10 ^ w)))%R with (IZR a * IZR (10 ^ w))%R by (field; lra). lra.
    + apply Rmult_lt_reg_r with (IZR b * IZR (10 ^ (w - 1)))%R; [apply Rmult_lt_0_compat; lra|].
      replace (/ IZR (10 ^ (w - 1)) * (IZR b * IZR (10 ^ (w - 1))))%R with (IZR b) by (field; lra).
      replace (IZR a / IZR b * (IZR b * IZR (10 ^ (w - 1))))%R with (IZR a * IZR (10 ^ (w - 1)))%R by (field; lra). lra.
Qed.

Lemma near_le : forall x y, (x <= y)%R -> ZnearestE x <= ZnearestE y.
Proof. intros. apply (@Zrnd_le ZnearestE (valid_rnd_N _)). assumption. Qed.
Lemma near_Z : forall k, ZnearestE (IZR k) = k.
Proof. intros. apply (@Zrnd_IZR ZnearestE (valid_rnd_N _)). Qed.
(** Rounding to a multiple of 10^-p *)
Lemma nearest10 : forall v p, (Rabs (v - IZR (ZnearestE (v * bpow radix10 p)) * bpow radix10 (- p)) <= / 2 * bpow radix10 (- p))%R.
Proof.
  intros v p. pose proof (Znearest_err (v * bpow radix10 p)) as E. set (k := ZnearestE _) in *. clearbody k.
  assert (B : (bpow radix10 p * bpow radix10 (- p) = 1)%R) by (rewrite <- bpow_plus; replace (p + - p) with 0 by lia; reflexivity).
  pose proof (bpow_gt_0 radix10 (- p)) as P. replace (v - IZR k * bpow radix10 (- p))%R with ((v * bpow radix10 p - IZR k) * bpow radix10 (- p))%R.
  - rewrite Rabs_mult, (Rabs_pos_eq (bpow radix10 (- p))) by lra. apply Rmult_le_compat_r; lra.
  - replace (v - IZR k * bpow radix10 (- p))%R with (v * 1 - IZR k * bpow radix10 (- p))%R by ring. rewrite <- B. ring.
Qed.
(** The leading digits: there are n of them; the error is at most half a unit of the last one, even if the first one moved up. *)
Lemma leading_ok : forall n m e k x, 1 <= n -> leading n m e = (k, x) ->
  let v := (IZR (Z.pos m) * bpow radix2 e)%R in
  10 ^ (n - 1) <= k < 10 ^ n /\
  (Rabs (v - IZR k * bpow radix10 (x - n + 1)) <= / 2 * bpow radix10 (x - n + 1))%R /\
  (Rabs (v - IZR k * bpow radix10 (x - n + 1)) <= / 2 * bpow radix10 (1 - n) * v)%R.
Proof.
  intros n m e k x N L v. unfold leading in L. pose proof (exponent10_ok m e) as X. cbv zeta in X. set (x0 := exponent10 m e) in *. clearbody x0.
  rewrite scaled_ok in L. fold v in L, X. clearbody v.
  pose proof (nearest10 v (n - 1 - x0)) as E. set (k0 := ZnearestE _) in *. replace (- (n - 1 - x0)) with (x0 - n + 1) in E by lia.
  assert (B : (bpow radix10 (n - 1 - x0) * bpow radix10 (x0 - n + 1) = 1)%R).
  { rewrite <- bpow_plus. replace (n - 1 - x0 + (x0 - n + 1)) with 0 by lia. reflexivity. }
  pose proof (bpow_gt_0 radix10 (x0 - n + 1)) as P1. pose proof (bpow_gt_0 radix10 (n - 1 - x0)) as P2.
  assert (K : 10 ^ (n - 1) <= k0 <= 10 ^ n).
  { subst k0. assert (L1 : (IZR (10 ^ (n - 1)) <= v * bpow radix10 (n - 1 - x0))%R).
    { rewrite <- bpow10_pos by lia. replace (n - 1) with (x0 + (n - 1 - x0)) at 1 by lia. rewrite bpow_plus. apply Rmult_le_compat_r; lra. }
    assert (L2 : (v * bpow radix10 (n - 1 - x0) <= IZR (10 ^ n))%R).
    { rewrite <- bpow10_pos by lia. replace n with (x0 + 1 + (n - 1 - x0)) at 2 by lia. rewrite bpow_plus. apply Rmult_le_compat_r; lra. }
    apply near_le in L1, L2. rewrite near_Z in L1, L2. split; assumption. }
  assert (REL : (/ 2 * bpow radix10 (x0 - n + 1) <= / 2 * bpow radix10 (1 - n) * v)%R).
  { replace (x0 - n + 1) with (1 - n + x0) by lia. rewrite bpow_plus. pose proof (bpow_gt_0 radix10 (1 - n)). rewrite Rmult_assoc. apply Rmult_le_compat_l; [lra|].
    apply Rmult_le_compat_l; lra. }
  clearbody k0. destruct (k0 =? 10 ^ n) eqn:Q; injection L as <- <-.
  - apply Z.eqb_eq in Q. subst k0.
    assert (S : (IZR (10 ^ (n - 1)) * bpow radix10 (x0 + 1 - n + 1) = IZR (10 ^ n) * bpow radix10 (x0 - n + 1))%R).
    { rewrite <- !bpow10_pos by lia. rewrite <- !bpow_plus. f_equal. lia. }
    rewrite S. split; [split; [lia|apply Z.pow_lt_mono_r; lia]|]. split; [|lra].
    eapply Rle_trans; [exact E|]. apply Rmult_le_compat_l; [lra|]. apply bpow_le. lia.
  - split; [lia|]. split; [exact E|lra].
Qed.

(** ** The text *)
Lemma dec_pos_only : forall n, 0 <= n -> digits_only (dec_pos n).
Proof. intros. split; [apply dec_pos_nonempty|apply dec_pos_digits; assumption]. Qed.
Lemma point_text_ok : forall p k, 0 <= k -> plain (point_text p k) (IZR k * bpow radix10 (- Z.of_nat p)).
Proof.
  intros p k K. unfold point_text. destruct p as [|p].
  - change (10 ^ Z.of_nat 0) with 1. rewrite Z.div_1_r, app_nil_r. cbn [Z.of_nat Z.opp]. change (bpow radix10 0) with 1%R. rewrite Rmult_1_r.
    rewrite <- (dec_pos_num k K) at 2. apply plain_int. apply dec_pos_only. exact K.
  - set (q := S p) in *. assert (P : 0 < 10 ^ Z.of_nat q) by (apply pow10_pos; lia). pose proof (Z.div_pos k (10 ^ Z.of_nat q) K P) as D.
    pose proof (Z.mod_pos_bound k _ P) as M. destruct (last_digits_ok q (k mod 10 ^ Z.of_nat q) ltac:(lia)) as (L1 & L2 & L3).
    rewrite Z.mod_mod in L1 by lia.
    assert (V : (IZR k * bpow radix10 (- Z.of_nat q))%R = (IZR (num_of (dec_pos (k / 10 ^ Z.of_nat q))) +
      IZR (num_of (last_digits q (k mod 10 ^ Z.of_nat q))) / IZR (10 ^ Z.of_nat (length (last_digits q (k mod 10 ^ Z.of_nat q)))))%R).
    { rewrite dec_pos_num by assumption. rewrite L1, L3. rewrite bpow10_neg, Z.opp_involutive by lia. apply IZR_lt in P.
      rewrite (Z.div_mod k (10 ^ Z.of_nat q)) at 1 by (intro Z0; rewrite Z0 in P; lra). rewrite plus_IZR, mult_IZR. field. lra. }
    rewrite V. apply plain_frac; [apply dec_pos_only; assumption|].
    split; [|assumption]. intro Z0. rewrite Z0 in L3. discriminate L3.
Qed.
Lemma strip_ok : forall p k p' k', 0 <= k -> strip p k = (p', k') ->
  0 <= k' /\ (p' <= p)%nat /\ k = k' * 10 ^ Z.of_nat (p - p') /\ (p' = O \/ k' mod 10 <> 0).
Proof.
  induction p as [|p IH]; intros k p' k' K H.
  - cbn in H. injection H as <- <-. cbn. intuition lia.
  - cbn [strip] in H. destruct (k mod 10 =? 0) eqn:Q.
    + destruct (IH (k / 10) p' k' (Z.div_pos k 10 K ltac:(lia)) H) as (H1 & H2 & H3 & H4). split; [assumption|]. split; [lia|]. split; [|assumption].
      replace (Z.of_nat (S p - p')) with (1 + Z.of_nat (p - p')) by lia. rewrite Z.pow_add_r by lia. change (10 ^ 1) with 10.
      pose proof (Z.div_mod k 10 ltac:(lia)). lia.
    + injection H as <- <-. replace (S p - S p)%nat with O by lia. cbn [Z.of_nat]. split; [assumption|]. split; [lia|]. split; [lia|]. right. lia.
Qed.
Lemma strip_val : forall p k p' k', 0 <= k -> strip p k = (p', k') -> (IZR k' * bpow radix10 (- Z.of_nat p') = IZR k * bpow radix10 (- Z.of_nat p))%R.
Proof.
  intros p k p' k' K H. destruct (strip_ok p k p' k' K H) as (_ & H2 & -> & _). rewrite mult_IZR, <- bpow10_pos by lia. rewrite Rmult_assoc, <- bpow_plus.
  do 2 f_equal. lia.
Qed.
Lemma num_of_zero : forall t, num_of ("0"%char :: t) = num_of t.
Proof. reflexivity. Qed.
Lemma exp_text_ok : forall t v x, plain t v -> denotes (t ++ exp_text x) (v * bpow radix10 x).
Proof.
  intros t v x H. unfold exp_text. set (d := (if Z.abs x <? 10 then lit "0" else []) ++ dec_pos (Z.abs x)).
  assert (D : digits_only d /\ num_of d = Z.abs x).
  { subst d. pose proof (dec_pos_only (Z.abs x) ltac:(lia)) as [D1 D2]. destruct (Z.abs x <? 10).
    - change (lit "0" ++ dec_pos (Z.abs x)) with ("0"%char :: dec_pos (Z.abs x)). split; [split; [discriminate|exact D2]|].
      rewrite num_of_zero. apply dec_pos_num. lia.
    - cbn [app]. split; [split; assumption|]. apply dec_pos_num. lia. }
  destruct D as [D1 D2]. destruct (x <? 0) eqn:Q.
  - replace (v * bpow radix10 x)%R with (v / IZR (10 ^ num_of d))%R; [apply de_down; assumption|]. rewrite D2, bpow10_neg by lia.
    replace (Z.abs x) with (- x) by lia. reflexivity.
  - replace (v * bpow radix10 x)%R with (v * IZR (10 ^ num_of d))%R; [apply de_up; assumption|]. rewrite D2, bpow10_pos by lia.
    replace (Z.abs x) with x by lia. reflexivity.
Qed.
Lemma general_text_ok : forall n k x, 1 <= n -> 0 <= k -> denotes (general_text n k x) (IZR k * bpow radix10 (x - n + 1)).
Proof.
  intros n k x N K. unfold general_text. destruct ((-4 <=? x) && (x <? n)) eqn:Q.
  - apply andb_prop in Q. destruct (strip _ k) as [p k'] eqn:S. pose proof (strip_val _ _ _ _ K S) as V. destruct (strip_ok _ _ _ _ K S) as (K' & _).
    replace (x - n + 1) with (- Z.of_nat (Z.to_nat (n - 1 - x))) by lia. rewrite <- V. apply de_plain. apply point_text_ok. assumption.
  - destruct (strip _ k) as [p k'] eqn:S. pose proof (strip_val _ _ _ _ K S) as V. destruct (strip_ok _ _ _ _ K S) as (K' & _).
    replace (IZR k * bpow radix10 (x - n + 1))%R with (IZR k' * bpow radix10 (- Z.of_nat p) * bpow radix10 x)%R.
    + apply exp_text_ok. apply point_text_ok. assumption.
    + rewrite V, Rmult_assoc, <- bpow_plus. do 2 f_equal. lia.
Qed.

(** How far the number written in format [f] may be from the number [x]: half a unit of the last decimal, or half a unit of
    the last significant digit *)
Definition tolerance (f : format) (x : R) : R :=
  match f_note f with
  | Fixed => (/ 2 * bpow radix10 (- f_prec f))%R
  | Scientific => (/ 2 * bpow radix10 (- f_prec f) * Rabs x)%R
  | General => (/ 2 * bpow radix10 (1 - Z.max 1 (f_prec f)) * Rabs x)%R
  end.
Lemma pos_text_ok : forall f m e, 0 <= f_prec f -> let v := (IZR (Z.pos m) * bpow radix2 e)%R in
  exists w, denotes (pos_text f m e) w /\ (Rabs (w - v) <= tolerance f v)%R.
Proof.
  intros [p n] m e P v. cbn [f_prec] in P. assert (V : (0 < v)%R) by (subst v; apply Rmult_lt_0_compat; [apply IZR_lt; lia|apply bpow_gt_0]).
  unfold pos_text, tolerance. cbn [f_prec f_note]. rewrite (Rabs_pos_eq v) by lra. destruct n.
  - destruct (leading (Z.max 1 p) m e) as [k x] eqn:L. destruct (leading_ok (Z.max 1 p) m e k x ltac:(lia) L) as (K & _ & E). fold v in E.
    eexists. split; [apply general_text_ok; [lia|pose proof (pow10_pos (Z.max 1 p - 1) ltac:(lia)); lia]|]. rewrite Rabs_minus_sym. exact E.
  - exists (IZR (scaled m e p) * bpow radix10 (- Z.of_nat (Z.to_nat p)))%R. split.
    + apply de_plain. apply point_text_ok. rewrite scaled_ok. fold v. rewrite <- (near_Z 0).
      apply near_le. pose proof (bpow_gt_0 radix10 p). apply Rmult_le_pos; lra.
    + rewrite Z2Nat.id by lia. rewrite Rabs_minus_sym, scaled_ok. fold v. apply nearest10.
  - destruct (leading (p + 1) m e) as [k x] eqn:L. destruct (leading_ok (p + 1) m e k x ltac:(lia) L) as (K & _ & E). fold v in E.
    exists (IZR k * bpow radix10 (- Z.of_nat (Z.to_nat p)) * bpow radix10 x)%R. split.
    + apply exp_text_ok. apply point_text_ok. pose proof (pow10_pos (p + 1 - 1) ltac:(lia)). lia.
    + rewrite Z2Nat.id, Rmult_assoc, <- bpow_plus by lia. replace (- p + x) with (x - (p + 1) + 1) by lia. rewrite Rabs_minus_sym.
      replace (1 - (p + 1)) with (- p) in E by lia. exact E.
Qed.
Lemma zero_text_ok : forall f, denotes (zero_text f) 0.
Proof.
  intros [p n]. unfold zero_text. cbn [f_prec f_note]. destruct n.
  - apply de_plain. change 0%R with (IZR (num_of (lit "0"))). apply plain_int. split; [discriminate|reflexivity].
  - apply de_plain. rewrite <- (Rmult_0_l (bpow radix10 (- Z.of_nat (Z.to_nat p)))). apply point_text_ok. lia.
  - rewrite <- (Rmult_0_l (bpow radix10 0)). apply exp_text_ok.
    rewrite <- (Rmult_0_l (bpow radix10 (- Z.of_nat (Z.to_nat p)))). apply point_text_ok. lia.
Qed.
Lemma tolerance_pos : forall f x, (0 <= tolerance f x)%R.
Proof.
  intros [p n] x. unfold tolerance. cbn [f_note f_prec]. pose proof (Rabs_pos x).
  destruct n; [pose proof (bpow_gt_0 radix10 (1 - Z.max 1 p))|pose proof (bpow_gt_0 radix10 (- p))|pose proof (bpow_gt_0 radix10 (- p))]; nra.
Qed.
Lemma tolerance_opp : forall f x, tolerance f (- x) = tolerance f x.
Proof. intros. unfold tolerance. rewrite Rabs_Ropp. reflexivity. Qed.
Theorem put_num_ok : forall f x, 0 <= f_prec f -> is_finite x = true ->
  exists v, denotes (put_num f x) v /\ (Rabs (v - B2R x) <= tolerance f (B2R x))%R.
Proof.
  intros f x P F. destruct x as [s|s| |s m e B]; try discriminate F.
  - exists 0%R. cbn [put_num B2R]. split; [|rewrite Rminus_0_r, Rabs_R0; apply tolerance_pos].
    destruct s; cbn [sign_text app].
    + change (lit "-" ++ zero_text f) with ("-"%char :: zero_text f). rewrite <- Ropp_0. apply de_neg. apply zero_text_ok.
    + apply zero_text_ok.
  - destruct (pos_text_ok f m e P) as (w & D & E). cbn [put_num].
    assert (V : B2R (B754_finite s m e B : double) = (if s then - (IZR (Z.pos m) * bpow radix2 e) else IZR (Z.pos m) * bpow radix2 e)%R).
    { unfold B2R, F2R. cbn [Fnum Fexp]. destruct s; cbn [cond_Zopp]; [rewrite opp_IZR; ring|reflexivity]. }
    rewrite V. destruct s; cbn [sign_text].
    + exists (- w)%R. split; [apply (de_neg _ _ D)|]. rewrite tolerance_opp. replace (- w - - (IZR (Z.pos m) * bpow radix2 e))%R with (- (w - IZR (Z.pos m) * bpow radix2 e))%R by ring.
      rewrite Rabs_Ropp. exact E.
    + exists w. split; assumption.
Qed.

(** The files are written with std::fixed and precision 6: the same text as put_double *)
Lemma put_fixed : forall x, put_num (Format 6 Fixed) x = put_double x.
Proof.
  assert (M : forall m e, scaled m e 6 = micros m e) by (intros; rewrite scaled_ok, micros_ok; reflexivity).
  intros x. destruct x as [s|s| |s m e B]; try reflexivity. cbn [put_num put_double]. unfold pos_text. cbn [f_note f_prec]. rewrite M. reflexivity.
Qed.

(** ** The form of the text *)
(** Digits with or without a fraction *)
Definition numeral (a b : text) : text := match b with [] => a | _ => a ++ lit "." ++ b end.
(** Digits without superfluous zeros in front *)
Definition whole (a : text) : Prop := digits_only a /\ (length a = 1%nat \/ hd_error a <> Some "0"%char).
(** One digit that is not zero *)
Definition one_digit (a : text) : Prop := digits_only a /\ length a = 1%nat /\ hd_error a <> Some "0"%char.
(** An exponent: its sign and at least two digits *)
Definition power (t : text) : Prop := exists s d, t = "e"%char :: s :: d /\ (s = "+" \/ s = "-")%char /\ digits_only d /\
  (length d = 2%nat \/ (2 < length d)%nat /\ hd_error d <> Some "0"%char).
(** The text [t] of a positive number, rounded to [v], in format [f] *)
Definition form (f : format) (t : text) (v : R) : Prop :=
  match f_note f with
  | Fixed => exists a b, whole a /\ forallb is_digit b = true /\ Z.of_nat (length b) = f_prec f /\ t = numeral a b
  | Scientific => exists a b e, one_digit a /\ forallb is_digit b = true /\ Z.of_nat (length b) = f_prec f /\ power e /\ t = numeral a b ++ e
  | General => let n := Z.max 1 (f_prec f) in
      exists a b, forallb is_digit b = true /\ (forall c, last b c = "0"%char -> b = []) /\ num_of (a ++ b) < 10 ^ n /\
        ((bpow radix10 (-4) <= v < bpow radix10 n)%R /\ whole a /\ t = numeral a b \/
         ~ (bpow radix10 (-4) <= v < bpow radix10 n)%R /\ one_digit a /\ exists e, power e /\ t = numeral a b ++ e)
  end.

Lemma no_zero : forall k, 1 <= k -> hd_error (dec_pos k) <> Some "0"%char.
Proof.
  intros k K H. destruct (width_ok k K) as [W _]. unfold width in W. destruct (dec_pos k) as [|c t] eqn:Q; [discriminate H|].
  injection H as ->. pose proof (dec_pos_num k ltac:(lia)) as V. pose proof (dec_pos_digits k ltac:(lia)) as D. rewrite Q in V, D. rewrite num_of_zero in V.
  apply andb_prop in D. destruct (num_of_bound t (proj2 D)) as [_ B]. cbn [length] in W. replace (Z.of_nat (S (length t)) - 1) with (Z.of_nat (length t)) in W by lia. lia.
Qed.
Lemma dec_whole : forall k, 0 <= k -> whole (dec_pos k).
Proof.
  intros k K. split; [apply dec_pos_only; exact K|]. destruct (Z.eq_dec k 0) as [->|N]; [left; reflexivity|]. right. apply no_zero. lia.
Qed.
Lemma dec_one : forall k, 1 <= k < 10 -> one_digit (dec_pos k).
Proof.
  intros k K. split; [apply dec_pos_only; lia|]. split; [|apply no_zero; lia]. pose proof (width_pos k) as W1. pose proof (width_le k 1 ltac:(lia) ltac:(lia)) as W2.
  unfold width in *. lia.
Qed.
Lemma exp_power : forall x, power (exp_text x).
Proof.
  intros x. unfold exp_text. set (d := (if Z.abs x <? 10 then lit "0" else []) ++ dec_pos (Z.abs x)).
  assert (D : digits_only d /\ (length d = 2%nat \/ (2 < length d)%nat /\ hd_error d <> Some "0"%char)).
  { subst d. pose proof (dec_pos_only (Z.abs x) ltac:(lia)) as [D1 D2]. destruct (Z.abs x <? 10) eqn:Q.
    - change (lit "0" ++ dec_pos (Z.abs x)) with ("0"%char :: dec_pos (Z.abs x)). split; [split; [discriminate|exact D2]|]. left. cbn [length]. f_equal.
      pose proof (width_pos (Z.abs x)) as W1. pose proof (width_le (Z.abs x) 1 ltac:(lia) ltac:(lia)) as W2. unfold width in *. lia.
    - cbn [app]. split; [split; assumption|]. pose proof (width_ok (Z.abs x) ltac:(lia)) as [_ W]. unfold width in W.
      destruct (Z_le_gt_dec (Z.of_nat (length (dec_pos (Z.abs x)))) 1) as [L|L].
      + assert (10 ^ Z.of_nat (length (dec_pos (Z.abs x))) <= 10 ^ 1) by (apply Z.pow_le_mono_r; lia). lia.
      + destruct (Nat.eq_dec (length (dec_pos (Z.abs x))) 2) as [E|E]; [left; exact E|]. right. split; [lia|]. apply no_zero. lia. }
  destruct D as [D1 D2]. destruct (x <? 0); [exists "-"%char, d|exists "+"%char, d]; (split; [reflexivity|]); auto.
Qed.
Lemma point_numeral : forall p k, point_text p k = numeral (dec_pos (k / 10 ^ Z.of_nat p)) (last_digits p (k mod 10 ^ Z.of_nat p)).
Proof.
  intros [|p] k; unfold point_text; [cbn [last_digits numeral]; apply app_nil_r|]. cbn [last_digits].
  destruct (last_digits p (k mod 10 ^ Z.of_nat (S p) / 10) ++ [digit (k mod 10 ^ Z.of_nat (S p) mod 10)]) eqn:Q; [|reflexivity].
  apply app_eq_nil in Q. destruct Q as [_ Q]. discriminate Q.
Qed.
Lemma last_frac : forall p k, forallb is_digit (last_digits p (k mod 10 ^ Z.of_nat p)) = true /\ length (last_digits p (k mod 10 ^ Z.of_nat p)) = p.
Proof.
  intros p k. pose proof (Z.mod_pos_bound k (10 ^ Z.of_nat p) (pow10_pos _ (Nat2Z.is_nonneg p))) as M. destruct (last_digits_ok p _ (proj1 M)) as (_ & L2 & L3). auto.
Qed.
Lemma mod_pow_mod : forall p k, 0 <= k -> (k mod 10 ^ Z.of_nat (S p)) mod 10 = k mod 10.
Proof.
  intros p k K. replace (Z.of_nat (S p)) with (1 + Z.of_nat p) by lia. rewrite Z.pow_add_r, Z.pow_1_r by lia.
  pose proof (pow10_pos (Z.of_nat p) ltac:(lia)). rewrite Z.rem_mul_r by lia. rewrite (Z.mul_comm 10 ((k / 10) mod _)), Z.mod_add by lia. apply Z.mod_mod. lia.
Qed.
(** The digits of [strip p k] *)
Lemma strip_form : forall p k p' k' n, 0 <= k < 10 ^ n -> strip p k = (p', k') ->
  let a := dec_pos (k' / 10 ^ Z.of_nat p') in let b := last_digits p' (k' mod 10 ^ Z.of_nat p') in
  forallb is_digit b = true /\ (forall c, last b c = "0"%char -> b = []) /\ num_of (a ++ b) < 10 ^ n.
Proof.
  intros p k p' k' n K S a b. destruct (strip_ok p k p' k' (proj1 K) S) as (S1 & S2 & S3 & S4). destruct (last_frac p' k') as [L2 L3].
  split; [exact L2|]. split.
  - intros c H. destruct S4 as [->|S4]; [reflexivity|]. destruct p' as [|q]; [reflexivity|]. exfalso. subst b. cbn [last_digits] in H. rewrite last_last in H.
    rewrite mod_pow_mod in H by exact S1. apply S4. pose proof (Z.mod_pos_bound k' 10 ltac:(lia)) as B.
    rewrite <- (digit_val_digit (k' mod 10)) by lia. rewrite H. reflexivity.
  - rewrite num_of_app_gen. subst b. rewrite L3. pose proof (pow10_pos (Z.of_nat p') ltac:(lia)) as P. pose proof (Z.mod_pos_bound k' _ P) as M.
    destruct (last_digits_ok p' _ (proj1 M)) as (L1 & _). rewrite L1, Z.mod_mod by lia. subst a. rewrite dec_pos_num by (apply Z.div_pos; lia).
    rewrite Z.mul_comm, <- Z.div_mod by lia. pose proof (pow10_pos (Z.of_nat (p - p')) ltac:(lia)). nia.
Qed.
Lemma form_ok : forall f m e, 0 <= f_prec f -> let v := (IZR (Z.pos m) * bpow radix2 e)%R in
  exists w, denotes (pos_text f m e) w /\ (Rabs (w - v) <= tolerance f v)%R /\ form f (pos_text f m e) w.
Proof.
  intros [p n] m e P v. cbn [f_prec] in P. assert (V : (0 < v)%R) by (subst v; apply Rmult_lt_0_compat; [apply IZR_lt; lia|apply bpow_gt_0]).
  unfold pos_text, tolerance, form. cbn [f_prec f_note]. rewrite (Rabs_pos_eq v) by lra. destruct n.
  - set (n := Z.max 1 p). assert (N : 1 <= n) by (subst n; lia). clearbody n. destruct (leading n m e) as [k x] eqn:L.
    destruct (leading_ok n m e k x N L) as (K & _ & E). fold v in E. pose proof (pow10_pos (n - 1) ltac:(lia)) as P1.
    eexists. split; [apply general_text_ok; [lia|lia]|]. split; [rewrite Rabs_minus_sym; exact E|].
    assert (IN : (bpow radix10 (-4) <= IZR k * bpow radix10 (x - n + 1) < bpow radix10 n)%R <-> -4 <= x < n).
    { assert (B1 : (bpow radix10 x <= IZR k * bpow radix10 (x - n + 1))%R).
      { replace x with (n - 1 + (x - n + 1)) at 1 by lia. rewrite (bpow_plus radix10 (n - 1)). apply Rmult_le_compat_r; [apply bpow_ge_0|]. rewrite bpow10_pos by lia. apply IZR_le. lia. }
      assert (B2 : (IZR k * bpow radix10 (x - n + 1) < bpow radix10 (x + 1))%R).
      { replace (x + 1) with (n + (x - n + 1)) by lia. rewrite (bpow_plus radix10 n). apply Rmult_lt_compat_r; [apply bpow_gt_0|]. rewrite bpow10_pos by lia. apply IZR_lt. lia. }
      split.
      - intros [H1 H2]. pose proof (Rle_lt_trans _ _ _ H1 B2) as G1. pose proof (Rle_lt_trans _ _ _ B1 H2) as G2. apply lt_bpow in G1, G2. lia.
      - intros [H1 H2]. split; [eapply Rle_trans; [apply bpow_le; exact H1|exact B1]|eapply Rlt_le_trans; [exact B2|apply bpow_le; lia]]. }
    assert (K0 : 0 <= k < 10 ^ n) by lia.
    unfold general_text. destruct ((-4 <=? x) && (x <? n)) eqn:Q; destruct (strip _ k) as [p' k'] eqn:S; destruct (strip_form _ _ _ _ n K0 S) as (F1 & F2 & F3);
      pose proof (strip_ok _ _ _ _ (proj1 K0) S) as (S1 & S2 & S3 & _); (eexists; eexists; split; [exact F1|]; split; [exact F2|]; split; [exact F3|]).
    + left. split; [apply IN; lia|]. split; [apply dec_whole; apply Z.div_pos; [lia|apply pow10_pos; lia]|]. apply point_numeral.
    + right. split; [intro H; apply IN in H; lia|]. split.
      * apply dec_one. pose proof (pow10_pos (Z.of_nat p') ltac:(lia)) as P2. pose proof (pow10_pos (Z.of_nat (Z.to_nat (n - 1) - p')) ltac:(lia)) as P3.
        assert (A : 10 ^ (n - 1) = 10 ^ Z.of_nat p' * 10 ^ Z.of_nat (Z.to_nat (n - 1) - p')) by (rewrite <- Z.pow_add_r by lia; f_equal; lia).
        assert (A2 : 10 ^ n = 10 * 10 ^ (n - 1)) by (replace n with (1 + (n - 1)) at 1 by lia; rewrite Z.pow_add_r by lia; reflexivity).
        split; [apply Z.div_le_lower_bound; nia|apply Z.div_lt_upper_bound; nia].
      * exists (exp_text x). split; [apply exp_power|]. rewrite point_numeral. reflexivity.
  - exists (IZR (scaled m e p) * bpow radix10 (- Z.of_nat (Z.to_nat p)))%R.
    assert (S0 : 0 <= scaled m e p).
    { rewrite scaled_ok. fold v. rewrite <- (near_Z 0). apply near_le. pose proof (bpow_gt_0 radix10 p). apply Rmult_le_pos; lra. }
    split; [apply de_plain; apply point_text_ok; exact S0|]. split.
    + rewrite Z2Nat.id by lia. rewrite Rabs_minus_sym, scaled_ok. fold v. apply nearest10.
    + destruct (last_frac (Z.to_nat p) (scaled m e p)) as [L2 L3]. eexists. eexists. split; [apply dec_whole; apply Z.div_pos; [exact S0|apply pow10_pos; apply Nat2Z.is_nonneg]|].
      split; [exact L2|]. split; [rewrite L3; lia|]. apply point_numeral.
  - destruct (leading (p + 1) m e) as [k x] eqn:L. destruct (leading_ok (p + 1) m e k x ltac:(lia) L) as (K & _ & E). fold v in E.
    pose proof (pow10_pos (p + 1 - 1) ltac:(lia)) as P1.
    exists (IZR k * bpow radix10 (- Z.of_nat (Z.to_nat p)) * bpow radix10 x)%R. split; [|split].
    + apply exp_text_ok. apply point_text_ok. lia.
    + rewrite Z2Nat.id, Rmult_assoc, <- bpow_plus by lia. replace (- p + x) with (x - (p + 1) + 1) by lia. rewrite Rabs_minus_sym.
      replace (1 - (p + 1)) with (- p) in E by lia. exact E.
    + destruct (last_frac (Z.to_nat p) k) as [L2 L3]. eexists. eexists. exists (exp_text x). split; [apply dec_one|split; [exact L2|split; [rewrite L3; lia|split; [apply exp_power|rewrite point_numeral; reflexivity]]]].
      rewrite Z2Nat.id by lia. replace (p + 1 - 1) with p in * by lia.
      assert (A2 : 10 ^ (p + 1) = 10 * 10 ^ p) by (rewrite Z.add_comm, Z.pow_add_r by lia; reflexivity).
      split; [apply Z.div_le_lower_bound; lia|apply Z.div_lt_upper_bound; lia].
Qed.
(** Numbers that are not zero *)
Theorem put_num_form : forall f (x : double), 0 <= f_prec f -> is_finite x = true -> B2R x <> 0%R ->
  exists t v, put_num f x = (if Rlt_bool (B2R x) 0 then lit "-" ++ t else t) /\ denotes t v /\ (Rabs (v - Rabs (B2R x)) <= tolerance f (B2R x))%R /\ form f t v.
Proof.
  intros f x P F NZ. destruct x as [s|s| |s m e B]; try discriminate F; [exfalso; apply NZ; reflexivity|].
  destruct (form_ok f m e P) as (w & D & E & FO). cbn [put_num].
  assert (V : B2R (B754_finite s m e B : double) = (if s then - (IZR (Z.pos m) * bpow radix2 e) else IZR (Z.pos m) * bpow radix2 e)%R).
  { unfold B2R, F2R. cbn [Fnum Fexp]. destruct s; cbn [cond_Zopp]; [rewrite opp_IZR; ring|reflexivity]. }
  assert (PV : (0 < IZR (Z.pos m) * bpow radix2 e)%R) by (apply Rmult_lt_0_compat; [apply IZR_lt; lia|apply bpow_gt_0]).
  exists (pos_text f m e), w. rewrite V. destruct s; cbn [sign_text].
  - rewrite Rlt_bool_true by lra. split; [reflexivity|]. split; [exact D|]. rewrite tolerance_opp, Rabs_Ropp, (Rabs_pos_eq (_ * _)) by lra. auto.
  - rewrite Rlt_bool_false by lra. split; [reflexivity|]. split; [exact D|]. rewrite (Rabs_pos_eq (_ * _)) by lra. auto.
Qed.
