(** Finite sums over integer ranges. *)
From Coq Require Import ZArith List Lia Reals Lra Psatz.
From Verif Require Import Base Num Spec Iter.
Local Open Scope Z_scope.

(** [f 0 + ... + f (n-1)] added from left to right, starting from zero, with the operations of the element type. *)
Definition nsum {T} {N : Num T} (n : Z) (f : Z -> T) : T := fold_z (fun a k => nadd a (f k)) n n0.
(** The same over the real numbers. *)
Definition rsum (n : Z) (f : Z -> R) : R := fold_z (fun a k => a + f k)%R n 0%R.

Lemma nsum_R : forall n f, nsum n f = rsum n f.
Proof. reflexivity. Qed.

Lemma nsum_ext : forall {T} {N : Num T} n (f g : Z -> T), (forall k, 0 <= k < n -> f k = g k) -> nsum n f = nsum n g.
Proof. intros. unfold nsum. apply fold_z_ext. intros. rewrite H by lia. reflexivity. Qed.
Lemma rsum_ext : forall n f g, (forall k, 0 <= k < n -> f k = g k) -> rsum n f = rsum n g.
Proof. intros. unfold rsum. apply fold_z_ext. intros. rewrite H by lia. reflexivity. Qed.
Lemma rsum_neg : forall n f, n <= 0 -> rsum n f = 0%R.
Proof. intros. unfold rsum. apply fold_z_0. lia. Qed.
Lemma rsum_S : forall n f, 0 <= n -> rsum (n + 1) f = (rsum n f + f n)%R.
Proof. intros. unfold rsum. rewrite fold_z_snoc by lia. reflexivity. Qed.

(** Induction on the number of terms. *)
Lemma Zrange_ind : forall (P : Z -> Prop), (forall n, n <= 0 -> P n) -> (forall n, 0 <= n -> P n -> P (n + 1)) -> forall n, P n.
Proof.
  intros P H0 HS n. destruct (Z_le_gt_dec n 0) as [H|H]; [auto|].
  replace n with (Z.of_nat (Z.to_nat n)) by lia. induction (Z.to_nat n) as [|k IH]; [apply H0; lia|].
  rewrite Nat2Z.inj_succ. unfold Z.succ. apply HS; [lia|exact IH].
Qed.

Lemma rsum_plus : forall n f g, rsum n (fun k => f k + g k)%R = (rsum n f + rsum n g)%R.
Proof.
  intros n f g. induction n using Zrange_ind; [rewrite !rsum_neg by lia; lra|].
  rewrite !rsum_S by lia. rewrite IHn. lra.
Qed.
Lemma rsum_scal : forall c n f, rsum n (fun k => c * f k)%R = (c * rsum n f)%R.
Proof.
  intros c n f. induction n using Zrange_ind; [rewrite !rsum_neg by lia; lra|].
  rewrite !rsum_S by lia. rewrite IHn. lra.
Qed.
Lemma rsum_scal_r : forall c n f, rsum n (fun k => f k * c)%R = (rsum n f * c)%R.
Proof. intros. rewrite (rsum_ext n _ (fun k => c * f k)%R) by (intros; lra). rewrite rsum_scal. lra. Qed.
Lemma rsum_minus : forall n f g, rsum n (fun k => f k - g k)%R = (rsum n f - rsum n g)%R.
Proof.
  intros n f g. induction n using Zrange_ind; [rewrite !rsum_neg by lia; lra|].
  rewrite !rsum_S by lia. rewrite IHn. lra.
Qed.
Lemma rsum_zero : forall n, rsum n (fun _ => 0%R) = 0%R.
Proof. intros n. induction n using Zrange_ind; [apply rsum_neg; lia|]. rewrite rsum_S by lia. lra. Qed.
Lemma rsum_const : forall n c, 0 <= n -> rsum n (fun _ => c) = (IZR n * c)%R.
Proof.
  intros n c. induction n using Zrange_ind; intros.
  - rewrite rsum_neg by lia. replace n with 0 by lia. lra.
  - rewrite rsum_S, IHn, plus_IZR by lia. lra.
Qed.
Lemma rsum_exchange : forall n m (f : Z -> Z -> R),
  rsum n (fun i => rsum m (fun j => f i j)) = rsum m (fun j => rsum n (fun i => f i j)).
Proof.
  intros n m f. induction n using Zrange_ind.
  - rewrite rsum_neg by lia. rewrite (rsum_ext m _ (fun _ => 0%R)); [symmetry; apply rsum_zero|].
    intros. apply rsum_neg. lia.
  - rewrite rsum_S by lia. rewrite IHn. rewrite <- rsum_plus. apply rsum_ext. intros. rewrite rsum_S by lia. reflexivity.
Qed.

(** Sum with a single non-zero term. *)
Lemma rsum_single : forall n f i, 0 <= i < n -> (forall k, 0 <= k < n -> k <> i -> f k = 0%R) -> rsum n f = f i.
Proof.
  intros n f i. induction n using Zrange_ind; intros Hi Hz; [lia|].
  rewrite rsum_S by lia. destruct (Z.eq_dec i n) as [->|E].
  - rewrite (rsum_ext n _ (fun _ => 0%R)); [rewrite rsum_zero; lra|]. intros. apply Hz; lia.
  - rewrite IHn; [rewrite (Hz n) by lia; lra|lia|]. intros. apply Hz; lia.
Qed.
Lemma rsum_all_zero : forall n f, (forall k, 0 <= k < n -> f k = 0%R) -> rsum n f = 0%R.
Proof. intros. rewrite (rsum_ext n _ (fun _ => 0%R)) by auto. apply rsum_zero. Qed.

(** Splitting off the first terms and shifting the range. *)
Lemma rsum_split : forall a b f, 0 <= a -> 0 <= b -> rsum (a + b) f = (rsum a f + rsum b (fun k => f (a + k)%Z))%R.
Proof.
  intros a b f Ha. induction b using Zrange_ind; intros.
  - replace (a + b) with a by lia. rewrite (rsum_neg b) by lia. lra.
  - replace (a + (b + 1)) with (a + b + 1) by lia. rewrite !rsum_S by lia. rewrite IHb by lia. lra.
Qed.

(** Terms outside [lo, lo+n) vanish. *)
Lemma rsum_window : forall N lo n f, 0 <= lo -> 0 <= n -> lo + n <= N ->
  (forall k, 0 <= k < N -> ~ (lo <= k < lo + n) -> f k = 0%R) ->
  rsum N f = rsum n (fun k => f (lo + k)).
Proof.
  intros N lo n f Hlo Hn HN Hz. replace N with (lo + (n + (N - lo - n))) by lia.
  rewrite rsum_split, (rsum_split n) by lia.
  rewrite (rsum_all_zero lo), (rsum_all_zero (N - lo - n)); [lra| |]; intros; apply Hz; lia.
Qed.

(** Product ranges: position [i + n*j]. *)
Lemma rsum_mult : forall n m f, 0 <= n -> 0 <= m ->
  rsum (n * m) f = rsum m (fun j => rsum n (fun i => f (i + n * j))).
Proof.
  intros n m f Hn. induction m using Zrange_ind; intros.
  - assert (m = 0) by lia. subst. rewrite !rsum_neg by lia. reflexivity.
  - rewrite rsum_S by lia. rewrite <- IHm by lia. replace (n * (m + 1)) with (n * m + n) by lia.
    rewrite rsum_split by nia. f_equal. apply rsum_ext. intros. f_equal. lia.
Qed.

(** Reversal. *)
Lemma rsum_rev : forall n f, rsum n (fun k => f (n - 1 - k)) = rsum n f.
Proof.
  intros n f. destruct (Z_le_gt_dec n 0) as [H|H]; [rewrite !rsum_neg by lia; reflexivity|].
  assert (G : forall m, 0 <= m <= n -> rsum m (fun k => f (n - 1 - k)) = (rsum n f - rsum (n - m) f)%R).
  { intros m. induction m using Zrange_ind; intros.
    - replace m with 0 by lia. rewrite rsum_neg by lia. replace (n - 0) with n by lia. lra.
    - rewrite rsum_S by lia. rewrite IHm by lia. replace (n - m) with (n - (m + 1) + 1) by lia.
      rewrite (rsum_S (n - (m + 1))) by lia. replace (n - 1 - m) with (n - (m + 1)) by lia. lra. }
  rewrite G by lia. replace (n - n) with 0 by lia. rewrite (rsum_neg 0) by lia. lra.
Qed.

Lemma rsum_le : forall n f g, (forall k, 0 <= k < n -> (f k <= g k)%R) -> (rsum n f <= rsum n g)%R.
Proof.
  intros n f g. induction n using Zrange_ind; intros H0; [rewrite !rsum_neg by lia; lra|].
  rewrite !rsum_S by lia. apply Rplus_le_compat; [apply IHn; intros; apply H0; lia|apply H0; lia].
Qed.
Lemma rsum_nonneg : forall n f, (forall k, 0 <= k < n -> (0 <= f k)%R) -> (0 <= rsum n f)%R.
Proof. intros n f H. rewrite <- (rsum_zero n). apply rsum_le. exact H. Qed.
Lemma rsum_ge_term : forall n f i, 0 <= i < n -> (forall k, 0 <= k < n -> (0 <= f k)%R) -> (f i <= rsum n f)%R.
Proof.
  intros n f i Hi H. pose (g := fun k => if k =? i then f k else 0%R).
  assert (E : rsum n g = g i).
  { apply rsum_single; [exact Hi|]. intros. unfold g. destruct (Z.eqb_spec k i); [lia|reflexivity]. }
  unfold g in E at 2. rewrite Z.eqb_refl in E. rewrite <- E. apply rsum_le.
  intros. unfold g. destruct (k =? i); [lra|]. apply H; lia.
Qed.
Lemma rsum_opp : forall n f, rsum n (fun k => - f k)%R = (- rsum n f)%R.
Proof.
  intros n f. rewrite (rsum_ext n _ (fun k => (-1) * f k)%R) by (intros; lra). rewrite rsum_scal. lra.
Qed.
