(** Derivatives of finite sums, and matrices that depend on a real parameter. *)
From Coq Require Import ZArith Bool Reals Lra Lia.
From Coquelicot Require Import Coquelicot.
From Verif Require Import Base Dim Matrix View Num Spec Iter MatFacts Sums Expr ExprThms.
Local Open Scope Z_scope.

Lemma is_derive_rsum : forall n (f : R -> Z -> R) t0 (f' : Z -> R),
  (forall k, 0 <= k < n -> is_derive (fun t => f t k) t0 (f' k)) ->
  is_derive (fun t => rsum n (f t)) t0 (rsum n f').
Proof.
  intros n f t0 f'. induction n using Zrange_ind; intros H0.
  - rewrite rsum_neg by lia. apply (is_derive_ext (fun _ => 0%R)).
    + intros. rewrite rsum_neg by lia. reflexivity.
    + apply @is_derive_const.
  - rewrite rsum_S by lia. apply (is_derive_ext (fun t => rsum n (f t) + f t n)%R).
    + intros. rewrite rsum_S by lia. reflexivity.
    + apply @is_derive_plus; [apply IHn; intros; apply H0; lia|apply H0; lia].
Qed.

(** Σ F G over all elements of a [d]-shaped array. *)
Definition dotp (d : dim3) (F G : Z -> Z -> Z -> R) : R := rsum3 d (fun x y z => F x y z * G x y z)%R.

(** Every element of [F t] is differentiable at [t0], with derivative [F']. *)
Definition dcurve (d : dim3) (F : R -> Z -> Z -> Z -> R) (t0 : R) (F' : Z -> Z -> Z -> R) : Prop :=
  forall x y z, inb d x y z -> is_derive (fun t => F t x y z) t0 (F' x y z).

Lemma rsum3_ext : forall d f g, (forall x y z, inb d x y z -> f x y z = g x y z) -> rsum3 d f = rsum3 d g.
Proof. intros. unfold rsum3. apply rsum_ext; intros. apply rsum_ext; intros. apply rsum_ext; intros. apply H. unfold inb. lia. Qed.
Lemma dotp_ext : forall d F G F' G', (forall x y z, inb d x y z -> F x y z = F' x y z) -> (forall x y z, inb d x y z -> G x y z = G' x y z) ->
  dotp d F G = dotp d F' G'.
Proof. intros. unfold dotp. apply rsum3_ext. intros. rewrite H, H0 by assumption. reflexivity. Qed.

Lemma rsum3_plus : forall d f g, rsum3 d (fun x y z => f x y z + g x y z)%R = (rsum3 d f + rsum3 d g)%R.
Proof.
  intros. unfold rsum3. rewrite <- rsum_plus. apply rsum_ext; intros. rewrite <- rsum_plus. apply rsum_ext; intros.
  rewrite <- rsum_plus. reflexivity.
Qed.
Lemma rsum3_scal : forall c d f, rsum3 d (fun x y z => c * f x y z)%R = (c * rsum3 d f)%R.
Proof.
  intros. unfold rsum3. rewrite <- rsum_scal. apply rsum_ext; intros. rewrite <- rsum_scal. apply rsum_ext; intros.
  rewrite <- rsum_scal. reflexivity.
Qed.
Lemma dotp_plus : forall d F G H, dotp d F (fun x y z => G x y z + H x y z)%R = (dotp d F G + dotp d F H)%R.
Proof. intros. unfold dotp. rewrite <- rsum3_plus. apply rsum3_ext. intros. ring. Qed.
Lemma dotp_comm : forall d F G, dotp d F G = dotp d G F.
Proof. intros. unfold dotp. apply rsum3_ext. intros. ring. Qed.
Lemma dotp_0 : forall d F, dotp d F (fun _ _ _ => 0%R) = 0%R.
Proof. intros. unfold dotp. rewrite (rsum3_ext d _ (fun _ _ _ => 0 * 0)%R) by (intros; ring). rewrite rsum3_scal. ring. Qed.

Lemma is_derive_rsum3 : forall d (f : R -> Z -> Z -> Z -> R) t0 f', dcurve d f t0 f' ->
  is_derive (fun t => rsum3 d (f t)) t0 (rsum3 d f').
Proof.
  intros d f t0 f' H. unfold rsum3.
  apply is_derive_rsum; intros. apply is_derive_rsum; intros. apply is_derive_rsum; intros. apply H. unfold inb. lia.
Qed.

Lemma is_derive_dotp : forall d G (f : R -> Z -> Z -> Z -> R) t0 f', dcurve d f t0 f' ->
  is_derive (fun t => dotp d G (f t)) t0 (dotp d G f').
Proof.
  intros d G f t0 f' H. unfold dotp. apply (is_derive_rsum3 d (fun t x y z => G x y z * f t x y z)%R).
  intros x y z I. apply @is_derive_scal. apply H. exact I.
Qed.

Lemma dcurve_const : forall d F t0, dcurve d (fun _ => F) t0 (fun _ _ _ => 0%R).
Proof. intros d F t0 x y z I. apply @is_derive_const. Qed.

(** The curve that moves one element. *)
Definition delta (a b c x y z : Z) : R := if (x =? a) && (y =? b) && (z =? c) then 1%R else 0%R.
Lemma dcurve_fupd : forall d F a b c t0, dcurve d (fun t => fupd F a b c t) t0 (delta a b c).
Proof.
  intros d F a b c t0 x y z I. unfold fupd, delta.
  destruct ((x =? a) && (y =? b) && (z =? c))%bool.
  - apply @is_derive_id.
  - apply @is_derive_const.
Qed.

Lemma rsum3_single : forall d f a b c, inb d a b c -> (forall x y z, inb d x y z -> (x, y, z) <> (a, b, c) -> f x y z = 0%R) ->
  rsum3 d f = f a b c.
Proof.
  intros d f a b c (I1 & I2 & I3) H. unfold rsum3.
  rewrite (rsum_single _ _ c I3).
  - rewrite (rsum_single _ _ b I2).
    + rewrite (rsum_single _ (fun x => f x b c) a I1); [reflexivity|]. intros. apply H; [unfold inb; lia|congruence].
    + intros. apply rsum_all_zero. intros. apply H; [unfold inb; lia|congruence].
  - intros. apply rsum_all_zero. intros. apply rsum_all_zero. intros. apply H; [unfold inb; lia|congruence].
Qed.

Lemma dotp_delta : forall d F a b c, inb d a b c -> dotp d F (delta a b c) = F a b c.
Proof.
  intros d F a b c I. unfold dotp. rewrite (rsum3_single d _ a b c I).
  - unfold delta. rewrite !Z.eqb_refl. cbn. ring.
  - intros x y z _ NE. unfold delta. destruct (Z.eqb_spec x a), (Z.eqb_spec y b), (Z.eqb_spec z c); cbn; try ring.
    subst. exfalso. apply NE. reflexivity.
Qed.
Lemma fupd_same : forall (F : Z -> Z -> Z -> R) a b c x y z, fupd F a b c (F a b c) x y z = F x y z.
Proof.
  intros. unfold fupd. destruct (Z.eqb_spec x a), (Z.eqb_spec y b), (Z.eqb_spec z c); cbn; try reflexivity. subst. reflexivity.
Qed.

(** Exchange of sums with several indices. *)
Lemma rsum2_exchange3 : forall A B C D (f : Z -> Z -> Z -> Z -> R),
  rsum A (fun a => rsum B (fun b => rsum C (fun c => rsum D (fun d => f a b c d)))) =
  rsum C (fun c => rsum D (fun d => rsum A (fun a => rsum B (fun b => f a b c d)))).
Proof.
  intros. transitivity (rsum A (fun a => rsum C (fun c => rsum B (fun b => rsum D (fun d => f a b c d))))).
  - apply rsum_ext. intros. apply rsum_exchange.
  - rewrite rsum_exchange. apply rsum_ext. intros c Hc.
    transitivity (rsum A (fun a => rsum D (fun d => rsum B (fun b => f a b c d)))).
    + apply rsum_ext. intros. apply rsum_exchange.
    + apply rsum_exchange.
Qed.
