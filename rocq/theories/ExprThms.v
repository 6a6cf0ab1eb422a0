(** Proofs about matrix products, transposition, rotation, convolution and reductions (C15-C22). *)
From Coq Require Import ZArith List Bool Lia Reals Lra.
From Verif Require Import Base Dim Matrix View Num Expr Spec Iter Sums MatFacts TreeThms.
Import ListNotations.
Local Open Scope Z_scope.

(** Element number [k] in storage order. *)
Definition elem_no {T} (d : dim3) (f : Z -> Z -> Z -> T) (k : Z) : T :=
  f (k mod dx d) ((k / dx d) mod dy d) (k / (dx d * dy d)).

Section Gen.
Context {S T : Type} {N : Num T}.

Lemma mul_elem_ok : forall (a b : lz S T) s X K Y Z0 f g x y z,
  is_lz a s (D3 X K Z0) f -> is_lz b s (D3 K Y Z0) g -> 0 <= K < two31 -> inb (D3 X Y Z0) x y z ->
  mul_elem a b s (D3 x y z) = Ok (nsum K (fun k => nmul (f x k z) (g k y z))).
Proof.
  intros a b s X K Y Z0 f g x y z (DA & VA) (DB & VB) HK (Hx & Hy & Hz). unfold mul_elem. rewrite DA. cbn [dx dy dz] in *.
  rewrite u64_id by (unfold two31, two64 in *; lia).
  rewrite (mfor_fold (fun acc k => nadd acc (nmul (f x k z) (g k y z)))); [reflexivity|].
  intros k acc Hk. rewrite VA by (unfold inb; cbn; lia). rewrite VB by (unfold inb; cbn; lia). reflexivity.
Qed.

Theorem mul_ok : forall m1 m2 c1 c2 (a b : lz S T) s X K Y Z0 f g,
  is_lz a s (D3 X K Z0) f -> is_lz b s (D3 K Y Z0) g -> 0 <= K < two31 ->
  (m1 = false \/ c1 = Ref) -> (m2 = false \/ c2 = Ref) ->
  exists c, mk_mul m1 m2 c1 c2 a b s = Ok c /\
    is_lz c s (D3 X Y Z0) (fun x y z => nsum K (fun k => nmul (f x k z) (g k y z))).
Proof.
  intros m1 m2 c1 c2 a b s X K Y Z0 f g HA HB HK H1 H2. unfold mk_mul. pose proof HA as (DA & _). pose proof HB as (DB & _).
  rewrite DA, DB. cbn [dx dy dz]. rewrite !Z.eqb_refl. cbn [negb orb].
  eexists. split; [reflexivity|]. split.
  - cbn [ldim]. destruct m1, m2, c1, c2; try reflexivity; exfalso; intuition discriminate.
  - intros x y z Hi. cbn [lget]. eapply mul_elem_ok; eassumption.
Qed.

Theorem mul_mismatch : forall m1 m2 c1 c2 (a b : lz S T) s,
  dz (ldim a s) <> dz (ldim b s) \/ dy (ldim a s) <> dx (ldim b s) ->
  mk_mul m1 m2 c1 c2 a b s = Throw MatrixSize.
Proof.
  intros m1 m2 c1 c2 a b s H. unfold mk_mul.
  destruct (Z.eqb_spec (dz (ldim a s)) (dz (ldim b s))); cbn; [|reflexivity].
  destruct (Z.eqb_spec (dy (ldim a s)) (dx (ldim b s))); cbn; [lia|reflexivity].
Qed.

Theorem transpose_ok : forall (a : lz S T) s X Y Z0 f, is_lz a s (D3 X Y Z0) f ->
  is_lz (mk_transpose Ref a s) s (D3 Y X Z0) (fun x y z => f y x z).
Proof.
  intros a s X Y Z0 f (D & V). split.
  - cbn. rewrite D. reflexivity.
  - intros x y z (A & B & C). unfold mk_transpose. cbn in *. apply V. unfold inb. cbn. lia.
Qed.

(** One quarter turn of an N x N layer. *)
Definition turn (n : Z) (f : Z -> Z -> Z -> T) : Z -> Z -> Z -> T := fun x y z => f (n - 1 - y) x z.
Fixpoint turns (n : Z) (k : nat) (f : Z -> Z -> Z -> T) : Z -> Z -> Z -> T :=
  match k with O => f | Datatypes.S k' => turn n (turns n k' f) end.

Theorem rotate_ok : forall k (a : lz S T) s n Z0 f, is_lz a s (D3 n n Z0) f -> 0 <= n < two31 -> 1 <= k <= 3 ->
  exists c, mk_rotate k a s = Ok c /\ is_lz c s (D3 n n Z0) (turns n (Z.to_nat k) f).
Proof.
  intros k a s n Z0 f (D & V) Hn Hk. unfold mk_rotate, is_square. rewrite D. cbn [dx dy]. rewrite Z.eqb_refl.
  eexists. split; [reflexivity|]. split; [reflexivity|]. intros x y z (A & B & C). cbn [dx dy dz] in *. cbn [lget]. rewrite D.
  assert (k = 1 \/ k = 2 \/ k = 3) as [-> |[-> | ->]] by lia; unfold rot_index; cbn [Z.eqb Pos.eqb dx dy dz].
  - rewrite !i32_ok by (unfold two31 in *; lia). cbn [rbind]. rewrite !i32_ok by (unfold two31 in *; lia). cbn [rbind].
    rewrite V by (unfold inb; cbn; lia). change (Z.to_nat 1) with 1%nat. cbn [turns]. unfold turn. f_equal. f_equal; lia.
  - rewrite !i32_ok by (unfold two31 in *; lia). cbn [rbind]. rewrite !i32_ok by (unfold two31 in *; lia). cbn [rbind].
    rewrite V by (unfold inb; cbn; lia). change (Z.to_nat 2) with 2%nat. cbn [turns]. unfold turn. f_equal. f_equal; lia.
  - rewrite !i32_ok by (unfold two31 in *; lia). cbn [rbind]. rewrite !i32_ok by (unfold two31 in *; lia). cbn [rbind].
    rewrite V by (unfold inb; cbn; lia). change (Z.to_nat 3) with 3%nat. cbn [turns]. unfold turn. f_equal. f_equal; lia.
Qed.

Theorem rotate_not_square : forall k (a : lz S T) s, dx (ldim a s) <> dy (ldim a s) -> mk_rotate k a s = Throw MatrixTransform.
Proof. intros. unfold mk_rotate, is_square. destruct (Z.eqb_spec (dx (ldim a s)) (dy (ldim a s))); [contradiction|reflexivity]. Qed.

Lemma turns_add : forall n i j f, turns n i (turns n j f) = turns n (i + j) f.
Proof. induction i; intros; cbn; [reflexivity|]. rewrite IHi. reflexivity. Qed.
Lemma turns_4 : forall n f x y z, turns n 4 f x y z = f x y z.
Proof. intros. cbn. unfold turn. f_equal; lia. Qed.

(** Nested sum in the order of two nested loops. *)
Definition nsum2 (U V : Z) (h : Z -> Z -> T) : T :=
  fold_z (fun a x => fold_z (fun a y => nadd a (h x y)) V a) U n0.

Theorem conv_elem_ok : forall (a b : lz S T) s X Y U V f g sx sy x y z,
  is_lz a s (D3 X Y 1) f -> is_lz b s (D3 U V 1) g -> 0 <= X < two31 -> 0 <= Y < two31 -> 0 <= U -> 0 <= V ->
  0 <= x * sx -> x * sx + U <= X -> 0 <= y * sy -> y * sy + V <= Y -> z = 0 ->
  conv_elem (D3 sx sy 0) a b s (D3 x y z) = Ok (nsum2 U V (fun i j => nmul (f (i + x * sx) (j + y * sy) 0) (g i j 0))).
Proof.
  intros a b s X Y U V f g sx sy x y z (DA & VA) (DB & VB) HX HY HU HV H1 H2 H3 H4 ->. unfold conv_elem. cbn [dx dy dz].
  repeat (rewrite i32_ok by (unfold two31 in *; lia); cbn [rbind]). rewrite DB. cbn [dx dy].
  rewrite !u32_id by (unfold two31, two32 in *; lia).
  rewrite (mfor_fold (fun acc i => fold_z (fun acc j => nadd acc (nmul (f (i + x * sx) (j + y * sy) 0) (g i j 0))) V acc)).
  - reflexivity.
  - intros i acc Hi.
    rewrite (mfor_fold (fun acc j => nadd acc (nmul (f (i + x * sx) (j + y * sy) 0) (g i j 0)))); [reflexivity|].
    intros j acc' Hj. rewrite dim_add_ok by (cbn; unfold two31 in *; lia). cbn [rbind dx dy dz Z.add].
    rewrite VA by (unfold inb; cbn; lia). rewrite VB by (unfold inb; cbn; lia). reflexivity.
Qed.

Theorem convolve_ok : forall (a b : lz S T) s X Y U V f g,
  is_lz a s (D3 X Y 1) f -> is_lz b s (D3 U V 1) g -> X < two31 -> Y < two31 -> 1 <= U <= X -> 1 <= V <= Y ->
  exists c, mk_convolve a b (D3 1 1 0) s = Ok c /\
    is_lz c s (D3 (X - U + 1) (Y - V + 1) 1)
      (fun x y _ => nsum2 U V (fun i j => nmul (f (i + x) (j + y) 0) (g i j 0))).
Proof.
  intros a b s X Y U V f g HA HB HX HY HU HV. unfold mk_convolve, is_flat. pose proof HA as (DA & _). pose proof HB as (DB & _).
  rewrite DA, DB. cbn [dx dy dz Z.eqb Pos.eqb andb negb].
  repeat (rewrite i32_ok by (unfold two31 in *; lia); cbn [rbind]).
  eexists. split; [reflexivity|]. split; [reflexivity|]. intros x y z (A & B & C). cbn [dx dy dz] in *. cbn [lget].
  rewrite (conv_elem_ok a b s X Y U V f g) by (auto; lia). rewrite !Z.mul_1_r. reflexivity.
Qed.

(** Loops that fold a value over all elements. *)
Lemma it_loop_fold : forall {A} (step : A -> Z -> A) (body : Z -> dim3 -> M A unit) d s0, fits d -> iterable d ->
  (forall k acc x y z, inb d x y z -> k = lin d x y z -> body k (D3 x y z) acc = ORet (step acc k) tt) ->
  it_loop d body s0 = ORet (fold_z step (vol d) s0) tt.
Proof.
  intros A step body d s0 HF HI HB. rewrite it_loop_iter by assumption. apply mfor_fold.
  intros k acc Hk. destruct (position_case d k HF Hk) as (x & y & z & Hi & Hl & E). rewrite E. apply HB; assumption.
Qed.

Lemma elem_no_lin : forall d (f : Z -> Z -> Z -> T) x y z, inb d x y z -> elem_no d f (lin d x y z) = f x y z.
Proof.
  intros d f x y z Hi. rewrite (dim_eta d) in *. pose proof (idx_of_lin _ _ _ _ _ _ Hi) as E. unfold idx_of in E. cbn [dx dy dz] in *.
  unfold elem_no. cbn [dx dy dz]. injection E as E1 E2 E3. rewrite E1, E2, E3. reflexivity.
Qed.

Theorem sum_ok : forall (a : lz S T) s d f, is_lz a s d f -> fits d -> iterable d ->
  sum a s = Ok (nsum (vol d) (elem_no d f)).
Proof.
  intros a s d f (D & V) HF HI. unfold sum, accumulate. rewrite D.
  rewrite (it_loop_fold (fun acc k => nadd acc (elem_no d f k))); auto.
  intros k acc x y z Hi ->. rewrite V by assumption. cbn [rbind]. rewrite elem_no_lin by assumption. reflexivity.
Qed.

Theorem mean_ok : forall (a : lz S T) s d f, is_lz a s d f -> fits d -> iterable d ->
  mean a s = Ok (ndiv (nsum (vol d) (elem_no d f)) (nofZ (vol d))).
Proof.
  intros a s d f HA HF HI. unfold mean. rewrite (sum_ok a s d f) by assumption. cbn [rbind]. destruct HA as (D & _).
  rewrite D, base_size_fits by assumption. reflexivity.
Qed.

(** Comparison. *)
Theorem equal_ok : forall cmp (a b : lz S T) s d e f g, is_lz a s d f -> is_lz b s e g -> fits d -> iterable d ->
  exists r, matrix_equal cmp a b s = Ok r /\
    (r = true <-> d = e /\ forall x y z, inb d x y z -> cmp (f x y z) (g x y z) = true).
Proof.
  intros cmp a b s d e f g (DA & VA) (DB & VB) HF HI. unfold matrix_equal. rewrite DA, DB.
  destruct (dim_eqb d e) eqn:E.
  2:{ exists false. split; [reflexivity|]. apply dim_eqb_neq in E. split; [discriminate|]. intros (H & _). contradiction. }
  apply dim_eqb_eq in E. rewrite <- E in DB, VB. rewrite <- E. clear E e.
  assert (L : forall body s0, (forall k, body k = fun eq : bool => if eq then ORet (cmp (elem_no d f k) (elem_no d g k)) tt else ORet eq tt) ->
    exists r, mfor (vol d) body s0 = ORet r tt /\
    (r = true <-> s0 = true /\ forall k, 0 <= k < vol d -> cmp (elem_no d f k) (elem_no d g k) = true)).
  { intros body s0 HB.
    destruct (mfor_inv (fun k (r : bool) => r = true <-> s0 = true /\ forall j, 0 <= j < k -> cmp (elem_no d f j) (elem_no d g j) = true) body (vol d) s0) as (r & R1 & R2).
    - apply fits_vol. assumption.
    - intros k r Hk IH. rewrite HB. destruct r.
      + eexists. split; [reflexivity|]. destruct IH as (IH & _). destruct (IH eq_refl) as (I1 & I2). split.
        * intros C. split; [assumption|]. intros j Hj. destruct (Z.eq_dec j k) as [->|]; [assumption|]. apply I2. lia.
        * intros (_ & C). apply C. lia.
      + eexists. split; [reflexivity|]. split; [discriminate|]. intros (C1 & C2). exfalso.
        destruct IH as (_ & IH). assert (false = true); [|discriminate]. apply IH. split; [assumption|]. intros. apply C2. lia.
    - split; [intros ->; split; [reflexivity|intros; lia]|tauto].
    - exists r. auto. }
  rewrite it_loop_iter by assumption.
  destruct (L (fun k => fun eq : bool => if eq then ORet (cmp (elem_no d f k) (elem_no d g k)) tt else ORet eq tt) true) as (r & R1 & R2);
    [reflexivity|].
  exists r. split.
  - erewrite mfor_ext; [rewrite R1; reflexivity|]. intros k acc Hk. cbv beta.
    destruct (position_case d k HF Hk) as (x & y & z & Hi & -> & Ek). rewrite Ek. rewrite (VA _ _ _ Hi), (VB _ _ _ Hi). cbn [rbind].
    rewrite !elem_no_lin by assumption. reflexivity.
  - rewrite R2. split.
    + intros (_ & H). split; [reflexivity|]. intros x y z Hi. specialize (H (lin d x y z) (lin_range _ _ _ _ Hi)).
      rewrite !elem_no_lin in H by assumption. assumption.
    + intros (_ & H). split; [reflexivity|]. intros k Hk. destruct (position_case d k HF Hk) as (x & y & z & Hi & -> & Ek).
      rewrite !elem_no_lin by assumption. auto.
Qed.

(** Extrema. [better] is a strict weak order. *)
Definition strict_weak (lt : T -> T -> bool) : Prop :=
  (forall a, lt a a = false) /\ (forall a b c, lt a b = true -> lt b c = true -> lt a c = true) /\
  (forall a b c, lt a b = false -> lt b c = false -> lt a c = false).

(** The same among the elements with property [P]; doubles without NaNs are such elements. *)
Definition strict_weak_on (P : T -> Prop) (lt : T -> T -> bool) : Prop :=
  (forall a, P a -> lt a a = false) /\ (forall a b c, P a -> P b -> P c -> lt a b = true -> lt b c = true -> lt a c = true) /\
  (forall a b c, P a -> P b -> P c -> lt a b = false -> lt b c = false -> lt a c = false).
Lemma strict_weak_all : forall lt, strict_weak lt -> strict_weak_on (fun _ => True) lt.
Proof. intros lt (A & B & C). split; [|split]; intros; eauto. Qed.

Theorem extremum_on : forall P better (a : lz S T) s d f, strict_weak_on P better -> is_lz a s d f -> fits d -> pos d -> (forall x y z, inb d x y z -> P (f x y z)) ->
  exists x y z, inb d x y z /\ extremum better a s = Ok (Some (lin d x y z, D3 x y z, f x y z)) /\
    (forall x' y' z', inb d x' y' z' -> better (f x' y' z') (f x y z) = false) /\
    (forall x' y' z', inb d x' y' z' -> lin d x' y' z' < lin d x y z -> better (f x y z) (f x' y' z') = true).
Proof.
  intros P better a s d f (Irr & Tr & NTr) (D & V) HF HP PF. unfold extremum. rewrite D. rewrite it_loop_iter by (apply pos_iterable; assumption).
  set (E := elem_no d f).
  assert (PE : forall i, 0 <= i < vol d -> P (E i)).
  { intros i Hi. destruct (position_case d i HF Hi) as (x & y & z & Ix & -> & _). unfold E. rewrite elem_no_lin by assumption. auto. }
  destruct (mfor_inv (fun k (b : option (Z * dim3 * T)) =>
      (k = 0 /\ b = None) \/ (0 < k /\ exists j, 0 <= j < k /\ b = Some (j, idx_of (dx d) (dy d) j, E j) /\
         (forall i, 0 <= i < k -> better (E i) (E j) = false) /\ (forall i, 0 <= i < j -> better (E j) (E i) = true)))
    (fun k => (fun k i => fun best =>
     match lget a s i with
     | Ok x => match best with
               | None => ORet (Some (k, i, x)) tt
               | Some (k0, i0, b) => if better x b then ORet (Some (k, i, x)) tt else ORet best tt
               end
     | Throw e => OThrow best e
     | UB => OUB
     end) k (idx_of (dx d) (dy d) k)) (vol d) None) as (r & R1 & R2).
  - apply fits_vol. assumption.
  - intros k b Hk HI. destruct (position_case d k HF Hk) as (x & y & z & Hi & Hl & Ei). rewrite Ei. cbv beta. rewrite V by assumption.
    assert (EK : E k = f x y z) by (subst k; unfold E; apply elem_no_lin; assumption).
    destruct HI as [(-> & ->)|(Hk0 & j & Hj & -> & Mx & Fs)].
    + eexists. split; [reflexivity|]. right. split; [lia|]. exists 0. rewrite Ei, EK. repeat split; try lia.
      intros i Hi0. replace i with 0 by lia. rewrite EK. apply Irr. auto.
    + rewrite <- EK. destruct (better (E k) (E j)) eqn:B.
      * eexists. split; [reflexivity|]. right. split; [lia|]. exists k. rewrite Ei. repeat split; try lia.
        -- intros i Hi0. destruct (Z.eq_dec i k) as [->|]; [apply Irr; apply PE; lia|].
           destruct (better (E i) (E k)) eqn:B2; [|reflexivity]. exfalso.
           assert (better (E i) (E j) = true) by (apply (Tr (E i) (E k) (E j)); auto; apply PE; lia). rewrite Mx in H by lia. discriminate.
        -- intros i Hi0. destruct (better (E k) (E i)) eqn:B2; [reflexivity|]. exfalso.
           assert (better (E k) (E j) = false) by (apply (NTr (E k) (E i) (E j)); auto; try (apply PE; lia); apply Mx; lia). congruence.
      * eexists. split; [reflexivity|]. right. split; [lia|]. exists j. repeat split; try lia.
        -- intros i Hi0. destruct (Z.eq_dec i k) as [->|]; [assumption|]. apply Mx; lia.
        -- intros i Hi0. apply Fs; lia.
  - left. auto.
  - assert (HV : 0 < vol d). { unfold vol. destruct HP as (A & B & C). assert (0 < dx d * dy d) by nia. nia. }
    destruct R2 as [(H0 & _)|(_ & j & Hj & -> & Mx & Fs)]; [lia|].
    destruct (position_case d j HF Hj) as (x & y & z & Hi & -> & Ei).
    exists x, y, z. split; [assumption|]. rewrite Ei in R1. unfold E in R1, Mx, Fs. rewrite elem_no_lin in R1 by assumption.
    split; [cbv beta in R1; rewrite R1; reflexivity|]. split.
    + intros x' y' z' Hi'. specialize (Mx (lin d x' y' z') (lin_range _ _ _ _ Hi')). rewrite !elem_no_lin in Mx by assumption. exact Mx.
    + intros x' y' z' Hi' Hlt. pose proof (lin_range _ _ _ _ Hi'). assert (X : 0 <= lin d x' y' z' < lin d x y z) by lia.
      specialize (Fs _ X). rewrite !elem_no_lin in Fs by assumption. exact Fs.
Qed.
Theorem extremum_ok : forall better (a : lz S T) s d f, strict_weak better -> is_lz a s d f -> fits d -> pos d ->
  exists x y z, inb d x y z /\ extremum better a s = Ok (Some (lin d x y z, D3 x y z, f x y z)) /\
    (forall x' y' z', inb d x' y' z' -> better (f x' y' z') (f x y z) = false) /\
    (forall x' y' z', inb d x' y' z' -> lin d x' y' z' < lin d x y z -> better (f x y z) (f x' y' z') = true).
Proof. intros better a s d f SW HA HF HP. apply (extremum_on (fun _ => True)); auto using strict_weak_all. Qed.

(** Dot product. *)
Definition vector (d : dim3) : Prop := dz d = 1 /\ (dx d = 1 \/ dy d = 1).
(** Component [k] of a row or column vector. *)
Definition comp (d : dim3) (f : Z -> Z -> Z -> T) (k : Z) : T := if Z.eq_dec (dx d) 1 then f 0 k 0 else f k 0 0.

Lemma vector_idx : forall d k, fits d -> pos d -> vector d -> 0 <= k < vol d ->
  idx_of (dx d) (dy d) k = (if Z.eq_dec (dx d) 1 then D3 0 k 0 else D3 k 0 0) /\
  inb d (dx (idx_of (dx d) (dy d) k)) (dy (idx_of (dx d) (dy d) k)) (dz (idx_of (dx d) (dy d) k)).
Proof.
  intros d k HF HP (HZ & HV) Hk. unfold vol in Hk. rewrite HZ in Hk. destruct HP as (P1 & P2 & P3).
  unfold idx_of, inb. cbn [dx dy dz]. destruct (Z.eq_dec (dx d) 1) as [E|E].
  - rewrite E in *. rewrite Z.mod_1_r, Z.div_1_r, Z.mul_1_l, Z.mod_small, Z.div_small by lia. rewrite HZ. split; [reflexivity|lia].
  - destruct HV as [HV|HV]; [contradiction|]. rewrite HV in *. rewrite Z.mod_1_r, Z.mul_1_r, Z.mod_small, Z.div_small by lia.
    rewrite HZ. split; [reflexivity|lia].
Qed.

Theorem dot_general : forall conv (a b : lz S T) s d e f g (A : Z -> Z),
  is_lz a s d f -> is_lz b s e g -> fits d -> fits e -> pos d -> pos e -> vector d -> vector e -> vol d = vol e ->
  A 0 = 0 ->
  (forall k, 0 <= k < vol d -> conv (nadd (nofZ (A k)) (nmul (comp d f k) (comp e g k))) = Ok (A (k + 1))) ->
  dot conv a b s = Ok (A (vol d)).
Proof.
  intros conv a b s d e f g A (DA & VA) (DB & VB) Fd Fe Pd Pe Vd Ve HV H0 HA. unfold dot. rewrite DA, DB.
  rewrite !base_size_fits by assumption. cbn [rbind]. rewrite HV, Z.eqb_refl. pose proof Vd as (Zd & Vd'). pose proof Ve as (Ze & Ve').
  rewrite Zd, Ze. cbn [Z.eqb Pos.eqb negb orb].
  assert (C1 : negb (dx d =? 1) && negb (dy d =? 1) = false) by (destruct Vd' as [-> | ->]; cbn; rewrite ?andb_false_r; reflexivity).
  assert (C2 : negb (dx e =? 1) && negb (dy e =? 1) = false) by (destruct Ve' as [-> | ->]; cbn; rewrite ?andb_false_r; reflexivity).
  rewrite C1, C2. cbn [orb]. rewrite it_loop_iter by (apply pos_iterable; assumption).
  destruct (mfor_inv (fun k '(acc, j) => acc = A k /\ j = idx_of (dx e) (dy e) k)
    (fun k => (fun _ i => fun '(acc, j) =>
        match (x <- lget a s i ;; y <- lget b s j ;; conv (nadd (nofZ acc) (nmul x y)))%res with
        | Ok acc' => ORet (acc', incr e j) tt
        | Throw ex => OThrow (acc, j) ex
        | UB => OUB
        end) k (idx_of (dx d) (dy d) k)) (vol d) (0, it_begin)) as ([acc j] & R1 & R2 & R3).
  - apply fits_vol. assumption.
  - intros k [acc j] Hk (-> & ->).
    destruct (vector_idx d k Fd Pd Vd Hk) as (I1 & B1). destruct (vector_idx e k Fe Pe Ve) as (I2 & B2); [lia|].
    exists (A (k + 1), incr e (idx_of (dx e) (dy e) k)). split.
    + assert (RA : lget a s (idx_of (dx d) (dy d) k) = Ok (comp d f k)).
      { unfold comp. rewrite I1 in *. destruct (Z.eq_dec (dx d) 1); apply VA; exact B1. }
      assert (RB : lget b s (idx_of (dx e) (dy e) k) = Ok (comp e g k)).
      { unfold comp. rewrite I2 in *. destruct (Z.eq_dec (dx e) 1); apply VB; exact B2. }
      rewrite RA, RB. cbn [rbind].
      rewrite HA by assumption. reflexivity.
    + split; [reflexivity|]. destruct e as [ex ey ez]. destruct Pe as (? & ? & ?). cbn [dx dy dz] in *. apply incr_idx_of; lia.
  - split; [symmetry; assumption|]. unfold idx_of, it_begin. rewrite !Zdiv_0_l, !Zmod_0_l. reflexivity.
  - cbv beta in R1. rewrite R1. cbn. rewrite R2, HV. reflexivity.
Qed.

Theorem dot_mismatch : forall conv (a b : lz S T) s, fits (ldim a s) -> fits (ldim b s) ->
  ~ (vector (ldim a s) /\ vector (ldim b s) /\ vol (ldim a s) = vol (ldim b s)) -> dot conv a b s = Throw MatrixSize.
Proof.
  intros conv a b s Fa Fb H. unfold dot. rewrite !base_size_fits by assumption. cbn [rbind].
  destruct (Z.eqb_spec (vol (ldim a s)) (vol (ldim b s))); [|reflexivity].
  destruct (Z.eqb_spec (dz (ldim a s)) 1); [|reflexivity].
  destruct (Z.eqb_spec (dz (ldim b s)) 1); [|reflexivity]. cbn [negb orb].
  destruct (Z.eqb_spec (dx (ldim a s)) 1); destruct (Z.eqb_spec (dy (ldim a s)) 1); try reflexivity;
  destruct (Z.eqb_spec (dx (ldim b s)) 1); destruct (Z.eqb_spec (dy (ldim b s)) 1); try reflexivity;
  exfalso; apply H; unfold vector; lia.
Qed.

End Gen.

(** ** Real numbers *)
Lemma nsum2_R : forall U V h, nsum2 U V h = rsum U (fun x => rsum V (fun y => h x y)).
Proof.
  intros U V h. unfold nsum2, rsum at 1. cbn [nadd n0 NumR]. apply fold_z_ext. intros x acc Hx.
  assert (G : forall n acc, fold_z (fun a y => a + h x y)%R n acc = (acc + rsum n (fun y => h x y))%R).
  { intros n. induction n using Zrange_ind; intros.
    - rewrite fold_z_0, rsum_neg by lia. lra.
    - rewrite fold_z_snoc, rsum_S, IHn by lia. lra. }
  apply G.
Qed.

(** Sum of a three-dimensional array. *)
Definition rsum3 (d : dim3) (f : Z -> Z -> Z -> R) : R :=
  rsum (dz d) (fun z => rsum (dy d) (fun y => rsum (dx d) (fun x => f x y z))).

Lemma rsum3_storage : forall d f, fits d -> rsum (vol d) (elem_no d f) = rsum3 d f.
Proof.
  intros d f HF. destruct (fits_dims d HF) as (A & B & C). unfold vol, rsum3.
  rewrite rsum_mult by nia. apply rsum_ext. intros z Hz. rewrite rsum_mult by lia. apply rsum_ext. intros y Hy. apply rsum_ext. intros x Hx.
  replace (x + dx d * y + dx d * dy d * z) with (lin d x y z) by reflexivity. apply elem_no_lin. unfold inb. lia.
Qed.

Theorem mul_assoc : forall S m1 m2 m3 m4 m5 m6 m7 m8 (a b c : lz S R) s X K L Y Z0 f g h,
  is_lz a s (D3 X K Z0) f -> is_lz b s (D3 K L Z0) g -> is_lz c s (D3 L Y Z0) h -> 0 <= K < two31 -> 0 <= L < two31 ->
  exists ab bc l r e, mk_mul m1 m2 Ref Ref a b s = Ok ab /\ mk_mul m3 m4 Ref Ref ab c s = Ok l /\
    mk_mul m5 m6 Ref Ref b c s = Ok bc /\ mk_mul m7 m8 Ref Ref a bc s = Ok r /\
    is_lz l s (D3 X Y Z0) e /\ is_lz r s (D3 X Y Z0) e.
Proof.
  intros S m1 m2 m3 m4 m5 m6 m7 m8 a b c s X K L Y Z0 f g h HA HB HC HK HL.
  destruct (mul_ok m1 m2 Ref Ref a b s X K L Z0 f g) as (ab & E1 & I1); auto.
  destruct (mul_ok m3 m4 Ref Ref ab c s X L Y Z0 _ h I1) as (l & E2 & I2); auto.
  destruct (mul_ok m5 m6 Ref Ref b c s K L Y Z0 g h) as (bc & E3 & I3); auto.
  destruct (mul_ok m7 m8 Ref Ref a bc s X K Y Z0 f _ HA I3) as (r & E4 & I4); auto.
  exists ab, bc, l, r. eexists. repeat split; [exact E1|exact E2|exact E3|exact E4|apply I2|apply I2|apply I4|].
  intros x y z Hi. destruct I4 as (_ & I4). rewrite I4 by assumption. f_equal. change (@nsum R NumR) with rsum. cbn [nmul NumR].
  transitivity (rsum K (fun k => rsum L (fun j => f x k z * (g k j z * h j y z))%R)).
  - apply rsum_ext. intros. rewrite <- rsum_scal. reflexivity.
  - rewrite rsum_exchange. apply rsum_ext. intros. rewrite <- rsum_scal_r. apply rsum_ext. intros. lra.
Qed.

Theorem mul_transpose : forall S m1 m2 m3 m4 (a b : lz S R) s X K Y Z0 f g,
  is_lz a s (D3 X K Z0) f -> is_lz b s (D3 K Y Z0) g -> 0 <= K < two31 ->
  exists ab r e, mk_mul m1 m2 Ref Ref a b s = Ok ab /\
    mk_mul m3 m4 Ref Ref (mk_transpose Ref b s) (mk_transpose Ref a s) s = Ok r /\
    is_lz (mk_transpose Ref ab s) s (D3 Y X Z0) e /\ is_lz r s (D3 Y X Z0) e.
Proof.
  intros S m1 m2 m3 m4 a b s X K Y Z0 f g HA HB HK.
  destruct (mul_ok m1 m2 Ref Ref a b s X K Y Z0 f g) as (ab & E1 & I1); auto.
  destruct (mul_ok m3 m4 Ref Ref (mk_transpose Ref b s) (mk_transpose Ref a s) s Y K X Z0 _ _ (transpose_ok b s _ _ _ _ HB) (transpose_ok a s _ _ _ _ HA)) as (r & E2 & I2); auto.
  exists ab, r. eexists. split; [exact E1|]. split; [exact E2|]. split; [apply transpose_ok; exact I1|].
  eapply is_lz_ext; [exact I2|]. intros. cbv beta. change (@nsum R NumR) with rsum. apply rsum_ext. intros. cbn. lra.
Qed.

Lemma strict_weak_R_max : strict_weak (@lt_max R NumR).
Proof.
  unfold strict_weak, lt_max. cbn. unfold Rltb. repeat split; intros;
    repeat match goal with |- context [Rlt_dec ?a ?b] => destruct (Rlt_dec a b) | H : context [Rlt_dec ?a ?b] |- _ => destruct (Rlt_dec a b) end;
    try discriminate; try reflexivity; lra.
Qed.
Lemma strict_weak_R_min : strict_weak (@lt_min R NumR).
Proof.
  unfold strict_weak, lt_min. cbn. unfold Rltb. repeat split; intros;
    repeat match goal with |- context [Rlt_dec ?a ?b] => destruct (Rlt_dec a b) | H : context [Rlt_dec ?a ?b] |- _ => destruct (Rlt_dec a b) end;
    try discriminate; try reflexivity; lra.
Qed.
Lemma strict_weak_Z_max : strict_weak (@lt_max Z NumZ).
Proof.
  unfold strict_weak, lt_max. cbn. repeat split; intros;
  repeat match goal with H : (_ <? _) = true |- _ => apply Z.ltb_lt in H | H : (_ <? _) = false |- _ => apply Z.ltb_ge in H end;
  try apply Z.ltb_lt; try apply Z.ltb_ge; lia.
Qed.
Lemma strict_weak_Z_min : strict_weak (@lt_min Z NumZ).
Proof.
  unfold strict_weak, lt_min. cbn. repeat split; intros;
  repeat match goal with H : (_ <? _) = true |- _ => apply Z.ltb_lt in H | H : (_ <? _) = false |- _ => apply Z.ltb_ge in H end;
  try apply Z.ltb_lt; try apply Z.ltb_ge; lia.
Qed.

(** Largest element, over the reals; also the free and member index functions. *)
Theorem max_ok : forall S (a : lz S R) s d f, is_lz a s d f -> fits d -> pos d ->
  exists x y z, inb d x y z /\ mmax a s = Ok (f x y z) /\ max_index3 a s = Ok (D3 x y z) /\
    (forall x' y' z', inb d x' y' z' -> (f x' y' z' <= f x y z)%R) /\
    (forall x' y' z', inb d x' y' z' -> lin d x' y' z' < lin d x y z -> (f x' y' z' < f x y z)%R).
Proof.
  intros S a s d f HA HF HP. destruct (extremum_ok lt_max a s d f strict_weak_R_max HA HF HP) as (x & y & z & Hi & E & Mx & Fs).
  exists x, y, z. split; [exact Hi|]. unfold mmax, max_index3. rewrite E. cbn [rbind]. split; [reflexivity|]. split; [reflexivity|]. split.
  - intros x' y' z' Hi'. specialize (Mx _ _ _ Hi'). unfold lt_max in Mx. cbn in Mx. unfold Rltb in Mx. destruct (Rlt_dec _ _); [discriminate|lra].
  - intros x' y' z' Hi' Hl. specialize (Fs _ _ _ Hi' Hl). unfold lt_max in Fs. cbn in Fs. unfold Rltb in Fs. destruct (Rlt_dec _ _); [lra|discriminate].
Qed.
Theorem min_ok : forall S (a : lz S R) s d f, is_lz a s d f -> fits d -> pos d ->
  exists x y z, inb d x y z /\ mmin a s = Ok (f x y z) /\ min_index3 a s = Ok (D3 x y z) /\
    (forall x' y' z', inb d x' y' z' -> (f x y z <= f x' y' z')%R) /\
    (forall x' y' z', inb d x' y' z' -> lin d x' y' z' < lin d x y z -> (f x y z < f x' y' z')%R).
Proof.
  intros S a s d f HA HF HP. destruct (extremum_ok lt_min a s d f strict_weak_R_min HA HF HP) as (x & y & z & Hi & E & Mx & Fs).
  exists x, y, z. split; [exact Hi|]. unfold mmin, min_index3. rewrite E. cbn [rbind]. split; [reflexivity|]. split; [reflexivity|]. split.
  - intros x' y' z' Hi'. specialize (Mx _ _ _ Hi'). unfold lt_min in Mx. cbn in Mx. unfold Rltb in Mx. destruct (Rlt_dec _ _); [discriminate|lra].
  - intros x' y' z' Hi' Hl. specialize (Fs _ _ _ Hi' Hl). unfold lt_min in Fs. cbn in Fs. unfold Rltb in Fs. destruct (Rlt_dec _ _); [lra|discriminate].
Qed.

(** The member functions give the storage position of the same element. *)
Theorem member_index : forall T (N : Num T) (m : mat T) d f, strict_weak (@lt_max T N) -> strict_weak (@lt_min T N) ->
  is_mat m d f -> fits d -> pos d ->
  (forall x y z, max_index3 (l_val m) tt = Ok (D3 x y z) -> inb d x y z /\ max_index m = Ok (lin d x y z)) /\
  (forall x y z, min_index3 (l_val m) tt = Ok (D3 x y z) -> inb d x y z /\ min_index m = Ok (lin d x y z)).
Proof.
  intros T N m d f W1 W2 IM HF HP. assert (HD : mdim m = d) by apply IM.
  split; intros x y z; unfold max_index3, max_index, min_index3, min_index.
  - destruct (extremum_ok lt_max (l_val m) tt d f W1 (is_mat_lz m d f tt IM HF) HF HP) as (x0 & y0 & z0 & Hi & E & _).
    rewrite E. cbn [rbind]. intros H. injection H as -> -> ->. split; [exact Hi|]. rewrite HD. apply it_diff_idx; assumption.
  - destruct (extremum_ok lt_min (l_val m) tt d f W2 (is_mat_lz m d f tt IM HF) HF HP) as (x0 & y0 & z0 & Hi & E & _).
    rewrite E. cbn [rbind]. intros H. injection H as -> -> ->. split; [exact Hi|]. rewrite HD. apply it_diff_idx; assumption.
Qed.

(** Extremum over the integers. *)
Theorem max_ok_Z : forall S (a : lz S Z) s d f, is_lz a s d f -> fits d -> pos d ->
  exists x y z, inb d x y z /\ mmax a s = Ok (f x y z) /\ max_index3 a s = Ok (D3 x y z) /\
    (forall x' y' z', inb d x' y' z' -> f x' y' z' <= f x y z) /\
    (forall x' y' z', inb d x' y' z' -> lin d x' y' z' < lin d x y z -> f x' y' z' < f x y z).
Proof.
  intros S a s d f HA HF HP. destruct (extremum_ok lt_max a s d f strict_weak_Z_max HA HF HP) as (x & y & z & Hi & E & Mx & Fs).
  exists x, y, z. split; [exact Hi|]. unfold mmax, max_index3. rewrite E. cbn [rbind]. split; [reflexivity|]. split; [reflexivity|]. split.
  - intros x' y' z' Hi'. specialize (Mx _ _ _ Hi'). unfold lt_max in Mx. cbn in Mx. apply Z.ltb_ge in Mx. lia.
  - intros x' y' z' Hi' Hl. specialize (Fs _ _ _ Hi' Hl). unfold lt_max in Fs. cbn in Fs. apply Z.ltb_lt in Fs. lia.
Qed.

(** Integer dot product: exact if the running sums are ints. *)
Fixpoint zsum_n (n : nat) (f : Z -> Z) : Z := match n with O => 0 | S n' => zsum_n n' f + f (Z.of_nat n') end.
Theorem dot_int : forall S (a b : lz S Z) s d e f g,
  is_lz a s d f -> is_lz b s e g -> fits d -> fits e -> pos d -> pos e -> vector d -> vector e -> vol d = vol e ->
  (forall n, (Z.of_nat n <= vol d) -> - two31 <= zsum_n n (fun k => comp d f k * comp e g k) < two31) ->
  dot i32 a b s = Ok (zsum_n (Z.to_nat (vol d)) (fun k => comp d f k * comp e g k)).
Proof.
  intros S a b s d e f g HA HB Fd Fe Pd Pe Vd Ve HV HR.
  apply (dot_general i32 a b s d e f g (fun k => zsum_n (Z.to_nat k) (fun k => comp d f k * comp e g k))); auto.
  intros k Hk. cbn [nadd nofZ nmul NumZ]. replace (Z.to_nat (k + 1)) with (Datatypes.S (Z.to_nat k)) by lia. cbn [zsum_n].
  rewrite Z2Nat.id by lia. specialize (HR (Datatypes.S (Z.to_nat k))). cbn [zsum_n] in HR. rewrite Z2Nat.id in HR by lia.
  apply i32_ok. apply HR. lia.
Qed.

(** Conversion of a floating-point number to int: truncation towards zero; undefined outside the int range. *)
Definition trunc (r : R) : Z := if Rlt_dec r 0 then (- Int_part (- r))%Z else Int_part r.
Definition f2i (r : R) : res Z := i32 (trunc r).
Lemma trunc_IZR : forall z, trunc (IZR z) = z.
Proof.
  intros z. unfold trunc. assert (G : forall k, Int_part (IZR k) = k).
  { intros k. unfold Int_part. assert (up (IZR k) = k + 1); [|lia]. symmetry. apply tech_up; rewrite plus_IZR; lra. }
  destruct (Rlt_dec _ _).
  - rewrite <- opp_IZR, G. lia.
  - apply G.
Qed.
(** Floating-point vectors holding integers are multiplied exactly. *)
Theorem dot_whole : forall S (a b : lz S R) s d e f g,
  is_lz a s d (fun x y z => IZR (f x y z)) -> is_lz b s e (fun x y z => IZR (g x y z)) ->
  fits d -> fits e -> pos d -> pos e -> vector d -> vector e -> vol d = vol e ->
  (forall n, (Z.of_nat n <= vol d) -> - two31 <= zsum_n n (fun k => comp d f k * comp e g k) < two31) ->
  dot f2i a b s = Ok (zsum_n (Z.to_nat (vol d)) (fun k => comp d f k * comp e g k)).
Proof.
  intros S a b s d e f g HA HB Fd Fe Pd Pe Vd Ve HV HR.
  apply (dot_general f2i a b s d e _ _ (fun k => zsum_n (Z.to_nat k) (fun k => comp d f k * comp e g k)) HA HB); auto.
  intros k Hk. cbn [nadd nofZ nmul NumR]. replace (Z.to_nat (k + 1)) with (Datatypes.S (Z.to_nat k)) by lia. cbn [zsum_n].
  rewrite Z2Nat.id by lia. specialize (HR (Datatypes.S (Z.to_nat k))). cbn [zsum_n] in HR. rewrite Z2Nat.id in HR by lia.
  replace (comp d (fun x y z => IZR (f x y z)) k) with (IZR (comp d f k)) by (unfold comp; destruct (Z.eq_dec (dx d) 1); reflexivity).
  replace (comp e (fun x y z => IZR (g x y z)) k) with (IZR (comp e g k)) by (unfold comp; destruct (Z.eq_dec (dx e) 1); reflexivity).
  rewrite <- mult_IZR, <- plus_IZR. unfold f2i. rewrite trunc_IZR. apply i32_ok. apply HR. lia.
Qed.

Theorem equal_sym : forall S T (cmp : T -> T -> bool) (a b : lz S T) s d e f g, is_lz a s d f -> is_lz b s e g ->
  fits d -> iterable d -> fits e -> iterable e -> (forall x y, cmp x y = cmp y x) ->
  matrix_equal cmp a b s = matrix_equal cmp b a s.
Proof.
  intros S T cmp a b s d e f g HA HB Fd Id Fe Ie Hs.
  destruct (equal_ok cmp a b s d e f g HA HB Fd Id) as (r & E & R). destruct (equal_ok cmp b a s e d g f HB HA Fe Ie) as (r' & E' & R').
  rewrite E, E'. f_equal. destruct r, r'; try reflexivity.
  - destruct R as (R & _). destruct (R eq_refl) as (-> & H). symmetry. apply R'. split; [reflexivity|]. intros. rewrite Hs. auto.
  - destruct R' as (R' & _). destruct (R' eq_refl) as (-> & H). apply R. split; [reflexivity|]. intros. rewrite Hs. auto.
Qed.
Theorem equal_refl : forall S T (cmp : T -> T -> bool) (a : lz S T) s d f, is_lz a s d f -> fits d -> iterable d ->
  (forall x, cmp x x = true) -> matrix_equal cmp a a s = Ok true.
Proof.
  intros S T cmp a s d f HA Fd Id Hr. destruct (equal_ok cmp a a s d d f f HA HA Fd Id) as (r & E & R). rewrite E. f_equal.
  apply R. split; [reflexivity|]. auto.
Qed.

(** MatrixMath.h 514: the comparison of the tolerant version over the reals. *)
Definition close (eps : R) (x y : R) : bool := if Rle_dec (Rabs (x - y)) eps then true else false.
Lemma close_sym : forall eps x y, close eps x y = close eps y x.
Proof. intros. unfold close. rewrite Rabs_minus_sym. reflexivity. Qed.
Theorem equal_eps : forall S eps (a b : lz S R) s d e f g, is_lz a s d f -> is_lz b s e g -> fits d -> iterable d ->
  exists r, matrix_equal (close eps) a b s = Ok r /\
    (r = true <-> d = e /\ forall x y z, inb d x y z -> (Rabs (f x y z - g x y z) <= eps)%R).
Proof.
  intros S eps a b s d e f g HA HB Fd Id. destruct (equal_ok (close eps) a b s d e f g HA HB Fd Id) as (r & E & R).
  exists r. split; [exact E|]. rewrite R. unfold close. split; intros (-> & H); split; auto; intros x y z Hi; specialize (H x y z Hi).
  - destruct (Rle_dec _ _); [assumption|discriminate].
  - destruct (Rle_dec _ _); [reflexivity|contradiction].
Qed.

(** Integer mean. *)
Theorem mean_int_ok : forall S (a : lz S Z) s d f, is_lz a s d f -> fits d -> pos d ->
  (forall n, (Z.of_nat n <= vol d) -> - two31 <= zsum_n n (elem_no d f) < two31) ->
  0 <= zsum_n (Z.to_nat (vol d)) (elem_no d f) ->
  mean_int a s = Ok (zsum_n (Z.to_nat (vol d)) (elem_no d f) / vol d).
Proof.
  intros S a s d f (D & V) HF HP HR H0. unfold mean_int, accumulate. rewrite D, it_loop_iter by (apply pos_iterable; assumption).
  assert (HV : 0 < vol d). { unfold vol. destruct HP as (A & B & C). assert (0 < dx d * dy d) by nia. nia. }
  destruct (mfor_inv (fun k acc => acc = zsum_n (Z.to_nat k) (elem_no d f))
    (fun k => (fun _ i => fun acc => match (x <- lget a s i ;; i32 (acc + x))%res with
      | Ok acc' => ORet acc' tt | Throw e => OThrow acc e | UB => OUB end) k (idx_of (dx d) (dy d) k)) (vol d) 0) as (r & R1 & R2).
  - lia.
  - intros k acc Hk ->. destruct (position_case d k HF Hk) as (x & y & z & Hi & Hl & E). rewrite E. cbv beta. rewrite V by assumption. cbn [rbind].
    exists (zsum_n (Z.to_nat (k + 1)) (elem_no d f)). split; [|reflexivity].
    replace (Z.to_nat (k + 1)) with (Datatypes.S (Z.to_nat k)) by lia. specialize (HR (Datatypes.S (Z.to_nat k))). cbn [zsum_n] in *.
    rewrite Z2Nat.id in * by lia. assert (EK : elem_no d f k = f x y z) by (rewrite Hl; apply elem_no_lin; assumption).
    rewrite EK in *. rewrite i32_ok by (apply HR; lia). reflexivity.
  - reflexivity.
  - cbv beta in R1. rewrite R1. cbn [run_state rbind]. rewrite base_size_fits by assumption. cbn [rbind].
    destruct (Z.eqb_spec (vol d) 0); [lia|]. rewrite R2. f_equal. rewrite u64_id; [reflexivity|].
    specialize (HR (Z.to_nat (vol d))). unfold two31, two64 in *. lia.
Qed.
