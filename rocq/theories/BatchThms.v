(** Random initialisation and batch update. *)
From Coq Require Import ZArith List Bool Lia Reals Lra Psatz.
From Verif Require Import Base Dim Matrix View Num Expr Spec Iter MatFacts MatThms ViewThms ExprThms Sums Batch LayerFacts.
Import ListNotations.
Local Open Scope Z_scope.

Section Generic.
Context {T : Type} {N : Num T}.

Lemma flat_write_loop : forall (m0 : mat T) d f (g : Z -> T) body, fits d -> iterable d -> is_mat m0 d f ->
  (forall k i m, 0 <= k < vol d -> body k i m = mwrite_flat k (g k) m) ->
  exists m1, it_loop d body m0 = ORet m1 tt /\ is_mat m1 d (fun x y z => g (lin d x y z)).
Proof.
  intros m0 d f g body F IT (D0 & L0 & C0) Hb. rewrite it_loop_iter by exact IT. pose proof (fits_vol d F) as [V _].
  match goal with |- context [mfor (vol d) ?b m0] =>
    destruct (write_loop (vol d) (fun k => k) g b m0) as (m1 & E1 & W) end.
  - lia.
  - intros. lia.
  - auto.
  - intros k m Hk (A & B & C & D). rewrite Hb by exact Hk. apply mwrite_flat_put. lia.
  - exists m1. split; [exact E1|]. destruct W as (A & B & C & D). split; [congruence|]. split; [lia|].
    intros x y z I. pose proof (lin_range d x y z I). change (x + dx d * y + dx d * dy d * z) with (lin d x y z). apply C. lia.
Qed.

Context (rand : Z -> Z) (rmax : Z) (sqrtT : T -> T).

Lemma fill_random_ok : forall (m0 : mat T) d f k0, fits d -> iterable d -> is_mat m0 d f ->
  exists m1, fill_random rand rmax k0 m0 = ORet m1 tt /\ is_mat m1 d (fun x y z => rand_val rand rmax (k0 + lin d x y z)).
Proof.
  intros m0 d f k0 F IT H. unfold fill_random, bind, mget. rewrite (is_mat_dim _ _ _ H).
  apply (flat_write_loop m0 d f (fun k => rand_val rand rmax (k0 + k))); auto.
Qed.

Lemma l2norm_ok : forall (m : mat T) d f, fits d -> iterable d -> is_mat m d f ->
  l2norm sqrtT m = Ok (sqrtT (nsum (vol d) (elem_no d (fun x y z => nmul (f x y z) (f x y z))))).
Proof.
  intros m d f F IT H. unfold l2norm, mk_elem. cbn [ldim l_val]. unfold check_size. rewrite dim_eqb_refl. cbn [rbind].
  rewrite (sum_ok _ tt d (fun x y z => nmul (f x y z) (f x y z))); [reflexivity| |exact F|exact IT].
  split; [exact (is_mat_dim _ _ _ H)|]. intros x y z I. cbn [lget l_val].
  rewrite (is_mat_read m d f) by assumption. reflexivity.
Qed.

Lemma normalise_ok : forall (m : mat T) d f, fits d -> iterable d -> is_mat m d f ->
  exists m1, normalise sqrtT m = ORet m1 tt /\
    is_mat m1 d (fun x y z => ndiv (f x y z) (sqrtT (nsum (vol d) (elem_no d (fun x y z => nmul (f x y z) (f x y z)))))).
Proof.
  intros m d f F IT H. unfold normalise, bind, mget. rewrite (l2norm_ok m d f F IT H). cbn [lift].
  eapply (compound_scalar_ok T op_div); eauto. reflexivity.
Qed.

(** The value of element [k] of a parameter matrix after initialisation. *)
Definition init_val (k0 : Z) (d : dim3) (x y z : Z) : T :=
  ndiv (rand_val rand rmax (k0 + lin d x y z))
       (sqrtT (nsum (vol d) (elem_no d (fun x y z => nmul (rand_val rand rmax (k0 + lin d x y z)) (rand_val rand rmax (k0 + lin d x y z)))))).

Theorem init_params_ok : forall (w b : mat T) dw db f g, fits dw -> iterable dw -> fits db -> iterable db ->
  is_mat w dw f -> is_mat b db g ->
  exists w' b', init_params rand rmax sqrtT (w, b) = ORet (w', b') tt /\
    is_mat w' dw (init_val 0 dw) /\ is_mat b' db (init_val (Z.of_nat (it_fuel dw)) db).
Proof.
  intros w b dw db f g FW IW FB IB HW HB. unfold init_params.
  destruct (fill_random_ok w dw f 0 FW IW HW) as (w1 & E1 & I1).
  destruct (fill_random_ok b db g (Z.of_nat (it_fuel dw)) FB IB HB) as (b1 & E2 & I2).
  destruct (normalise_ok w1 dw _ FW IW I1) as (w2 & E3 & I3).
  destruct (normalise_ok b1 db _ FB IB I2) as (b2 & E4 & I4).
  exists w2, b2. split; [|split; assumption].
  unfold bind, mget, on_fst, on_snd. cbn [fst]. rewrite E1, (is_mat_dim _ _ _ HW), E2, E3, E4. reflexivity.
Qed.

(** ** Batch update *)
Lemma compound_val_ok : forall (h : T -> T -> res T) (m0 a : mat T) d f g r, fits d -> iterable d ->
  is_mat m0 d f -> is_mat a d g -> (forall x y z, inb d x y z -> h (f x y z) (g x y z) = Ok (r x y z)) ->
  exists m1, compound_mat h (l_val a) m0 = ORet m1 tt /\ is_mat m1 d r.
Proof.
  intros h m0 a d f g r F IT H0 Ha Hh.
  apply (compound_general T h (l_val a) m0 d f g r F IT H0); auto. apply is_mat_lz; assumption.
Qed.

(** Gradient slot number [i] holds the matrix with elements [G i]. *)
Definition slots_are (l : list (mat T)) (d : dim3) (G : Z -> Z -> Z -> Z -> T) : Prop :=
  forall i, 0 <= i < Z.of_nat (length l) -> exists g, vget l i = Ok g /\ is_mat g d (G i).

Lemma sum_slots_ok : forall wg bg aw ab dw db GW GB n, fits dw -> iterable dw -> fits db -> iterable db ->
  n = Z.of_nat (length wg) -> n = Z.of_nat (length bg) -> slots_are wg dw GW -> slots_are bg db GB ->
  is_mat aw dw (fun _ _ _ => n0) -> is_mat ab db (fun _ _ _ => n0) ->
  exists w b, sum_slots wg bg (aw, ab) = ORet (w, b) tt /\
    is_mat w dw (fun x y z => nsum n (fun i => GW i x y z)) /\ is_mat b db (fun x y z => nsum n (fun i => GB i x y z)).
Proof.
  intros wg bg aw ab dw db GW GB n FW IW FB IB Ew Eb SW SB HA HB.
  set (Inv := fun k (s : mat T * mat T) => is_mat (fst s) dw (fun x y z => nsum k (fun i => GW i x y z)) /\
                                         is_mat (snd s) db (fun x y z => nsum k (fun i => GB i x y z))).
  unfold sum_slots. rewrite <- Ew.
  match goal with |- context [mfor n ?b (aw, ab)] => destruct (mfor_inv Inv b n (aw, ab)) as (s & Es & (Is1 & Is2)) end.
  - lia.
  - intros k [w b] Hk (I1 & I2). cbn [fst snd] in *.
    destruct (SW k) as (gw & E1 & G1); [lia|]. destruct (SB k) as (gb & E2 & G2); [lia|].
    destruct (compound_val_ok op_add w gw dw _ _ (fun x y z => nsum (k + 1) (fun i => GW i x y z)) FW IW I1 G1) as (w' & Ew' & Iw').
    { intros. unfold op_add. unfold nsum. rewrite fold_z_snoc by lia. reflexivity. }
    destruct (compound_val_ok op_add b gb db _ _ (fun x y z => nsum (k + 1) (fun i => GB i x y z)) FB IB I2 G2) as (b' & Eb' & Ib').
    { intros. unfold op_add. unfold nsum. rewrite fold_z_snoc by lia. reflexivity. }
    exists (w', b'). split; [|split; assumption].
    unfold bind. rewrite E1. cbn [lift]. unfold on_fst. rewrite Ew'. rewrite E2. cbn [lift]. unfold on_snd. rewrite Eb'. reflexivity.
  - split; cbn [fst snd]; eapply is_mat_ext; eauto; intros; unfold nsum; rewrite fold_z_0 by lia; reflexivity.
  - destruct s as [w b]. exists w, b. split; [exact Es|]. split; assumption.
Qed.

Lemma sub_scaled_ok : forall (lr : T) (m a : mat T) d f g, fits d -> iterable d -> is_mat m d f -> is_mat a d g ->
  exists m1, (m' <- mget ;; compound_mat op_sub (mk_scal_l op_mul lr (l_val a) m'))%st m = ORet m1 tt /\
    is_mat m1 d (fun x y z => nsub (f x y z) (nmul lr (g x y z))).
Proof.
  intros lr m a d f g F IT Hm Ha. unfold bind, mget.
  apply (compound_general T op_sub _ m d f (fun x y z => nmul lr (g x y z)) _ F IT Hm).
  - split; [cbn [mk_scal_l ldim l_val]; exact (is_mat_dim _ _ _ Ha)|].
    intros x y z I. cbn [mk_scal_l lget l_val]. rewrite (is_mat_read a d g) by assumption. reflexivity.
  - reflexivity.
  - reflexivity.
Qed.

(** The value of a parameter after the update: p - rate * (sum of the slots / number of slots) *)
Definition step_val (lr : T) (n : Z) (p : T) (G : Z -> T) : T := nsub p (nmul lr (ndiv (nsum n G) (nofZ n))).

Theorem apply_batch_ok : forall (lr : T) wg bg w b dw db W B GW GB n, fits dw -> iterable dw -> fits db -> iterable db ->
  n = Z.of_nat (length wg) -> n = Z.of_nat (length bg) -> slots_are wg dw GW -> slots_are bg db GB ->
  is_mat w dw W -> is_mat b db B ->
  exists w' b', apply_batch lr wg bg (w, b) = ORet (w', b') tt /\
    is_mat w' dw (fun x y z => step_val lr n (W x y z) (fun i => GW i x y z)) /\
    is_mat b' db (fun x y z => step_val lr n (B x y z) (fun i => GB i x y z)).
Proof.
  intros lr wg bg w b dw db W B GW GB n FW IW FB IB Ew Eb SW SB HW HB.
  unfold apply_batch, bind at 1, mget at 1. cbn [fst snd]. rewrite (is_mat_dim _ _ _ HW), (is_mat_dim _ _ _ HB).
  destruct (mat_fill_ok dw n0 FW) as (aw0 & E1 & I1). destruct (mat_fill_ok db n0 FB) as (ab0 & E2 & I2).
  unfold bind at 1. rewrite E1, lift_ok. unfold bind at 1. rewrite E2, lift_ok.
  destruct (sum_slots_ok wg bg aw0 ab0 dw db GW GB n FW IW FB IB Ew Eb SW SB I1 I2) as (sw & sb & E3 & I3 & I4).
  unfold bind at 1. unfold run_state at 1. rewrite E3, lift_ok. cbn [fst snd].
  rewrite <- Ew, <- Eb.
  destruct (compound_scalar_ok T op_div (fun _ => Ok (nofZ n)) (nofZ n) sw dw _ (fun x y z => ndiv (nsum n (fun i => GW i x y z)) (nofZ n)) FW IW I3)
    as (aw & E5 & I5); [reflexivity|reflexivity|].
  destruct (compound_scalar_ok T op_div (fun _ => Ok (nofZ n)) (nofZ n) sb db _ (fun x y z => ndiv (nsum n (fun i => GB i x y z)) (nofZ n)) FB IB I4)
    as (ab & E6 & I6); [reflexivity|reflexivity|].
  unfold bind at 1. unfold run_state at 1. rewrite E5, lift_ok.
  unfold bind at 1. unfold run_state at 1. rewrite E6, lift_ok.
  destruct (sub_scaled_ok lr w aw dw W _ FW IW HW I5) as (w' & E7 & I7).
  destruct (sub_scaled_ok lr b ab db B _ FB IB HB I6) as (b' & E8 & I8).
  exists w', b'. split; [|split; assumption].
  unfold bind at 1. unfold on_fst. rewrite E7. unfold on_snd. rewrite E8. reflexivity.
Qed.

Lemma mfor_throw_at : forall {S} (I : Z -> S -> Prop) (body : Z -> M S unit) n k s e, 0 <= k < n -> I 0 s ->
  (forall j s, 0 <= j < k -> I j s -> exists s', body j s = ORet s' tt /\ I (j + 1) s') ->
  (forall s, I k s -> exists s', body k s = OThrow s' e) ->
  exists s', mfor n body s = OThrow s' e.
Proof.
  intros S I body n k s e Hk H0 HS HT.
  assert (G : forall m j s, j + Z.of_nat m = n -> j <= k -> 0 <= j -> I j s -> exists s', mfor_n m j body s = OThrow s' e).
  { induction m as [|m IH]; intros j s1 Hm Hj Hj0 HI; [lia|]. cbn [mfor_n]. unfold bind.
    destruct (Z.eq_dec j k) as [->|NE].
    - destruct (HT s1 HI) as (s' & E). rewrite E. eauto.
    - destruct (HS j s1) as (s' & E & I'); [lia|exact HI|]. rewrite E. apply IH; try lia. exact I'. }
  unfold mfor. apply G; auto; lia.
Qed.

(** A gradient of another shape in slot [i] (the slots before it being right): MatrixSizeException, parameters unchanged. *)
Theorem apply_batch_mismatch : forall (lr : T) wg bg w b dw db W B GW GB n i gw gb,
  fits dw -> iterable dw -> fits db -> iterable db ->
  n = Z.of_nat (length wg) -> n = Z.of_nat (length bg) -> 0 <= i < n ->
  (forall j, 0 <= j < i -> exists g, vget wg j = Ok g /\ is_mat g dw (GW j)) ->
  (forall j, 0 <= j < i -> exists g, vget bg j = Ok g /\ is_mat g db (GB j)) ->
  vget wg i = Ok gw -> vget bg i = Ok gb ->
  (mdim gw <> dw \/ (exists G, is_mat gw dw G) /\ mdim gb <> db) ->
  is_mat w dw W -> is_mat b db B ->
  apply_batch lr wg bg (w, b) = OThrow (w, b) MatrixSize.
Proof.
  intros lr wg bg w b dw db W B GW GB n i gw gb FW IW FB IB Ew Eb Hi SW SB Egw Egb Hmis HW HB.
  unfold apply_batch, bind at 1, mget at 1. cbn [fst snd]. rewrite (is_mat_dim _ _ _ HW), (is_mat_dim _ _ _ HB).
  destruct (mat_fill_ok dw n0 FW) as (aw0 & E1 & I1). destruct (mat_fill_ok db n0 FB) as (ab0 & E2 & I2).
  unfold bind at 1. rewrite E1, lift_ok. unfold bind at 1. rewrite E2, lift_ok.
  enough (exists s', sum_slots wg bg (aw0, ab0) = OThrow s' MatrixSize) as (s' & E).
  { unfold bind at 1. unfold run_state at 1. rewrite E. reflexivity. }
  unfold sum_slots. rewrite <- Ew.
  set (Inv := fun k (s : mat T * mat T) => is_mat (fst s) dw (fun x y z => nsum k (fun i => GW i x y z)) /\
                                         is_mat (snd s) db (fun x y z => nsum k (fun i => GB i x y z))).
  apply (mfor_throw_at Inv _ n i).
  - exact Hi.
  - split; cbn [fst snd]; eapply is_mat_ext; eauto; intros; unfold nsum; rewrite fold_z_0 by lia; reflexivity.
  - intros k [w1 b1] Hk (J1 & J2). cbn [fst snd] in *.
    destruct (SW k Hk) as (g1 & Q1 & G1). destruct (SB k Hk) as (g2 & Q2 & G2).
    destruct (compound_val_ok op_add w1 g1 dw _ _ (fun x y z => nsum (k + 1) (fun i => GW i x y z)) FW IW J1 G1) as (w' & Ew' & Iw').
    { intros. unfold op_add. unfold nsum. rewrite fold_z_snoc by lia. reflexivity. }
    destruct (compound_val_ok op_add b1 g2 db _ _ (fun x y z => nsum (k + 1) (fun i => GB i x y z)) FB IB J2 G2) as (b' & Eb' & Ib').
    { intros. unfold op_add. unfold nsum. rewrite fold_z_snoc by lia. reflexivity. }
    exists (w', b'). split; [|split; assumption].
    unfold bind. rewrite Q1. cbn [lift]. unfold on_fst. rewrite Ew'. rewrite Q2. cbn [lift]. unfold on_snd. rewrite Eb'. reflexivity.
  - intros [w1 b1] (J1 & J2). cbn [fst snd] in *. unfold bind at 1. unfold bind at 1. rewrite Egw, lift_ok. unfold on_fst.
    assert (CM : forall (m a : mat T), mdim m <> mdim a -> compound_mat op_add (l_val a) m = OThrow m MatrixSize).
    { intros m a NE. unfold compound_mat, bind, mget. cbn [ldim l_val]. unfold check_size.
      destruct (dim_eqb (mdim m) (mdim a)) eqn:Q; [apply dim_eqb_eq in Q; contradiction|]. reflexivity. }
    destruct Hmis as [NE|((G & HG) & NE)].
    + rewrite CM by (rewrite (is_mat_dim _ _ _ J1); congruence). eauto.
    + destruct (compound_val_ok op_add w1 gw dw _ _ (fun x y z => nadd (nsum i (fun i => GW i x y z)) (G x y z)) FW IW J1 HG) as (w' & Ew' & Iw').
      { reflexivity. }
      rewrite Ew'. unfold bind at 1. rewrite Egb, lift_ok. unfold on_snd.
      rewrite CM by (rewrite (is_mat_dim _ _ _ J2); congruence). eauto.
Qed.
End Generic.

(** ** Initialisation over the real numbers *)
Section RealInit.
Variable rand : Z -> Z.
Variable rmax : Z.

Lemma rand_val_R : forall k, (@rand_val R NumR rand rmax k = 1 - 2 * IZR (rand k) / IZR rmax)%R.
Proof. reflexivity. Qed.

(** Values in [0, rmax] with odd [rmax] never give zero, because 2r = rmax has no solution. *)
Lemma rand_val_range : forall k, (0 <= rand k <= rmax) -> Z.odd rmax = true -> 0 < rmax ->
  (-1 <= @rand_val R NumR rand rmax k <= 1)%R /\ (@rand_val R NumR rand rmax k <> 0)%R.
Proof.
  intros k Hk Ho Hp. rewrite rand_val_R.
  assert (P : (0 < IZR rmax)%R) by (apply IZR_lt; lia).
  assert (A : (0 <= IZR (rand k))%R) by (apply IZR_le; lia). assert (B : (IZR (rand k) <= IZR rmax)%R) by (apply IZR_le; lia).
  assert (Q : (0 <= IZR (rand k) / IZR rmax <= 1)%R).
  { split; [apply Rmult_le_pos; [lra|]; left; apply Rinv_0_lt_compat; exact P|].
    apply Rmult_le_reg_r with (IZR rmax); [exact P|]. unfold Rdiv. rewrite Rmult_assoc, Rinv_l by lra. lra. }
  replace (2 * IZR (rand k) / IZR rmax)%R with (2 * (IZR (rand k) / IZR rmax))%R by (unfold Rdiv; ring).
  split; [lra|]. intro E. assert (E2 : (2 * IZR (rand k) = IZR rmax)%R).
  { assert ((IZR (rand k) / IZR rmax = / 2)%R) by lra.
    apply (f_equal (fun r => (r * (2 * IZR rmax))%R)) in H. unfold Rdiv in H. field_simplify in H; [|lra]. lra. }
  rewrite <- mult_IZR in E2. apply eq_IZR in E2. rewrite <- E2 in Ho. rewrite Z.odd_mul in Ho. discriminate Ho.
Qed.

Lemma init_norm : forall k0 d, fits d -> 1 <= vol d -> (forall k, 0 <= rand k <= rmax) -> Z.odd rmax = true -> 0 < rmax ->
  let f := @init_val R NumR rand rmax sqrt k0 d in
  (forall x y z, inb d x y z -> (-1 <= f x y z <= 1)%R /\ f x y z <> 0%R) /\
  rsum3 d (fun x y z => f x y z * f x y z)%R = 1%R.
Proof.
  intros k0 d F V HR Ho Hp f.
  set (r := fun x y z => @rand_val R NumR rand rmax (k0 + lin d x y z)).
  set (S2 := rsum3 d (fun x y z => r x y z * r x y z)%R).
  assert (ES : @nsum R NumR (vol d) (elem_no d (fun x y z => nmul (r x y z) (r x y z))) = S2).
  { change (@nsum R NumR) with rsum. rewrite rsum3_storage by exact F. reflexivity. }
  assert (NZ : forall x y z, (r x y z <> 0)%R) by (intros; apply rand_val_range; auto).
  assert (LE : forall x y z, inb d x y z -> (r x y z * r x y z <= S2)%R).
  { intros x y z I. rewrite <- ES. change (@nsum R NumR) with rsum. pose proof (lin_range d x y z I) as L.
    pose proof (elem_no_lin d (fun x y z => nmul (r x y z) (r x y z)) x y z I) as EN. cbn [nmul NumR] in EN. rewrite <- EN.
    apply (rsum_ge_term (vol d) (elem_no d (fun x y z => r x y z * r x y z)%R)); [lia|]. intros. unfold elem_no. cbn [nmul NumR]. nra. }
  assert (exists x y z, inb d x y z) as (x0 & y0 & z0 & I0).
  { exists 0, 0, 0. pose proof (fits_dims d F). unfold vol in V. unfold inb. nia. }
  assert (PS : (0 < S2)%R). { pose proof (LE _ _ _ I0). pose proof (NZ x0 y0 z0). nra. }
  assert (Psq : (0 < sqrt S2)%R) by (apply sqrt_lt_R0; exact PS).
  assert (EF : forall x y z, f x y z = (r x y z / sqrt S2)%R).
  { intros. unfold f, init_val. fold (r x y z). change (fun x y z => nmul (rand_val rand rmax (k0 + lin d x y z)) (rand_val rand rmax (k0 + lin d x y z)))
      with (fun x y z => @nmul R NumR (r x y z) (r x y z)). rewrite ES. reflexivity. }
  split.
  - intros x y z I. rewrite EF. split.
    + assert (A : (Rabs (r x y z) <= sqrt S2)%R). { rewrite <- sqrt_Rsqr_abs. apply sqrt_le_1_alt. unfold Rsqr. apply LE. exact I. }
      assert (B : (Rabs (r x y z / sqrt S2) <= 1)%R).
      { unfold Rdiv. rewrite Rabs_mult, (Rabs_right (/ sqrt S2)) by (left; apply Rinv_0_lt_compat; exact Psq).
        apply Rmult_le_reg_r with (sqrt S2); [exact Psq|]. rewrite Rmult_assoc, Rinv_l by lra. lra. }
      apply Rabs_le_between in B || (unfold Rabs in B; destruct (Rcase_abs _) in B); lra.
    + intro E. apply (NZ x y z). apply (f_equal (fun q => (q * sqrt S2)%R)) in E. unfold Rdiv in E.
      rewrite Rmult_assoc, Rinv_l, Rmult_1_r, Rmult_0_l in E by lra. exact E.
  - transitivity (rsum3 d (fun x y z => / S2 * (r x y z * r x y z))%R).
    + unfold rsum3. apply rsum_ext; intros. apply rsum_ext; intros. apply rsum_ext; intros. rewrite EF.
      rewrite <- (sqrt_sqrt S2) at 3 by lra. field. lra.
    + transitivity (/ S2 * S2)%R; [|apply Rinv_l; lra]. unfold S2 at 3. unfold rsum3.
      rewrite <- rsum_scal. apply rsum_ext; intros. rewrite <- rsum_scal. apply rsum_ext; intros. rewrite <- rsum_scal. reflexivity.
Qed.
End RealInit.
