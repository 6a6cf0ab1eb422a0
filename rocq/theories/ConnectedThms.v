(** Fully connected layer. *)
From Coq Require Import ZArith List Bool Lia Reals Lra.
From Coquelicot Require Import Coquelicot.
From Verif Require Import Base Dim Matrix View Num Expr Spec Iter MatFacts MatThms ViewThms ExprThms Sums Batch BatchThms Connected LayerFacts Calc.
Import ListNotations.
Local Open Scope Z_scope.

Section Generic.
Context {T : Type} {N : Num T}.

Lemma is_mat_extl : forall (m : mat T) d f g, is_mat m d f -> (forall x y z, inb d x y z -> f x y z = g x y z) -> is_mat m d g.
Proof. intros. eapply is_mat_ext; eauto. Qed.

Lemma column_ok : forall (x : mat T) d I, is_mat x d I -> fits d ->
  exists v, run_state (reshape (D3 (vol d) 1 1) x) = Ok v /\ is_mat v (D3 (vol d) 1 1) (fun k _ _ => elem_no d I k).
Proof.
  intros x d I (Dx & Lx & Cx) F. pose proof (fits_column d F) as FC. subst d.
  destruct (reshape_spec T x (D3 (vol (mdim x)) 1 1) F FC) as (R & _).
  destruct R as (R & _); [unfold vol; cbn; lia|]. unfold run_state. rewrite R.
  exists (Mat (D3 (vol (mdim x)) 1 1) (mvals x)). split; [reflexivity|]. split; [reflexivity|].
  cbn [mvals]. split; [rewrite Lx; unfold vol; cbn [dx dy dz]; lia|].
  intros k b c (A1 & A2 & A3). cbn [dx dy dz] in *. assert (b = 0) by lia. assert (c = 0) by lia. subst b c.
  destruct (position_case (mdim x) k F A1) as (a & b & c & I1 & Ek & Ei).
  replace (k + vol (mdim x) * 0 + vol (mdim x) * 1 * 0) with k by lia.
  change (cell (Mat (D3 (vol (mdim x)) 1 1) (mvals x)) k) with (cell x k).
  rewrite Ek. rewrite elem_no_lin by exact I1. apply Cx. exact I1.
Qed.

(** Reading a column of length vol d back as a [d]-shaped matrix. *)
Lemma uncolumn_ok : forall (v : mat T) d f, is_mat v (D3 (vol d) 1 1) f -> fits d ->
  exists x, run_state (reshape d v) = Ok x /\ is_mat x d (fun x y z => f (lin d x y z) 0 0).
Proof.
  intros v d f (Dv & Lv & Cv) F. pose proof (fits_column d F) as FC. 
  destruct (reshape_spec T v d) as (R & _); [rewrite Dv; exact FC|exact F|].
  destruct R as (R & _); [rewrite Dv; unfold vol; cbn [dx dy dz]; lia|]. unfold run_state. rewrite R.
  exists (Mat d (mvals v)). split; [reflexivity|]. split; [reflexivity|].
  cbn [mvals]. split; [rewrite Lv; unfold vol; cbn [dx dy dz]; lia|].
  intros a b c I. pose proof (lin_range d a b c I). change (a + dx d * b + dx d * dy d * c) with (lin d a b c).
  specialize (Cv (lin d a b c) 0 0). cbn [dx dy] in Cv. rewrite <- Cv by (unfold inb; cbn [dx dy dz]; lia).
  replace (lin d a b c + vol d * 0 + vol d * 1 * 0) with (lin d a b c) by lia. reflexivity.
Qed.

(** W * v + b, the terms of a row added from left to right. *)
Definition affine (K : Z) (W B : Z -> Z -> Z -> T) (v : Z -> T) (i : Z) : T :=
  nadd (nsum K (fun k => nmul (W i k 0) (v k))) (B i 0 0).

Theorem c_apply_ok : forall (w b x : mat T) n K d W B I,
  is_mat w (D3 n K 1) W -> is_mat b (D3 n 1 1) B -> is_mat x d I -> fits d -> K = vol d -> 1 <= n ->
  fits (D3 n K 1) -> fits (D3 n 1 1) ->
  exists o, c_apply w b x = Ok o /\ is_mat o (D3 n 1 1) (fun i _ _ => affine K W B (elem_no d I) i).
Proof.
  intros w b x n K d W B I HW HB HX FX -> Hn FW FB. unfold c_apply.
  rewrite (is_mat_dim _ _ _ HX), base_size_fits by exact FX. cbn [rbind].
  destruct (fits_vol d FX) as [V _]. rewrite s32_id by (unfold two31 in *; lia).
  destruct (column_ok x d I HX FX) as (v & Ev & Iv). rewrite Ev. cbn [rbind].
  destruct (mul_ok false false Ref Ref (l_val w) (l_val v) tt n (vol d) 1 1 W (fun k _ _ => elem_no d I k)) as (p & Ep & Ip); auto.
  { apply is_mat_lz; assumption. }
  { apply is_mat_lz; [assumption|]. apply fits_column. exact FX. }
  rewrite Ep. cbn [rbind]. unfold mk_elem. rewrite (proj1 Ip). cbn [ldim l_val]. rewrite (is_mat_dim _ _ _ HB).
  unfold check_size. rewrite dim_eqb_refl. cbn [rbind].
  destruct (mat_of_lz_ok n0 (fun t : T => t) (Lz (fun _ => D3 n 1 1) (fun s' i => (x0 <- lget p s' i ;; y <- lget (l_val b) s' i ;; op_add x0 y)%res)) tt (D3 n 1 1)
     (fun i y z => affine (vol d) W B (elem_no d I) i) FB) as (o & Eo & Io).
  - left. cbn. lia.
  - split; [reflexivity|]. intros i y z In. cbn [lget]. rewrite (proj2 Ip) by exact In. cbn [rbind l_val lget].
    rewrite (is_mat_read b _ _ _ _ _ HB FB In). cbn [rbind]. unfold op_add, affine.
    destruct In as (I1 & I2 & I3). cbn [dx dy dz] in *. assert (y = 0) by lia. assert (z = 0) by lia. subst. reflexivity.
  - exists o. split; [exact Eo|exact Io].
Qed.

Context (rand : Z -> Z) (rmax : Z) (sqrtT : T -> T).

(** A layer with [n] outputs that has seen an input with [K] elements. *)
Definition conn_is (c : connected T) (n K : Z) (W B : Z -> Z -> Z -> T) : Prop :=
  c_ready c = true /\ is_mat (c_w c) (D3 n K 1) W /\ is_mat (c_b c) (D3 n 1 1) B /\
  1 <= n /\ 1 <= K /\ fits (D3 n K 1) /\ fits (D3 n 1 1).

Theorem c_forward_ready : forall c n K W B (x : mat T) d I, conn_is c n K W B -> is_mat x d I -> fits d -> vol d = K ->
  exists o, c_forward rand rmax sqrtT x c = ORet c o /\ is_mat o (D3 n 1 1) (fun i _ _ => affine K W B (elem_no d I) i).
Proof.
  intros c n K W B x d I (R & HW & HB & Hn & HK & FW & FB) HX FX EK.
  destruct (c_apply_ok (c_w c) (c_b c) x n K d W B I) as (o & Eo & Io); auto.
  exists o. split; [|exact Io]. unfold c_forward, c_check, bind at 1.
  rewrite (is_mat_dim _ _ _ HB), (is_mat_dim _ _ _ HX), !base_size_fits by assumption. rewrite R.
  pose proof (fits_dims _ FW) as (A1 & A2 & A3). cbn [dx dy dz] in *.
  replace (vol (D3 n 1 1)) with n by (unfold vol; cbn [dx dy dz]; lia). rewrite EK.
  rewrite !s32_id by (unfold two31 in *; lia). rewrite (is_mat_dim _ _ _ HW), dim_eqb_refl. cbn [negb].
  unfold bind, mget. rewrite Eo. reflexivity.
Qed.

Theorem c_forward_reject : forall c n K W B (x : mat T), conn_is c n K W B -> fits (mdim x) -> vol (mdim x) <> K ->
  c_forward rand rmax sqrtT x c = OThrow c LayerExn.
Proof.
  intros c n K W B x (R & HW & HB & Hn & HK & FW & FB) FX EK.
  unfold c_forward, c_check, bind at 1.
  rewrite (is_mat_dim _ _ _ HB), !base_size_fits by assumption. rewrite R.
  pose proof (fits_dims _ FW) as (A1 & A2 & A3). cbn [dx dy dz] in *. destruct (fits_vol _ FX) as [V _].
  replace (vol (D3 n 1 1)) with n by (unfold vol; cbn [dx dy dz]; lia).
  rewrite !s32_id by (unfold two31 in *; lia). rewrite (is_mat_dim _ _ _ HW).
  destruct (dim_eqb (D3 n K 1) (D3 n (vol (mdim x)) 1)) eqn:E.
  - apply dim_eqb_eq in E. injection E as E. congruence.
  - reflexivity.
Qed.

(** A layer before its first input. *)
Definition conn_fresh (c : connected T) (n : Z) : Prop :=
  c_ready c = false /\ (exists B, is_mat (c_b c) (D3 n 1 1) B) /\ 1 <= n /\ fits (D3 n 1 1).

Lemma c_make_fresh : forall n, 1 <= n -> n < two31 -> exists c, c_make n = Ok c /\ conn_fresh c n /\ c_in c = D3 0 0 0.
Proof.
  intros n Hn Hb.
  assert (FB : fits (D3 n 1 1)) by (unfold fits; cbn [dx dy dz]; rewrite (Z.max_r 1 n), (Z.max_r 1 1) by lia; lia).
  unfold c_make. rewrite s32_id by (unfold two31 in *; lia).
  destruct (mat_fill_ok (D3 n 1 1) n0 FB) as (b & Eb & Ib). rewrite Eb. cbn [rbind].
  assert (F0 : fits (D3 0 0 0)) by (unfold fits, two31; cbn; lia).
  destruct (mat_fill_ok (D3 0 0 0) (@n0 T N) F0) as (w & Ew & Iw). rewrite Ew. cbn [rbind].
  eexists. split; [reflexivity|]. split; [|reflexivity]. split; [reflexivity|]. split; [eexists; exact Ib|]. auto.
Qed.

Theorem c_forward_first : forall c n (x : mat T) d I, conn_fresh c n -> is_mat x d I -> fits d -> 1 <= vol d ->
  fits (D3 n (vol d) 1) ->
  exists c' o, c_forward rand rmax sqrtT x c = ORet c' o /\
    conn_is c' n (vol d) (init_val rand rmax sqrtT 0 (D3 n (vol d) 1))
      (init_val rand rmax sqrtT (Z.of_nat (it_fuel (D3 n (vol d) 1))) (D3 n 1 1)) /\
    c_in c' = d /\ p_wg (c_par c') = p_wg (c_par c) /\ p_bg (c_par c') = p_bg (c_par c) /\
    c_forward rand rmax sqrtT x c' = ORet c' o.
Proof.
  intros c n x d I (R & (B & HB) & Hn & FB) HX FX HK FW.
  pose proof (fits_dims _ FW) as (A1 & A2 & A3). cbn [dx dy dz] in *.
  destruct (mat_fill_ok (D3 n (vol d) 1) n0 FW) as (w0 & Ew0 & Iw0).
  destruct (init_params_ok rand rmax sqrtT w0 (c_b c) (D3 n (vol d) 1) (D3 n 1 1) (fun _ _ _ : Z => @n0 T N) B FW)
    as (w & b & Ei & Iw & Ib); auto.
  { left. cbn [dx dy dz]. lia. } { left. cbn [dx dy dz]. lia. }
  set (c' := Conn (Par w b (p_wg (c_par c)) (p_bg (c_par c))) d true).
  assert (HC : conn_is c' n (vol d) (init_val rand rmax sqrtT 0 (D3 n (vol d) 1))
      (init_val rand rmax sqrtT (Z.of_nat (it_fuel (D3 n (vol d) 1))) (D3 n 1 1))).
  { repeat split; auto; try apply Iw; try apply Ib; try apply FW; try apply FB. }
  destruct (c_forward_ready c' n (vol d) _ _ x d I HC HX FX eq_refl) as (o & Eo & Io).
  exists c', o. split; [|split; [exact HC|]]; [|repeat split; exact Eo].
  unfold c_forward in *. unfold bind at 1. unfold bind at 1 in Eo.
  assert (EC : c_check rand rmax sqrtT x c = ORet c' true).
  { unfold c_check. rewrite (is_mat_dim _ _ _ HB), (is_mat_dim _ _ _ HX), !base_size_fits by assumption. rewrite R.
    replace (vol (D3 n 1 1)) with n by (unfold vol; cbn [dx dy dz]; lia).
    rewrite !s32_id by (unfold two31 in *; lia). rewrite Ew0, Ei. reflexivity. }
  rewrite EC. cbn [negb]. unfold bind, mget.
  assert (EC' : c_check rand rmax sqrtT x c' = ORet c' true).
  { unfold c_check. destruct HC as (_ & HW' & HB' & _).
    rewrite (is_mat_dim _ _ _ HB'), (is_mat_dim _ _ _ HX), !base_size_fits by assumption. cbn [c_ready c'].
    replace (vol (D3 n 1 1)) with n by (unfold vol; cbn [dx dy dz]; lia).
    rewrite !s32_id by (unfold two31 in *; lia). rewrite (is_mat_dim _ _ _ HW'), dim_eqb_refl. reflexivity. }
  rewrite EC' in Eo. exact Eo.
Qed.

(** The layer after any number of further calls, whether they returned or threw: as after the first call. *)
Definition after {A} (o : out (connected T) A) (c : connected T) : connected T :=
  match o with ORet c' _ => c' | OThrow c' _ => c' | OUB => c end.
Definition run_calls (l : list (mat T)) (c : connected T) : connected T :=
  fold_left (fun c x => after (c_forward rand rmax sqrtT x c) c) l c.

Theorem c_history : forall l c n K W B, conn_is c n K W B ->
  (forall x, In x l -> exists I, is_mat x (mdim x) I /\ fits (mdim x)) -> run_calls l c = c.
Proof.
  induction l as [|x l IH]; intros c n K W B HC HL; [reflexivity|]. cbn [run_calls fold_left].
  assert (E : after (c_forward rand rmax sqrtT x c) c = c).
  { destruct (HL x) as (I & HI & F); [left; reflexivity|]. destruct (Z.eq_dec (vol (mdim x)) K) as [EK|NK].
    - destruct (c_forward_ready c n K W B x _ I HC HI F EK) as (o & Eo & _). rewrite Eo. reflexivity.
    - rewrite (c_forward_reject c n K W B x HC F NK). reflexivity. }
  rewrite E. eapply IH; [exact HC|]. intros. apply HL. right. assumption.
Qed.

(** Gradients, with the dimensions of a temporary read before it is moved. *)
Theorem c_dw_ok : forall (x g : mat T) n d I G, is_mat x d I -> fits d -> is_mat g (D3 n 1 1) G ->
  1 <= n -> 1 <= vol d -> fits (D3 n 1 1) -> fits (D3 n (vol d) 1) ->
  exists dw, c_dw false x g = Ok dw /\ is_mat dw (D3 n (vol d) 1) (fun i k _ => nadd n0 (nmul (G i 0 0) (elem_no d I k))).
Proof.
  intros x g n d I G HX FX HG Hn HK FB FW. unfold c_dw.
  rewrite (is_mat_dim _ _ _ HX), base_size_fits by exact FX. cbn [rbind].
  destruct (fits_vol d FX) as [V _]. rewrite s32_id by (unfold two31 in *; lia).
  destruct (column_ok x d I HX FX) as (v & Ev & Iv). rewrite Ev. cbn [rbind].
  pose proof (transpose_ok (l_val v) tt (vol d) 1 1 (fun k _ _ => elem_no d I k)) as HT.
  destruct (mul_ok false false Ref Tmp (l_val g) (mk_transpose Ref (l_val v) tt) tt n 1 (vol d) 1 G (fun x y z => elem_no d I y)) as (p & Ep & Ip); auto.
  { apply is_mat_lz; assumption. }
  { apply HT. apply is_mat_lz; [assumption|]. apply fits_column. exact FX. }
  { unfold two31; lia. }
  rewrite Ep. cbn [rbind].
  destruct (mat_of_lz_ok n0 (fun t : T => t) p tt (D3 n (vol d) 1) (fun x y z => nsum 1 (fun k => nmul (G x k z) (elem_no d I y))) FW) as (o & Eo & Io).
  { left. cbn [dx dy dz]. lia. } { exact Ip. }
  exists o. split; [exact Eo|]. eapply is_mat_extl; [exact Io|]. intros a b c (I1 & I2 & I3). cbn [dx dy dz] in *.
  assert (c = 0) by lia. subst c. unfold nsum, fold_z. cbn. reflexivity.
Qed.

Theorem c_dx_ok : forall c (g : mat T) n K W B G, conn_is c n K W B -> is_mat g (D3 n 1 1) G ->
  fits (c_in c) -> vol (c_in c) = K ->
  exists r, c_dx false c g = Ok r /\ is_mat r (c_in c) (fun x y z => nsum n (fun i => nmul (W i (lin (c_in c) x y z) 0) (G i 0 0))).
Proof.
  intros c g n K W B G (R & HW & HB & Hn & HK & FW & FB) HG FI EK. unfold c_dx.
  pose proof (fits_dims _ FW) as (A1 & A2 & A3). cbn [dx dy dz] in *.
  pose proof (transpose_ok (l_val (c_w c)) tt n K 1 W) as HT.
  destruct (mul_ok false false Tmp Ref (mk_transpose Ref (l_val (c_w c)) tt) (l_val g) tt K n 1 1 (fun x y z => W y x z) G) as (p & Ep & Ip); auto.
  { apply HT. apply is_mat_lz; assumption. }
  { apply is_mat_lz; assumption. }
  rewrite Ep. cbn [rbind].
  assert (FK : fits (D3 K 1 1)) by (rewrite <- EK; apply fits_column; exact FI).
  destruct (mat_of_lz_ok n0 (fun t : T => t) p tt (D3 K 1 1) (fun x y z => nsum n (fun k => nmul (W k x z) (G k y z))) FK) as (o & Eo & Io).
  { left. cbn [dx dy dz]. lia. } { exact Ip. }
  rewrite Eo. cbn [rbind]. rewrite <- EK in Io.
  destruct (uncolumn_ok o (c_in c) _ Io FI) as (r & Er & Ir). exists r. split; [exact Er|exact Ir].
Qed.
End Generic.

(** ** Derivatives *)
Lemma aff_dcurve : forall n K d (Wt Bt It : R -> Z -> Z -> Z -> R) t0 W' B' I', fits d -> vol d = K ->
  dcurve (D3 n K 1) Wt t0 W' -> dcurve (D3 n 1 1) Bt t0 B' -> dcurve d It t0 I' ->
  dcurve (D3 n 1 1) (fun t i _ _ => affine K (Wt t) (Bt t) (elem_no d (It t)) i) t0
    (fun i _ _ => rsum K (fun k => W' i k 0%Z * elem_no d (It t0) k + Wt t0 i k 0%Z * elem_no d I' k) + B' i 0%Z 0%Z)%R.
Proof.
  intros n K d Wt Bt It t0 W' B' I' F EK DW DB DI i y z (A1 & A2 & A3). cbn [dx dy dz] in *.
  unfold affine. cbn [nadd nmul NumR]. apply @is_derive_plus.
  - change (@nsum R NumR) with rsum.
    apply (is_derive_rsum K (fun t k => Wt t i k 0%Z * elem_no d (It t) k)%R). intros k Hk.
    apply (is_derive_mult (fun t => Wt t i k 0) (fun t => elem_no d (It t) k)).
    + apply DW. unfold inb; cbn [dx dy dz]; lia.
    + rewrite <- EK in Hk. destruct (position_case d k F Hk) as (a & b & c & Iabc & Ek & Ei).
      apply (is_derive_ext (fun t => It t a b c)).
      * intros t. rewrite Ek, elem_no_lin by exact Iabc. reflexivity.
      * rewrite Ek, elem_no_lin by exact Iabc. apply DI. exact Iabc.
    + intros. apply Rmult_comm.
  - apply DB. unfold inb; cbn [dx dy dz]; lia.
Qed.

Lemma rsum_1 : forall g, rsum 1 g = g 0.
Proof. intros g. change 1 with (0 + 1). rewrite rsum_S by lia. rewrite rsum_neg by lia. ring. Qed.

Lemma conn_adjoint : forall n K d (W B I W' B' I' G : Z -> Z -> Z -> R), fits d -> vol d = K ->
  dotp (D3 n 1 1) G (fun i _ _ => rsum K (fun k => W' i k 0%Z * elem_no d I k + W i k 0%Z * elem_no d I' k) + B' i 0%Z 0%Z)%R =
  (dotp d (fun x y z => rsum n (fun i => W i (lin d x y z) 0%Z * G i 0%Z 0%Z)) I' +
   dotp (D3 n K 1) (fun i k _ => 0 + G i 0%Z 0%Z * elem_no d I k) W' +
   dotp (D3 n 1 1) G B')%R.
Proof.
  intros n K d W B I W' B' I' G F EK.
  rewrite (dotp_plus (D3 n 1 1) G (fun i _ _ => rsum K (fun k => W' i k 0%Z * elem_no d I k + W i k 0%Z * elem_no d I' k))%R (fun i _ _ => B' i 0%Z 0%Z)).
  f_equal.
  - rewrite (dotp_ext _ G (fun i _ _ => rsum K (fun k => W' i k 0%Z * elem_no d I k + W i k 0%Z * elem_no d I' k))%R G
       (fun i _ _ => rsum K (fun k => W i k 0%Z * elem_no d I' k) + rsum K (fun k => W' i k 0%Z * elem_no d I k))%R);
      [|auto|intros; rewrite <- rsum_plus; apply rsum_ext; intros; ring].
    rewrite (dotp_plus (D3 n 1 1) G (fun i _ _ => rsum K (fun k => W i k 0%Z * elem_no d I' k))%R (fun i _ _ => rsum K (fun k => W' i k 0%Z * elem_no d I k))%R).
    f_equal.
    + transitivity (rsum K (fun k => rsum n (fun i => W i k 0%Z * G i 0%Z 0%Z) * elem_no d I' k)%R).
      * unfold dotp, rsum3. cbn [dx dy dz]. rewrite !rsum_1.
        transitivity (rsum n (fun i => rsum K (fun k => W i k 0%Z * G i 0%Z 0%Z * elem_no d I' k)%R)).
        { apply rsum_ext; intros i _. rewrite <- rsum_scal. apply rsum_ext; intros; ring. }
        rewrite rsum_exchange. apply rsum_ext; intros k _. rewrite <- rsum_scal_r. reflexivity.
      * rewrite <- EK. unfold dotp. rewrite <- (rsum3_storage d _ F). apply rsum_ext; intros k Hk.
        destruct (position_case d k F Hk) as (a & b & c & Iabc & Ek & Ei).
        rewrite Ek, !elem_no_lin by exact Iabc. reflexivity.
    + unfold dotp, rsum3. cbn [dx dy dz]. rewrite !rsum_1. rewrite rsum_exchange. apply rsum_ext; intros i _.
      rewrite <- rsum_scal. apply rsum_ext; intros; ring.
Qed.

Section Exact.
Variables (rand : Z -> Z) (rmax : Z).

(** A layer with these parameters maps the input to the output. *)
Definition conn_gives (n K : Z) (d : dim3) (W B I O : Z -> Z -> Z -> R) : Prop :=
  exists c x o, conn_is c n K W B /\ is_mat x d I /\ c_forward rand rmax sqrt x c = ORet c o /\ is_mat o (D3 n 1 1) O.

Lemma conn_curve : forall n K d (Wt Bt It Ot : R -> Z -> Z -> Z -> R) t0 W' B' I' G, fits d -> vol d = K ->
  dcurve (D3 n K 1) Wt t0 W' -> dcurve (D3 n 1 1) Bt t0 B' -> dcurve d It t0 I' ->
  locally t0 (fun t => conn_gives n K d (Wt t) (Bt t) (It t) (Ot t)) ->
  exists O', dcurve (D3 n 1 1) Ot t0 O' /\
    dotp (D3 n 1 1) G O' =
    (dotp d (fun x y z => rsum n (fun i => Wt t0 i (lin d x y z) 0%Z * G i 0%Z 0%Z)) I' +
     dotp (D3 n K 1) (fun i k _ => 0 + G i 0%Z 0%Z * elem_no d (It t0) k) W' +
     dotp (D3 n 1 1) G B')%R.
Proof.
  intros n K d Wt Bt It Ot t0 W' B' I' G F EK DW DB DI HL.
  eexists. split; [|apply (conn_adjoint n K d (Wt t0) (Bt t0) (It t0) W' B' I' G F EK)].
  intros x y z Ixyz. eapply (is_derive_ext_loc (fun t => affine K (Wt t) (Bt t) (elem_no d (It t)) x)).
  - eapply filter_imp; [|exact HL]. intros t (c & m & o & HC & HX & E & HO). cbn beta.
    destruct (c_forward_ready rand rmax sqrt c n K _ _ m d _ HC HX F EK) as (o' & E' & HO').
    rewrite E in E'. injection E' as <-. rewrite (is_mat_det o _ _ _ x y z HO HO' Ixyz). reflexivity.
  - apply (aff_dcurve n K d Wt Bt It t0 W' B' I' F EK DW DB DI x y z Ixyz).
Qed.

(** A layer, the input last propagated and an output gradient. *)
Definition conn_case (c : connected R) (x g : mat R) (n K : Z) (d : dim3) (W B I G : Z -> Z -> Z -> R) : Prop :=
  conn_is c n K W B /\ is_mat x d I /\ fits d /\ vol d = K /\ is_mat g (D3 n 1 1) G.

Theorem conn_dw_exact : forall c x g n K d W B I G, conn_case c x g n K d W B I G ->
  exists dw DW, c_dw false x g = Ok dw /\ is_mat dw (D3 n K 1) DW /\
  forall i k (Ot : R -> Z -> Z -> Z -> R), inb (D3 n K 1) i k 0 ->
    (forall t, conn_gives n K d (fupd W i k 0 t) B I (Ot t)) ->
    is_derive (fun t => dotp (D3 n 1 1) G (Ot t)) (W i k 0) (DW i k 0).
Proof.
  intros c x g n K d W B I G (HC & HX & F & EK & HG). pose proof HC as (R & HW & HB & Hn & HK & FW & FB).
  destruct (c_dw_ok x g n d I G HX F HG) as (dw & E & Hdw); auto; try lia. { rewrite EK. exact FW. }
  rewrite EK in Hdw. eexists dw, _. split; [exact E|]. split; [exact Hdw|].
  intros i k Ot Iik HO.
  destruct (conn_curve n K d (fun t => fupd W i k 0 t) (fun _ => B) (fun _ => I) Ot (W i k 0)
     (delta i k 0) (fun _ _ _ => 0%R) (fun _ _ _ => 0%R) G F EK) as (O' & D & A).
  - apply dcurve_fupd.
  - apply dcurve_const.
  - apply dcurve_const.
  - apply filter_forall. exact HO.
  - rewrite (dotp_delta _ _ _ _ _ Iik), !dotp_0 in A.
    match goal with |- is_derive _ _ ?v => replace v with (dotp (D3 n 1 1) G O') by (rewrite A; cbn [nadd nmul n0 NumR]; ring) end.
    apply is_derive_dotp. exact D.
Qed.

Theorem conn_db_exact : forall c x g n K d W B I G, conn_case c x g n K d W B I G ->
  c_db g = g /\
  forall i (Ot : R -> Z -> Z -> Z -> R), 0 <= i < n ->
    (forall t, conn_gives n K d W (fupd B i 0 0 t) I (Ot t)) ->
    is_derive (fun t => dotp (D3 n 1 1) G (Ot t)) (B i 0 0) (G i 0 0).
Proof.
  intros c x g n K d W B I G (HC & HX & F & EK & HG). split; [reflexivity|].
  intros i Ot Hi HO. assert (Iik : inb (D3 n 1 1) i 0 0) by (unfold inb; cbn [dx dy dz]; lia).
  destruct (conn_curve n K d (fun _ => W) (fun t => fupd B i 0 0 t) (fun _ => I) Ot (B i 0 0)
     (fun _ _ _ => 0%R) (delta i 0 0) (fun _ _ _ => 0%R) G F EK) as (O' & D & A).
  - apply dcurve_const.
  - apply dcurve_fupd.
  - apply dcurve_const.
  - apply filter_forall. exact HO.
  - rewrite (dotp_delta _ _ _ _ _ Iik), !dotp_0 in A.
    replace (G i 0 0) with (dotp (D3 n 1 1) G O') by (rewrite A; ring).
    apply is_derive_dotp. exact D.
Qed.

Theorem conn_dx_exact : forall c x g n K d W B I G, conn_case c x g n K d W B I G -> c_in c = d ->
  exists r DX, c_dx false c g = Ok r /\ is_mat r d DX /\
  forall a b e (Ot : R -> Z -> Z -> Z -> R), inb d a b e ->
    (forall t, conn_gives n K d W B (fupd I a b e t) (Ot t)) ->
    is_derive (fun t => dotp (D3 n 1 1) G (Ot t)) (I a b e) (DX a b e).
Proof.
  intros c x g n K d W B I G (HC & HX & F & EK & HG) ED. subst d.
  destruct (c_dx_ok c g n K W B G HC HG F EK) as (r & E & Hr).
  eexists r, _. split; [exact E|]. split; [exact Hr|]. intros a b e Ot Iabe HO.
  destruct (conn_curve n K (c_in c) (fun _ => W) (fun _ => B) (fun t => fupd I a b e t) Ot (I a b e)
     (fun _ _ _ => 0%R) (fun _ _ _ => 0%R) (delta a b e) G F EK) as (O' & D & A).
  - apply dcurve_const.
  - apply dcurve_const.
  - apply dcurve_fupd.
  - apply filter_forall. exact HO.
  - rewrite (dotp_delta _ _ _ _ _ Iabe), !dotp_0 in A.
    match goal with |- is_derive _ _ ?v => replace v with (dotp (D3 n 1 1) G O') by (rewrite A; change (@nsum R NumR) with rsum; cbn [nmul NumR]; ring) end.
    apply is_derive_dotp. exact D.
Qed.
End Exact.
