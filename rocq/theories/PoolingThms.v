(** Pooling layer. *)
From Coq Require Import ZArith List Bool Lia.
From Verif Require Import Base Dim Matrix View Num Expr Spec Iter MatFacts TreeThms MatThms ViewThms ExprThms Sums Batch Float32 FloatFacts Pooling LayerFacts.
Import ListNotations.
Local Open Scope Z_scope.

(** Pool [qx] x [qy] with strides [sx], [sy] on a matrix of dimensions X x Y x C. *)
Record pool_geom := PG { g_qx : Z; g_qy : Z; g_sx : Z; g_sy : Z; g_X : Z; g_Y : Z; g_C : Z }.
Definition xdim (g : pool_geom) : dim3 := D3 (g_X g) (g_Y g) (g_C g).
(** Number of positions p >= 0 with p * s + q <= X, in each axis. *)
Definition odim (g : pool_geom) : dim3 :=
  D3 ((g_X g - g_qx g) / g_sx g + 1) ((g_Y g - g_qy g) / g_sy g + 1) (g_C g).
Definition geom_ok (g : pool_geom) : Prop :=
  1 <= g_qx g <= g_X g /\ 1 <= g_qy g <= g_Y g /\ 1 <= g_C g /\
  1 <= g_sx g <= 2 ^ 24 /\ 1 <= g_sy g <= 2 ^ 24 /\
  g_X g - g_qx g < 2 ^ 24 - 1 /\ g_Y g - g_qy g < 2 ^ 24 - 1 /\ fits (xdim g).
Definition has_geom (q : pooling) (g : pool_geom) : Prop :=
  dx (q_dim q) = g_qx g /\ dy (q_dim q) = g_qy g /\ dx (q_stride q) = g_sx g /\ dy (q_stride q) = g_sy g.
(** Input element (x,y) belongs to the window of output position (i,j). *)
Definition in_win (g : pool_geom) (i j x y : Z) : Prop :=
  i * g_sx g <= x < i * g_sx g + g_qx g /\ j * g_sy g <= y < j * g_sy g + g_qy g.

Lemma odim_count : forall X q s p, 1 <= q <= X -> 1 <= s -> 0 <= p ->
  (p < (X - q) / s + 1 <-> p * s + q <= X).
Proof.
  intros X q s p Hq Hs Hp. split; intro H.
  - assert (p <= (X - q) / s) by lia. assert (s * ((X - q) / s) <= X - q) by (apply Z.mul_div_le; lia). nia.
  - assert (p <= (X - q) / s) by (apply Z.div_le_lower_bound; lia). lia.
Qed.

Lemma odim_pos : forall g, geom_ok g -> pos (odim g).
Proof.
  intros g (H1 & H2 & H3 & H4 & H5 & H6 & H7 & F). unfold pos, odim. cbn [dx dy dz].
  assert (0 <= (g_X g - g_qx g) / g_sx g) by (apply Z.div_pos; lia).
  assert (0 <= (g_Y g - g_qy g) / g_sy g) by (apply Z.div_pos; lia). lia.
Qed.

Lemma odim_fits : forall g, geom_ok g -> fits (odim g).
Proof.
  intros g G. pose proof (odim_pos g G) as P. destruct G as (H1 & H2 & H3 & H4 & H5 & H6 & H7 & F).
  unfold pos, odim, xdim, fits in *. cbn [dx dy dz] in *. destruct F as (F1 & F2 & F3 & F4).
  split; [lia|]. split; [lia|]. split; [lia|]. rewrite !Z.max_r in * by lia.
  assert (A : (g_X g - g_qx g) / g_sx g <= g_X g - g_qx g) by (apply Z.div_le_upper_bound; nia).
  assert (B : (g_Y g - g_qy g) / g_sy g <= g_Y g - g_qy g) by (apply Z.div_le_upper_bound; nia).
  eapply Z.le_lt_trans; [|exact F4]. apply Z.mul_le_mono_nonneg_r; [lia|]. apply Z.mul_le_mono_nonneg; lia.
Qed.

Lemma win_region : forall g i j c, geom_ok g -> inb (odim g) i j c ->
  region_in (View (D3 (i * g_sx g) (j * g_sy g) c) (D3 (g_qx g) (g_qy g) 1)) (xdim g) /\
  0 <= i * g_sx g < two31 /\ 0 <= j * g_sy g < two31.
Proof.
  intros g i j c (H1 & H2 & H3 & H4 & H5 & H6 & H7 & F) (I1 & I2 & I3). unfold odim, xdim in *. cbn [dx dy dz] in *.
  pose proof (fits_dims _ F) as (F1 & F2 & F3). cbn [dx dy dz] in *.
  assert (A : i * g_sx g + g_qx g <= g_X g) by (apply odim_count; lia).
  assert (B : j * g_sy g + g_qy g <= g_Y g) by (apply odim_count; lia).
  unfold region_in. cbn [vstart vdim dx dy dz]. nia.
Qed.

Lemma win_inb : forall g i j c x y, geom_ok g -> inb (odim g) i j c -> in_win g i j x y -> inb (xdim g) x y c.
Proof.
  intros g i j c x y G I (W1 & W2). destruct (win_region g i j c G I) as (R & A & B). destruct I as (I1 & I2 & I3).
  unfold region_in, inb, xdim, odim in *. cbn [vstart vdim dx dy dz] in *. lia.
Qed.

Lemma q_outdim_ok : forall q g, geom_ok g -> has_geom q g -> q_outdim q (xdim g) = Ok (odim g).
Proof.
  intros q g (H1 & H2 & H3 & H4 & H5 & H6 & H7 & F) (Q1 & Q2 & Q3 & Q4). pose proof (fits_dims _ F) as (F1 & F2 & F3).
  unfold xdim in *. cbn [dx dy dz] in *. unfold q_outdim. cbn [dx dy dz]. rewrite Q1, Q2, Q3, Q4.
  rewrite i32_ok by (unfold two31 in *; lia). cbn [rbind]. rewrite ceil_div1_exact by lia. cbn [rbind].
  rewrite i32_ok by (unfold two31 in *; lia). cbn [rbind]. rewrite ceil_div1_exact by lia. cbn [rbind].
  unfold odim. f_equal. f_equal.
  - rewrite <- (Z.mul_1_l (g_sx g)) at 1. rewrite Z.div_add by lia. reflexivity.
  - rewrite <- (Z.mul_1_l (g_sy g)) at 1. rewrite Z.div_add by lia. reflexivity.
Qed.

Lemma q_corner_ok : forall q g i j c, geom_ok g -> has_geom q g -> inb (odim g) i j c ->
  q_corner q (D3 i j c) = Ok (D3 (i * g_sx g) (j * g_sy g) c).
Proof.
  intros q g i j c G (Q1 & Q2 & Q3 & Q4) I. destruct (win_region g i j c G I) as (_ & A & B).
  unfold q_corner. cbn [dx dy dz]. rewrite Q3, Q4. rewrite !i32_ok by (unfold two31 in *; lia). reflexivity.
Qed.

Lemma win_fits : forall g, geom_ok g -> fits (D3 (g_qx g) (g_qy g) 1).
Proof.
  intros g (H1 & H2 & H3 & H4 & H5 & H6 & H7 & F). unfold fits, xdim in *. cbn [dx dy dz] in *. destruct F as (F1 & F2 & F3 & F4).
  split; [lia|]. split; [lia|]. split; [lia|]. rewrite !Z.max_r in * by lia.
  eapply Z.le_lt_trans; [|exact F4]. apply Z.mul_le_mono_nonneg; [nia|apply Z.mul_le_mono_nonneg; lia|lia|lia].
Qed.

(** Loop over all elements in storage order, with an invariant about the elements seen. *)
Lemma it_loop_inv : forall {S} (I : Z -> S -> Prop) d (body : Z -> dim3 -> M S unit) s, fits d -> iterable d ->
  (forall k x y z s, inb d x y z -> k = lin d x y z -> I k s -> exists s', body k (D3 x y z) s = ORet s' tt /\ I (k + 1) s') ->
  I 0 s -> exists s', it_loop d body s = ORet s' tt /\ I (vol d) s'.
Proof.
  intros S I d body s F IT Hb H0. rewrite it_loop_iter by exact IT. apply (mfor_inv I).
  - apply fits_vol. exact F.
  - intros k s' Hk HI. destruct (position_case d k F Hk) as (x & y & z & Ixyz & Ek & Ei). rewrite Ei. apply Hb; assumption.
  - exact H0.
Qed.

Section Generic.
Context {T : Type} {N : Num T}.

Definition is_mat_ext_ : forall (m : mat T) d f g, is_mat m d f -> (forall x y z, inb d x y z -> f x y z = g x y z) -> is_mat m d g :=
  fun m d f g H E => is_mat_ext m d f g H E.

(** [p] is the first element of the window of (i,j,c) that no other element of the window beats. *)
Definition selected (better : T -> T -> bool) (g : pool_geom) (I : Z -> Z -> Z -> T) (i j c : Z) (p : dim3) : Prop :=
  dz p = c /\ in_win g i j (dx p) (dy p) /\
  (forall x y, in_win g i j x y -> better (I x y c) (I (dx p) (dy p) c) = false) /\
  (forall x y, in_win g i j x y -> (y < dy p \/ y = dy p /\ x < dx p) -> better (I (dx p) (dy p) c) (I x y c) = true).

Lemma selected_unique : forall better g I i j c p p', selected better g I i j c p -> selected better g I i j c p' -> p = p'.
Proof.
  intros better g I i j c [px py pz] [px' py' pz'] (Z1 & W1 & N1 & E1) (Z2 & W2 & N2 & E2). cbn [dx dy dz] in *.
  destruct (Z.eq_dec py py') as [Ey|Ey]; [destruct (Z.eq_dec px px') as [Ex|Ex]|].
  - subst. reflexivity.
  - exfalso. assert (px < px' \/ px' < px) as [L|L] by lia.
    + specialize (E2 px py W1 ltac:(lia)). rewrite (N1 px' py' W2) in E2. discriminate.
    + specialize (E1 px' py' W2 ltac:(lia)). rewrite (N2 px py W1) in E1. discriminate.
  - exfalso. assert (py < py' \/ py' < py) as [L|L] by lia.
    + specialize (E2 px py W1 ltac:(lia)). rewrite (N1 px' py' W2) in E2. discriminate.
    + specialize (E1 px' py' W2 ltac:(lia)). rewrite (N2 px py W1) in E1. discriminate.
Qed.

Definition better_of (t : pool_type) : T -> T -> bool := match t with PMin => lt_min | _ => lt_max end.

Lemma mwrite_pos : forall {A} (m : mat A) d f x y z v, is_mat m d f -> fits d -> inb d x y z ->
  exists m', mwrite (D3 x y z) v m = ORet m' tt /\ is_mat m' d (fupd f x y z v).
Proof. intros. apply mwrite_is; assumption. Qed.

Lemma lin_lt_S : forall d x y z a b c, fits d -> inb d x y z -> inb d a b c ->
  lin d a b c < lin d x y z + 1 -> lin d a b c < lin d x y z \/ (a = x /\ b = y /\ c = z).
Proof.
  intros d x y z a b c F I J H. assert (lin d a b c < lin d x y z \/ lin d a b c = lin d x y z) as [L|E] by lia; [auto|].
  right. rewrite (dim_eta d) in *. pose proof (idx_of_lin _ _ _ _ _ _ I) as E1. pose proof (idx_of_lin _ _ _ _ _ _ J) as E2. rewrite E in E2. rewrite E1 in E2.
  injection E2 as -> -> ->. auto.
Qed.

(** Max and min: one step. *)
Lemma q_step_on : forall P q g x I t i j c o s OF SF, geom_ok g -> has_geom q g -> q_type q = t -> t <> PAvg ->
  strict_weak_on P (better_of t) -> is_mat x (xdim g) I -> (forall a b c, inb (xdim g) a b c -> P (I a b c)) -> inb (odim g) i j c ->
  is_mat o (odim g) OF -> is_mat s (odim g) SF ->
  exists o' s' p, q_step q x (D3 i j c) (o, s) = ORet (o', s') tt /\ selected (better_of t) g I i j c p /\
    is_mat o' (odim g) (fupd OF i j c (I (dx p) (dy p) (dz p))) /\ is_mat s' (odim g) (fupd SF i j c p).
Proof.
  intros P q g x I t i j c o s OF SF G HG Et Nt SW HX PI Io HO HS.
  pose proof (odim_fits g G) as FO. destruct (win_region g i j c G Io) as (R & A & B).
  pose proof G as (H1 & H2 & H3 & H4 & H5 & H6 & H7 & FX). pose proof (fits_dims _ FX) as (F1 & F2 & F3). cbn [xdim dx dy dz] in F1, F2, F3.
  unfold q_step. unfold bind at 1. rewrite (q_corner_ok q g i j c G HG Io), lift_ok.
  unfold bind at 1. rewrite (is_mat_dim _ _ _ HX). unfold q_size. destruct HG as (Q1 & Q2 & Q3 & Q4). rewrite Q1, Q2.
  rewrite mk_view_ok by assumption. rewrite lift_ok.
  set (v := View (D3 (i * g_sx g) (j * g_sy g) c) (D3 (g_qx g) (g_qy g) 1)) in *.
  pose proof (is_lz_view (fun _ : unit => x) tt (xdim g) I v HX FX R) as HL. cbn [v vdim vstart dx dy dz] in HL.
  destruct (extremum_on P (better_of t) (l_view (fun _ : unit => x) v) tt (D3 (g_qx g) (g_qy g) 1) _ SW HL (win_fits g G)) as (a & b & e & Iab & Ee & Nb & Fs).
  { unfold pos; cbn; lia. }
  { intros a b e (J1 & J2 & J3). cbn [dx dy dz] in J1, J2, J3. replace (c + e) with c by lia. apply PI. apply (win_inb g i j c); [exact G|exact Io|]. unfold in_win. lia. }
  destruct Iab as (J1 & J2 & J3). cbn [dx dy dz] in J1, J2, J3. assert (e = 0) by lia. subst e.
  set (p := D3 (i * g_sx g + a) (j * g_sy g + b) c).
  assert (SEL : selected (better_of t) g I i j c p).
  { unfold selected, p. cbn [dx dy dz]. split; [reflexivity|]. split; [unfold in_win; lia|]. split.
    - intros x' y' (W1 & W2). specialize (Nb (x' - i * g_sx g) (y' - j * g_sy g) 0). cbn [dx dy dz] in Nb.
      rewrite <- Nb by (unfold inb; cbn; lia). f_equal; f_equal; lia.
    - intros x' y' (W1 & W2) L. specialize (Fs (x' - i * g_sx g) (y' - j * g_sy g) 0). cbn [dx dy dz] in Fs.
      rewrite <- Fs; [f_equal; f_equal; lia|unfold inb; cbn; lia|]. unfold lin. cbn [dx dy].
      clear - W1 W2 L J1 J2. revert W1 W2 L J1 J2. generalize (i * g_sx g) (j * g_sy g) (g_qx g) (g_qy g). intros u v qx qy W1 W2 L J1 J2.
      destruct L as [L|[L1 L2]]; [assert (qx * (y' - v) <= qx * (b - 1)) by (apply Z.mul_le_mono_nonneg_l; lia); lia|subst y'; replace (v + b - v) with b by lia; lia]. }
  assert (IP : inb (xdim g) (dx p) (dy p) (dz p)).
  { apply (win_inb g i j c); [exact G|exact Io|]. exact (proj1 (proj2 SEL)). }
  destruct (mwrite_is s (odim g) SF i j c p HS FO Io) as (s' & Es & Is).
  destruct (mwrite_is o (odim g) OF i j c (I (dx p) (dy p) (dz p)) HO FO Io) as (o' & Eo & Io').
  exists o', s', p. split; [|split; [exact SEL|split; assumption]].
  assert (EA : dim_add (D3 (i * g_sx g) (j * g_sy g) c) (D3 a b 0) = Ok p).
  { rewrite dim_add_ok; unfold p; cbn [dx dy dz]; [f_equal; f_equal; lia| | | ]; destruct IP as (P1 & P2 & P3); unfold p, xdim in P1, P2, P3; cbn [dx dy dz] in *; unfold two31 in *; lia. }
  assert (ER : mread x p = Ok (I (dx p) (dy p) (dz p))) by (apply (is_mat_read x (xdim g) I _ _ _ HX FX IP)).
  rewrite Et. destruct t; [| |contradiction]; unfold bind; unfold max_index3, min_index3; cbn [better_of] in Ee; rewrite Ee; cbn [rbind];
    rewrite lift_ok, EA, lift_ok; unfold on_snd; rewrite Es, ER, lift_ok; unfold on_fst; rewrite Eo; reflexivity.
Qed.

Lemma resize_slot : forall {A} (a0 : A) (m : mat A) d, consistent m -> fits d -> 0 < vol d ->
  exists m' f, resize a0 d m = ORet m' tt /\ is_mat m' d f.
Proof.
  intros A a0 m d C F V. destruct (resize_ok A a0 m d F C) as (m' & E & D & C' & _).
  destruct (is_mat_exists m' C') as (f & Hf); [rewrite D; exact F|rewrite D; exact V|]. exists m', f. rewrite D in Hf. auto.
Qed.

Lemma vol_pos_of : forall d, pos d -> 0 < vol d.
Proof. intros d (A & B & C). unfold vol. assert (1 <= dx d * dy d) by nia. nia. Qed.

Theorem q_forward_on : forall P q g x I t slot s0, geom_ok g -> has_geom q g -> q_type q = t -> t <> PAvg ->
  strict_weak_on P (better_of t) -> is_mat x (xdim g) I -> (forall a b c, inb (xdim g) a b c -> P (I a b c)) -> vget (q_idx q) slot = Ok s0 -> consistent s0 ->
  exists o s OF SF, q_forward x slot q = ORet (with_slot q slot s) o /\
    is_mat o (odim g) OF /\ is_mat s (odim g) SF /\
    forall i j c, inb (odim g) i j c -> selected (better_of t) g I i j c (SF i j c) /\
      OF i j c = I (dx (SF i j c)) (dy (SF i j c)) c.
Proof.
  intros P q g x I t slot s0 G HG Et Nt SW HX PI Es0 C0. pose proof (odim_fits g G) as FO. pose proof (odim_pos g G) as PO.
  unfold q_forward. rewrite (is_mat_dim _ _ _ HX), (q_outdim_ok q g G HG). cbn [rbind].
  destruct (mat_fill_ok (odim g) n0 FO) as (o0 & Eo0 & Io0). rewrite Eo0. cbn [rbind]. rewrite Es0. cbn [rbind].
  rewrite (is_mat_dim _ _ _ Io0).
  destruct (resize_slot (dim_fill 0) s0 (odim g) C0 FO (vol_pos_of _ PO)) as (s1 & S1 & Er & Is1). rewrite Er.
  set (Inv := fun k (st : mat T * mat dim3) => exists OF SF, is_mat (fst st) (odim g) OF /\ is_mat (snd st) (odim g) SF /\
    forall i j c, inb (odim g) i j c -> lin (odim g) i j c < k -> selected (better_of t) g I i j c (SF i j c) /\
      OF i j c = I (dx (SF i j c)) (dy (SF i j c)) c).
  destruct (it_loop_inv Inv (odim g) (fun _ i => q_step q x i) (o0, s1) FO (pos_iterable _ PO)) as ([o s] & El & (OF & SF & H1 & H2 & H3)).
  - intros k i j c [o s] Io Ek (OF & SF & H1 & H2 & H3). cbn [fst snd] in *.
    destruct (q_step_on P q g x I t i j c o s OF SF G HG Et Nt SW HX PI Io H1 H2) as (o' & s' & p & E & SEL & H1' & H2').
    exists (o', s'). split; [exact E|]. eexists _, _. cbn [fst snd]. split; [exact H1'|]. split; [exact H2'|].
    intros a b e Iab L. rewrite Ek in L. destruct (lin_lt_S (odim g) i j c a b e FO Io Iab L) as [L'|(-> & -> & ->)].
    + assert (NE : (a, b, e) <> (i, j, c)). { intro Q. injection Q as -> -> ->. lia. }
      assert (NE' : ~ (a = i /\ b = j /\ e = c)) by (intros (-> & -> & ->); apply NE; reflexivity).
      unfold fupd. replace ((a =? i) && (b =? j) && (e =? c)) with false.
      * apply H3; [exact Iab|lia].
      * symmetry. apply not_true_iff_false. rewrite !andb_true_iff, !Z.eqb_eq. tauto.
    + rewrite !fupd_eq. split; [exact SEL|]. f_equal. exact (proj1 SEL).
  - exists (fun _ _ _ => n0), S1. cbn [fst snd]. split; [exact Io0|]. split; [exact Is1|]. intros i j c Iij L.
    pose proof (lin_range _ _ _ _ Iij). lia.
  - rewrite El. exists o, s, OF, SF. split; [reflexivity|]. split; [exact H1|]. split; [exact H2|].
    intros i j c Iij. apply H3; [exact Iij|]. apply (lin_range _ _ _ _ Iij).
Qed.
Theorem q_forward_ext : forall q g x I t slot s0, geom_ok g -> has_geom q g -> q_type q = t -> t <> PAvg ->
  strict_weak (better_of t) -> is_mat x (xdim g) I -> vget (q_idx q) slot = Ok s0 -> consistent s0 ->
  exists o s OF SF, q_forward x slot q = ORet (with_slot q slot s) o /\
    is_mat o (odim g) OF /\ is_mat s (odim g) SF /\
    forall i j c, inb (odim g) i j c -> selected (better_of t) g I i j c (SF i j c) /\
      OF i j c = I (dx (SF i j c)) (dy (SF i j c)) c.
Proof. intros q g x I t slot s0 G HG Et Nt SW HX Es0 C0. apply (q_forward_on (fun _ => True) q g x I t slot s0); auto using strict_weak_all. Qed.

(** Average of the window. *)
Definition win_mean (g : pool_geom) (I : Z -> Z -> Z -> T) (i j c : Z) : T :=
  ndiv (nsum (vol (D3 (g_qx g) (g_qy g) 1)) (elem_no (D3 (g_qx g) (g_qy g) 1) (fun a b _ => I (i * g_sx g + a) (j * g_sy g + b) c)))
       (nofZ (vol (D3 (g_qx g) (g_qy g) 1))).

Theorem q_forward_avg : forall q g x I slot s0, geom_ok g -> has_geom q g -> q_type q = PAvg ->
  is_mat x (xdim g) I -> vget (q_idx q) slot = Ok s0 -> consistent s0 ->
  exists o s, q_forward x slot q = ORet (with_slot q slot s) o /\ is_mat o (odim g) (win_mean g I) /\
    consistent s /\ mdim s = odim g.
Proof.
  intros q g x I slot s0 G HG Et HX Es0 C0. pose proof (odim_fits g G) as FO. pose proof (odim_pos g G) as PO.
  pose proof G as (B1 & B2 & B3 & B4 & B5 & B6 & B7 & FX).
  unfold q_forward. rewrite (is_mat_dim _ _ _ HX), (q_outdim_ok q g G HG). cbn [rbind].
  destruct (mat_fill_ok (odim g) n0 FO) as (o0 & Eo0 & Io0). rewrite Eo0. cbn [rbind]. rewrite Es0. cbn [rbind].
  rewrite (is_mat_dim _ _ _ Io0).
  destruct (resize_ok dim3 (dim_fill 0) s0 (odim g) FO C0) as (s1 & Er & Ds & Cs & _). rewrite Er.
  set (Inv := fun k (st : mat T * mat dim3) => snd st = s1 /\ is_mat (fst st) (odim g) (fun i j c => if lin (odim g) i j c <? k then win_mean g I i j c else n0)).
  destruct (it_loop_inv Inv (odim g) (fun _ i => q_step q x i) (o0, s1) FO (pos_iterable _ PO)) as ([o s] & El & (H1 & H2)).
  - intros k i j c [o s] Io Ek (H1 & H2). cbn [fst snd] in *.
    destruct (win_region g i j c G Io) as (R & A & B).
    destruct (mwrite_is o (odim g) _ i j c (win_mean g I i j c) H2 FO Io) as (o' & Eo & Io').
    exists (o', s). split.
    + unfold q_step. unfold bind at 1. rewrite (q_corner_ok q g i j c G HG Io), lift_ok.
      unfold bind at 1. rewrite (is_mat_dim _ _ _ HX). unfold q_size. destruct HG as (Q1 & Q2 & Q3 & Q4). rewrite Q1, Q2.
      rewrite mk_view_ok by assumption. rewrite lift_ok, Et.
      pose proof (is_lz_view (fun _ : unit => x) tt (xdim g) I _ HX FX R) as HL. cbn [vdim vstart dx dy dz] in HL.
      unfold bind. rewrite (mean_ok _ tt (D3 (g_qx g) (g_qy g) 1) (fun a b _ => I (i * g_sx g + a) (j * g_sy g + b) c)).
      * rewrite lift_ok. unfold on_fst. fold (win_mean g I i j c). rewrite Eo. reflexivity.
      * eapply is_lz_ext; [exact HL|]. intros a b e (I1 & I2 & I3). cbn [dx dy dz] in *. f_equal; lia.
      * apply win_fits; exact G.
      * left. cbn. lia.
    + split; cbn [fst snd]; [exact H1|]. eapply is_mat_ext; [exact Io'|]. intros a b e Iab.
      destruct (Z.ltb_spec (lin (odim g) a b e) (k + 1)) as [L|L].
      * rewrite Ek in L. destruct (lin_lt_S (odim g) i j c a b e FO Io Iab L) as [L'|(-> & -> & ->)].
        -- unfold fupd. replace ((a =? i) && (b =? j) && (e =? c)) with false.
           ++ rewrite Ek. destruct (Z.ltb_spec (lin (odim g) a b e) (lin (odim g) i j c)); [reflexivity|lia].
           ++ symmetry. apply not_true_iff_false. rewrite !andb_true_iff, !Z.eqb_eq. intros ((-> & ->) & ->). lia.
        -- rewrite fupd_eq. reflexivity.
      * unfold fupd. replace ((a =? i) && (b =? j) && (e =? c)) with false.
        -- destruct (Z.ltb_spec (lin (odim g) a b e) k); [lia|reflexivity].
        -- symmetry. apply not_true_iff_false. rewrite !andb_true_iff, !Z.eqb_eq. intros ((-> & ->) & ->). lia.
  - split; cbn [fst snd]; [reflexivity|]. eapply is_mat_ext; [exact Io0|]. intros a b e Iab. cbn beta.
    destruct (Z.ltb_spec (lin (odim g) a b e) 0) as [L|L]; [|reflexivity]. pose proof (lin_range _ _ _ _ Iab). lia.
  - rewrite El. cbn [fst snd] in *. subst s. exists o, s1. split; [reflexivity|]. split; [|split; assumption].
    eapply is_mat_ext; [exact H2|]. intros a b e Iab. pose proof (lin_range _ _ _ _ Iab). cbn beta.
    destruct (Z.ltb_spec (lin (odim g) a b e) (vol (odim g))) as [L|L]; [reflexivity|lia].
Qed.

(** Sum, in storage order of the output, of the gradients of the positions for which [here] holds. *)
Definition scatter (d : dim3) (here : Z -> Z -> Z -> bool) (G : Z -> Z -> Z -> T) (k : Z) : T :=
  fold_z (fun acc m => if elem_no d here m then nadd acc (elem_no d G m) else acc) k n0.

Lemma scatter_S : forall d here G x y z, inb d x y z ->
  scatter d here G (lin d x y z + 1) = if here x y z then nadd (scatter d here G (lin d x y z)) (G x y z) else scatter d here G (lin d x y z).
Proof.
  intros d here G x y z I. pose proof (lin_range d x y z I). unfold scatter. rewrite fold_z_snoc by lia.
  rewrite !elem_no_lin by exact I. reflexivity.
Qed.

Theorem q_dx_ext : forall q g x I slot s SF gr G, geom_ok g -> q_type q <> PAvg -> is_mat x (xdim g) I ->
  vget (q_idx q) slot = Ok s -> is_mat s (odim g) SF -> is_mat gr (odim g) G ->
  (forall i j c, inb (odim g) i j c -> inb (xdim g) (dx (SF i j c)) (dy (SF i j c)) (dz (SF i j c))) ->
  exists r, q_dx q x gr slot = Ok r /\
    is_mat r (xdim g) (fun a b e => scatter (odim g) (fun i j c => dim_eqb (SF i j c) (D3 a b e)) G (vol (odim g))).
Proof.
  intros q g x I slot s SF gr G GO Nt HX Es HS HG HB. pose proof (odim_fits g GO) as FO. pose proof (odim_pos g GO) as PO.
  pose proof GO as (B1 & B2 & B3 & B4 & B5 & B6 & B7 & FX).
  unfold q_dx. rewrite (is_mat_dim _ _ _ HX). destruct (mat_fill_ok (xdim g) n0 FX) as (d0 & E0 & I0). rewrite E0. cbn [rbind].
  rewrite Es. cbn [rbind].
  set (Inv := fun k (d : mat T) => is_mat d (xdim g) (fun a b e => scatter (odim g) (fun i j c => dim_eqb (SF i j c) (D3 a b e)) G k)).
  set (body := fun k i => (p <- lift (mread_flat s k) ;; a <- lift (mread gr i) ;; d <- mget ;; b <- lift (mread d p) ;; mwrite p (nadd b a))%st).
  destruct (it_loop_inv Inv (odim g) body d0 FO (pos_iterable _ PO)) as (r & El & Hr).
  - intros k i j c d Io Ek HI. unfold Inv in HI. set (p := SF i j c). pose proof (HB i j c Io) as IP. fold p in IP.
    unfold body. unfold bind. rewrite Ek, (is_mat_flat s (odim g) SF i j c HS Io), lift_ok. fold p.
    rewrite (is_mat_read gr (odim g) G i j c HG FO Io), lift_ok. unfold mget.
    destruct p as [px py pz] eqn:Ep. cbn [dx dy dz] in IP. rewrite (is_mat_read d (xdim g) _ px py pz HI FX IP), lift_ok.
    match goal with |- context [mwrite _ ?v d] => destruct (mwrite_is d (xdim g) _ px py pz v HI FX IP) as (d' & Ed & Id) end.
    exists d'. split; [exact Ed|]. unfold Inv. eapply is_mat_ext; [exact Id|]. intros a b e Iab. cbn beta. rewrite scatter_S by exact Io.
    fold p. rewrite Ep, Ek. unfold fupd, dim_eqb. cbn [dx dy dz].
    rewrite (Z.eqb_sym a px), (Z.eqb_sym b py), (Z.eqb_sym e pz).
    destruct (Z.eqb_spec px a) as [->|]; [|reflexivity]. destruct (Z.eqb_spec py b) as [->|]; [|reflexivity].
    destruct (Z.eqb_spec pz e) as [->|]; reflexivity.
  - unfold Inv. eapply is_mat_ext; [exact I0|]. intros. cbn beta. unfold scatter. rewrite fold_z_0 by lia. reflexivity.
  - exists r. split; [|exact Hr].
    assert (Q : run_state (it_loop (odim g) body d0) = Ok r) by (unfold run_state; rewrite El; reflexivity).
    rewrite (is_mat_dim _ _ _ HS). destruct (q_type q); [exact Q|exact Q|contradiction].
Qed.

Definition in_winb (g : pool_geom) (i j c x y z : Z) : bool :=
  (i * g_sx g <=? x) && (x <? i * g_sx g + g_qx g) && ((j * g_sy g <=? y) && (y <? j * g_sy g + g_qy g)) && (c =? z).

Theorem q_dx_avg : forall q g x I slot s gr G, geom_ok g -> has_geom q g -> q_type q = PAvg -> is_mat x (xdim g) I ->
  vget (q_idx q) slot = Ok s -> is_mat gr (odim g) G ->
  exists r, q_dx q x gr slot = Ok r /\
    is_mat r (xdim g) (fun a b e => scatter (odim g) (fun i j c => in_winb g i j c a b e)
       (fun i j c => ndiv (G i j c) (nofZ (g_qx g * g_qy g))) (vol (odim g))).
Proof.
  intros q g x I slot s gr G GO HGm Et HX Es HG. pose proof (odim_fits g GO) as FO. pose proof (odim_pos g GO) as PO.
  pose proof GO as (B1 & B2 & B3 & B4 & B5 & B6 & B7 & FX).
  unfold q_dx. rewrite (is_mat_dim _ _ _ HX). destruct (mat_fill_ok (xdim g) n0 FX) as (d0 & E0 & I0). rewrite E0. cbn [rbind].
  rewrite Es. cbn [rbind]. rewrite Et, (is_mat_dim _ _ _ HG).
  set (GD := fun i j c => ndiv (G i j c) (nofZ (g_qx g * g_qy g))).
  set (Inv := fun k (d : mat T) => is_mat d (xdim g) (fun a b e => scatter (odim g) (fun i j c => in_winb g i j c a b e) GD k)).
  match goal with |- context [it_loop (odim g) ?b d0] => destruct (it_loop_inv Inv (odim g) b d0 FO (pos_iterable _ PO)) as (r & El & Hr) end.
  - intros k i j c d Io Ek HI. unfold Inv in HI. destruct (win_region g i j c GO Io) as (R & A & B).
    unfold bind at 1. rewrite (q_corner_ok q g i j c GO HGm Io), lift_ok.
    unfold bind at 1, mget at 1. unfold bind at 1. rewrite (is_mat_dim _ _ _ HI). unfold q_size.
    destruct HGm as (Q1 & Q2 & Q3 & Q4). rewrite Q1, Q2. rewrite mk_view_ok by assumption. rewrite lift_ok.
    unfold bind at 1. rewrite Ek, (is_mat_flat gr (odim g) G i j c HG Io), lift_ok.
    assert (EQ : u64 (g_qx g * g_qy g) = g_qx g * g_qy g).
    { pose proof (fits_vol _ (win_fits g GO)) as (V & _). unfold vol in V. cbn [dx dy dz] in V. rewrite Z.mul_1_r in V. apply u64_id31. exact V. }
    rewrite EQ. fold (GD i j c).
    set (v := View (D3 (i * g_sx g) (j * g_sy g) c) (D3 (g_qx g) (g_qy g) 1)) in *.
    destruct (view_compound_scalar_ok op_add d (xdim g) _ v (GD i j c)
       (fun x y z => nadd (scatter (odim g) (fun i' j' c' => in_winb g i' j' c' (i * g_sx g + x) (j * g_sy g + y) (c + z)) GD (lin (odim g) i j c)) (GD i j c)) FX HI R) as (d' & Ed & Id).
    + left. cbn. lia.
    + intros a b e Iab. unfold op_add. rewrite Ek. reflexivity.
    + exists d'. split; [exact Ed|]. unfold Inv. eapply is_mat_ext; [exact Id|]. intros a b e (I1 & I2 & I3). cbn beta.
      rewrite scatter_S by exact Io. cbn beta. destruct (in_winb g i j c a b e) eqn:W.
      * unfold in_winb in W. rewrite !andb_true_iff, !Z.leb_le, !Z.ltb_lt, Z.eqb_eq in W.
        rewrite overlay_in by (unfold in_region, inb, v; cbn [vstart vdim dx dy dz]; lia).
        cbn [v vstart dx dy dz]. replace (i * g_sx g + (a - i * g_sx g)) with a by lia. replace (j * g_sy g + (b - j * g_sy g)) with b by lia.
        replace (c + (e - c)) with e by lia. reflexivity.
      * rewrite overlay_out; [rewrite Ek; reflexivity|]. intros (W1 & W2 & W3). cbn [v vstart vdim dx dy dz] in *.
        apply not_true_iff_false in W. apply W. unfold in_winb. rewrite !andb_true_iff, !Z.leb_le, !Z.ltb_lt, Z.eqb_eq. lia.
  - unfold Inv. eapply is_mat_ext; [exact I0|]. intros. cbn beta. unfold scatter. rewrite fold_z_0 by lia. reflexivity.
  - unfold run_state. rewrite El. exists r. split; [reflexivity|exact Hr].
Qed.
End Generic.

(** An input smaller than the pool raises an exception. *)
Theorem q_forward_small : forall {T} {N : Num T} q (x : mat T) I X Y C slot s0,
  is_mat x (D3 X Y C) I -> 1 <= X -> 1 <= Y -> 1 <= C ->
  1 <= dx (q_dim q) <= 2 ^ 24 -> 1 <= dy (q_dim q) <= 2 ^ 24 -> X < 2 ^ 24 -> Y < 2 ^ 24 ->
  1 <= dx (q_stride q) <= 2 ^ 24 -> 1 <= dy (q_stride q) <= 2 ^ 24 ->
  Z.max X (dx (q_dim q)) * Z.max Y (dy (q_dim q)) * C < two31 ->
  vget (q_idx q) slot = Ok s0 ->
  (X < dx (q_dim q) \/ Y < dy (q_dim q)) ->
  exists q' e, q_forward x slot q = OThrow q' e /\ (e = LengthError \/ e = MatrixSize).
Proof.
  intros T N q x I X Y C slot s0 HX X1 Y1 C1 QX QY X2 Y2 SX SY V ES SM.
  unfold q_forward. rewrite (is_mat_dim _ _ _ HX).
  assert (P : exists cx cy, q_outdim q (D3 X Y C) = Ok (D3 cx cy C) /\ - dx (q_dim q) <= cx <= X /\ - dy (q_dim q) <= cy <= Y).
  { unfold q_outdim. cbn [dx dy dz].
    assert (ONE : forall a s, - (2 ^ 24) <= a < 2 ^ 24 - 1 -> 1 <= s <= 2 ^ 24 -> exists c, ceil_div1 a s = Ok c /\ Z.min 0 (a + 1) <= c <= Z.max 0 (a + 1)).
    { intros a s A S. destruct (Z_lt_le_dec a (-1)) as [L|L].
      - destruct (ceil_div1_neg_low a s ltac:(lia) ltac:(unfold two31; lia)) as (c & E & B). exists c. split; [exact E|lia].
      - exists ((a + s) / s). split; [apply ceil_div1_exact; lia|].
        replace (a + s) with (a + 1 * s) by lia. rewrite Z.div_add by lia.
        assert (-1 <= a / s) by (apply Z.div_le_lower_bound; lia).
        destruct (Z.eq_dec a (-1)) as [->|]; [|assert (a / s <= a) by (apply Z.div_le_upper_bound; nia); assert (0 <= a / s) by (apply Z.div_pos; lia); lia].
        assert (-1 / s < 0) by (apply Z.div_lt_upper_bound; lia). lia. }
    destruct (ONE (X - dx (q_dim q)) (dx (q_stride q))) as (cx & Ex & Bx); [lia|lia|].
    destruct (ONE (Y - dy (q_dim q)) (dy (q_stride q))) as (cy & Ey & By); [lia|lia|].
    exists cx, cy. rewrite i32_ok by (unfold two31; lia). cbn [rbind]. rewrite Ex. cbn [rbind].
    rewrite i32_ok by (unfold two31; lia). cbn [rbind]. rewrite Ey. cbn [rbind]. split; [reflexivity|lia]. }
  destruct P as (cx & cy & EO & Bx & By). rewrite EO. cbn [rbind].
  assert (Ip : int_prod (D3 cx cy C) = Ok (cx * cy * C)).
  { assert (A1 : Z.abs cx * Z.abs cy <= Z.max X (dx (q_dim q)) * Z.max Y (dy (q_dim q))) by (apply Z.mul_le_mono_nonneg; lia).
    assert (A2 : Z.abs cx * Z.abs cy * C < two31) by (eapply Z.le_lt_trans; [|exact V]; apply Z.mul_le_mono_nonneg_r; lia).
    assert (A0 : 0 <= Z.abs cx * Z.abs cy) by nia.
    assert (A3 : Z.abs cx * Z.abs cy < two31) by (clear - A0 A2 C1; set (p := Z.abs cx * Z.abs cy) in *; nia).
    rewrite <- Z.abs_mul in *. replace (Z.abs (cx * cy) * C) with (Z.abs (cx * cy * C)) in A2 by (rewrite (Z.abs_mul _ C), (Z.abs_eq C); lia).
    unfold int_prod. cbn [dx dy dz]. rewrite i32_ok by lia. cbn [rbind]. rewrite i32_ok by lia. reflexivity. }
  unfold mat_fill at 1. rewrite Ip. cbn [rbind].
  destruct (Z.ltb_spec (cx * cy * C) 0) as [L|L]; cbn [rbind]; [exists q, LengthError; auto|].
  rewrite ES. cbn [rbind mdim].
  assert (exists s1, resize (dim_fill 0) (D3 cx cy C) s0 = ORet s1 tt) as (s1 & Er).
  { unfold resize. rewrite Ip. unfold vec_resize. destruct (Z.ltb_spec (cx * cy * C) 0); [lia|]. eauto. }
  rewrite Er. rewrite it_loop_mfor by (cbn [dz]; lia). cbn [dx dy dz].
  assert (V1 : 1 <= Z.max 1 cx * Z.max 1 cy) by (apply (Z.mul_le_mono_nonneg 1 _ 1); lia).
  replace (Z.max 1 cx * Z.max 1 cy * C) with (Z.max 1 cx * Z.max 1 cy * C - 1 + 1) by lia.
  unfold mfor. replace (Z.to_nat (Z.max 1 cx * Z.max 1 cy * C - 1 + 1)) with (Datatypes.S (Z.to_nat (Z.max 1 cx * Z.max 1 cy * C - 1))) by (clear - V1 C1; set (p := Z.max 1 cx * Z.max 1 cy) in *; assert (1 <= p * C) by nia; lia).
  cbn [mfor_n]. unfold bind at 1.
  replace (idx_of (Z.max 1 cx) (Z.max 1 cy) 0) with (D3 0 0 0) by (unfold idx_of; rewrite !Z.div_0_l, !Z.mod_0_l by lia; reflexivity).
  unfold q_step. unfold bind at 1, q_corner. cbn [dx dy dz]. rewrite !Z.mul_0_l. rewrite i32_ok by (unfold two31; lia). cbn [rbind].
  rewrite lift_ok. unfold bind at 1. rewrite (is_mat_dim _ _ _ HX). unfold q_size. rewrite mk_view_throw.
  - cbn [lift]. eauto.
  - unfold nonneg; cbn; lia.
  - unfold nonneg; cbn; lia.
  - unfold below31; cbn; unfold two31; lia.
  - unfold region_in; cbn; lia.
Qed.
