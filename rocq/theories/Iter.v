(** Facts about indices, loops and storage used by all proofs. *)
From Coq Require Import ZArith List Bool Lia Psatz.
From Verif Require Import Base Dim Matrix View Spec.
Import ListNotations.
Local Open Scope Z_scope.

(* ------------------------------------------------------------------ loops *)

Lemma mfor_n_snoc : forall {S} n a (body : Z -> M S unit) s,
  mfor_n (Datatypes.S n) a body s = bind (mfor_n n a body) (fun _ => body (a + Z.of_nat n)) s.
Proof.
  intros S n; induction n as [|n IH]; intros a body s.
  - cbn. unfold bind, ret. rewrite Z.add_0_r. destruct (body a s) as [s' []| |]; reflexivity.
  - change (mfor_n (Datatypes.S (Datatypes.S n)) a body s)
      with (bind (body a) (fun _ => mfor_n (Datatypes.S n) (a + 1) body) s).
    change (mfor_n (Datatypes.S n) a body) with (bind (body a) (fun _ => mfor_n n (a + 1) body)).
    unfold bind at 1 3. unfold bind. destruct (body a s) as [s' []| |]; [|reflexivity|reflexivity].
    rewrite IH. unfold bind. replace (a + 1 + Z.of_nat n) with (a + Z.of_nat (Datatypes.S n)) by lia. reflexivity.
Qed.

Lemma mfor_n_inv : forall {S} (I : Z -> S -> Prop) (body : Z -> M S unit) n a s,
  (forall k s, a <= k < a + Z.of_nat n -> I k s -> exists s', body k s = ORet s' tt /\ I (k + 1) s') ->
  I a s -> exists s', mfor_n n a body s = ORet s' tt /\ I (a + Z.of_nat n) s'.
Proof.
  intros S I body n; induction n as [|n IH]; intros a s Hb Hi.
  - exists s. split; [reflexivity|]. rewrite Z.add_0_r. exact Hi.
  - destruct (Hb a s) as (s1 & E1 & I1); [lia|exact Hi|].
    destruct (IH (a + 1) s1) as (s2 & E2 & I2).
    + intros k s' Hk Hik. apply Hb; [lia|exact Hik].
    + exact I1.
    + exists s2. split.
      * cbn. unfold bind. rewrite E1. exact E2.
      * replace (a + Z.of_nat (Datatypes.S n)) with (a + 1 + Z.of_nat n) by lia. exact I2.
Qed.

Lemma mfor_inv : forall {S} (I : Z -> S -> Prop) (body : Z -> M S unit) n s,
  0 <= n ->
  (forall k s, 0 <= k < n -> I k s -> exists s', body k s = ORet s' tt /\ I (k + 1) s') ->
  I 0 s -> exists s', mfor n body s = ORet s' tt /\ I n s'.
Proof.
  intros S I body n s Hn Hb Hi. unfold mfor.
  destruct (mfor_n_inv I body (Z.to_nat n) 0 s) as (s' & E & I').
  - intros k s' Hk. apply Hb. lia.
  - exact Hi.
  - exists s'. split; [exact E|]. replace n with (0 + Z.of_nat (Z.to_nat n)) by lia. exact I'.
Qed.

Lemma mfor_n_ext : forall {S} (b1 b2 : Z -> M S unit) n a s,
  (forall k s, a <= k < a + Z.of_nat n -> b1 k s = b2 k s) -> mfor_n n a b1 s = mfor_n n a b2 s.
Proof.
  intros S b1 b2 n; induction n as [|n IH]; intros a s H; [reflexivity|].
  cbn. unfold bind. rewrite H by lia. destruct (b2 a s); try reflexivity.
  apply IH. intros. apply H. lia.
Qed.

Lemma mfor_ext : forall {S} (b1 b2 : Z -> M S unit) n s,
  (forall k s, 0 <= k < n -> b1 k s = b2 k s) -> mfor n b1 s = mfor n b2 s.
Proof. intros. unfold mfor. apply mfor_n_ext. intros. apply H. lia. Qed.

Lemma mfor_neg : forall {S} (b : Z -> M S unit) n s, n <= 0 -> mfor n b s = ORet s tt.
Proof. intros. unfold mfor. replace (Z.to_nat n) with O by lia. reflexivity. Qed.

(** A loop whose body always succeeds is a fold. *)
Lemma mfor_n_fold : forall {S} (step : S -> Z -> S) (body : Z -> M S unit) n a s,
  (forall k s, a <= k < a + Z.of_nat n -> body k s = ORet (step s k) tt) ->
  mfor_n n a body s = ORet (fold_n step n a s) tt.
Proof.
  intros S step body n; induction n as [|n IH]; intros a s H; [reflexivity|].
  cbn. unfold bind. rewrite H by lia. apply IH. intros. apply H. lia.
Qed.

Lemma mfor_fold : forall {S} (step : S -> Z -> S) (body : Z -> M S unit) n s,
  (forall k s, 0 <= k < n -> body k s = ORet (step s k) tt) ->
  mfor n body s = ORet (fold_z step n s) tt.
Proof. intros. unfold mfor, fold_z. apply mfor_n_fold. intros. apply H. lia. Qed.

Lemma fold_n_ext : forall {A} (f g : A -> Z -> A) n a s,
  (forall k s, a <= k < a + Z.of_nat n -> f s k = g s k) -> fold_n f n a s = fold_n g n a s.
Proof.
  intros A f g n; induction n as [|n IH]; intros a s H; [reflexivity|].
  cbn. rewrite H by lia. apply IH. intros. apply H. lia.
Qed.

Lemma fold_z_ext : forall {A} (f g : A -> Z -> A) n s,
  (forall k s, 0 <= k < n -> f s k = g s k) -> fold_z f n s = fold_z g n s.
Proof. intros. unfold fold_z. apply fold_n_ext. intros. apply H. lia. Qed.

Lemma fold_n_snoc : forall {A} (f : A -> Z -> A) n a s,
  fold_n f (Datatypes.S n) a s = f (fold_n f n a s) (a + Z.of_nat n).
Proof.
  intros A f n; induction n as [|n IH]; intros a s.
  - cbn. rewrite Z.add_0_r. reflexivity.
  - change (fold_n f (Datatypes.S (Datatypes.S n)) a s) with (fold_n f (Datatypes.S n) (a + 1) (f s a)).
    rewrite IH. cbn [fold_n]. f_equal. lia.
Qed.

Lemma fold_z_snoc : forall {A} (f : A -> Z -> A) n s, 0 <= n -> fold_z f (n + 1) s = f (fold_z f n s) n.
Proof.
  intros. unfold fold_z. replace (Z.to_nat (n + 1)) with (Datatypes.S (Z.to_nat n)) by lia.
  rewrite fold_n_snoc. f_equal. lia.
Qed.

Lemma fold_z_0 : forall {A} (f : A -> Z -> A) n s, n <= 0 -> fold_z f n s = s.
Proof. intros. unfold fold_z. replace (Z.to_nat n) with O by lia. reflexivity. Qed.

(** Induction principle for folds. *)
Lemma fold_z_inv : forall {A} (I : Z -> A -> Prop) (f : A -> Z -> A) n s,
  0 <= n -> I 0 s -> (forall k s, 0 <= k < n -> I k s -> I (k + 1) (f s k)) -> I n (fold_z f n s).
Proof.
  intros A I f n s Hn H0 Hs. unfold fold_z.
  replace n with (Z.of_nat (Z.to_nat n)) in * by lia. rewrite Nat2Z.id.
  generalize (Z.to_nat n) Hs. clear Hs Hn n. intros n Hs.
  assert (G : forall m, (m <= n)%nat -> I (Z.of_nat m) (fold_n f m 0 s)).
  { induction m as [|m IH]; intro L; [exact H0|].
    rewrite fold_n_snoc. replace (Z.of_nat (Datatypes.S m)) with (Z.of_nat m + 1) by lia.
    replace (0 + Z.of_nat m) with (Z.of_nat m) by lia.
    apply Hs; [lia|]. apply IH. lia. }
  apply G. lia.
Qed.

(* ------------------------------------------------------------------ lists *)

Lemma upd_length : forall {A} (l : list A) n v, length (upd l n v) = length l.
Proof. intros A l; induction l; intros [|n] v; cbn; auto. Qed.

Lemma nth_error_upd_eq : forall {A} (l : list A) n v, (n < length l)%nat -> nth_error (upd l n v) n = Some v.
Proof. intros A l; induction l; intros [|n] v H; cbn in *; try lia; auto. apply IHl. lia. Qed.

Lemma nth_error_upd_neq : forall {A} (l : list A) n k v, n <> k -> nth_error (upd l n v) k = nth_error l k.
Proof. intros A l; induction l; intros [|n] [|k] v H; cbn in *; try congruence; auto. Qed.

Lemma nth_error_ext_len : forall {A} (l1 l2 : list A), length l1 = length l2 ->
  (forall k, (k < length l1)%nat -> nth_error l1 k = nth_error l2 k) -> l1 = l2.
Proof.
  intros A l1; induction l1 as [|a l1 IH]; intros [|b l2] HL H; cbn in *; try lia; auto.
  f_equal.
  - specialize (H O ltac:(lia)). cbn in H. congruence.
  - apply IH; [lia|]. intros k Hk. apply (H (Datatypes.S k)). lia.
Qed.

Lemma nth_error_repeat : forall {A} (v : A) n k, (k < n)%nat -> nth_error (repeat v n) k = Some v.
Proof. intros A v n; induction n; intros [|k] H; cbn; try lia; auto. apply IHn. lia. Qed.

(* ------------------------------------------------------------------ cells *)

Lemma cell_range : forall {T} (m : mat T) k v, cell m k = Some v -> 0 <= k < Z.of_nat (length (mvals m)).
Proof.
  unfold cell. intros T m k v H. destruct (k <? 0) eqn:E; [discriminate|].
  assert (Z.to_nat k < length (mvals m))%nat by (apply nth_error_Some; congruence). lia.
Qed.

Lemma cell_some : forall {T} (m : mat T) k, 0 <= k < Z.of_nat (length (mvals m)) -> exists v, cell m k = Some v.
Proof.
  unfold cell. intros T m k H. destruct (k <? 0) eqn:E; [lia|].
  destruct (nth_error (mvals m) (Z.to_nat k)) eqn:F; [eauto|].
  apply nth_error_None in F. lia.
Qed.

Lemma vget_cell : forall {T} (m : mat T) k v, cell m k = Some v -> vget (mvals m) k = Ok v.
Proof.
  intros T m k v H. pose proof (cell_range m k v H). unfold cell in H. unfold vget.
  destruct (k <? 0) eqn:E; [lia|].
  replace ((0 <=? k) && (k <? Z.of_nat (length (mvals m)))) with true by (symmetry; apply andb_true_iff; split; lia).
  rewrite H. reflexivity.
Qed.

Lemma vget_ok : forall {T} (m : mat T) k v, vget (mvals m) k = Ok v -> cell m k = Some v.
Proof.
  intros T m k v H. unfold vget in H. unfold cell.
  destruct ((0 <=? k) && (k <? Z.of_nat (length (mvals m)))) eqn:E; [|discriminate].
  apply andb_true_iff in E. destruct (k <? 0) eqn:F; [lia|].
  destruct (nth_error (mvals m) (Z.to_nat k)); congruence.
Qed.

Lemma vget_nth : forall {T} (l : list T) k v, 0 <= k -> nth_error l (Z.to_nat k) = Some v -> vget l k = Ok v.
Proof.
  intros T l k v Hk H. unfold vget.
  assert (Z.to_nat k < length l)%nat by (apply nth_error_Some; congruence).
  replace ((0 <=? k) && (k <? Z.of_nat (length l))) with true by (symmetry; apply andb_true_iff; split; lia).
  rewrite H. reflexivity.
Qed.

Lemma vget_out : forall {T} (l : list T) k, k < 0 \/ Z.of_nat (length l) <= k -> vget l k = UB.
Proof.
  intros T l k H. unfold vget.
  replace ((0 <=? k) && (k <? Z.of_nat (length l))) with false; [reflexivity|].
  symmetry. apply andb_false_iff. rewrite Z.leb_gt, Z.ltb_ge. lia.
Qed.

(** Storage after writing cell [k]. *)
Definition put {T} (m : mat T) (k : Z) (v : T) : mat T := Mat (mdim m) (upd (mvals m) (Z.to_nat k) v).

Lemma mwrite_flat_put : forall {T} (m : mat T) k v,
  0 <= k < Z.of_nat (length (mvals m)) -> mwrite_flat k v m = ORet (put m k v) tt.
Proof.
  intros T m k v H. unfold mwrite_flat, vset, put.
  replace ((0 <=? k) && (k <? Z.of_nat (length (mvals m)))) with true by (symmetry; apply andb_true_iff; split; lia).
  reflexivity.
Qed.

Lemma put_len : forall {T} (m : mat T) k v, length (mvals (put m k v)) = length (mvals m).
Proof. intros. cbn. apply upd_length. Qed.

Lemma put_dim : forall {T} (m : mat T) k v, mdim (put m k v) = mdim m.
Proof. reflexivity. Qed.

Lemma cell_put_eq : forall {T} (m : mat T) k v,
  0 <= k < Z.of_nat (length (mvals m)) -> cell (put m k v) k = Some v.
Proof.
  intros. unfold cell, put. cbn [mvals]. destruct (k <? 0) eqn:E; [lia|]. apply nth_error_upd_eq. lia.
Qed.

Lemma cell_put_neq : forall {T} (m : mat T) k j v, 0 <= k -> k <> j -> cell (put m k v) j = cell m j.
Proof.
  intros. unfold cell, put. cbn [mvals]. destruct (j <? 0) eqn:E; [reflexivity|].
  apply nth_error_upd_neq. lia.
Qed.

(* ------------------------------------------------------------------ products and indices *)

Lemma fits_vol : forall d, fits d -> 0 <= vol d < two31 /\ 0 <= dx d * dy d < two31.
Proof.
  intros d (H1 & H2 & H3 & H4). unfold vol.
  assert (A : 1 <= Z.max 1 (dx d) /\ 1 <= Z.max 1 (dy d) /\ 1 <= Z.max 1 (dz d)) by lia.
  assert (B : dx d <= Z.max 1 (dx d) /\ dy d <= Z.max 1 (dy d) /\ dz d <= Z.max 1 (dz d)) by lia.
  generalize dependent (Z.max 1 (dx d)). generalize dependent (Z.max 1 (dy d)).
  generalize dependent (Z.max 1 (dz d)). intros c b a. intros.
  assert (0 <= dx d * dy d <= a * b) by nia.
  assert (a * b <= a * b * c) by nia.
  assert (dx d * dy d * dz d <= a * b * c) by nia.
  assert (0 <= dx d * dy d * dz d) by nia. lia.
Qed.

Lemma fits_dims : forall d, fits d -> 0 <= dx d < two31 /\ 0 <= dy d < two31 /\ 0 <= dz d < two31.
Proof.
  intros d (H1 & H2 & H3 & H4).
  assert (A : 1 <= Z.max 1 (dx d) /\ 1 <= Z.max 1 (dy d) /\ 1 <= Z.max 1 (dz d)) by lia.
  assert (B : dx d <= Z.max 1 (dx d) /\ dy d <= Z.max 1 (dy d) /\ dz d <= Z.max 1 (dz d)) by lia.
  generalize dependent (Z.max 1 (dx d)). generalize dependent (Z.max 1 (dy d)).
  generalize dependent (Z.max 1 (dz d)). intros c b a. intros.
  assert (1 <= a * b) by nia. assert (a <= a * b) by nia. assert (b <= a * b) by nia.
  assert (a * b <= a * b * c) by nia. assert (c <= a * b * c) by nia. lia.
Qed.

Lemma pos_fits : forall d, pos d -> vol d < two31 -> fits d.
Proof.
  intros d (H1 & H2 & H3) H. unfold fits, vol in *.
  rewrite !Z.max_r by lia. lia.
Qed.

Lemma fits_lin : forall d i j k, fits d -> 0 <= i <= dx d -> 0 <= j <= dy d -> 0 <= k <= dz d ->
  0 <= k * dx d < two31 /\ 0 <= k * dx d * dy d < two31 /\ 0 <= j * dx d < two31.
Proof.
  intros d i j k (H1 & H2 & H3 & H4) Hi Hj Hk.
  assert (A : 1 <= Z.max 1 (dx d) /\ 1 <= Z.max 1 (dy d) /\ 1 <= Z.max 1 (dz d)) by lia.
  assert (B : dx d <= Z.max 1 (dx d) /\ dy d <= Z.max 1 (dy d) /\ dz d <= Z.max 1 (dz d)) by lia.
  generalize dependent (Z.max 1 (dx d)). generalize dependent (Z.max 1 (dy d)).
  generalize dependent (Z.max 1 (dz d)). intros c b a. intros.
  assert (0 <= k * dx d <= a * c) by nia. assert (a * c <= a * b * c) by nia.
  assert (0 <= k * dx d * dy d <= a * c * b) by nia. assert (a * c * b = a * b * c) by ring.
  assert (0 <= j * dx d <= a * b) by nia. assert (a * b <= a * b * c) by nia. lia.
Qed.

Lemma i32_ok : forall z, - two31 <= z < two31 -> i32 z = Ok z.
Proof.
  intros z H. unfold i32.
  replace ((- two31 <=? z) && (z <? two31)) with true; [reflexivity|].
  symmetry. apply andb_true_iff. split; lia.
Qed.

Lemma u64_id : forall z, 0 <= z < two64 -> u64 z = z.
Proof. intros. apply Z.mod_small. assumption. Qed.
Lemma u32_id : forall z, 0 <= z < two32 -> u32 z = z.
Proof. intros. apply Z.mod_small. assumption. Qed.

Lemma int_prod_fits : forall d, fits d -> int_prod d = Ok (vol d).
Proof.
  intros d H. pose proof (fits_vol d H) as [H1 H2]. unfold int_prod.
  rewrite i32_ok by lia. cbn. apply i32_ok. unfold vol in *. lia.
Qed.

Lemma base_size_fits : forall d, fits d -> base_size d = Ok (vol d).
Proof.
  intros d H. pose proof (fits_vol d H) as [H1 H2]. unfold base_size.
  rewrite i32_ok by lia. cbn. unfold vol in *. rewrite i32_ok by lia. cbn. rewrite u64_id; [reflexivity|].
  unfold two31, two64 in *. lia.
Qed.

(** Position of an in-range index. *)
Definition lin (d : dim3) (x y z : Z) : Z := x + dx d * y + dx d * dy d * z.

Lemma lin_range : forall d x y z, inb d x y z -> 0 <= lin d x y z < vol d.
Proof.
  intros d x y z ((? & ?) & (? & ?) & (? & ?)). unfold lin, vol.
  assert (dx d * y <= dx d * (dy d - 1)) by nia.
  assert (0 <= dx d * dy d) by nia.
  assert (dx d * dy d * z <= dx d * dy d * (dz d - 1)) by (apply Z.mul_le_mono_nonneg_l; lia).
  assert (0 <= dx d * y) by nia. assert (0 <= dx d * dy d * z) by (apply Z.mul_nonneg_nonneg; lia).
  split; lia.
Qed.

Lemma lin_inj : forall d x y z x' y' z', inb d x y z -> inb d x' y' z' ->
  lin d x y z = lin d x' y' z' -> x = x' /\ y = y' /\ z = z'.
Proof.
  intros d x y z x' y' z' ((? & ?) & (? & ?) & (? & ?)) ((? & ?) & (? & ?) & (? & ?)) E. unfold lin in E.
  assert (E1 : (y + dy d * z) = (y' + dy d * z')).
  { assert (A1 : (x + dx d * (y + dy d * z)) / dx d = y + dy d * z)
      by (symmetry; apply Z.div_unique with x; lia).
    assert (A2 : (x' + dx d * (y' + dy d * z')) / dx d = y' + dy d * z')
      by (symmetry; apply Z.div_unique with x'; lia).
    rewrite <- A1, <- A2. f_equal. nia. }
  assert (E2 : z = z').
  { assert (A1 : (y + dy d * z) / dy d = z) by (symmetry; apply Z.div_unique with y; lia).
    assert (A2 : (y' + dy d * z') / dy d = z') by (symmetry; apply Z.div_unique with y'; lia).
    rewrite <- A1, <- A2, E1. reflexivity. }
  subst z'. assert (y = y') by lia. subst y'. split; [lia|split; reflexivity].
Qed.

Lemma get_index_lin : forall d x y z, fits d -> inb d x y z -> get_index d (D3 x y z) = lin d x y z.
Proof.
  intros d x y z F I. pose proof (lin_range d x y z I). pose proof (fits_vol d F).
  unfold get_index. cbn [Dim.dx Dim.dy Dim.dz]. unfold lin in *.
  replace (z * dy d * dx d + y * dx d + x) with (x + dx d * y + dx d * dy d * z) by ring.
  apply u64_id. unfold two31, two64 in *. lia.
Qed.

(** [idx_of] inverts [lin]. *)
Lemma idx_of_lin : forall X Y Z0 x y z, inb (D3 X Y Z0) x y z -> idx_of X Y (lin (D3 X Y Z0) x y z) = D3 x y z.
Proof.
  intros X Y Z0 x y z ((? & ?) & (? & ?) & (? & ?)). unfold idx_of, lin. cbn [Dim.dx Dim.dy Dim.dz] in *.
  assert (E1 : (x + X * y + X * Y * z) / X = y + Y * z) by (symmetry; apply Z.div_unique with x; lia).
  assert (E2 : (x + X * y + X * Y * z) mod X = x)
    by (symmetry; apply Z.mod_unique with (y + Y * z); lia).
  assert (E3 : (y + Y * z) mod Y = y) by (symmetry; apply Z.mod_unique with z; lia).
  assert (E4 : (x + X * y + X * Y * z) / (X * Y) = z).
  { rewrite <- Z.div_div by lia. rewrite E1. symmetry. apply Z.div_unique with y; lia. }
  rewrite E1, E2, E3, E4. reflexivity.
Qed.

Lemma idx_of_inb : forall X Y Z0 k, 1 <= X -> 1 <= Y -> 0 <= k < X * Y * Z0 ->
  inb (D3 X Y Z0) (dx (idx_of X Y k)) (dy (idx_of X Y k)) (dz (idx_of X Y k)) /\
  lin (D3 X Y Z0) (dx (idx_of X Y k)) (dy (idx_of X Y k)) (dz (idx_of X Y k)) = k.
Proof.
  intros X Y Z0 k HX HY Hk. unfold idx_of, inb, lin. cbn [dx dy dz].
  assert (0 <= k mod X < X) by (apply Z.mod_pos_bound; lia).
  assert (0 <= (k / X) mod Y < Y) by (apply Z.mod_pos_bound; lia).
  assert (0 <= k / (X * Y)) by (apply Z.div_pos; nia).
  assert (k / (X * Y) < Z0) by (apply Z.div_lt_upper_bound; nia).
  split; [lia|].
  rewrite <- Z.div_div by lia.
  pose proof (Z.div_mod k X ltac:(lia)). pose proof (Z.div_mod (k / X) Y ltac:(lia)). nia.
Qed.

(** One iterator step. *)
Lemma incr_idx_of : forall X Y Z0 k, 1 <= X -> 1 <= Y -> 0 <= k ->
  incr (D3 X Y Z0) (idx_of X Y k) = idx_of X Y (k + 1).
Proof.
  intros X Y Z0 k HX HY Hk.
  set (x := k mod X). set (y := (k / X) mod Y). set (z := k / (X * Y)).
  assert (Hx : 0 <= x < X) by (apply Z.mod_pos_bound; lia).
  assert (Hy : 0 <= y < Y) by (apply Z.mod_pos_bound; lia).
  assert (Hz : 0 <= z) by (apply Z.div_pos; nia).
  assert (Ek : k = x + X * y + X * Y * z).
  { unfold x, y, z. rewrite <- Z.div_div by lia.
    pose proof (Z.div_mod k X ltac:(lia)). pose proof (Z.div_mod (k / X) Y ltac:(lia)). nia. }
  change (idx_of X Y k) with (D3 x y z).
  unfold incr. cbn [dx dy dz].
  destruct (x + 1 <? X) eqn:Ex.
  - rewrite Ek. replace (x + X * y + X * Y * z + 1) with (lin (D3 X Y (z + 1)) (x + 1) y z)
      by (unfold lin; cbn [dx dy dz]; ring).
    symmetry. apply idx_of_lin. unfold inb; cbn [dx dy dz]. lia.
  - destruct (y + 1 <? Y) eqn:Ey.
    + rewrite Ek. replace (x + X * y + X * Y * z + 1) with (lin (D3 X Y (z + 1)) 0 (y + 1) z)
        by (unfold lin; cbn [dx dy dz]; replace X with (x + 1) by lia; ring).
      symmetry. apply idx_of_lin. unfold inb; cbn [dx dy dz]. lia.
    + rewrite Ek. replace (x + X * y + X * Y * z + 1) with (lin (D3 X Y (z + 2)) 0 0 (z + 1))
        by (unfold lin; cbn [dx dy dz]; replace Y with (y + 1) by lia; replace X with (x + 1) by lia; ring).
      symmetry. apply idx_of_lin. unfold inb; cbn [dx dy dz]. lia.
Qed.

Lemma dim_eqb_eq : forall a b, dim_eqb a b = true <-> a = b.
Proof.
  intros [a1 a2 a3] [b1 b2 b3]. unfold dim_eqb. cbn.
  rewrite !andb_true_iff, !Z.eqb_eq. split; [intros ((-> & ->) & ->); reflexivity|].
  intro H. inversion H. auto.
Qed.

Lemma dim_eqb_refl : forall a, dim_eqb a a = true.
Proof. intro a. apply dim_eqb_eq. reflexivity. Qed.

Lemma dim_eqb_neq : forall a b, dim_eqb a b = false <-> a <> b.
Proof.
  intros a b. pose proof (dim_eqb_eq a b). destruct (dim_eqb a b); intuition congruence.
Qed.

(** [incr] looks at the first two dimensions only through their maximum with one. *)
Lemma incr_max : forall d i, 0 <= dx i -> 0 <= dy i ->
  incr d i = incr (D3 (Z.max 1 (dx d)) (Z.max 1 (dy d)) (dz d)) i.
Proof.
  intros d i Hx Hy. unfold incr. cbn [dx dy dz].
  replace (dx i + 1 <? Z.max 1 (dx d)) with (dx i + 1 <? dx d).
  replace (dy i + 1 <? Z.max 1 (dy d)) with (dy i + 1 <? dy d).
  reflexivity.
  - apply eq_iff_eq_true. rewrite !Z.ltb_lt. lia.
  - apply eq_iff_eq_true. rewrite !Z.ltb_lt. lia.
Qed.

Lemma idx_of_end : forall X Y Z0 k, 1 <= X -> 1 <= Y -> 0 <= k ->
  idx_of X Y k = D3 0 0 Z0 <-> k = X * Y * Z0.
Proof.
  intros X Y Z0 k HX HY Hk. split.
  - intro H. unfold idx_of in H. injection H as H1 H2 H3.
    rewrite <- Z.div_div in H3 by lia.
    pose proof (Z.div_mod k X ltac:(lia)) as A. pose proof (Z.div_mod (k / X) Y ltac:(lia)) as B.
    rewrite H3, H2 in B. rewrite H1, B in A. rewrite A. ring.
  - intros ->. assert (0 <= Z0) by nia.
    replace (X * Y * Z0) with (lin (D3 X Y (Z0 + 1)) 0 0 Z0) by (unfold lin; cbn; ring).
    apply idx_of_lin. unfold inb; cbn. lia.
Qed.

Lemma it_from_spec : forall {S} (body : Z -> dim3 -> M S unit) X Y d n k s,
  X = Z.max 1 (dx d) -> Y = Z.max 1 (dy d) -> 0 <= k -> k + Z.of_nat n = X * Y * dz d ->
  it_from n d (idx_of X Y k) (it_end d) k body s = mfor_n n k (fun j => body j (idx_of X Y j)) s.
Proof.
  intros S body X Y d n; induction n as [|n IH]; intros k s EX EY Hk E.
  - cbn. assert (EE : idx_of X Y k = it_end d).
    { unfold it_end. apply (idx_of_end X Y (dz d) k); lia. }
    rewrite EE, dim_eqb_refl. reflexivity.
  - cbn. assert (NE : idx_of X Y k <> it_end d).
    { intro C. unfold it_end in C. apply (idx_of_end X Y (dz d) k) in C; lia. }
    apply dim_eqb_neq in NE. rewrite NE.
    unfold bind. destruct (body k (idx_of X Y k) s) as [s' []| |]; try reflexivity.
    rewrite incr_max. 2,3: unfold idx_of; cbn; apply Z.mod_pos_bound; lia.
    rewrite <- EX, <- EY. rewrite incr_idx_of by lia.
    apply IH; lia.
Qed.

(** The iterator loop is the loop over positions 0 .. max(1,X)*max(1,Y)*Z - 1. *)
Lemma it_loop_mfor : forall {S} (body : Z -> dim3 -> M S unit) d s, 0 <= dz d ->
  it_loop d body s =
  mfor (Z.max 1 (dx d) * Z.max 1 (dy d) * dz d)
       (fun k => body k (idx_of (Z.max 1 (dx d)) (Z.max 1 (dy d)) k)) s.
Proof.
  intros S body d s Hz. unfold it_loop. destruct (dz d <? 0) eqn:E; [lia|].
  unfold mfor, it_fuel.
  assert (1 <= Z.max 1 (dx d) * Z.max 1 (dy d)) by nia.
  replace it_begin with (idx_of (Z.max 1 (dx d)) (Z.max 1 (dy d)) 0).
  - apply it_from_spec; lia.
  - unfold idx_of, it_begin. rewrite !Z.div_0_l, !Z.mod_0_l by lia. reflexivity.
Qed.

Lemma it_loop_pos : forall {S} (body : Z -> dim3 -> M S unit) d s, 1 <= dx d -> 1 <= dy d -> 0 <= dz d ->
  it_loop d body s = mfor (vol d) (fun k => body k (idx_of (dx d) (dy d) k)) s.
Proof.
  intros. rewrite it_loop_mfor by assumption. unfold vol. rewrite !Z.max_r by lia. reflexivity.
Qed.

Lemma it_loop_depth0 : forall {S} (body : Z -> dim3 -> M S unit) d s, dz d = 0 -> it_loop d body s = ORet s tt.
Proof. intros. rewrite it_loop_mfor by lia. apply mfor_neg. nia. Qed.

Lemma copy_from_spec : forall {S} (body : Z -> dim3 -> M S unit) d n k s,
  1 <= dx d -> 1 <= dy d -> 0 <= k ->
  copy_from n d (idx_of (dx d) (dy d) k) k body s = mfor_n n k (fun j => body j (idx_of (dx d) (dy d) j)) s.
Proof.
  intros S body d n; induction n as [|n IH]; intros k s HX HY Hk; [reflexivity|].
  cbn. unfold bind. destruct (body k (idx_of (dx d) (dy d) k) s) as [s' []| |]; try reflexivity.
  replace (incr d (idx_of (dx d) (dy d) k)) with (idx_of (dx d) (dy d) (k + 1)).
  - apply IH; lia.
  - symmetry. destruct d as [X Y Z0]. cbn [dx dy] in *. apply incr_idx_of; lia.
Qed.

Lemma it_diff_end : forall d, fits d -> it_diff d (it_end d) it_begin = Ok (vol d).
Proof.
  intros d F. pose proof (fits_dims d F). pose proof (fits_vol d F).
  destruct (fits_lin d 0 0 (dz d) F) as (A & B & C); try lia.
  unfold it_diff, dim_sub, it_end, it_begin. cbn [dx dy dz].
  rewrite !Z.sub_0_r. rewrite !i32_ok by lia. cbn [rbind dx dy dz].
  rewrite i32_ok by lia. cbn [rbind]. rewrite i32_ok by lia. cbn [rbind]. rewrite i32_ok by lia. cbn [rbind].
  rewrite i32_ok by lia. cbn [rbind]. rewrite i32_ok by lia. f_equal. unfold vol. ring.
Qed.

Lemma it_diff_idx : forall d x y z, fits d -> inb d x y z -> it_diff d (D3 x y z) it_begin = Ok (lin d x y z).
Proof.
  intros d x y z F I. pose proof (fits_dims d F). pose proof (lin_range d x y z I). pose proof (fits_vol d F).
  destruct I as ((? & ?) & (? & ?) & (? & ?)).
  destruct (fits_lin d x y z F) as (A & B & C); try lia.
  unfold it_diff, dim_sub, it_begin. cbn [dx dy dz].
  rewrite !Z.sub_0_r. rewrite !i32_ok by lia. cbn [rbind dx dy dz].
  unfold lin in *.
  assert (z * dx d * dy d = dx d * dy d * z) by ring. assert (y * dx d = dx d * y) by ring.
  rewrite i32_ok by lia. cbn [rbind]. rewrite i32_ok by lia. cbn [rbind]. rewrite i32_ok by lia. cbn [rbind].
  rewrite i32_ok by lia. cbn [rbind]. rewrite i32_ok by lia. f_equal. lia.
Qed.

(** std::copy loops are loops over positions. *)
Lemma copy_loop_mfor : forall {S} (body : Z -> dim3 -> M S unit) d s, fits d ->
  copy_loop d (it_end d) body s = mfor (vol d) (fun k => body k (idx_of (dx d) (dy d) k)) s.
Proof.
  intros S body d s F. unfold copy_loop. rewrite it_diff_end by assumption.
  cbn. unfold bind. cbn. unfold mfor. pose proof F as (H1 & H2 & H3 & _).
  destruct (Z.eq_dec (dx d) 0) as [E|E].
  { replace (vol d) with 0 by (unfold vol; rewrite E; ring). reflexivity. }
  destruct (Z.eq_dec (dy d) 0) as [E'|E'].
  { replace (vol d) with 0 by (unfold vol; rewrite E'; ring). reflexivity. }
  replace it_begin with (idx_of (dx d) (dy d) 0).
  - apply copy_from_spec; lia.
  - unfold idx_of, it_begin. rewrite !Z.div_0_l, !Z.mod_0_l by nia. reflexivity.
Qed.
