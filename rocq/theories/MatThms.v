(** Proofs of the matrix and view properties (C01-C13); the statements are repeated in Props_Matrix.v. *)
From Coq Require Import ZArith List Bool Lia Psatz.
From Verif Require Import Base Dim Matrix View Num Expr Spec Iter MatFacts.
Import ListNotations.
Local Open Scope Z_scope.

(* ------------------------------------------------------------------ C01 *)

Lemma consistent_is_mat : forall {T} (m : mat T) (t0 : T), consistent m ->
  is_mat m (mdim m) (fun x y z => match cell m (lin (mdim m) x y z) with Some v => v | None => t0 end).
Proof.
  intros T m t0 C. split; [reflexivity|]. split; [exact C|].
  intros x y z I. change (x + dx (mdim m) * y + dx (mdim m) * dy (mdim m) * z) with (lin (mdim m) x y z).
  destruct (cell_some m (lin (mdim m) x y z)) as (v & E).
  - rewrite C. apply lin_range. exact I.
  - rewrite E. reflexivity.
Qed.

Lemma mread_lin : forall {T} (m : mat T) x y z, fits (mdim m) -> inb (mdim m) x y z ->
  mread m (D3 x y z) = mread_flat m (lin (mdim m) x y z).
Proof. intros. unfold mread, mread_flat. rewrite get_index_lin by assumption. reflexivity. Qed.

Lemma write_read : forall T (m : mat T) x y z v,
  consistent m -> fits (mdim m) -> inb (mdim m) x y z ->
  exists m', mwrite (D3 x y z) v m = ORet m' tt /\
    mdim m' = mdim m /\ length (mvals m') = length (mvals m) /\
    mread m' (D3 x y z) = Ok v /\
    forall x' y' z', inb (mdim m) x' y' z' -> (x', y', z') <> (x, y, z) ->
      exists w, mread m (D3 x' y' z') = Ok w /\ mread m' (D3 x' y' z') = Ok w.
Proof.
  intros T m x y z v C F I. exists (put m (lin (mdim m) x y z) v).
  split; [apply mwrite_put; assumption|]. split; [reflexivity|]. split; [apply put_len|].
  pose proof (lin_range _ _ _ _ I) as R. rewrite <- C in R. split.
  - rewrite mread_lin by assumption. unfold mread_flat. rewrite put_dim.
    apply vget_cell. apply cell_put_eq. exact R.
  - intros x' y' z' I' NE. rewrite !mread_lin by assumption. rewrite put_dim. unfold mread_flat.
    destruct (cell_some m (lin (mdim m) x' y' z')) as (w & E).
    { rewrite C. apply lin_range. exact I'. }
    exists w. split; [apply vget_cell; exact E|]. apply vget_cell.
    rewrite cell_put_neq; [exact E|lia|]. intro Q. apply lin_inj in Q; try assumption.
    destruct Q as (-> & -> & ->). congruence.
Qed.

Lemma index_position : forall d, fits d ->
  (forall x y z, inb d x y z -> exists k, 0 <= k < vol d /\
     forall T (m : mat T), mdim m = d -> mread m (D3 x y z) = mread_flat m k) /\
  (forall k, 0 <= k < vol d -> exists x y z, inb d x y z /\
     (forall T (m : mat T), mdim m = d -> mread m (D3 x y z) = mread_flat m k) /\
     (forall x' y' z', inb d x' y' z' ->
        (forall m : mat Z, mdim m = d -> mread m (D3 x' y' z') = mread_flat m k) ->
        x' = x /\ y' = y /\ z' = z)).
Proof.
  intros d F. split.
  - intros x y z I. exists (lin d x y z). split; [apply lin_range; exact I|].
    intros T m <-. apply mread_lin; assumption.
  - intros k Hk. destruct (position_case d k F Hk) as (x & y & z & I & E & _).
    exists x, y, z. split; [exact I|]. split.
    + intros T m <-. rewrite E. apply mread_lin; assumption.
    + intros x' y' z' I' H. apply (lin_inj d); try assumption.
      (* a matrix whose cell j holds j tells the positions apart *)
      set (m := Mat d (map Z.of_nat (seq 0 (Z.to_nat (vol d))))).
      assert (G : forall j, 0 <= j < vol d -> mread_flat m j = Ok j).
      { intros j Hj. unfold mread_flat. apply vget_nth; [lia|]. cbn [mvals m].
        rewrite nth_error_map. rewrite nth_error_nth' with (d := O) by (rewrite seq_length; lia).
        rewrite seq_nth by lia. cbn. f_equal. lia. }
      specialize (H m eq_refl). rewrite mread_lin in H by assumption.
      rewrite G in H by (apply lin_range; exact I'). rewrite G in H by exact Hk.
      injection H as H. cbn [mdim m] in H. rewrite H. exact E.
Qed.

(* ------------------------------------------------------------------ C02 *)

(** Row-major number of an element. *)
Definition row_major (d : dim3) (r c l : Z) : Z := l * (dx d * dy d) + r * dy d + c.

Lemma row_major_inj : forall d r c l r' c' l', inb d r c l -> inb d r' c' l' ->
  row_major d r c l = row_major d r' c' l' -> r = r' /\ c = c' /\ l = l'.
Proof.
  intros d r c l r' c' l' I I' E.
  assert (Q : c = c' /\ r = r' /\ l = l').
  { apply (lin_inj (D3 (dy d) (dx d) (dz d)) c r l c' r' l').
    - unfold inb in *. cbn [dx dy dz]. lia.
    - unfold inb in *. cbn [dx dy dz]. lia.
    - unfold lin, row_major in *. cbn [dx dy dz]. lia. }
  tauto.
Qed.

Lemma row_major_range : forall d r c l, inb d r c l -> 0 <= row_major d r c l < vol d.
Proof.
  intros d r c l I. pose proof (lin_range (D3 (dy d) (dx d) (dz d)) c r l) as H.
  unfold inb, lin, vol, row_major in *. cbn [dx dy dz] in *. lia.
Qed.

Lemma set_entries_ok : forall T (v : list T) (m : mat T),
  consistent m -> fits (mdim m) -> Z.of_nat (length v) = vol (mdim m) ->
  exists m', set_entries v m = ORet m' tt /\ mdim m' = mdim m /\ consistent m' /\
    forall r c l, inb (mdim m) r c l ->
      exists w, mread m' (D3 r c l) = Ok w /\
        nth_error v (Z.to_nat (l * (dx (mdim m) * dy (mdim m)) + r * dy (mdim m) + c)) = Some w.
Proof.
  intros T v m C F L. pose proof (fits_dims _ F) as FD. pose proof (fits_vol _ F) as FV.
  set (d := mdim m) in *.
  assert (CL : Z.of_nat (length (mvals m)) = vol d) by exact C.
  unfold set_entries.
  replace (Nat.eqb (length v) (length (mvals m))) with true by (symmetry; apply Nat.eqb_eq; lia).
  fold d. rewrite !u32_id by (unfold two31, two32 in *; lia).
  (* invariant: all elements with row-major number below [k] are written *)
  set (I := fun (k : Z) (s : mat T * Z) => snd s = k /\ mdim (fst s) = d /\ length (mvals (fst s)) = length (mvals m) /\
     forall r c l, inb d r c l -> row_major d r c l < k ->
       cell (fst s) (lin d r c l) = nth_error v (Z.to_nat (row_major d r c l))).
  match goal with |- context [mfor (dz d) ?b (m, 0)] =>
    destruct (mfor_inv (fun l s => I (l * (dx d * dy d)) s) b (dz d) (m, 0)) as ((m1 & k1) & E1 & I1) end.
  - lia.
  - intros l s Hl H.
    match goal with |- context [mfor (dx d) ?b s] =>
      destruct (mfor_inv (fun r s => I (l * (dx d * dy d) + r * dy d) s) b (dx d) s) as (s2 & E2 & I2) end.
    + lia.
    + intros r s2 Hr H2.
      match goal with |- context [mfor (dy d) ?b s2] =>
        destruct (mfor_inv (fun c s => I (l * (dx d * dy d) + r * dy d + c) s) b (dy d) s2) as (s3 & E3 & I3) end.
      * lia.
      * intros c [m3 k3] Hc (K & D3' & L3 & W3). cbn [fst snd] in *.
        assert (IB : inb d r c l) by (unfold inb; lia).
        pose proof (row_major_range d r c l IB) as RM. unfold row_major in RM.
        destruct (nth_error v (Z.to_nat k3)) as [w|] eqn:Ew;
          [|apply nth_error_None in Ew; lia].
        rewrite (vget_nth v k3 w) by (try lia; exact Ew).
        rewrite mwrite_put; try (rewrite D3'; assumption); [|unfold consistent; rewrite L3, D3'; exact C].
        eexists. split; [reflexivity|]. unfold I. cbn [fst snd]. rewrite D3'.
        split; [lia|]. split; [exact D3'|]. split; [rewrite put_len; exact L3|].
        intros r' c' l' I' Hlt.
        destruct (Z.eq_dec (row_major d r' c' l') (row_major d r c l)) as [Q|NQ].
        -- apply row_major_inj in Q; try assumption. destruct Q as (-> & -> & ->).
           rewrite cell_put_eq. 
           ++ rewrite <- Ew. f_equal. unfold row_major. lia.
           ++ rewrite L3, CL. apply lin_range. exact IB.
        -- rewrite cell_put_neq.
           ++ apply W3; [exact I'|]. unfold row_major in *. lia.
           ++ pose proof (lin_range d r c l IB). lia.
           ++ intro Q. apply lin_inj in Q; try assumption. destruct Q as (-> & -> & ->). congruence.
      * rewrite Z.add_0_r. exact H2.
      * exists s3. split; [exact E3|]. replace (l * (dx d * dy d) + (r + 1) * dy d) with (l * (dx d * dy d) + r * dy d + dy d) by ring. exact I3.
    + rewrite Z.mul_0_l, Z.add_0_r. exact H.
    + exists s2. split; [exact E2|]. replace ((l + 1) * (dx d * dy d)) with (l * (dx d * dy d) + dx d * dy d) by ring. exact I2.
  - unfold I. cbn. repeat split; auto. intros r c l IB Hlt. pose proof (row_major_range d r c l IB). lia.
  - rewrite E1. exists m1. destruct I1 as (K & D1 & L1 & W1). cbn [fst snd] in *.
    split; [reflexivity|]. split; [exact D1|]. split; [unfold consistent; rewrite L1, D1; exact C|].
    intros r c l IB. assert (IB' : inb (mdim m1) r c l) by (rewrite D1; exact IB).
    pose proof (row_major_range d r c l IB) as RM.
    destruct (nth_error v (Z.to_nat (row_major d r c l))) as [w|] eqn:Ew;
      [|apply nth_error_None in Ew; lia].
    exists w. split; [|exact Ew]. rewrite mread_lin by (rewrite ?D1; assumption). rewrite D1.
    apply vget_cell. rewrite W1; try assumption. unfold vol, row_major in *. lia.
Qed.

Lemma set_entries_throw : forall T (v : list T) (m : mat T),
  length v <> length (mvals m) -> set_entries v m = OThrow m MatrixSize.
Proof.
  intros T v m H. unfold set_entries.
  replace (Nat.eqb (length v) (length (mvals m))) with false; [reflexivity|].
  symmetry. apply Nat.eqb_neq. exact H.
Qed.

Lemma mat_of_list_ok : forall T (t0 : T) (v : list T) d,
  fits d -> Z.of_nat (length v) = vol d ->
  exists m, mat_of_list t0 d v = Ok m /\ mdim m = d /\ consistent m /\
    forall r c l, inb d r c l ->
      exists w, mread m (D3 r c l) = Ok w /\
        nth_error v (Z.to_nat (l * (dx d * dy d) + r * dy d + c)) = Some w.
Proof.
  intros T t0 v d F L. unfold mat_of_list.
  destruct (mat_fill_ok d t0 F) as (m0 & E0 & (D0 & L0 & _)). rewrite E0. cbn [rbind].
  destruct (set_entries_ok T v m0) as (m1 & E1 & D1 & C1 & W).
  - unfold consistent. rewrite D0. exact L0.
  - rewrite D0. exact F.
  - rewrite D0. exact L.
  - rewrite E1. exists m1. rewrite D0 in *. repeat split; auto.
Qed.

Lemma mat_of_list_throw : forall T (t0 : T) (v : list T) d,
  fits d -> Z.of_nat (length v) <> vol d -> mat_of_list t0 d v = Throw MatrixSize.
Proof.
  intros T t0 v d F L. unfold mat_of_list.
  destruct (mat_fill_ok d t0 F) as (m0 & E0 & (D0 & L0 & _)). rewrite E0. cbn [rbind].
  rewrite set_entries_throw; [reflexivity|]. lia.
Qed.

(* ------------------------------------------------------------------ C03 *)

Definition visits (X Y : Z) (n : nat) : list (Z * dim3) :=
  map (fun k => (Z.of_nat k, idx_of X Y (Z.of_nat k))) (seq 0 n).

Lemma run_over_seq : forall {S} (body : Z -> dim3 -> M S unit) X Y n a s,
  run_over body (map (fun k => (Z.of_nat k, idx_of X Y (Z.of_nat k))) (seq a n)) s =
  mfor_n n (Z.of_nat a) (fun k => body k (idx_of X Y k)) s.
Proof.
  intros S body X Y n; induction n as [|n IH]; intros a s; [reflexivity|].
  cbn. unfold bind. destruct (body (Z.of_nat a) (idx_of X Y (Z.of_nat a)) s); try reflexivity.
  rewrite IH. replace (Z.of_nat (Datatypes.S a)) with (Z.of_nat a + 1) by lia. reflexivity.
Qed.

Lemma iteration_exact : forall d, fits d -> (1 <= dx d /\ 1 <= dy d) \/ dz d = 0 ->
  exists l : list (Z * dim3),
    (forall S (body : Z -> dim3 -> M S unit) s, it_loop d body s = run_over body l s) /\
    Z.of_nat (length l) = vol d /\
    NoDup (map snd l) /\
    (forall x y z, inb d x y z <-> In (D3 x y z) (map snd l)) /\
    (forall k p i, nth_error l k = Some (p, i) ->
       p = Z.of_nat k /\ it_diff d i it_begin = Ok p /\ p = dx i + dx d * dy i + dx d * dy d * dz i).
Proof.
  intros d F P. assert (IT : iterable d). { pose proof (fits_dims d F). unfold iterable. lia. }
  pose proof (fits_vol d F) as [V _].
  set (n := Z.to_nat (vol d)).
  exists (visits (dx d) (dy d) n).
  assert (HN : forall k p i, nth_error (visits (dx d) (dy d) n) k = Some (p, i) ->
     p = Z.of_nat k /\ i = idx_of (dx d) (dy d) p /\ 0 <= p < vol d).
  { intros k p i H. unfold visits in H. rewrite nth_error_map in H.
    destruct (nth_error (seq 0 n) k) eqn:E; [|discriminate].
    assert (k < n)%nat by (rewrite <- (seq_length n 0); apply nth_error_Some; congruence).
    rewrite nth_error_nth' with (d := O) in E by (rewrite seq_length; lia).
    rewrite seq_nth in E by lia. injection E as <-. cbn in H. injection H as <- <-.
    repeat split; lia. }
  split; [|split; [|split; [|split]]].
  - intros S body s. rewrite it_loop_iter by exact IT. unfold visits. rewrite run_over_seq. reflexivity.
  - unfold visits. rewrite map_length, seq_length. lia.
  - unfold visits. rewrite map_map. cbn [snd]. apply NoDup_nth_error. intros i j Hi H.
    rewrite map_length, seq_length in Hi.
    assert (Hj : (j < n)%nat).
    { destruct (Nat.lt_ge_cases j n) as [|G]; [assumption|]. exfalso.
      match type of H with _ = ?r => assert (N : r = None) by (apply nth_error_None; rewrite map_length, seq_length; lia) end.
      rewrite N in H. apply nth_error_None in H. rewrite map_length, seq_length in H. lia. }
    rewrite !nth_error_map in H.
    rewrite !nth_error_nth' with (d := O) in H by (rewrite seq_length; lia).
    rewrite !seq_nth in H by lia. cbn in H. injection H as H1 H2 H3.
    destruct (position_case d (Z.of_nat i) F) as (x & y & z & I & E & Ei); [lia|].
    destruct (position_case d (Z.of_nat j) F) as (x' & y' & z' & I' & E' & Ei'); [lia|].
    unfold idx_of in Ei, Ei'. injection Ei as A1 A2 A3. injection Ei' as B1 B2 B3.
    assert (x = x') by congruence. assert (y = y') by congruence. assert (z = z') by congruence. apply Nat2Z.inj. rewrite E, E'. congruence.
  - intros x y z. split.
    + intro I. unfold visits. rewrite map_map. apply in_map_iff. exists (Z.to_nat (lin d x y z)).
      pose proof (lin_range d x y z I). split.
      * cbn [snd]. rewrite Z2Nat.id by lia. destruct d as [X Y Z0]. apply idx_of_lin. exact I.
      * apply in_seq. lia.
    + intro H. apply in_map_iff in H. destruct H as ([p i] & E & H). cbn in E. subst i.
      apply In_nth_error in H. destruct H as (k & H). apply HN in H. destruct H as (-> & E & R).
      destruct (position_case d _ F R) as (x' & y' & z' & I & _ & Ei). rewrite Ei in E. injection E as -> -> ->. exact I.
  - intros k p i H. apply HN in H. destruct H as (-> & -> & R). split; [reflexivity|].
    destruct (position_case d _ F R) as (x' & y' & z' & I & E & Ei). rewrite Ei. cbn [dx dy dz].
    split; [rewrite it_diff_idx by assumption; congruence|exact E].
Qed.

(* ------------------------------------------------------------------ C04 *)

Lemma int_prod_ok : forall d n, int_prod d = Ok n -> n = vol d.
Proof.
  intros d n H. unfold int_prod, i32 in H.
  destruct ((- two31 <=? dx d * dy d) && (dx d * dy d <? two31)); cbn [rbind] in H; [|discriminate].
  destruct ((- two31 <=? dx d * dy d * dz d) && (dx d * dy d * dz d <? two31)); [|discriminate].
  injection H as <-. reflexivity.
Qed.

Lemma int_prod_not_throw : forall d e, int_prod d <> Throw e.
Proof.
  intros d e H. unfold int_prod, i32 in H.
  destruct ((- two31 <=? dx d * dy d) && (dx d * dy d <? two31)); cbn [rbind] in H; [|discriminate].
  destruct ((- two31 <=? dx d * dy d * dz d) && (dx d * dy d * dz d <? two31)); discriminate.
Qed.

Lemma reshape_spec : forall T (m : mat T) d, fits (mdim m) -> fits d ->
  (vol d = vol (mdim m) -> reshape d m = ORet (Mat d (mvals m)) tt /\ reshape (mdim m) (Mat d (mvals m)) = ORet m tt) /\
  (vol d <> vol (mdim m) -> reshape d m = OThrow m MatrixTransform).
Proof.
  intros T m d F F'. unfold reshape. cbn [mdim mvals]. rewrite !int_prod_fits by assumption. split.
  - intros ->. rewrite Z.eqb_refl. destruct m; auto.
  - intro H. apply Z.eqb_neq in H. rewrite H. reflexivity.
Qed.

(* ------------------------------------------------------------------ C05 *)

(** [P] holds of the object after [c], whether it returned or threw, if it held before. Only exceptions
    accepted by [ok] are considered. *)
Definition pres {S A} (ok : exn -> Prop) (P : S -> Prop) (c : M S A) : Prop :=
  forall s, P s -> match c s with ORet s' _ => P s' | OThrow s' e => ok e -> P s' | OUB => True end.

Lemma pres_bind : forall {S A B} ok (P : S -> Prop) (c : M S A) (k : A -> M S B),
  pres ok P c -> (forall a, pres ok P (k a)) -> pres ok P (bind c k).
Proof.
  intros S A B ok P c k H1 H2 s Hs. unfold bind. specialize (H1 s Hs).
  destruct (c s) as [s' a|s' e|]; auto. apply (H2 a s' H1).
Qed.
Lemma pres_ret : forall {S A} ok (P : S -> Prop) (a : A), pres ok P (ret a).
Proof. intros S A ok P a s H. exact H. Qed.
Lemma pres_lift : forall {S A} ok (P : S -> Prop) (r : res A), pres ok P (lift r).
Proof. intros S A ok P [a|e|] s H; cbn; auto. Qed.
Lemma pres_mget : forall {S} ok (P : S -> Prop), pres ok P mget.
Proof. intros S ok P s H. exact H. Qed.
Lemma pres_mub : forall {S A} ok (P : S -> Prop), pres ok P (@mub S A).
Proof. intros S A ok P s H. exact I. Qed.
Lemma pres_mfor : forall {S} ok (P : S -> Prop) (b : Z -> M S unit) n, (forall k, pres ok P (b k)) -> pres ok P (mfor n b).
Proof.
  intros S ok P b n H. unfold mfor. generalize (Z.to_nat n), 0. clear n. intro n.
  induction n as [|n IH]; intro a; [apply pres_ret|].
  cbn. apply pres_bind; auto.
Qed.
Lemma pres_it_from : forall {S} ok (P : S -> Prop) (b : Z -> dim3 -> M S unit) n d i e k,
  (forall k i, pres ok P (b k i)) -> pres ok P (it_from n d i e k b).
Proof.
  intros S ok P b n; induction n as [|n IH]; intros d i e k H; cbn; destruct (dim_eqb i e);
    try apply pres_ret; try apply pres_mub. apply pres_bind; auto.
Qed.
Lemma pres_it_loop : forall {S} ok (P : S -> Prop) (b : Z -> dim3 -> M S unit) d,
  (forall k i, pres ok P (b k i)) -> pres ok P (it_loop d b).
Proof. intros. unfold it_loop. destruct (dz d <? 0); [apply pres_mub|apply pres_it_from; assumption]. Qed.
Lemma pres_copy_from : forall {S} ok (P : S -> Prop) (b : Z -> dim3 -> M S unit) n d i k,
  (forall k i, pres ok P (b k i)) -> pres ok P (copy_from n d i k b).
Proof.
  intros S ok P b n; induction n as [|n IH]; intros d i k H; cbn; [apply pres_ret|]. apply pres_bind; auto.
Qed.
Lemma pres_copy_loop : forall {S} ok (P : S -> Prop) (b : Z -> dim3 -> M S unit) d e,
  (forall k i, pres ok P (b k i)) -> pres ok P (copy_loop d e b).
Proof. intros. unfold copy_loop. apply pres_bind; [apply pres_lift|]. intro. apply pres_copy_from. assumption. Qed.

Lemma consistent_upd : forall {T} (m : mat T) k v, consistent m -> consistent (Mat (mdim m) (upd (mvals m) k v)).
Proof. unfold consistent. intros. cbn. rewrite upd_length. assumption. Qed.

Lemma pres_mwrite : forall {T} ok i (v : T), pres ok consistent (mwrite i v).
Proof.
  intros T ok i v m H. unfold mwrite, vset.
  destruct ((0 <=? get_index (mdim m) i) && (get_index (mdim m) i <? Z.of_nat (length (mvals m)))); [|exact I].
  apply consistent_upd. exact H.
Qed.
Lemma pres_mwrite_flat : forall {T} ok k (v : T), pres ok consistent (mwrite_flat k v).
Proof.
  intros T ok k v m H. unfold mwrite_flat, vset.
  destruct ((0 <=? k) && (k <? Z.of_nat (length (mvals m)))); [|exact I].
  apply consistent_upd. exact H.
Qed.
Lemma pres_vwrite : forall {T} ok v i (a : T), pres ok consistent (vwrite v i a).
Proof. intros. unfold vwrite. apply pres_bind; [apply pres_lift|]. intro. apply pres_mwrite. Qed.

Create HintDb pres.
#[export] Hint Resolve pres_ret pres_lift pres_mget pres_mub pres_mwrite pres_mwrite_flat pres_vwrite : pres.
#[export] Hint Extern 2 (pres _ _ (bind _ _)) => apply pres_bind; [|intro] : pres.
#[export] Hint Extern 2 (pres _ _ (it_loop _ _)) => apply pres_it_loop; intros : pres.
#[export] Hint Extern 2 (pres _ _ (copy_loop _ _ _)) => apply pres_copy_loop; intros : pres.
#[export] Hint Extern 2 (pres _ _ (it_from _ _ _ _ _ _)) => apply pres_it_from; intros : pres.

(** One operation of a user on a matrix object. *)
Inductive mop (T : Type) :=
| OpWrite (i : dim3) (v : T)
| OpWriteFlat (k : Z) (v : T)
| OpSetEntries (v : list T)
| OpAssignVec (v : list T)
| OpResize (d : dim3)
| OpReshape (d : dim3)
| OpAssign (a : lz (mat T) T)
| OpConv (src : mat T)
| OpModify (f : T -> res T)
| OpCompoundScalar (f : T -> T -> res T) (c : mat T -> res T)
| OpCompound (f : T -> T -> res T) (a : lz (mat T) T)
| OpViewFill (v : view) (a : T)
| OpViewAssign (v : view) (a : lz (mat T) T)
| OpViewCompound (f : T -> T -> res T) (v : view) (a : lz (mat T) T)
| OpMoveFrom          (* the matrix is moved from *)
| OpMoveTo (m : mat T). (* another matrix is moved into it *)
Arguments OpWrite {T} i v.  Arguments OpWriteFlat {T} k v. Arguments OpSetEntries {T} v.
Arguments OpAssignVec {T} v. Arguments OpResize {T} d. Arguments OpReshape {T} d. Arguments OpAssign {T} a.
Arguments OpConv {T} src. Arguments OpModify {T} f. Arguments OpCompoundScalar {T} f c. Arguments OpCompound {T} f a.
Arguments OpViewFill {T} v a. Arguments OpViewAssign {T} v a. Arguments OpViewCompound {T} f v a.
Arguments OpMoveFrom {T}. Arguments OpMoveTo {T} m.

Definition mstep {T} (t0 : T) (o : mop T) : M (mat T) unit :=
  match o with
  | OpWrite i v => mwrite i v
  | OpWriteFlat k v => mwrite_flat k v
  | OpSetEntries v => set_entries v
  | OpAssignVec v => assign_vec v
  | OpResize d => resize t0 d
  | OpReshape d => reshape d
  | OpAssign a => assign_lz t0 a
  | OpConv src => assign_conv t0 (fun x => x) src
  | OpModify f => modify f
  | OpCompoundScalar f c => compound_scalar f c
  | OpCompound f a => compound_mat f a
  | OpViewFill v a => view_fill v a
  | OpViewAssign v a => view_assign v a
  | OpViewCompound f v a => view_compound_mat f v a
  | OpMoveFrom => fun m => ORet (snd (mat_move m)) tt
  | OpMoveTo m' => fun _ => ORet (fst (mat_move m')) tt
  end.

(** A history: exceptions are caught and the object is used further. [None] after undefined behaviour. *)
Fixpoint mhistory {T} (t0 : T) (os : list (mop T)) (m : mat T) : option (mat T * list exn) :=
  match os with
  | [] => Some (m, [])
  | o :: os' =>
      match mstep t0 o m with
      | ORet m' _ => mhistory t0 os' m'
      | OThrow m' e => match mhistory t0 os' m' with Some (m'', es) => Some (m'', e :: es) | None => None end
      | OUB => None
      end
  end.

(** Operands that are themselves matrices are consistent. *)
Definition op_sane {T} (o : mop T) : Prop :=
  match o with OpConv src => consistent src | OpMoveTo m => consistent m | _ => True end.

Lemma vec_resize_length : forall {T} (t0 : T) l n l', vec_resize t0 l n = Ok l' -> Z.of_nat (length l') = n.
Proof.
  intros T t0 l n l' H. unfold vec_resize in H. destruct (n <? 0) eqn:E; [discriminate|].
  injection H as <-. rewrite app_length, firstn_length, repeat_length. lia.
Qed.

Lemma vec_resize_throw : forall {T} (t0 : T) l n e, vec_resize t0 l n = Throw e -> e = LengthError.
Proof. intros T t0 l n e H. unfold vec_resize in H. destruct (n <? 0); [congruence|discriminate]. Qed.

Lemma mstep_consistent : forall {T} (t0 : T) (o : mop T), op_sane o ->
  pres (fun e => e <> LengthError) consistent (mstep t0 o).
Proof.
  intros T t0 o Hs. destruct o; cbn [mstep]; auto with pres.
  - (* setEntries *)
    intros m H. unfold set_entries. destruct (Nat.eqb (length v) (length (mvals m))); [|intros _; exact H].
    match goal with |- context [mfor ?n ?b (m, 0)] =>
      assert (Q : pres (fun e => e <> LengthError) (fun s => consistent (fst s)) (mfor n b)) end.
    { apply pres_mfor. intro l. apply pres_mfor. intro r. apply pres_mfor. intro c.
      intros [m1 k1] H1. cbn [fst] in *.
      destruct (vget v k1); auto.
      pose proof (pres_mwrite (fun e => e <> LengthError) (D3 r c l) a m1 H1) as W.
      destruct (mwrite (D3 r c l) a m1); cbn; auto. }
    specialize (Q (m, 0) H).
    destruct (mfor _ _ (m, 0)) as [[m1 k1] ?|[m1 k1] e|]; cbn in *; auto.
  - (* = vector *)
    intros m H. unfold assign_vec. destruct (Nat.eqb (length v) (length (mvals m))) eqn:E; [|intros _; exact H].
    apply Nat.eqb_eq in E. unfold consistent in *. cbn. lia.
  - (* resize *)
    intros m H. unfold resize. destruct (int_prod d) eqn:E; [| |exact I].
    + apply int_prod_ok in E. destruct (vec_resize t0 (mvals m) a) eqn:E2; [| |exact I].
      * apply vec_resize_length in E2. unfold consistent. cbn. lia.
      * apply vec_resize_throw in E2. congruence.
    + exfalso. eapply int_prod_not_throw; eauto.
  - (* reshape *)
    intros m H. unfold reshape. destruct (int_prod d) eqn:E; [| |exact I].
    + destruct (int_prod (mdim m)) eqn:E2; [| |exact I].
      * apply int_prod_ok in E. apply int_prod_ok in E2. destruct (a =? a0) eqn:Q.
        -- unfold consistent in *. cbn. lia.
        -- intros _. exact H.
      * intros _. exact H.
    + exfalso. eapply int_prod_not_throw; eauto.
  - (* = expression *)
    intros m H. unfold assign_lz. destruct (int_prod (ldim a m)) eqn:E; [| |exact I].
    + apply int_prod_ok in E. destruct (vec_resize t0 (mvals m) a0) eqn:E2; [| |exact I].
      * apply vec_resize_length in E2.
        match goal with |- context [copy_loop ?d0 ?e0 ?b0 _] =>
          assert (Q : pres (fun e => e <> LengthError) consistent (copy_loop d0 e0 b0)) end.
        { auto 10 with pres. }
        apply Q. unfold consistent. cbn. lia.
      * apply vec_resize_throw in E2. congruence.
    + exfalso. eapply int_prod_not_throw; eauto.
  - (* conversion *)
    cbn in Hs. intros m H. unfold assign_conv. destruct (int_prod (mdim src)) eqn:E; [| |exact I].
    + apply int_prod_ok in E. destruct (vec_resize t0 (mvals m) a) eqn:E2; [| |exact I].
      * apply vec_resize_length in E2. destruct (Z.of_nat (length (mvals src)) <=? a) eqn:Q; [|exact I].
        unfold consistent in *. cbn. rewrite app_length, map_length, skipn_length. lia.
      * apply vec_resize_throw in E2. congruence.
    + exfalso. eapply int_prod_not_throw; eauto.
  - unfold modify. auto 10 with pres.
  - unfold compound_scalar. auto 12 with pres.
  - unfold compound_mat. auto 12 with pres.
  - unfold view_fill. apply pres_bind; [auto with pres|]. intro. destruct (dz (vdim v) <? 0); auto with pres.
  - unfold view_assign. auto 12 with pres.
  - unfold view_compound_mat. auto 12 with pres.
  - intros m H. cbn. reflexivity.
  - intros m' H. cbn. exact Hs.
Qed.

Lemma history_consistent : forall T (t0 : T) os m m' es,
  consistent m -> Forall op_sane os -> mhistory t0 os m = Some (m', es) -> ~ In LengthError es -> consistent m'.
Proof.
  intros T t0 os; induction os as [|o os IH]; intros m m' es C S H NI.
  - cbn in H. congruence.
  - cbn in H. pose proof (mstep_consistent t0 o (Forall_inv S) m C) as P.
    destruct (mstep t0 o m) as [m1 u|m1 e|].
    + eapply IH; eauto. apply Forall_inv_tail in S. exact S.
    + destruct (mhistory t0 os m1) as [[m2 es']|] eqn:E; [|discriminate]. injection H as <- <-.
      apply (IH m1 m2 es').
      * apply P. intro Q. apply NI. left. exact Q.
      * apply Forall_inv_tail in S. exact S.
      * exact E.
      * intro Q. apply NI. right. exact Q.
    + discriminate.
Qed.

(* ------------------------------------------------------------------ C06 *)

Lemma resize_ok : forall T (t0 : T) (m : mat T) d, fits d -> consistent m ->
  exists m', resize t0 d m = ORet m' tt /\ mdim m' = d /\ consistent m' /\
    (forall k, 0 <= k < vol d -> k < vol (mdim m) -> cell m' k = cell m k) /\
    (forall k, 0 <= k < vol d -> vol (mdim m) <= k -> cell m' k = Some t0).
Proof.
  intros T t0 m d F C. unfold resize. rewrite int_prod_fits by assumption.
  pose proof (fits_vol d F) as [V _]. unfold vec_resize. destruct (vol d <? 0) eqn:E; [lia|].
  eexists. split; [reflexivity|]. cbn [mdim]. split; [reflexivity|]. unfold consistent in *. split.
  - cbn. rewrite app_length, firstn_length, repeat_length. lia.
  - split; intros k Hk Hk2; unfold cell; cbn [mvals]; destruct (k <? 0) eqn:G; try lia.
    + rewrite nth_error_app1 by (rewrite firstn_length; lia).
      assert (Q : forall (l : list T) n j, (j < n)%nat -> nth_error (firstn n l) j = nth_error l j).
      { intros l n. revert l. induction n; intros l j Hj; [lia|]. destruct l, j; cbn; auto. apply IHn. lia. }
      apply Q. lia.
    + rewrite nth_error_app2 by (rewrite firstn_length; lia).
      rewrite nth_error_repeat; [reflexivity|]. rewrite firstn_length. lia.
Qed.

Lemma resize_depth : forall T (t0 : T) (m : mat T) X Y Z1 Z2 f,
  fits (D3 X Y Z1) -> fits (D3 X Y Z2) -> is_mat m (D3 X Y Z1) f ->
  exists m', resize t0 (D3 X Y Z2) m = ORet m' tt /\
    is_mat m' (D3 X Y Z2) (fun x y z => if z <? Z1 then f x y z else t0).
Proof.
  intros T t0 m X Y Z1 Z2 f F1 F2 (D & L & H).
  assert (C : consistent m) by (unfold consistent; rewrite D; exact L).
  destruct (resize_ok T t0 m (D3 X Y Z2) F2 C) as (m' & E & D' & C' & A & B).
  exists m'. split; [exact E|]. split; [exact D'|]. split; [unfold consistent in C'; rewrite D' in C'; exact C'|].
  intros x y z I. change (x + dx (D3 X Y Z2) * y + dx (D3 X Y Z2) * dy (D3 X Y Z2) * z) with (lin (D3 X Y Z2) x y z).
  pose proof (lin_range _ _ _ _ I) as R. destruct (z <? Z1) eqn:Ez.
  - assert (I1 : inb (D3 X Y Z1) x y z) by (unfold inb in *; cbn [dx dy dz] in *; lia).
    pose proof (lin_range _ _ _ _ I1) as R1. rewrite D in A.
    rewrite A; [|exact R|exact (proj2 R1)]. apply (H x y z I1).
  - rewrite D in B. apply B; [exact R|]. unfold vol, lin in *. unfold inb in I. cbn [dx dy dz] in *.
    assert (0 <= X * Y) by nia. assert (X * Y * Z1 <= X * Y * z) by (apply Z.mul_le_mono_nonneg_l; lia).
    assert (0 <= X * y) by nia. lia.
Qed.

(* ------------------------------------------------------------------ C07 *)

Lemma move_ok : forall T (m : mat T),
  fst (mat_move m) = m /\
  mdim (snd (mat_move m)) = D3 0 0 0 /\ consistent (snd (mat_move m)) /\
  (forall S (body : Z -> dim3 -> M S unit) s, it_loop (mdim (snd (mat_move m))) body s = ORet s tt) /\
  (forall (t0 : T) d, fits d -> exists m', resize t0 d (snd (mat_move m)) = ORet m' tt /\ is_mat m' d (fun _ _ _ => t0)).
Proof.
  intros T m. repeat split; try reflexivity.
  intros t0 d F.
  destruct (resize_ok T t0 (snd (mat_move m)) d F eq_refl) as (m' & E & D & C & A & B).
  exists m'. split; [exact E|]. apply is_mat_cells with (fun _ => t0); auto.
  - unfold consistent in C. rewrite D in C. exact C.
  - intros k Hk. apply B; [exact Hk|]. unfold vol. cbn. lia.
Qed.
