(** Proofs about nested element-wise expressions (C11, C14). *)
From Coq Require Import ZArith List Bool Lia.
From Verif Require Import Base Dim Matrix View Num Expr Tree Spec TreeSpec Iter MatFacts MatThms ViewThms.
Local Open Scope Z_scope.

Lemma consistent_read : forall {T} (m : mat T) x y z v, consistent m -> fits (mdim m) -> inb (mdim m) x y z ->
  mread m (D3 x y z) = Ok v <-> cell m (x + dx (mdim m) * y + dx (mdim m) * dy (mdim m) * z) = Some v.
Proof.
  intros T m x y z v Hc Hf Hi. unfold mread. rewrite get_index_lin by assumption.
  change (x + dx (mdim m) * y + dx (mdim m) * dy (mdim m) * z) with (lin (mdim m) x y z).
  split; [apply vget_ok|apply vget_cell].
Qed.

Lemma fits_swap : forall x y z, fits (D3 x y z) -> fits (D3 y x z).
Proof. unfold fits. cbn. intros x y z (A & B & C & D). repeat split; try lia. Qed.

Lemma dim_eta : forall d, d = D3 (dx d) (dy d) (dz d).
Proof. destruct d; reflexivity. Qed.

Section S.
Context {S T : Type}.

Lemma vread_elem : forall (m : mat T) w x y z v, consistent m -> fits (mdim m) -> region_in w (mdim m) ->
  inb (vdim w) x y z ->
  vread m w (D3 x y z) = Ok v <-> element m (dx (vstart w) + x) (dy (vstart w) + y) (dz (vstart w) + z) v.
Proof.
  intros m w x y z v Hc Hf Hr Hi. pose proof (region_inb _ _ _ _ _ Hr Hi) as Hi'. unfold vread.
  rewrite dim_add_ok; cbn [dx dy dz]; try (destruct (fits_dims _ Hf) as (A & B & C); unfold inb in Hi'; lia).
  cbn [rbind]. rewrite consistent_read by assumption. unfold element. tauto.
Qed.

Theorem tree_build : forall (t : tree S T) s, leaves_ok t s -> trans_named t ->
  (shape t s = None -> build t s = Throw MatrixSize) /\
  (forall d, shape t s = Some d -> fits d /\ exists a, build t s = Ok a /\ ldim a s = d /\
     forall x y z v, inb d x y z -> (lget a s (D3 x y z) = Ok v <-> evals s t x y z v)).
Proof.
  induction t as [p|m|p w|a IH|f a IHa b IHb|f a IH c|f c a IH|f a IH|a IH]; intros s HL HT; cbn [shape build].
  - split; [discriminate|]. intros d E. injection E as <-. destruct HL as (HC & HF). split; [exact HF|].
    eexists. split; [reflexivity|]. split; [reflexivity|]. intros x y z v Hi. cbn.
    rewrite consistent_read by assumption. split; intros H.
    + constructor. split; assumption.
    + inversion H; subst. match goal with E : element _ _ _ _ _ |- _ => destruct E; assumption end.
  - split; [discriminate|]. intros d E. injection E as <-. destruct HL as (HC & HF). split; [exact HF|].
    eexists. split; [reflexivity|]. split; [reflexivity|]. intros x y z v Hi. cbn.
    rewrite consistent_read by assumption. split; intros H.
    + constructor. split; assumption.
    + inversion H; subst. match goal with E : element _ _ _ _ _ |- _ => destruct E; assumption end.
  - split; [discriminate|]. intros d E. injection E as <-. destruct HL as (HC & HF & HR).
    split; [exact (region_fits _ _ HF HR)|].
    eexists. split; [reflexivity|]. split; [reflexivity|]. intros x y z v Hi. cbn.
    rewrite vread_elem by assumption. split; intros H.
    + constructor; assumption.
    + inversion H; subst. assumption.
  - destruct (IH s HL HT) as (H0 & H1). split; [exact H0|]. intros d E. destruct (H1 d E) as (HF & l & B & D & V).
    split; [exact HF|]. exists l. split; [exact B|]. split; [exact D|]. intros x y z v Hi. rewrite V by assumption.
    split; intros H; [constructor; exact H|inversion H; assumption].
  - destruct HL as (HL1 & HL2). destruct HT as (HT1 & HT2). destruct (IHa s HL1 HT1) as (A0 & A1). destruct (IHb s HL2 HT2) as (B0 & B1).
    destruct (shape a s) as [d1|] eqn:E1; [|split; [intros _; rewrite A0 by reflexivity; reflexivity|discriminate]].
    destruct (A1 d1 eq_refl) as (F1 & l1 & Q1 & D1 & V1).
    destruct (shape b s) as [d2|] eqn:E2.
    2:{ split; [intros _; rewrite Q1, B0 by reflexivity; reflexivity|destruct d1; discriminate]. }
    destruct (B1 d2 eq_refl) as (F2 & l2 & Q2 & D2 & V2). rewrite Q1, Q2. cbn [rbind]. unfold mk_elem, check_size.
    rewrite D1, D2. destruct d1 as [x1 y1 z1], d2 as [x2 y2 z2].
    assert (EQ : (x1 = x2 /\ y1 = y2 /\ z1 = z2) \/ ~ (x1 = x2 /\ y1 = y2 /\ z1 = z2)) by lia.
    destruct EQ as [(-> & -> & ->)|NE].
    + rewrite dim_eqb_refl. destruct (Z.eq_dec x2 x2); [|lia]. destruct (Z.eq_dec y2 y2); [|lia]. destruct (Z.eq_dec z2 z2); [|lia].
      split; [discriminate|]. intros d E. injection E as <-. split; [exact F1|]. eexists. split; [reflexivity|].
      split; [reflexivity|]. intros x y z v Hi. cbn [lget]. split.
      * destruct (lget l1 s (D3 x y z)) as [u|ex|] eqn:G1; cbn [rbind]; try discriminate.
        destruct (lget l2 s (D3 x y z)) as [w|ex|] eqn:G2; cbn [rbind]; try discriminate.
        intros Hf. apply V1 in G1; [|assumption]. apply V2 in G2; [|assumption]. econstructor; eassumption.
      * intros H. inversion H; subst. match goal with E1 : evals _ a _ _ _ _, E2 : evals _ b _ _ _ _ |- _ =>
          apply V1 in E1; [|assumption]; apply V2 in E2; [|assumption]; rewrite E1, E2 end. assumption.
    + assert (EB : dim_eqb (D3 x1 y1 z1) (D3 x2 y2 z2) = false).
      { apply dim_eqb_neq. intros E. injection E. intros. apply NE. auto. }
      rewrite EB. destruct (Z.eq_dec x1 x2); [|split; [reflexivity|discriminate]].
      destruct (Z.eq_dec y1 y2); [|split; [reflexivity|discriminate]].
      destruct (Z.eq_dec z1 z2); [exfalso; auto|split; [reflexivity|discriminate]].
  - destruct (IH s HL HT) as (H0 & H1). split; [intros E; rewrite H0 by exact E; reflexivity|].
    intros d E. destruct (H1 d E) as (HF & l & B & D & V). split; [exact HF|]. rewrite B. cbn [rbind].
    eexists. split; [reflexivity|]. split; [exact D|]. intros x y z v Hi. cbn [lget mk_scal_r]. split.
    + destruct (lget l s (D3 x y z)) as [u|ex|] eqn:G1; cbn [rbind]; try discriminate.
      intros Hf. apply V in G1; [|assumption]. econstructor; eassumption.
    + intros H. inversion H; subst. match goal with E1 : evals _ a _ _ _ _ |- _ => apply V in E1; [|assumption]; rewrite E1 end. assumption.
  - destruct (IH s HL HT) as (H0 & H1). split; [intros E; rewrite H0 by exact E; reflexivity|].
    intros d E. destruct (H1 d E) as (HF & l & B & D & V). split; [exact HF|]. rewrite B. cbn [rbind].
    eexists. split; [reflexivity|]. split; [exact D|]. intros x y z v Hi. cbn [lget mk_scal_l]. split.
    + destruct (lget l s (D3 x y z)) as [u|ex|] eqn:G1; cbn [rbind]; try discriminate.
      intros Hf. apply V in G1; [|assumption]. econstructor; eassumption.
    + intros H. inversion H; subst. match goal with E1 : evals _ a _ _ _ _ |- _ => apply V in E1; [|assumption]; rewrite E1 end. assumption.
  - destruct (IH s HL HT) as (H0 & H1). split; [intros E; rewrite H0 by exact E; reflexivity|].
    intros d E. destruct (H1 d E) as (HF & l & B & D & V). split; [exact HF|]. rewrite B. cbn [rbind].
    eexists. split; [reflexivity|]. split; [exact D|]. intros x y z v Hi. cbn [lget mk_apply]. split.
    + destruct (lget l s (D3 x y z)) as [u|ex|] eqn:G1; cbn [rbind]; try discriminate.
      intros Hf. apply V in G1; [|assumption]. econstructor; eassumption.
    + intros H. inversion H; subst. match goal with E1 : evals _ a _ _ _ _ |- _ => apply V in E1; [|assumption]; rewrite E1 end. assumption.
  - assert (HC : cat_of a = Ref /\ trans_named a). { cbn in HT. destruct a; try tauto; split; auto. }
    destruct HC as (HC & HT'). destruct (IH s HL HT') as (H0 & H1).
    split. { destruct (shape a s) as [[]|]; [discriminate|]. intros _. rewrite H0; reflexivity. }
    destruct (shape a s) as [[X Y Z0]|]; [|discriminate]. intros d E. injection E as <-.
    destruct (H1 _ eq_refl) as (HF & l & B & D & V). split; [apply fits_swap; exact HF|].
    rewrite B. cbn [rbind]. rewrite HC. eexists. split; [reflexivity|]. cbn [mk_transpose ldim dim_after_move]. rewrite D. cbn [dx dy dz].
    split; [reflexivity|]. intros x y z v Hi. cbn [lget dx dy dz]. unfold mk_transpose. cbn [lget dx dy dz].
    rewrite V by (unfold inb in *; cbn in *; lia). split; intros H; [constructor; exact H|inversion H; assumption].
Qed.

Theorem tree_convert : forall (t0 : T) (t : tree S T) s d f, leaves_ok t s -> trans_named t ->
  shape t s = Some d -> iterable d ->
  (forall x y z, inb d x y z -> evals s t x y z (f x y z)) ->
  exists a m, build t s = Ok a /\ mat_of_lz t0 (fun v => v) a s = Ok m /\ is_mat m d f.
Proof.
  intros t0 t s d f HL HT HS HI HE. destruct (proj2 (tree_build t s HL HT) d HS) as (HF & a & B & D & V).
  destruct (mat_of_lz_ok t0 (fun v => v) a s d f HF HI) as (m & Hm & IM).
  { split; [exact D|]. intros x y z Hi. apply V; auto. }
  exists a, m. auto.
Qed.

Theorem evals_det : forall s (t : tree S T) x y z v w, evals s t x y z v -> evals s t x y z w -> v = w.
Proof.
  intros s t. induction t; intros x y z v1 v2 H1 H2; inversion H1; inversion H2; subst.
  all: repeat match goal with H : element _ _ _ _ _ |- _ => destruct H end.
  all: try congruence.
  all: repeat match goal with
       | IH : forall x y z v w, evals _ ?t x y z v -> evals _ ?t x y z w -> v = w, A : evals _ ?t _ _ _ ?u, B : evals _ ?t _ _ _ ?w |- _ =>
           assert (u = w) by (eapply IH; eassumption); subst; clear B
       end; congruence.
Qed.
End S.

(** Reading a pointwise expression during the assignment. *)
Lemma pointwise_read : forall {T} (t : tree (mat T) T) m0 a d, pointwise t -> build t m0 = Ok a -> ldim a m0 = d ->
  leaves_ok t m0 ->
  forall m x y z, inb d x y z -> mdim m = d -> Z.of_nat (length (mvals m)) = vol d ->
    (mdim m0 = d -> cell m (lin d x y z) = cell m0 (lin d x y z)) ->
    lget a m (D3 x y z) = lget a m0 (D3 x y z).
Proof.
  induction t as [p|m'|p w|t IH|f t1 IH1 t2 IH2|f t IH c|f c t IH|f t IH|t IH]; intros m0 a d HP HB HD HL m x y z Hi Hm Hl Hc;
    cbn in HP, HB.
  - injection HB as <-. cbn in *. destruct HP as [HP|(c & HP)].
    + rewrite HP in *. rewrite !HP. destruct HL as (HC & HF).
      assert (HF' : fits (mdim m)) by (rewrite Hm, <- HD; exact HF).
      unfold mread. rewrite !get_index_lin by (rewrite ?Hm, ?HD; assumption || (rewrite <- ?HD; exact HF)).
      rewrite Hm, HD. specialize (Hc HD). pose proof (lin_range _ _ _ _ Hi) as R.
      destruct (cell_some m0 (lin d x y z)) as (v & Hv). { unfold consistent in HC. rewrite HC, HD. lia. }
      rewrite Hv in Hc. rewrite (vget_cell _ _ _ Hv), (vget_cell _ _ _ Hc). reflexivity.
    + rewrite !HP. reflexivity.
  - injection HB as <-. reflexivity.
  - injection HB as <-. destruct HP as (c & HP). cbn. rewrite !HP. reflexivity.
  - eapply IH; eassumption.
  - destruct HP as (P1 & P2). destruct HL as (L1 & L2).
    destruct (build t1 m0) as [a1|e|] eqn:B1; cbn [rbind] in HB; try discriminate.
    destruct (build t2 m0) as [a2|e|] eqn:B2; cbn [rbind] in HB; try discriminate.
    unfold mk_elem, check_size in HB. destruct (dim_eqb (ldim a1 m0) (ldim a2 m0)) eqn:EQ; cbn [rbind] in HB; [|discriminate].
    apply dim_eqb_eq in EQ. injection HB as <-. cbn [ldim] in HD. cbn [lget].
    rewrite (IH1 m0 a1 d P1 B1 HD L1 m x y z Hi Hm Hl Hc).
    rewrite (IH2 m0 a2 d P2 B2 (eq_trans (eq_sym EQ) HD) L2 m x y z Hi Hm Hl Hc). reflexivity.
  - destruct (build t m0) as [a1|e|] eqn:B1; cbn [rbind] in HB; try discriminate. injection HB as <-. cbn in HD |- *.
    rewrite (IH m0 a1 d HP B1 HD HL m x y z Hi Hm Hl Hc). reflexivity.
  - destruct (build t m0) as [a1|e|] eqn:B1; cbn [rbind] in HB; try discriminate. injection HB as <-. cbn in HD |- *.
    rewrite (IH m0 a1 d HP B1 HD HL m x y z Hi Hm Hl Hc). reflexivity.
  - destruct (build t m0) as [a1|e|] eqn:B1; cbn [rbind] in HB; try discriminate. injection HB as <-. cbn in HD |- *.
    rewrite (IH m0 a1 d HP B1 HD HL m x y z Hi Hm Hl Hc). reflexivity.
  - destruct HP.
Qed.

Lemma pointwise_named : forall {T} (t : tree (mat T) T), pointwise t -> trans_named t.
Proof. induction t; cbn; tauto. Qed.

Theorem pointwise_assign : forall {T} (t0 : T) (t : tree (mat T) T) m0 d f,
  pointwise t -> leaves_ok t m0 -> consistent m0 -> shape t m0 = Some d ->
  (forall x y z, inb d x y z -> evals m0 t x y z (f x y z)) ->
  exists a m1, build t m0 = Ok a /\ assign_lz t0 a m0 = ORet m1 tt /\ is_mat m1 d f.
Proof.
  intros T t0 t m0 d f HP HL HC HS HE.
  destruct (proj2 (tree_build t m0 HL (pointwise_named t HP)) d HS) as (HF & a & B & D & V).
  destruct (assign_lz_general t0 a m0 d f HF D HC) as (m1 & A & IM).
  { intros m k x y z Hi -> Hm Hl Hlate _. rewrite (pointwise_read t m0 a d HP B D HL m x y z Hi Hm Hl).
    - apply V; auto.
    - intros E. pose proof (lin_range _ _ _ _ Hi). apply Hlate; rewrite ?E; lia. }
  exists a, m1. auto.
Qed.

Theorem pointwise_compound : forall {T} (h : T -> T -> res T) (t : tree (mat T) T) m0 d f g r,
  pointwise t -> leaves_ok t m0 -> fits d -> iterable d -> is_mat m0 d f -> shape t m0 = Some d ->
  (forall x y z, inb d x y z -> evals m0 t x y z (g x y z)) ->
  (forall x y z, inb d x y z -> h (f x y z) (g x y z) = Ok (r x y z)) ->
  exists a m1, build t m0 = Ok a /\ compound_mat h a m0 = ORet m1 tt /\ is_mat m1 d r.
Proof.
  intros T h t m0 d f g r HP HL HF HI IM0 HS HE HH.
  destruct (proj2 (tree_build t m0 HL (pointwise_named t HP)) d HS) as (_ & a & B & D & V).
  destruct (compound_general T h a m0 d f g r HF HI IM0) as (m1 & A & IM); auto.
  - split; [exact D|]. intros x y z Hi. apply V; auto.
  - intros m x y z Hi Hm Hc Hlate. unfold consistent in Hc. rewrite Hm in Hc.
    apply (pointwise_read t m0 a d HP B D HL m x y z Hi Hm Hc).
    intros E. pose proof (lin_range _ _ _ _ Hi). apply Hlate. lia.
  - exists a, m1. auto.
Qed.
