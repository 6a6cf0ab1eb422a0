(** The forward and backward pass of Model.v over the layers of a network. *)
From Coq Require Import ZArith List Bool Lia Reals Lra FunctionalExtensionality.
From Coquelicot Require Import Coquelicot.
From Verif Require Import Base Dim Matrix View Num Expr Spec Iter Sums MatFacts MatThms ExprThms Batch Kernel Connected Float32
  FloatFacts Pooling Activation Softmax LayerFacts KernelThms Calc KernelGrad BatchThms ConnectedThms PoolingThms PoolGrad
  ActivationThms SoftmaxThms LayerTotal Chars Model Net NetThms.
Import ListNotations.
Local Open Scope Z_scope.

Section Lists.
Context {T : Type} {N : Num T} (E : env T).

Lemma fwd_layers_app : forall a b x i a' rs o b' rs' o', fwd_layers E a x i = ORet a' (rs, o) ->
  fwd_layers E b o i = ORet b' (rs', o') -> fwd_layers E (a ++ b) x i = ORet (a' ++ b') (rs ++ rs', o').
Proof.
  induction a as [|l a IH]; intros b x i a' rs o b' rs' o' E1 E2.
  - cbn in E1. injection E1 as <- <- <-. exact E2.
  - cbn [app fwd_layers] in *. destruct (l_forward E x i l) as [l' y| |]; try discriminate.
    destruct (float_copy E y) as [r| |]; try discriminate.
    destruct (fwd_layers E a y i) as [t [ts p]| |] eqn:Q; cbn [map_out] in *; try discriminate.
    injection E1 as <- <- <-. rewrite (IH b y i t ts p b' rs' o' Q E2). reflexivity.
Qed.

Lemma upd_app : forall {A} (a b : list A) x v, upd (a ++ x :: b) (length a) v = a ++ v :: b.
Proof. induction a; intros; cbn; [reflexivity|]. rewrite IHa. reflexivity. Qed.
Lemma nth_error_mid : forall {A} (a b : list A) x, nth_error (a ++ x :: b) (length a) = Some x.
Proof. intros. rewrite nth_error_app2 by lia. rewrite Nat.sub_diag. reflexivity. Qed.

Lemma on_nth_ret : forall {A B} (c : M A B) (a b : list A) x y r, c x = ORet y r ->
  on_nth (length a) c (a ++ x :: b) = ORet (a ++ y :: b) r.
Proof. intros. unfold on_nth. rewrite nth_error_mid, H. cbn. rewrite upd_app. reflexivity. Qed.

(** One step of the backward loop *)
Lemma bwd_step : forall pre l post precs x z rs x' z' g i l' r, length precs = length pre ->
  double_copy x = Ok x' -> double_copy z = Ok z' ->
  l_backward E x' z' g i (Nat.eqb (length pre) 0) l = ORet l' r ->
  bwd_layers E (S (length pre)) (precs ++ x :: z :: rs) g i (pre ++ l :: post) =
  bwd_layers E (length pre) (precs ++ x :: z :: rs) r i (pre ++ l' :: post).
Proof.
  intros pre l post precs x z rs x' z' g i l' r HL EX EZ EB. cbn [bwd_layers]. unfold bind, vat.
  assert (N1 : nth_error (precs ++ x :: z :: rs) (length pre) = Some x) by (rewrite <- HL; apply nth_error_mid).
  assert (N2 : nth_error (precs ++ x :: z :: rs) (S (length pre)) = Some z).
  { rewrite nth_error_app2 by lia. replace (S (length pre) - length precs)%nat with 1%nat by lia. reflexivity. }
  rewrite N1, N2. cbn [lift]. rewrite EX, EZ. cbn [lift]. rewrite (on_nth_ret _ pre post l l' r EB). reflexivity.
Qed.
End Lists.

Section Pass.
Context (rand : Z -> Z) (rmax : Z).
Local Notation ER := (envR rand rmax).

Lemma copy_ok : forall (m : mat R) d f, is_mat m d f -> fits d -> pos d ->
  (exists m', float_copy ER m = Ok m' /\ is_mat m' d f) /\ (exists m', double_copy m = Ok m' /\ is_mat m' d f).
Proof.
  intros m d f H F P. split; unfold float_copy, double_copy.
  - destruct (mat_of_lz_ok 0%R (e_rnd ER) (l_val m) tt d f F (iterable_pos d P) (is_mat_lz m d f tt H F)) as (m' & ER' & H'). eauto.
  - destruct (mat_of_lz_ok 0%R (fun t : R => t) (l_val m) tt d f F (iterable_pos d P) (is_mat_lz m d f tt H F)) as (m' & ER' & H'). eauto.
Qed.

Lemma net_ok_head : forall ss d, net_ok ss d -> pos d /\ fits d.
Proof. destruct ss as [|s r]; intros d H; [exact H|]. destruct H as [(P & F & _) _]. auto. Qed.
Lemma net_ok_out : forall ss d, net_ok ss d -> pos (net_out ss d) /\ fits (net_out ss d).
Proof. induction ss as [|s r IH]; intros d H; [exact H|]. destruct H as [_ H]. apply IH. exact H. Qed.

Theorem net_fwd : forall ls ss d i x I, net_is ls ss d -> List.Forall (fun l => slot_ok l i) ls -> net_ok ss d -> is_mat x d I ->
  exists ls' rs o, fwd_layers ER ls x i = ORet ls' (rs, o) /\ is_mat o (net_out ss d) (net_sem ss d I) /\ net_is ls' ss d /\
    List.Forall (fun l => slot_ok l i) ls' /\ net_recorded ls' ss d i I /\ recs_are rs ss d I /\ map params_of ls' = map params_of ls.
Proof.
  induction ls as [|l ls IH]; intros ss d i x I HN HS OK HX; destruct ss as [|s ss]; cbn in HN; try contradiction.
  - exists [], [], x. cbn. auto 10.
  - destruct HN as [H1 H2]. destruct OK as [O1 O2]. inversion HS as [|? ? S1 S2]; subst.
    destruct (layer_fwd rand rmax l s d i x I H1 S1 O1 HX) as (l' & y & Ey & Hy & L1 & L2 & L3 & L4 & _).
    destruct (net_ok_head _ _ O2) as [P2 F2].
    destruct (copy_ok y _ _ Hy F2 P2) as [(r & Er & Hr) _].
    destruct (IH ss (s_out s d) i y _ H2 S2 O2 Hy) as (ls' & rs & o & Eo & Ho & N1 & N2 & N3 & N4 & N5).
    exists (l' :: ls'), (r :: rs), o. split; [|cbn; rewrite L4, N5; auto 10].
    cbn [fwd_layers]. rewrite Ey, Er, Eo. reflexivity.
Qed.

(** Condition on the backward pass: square outputs of the convolutions, except for the very first layer *)
Definition net_bkc (first : bool) (ss : list lspec) (d : dim3) : Prop :=
  match ss with [] => True | s :: r => (first = false -> s_bk s d) /\ net_bk r (s_out s d) end.

Lemma net_bk_bkc : forall ss d b, net_bk ss d -> net_bkc b ss d.
Proof. destruct ss; cbn; intros; tauto. Qed.

Theorem net_bwd : forall ls ss d i I pre post precs x rs prs g G, net_is ls ss d -> net_ok ss d -> net_recorded ls ss d i I ->
  is_mat x d I -> recs_are rs ss d I -> length precs = length pre -> is_mat g (net_out ss d) G ->
  net_bkc (Nat.eqb (length pre) 0) ss d ->
  exists ls' gin,
    bwd_layers ER (length pre + length ls) (precs ++ x :: rs ++ prs) g i (pre ++ ls ++ post) =
    bwd_layers ER (length pre) (precs ++ x :: rs ++ prs) gin i (pre ++ ls' ++ post) /\
    (ls = [] \/ pre <> [] -> is_mat gin d (net_dx ss d I G)) /\ net_is ls' ss d /\ net_stored ls' ss d i (net_grads ss d I G) /\
    map params_of ls' = map params_of ls.
Proof.
  induction ls as [|l ls IH]; intros ss d i I pre post precs x rs prs g G HN OK HR HX RS HL HG BK; destruct ss as [|s ss]; cbn in HN; try contradiction.
  - exists [], g. rewrite Nat.add_0_r. cbn. auto.
  - destruct HN as [H1 H2]. destruct OK as [O1 O2]. cbn [net_recorded] in HR. destruct HR as [R1 R2].
    destruct rs as [|z rs]; cbn in RS; [contradiction|]. destruct RS as [Z1 Z2]. destruct BK as [B1 B2].
    destruct (IH ss (s_out s d) i (sem s d I) (pre ++ [l]) post (precs ++ [x]) z rs prs g G H2 O2 R2 Z1 Z2
               ltac:(rewrite !app_length; cbn; lia) HG ltac:(apply net_bk_bkc; exact B2)) as (ls' & g1 & E1 & G1 & N1 & N2 & N3).
    rewrite app_length in E1. cbn [length] in E1. rewrite <- !app_assoc in E1. cbn [app] in E1.
    assert (HG1 : is_mat g1 (s_out s d) (net_dx ss (s_out s d) (sem s d I) G)).
    { apply G1. right. destruct pre; discriminate. }
    destruct O1 as (P1 & F1 & O1). destruct (net_ok_head _ _ O2) as [P2 F2].
    destruct (copy_ok x d I HX F1 P1) as [_ (x' & Ex & Hx)]. destruct (copy_ok z _ _ Z1 F2 P2) as [_ (z' & Ez & Hz)].
    destruct (layer_bwd rand rmax l s d i x' z' g1 I _ (Nat.eqb (length pre) 0) H1 (conj P1 (conj F1 O1)) R1 B1 Hx Hz HG1)
      as (l' & gin & EB & GB & L1 & L2 & L3).
    exists (l' :: ls'), gin. split.
    + cbn [length app] in *. replace (length pre + S (length ls))%nat with (length pre + 1 + length ls)%nat by lia. rewrite E1.
      rewrite Nat.add_1_r. apply (bwd_step ER) with (x' := x') (z' := z'); assumption.
    + split.
      * intros [C|C]; [discriminate|]. cbn [net_dx]. apply GB. apply Nat.eqb_neq. destruct pre; [congruence|discriminate].
      * cbn [net_is net_grads net_stored fst snd map]. rewrite L3, N3. auto.
Qed.
End Pass.
