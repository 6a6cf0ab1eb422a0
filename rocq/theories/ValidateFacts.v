(** The steps of one image in validate: they do not depend on the content of the shared pooling slots, and without other
    threads they are forwardPropagation of Model.v. *)
From Coq Require Import ZArith List Bool Lia.
From Verif Require Import Base Dim Matrix View Num Expr Spec Iter Sums MatFacts MatThms Batch Kernel Connected Float32 FloatFacts Pooling Activation Softmax
  LayerFacts KernelThms ConnectedThms PoolingThms PoolGrad LayerTotal Chars Model Net NetGrad ModelThms Train TrainLocal TrainRest TrainSgd Shapes ShapeNet Mnist MnistFacts Validate.
Import ListNotations.
Local Open Scope Z_scope.

(** ** The slot of selected indices is only written *)
Definition alike {A} (s s' : mat A) : Prop := mdim s = mdim s' /\ length (mvals s) = length (mvals s').
Definition with_alike {A B} (p p' : A * mat B) : Prop := fst p = fst p' /\ alike (snd p) (snd p').

Lemma mwrite_alike : forall {A} i (p : A) s s', alike s s' -> both alike (mwrite i p s) (mwrite i p s').
Proof.
  intros A i p s s' [H1 H2]. unfold mwrite, vset. rewrite H1, H2.
  destruct ((0 <=? get_index (mdim s') i) && (get_index (mdim s') i <? Z.of_nat (length (mvals s')))); cbn; auto.
  split; [|reflexivity]. split; [reflexivity|]. cbn. rewrite !upd_length. exact H2.
Qed.
Lemma on_snd_alike : forall {A B C} (c : M (mat B) C) (p p' : A * mat B), with_alike p p' ->
  (forall s s', alike s s' -> both alike (c s) (c s')) -> both with_alike (on_snd c p) (on_snd c p').
Proof.
  intros A B C c [o s] [o' s'] [H1 H2] K. cbn in *. subst o'. specialize (K s s' H2). destruct (c s), (c s'); cbn in *; try contradiction; auto.
  destruct K as [K1 K2]. split; [split; [reflexivity|exact K1]|exact K2].
Qed.
Lemma on_fst_alike : forall {A B C} (c : M A C) (p p' : A * mat B), with_alike p p' -> both with_alike (on_fst c p) (on_fst c p').
Proof.
  intros A B C c [o s] [o' s'] [H1 H2]. cbn in *. subst o'. destruct (c o); cbn; auto. split; [split; [reflexivity|exact H2]|reflexivity].
Qed.

Section Facts.
Context {T : Type} {N : Num T}.

Lemma q_step_alike : forall q (x : mat T) i p p', with_alike p p' -> both with_alike (q_step q x i p) (q_step q x i p').
Proof.
  intros q x i p p' H. unfold q_step. apply both_bind; [apply both_lift; exact H|]. intros c t t' H1. apply both_bind; [apply both_lift; exact H1|].
  intros v t2 t2' H2.
  assert (K : forall r : res dim3, both with_alike ((j <- lift r ;; p0 <- lift (dim_add c j) ;; on_snd (mwrite i p0) ;; a <- lift (mread x p0) ;; on_fst (mwrite i a))%st t2)
    ((j <- lift r ;; p0 <- lift (dim_add c j) ;; on_snd (mwrite i p0) ;; a <- lift (mread x p0) ;; on_fst (mwrite i a))%st t2')).
  { intros r. apply both_bind; [apply both_lift; exact H2|]. intros j t3 t3' H3. apply both_bind; [apply both_lift; exact H3|]. intros p0 t4 t4' H4.
    apply both_bind; [apply on_snd_alike; [exact H4|intros; apply mwrite_alike; assumption]|]. intros u t5 t5' H5.
    apply both_bind; [apply both_lift; exact H5|]. intros a t6 t6' H6. apply on_fst_alike. exact H6. }
  destruct (q_type q); [apply K|apply K|].
  apply both_bind; [apply both_lift; exact H2|]. intros a t3 t3' H3. apply on_fst_alike. exact H3.
Qed.
Lemma mfor_n_both : forall {S} (R : S -> S -> Prop) (body : Z -> M S unit) n k s s', R s s' ->
  (forall k s s', R s s' -> both R (body k s) (body k s')) -> both R (mfor_n n k body s) (mfor_n n k body s').
Proof.
  intros S R body. induction n as [|n IH]; intros k s s' H K; [cbn; auto|]. cbn [mfor_n]. apply both_bind; [apply K; exact H|]. intros u t t' H1. apply IH; assumption.
Qed.

(** What a step leaves alone *)
Lemma mwrite_dims : forall {A} i (v : A) m m' u, mwrite i v m = ORet m' u -> alike m m'.
Proof.
  intros A i v m m' u H. unfold mwrite, vset in H. destruct ((0 <=? get_index (mdim m) i) && (get_index (mdim m) i <? Z.of_nat (length (mvals m)))); [|discriminate].
  injection H as <- _. split; [reflexivity|]. cbn. rewrite upd_length. reflexivity.
Qed.
Definition alike2 {A B} (p p' : mat A * mat B) : Prop := alike (fst p) (fst p') /\ alike (snd p) (snd p').
Lemma alike_refl : forall {A} (s : mat A), alike s s.
Proof. split; reflexivity. Qed.
Lemma alike_trans : forall {A} (s s' s'' : mat A), alike s s' -> alike s' s'' -> alike s s''.
Proof. intros A s s' s'' [H1 H2] [H3 H4]. split; congruence. Qed.
Lemma alike_sym : forall {A} (s s' : mat A), alike s s' -> alike s' s.
Proof. intros A s s' [H1 H2]. split; congruence. Qed.
Lemma alike_has : forall {A} (s s' : mat A) d, alike s s' -> has s d -> has (A := A) s' d.
Proof. intros A s s' d [H1 H2] [H3 H4]. split; [congruence|]. unfold consistent in *. rewrite <- H1, <- H2. exact H4. Qed.
Lemma has_alike : forall {A} (s s' : mat A) d, has s d -> has s' d -> alike s s'.
Proof. intros A s s' d [H1 H2] [H3 H4]. split; [congruence|]. unfold consistent in *. rewrite H1 in H2. rewrite H3 in H4. lia. Qed.

Lemma q_step_dims : forall q (x : mat T) i o s o' s' u, q_step q x i (o, s) = ORet (o', s') u -> alike o o' /\ alike s s'.
Proof.
  intros q x i o s o' s' u H. unfold q_step, bind, lift in H.
  destruct (q_corner q i) as [c| |]; try discriminate. destruct (mk_view (mdim x) c (q_size q)) as [v| |]; try discriminate.
  assert (K : forall r : res dim3, (j <- lift r ;; p0 <- lift (dim_add c j) ;; on_snd (mwrite i p0) ;; a <- lift (mread x p0) ;; on_fst (mwrite i a))%st (o, s) = ORet (o', s') u -> alike o o' /\ alike s s').
  { intros r H1. unfold bind, lift in H1. destruct r as [j| |]; try discriminate. destruct (dim_add c j) as [p0| |]; try discriminate.
    unfold on_snd in H1. destruct (mwrite i p0 s) as [s1 u1| |] eqn:Q; try discriminate. destruct (mread x p0) as [a| |]; try discriminate.
    unfold on_fst in H1. destruct (mwrite i a o) as [o1 u2| |] eqn:Q2; try discriminate. injection H1 as <- <- _. split; eapply mwrite_dims; eassumption. }
  destruct (q_type q); [eapply K; exact H|eapply K; exact H|].
  destruct (mean (l_view (fun _ : unit => x) v) tt) as [a| |]; try discriminate.
  unfold on_fst in H. destruct (mwrite i a o) as [o1 u2| |] eqn:Q2; try discriminate. injection H as <- <- _. split; [eapply mwrite_dims; eassumption|apply alike_refl].
Qed.

(** ** Layers that differ in the slots only *)
Inductive simL : layer T -> layer T -> Prop :=
| sim_pool : forall d st t i i' s s', vget i 0 = Ok s -> vget i' 0 = Ok s' -> simL (LPool (Pool d st t i)) (LPool (Pool d st t i'))
| sim_same : forall l, ready l -> match l with LPool _ => False | _ => True end -> simL l l.
Definition sims : list (layer T) -> list (layer T) -> Prop := Forall2 simL.

Lemma simL_refl : forall l, ready l -> index_slot l 0 -> simL l l.
Proof. intros [k|c|[d st t i]|a|s] R H; try (apply sim_same; [exact R|exact I]). destruct H as (s0 & V & _). eapply sim_pool; exact V. Qed.
Lemma simL_sym : forall l l', simL l l' -> simL l' l.
Proof. intros l l' H. destruct H; [eapply sim_pool; eassumption|apply sim_same; assumption]. Qed.
Lemma simL_trans : forall l l' l'', simL l l' -> simL l' l'' -> simL l l''.
Proof. intros l l' l'' H H'. destruct H; inversion H'; subst; try (eapply sim_pool; eassumption); try contradiction. apply sim_same; assumption. Qed.

Lemma vget_upd0 : forall {A} (l : list A) s s1, vget l 0 = Ok s -> vget (upd l (Z.to_nat 0) s1) 0 = Ok s1.
Proof. intros A l s s1 H. eapply vget_upd_eq. exact H. Qed.
Lemma upd_twice : forall {A} (l : list A) i a b, upd (upd l i a) i b = upd l i b.
Proof. induction l; intros [|i] b c; cbn; auto. f_equal. apply IHl. Qed.
Lemma upd_id : forall {A} (l : list A) i a, nth_error l i = Some a -> upd l i a = l.
Proof. induction l; intros [|i] b H; cbn in *; try discriminate; [injection H as ->; reflexivity|]. f_equal. apply IHl. exact H. Qed.
Lemma with_slot_id : forall q s, vget (q_idx q) 0 = Ok s -> with_slot q 0 s = q.
Proof.
  intros [d st t i] s H. unfold with_slot. cbn in *. f_equal. apply upd_id. unfold vget in H. destruct ((0 <=? 0) && (0 <? Z.of_nat (length i))); [|discriminate].
  change (Z.to_nat 0) with O in *. destruct (nth_error i 0); [congruence|discriminate].
Qed.

(** Pooling.cpp 47-87 as its start and its loop *)
Definition pool_rest (x o : mat T) (k : Z) (q : pooling) : out pooling (mat T) :=
  match vget (q_idx q) 0 with
  | Ok s => match mfor_n (Z.to_nat (vol (mdim o) - k)) k (fun j => q_step q x (idx_of (dx (mdim o)) (dy (mdim o)) j)) (o, s) with
            | ORet (o', s') _ => ORet (with_slot q 0 s') o'
            | OThrow (_, s') e => OThrow (with_slot q 0 s') e
            | OUB => OUB
            end
  | Throw e => OThrow q e
  | UB => OUB
  end.
Lemma q_forward_parts : forall (x : mat T) q, (forall d, q_outdim q (mdim x) = Ok d -> pos d) ->
  q_forward x 0 q = match pool_begin x q with ORet q' o => pool_rest x o 0 q' | OThrow q' e => OThrow q' e | OUB => OUB end.
Proof.
  intros x q HP. unfold q_forward, pool_begin. destruct (q_outdim q (mdim x)) as [d| |] eqn:QD; try reflexivity. cbn [rbind]. specialize (HP d eq_refl).
  destruct (mat_fill d n0) as [o| |] eqn:QF; try reflexivity. cbn [rbind]. destruct (vget (q_idx q) 0) as [s| |] eqn:QV; try reflexivity. cbn [rbind].
  assert (MO : mdim o = d) by (unfold mat_fill in QF; destruct (int_prod d) as [z| |]; try discriminate; cbn in QF; destruct (z <? 0); try discriminate; injection QF as <-; reflexivity).
  rewrite MO. destruct (resize (dim_fill 0) d s) as [s1 u|s1 e|]; try reflexivity.
  replace (dz d <? 0) with false by (symmetry; apply Z.ltb_ge; destruct HP as (_ & _ & P3); lia).
  unfold pool_rest. cbn [with_slot q_idx q_dim q_stride q_type]. rewrite (vget_upd0 _ _ s1 QV). rewrite it_loop_iter by (apply pos_iterable; exact HP).
  rewrite MO. unfold mfor. rewrite Z.sub_0_r.
  change (fun j => q_step (with_slot q 0 s1) x (idx_of (dx d) (dy d) j)) with (fun j => q_step q x (idx_of (dx d) (dy d) j)).
  destruct (mfor_n _ _ _ _) as [[o' s'] u'|[o' s'] e|]; try reflexivity; unfold with_slot; cbn [q_idx q_dim q_stride q_type]; rewrite upd_twice; reflexivity.
Qed.

Lemma resize_alike : forall {A} (a : A) d s s', both alike (resize a d s) (resize a d s').
Proof.
  intros A a d s s'. unfold resize. destruct (int_prod d) as [n| |]; cbn; auto. unfold vec_resize. destruct (n <? 0) eqn:Q; cbn; auto.
  split; [|reflexivity]. split; [reflexivity|]. cbn. rewrite !app_length, !repeat_length, !firstn_length. lia.
Qed.

(** ** Equal results for layers that differ in the slots *)
Context (E : env T).
Definition looks (q q' : pooling) : Prop :=
  q_dim q = q_dim q' /\ q_stride q = q_stride q' /\ q_type q = q_type q' /\ (exists s, vget (q_idx q) 0 = Ok s) /\ (exists s, vget (q_idx q') 0 = Ok s).
Lemma looks_sim : forall q q', looks q q' -> simL (LPool q) (LPool q').
Proof. intros [d st t i] [d' st' t' i'] (H1 & H2 & H3 & (s & H4) & (s' & H5)). cbn in *. subst. eapply sim_pool; eassumption. Qed.
Lemma looks_slot : forall q q' s s', looks q q' -> looks (with_slot q 0 s) (with_slot q' 0 s').
Proof.
  intros q q' s s' (H1 & H2 & H3 & (a & H4) & (b & H5)). unfold looks, with_slot. cbn [q_dim q_stride q_type q_idx].
  split; [exact H1|]. split; [exact H2|]. split; [exact H3|]. split; eexists; eapply vget_upd0; eassumption.
Qed.
Lemma q_step_look : forall q q' (x : mat T) i, looks q q' -> q_step q x i = q_step q' x i.
Proof. intros [d st t i] [d' st' t' i'] x j (H1 & H2 & H3 & _). cbn in *. subst. reflexivity. Qed.
Lemma q_outdim_look : forall q q' d, looks q q' -> q_outdim q d = q_outdim q' d.
Proof. intros [d st t i] [d' st' t' i'] x (H1 & H2 & H3 & _). cbn in *. subst. reflexivity. Qed.
Lemma it_from_both : forall {S} (R : S -> S -> Prop) (body : Z -> dim3 -> M S unit), (forall k i s s', R s s' -> both R (body k i s) (body k i s')) ->
  forall fuel d i e k s s', R s s' -> both R (it_from fuel d i e k body s) (it_from fuel d i e k body s').
Proof.
  intros S R body K. induction fuel as [|f IH]; intros d i e k s s' H; cbn [it_from]; destruct (dim_eqb i e); try (cbn; auto; fail).
  apply both_bind; [apply K; exact H|]. intros u t t' Ht. apply IH. exact Ht.
Qed.

Lemma q_forward_looks : forall (x : mat T) q q', looks q q' -> both looks (q_forward x 0 q) (q_forward x 0 q').
Proof.
  intros x q q' L. pose proof L as (_ & _ & _ & (s & H4) & (s' & H5)). unfold q_forward. rewrite (q_outdim_look q q' _ L).
  destruct (q_outdim q' (mdim x)) as [d| |]; cbn [rbind]; try (cbn; auto; fail). destruct (mat_fill d n0) as [o| |]; cbn [rbind]; try (cbn; auto; fail).
  rewrite H4, H5. cbn [rbind]. pose proof (resize_alike (dim_fill 0) (mdim o) s s') as RA.
  destruct (resize (dim_fill 0) (mdim o) s) as [s1 u|s1 e|], (resize (dim_fill 0) (mdim o) s') as [s1' u'|s1' e'|]; cbn in RA; try contradiction; try (cbn; auto; fail).
  destruct RA as [RA _].
  pose proof (it_from_both with_alike (fun _ i => q_step q x i) (fun k i => q_step_alike q x i)) as IB. unfold it_loop.
  replace (fun (_ : Z) (i : dim3) => q_step q' x i) with (fun (_ : Z) (i : dim3) => q_step q x i).
  2:{ destruct q, q'. destruct L as (L1 & L2 & L3 & _). cbn in *. subst. reflexivity. }
  destruct (dz (mdim o) <? 0); [cbn; auto|].
  specialize (IB (it_fuel (mdim o)) (mdim o) it_begin (it_end (mdim o)) 0 (o, s1) (o, s1') (conj eq_refl RA)).
  destruct (it_from _ _ _ _ _ _ (o, s1)) as [[o1 t1] u1|[o1 t1] e1|], (it_from _ _ _ _ _ _ (o, s1')) as [[o2 t2] u2|[o2 t2] e2|]; cbn in IB; try contradiction; try (cbn; auto; fail).
  destruct IB as [[I1 I2] _]. cbn in I1. subst o2. cbn. split; [apply looks_slot; exact L|reflexivity].
Qed.
Lemma pool_rest_looks : forall (x o : mat T) k q q', looks q q' ->
  (forall s s', vget (q_idx q) 0 = Ok s -> vget (q_idx q') 0 = Ok s' -> alike s s') -> both looks (pool_rest x o k q) (pool_rest x o k q').
Proof.
  intros x o k q q' L A. pose proof L as (_ & _ & _ & (s & H4) & (s' & H5)). unfold pool_rest. rewrite H4, H5. specialize (A s s' H4 H5).
  replace (fun j => q_step q' x (idx_of (dx (mdim o)) (dy (mdim o)) j)) with (fun j => q_step q x (idx_of (dx (mdim o)) (dy (mdim o)) j)).
  2:{ destruct q, q'. destruct L as (L1 & L2 & L3 & _). cbn in *. subst. reflexivity. }
  pose proof (mfor_n_both with_alike (fun j => q_step q x (idx_of (dx (mdim o)) (dy (mdim o)) j)) (Z.to_nat (vol (mdim o) - k)) k (o, s) (o, s')
    (conj eq_refl A) (fun k0 => q_step_alike q x _)) as IB.
  destruct (mfor_n _ _ _ (o, s)) as [[o1 t1] u1|[o1 t1] e1|], (mfor_n _ _ _ (o, s')) as [[o2 t2] u2|[o2 t2] e2|]; cbn in IB; try contradiction; try (cbn; auto; fail).
  destruct IB as [[I1 I2] _]. cbn in I1. subst o2. cbn. split; [apply looks_slot; exact L|reflexivity].
Qed.

(** An initialised layer other than pooling is left as it is. *)
Lemma l_forward_same : forall x i l l' y, ready l -> match l with LPool _ => False | _ => True end -> l_forward E x i l = ORet l' y -> l' = l.
Proof.
  intros x i [k|c|q|a|s] l' y R NP H; cbn [l_forward] in H; try contradiction.
  - destruct (k_forward k x); cbn in H; try discriminate. congruence.
  - cbn in R. unfold c_forward, bind in H.
    assert (K : forall d c' b, c_check (e_rand E) (e_rmax E) (e_sqrt E) d c = ORet c' b -> c' = c).
    { intros d c' b. unfold c_check. destruct (base_size (mdim (c_b c))); try discriminate. destruct (base_size (mdim d)); try discriminate.
      rewrite R. cbn. congruence. }
    destruct (c_check (e_rand E) (e_rmax E) (e_sqrt E) x c) as [c' b| |] eqn:Q; try discriminate. apply K in Q. subst c'.
    destruct (negb b); [discriminate|]. cbn in H. destruct (c_apply (c_w c) (c_b c) x); cbn in H; try discriminate. congruence.
  - destruct (a_forward _ _ _ _ x); cbn in H; try discriminate. congruence.
  - destruct (sm_forward _ s x); cbn in H; try discriminate. congruence.
Qed.
Lemma both_refl : forall {S A} (R : S -> S -> Prop) (o : out S A), (forall s a, o = ORet s a -> R s s) -> both R o o.
Proof. intros S A R [s a|s e|] H; cbn; auto. split; [apply (H s a eq_refl)|reflexivity]. Qed.
Lemma l_forward_sim : forall x l l', simL l l' -> both simL (l_forward E x 0 l) (l_forward E x 0 l').
Proof.
  intros x l l' H. destruct H as [d st t i i' s s' H1 H2|l R NP].
  - cbn [l_forward]. eapply both_map; [apply q_forward_looks|exact looks_sim]. unfold looks. cbn. eauto 8.
  - apply both_refl. intros l' y Q. apply l_forward_same in Q; [|exact R|exact NP]. subst l'. apply sim_same; assumption.
Qed.
Lemma fwd_layers_sim : forall ls ls' x, sims ls ls' -> both sims (fwd_layers E ls x 0) (fwd_layers E ls' x 0).
Proof.
  intros ls ls' x H. revert x. induction H as [|l l' ls ls' H1 H2 IH]; intros x; [cbn; split; [constructor|reflexivity]|]. cbn [fwd_layers].
  pose proof (l_forward_sim x l l' H1) as L. destruct (l_forward E x 0 l) as [a y|a e|], (l_forward E x 0 l') as [a' y'|a' e'|]; cbn in L; try contradiction; try (cbn; auto; fail).
  destruct L as [L <-]. destruct (float_copy E y); try (cbn; auto; fail).
  specialize (IH y). destruct (fwd_layers E ls y 0) as [t [u w]|t e|], (fwd_layers E ls' y 0) as [t' [u' w']|t' e'|]; cbn in *; try contradiction; auto.
  destruct IH as [I1 I2]. injection I2 as <- <-. split; [constructor; assumption|reflexivity].
Qed.
Lemma sims_firstn : forall n ls ls', sims ls ls' -> sims (firstn n ls) (firstn n ls').
Proof. induction n; intros ls ls' H; [constructor|]. destruct H; cbn; constructor; [assumption|]. apply IHn. assumption. Qed.
Lemma sims_skipn : forall n ls ls', sims ls ls' -> sims (skipn n ls) (skipn n ls').
Proof. induction n; intros ls ls' H; [exact H|]. destruct H; cbn; [constructor|]. apply IHn. exact H0. Qed.
Lemma sims_app : forall a a' b b', sims a a' -> sims b b' -> sims (a ++ b) (a' ++ b').
Proof. intros. apply Forall2_app; assumption. Qed.
Lemma sims_nth : forall ls ls' j l, sims ls ls' -> nth_error ls j = Some l -> exists l', nth_error ls' j = Some l' /\ simL l l'.
Proof.
  intros ls ls' j l H. revert j. induction H; intros [|j] Q; cbn in *; try discriminate; [injection Q as <-; eauto|auto].
Qed.
Lemma sims_upd : forall ls ls' j l l', sims ls ls' -> simL l l' -> sims (upd ls j l) (upd ls' j l').
Proof. intros ls ls' j l l' H K. revert j. induction H; intros [|j]; cbn; constructor; try assumption. apply IHForall2. Qed.
Lemma sims_upd_self : forall ls j l l', sims ls ls -> nth_error ls j = Some l -> simL l l' -> sims ls (upd ls j l').
Proof.
  intros ls j l l' H. revert j. induction ls as [|a ls IH]; intros [|j] Q K; cbn in *; try discriminate; inversion H; subst.
  - injection Q as ->. constructor; assumption.
  - constructor; [assumption|]. apply IH; assumption.
Qed.
Lemma sims_sym : forall ls ls', sims ls ls' -> sims ls' ls.
Proof. intros ls ls' H. induction H; constructor; [apply simL_sym|]; assumption. Qed.
Lemma sims_trans : forall a b c, sims a b -> sims b c -> sims a c.
Proof. intros a b c H. revert c. induction H; intros c K; inversion K; subst; constructor; [eapply simL_trans; eassumption|]. apply IHForall2. assumption. Qed.
Lemma fwd_from_sim : forall j x ls ls', sims ls ls' -> both sims (fwd_from E 0 j x ls) (fwd_from E 0 j x ls').
Proof.
  intros j x ls ls' H. unfold fwd_from. eapply both_map; [apply fwd_layers_sim, sims_skipn, H|]. intros s s' K. apply sims_app; [apply sims_firstn, H|exact K].
Qed.
End Facts.
