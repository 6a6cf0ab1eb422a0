(** Properties of Model.v that hold for every number type: what a forward pass records, parameters are not changed by the
    passes, labels outside the label set, names and order of the layers. *)
From Coq Require Import String ZArith List Bool Lia.
From Verif Require Import Base Dim Matrix View Num Expr Spec Iter MatFacts Batch Kernel Connected Float32 Pooling Activation
  Softmax LayerFacts ConnectedThms Chars Model Net.
Import ListNotations.
Local Open Scope Z_scope.

(** What a computation leaves behind, normally or by an exception *)
Definition leaves {S A} (o : out S A) (P : S -> Prop) : Prop := match o with ORet s _ => P s | OThrow s _ => P s | OUB => True end.

Lemma leaves_imp : forall {S A} (o : out S A) (P Q : S -> Prop), leaves o P -> (forall s, P s -> Q s) -> leaves o Q.
Proof. intros S A o P Q H I. destruct o; cbn in *; auto. Qed.
Lemma leaves_lift : forall {S A} (r : res A) (s : S) (P : S -> Prop), P s -> leaves (lift r s) P.
Proof. intros S A r s P H. destruct r; cbn; auto. Qed.
Lemma leaves_bind : forall {S A B} (m : M S A) (k : A -> M S B) s (P : S -> Prop),
  leaves (m s) P -> (forall a s', P s' -> leaves (k a s') P) -> leaves (bind m k s) P.
Proof. intros S A B m k s P H I. unfold bind. destruct (m s); cbn in *; auto. Qed.
Lemma leaves_map : forall {S R A} (f : S -> R) (o : out S A) (P : R -> Prop), leaves o (fun s => P (f s)) -> leaves (map_out f o) P.
Proof. intros S R A f o P H. destruct o; cbn in *; auto. Qed.

(** *** Copies have as many elements as their dimensions say *)
Lemma it_from_inv : forall {S} (P : S -> Prop) d body fuel i e k s,
  (forall k i s, P s -> leaves (body k i s) P) -> P s -> leaves (it_from fuel d i e k body s) P.
Proof.
  intros S P d body. induction fuel; intros i e k s HB HP; cbn [it_from]; destruct (dim_eqb i e); cbn; auto.
  apply leaves_bind; [apply HB; exact HP|]. intros. apply IHfuel; auto.
Qed.
Lemma it_loop_inv : forall {S} (P : S -> Prop) d body s, (forall k i s, P s -> leaves (body k i s) P) -> P s -> leaves (it_loop d body s) P.
Proof. intros S P d body s HB HP. unfold it_loop. destruct (dz d <? 0); [exact I|]. apply it_from_inv; assumption. Qed.

Lemma base_size_int_prod : forall d n, int_prod d = Ok n -> base_size d = Ok (u64 n).
Proof.
  intros d n H. unfold int_prod, base_size in *. destruct (i32 (dx d * dy d)); cbn [rbind] in *; try discriminate.
  rewrite H. reflexivity.
Qed.
Lemma i32_range : forall x n, i32 x = Ok n -> n = x /\ - two31 <= n < two31.
Proof. intros x n H. unfold i32 in H. destruct ((- two31 <=? x) && (x <? two31)) eqn:Q; [|discriminate]. injection H as <-. lia. Qed.

Lemma mat_of_lz_shape : forall {S T U} (t0 : U) (cast : T -> U) (a : lz S T) s m, mat_of_lz t0 cast a s = Ok m ->
  mdim m = ldim a s /\ base_size (mdim m) = Ok (Z.of_nat (length (mvals m))).
Proof.
  intros S T U t0 cast a s m H. unfold mat_of_lz in H. unfold mat_fill in H.
  destruct (int_prod (ldim a s)) as [n| |] eqn:Q; cbn [rbind] in H; try discriminate.
  destruct (n <? 0) eqn:Q0; cbn [rbind] in H; [discriminate|].
  assert (R : u64 n = n).
  { unfold int_prod in Q. destruct (i32 (dx (ldim a s) * dy (ldim a s))); cbn [rbind] in Q; try discriminate.
    apply i32_range in Q. unfold u64, two64, two31 in *. apply Z.mod_small. lia. }
  match type of H with run_state (it_loop _ ?b ?m0) = _ =>
    assert (L : leaves (it_loop (ldim a s) b m0) (fun m => mdim m = ldim a s /\ length (mvals m) = Z.to_nat n)) end.
  { apply it_loop_inv; [|cbn; rewrite repeat_length; auto].
    intros k i m1 HP. apply leaves_bind; [apply leaves_lift; exact HP|]. intros v m2 HP2. unfold mwrite_flat, vset.
    destruct ((0 <=? k) && (k <? Z.of_nat (length (mvals m2)))); cbn; [|exact I]. rewrite upd_length. exact HP2. }
  unfold run_state in H. match type of H with match ?t with _ => _ end = _ => destruct t; try discriminate end.
  injection H as ->. cbn in L. destruct L as [L1 L2]. split; [exact L1|]. rewrite L1, (base_size_int_prod _ _ Q), R, L2.
  rewrite Z2Nat.id by lia. reflexivity.
Qed.

Section Generic.
Context {T : Type} {N : Num T} (E : env T).

(** *** What is recorded *)
Lemma fwd_layers_recs : forall ls x i ls' rs o r0, fwd_layers E ls x i = ORet ls' (rs, o) -> float_copy E x = Ok r0 ->
  length ls' = length ls /\ length rs = length ls /\ exists pre c, r0 :: rs = pre ++ [c] /\ float_copy E o = Ok c.
Proof.
  induction ls as [|l ls IH]; intros x i ls' rs o r0 H H0; cbn [fwd_layers] in H.
  - injection H as <- <- <-. split; [reflexivity|]. split; [reflexivity|]. exists [], r0. auto.
  - destruct (l_forward E x i l) as [l' y| |]; try discriminate. destruct (float_copy E y) as [r| |] eqn:Q; try discriminate.
    destruct (fwd_layers E ls y i) as [t [u w]| |] eqn:Q2; cbn [map_out] in H; try discriminate. injection H as <- <- <-.
    destruct (IH _ _ _ _ _ r Q2 Q) as (A & B & pre & c & C1 & C2).
    split; [cbn; lia|]. split; [cbn; lia|]. exists (r0 :: pre), c. split; [cbn; rewrite C1; reflexivity|exact C2].
Qed.

Theorem forward_records : forall U (cast : U -> T) n input i ls ls' r, forward_pass E cast n input i ls = ORet ls' r ->
  length ls' = length ls /\
  exists x rs o c, length rs = length ls /\ mat_of_lz n0 cast (l_val input) tt = Ok x /\ fwd_layers E ls x i = ORet ls' (rs, o) /\
    (exists r0, float_copy E x = Ok r0 /\ r_inputs r = r0 :: rs) /\
    (exists pre, r_inputs r = pre ++ [c]) /\ float_copy E o = Ok c /\ Z.of_nat (length (mvals c)) = n /\ base_size (mdim o) = Ok n /\
    max_index o = Ok (r_label r) /\ exists v, mread_flat o (r_label r) = Ok v /\ r_conf r = e_rnd E v.
Proof.
  intros U cast n input i ls ls' r H. unfold forward_pass, bind in H.
  destruct (mat_of_lz n0 cast (l_val input) tt) as [x| |] eqn:Q1; cbn [lift] in H; try discriminate.
  destruct (float_copy E x) as [r0| |] eqn:Q2; cbn [lift] in H; try discriminate.
  destruct (fwd_layers E ls x i) as [t [rs o]| |] eqn:Q3; try discriminate. cbn [fst snd] in H.
  destruct (base_size (mdim o)) as [n'| |] eqn:Q4; cbn [lift] in H; try discriminate.
  destruct (n' =? n) eqn:Q5; cbn [ret mthrow] in H; [|discriminate]. apply Z.eqb_eq in Q5. subst n'.
  destruct (max_index o) as [k| |] eqn:Q6; cbn [lift] in H; try discriminate.
  destruct (mread_flat o k) as [v| |] eqn:Q7; cbn [lift ret] in H; try discriminate. injection H as <- <-. cbn [r_inputs r_label r_conf].
  destruct (fwd_layers_recs _ _ _ _ _ _ _ Q3 Q2) as (A & B & pre & c & C1 & C2).
  split; [exact A|]. exists x, rs, o, c. split; [exact B|]. split; [reflexivity|]. split; [exact Q3|]. split; [exists r0; auto|].
  split; [exists pre; exact C1|]. split; [exact C2|]. unfold float_copy in C2. apply mat_of_lz_shape in C2. destruct C2 as [C2 C3].
  cbn [l_val ldim] in C2. rewrite C2 in C3. split; [congruence|]. split; [exact Q4|]. split; [exact Q6|]. exists v. auto.
Qed.

(** *** Parameters are not changed by the passes *)
Definition ready (l : layer T) : Prop := match l with LConn c => c_ready c = true | _ => True end.

Lemma l_forward_keeps : forall x i l, ready l -> leaves (l_forward E x i l) (fun l' => params_of l' = params_of l /\ ready l').
Proof.
  intros x i [k|c|q|a|s] R; cbn [l_forward]; try (apply leaves_lift; auto).
  - apply leaves_map. unfold c_forward. cbn in R.
    assert (K : forall d, leaves (c_check (e_rand E) (e_rmax E) (e_sqrt E) d c) (fun c' => c' = c)).
    { intros d. unfold c_check. destruct (base_size (mdim (c_b c))); [|exact I|exact I]. destruct (base_size (mdim d)); [|exact I|exact I].
      rewrite R. cbn. reflexivity. }
    apply leaves_imp with (P := fun c' => c' = c); [|intros c' ->; cbn; auto]. apply leaves_bind; [apply K|].
    intros b c' ->. destruct (negb b); [cbn; auto|]. apply leaves_bind; [reflexivity|]. intros ? ? ->. apply leaves_lift. auto.
  - apply leaves_map. eapply leaves_imp with (P := fun _ => True); [|cbn; auto]. destruct (q_forward x i q); cbn; auto.
Qed.

Lemma fwd_layers_keeps : forall ls x i, List.Forall ready ls ->
  leaves (fwd_layers E ls x i) (fun ls' => map params_of ls' = map params_of ls /\ List.Forall ready ls').
Proof.
  induction ls as [|l ls IH]; intros x i R; cbn [fwd_layers]; [cbn; auto|]. inversion R as [|? ? R1 R2]; subst.
  pose proof (l_forward_keeps x i l R1) as L. destruct (l_forward E x i l) as [l' y|l' e|]; cbn in L; [|cbn; destruct L; split; [congruence|auto]|exact I].
  destruct L as [L1 L2]. destruct (float_copy E y); [|cbn; split; [congruence|auto]|exact I].
  specialize (IH y i R2). destruct (fwd_layers E ls y i) as [t [u w]|t e|]; cbn in *; [| |exact I]; destruct IH; split; try congruence; auto.
Qed.

Theorem forward_keeps : forall U (cast : U -> T) n input i ls, List.Forall ready ls ->
  leaves (forward_pass E cast n input i ls) (fun ls' => map params_of ls' = map params_of ls /\ List.Forall ready ls').
Proof.
  intros U cast n input i ls R. set (P := fun ls' : list (layer T) => map params_of ls' = map params_of ls /\ List.Forall ready ls').
  assert (P0 : P ls) by (split; auto).
  unfold forward_pass. apply leaves_bind; [apply leaves_lift; exact P0|]. intros x s H.
  apply leaves_bind; [apply leaves_lift; exact H|]. intros r0 s1 H1.
  apply leaves_bind. { destruct H1 as [A B]. eapply leaves_imp; [apply fwd_layers_keeps; exact B|]. intros s2 [C D]. split; [congruence|exact D]. }
  intros ro s2 H2. apply leaves_bind; [apply leaves_lift; exact H2|]. intros n' s3 H3.
  apply leaves_bind; [destruct (n' =? n); exact H3|]. intros _ s4 H4.
  apply leaves_bind; [apply leaves_lift; exact H4|]. intros k s5 H5.
  apply leaves_bind; [apply leaves_lift; exact H5|]. intros v s6 H6. exact H6.
Qed.

Lemma store_keeps : forall k (g : mat T) (p : @params T), leaves (store_wg k g p) (fun q : @params T => p_w q = p_w p /\ p_b q = p_b p) /\
  leaves (store_bg k g p) (fun q : @params T => p_w q = p_w p /\ p_b q = p_b p).
Proof. intros. unfold store_wg, store_bg. split; [destruct (vset (p_wg p) k g)|destruct (vset (p_bg p) k g)]; cbn; auto. Qed.

Lemma l_backward_keeps : forall x z g i last l, leaves (l_backward E x z g i last l) (fun l' => params_of l' = params_of l).
Proof.
  intros x z g i last [k|c|q|a|s]; cbn [l_backward]; try (apply leaves_lift; reflexivity); apply leaves_map.
  - set (P := fun k' : kernel T => k_w k' = k_w k /\ k_b k' = k_b k).
    eapply leaves_imp with (P := P); [|intros k' [A B]; cbn; rewrite A, B; reflexivity].
    assert (OP : forall (m : M (@params T) unit), (forall p, leaves (m p) (fun q : @params T => p_w q = p_w p /\ p_b q = p_b p)) -> forall k', P k' ->
       leaves (on_par m k' : out (kernel T) unit) P).
    { intros m Hm k' [A B]. unfold on_par. specialize (Hm (k_par k')). destruct (m (k_par k')); cbn in *; auto; destruct Hm as [C D];
      unfold P, k_w, k_b in *; cbn [with_par k_par]; split; congruence. }
    assert (P0 : P k) by (split; reflexivity).
    unfold k_backward. repeat first
      [ apply leaves_bind; [solve [apply leaves_lift; auto | apply OP; [intros; apply store_keeps|auto] | auto]|intros ? ? ?]
      | match goal with |- context [if ?b then _ else _] => destruct b end
      | solve [apply leaves_lift; auto | auto] ].
  - set (P := fun c' : connected T => c_w c' = c_w c /\ c_b c' = c_b c).
    eapply leaves_imp with (P := P); [|intros k' [A B]; cbn; rewrite A, B; reflexivity].
    assert (OP : forall (m : M (@params T) unit), (forall p, leaves (m p) (fun q : @params T => p_w q = p_w p /\ p_b q = p_b p)) -> forall k', P k' ->
       leaves (on_cpar m k' : out (connected T) unit) P).
    { intros m Hm k' [A B]. unfold on_cpar. specialize (Hm (c_par k')). destruct (m (c_par k')); cbn in *; auto; destruct Hm as [C D];
      unfold P, c_w, c_b in *; cbn [c_par]; split; congruence. }
    assert (P0 : P c) by (split; reflexivity).
    unfold c_backward. repeat first
      [ apply leaves_bind; [solve [apply leaves_lift; auto | apply OP; [intros; apply store_keeps|auto] | auto]|intros ? ? ?]
      | match goal with |- context [if ?b then _ else _] => destruct b end
      | solve [apply leaves_lift; auto | auto] ].
  - eapply leaves_imp with (P := fun _ => True); [|cbn; auto]. destruct (q_backward x g i q); cbn; auto.
Qed.

Lemma on_nth_keeps : forall {A B C} (f : A -> C) i (c : M A B) l, (forall a, leaves (c a) (fun a' => f a' = f a)) ->
  leaves (on_nth i c l) (fun l' => map f l' = map f l).
Proof.
  intros A B C f i c l H. unfold on_nth. destruct (nth_error l i) as [a|] eqn:Q; [|exact I]. apply leaves_map.
  eapply leaves_imp; [apply H|]. intros a' HA. revert i Q. induction l as [|b l IH]; intros i Q; destruct i; cbn in *; try discriminate.
  - injection Q as ->. rewrite HA. reflexivity.
  - rewrite IH by exact Q. reflexivity.
Qed.
Lemma bwd_layers_keeps : forall n recs g i ls, leaves (bwd_layers E n recs g i ls) (fun ls' => map params_of ls' = map params_of ls).
Proof.
  induction n; intros recs g i ls; cbn [bwd_layers]; [reflexivity|].
  set (P := fun ls' : list (layer T) => map params_of ls' = map params_of ls).
  assert (P0 : P ls) by reflexivity.
  apply leaves_bind; [apply leaves_lift; exact P0|]. intros x s1 H1.
  apply leaves_bind; [apply leaves_lift; exact H1|]. intros z s2 H2.
  apply leaves_bind; [apply leaves_lift; exact H2|]. intros x' s3 H3.
  apply leaves_bind; [apply leaves_lift; exact H3|]. intros z' s4 H4.
  apply leaves_bind.
  { apply leaves_imp with (P := fun l' => map params_of l' = map params_of s4); [apply on_nth_keeps; intros; apply l_backward_keeps|].
    intros s5 Q. unfold P in *. congruence. }
  intros g' s HS. eapply leaves_imp; [apply IHn|]. intros s' Q. unfold P in *. congruence.
Qed.
Lemma hand_over_keeps : forall k ls, leaves (hand_over k ls) (fun ls' : list (layer T) => map params_of ls' = map params_of ls).
Proof.
  intros k ls. unfold hand_over. destruct (rev ls) as [|l r] eqn:Q; [exact I|].
  assert (EL : ls = rev r ++ [l]) by (rewrite <- (rev_involutive ls), Q; reflexivity).
  destruct l; try reflexivity. unfold on_nth. rewrite EL, app_length. cbn [length].
  replace (length (rev r) + 1 - 1)%nat with (length (rev r)) by lia. rewrite nth_error_app2, Nat.sub_diag by lia. cbn [nth_error].
  apply leaves_map, leaves_map. unfold sm_assign. assert (U : forall v, upd (rev r ++ [LSoft s]) (length (rev r)) v = rev r ++ [v]).
  { generalize (rev r) as l0. induction l0; intros; cbn; [reflexivity|]. rewrite IHl0. reflexivity. }
  destruct (sm_count s <=? k); cbn [leaves]; rewrite U, !map_app; reflexivity.
Qed.
Theorem backward_keeps : forall r k i ls, leaves (backward_pass E r k i ls) (fun ls' => map params_of ls' = map params_of ls).
Proof.
  intros r k i ls. set (P := fun ls' : list (layer T) => map params_of ls' = map params_of ls). assert (P0 : P ls) by reflexivity.
  unfold backward_pass. apply leaves_bind; [apply leaves_lift; exact P0|]. intros r' s H.
  apply leaves_bind; [|auto]. unfold backward_tail.
  apply leaves_bind; [eapply leaves_imp; [apply hand_over_keeps|unfold P in *; intros; congruence]|]. intros ? ? HS.
  apply leaves_bind; [exact HS|]. intros ? ? HS2.
  apply leaves_bind; [eapply leaves_imp; [apply bwd_layers_keeps|unfold P in *; intros; congruence]|]. auto.
Qed.

(** *** Labels outside the label set *)
Section Labels.
Context {L : Type} (eqL : L -> L -> bool) (eqL_ok : forall a b, eqL a b = true <-> a = b).

Lemma find_pos_ok : forall l v, (In v l -> exists k, find_pos eqL l v = Z.of_nat k /\ nth_error l k = Some v /\
    forall j, (j < k)%nat -> nth_error l j <> Some v) /\ (~ In v l -> find_pos eqL l v = Z.of_nat (length l)).
Proof.
  induction l as [|a l IH]; intros v; cbn [find_pos].
  - split; [intros []|reflexivity].
  - destruct (eqL a v) eqn:Q.
    + apply eqL_ok in Q. subst a. split; [intros _; exists 0%nat; repeat split; intros; lia|intros H; exfalso; apply H; left; reflexivity].
    + assert (NE : a <> v) by (intros C; apply eqL_ok in C; congruence). split.
      * intros [H|H]; [congruence|]. destruct (proj1 (IH v) H) as (k & A & B & C). exists (S k). split; [lia|]. split; [exact B|].
        intros [|j] Hj; cbn; [congruence|]. apply C. lia.
      * intros H. rewrite (proj2 (IH v)); [cbn [length]; lia|]. intros C. apply H. right. exact C.
Qed.
End Labels.

(** A result of forwardPropagation, then backwardsPropagation with a label that is not found: undefined behaviour, always. *)
Lemma read_end : forall {A} (m : mat A), mread_flat m (Z.of_nat (length (mvals m))) = UB.
Proof. intros. unfold mread_flat, vget. destruct (0 <=? _); [|reflexivity]. rewrite Z.ltb_irrefl. reflexivity. Qed.

Lemma it_from_total : forall {S} d (body : Z -> dim3 -> M S unit) fuel i e k s, (forall k i s t x, body k i s <> OThrow t x) ->
  forall t x, it_from fuel d i e k body s <> OThrow t x.
Proof.
  intros S d body. induction fuel; intros i e k s HB t x; cbn [it_from]; destruct (dim_eqb i e); try discriminate.
  unfold bind. specialize (HB k i s) as HB1. destruct (body k i s); [|intros C; eapply HB1; reflexivity|discriminate]. apply IHfuel. exact HB.
Qed.
Lemma copy_again : forall (f g : T -> T) (o c : mat T) e, mat_of_lz n0 f (l_val o) tt = Ok c -> mat_of_lz n0 g (l_val c) tt <> Throw e.
Proof.
  intros f g o c e H. pose proof (mat_of_lz_shape _ _ _ _ _ H) as [D _]. unfold mat_of_lz in *. cbn [l_val ldim] in *. rewrite D.
  destruct (mat_fill (mdim o) n0) as [m| |]; cbn [rbind] in *; try discriminate. unfold run_state, it_loop.
  destruct (dz (mdim o) <? 0); [discriminate|].
  match goal with |- context [it_from ?a ?b ?c ?d ?e ?h ?m] => pose proof (it_from_total b h a c d e m) as K; destruct (it_from a b c d e h m); try discriminate end.
  intros _. eapply K; [|reflexivity]. intros k i s1 t1 x1. unfold bind, lift. cbn [l_val lget]. unfold mread, vget.
  destruct (_ && _); [|discriminate]. destruct (nth_error _ _); [|discriminate]. unfold mwrite_flat, vset. destruct (_ && _); discriminate.
Qed.

Theorem unknown_label_ub : forall U (cast : U -> T) n input i ls ls' r, forward_pass E cast n input i ls = ORet ls' r ->
  forall slot ls2, backward_pass E r n slot ls2 = OUB.
Proof.
  intros U cast n input i ls ls' r H slot ls2. destruct (forward_records _ _ _ _ _ _ _ _ H) as (_ & x & rs & o & c & _ & _ & _ & _ & (pre & EI) & EC & LC & _).
  unfold backward_pass, bind, assign_loss. rewrite EI, rev_app_distr. cbn [rev app].
  destruct (double_copy c) as [q|e|] eqn:Q; cbn [rbind lift].
  - unfold double_copy in Q. pose proof (mat_of_lz_shape _ _ _ _ _ Q) as [D1 D2]. cbn [l_val ldim] in D1.
    unfold float_copy in EC. pose proof (mat_of_lz_shape _ _ _ _ _ EC) as [D3 D4]. rewrite D1, D4 in D2. injection D2 as D2.
    unfold loss_fcn. rewrite <- LC. apply Nat2Z.inj in D2. rewrite D2, read_end. reflexivity.
  - exfalso. unfold double_copy, float_copy in *. eapply copy_again; eassumption.
  - reflexivity.
Qed.

(** Without the read in the loss function: assignTrueLabel rejects the label before any gradient is stored. *)
Theorem unknown_label_tail : forall recs idx slot ls sm, sm_count sm <= idx ->
  backward_tail E recs idx slot (ls ++ [LSoft sm]) = OThrow (ls ++ [LSoft sm]) OutOfRange.
Proof.
  intros recs idx slot ls sm H. unfold backward_tail, bind, hand_over. rewrite rev_app_distr. cbn [rev app].
  unfold on_nth. rewrite app_length. cbn [length]. replace (length ls + 1 - 1)%nat with (length ls) by lia.
  rewrite nth_error_app2, Nat.sub_diag by lia. cbn [nth_error]. unfold sm_assign. destruct (sm_count sm <=? idx) eqn:Q; [|lia]. cbn [map_out].
  f_equal. induction ls; cbn; [reflexivity|]. rewrite IHls. reflexivity.
Qed.
End Generic.

(** *** Building a model *)
(** The calls that build a model *)
Inductive bop (L : Type) :=
| BKernel (size : dim3) (count : Z) | BPool (size stride : dim3) (t : pool_type) | BConn (n : Z) | BAct (a : act)
| BLabels (labels : list L) (soft : bool).
Arguments BKernel {L}. Arguments BPool {L}. Arguments BConn {L}. Arguments BAct {L}. Arguments BLabels {L}.

Section Build.
Context {T : Type} {N : Num T} (E : env T) {L : Type}.

Definition run_bop (o : bop L) : M (model T L) unit :=
  match o with
  | BKernel s c => add_kernel E s c | BPool s t k => add_pooling s t k | BConn n => add_connected n | BAct a => add_activation a
  | BLabels l s => set_labels l s
  end.
(** [m] is what a history of calls leaves; calls that raise an exception are part of the history. *)
Inductive built : list (bop L) -> model T L -> Prop :=
| built_new : built [] m_new
| built_ret : forall h m o m' u, built h m -> run_bop o m = ORet m' u -> built (h ++ [o]) m'
| built_throw : forall h m o m' e, built h m -> run_bop o m = OThrow m' e -> built (h ++ [o]) m'.

(** The class of a layer, and the name given to a layer after [k] others of its class *)
Inductive lclass := CKernel | CConn | CPool | CAct | CSoft.
Definition class_of (l : layer T) : lclass :=
  match l with LKernel _ => CKernel | LConn _ => CConn | LPool _ => CPool | LAct _ => CAct | LSoft _ => CSoft end.
Definition class_eqb (a b : lclass) : bool :=
  match a, b with CKernel, CKernel | CConn, CConn | CPool, CPool | CAct, CAct | CSoft, CSoft => true | _, _ => false end.
Definition layer_name (c : lclass) (k : Z) : text :=
  match c with
  | CKernel => lit "Kernel_" ++ dec (k + 1) | CConn => lit "FullyConnected_" ++ dec (k + 1) | CPool => lit "Pooling_" ++ dec (k + 1)
  | CAct => lit "Activation_" ++ dec (k + 1) | CSoft => lit "SoftmaxOutput"
  end.
Definition how_many (c : lclass) (l : list (text * layer T)) : Z :=
  Z.of_nat (length (filter (fun p => class_eqb (class_of (snd p)) c) l)).

Lemma class_eqb_eq : forall a b, class_eqb a b = true <-> a = b.
Proof. intros [] []; cbn; split; congruence. Qed.
Lemma how_many_app : forall c a b, how_many c (a ++ b) = how_many c a + how_many c b.
Proof. intros. unfold how_many. rewrite filter_app, app_length. lia. Qed.
Lemma how_many_pos : forall c l, 0 <= how_many c l.
Proof. intros. unfold how_many. lia. Qed.

Definition named (l : list (text * layer T)) : Prop :=
  forall pre x post, l = pre ++ x :: post -> fst x = layer_name (class_of (snd x)) (how_many (class_of (snd x)) pre).
Lemma named_snoc : forall l x, named l -> fst x = layer_name (class_of (snd x)) (how_many (class_of (snd x)) l) -> named (l ++ [x]).
Proof.
  intros l x H HX pre y post EQ. destruct (rev_ind (fun p => p = [] \/ exists q z, p = q ++ [z]) (or_introl eq_refl)
    (fun z q _ => or_intror (ex_intro _ q (ex_intro _ z eq_refl))) post) as [->|(q & z & ->)].
  - apply app_inj_tail in EQ. destruct EQ as [<- <-]. exact HX.
  - apply (H pre y q). change (pre ++ y :: q ++ [z]) with (pre ++ (y :: q) ++ [z]) in EQ. rewrite app_assoc in EQ.
    apply app_inj_tail in EQ. apply EQ.
Qed.

Definition soft_calls (h : list (bop L)) : nat := length (filter (fun o => match o with BLabels _ true => true | _ => false end) h).

Lemma build_invariant : forall h m, built h m ->
  named (m_layers m) /\ m_kc m = how_many CKernel (m_layers m) /\ m_pc m = how_many CPool (m_layers m) /\
  m_fc m = how_many CConn (m_layers m) /\ m_ac m = how_many CAct (m_layers m) /\ how_many CSoft (m_layers m) = Z.of_nat (soft_calls h).
Proof.
  assert (SC : forall h o, Z.of_nat (soft_calls (h ++ [o])) = Z.of_nat (soft_calls h) + Z.of_nat (soft_calls [o])).
  { intros. unfold soft_calls. rewrite filter_app, app_length. lia. }
  induction 1 as [|h m o m' u HB (I1 & I2 & I3 & I4 & I5 & I6) H|h m o m' e HB (I1 & I2 & I3 & I4 & I5 & I6) H].
  - cbn. repeat split. intros pre x post EQ. destruct pre; discriminate.
  - rewrite SC. destruct o; cbn [run_bop] in H.
    + unfold add_kernel in H. destruct (k_make _ _ _ _ _ _); try discriminate. injection H as <- _.
      cbn [m_layers m_kc m_pc m_fc m_ac]. rewrite !how_many_app. change (soft_calls [BKernel size count]) with 0%nat. unfold how_many at 2 4 6 8 10. cbn.
      repeat split; try lia. apply named_snoc; [exact I1|]. cbn [fst snd class_of layer_name]. rewrite <- I2. reflexivity.
    + injection H as <- _. cbn [m_layers m_kc m_pc m_fc m_ac]. rewrite !how_many_app. unfold how_many at 2 4 6 8 10. cbn.
      repeat split; try lia. apply named_snoc; [exact I1|]. cbn [fst snd class_of layer_name]. rewrite <- I3. reflexivity.
    + unfold add_connected in H. destruct (c_make n); try discriminate. injection H as <- _.
      cbn [m_layers m_kc m_pc m_fc m_ac]. rewrite !how_many_app. unfold how_many at 2 4 6 8 10. cbn.
      repeat split; try lia. apply named_snoc; [exact I1|]. cbn [fst snd class_of layer_name]. rewrite <- I4. reflexivity.
    + injection H as <- _. cbn [m_layers m_kc m_pc m_fc m_ac]. rewrite !how_many_app. unfold how_many at 2 4 6 8 10. cbn.
      repeat split; try lia. apply named_snoc; [exact I1|]. cbn [fst snd class_of layer_name]. rewrite <- I5. reflexivity.
    + injection H as <- _. cbn [m_layers m_kc m_pc m_fc m_ac]. rewrite !how_many_app. unfold how_many at 2 4 6 8 10. destruct soft; cbn.
      * repeat split; try lia. apply named_snoc; [exact I1|]. reflexivity.
      * rewrite app_nil_r. repeat split; try lia. exact I1.
  - rewrite SC. destruct o; cbn [run_bop] in H; try discriminate.
    + unfold add_kernel in H. destruct (k_make _ _ _ _ _ _); try discriminate. injection H as <- _. cbn. repeat split; try assumption. lia.
    + unfold add_connected in H. destruct (c_make n); try discriminate. injection H as <- _. cbn. repeat split; try assumption. lia.
Qed.

Lemma layer_name_inj : forall a b j k, 0 <= j -> 0 <= k -> layer_name a j = layer_name b k -> a = b /\ (a <> CSoft -> j = k).
Proof.
  intros a b j k Hj Hk H.
  assert (S : a = b) by (destruct a, b; cbn in H; try reflexivity; try discriminate).
  split; [exact S|]. subst b. intros NS. destruct a; cbn [layer_name] in H; try congruence; apply app_inv_head in H; apply dec_inj in H; lia.
Qed.

Theorem names_distinct : forall h m, built h m -> (soft_calls h <= 1)%nat -> NoDup (map fst (m_layers m)).
Proof.
  intros h m HB HS. destruct (build_invariant h m HB) as (I1 & _ & _ & _ & _ & I6).
  assert (S1 : how_many CSoft (m_layers m) <= 1) by lia. clear I6 HS HB. revert I1 S1. generalize (m_layers m) as l.
  induction l as [|x l IH] using rev_ind; intros I1 S1; [constructor|].
  rewrite map_app. cbn [map].
  assert (NI : ~ In (fst x) (map fst l)).
  { intros H. apply in_map_iff in H. destruct H as (y & EQ & HI). apply in_split in HI. destruct HI as (pre & post & EL).
    assert (Ny := I1 pre y (post ++ [x])). assert (Nx := I1 l x []). rewrite Nx in EQ by reflexivity.
    rewrite Ny in EQ by (rewrite EL, <- app_assoc; reflexivity).
    apply layer_name_inj in EQ; [|apply how_many_pos|apply how_many_pos]. destruct EQ as [CE CK].
    assert (HM : how_many (class_of (snd x)) l = how_many (class_of (snd x)) pre + 1 + how_many (class_of (snd x)) post).
    { rewrite EL, how_many_app. change (y :: post) with ([y] ++ post). rewrite how_many_app.
      replace (how_many (class_of (snd x)) [y]) with 1; [lia|]. unfold how_many. cbn [filter].
      replace (class_eqb (class_of (snd y)) (class_of (snd x))) with true by (symmetry; apply class_eqb_eq; exact CE). reflexivity. }
    destruct (class_of (snd x)) eqn:QC; rewrite CE in *;
      try (pose proof (CK ltac:(discriminate)); pose proof (how_many_pos (class_of (snd x)) post); rewrite QC in *; lia).
    rewrite how_many_app in S1. replace (how_many CSoft [x]) with 1 in S1 by (unfold how_many; cbn [filter]; rewrite QC; reflexivity).
    pose proof (how_many_pos CSoft pre). pose proof (how_many_pos CSoft post). lia. }
  assert (ND : NoDup (map fst l)).
  { apply IH. - intros pre y post EQ. apply (I1 pre y (post ++ [x])). rewrite EQ, <- app_assoc. reflexivity.
    - rewrite how_many_app in S1. pose proof (how_many_pos CSoft [x]). lia. }
  revert ND NI. generalize (map fst l) as q, (fst x) as v. clear. induction q; intros v ND NI; cbn; [constructor; [intros []|constructor]|].
  inversion ND; subst. constructor; [|apply IHq; [assumption|intros C; apply NI; right; exact C]].
  intros C. apply in_app_or in C. destruct C as [C|[C|[]]]; [contradiction|]. apply NI. left. congruence.
Qed.

(** The name of the layer at each position *)
Theorem names_values : forall h m, built h m -> forall pre x post, m_layers m = pre ++ x :: post ->
  fst x = layer_name (class_of (snd x)) (how_many (class_of (snd x)) pre).
Proof. intros h m HB. destruct (build_invariant h m HB) as (I1 & _). exact I1. Qed.

(** A call appends at most one layer, of the requested kind, at the end; a call that raises an exception appends none. *)
Theorem insertion_order : forall m o m' u, run_bop o m = ORet m' u ->
  match o with
  | BKernel s c => exists n k, k_make (e_rand E) (e_rmax E) (e_sqrt E) s c 1 = Ok k /\ m_layers m' = m_layers m ++ [(n, LKernel k)]
  | BPool s t k => exists n, m_layers m' = m_layers m ++ [(n, LPool (q_make s t k))]
  | BConn c => exists n k, c_make c = Ok k /\ m_layers m' = m_layers m ++ [(n, LConn k)]
  | BAct a => exists n, m_layers m' = m_layers m ++ [(n, LAct (a_make a))]
  | BLabels l true => exists n, m_layers m' = m_layers m ++ [(n, LSoft (sm_make (Z.of_nat (length l))))]
  | BLabels l false => m_layers m' = m_layers m
  end /\ m_labels m' = match o with BLabels l _ => l | _ => m_labels m end.
Proof.
  intros m o m' u H. destruct u, o; cbn [run_bop] in H; unfold add_kernel, add_connected, add_pooling, add_activation, set_labels in H.
  - destruct (k_make _ _ _ _ _ _) eqn:Q; try discriminate. injection H as <-. cbn [m_layers m_labels]. split; [|reflexivity]. repeat eexists; reflexivity.
  - injection H as <-. cbn [m_layers m_labels]. split; [|reflexivity]. repeat eexists; reflexivity.
  - destruct (c_make n) eqn:Q; try discriminate. injection H as <-. cbn [m_layers m_labels]. split; [|reflexivity]. repeat eexists; reflexivity.
  - injection H as <-. cbn [m_layers m_labels]. split; [|reflexivity]. repeat eexists; reflexivity.
  - injection H as <-. cbn [m_layers m_labels]. destruct soft; [split; [eexists; reflexivity|reflexivity]|]. rewrite app_nil_r. auto.
Qed.
Theorem failed_call : forall m o m' e, run_bop o m = OThrow m' e -> m' = m.
Proof.
  intros m o m' e H. destruct o; cbn [run_bop] in H; try discriminate.
  - unfold add_kernel in H. destruct (k_make _ _ _ _ _ _); try discriminate. injection H as <- _. reflexivity.
  - unfold add_connected in H. destruct (c_make n); try discriminate. injection H as <- _. reflexivity.
Qed.

Theorem two_label_calls : exists h m, built h m /\ h = [BLabels [] true; BLabels [] true] /\ ~ NoDup (map fst (m_layers m)).
Proof.
  set (S := (lit "SoftmaxOutput", LSoft (sm_make 0)) : text * layer T).
  exists [BLabels [] true; BLabels [] true], (Model [S; S] [] 0 0 0 0). split; [|split; [reflexivity|]].
  - apply (built_ret [BLabels [] true] (Model [S] [] 0 0 0 0) (BLabels [] true) _ tt); [|reflexivity].
    apply (built_ret [] m_new (BLabels [] true) _ tt); [|reflexivity]. constructor.
  - cbn [m_layers map]. intros C. inversion C as [|? ? C1 C2]. apply C1. left. reflexivity.
Qed.
End Build.
