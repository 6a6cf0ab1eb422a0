(** Which parts of the layers a worker thread reads and writes: those of its own slot, and the label of the output layer. *)
From Coq Require Import ZArith List Bool Lia.
From Verif Require Import Base Dim Matrix View Num Expr Iter MatFacts Batch Kernel Connected Float32 Pooling Activation Softmax
  Chars Model Net ModelThms Train.
Import ListNotations.
Local Open Scope Z_scope.

Definition slots {A} (b : nat) (l l' : list A) : Prop := length l = length l' /\ nth_error l b = nth_error l' b.

Lemma slots_refl : forall {A} b (l : list A), slots b l l.
Proof. split; reflexivity. Qed.
Lemma nth_upd_other : forall {A} (l : list A) i j v, i <> j -> nth_error (upd l i v) j = nth_error l j.
Proof. induction l; intros [|i] [|j] v H; cbn; auto; congruence. Qed.
Lemma nth_upd_same : forall {A} (l : list A) i v, (i < length l)%nat -> nth_error (upd l i v) i = Some v.
Proof. induction l; intros [|i] v H; cbn in *; try lia; auto. apply IHl. lia. Qed.
Lemma slots_upd : forall {A} b (l l' : list A) v, slots b l l' -> slots b (upd l b v) (upd l' b v).
Proof.
  intros A b l l' v [H1 H2]. split; [rewrite !upd_length; exact H1|].
  destruct (Nat.lt_ge_cases b (length l)) as [H|H].
  - rewrite !nth_upd_same by lia. reflexivity.
  - rewrite (proj2 (nth_error_None _ _)) by (rewrite upd_length; lia). rewrite (proj2 (nth_error_None _ _)) by (rewrite upd_length; lia). reflexivity.
Qed.
Lemma slots_frame : forall {A} b b' (l : list A) v, b <> b' -> slots b' l (upd l b v).
Proof. intros A b b' l v H. split; [rewrite upd_length; reflexivity|]. rewrite nth_upd_other by assumption. reflexivity. Qed.
Lemma slots_vget : forall {A} b (l l' : list A), 0 <= b -> slots (Z.to_nat b) l l' -> vget l b = vget l' b.
Proof. intros A b l l' H [H1 H2]. unfold vget. rewrite H1, H2. reflexivity. Qed.
Lemma slots_vset : forall {A} b (l l' : list A) v, 0 <= b -> slots (Z.to_nat b) l l' ->
  match vset l b v, vset l' b v with Ok a, Ok a' => slots (Z.to_nat b) a a' | UB, UB => True | _, _ => False end.
Proof.
  intros A b l l' v H S. unfold vset. rewrite (proj1 S). destruct ((0 <=? b) && (b <? Z.of_nat (length l'))); [|exact I].
  apply slots_upd. exact S.
Qed.
Lemma vset_frame : forall {A} b b' (l a : list A) v, 0 <= b -> 0 <= b' -> b <> b' -> vset l b v = Ok a -> slots (Z.to_nat b') l a.
Proof.
  intros A b b' l a v H H' D V. unfold vset in V. destruct ((0 <=? b) && (b <? Z.of_nat (length l))); [|discriminate].
  injection V as <-. apply slots_frame. lia.
Qed.
Lemma slots_sym : forall {A} b (l l' : list A), slots b l l' -> slots b l' l.
Proof. intros A b l l' [H1 H2]. split; congruence. Qed.
Lemma slots_trans : forall {A} b (l l' l'' : list A), slots b l l' -> slots b l' l'' -> slots b l l''.
Proof. intros A b l l' l'' [H1 H2] [H3 H4]. split; congruence. Qed.

Definition both {S A} (R : S -> S -> Prop) (o o' : out S A) : Prop :=
  match o, o' with
  | ORet s a, ORet s' a' => R s s' /\ a = a'
  | OThrow _ e, OThrow _ e' => e = e'
  | OUB, OUB => True
  | _, _ => False
  end.
Lemma both_bind : forall {S A B} (R : S -> S -> Prop) (m m' : M S A) (k k' : A -> M S B) s s', both R (m s) (m' s') ->
  (forall a t t', R t t' -> both R (k a t) (k' a t')) -> both R (bind m k s) (bind m' k' s').
Proof.
  intros S A B R m m' k k' s s' H K. unfold bind. destruct (m s), (m' s'); cbn in *; try contradiction; auto.
  destruct H as [H ->]. apply K. exact H.
Qed.
Lemma both_lift : forall {S A} (R : S -> S -> Prop) (r : res A) s s', R s s' -> both R (lift r s) (lift r s').
Proof. intros S A R r s s' H. destruct r; cbn; auto. Qed.
Lemma both_map : forall {S A C} (R : S -> S -> Prop) (Q : C -> C -> Prop) (f f' : S -> C) (o o' : out S A), both R o o' ->
  (forall s s', R s s' -> Q (f s) (f' s')) -> both Q (map_out f o) (map_out f' o').
Proof. intros S A C R Q f f' o o' H K. destruct o, o'; cbn in *; try contradiction; auto. destruct H; auto. Qed.
Lemma both_ret : forall {S A} (R : S -> S -> Prop) (o : out S A) o' s a, both R o o' -> o = ORet s a -> exists s', o' = ORet s' a /\ R s s'.
Proof. intros S A R o o' s a H ->. destruct o'; cbn in H; try contradiction. destruct H as [H <-]. eauto. Qed.

Section Local.
Context {T : Type} {N : Num T} (E : env T).

(** Two layer objects that may differ in slots other than [b]; with [m] also in the label of softmax. Fully connected
    layers are initialised. *)
Inductive agree (m : bool) (b : nat) : layer T -> layer T -> Prop :=
| ag_k : forall w bb wg bg wg' bg' d st n, slots b wg wg' -> slots b bg bg' ->
    agree m b (LKernel (Kern (Par w bb wg bg) d st n)) (LKernel (Kern (Par w bb wg' bg') d st n))
| ag_c : forall w bb wg bg wg' bg' d, slots b wg wg' -> slots b bg bg' ->
    agree m b (LConn (Conn (Par w bb wg bg) d true)) (LConn (Conn (Par w bb wg' bg') d true))
| ag_p : forall d st t i i', slots b i i' -> agree m b (LPool (Pool d st t i)) (LPool (Pool d st t i'))
| ag_a : forall a, agree m b (LAct a) (LAct a)
| ag_s : forall k l c k' l', (m = true \/ (k = k' /\ l = l')) -> agree m b (LSoft (Soft k l c)) (LSoft (Soft k' l' c)).

Lemma agree_refl : forall m b l, ready l -> agree m b l l.
Proof.
  intros m b [[[w bb wg bg] d st n]|[[w bb wg bg] d r]|[d st t i]|a|[k l c]] R; cbn in R; try subst r; constructor; auto using slots_refl.
Qed.
Lemma agree_sym : forall m b l l', agree m b l l' -> agree m b l' l.
Proof. intros m b l l' H. destruct H; constructor; auto using slots_sym. intuition congruence. Qed.
Lemma agree_trans : forall m b l l' l'', agree m b l l' -> agree m b l' l'' -> agree m b l l''.
Proof. intros m b l l' l'' H H'. destruct H; inversion H'; subst; constructor; eauto using slots_trans. intuition congruence. Qed.
Lemma agree_weak : forall m b l l', agree false b l l' -> agree m b l l'.
Proof. intros m b l l' H. destruct H; constructor; auto. intuition congruence. Qed.
Lemma agree_ready : forall m b l l', agree m b l l' -> ready l /\ ready l'.
Proof. intros m b l l' H. destruct H; cbn; auto. Qed.
Lemma agree_params : forall m b l l', agree m b l l' -> params_of l = params_of l'.
Proof. intros m b l l' H. destruct H; reflexivity. Qed.

Lemma q_slots : forall x b q, 0 <= b ->
  match q_forward (T := T) x b q with
  | ORet q' _ => exists s, q' = with_slot q b s
  | _ => True end.
Proof.
  intros x b q H. unfold q_forward.
  match goal with |- match match ?t with _ => _ end with _ => _ end => destruct t as [[o s]| |]; auto end.
  destruct (resize _ _ s); auto.
  match goal with |- match match ?t with _ => _ end with _ => _ end => destruct t as [[o1 s1] ?|[o1 s1] ?|]; auto end. eauto.
Qed.

Lemma l_forward_local : forall m b x l l', 0 <= b -> agree m (Z.to_nat b) l l' ->
  both (agree m (Z.to_nat b)) (l_forward E x b l) (l_forward E x b l').
Proof.
  intros m b x l l' Hb H. destruct H; cbn [l_forward].
  - apply both_lift. constructor; assumption.
  - apply both_map with (R := fun c c' => agree m (Z.to_nat b) (LConn c) (LConn c')); [|auto].
    unfold c_forward. apply both_bind.
    + unfold c_check. cbn [c_b c_w c_par p_b p_w c_ready].
      destruct (base_size (mdim bb)); cbn; auto. destruct (base_size (mdim x)); cbn; auto. split; [constructor; assumption|reflexivity].
    + intros ok t t' HT. destruct (negb ok); [reflexivity|].
      inversion HT; subst. cbn [bind mget]. unfold bind, mget. cbn [c_w c_b c_par p_w p_b].
      apply (both_lift (fun c c' => agree m (Z.to_nat b) (LConn c) (LConn c'))). constructor; assumption.
  - unfold q_forward. cbn [q_outdim q_corner q_dim q_stride q_idx]. rewrite <- (slots_vget b i i' Hb H).
    change (q_outdim (Pool d st t i') (mdim x)) with (q_outdim (Pool d st t i) (mdim x)).
    match goal with |- both _ (map_out _ match ?t with _ => _ end) _ => destruct t as [[o s]| |]; cbn; auto end.
    destruct (resize (dim_fill 0) (mdim o) s) as [s1 u| |]; cbn; auto.
    change (fun (_ : Z) (i0 : dim3) => q_step (Pool d st t i') x i0) with (fun (_ : Z) (i0 : dim3) => q_step (Pool d st t i) x i0).
    match goal with |- both _ (map_out _ match ?t with _ => _ end) _ => destruct t as [[o1 s2] ?|[o1 s2] ?|]; cbn; auto end.
    split; [|reflexivity]. constructor. apply slots_upd. exact H.
  - apply both_lift. constructor.
  - change (sm_forward (e_exp E) (Soft k' l' c) x) with (sm_forward (e_exp E) (Soft k l c) x). apply both_lift. constructor. assumption.
Qed.

Lemma l_forward_frame : forall b b' x l l1 y, 0 <= b -> 0 <= b' -> b <> b' -> ready l -> l_forward E x b l = ORet l1 y ->
  agree false (Z.to_nat b') l l1.
Proof.
  intros b b' x l l1 y H H' D R F. destruct l as [k|c|q|a|s]; cbn [l_forward] in F.
  - destruct (k_forward k x); cbn in F; try discriminate. injection F as <- _. apply agree_refl. exact R.
  - destruct (c_forward (e_rand E) (e_rmax E) (e_sqrt E) x c) as [c1 o| |] eqn:Q; cbn in F; try discriminate. injection F as <- <-.
    unfold c_forward, c_check, bind, mget in Q. cbn in R. destruct (base_size (mdim (c_b c))); try discriminate.
    destruct (base_size (mdim x)); try discriminate. rewrite R in Q. destruct (dim_eqb _ _); cbn in Q; try discriminate.
    destruct (c_apply (c_w c) (c_b c) x); cbn in Q; try discriminate. injection Q as <- _. apply agree_refl. exact R.
  - pose proof (q_slots x b q H) as QS. destruct (q_forward x b q) as [q1 o| |]; cbn in F; try discriminate. injection F as <- _.
    destruct QS as [s ->]. destruct q as [d st t i]. constructor. apply slots_frame. lia.
  - destruct (a_forward _ _ _ _ x); cbn in F; try discriminate. injection F as <- _. apply agree_refl. exact R.
  - destruct (sm_forward _ s x); cbn in F; try discriminate. injection F as <- _. apply agree_refl. exact R.
Qed.

Lemma store_local : forall b w bb wg bg wg' bg' g, 0 <= b -> slots (Z.to_nat b) wg wg' -> slots (Z.to_nat b) bg bg' ->
  let R := fun p p' : @params T => exists wg bg wg' bg', p = Par w bb wg bg /\ p' = Par w bb wg' bg' /\ slots (Z.to_nat b) wg wg' /\ slots (Z.to_nat b) bg bg' in
  both R (store_wg b g (Par w bb wg bg)) (store_wg b g (Par w bb wg' bg')) /\ both R (store_bg b g (Par w bb wg bg)) (store_bg b g (Par w bb wg' bg')).
Proof.
  intros b w bb wg bg wg' bg' g Hb S1 S2 R. unfold store_wg, store_bg. cbn [p_wg p_bg p_w p_b].
  pose proof (slots_vset b wg wg' g Hb S1) as V1. pose proof (slots_vset b bg bg' g Hb S2) as V2.
  split.
  - destruct (vset wg b g), (vset wg' b g); cbn; try contradiction; auto. split; [|reflexivity]. repeat eexists; try apply V1; try apply S2.
  - destruct (vset bg b g), (vset bg' b g); cbn; try contradiction; auto. split; [|reflexivity]. repeat eexists; try apply V2; try apply S1.
Qed.

Lemma l_backward_local : forall m b x z g last l l', 0 <= b -> agree m (Z.to_nat b) l l' -> m = false \/ (forall s, l <> LSoft s) ->
  both (agree m (Z.to_nat b)) (l_backward E x z g b last l) (l_backward E x z g b last l').
Proof.
  intros m b x z g last l l' Hb H HM. destruct H as [w bb wg bg wg' bg' d st n S1 S2|w bb wg bg wg' bg' d S1 S2|d st t i i' S|a|k l c k' l' S]; cbn [l_backward].
  - apply both_map with (R := fun c c' => agree m (Z.to_nat b) (LKernel c) (LKernel c')); [|auto].
    set (k := Kern (Par w bb wg bg) d st n). set (k' := Kern (Par w bb wg' bg') d st n).
    set (body := (dw <- lift (k_dw k x g) ;; on_par (store_wg b dw) ;; db <- lift (k_db k g) ;; on_par (store_bg b db) ;;
                  if last then ret mat_empty else lift (k_dx k x g))%st).
    change (k_backward x g b last k) with (body k). change (k_backward x g b last k') with (body k'). unfold body. clear body.
    set (R := fun c c' : kernel T => exists wg bg wg' bg', c = Kern (Par w bb wg bg) d st n /\ c' = Kern (Par w bb wg' bg') d st n /\
      slots (Z.to_nat b) wg wg' /\ slots (Z.to_nat b) bg bg').
    assert (BR : forall o o' : out (kernel T) (mat T), both R o o' -> both (fun c c' => agree m (Z.to_nat b) (LKernel c) (LKernel c')) o o').
    { intros o o' HO. destruct o, o'; cbn in *; auto. destruct HO as [(a1 & a2 & a3 & a4 & -> & -> & A & B) ->]. split; [constructor; assumption|reflexivity]. }
    apply BR. assert (R0 : R k k') by (exists wg, bg, wg', bg'; auto).
    assert (ST1 : forall dw t t', R t t' -> both R (on_par (store_wg b dw) t) (on_par (store_wg b dw) t')).
    { intros dw t t' (a1 & a2 & a3 & a4 & -> & -> & A & B). unfold on_par. cbn [k_par].
      destruct (store_local b w bb a1 a2 a3 a4 dw Hb A B) as [C _].
      destruct (store_wg b dw (Par w bb a1 a2)), (store_wg b dw (Par w bb a3 a4)); cbn in *; auto.
      destruct C as [(b1 & b2 & b3 & b4 & -> & -> & C1 & C2) ->]. split; [|reflexivity]. exists b1, b2, b3, b4. auto. }
    assert (ST2 : forall dw t t', R t t' -> both R (on_par (store_bg b dw) t) (on_par (store_bg b dw) t')).
    { intros dw t t' (a1 & a2 & a3 & a4 & -> & -> & A & B). unfold on_par. cbn [k_par].
      destruct (store_local b w bb a1 a2 a3 a4 dw Hb A B) as [_ C].
      destruct (store_bg b dw (Par w bb a1 a2)), (store_bg b dw (Par w bb a3 a4)); cbn in *; auto.
      destruct C as [(b1 & b2 & b3 & b4 & -> & -> & C1 & C2) ->]. split; [|reflexivity]. exists b1, b2, b3, b4. auto. }
    apply both_bind; [apply both_lift; exact R0|]. intros dw t1 t1' R1.
    apply both_bind; [apply ST1; exact R1|]. intros _ t2 t2' R2.
    apply both_bind; [apply both_lift; exact R2|]. intros db t3 t3' R3.
    apply both_bind; [apply ST2; exact R3|]. intros _ t4 t4' R4.
    destruct last; [split; [exact R4|reflexivity]|]. apply both_lift. exact R4.
  - apply both_map with (R := fun c c' => agree m (Z.to_nat b) (LConn c) (LConn c')); [|auto].
    unfold c_backward.
    set (R := fun c c' : connected T => exists wg bg wg' bg', c = Conn (Par w bb wg bg) d true /\ c' = Conn (Par w bb wg' bg') d true /\
      slots (Z.to_nat b) wg wg' /\ slots (Z.to_nat b) bg bg').
    assert (BR : forall o o' : out (connected T) (mat T), both R o o' -> both (fun c c' => agree m (Z.to_nat b) (LConn c) (LConn c')) o o').
    { intros o o' HO. destruct o, o'; cbn in *; auto. destruct HO as [(a1 & a2 & a3 & a4 & -> & -> & A & B) ->]. split; [constructor; assumption|reflexivity]. }
    apply BR. set (k := Conn (Par w bb wg bg) d true). set (k' := Conn (Par w bb wg' bg') d true).
    assert (R0 : R k k') by (exists wg, bg, wg', bg'; auto).
    assert (ST1 : forall dw t t', R t t' -> both R (on_cpar (store_wg b dw) t) (on_cpar (store_wg b dw) t')).
    { intros dw t t' (a1 & a2 & a3 & a4 & -> & -> & A & B). unfold on_cpar. cbn [c_par].
      destruct (store_local b w bb a1 a2 a3 a4 dw Hb A B) as [C _].
      destruct (store_wg b dw (Par w bb a1 a2)), (store_wg b dw (Par w bb a3 a4)); cbn in *; auto.
      destruct C as [(b1 & b2 & b3 & b4 & -> & -> & C1 & C2) ->]. split; [|reflexivity]. exists b1, b2, b3, b4. auto. }
    assert (ST2 : forall dw t t', R t t' -> both R (on_cpar (store_bg b dw) t) (on_cpar (store_bg b dw) t')).
    { intros dw t t' (a1 & a2 & a3 & a4 & -> & -> & A & B). unfold on_cpar. cbn [c_par].
      destruct (store_local b w bb a1 a2 a3 a4 dw Hb A B) as [_ C].
      destruct (store_bg b dw (Par w bb a1 a2)), (store_bg b dw (Par w bb a3 a4)); cbn in *; auto.
      destruct C as [(b1 & b2 & b3 & b4 & -> & -> & C1 & C2) ->]. split; [|reflexivity]. exists b1, b2, b3, b4. auto. }
    apply both_bind; [apply both_lift; exact R0|]. intros dw t1 t1' R1.
    apply both_bind; [apply ST1; exact R1|]. intros _ t2 t2' R2.
    apply both_bind; [apply ST2; exact R2|]. intros _ t3 t3' R3.
    unfold bind, mget. destruct last; [split; [exact R3|reflexivity]|].
    destruct R3 as (a1 & a2 & a3 & a4 & -> & -> & A & B).
    change (c_dx (e_moved E) (Conn (Par w bb a3 a4) d true) g) with (c_dx (e_moved E) (Conn (Par w bb a1 a2) d true) g).
    apply both_lift. exists a1, a2, a3, a4. auto.
  - apply both_map with (R := fun c c' => agree m (Z.to_nat b) (LPool c) (LPool c')); [|auto].
    unfold q_backward, bind, mget.
    replace (q_dx (Pool d st t i') x g b) with (q_dx (Pool d st t i) x g b).
    + apply (both_lift (fun c c' => agree m (Z.to_nat b) (LPool c) (LPool c'))). constructor. exact S.
    + unfold q_dx. cbn [q_idx q_type]. rewrite (slots_vget b i i' Hb S). reflexivity.
  - apply both_lift. constructor.
  - destruct HM as [->|HM]; [|exfalso; eapply HM; reflexivity]. destruct S as [S|[<- <-]]; [discriminate|]. apply both_lift. constructor. auto.
Qed.

Lemma l_backward_frame : forall b b' x z g last l l1 y, 0 <= b -> 0 <= b' -> b <> b' -> ready l -> l_backward E x z g b last l = ORet l1 y ->
  agree false (Z.to_nat b') l l1.
Proof.
  intros b b' x z g last l l1 y H H' D R F.
  assert (SW : forall (p p1 : params) dw u, store_wg (T := T) b dw p = ORet p1 u -> p_w p1 = p_w p /\ p_b p1 = p_b p /\ slots (Z.to_nat b') (p_wg p) (p_wg p1) /\ slots (Z.to_nat b') (p_bg p) (p_bg p1)).
  { intros p p1 dw u Q. unfold store_wg in Q. destruct (vset (p_wg p) b dw) eqn:V; try discriminate. injection Q as <- _. cbn.
    repeat (split; [reflexivity|]). split; [eapply vset_frame with (b := b); eassumption|apply slots_refl]. }
  assert (SB : forall (p p1 : params) dw u, store_bg (T := T) b dw p = ORet p1 u -> p_w p1 = p_w p /\ p_b p1 = p_b p /\ slots (Z.to_nat b') (p_wg p) (p_wg p1) /\ slots (Z.to_nat b') (p_bg p) (p_bg p1)).
  { intros p p1 dw u Q. unfold store_bg in Q. destruct (vset (p_bg p) b dw) eqn:V; try discriminate. injection Q as <- _. cbn.
    repeat (split; [reflexivity|]). split; [apply slots_refl|eapply vset_frame with (b := b); eassumption]. }
  destruct l as [k|c|q|a|s]; cbn [l_backward] in F.
  - destruct (k_backward x g b last k) as [k1 o| |] eqn:Q; cbn in F; try discriminate. injection F as <- <-.
    unfold k_backward, bind, mget in Q. destruct (k_dw k x g) as [dw| |]; cbn in Q; try discriminate.
    unfold on_par in Q. destruct (store_wg b dw (k_par k)) as [p1 u1| |] eqn:Q1; try discriminate.
    destruct (k_db k g) as [db| |]; cbn in Q; try discriminate.
    destruct (store_bg b db p1) as [p2 u2| |] eqn:Q2; try discriminate.
    assert (K1 : k1 = with_par k p2).
    { destruct last; [injection Q as <- _; reflexivity|]. destruct (k_dx k x g); cbn in Q; try discriminate. injection Q as <- _. reflexivity. }
    subst k1. destruct (SW _ _ _ _ Q1) as (A1 & A2 & A3 & A4). destruct (SB _ _ _ _ Q2) as (B1 & B2 & B3 & B4).
    destruct k as [[w bb wg bg] d st n]. destruct p2 as [w2 bb2 wg2 bg2]. cbn in *. subst. constructor; eauto using slots_trans.
  - destruct (c_backward (e_moved E) x g b last c) as [k1 o| |] eqn:Q; cbn in F; try discriminate. injection F as <- <-.
    unfold c_backward, bind, mget in Q. destruct (c_dw (e_moved E) x g) as [dw| |]; cbn in Q; try discriminate.
    unfold on_cpar in Q. destruct (store_wg b dw (c_par c)) as [p1 u1| |] eqn:Q1; try discriminate. cbn [c_par] in Q.
    destruct (store_bg b (c_db g) p1) as [p2 u2| |] eqn:Q2; try discriminate.
    assert (K1 : k1 = Conn p2 (c_in c) (c_ready c)).
    { destruct last; [injection Q as <- _; reflexivity|]. cbn in Q. destruct (c_dx _ _ g); cbn in Q; try discriminate. injection Q as <- _. reflexivity. }
    subst k1. destruct (SW _ _ _ _ Q1) as (A1 & A2 & A3 & A4). destruct (SB _ _ _ _ Q2) as (B1 & B2 & B3 & B4).
    destruct c as [[w bb wg bg] d rr]. destruct p2 as [w2 bb2 wg2 bg2]. cbn in *. subst. constructor; eauto using slots_trans.
  - unfold q_backward, bind, mget in F. destruct (q_dx q x g b); cbn in F; try discriminate. injection F as <- _. apply agree_refl. exact R.
  - destruct (a_backward _ _ _ _ z g); cbn in F; try discriminate. injection F as <- _. apply agree_refl. exact R.
  - destruct (sm_backward s z); cbn in F; try discriminate. injection F as <- _. apply agree_refl. exact R.
Qed.

(** *** Lists of layers. The last one may differ in the label. *)
Definition agreeL (b : nat) (ls ls' : list (layer T)) : Prop :=
  length ls = length ls' /\
  forall i l, nth_error ls i = Some l -> exists l', nth_error ls' i = Some l' /\ agree (Nat.eqb (S i) (length ls)) b l l'.

Lemma agreeL_refl : forall b ls, List.Forall ready ls -> agreeL b ls ls.
Proof.
  intros b ls H. split; [reflexivity|]. intros i l HL. exists l. split; [exact HL|]. apply agree_refl.
  rewrite Forall_forall in H. apply H. eapply nth_error_In. exact HL.
Qed.
Lemma agreeL_sym : forall b ls ls', agreeL b ls ls' -> agreeL b ls' ls.
Proof.
  intros b ls ls' [H1 H2]. split; [congruence|]. intros i l' HL.
  assert (Hi : (i < length ls)%nat) by (rewrite H1; apply nth_error_Some; congruence).
  destruct (nth_error ls i) as [l|] eqn:Q; [|apply nth_error_None in Q; lia].
  destruct (H2 i l Q) as (l2 & A & B). rewrite A in HL. injection HL as <-. exists l. split; [reflexivity|]. rewrite <- H1. apply agree_sym. exact B.
Qed.
Lemma agreeL_trans : forall b ls ls' ls'', agreeL b ls ls' -> agreeL b ls' ls'' -> agreeL b ls ls''.
Proof.
  intros b l1 l2 l3 [A1 A2] [B1 B2]. split; [congruence|]. intros i l HL. destruct (A2 i l HL) as (l' & H1 & H2).
  destruct (B2 i l' H1) as (l'' & H3 & H4). exists l''. split; [exact H3|]. rewrite <- A1 in H4. eapply agree_trans; eassumption.
Qed.
Lemma agreeL_ready : forall b ls ls', agreeL b ls ls' -> List.Forall ready ls.
Proof.
  intros b ls ls' [A1 A2]. apply Forall_forall. intros l HI. apply In_nth_error in HI. destruct HI as [i Hi].
  destruct (A2 i l Hi) as (l' & _ & H). apply (proj1 (agree_ready _ _ _ _ H)).
Qed.
Lemma agreeL_params : forall b ls ls', agreeL b ls ls' -> map params_of ls = map params_of ls'.
Proof.
  intros b ls ls' [A1 A2]. assert (H : forall i l, nth_error ls i = Some l -> exists l', nth_error ls' i = Some l' /\ params_of l = params_of l').
  { intros i l Hi. destruct (A2 i l Hi) as (l' & B1 & B2). exists l'. split; [exact B1|]. eapply agree_params. exact B2. }
  clear A2. revert ls' A1 H. induction ls as [|l ls IH]; intros [|l' ls'] A1 H; try discriminate; [reflexivity|]. cbn. f_equal.
  - destruct (H 0%nat l eq_refl) as (l2 & X1 & X2). injection X1 as <-. exact X2.
  - apply IH; [injection A1; auto|]. intros i x Hi. apply (H (S i) x Hi).
Qed.

Lemma agreeL_upd : forall b ls ls' i l l', agreeL b ls ls' -> agree (Nat.eqb (S i) (length ls)) b l l' -> agreeL b (upd ls i l) (upd ls' i l').
Proof.
  intros b ls ls' i l l' [A1 A2] H. split; [rewrite !upd_length; exact A1|]. intros j x Hj. rewrite upd_length.
  destruct (Nat.eq_dec i j) as [<-|D].
  - assert (Hi : (i < length ls)%nat) by (rewrite <- (upd_length ls i l); apply nth_error_Some; congruence).
    rewrite nth_upd_same in Hj by exact Hi. injection Hj as <-. exists l'. split; [apply nth_upd_same; lia|exact H].
  - rewrite nth_upd_other in Hj by exact D. rewrite nth_upd_other by exact D. apply A2. exact Hj.
Qed.

Lemma on_nth_local : forall {A} b ls ls' i (c : M (layer T) A), agreeL b ls ls' ->
  (forall l l', nth_error ls i = Some l -> nth_error ls' i = Some l' -> agree (Nat.eqb (S i) (length ls)) b l l' -> both (agree (Nat.eqb (S i) (length ls)) b) (c l) (c l')) ->
  both (agreeL b) (on_nth i c ls) (on_nth i c ls').
Proof.
  intros A b ls ls' i c AG H. pose proof AG as [A1 A2]. unfold on_nth. destruct (nth_error ls i) as [l|] eqn:Q.
  - destruct (A2 i l Q) as (l' & B1 & B2). rewrite B1.
    specialize (H l l' eq_refl B1 B2).
    apply both_map with (1 := H). intros. apply agreeL_upd; assumption.
  - apply nth_error_None in Q. rewrite (proj2 (nth_error_None _ _)) by lia. exact I.
Qed.
Lemma on_nth_frame : forall {A} b ls i (c : M (layer T) A) ls1 a, List.Forall ready ls ->
  (forall l l1, nth_error ls i = Some l -> c l = ORet l1 a -> agree false b l l1) -> on_nth i c ls = ORet ls1 a -> agreeL b ls ls1.
Proof.
  intros A b ls i c ls1 a R H Q. unfold on_nth in Q. destruct (nth_error ls i) as [l|] eqn:QL; [|discriminate].
  destruct (c l) as [l1 a1| |] eqn:QC; cbn in Q; try discriminate. injection Q as <- <-.
  split; [rewrite upd_length; reflexivity|]. intros j x Hj. destruct (Nat.eq_dec i j) as [<-|D].
  - assert (x = l) by congruence. subst x. exists l1. split; [apply nth_upd_same; apply nth_error_Some; congruence|].
    apply agree_weak. apply H; auto.
  - exists x. split; [rewrite nth_upd_other by exact D; exact Hj|]. apply agree_refl. rewrite Forall_forall in R. apply R. eapply nth_error_In. exact Hj.
Qed.

(** *** The label *)
Definition last_soft (ls : list (layer T)) : option softmax := match rev ls with LSoft s :: _ => Some s | _ => None end.

Lemma last_soft_app : forall ls s, last_soft ls = Some s <-> exists body, ls = body ++ [LSoft s].
Proof.
  intros ls s. unfold last_soft. split.
  - intros H. destruct (rev ls) as [|[]?] eqn:Q; try discriminate. injection H as ->. exists (rev l).
    rewrite <- (rev_involutive ls), Q. reflexivity.
  - intros [body ->]. rewrite rev_app_distr. reflexivity.
Qed.
Lemma hand_over_cases : forall k ls, hand_over (T := T) k ls =
  match rev ls with
  | [] => OUB
  | LSoft s :: _ => if sm_count s <=? k then OThrow ls OutOfRange else ORet (upd ls (length ls - 1) (LSoft (Soft true k (sm_count s)))) tt
  | _ => OThrow ls AssertFail end.
Proof.
  intros k ls. unfold hand_over. destruct (rev ls) as [|[| | | |s] r] eqn:Q; try reflexivity.
  assert (EQ : ls = rev r ++ [LSoft s]) by (rewrite <- (rev_involutive ls), Q; reflexivity).
  subst ls. rewrite app_length. cbn [length]. replace (length (rev r) + 1 - 1)%nat with (length (rev r)) by lia.
  unfold on_nth. rewrite nth_error_app2 by lia. rewrite Nat.sub_diag. cbn [nth_error]. unfold sm_assign.
  destruct (sm_count s <=? k); cbn; [|reflexivity]. f_equal. clear Q. induction (rev r); cbn; [reflexivity|]. f_equal. exact IHl.
Qed.
Lemma upd_last : forall {A} (l : list A) a v, upd (l ++ [a]) (length l) v = l ++ [v].
Proof. induction l; intros; cbn; [reflexivity|]. f_equal. apply IHl. Qed.
Lemma hand_over_ok : forall k ls ls1 u, hand_over (T := T) k ls = ORet ls1 u ->
  exists body s, ls = body ++ [LSoft s] /\ k < sm_count s /\ ls1 = body ++ [LSoft (Soft true k (sm_count s))].
Proof.
  intros k ls ls1 u H. rewrite hand_over_cases in H. destruct (rev ls) as [|[| | | |s] r] eqn:Q; try discriminate.
  destruct (sm_count s <=? k) eqn:QK; [discriminate|]. injection H as <- _.
  assert (EQ : ls = rev r ++ [LSoft s]) by (rewrite <- (rev_involutive ls), Q; reflexivity). subst ls.
  exists (rev r), s. split; [reflexivity|]. split; [lia|]. rewrite app_length. cbn [length].
  replace (length (rev r) + 1 - 1)%nat with (length (rev r)) by lia. apply upd_last.
Qed.
Lemma hand_over_at : forall k body s, k < sm_count s -> hand_over (T := T) k (body ++ [LSoft s]) = ORet (body ++ [LSoft (Soft true k (sm_count s))]) tt.
Proof.
  intros k body s H. rewrite hand_over_cases, rev_app_distr. cbn [rev app]. destruct (sm_count s <=? k) eqn:Q; [lia|].
  rewrite app_length. cbn [length]. replace (length body + 1 - 1)%nat with (length body) by lia. rewrite upd_last. reflexivity.
Qed.
(** Lists that differ only in the label agree for every slot. *)
Lemma agreeL_last : forall b body s s', List.Forall ready body -> sm_count s = sm_count s' -> agreeL b (body ++ [LSoft s]) (body ++ [LSoft s']).
Proof.
  intros b body s s' R H. split; [rewrite !app_length; reflexivity|]. intros i l Hi. rewrite app_length. cbn [length].
  destruct (Nat.lt_ge_cases i (length body)) as [L|L].
  - rewrite nth_error_app1 in * by exact L. exists l. split; [exact Hi|]. apply agree_refl. rewrite Forall_forall in R. apply R. eapply nth_error_In. exact Hi.
  - rewrite nth_error_app2 in * by exact L. destruct (i - length body)%nat eqn:D; [|destruct n; discriminate]. injection Hi as <-.
    exists (LSoft s'). split; [reflexivity|]. replace (Nat.eqb (S i) (length body + 1)) with true by (symmetry; apply Nat.eqb_eq; lia).
    destruct s, s'. cbn in H. subst. constructor. auto.
Qed.
Lemma agreeL_soft : forall b ls body s, agreeL b ls (body ++ [LSoft s]) -> exists body' s', ls = body' ++ [LSoft s'] /\ sm_count s' = sm_count s /\ length body' = length body.
Proof.
  intros b ls body s AG. pose proof (agreeL_sym _ _ _ AG) as [A1 A2].
  destruct (A2 (length body) (LSoft s)) as (l' & B1 & B2). { rewrite nth_error_app2 by lia. rewrite Nat.sub_diag. reflexivity. }
  rewrite app_length in A1. cbn [length] in A1.
  destruct (rev ls) as [|x r] eqn:Q. { apply (f_equal (@length _)) in Q. rewrite rev_length in Q. cbn in Q. lia. }
  assert (EQ : ls = rev r ++ [x]) by (rewrite <- (rev_involutive ls), Q; reflexivity). subst ls.
  rewrite app_length in A1. cbn [length] in A1. rewrite nth_error_app2 in B1 by lia. replace (length body - length (rev r))%nat with 0%nat in B1 by lia.
  injection B1 as ->. exists (rev r). inversion B2; subst. eexists. split; [reflexivity|]. split; [reflexivity|lia].
Qed.
End Local.
