(** One image in validate among other threads: for networks of fitting shapes every step succeeds, and the steps of other
    threads do not change what the image will give. *)
From Coq Require Import ZArith List Bool Lia.
From Verif Require Import Base Dim Matrix View Num Expr Spec Iter Sums MatFacts MatThms Batch Kernel Connected Float32 FloatFacts Pooling Activation Softmax
  LayerFacts KernelThms ConnectedThms PoolingThms PoolGrad LayerTotal Chars Model Net NetGrad ModelThms Train TrainLocal TrainRest TrainSgd Shapes ShapeNet Mnist MnistFacts Validate ValidateFacts.
Import ListNotations.
Local Open Scope Z_scope.

Section Step.
Context {T : Type} {N : Num T} (E : env T) (cast : f32 -> T) (labels : list text).
Local Notation nl := (Z.of_nat (length labels)).
Context (ss : list shape) (d : dim3).
Hypothesis OK : h_net_ok ss d.
Hypothesis LO : labels_ok (h_net_out ss d) nl.

(** The dimensions before layer number [j] *)
Definition dim_at (j : nat) : dim3 := h_net_out (firstn j ss) d.

Lemma h_net_at : forall (l : list shape) j s d0, h_net_ok l d0 -> nth_error l j = Some s ->
  h_ok s (h_net_out (firstn j l) d0) /\ h_net_out (firstn (S j) l) d0 = h_out s (h_net_out (firstn j l) d0).
Proof.
  induction l as [|a l IH]; intros [|j] s d0 H Q; cbn in Q; try discriminate.
  - injection Q as ->. destruct H as [H _]. split; [exact H|reflexivity].
  - destruct H as [_ H]. cbn [firstn h_net_out]. apply IH; assumption.
Qed.
Lemma dim_at_ok : forall j s, nth_error ss j = Some s -> h_ok s (dim_at j) /\ dim_at (S j) = h_out s (dim_at j).
Proof. intros j s H. apply h_net_at; assumption. Qed.
Lemma dim_at_end : forall j, (length ss <= j)%nat -> dim_at j = h_net_out ss d.
Proof. intros j H. unfold dim_at. rewrite firstn_all2 by lia. reflexivity. Qed.
Lemma dim_at_good : forall j, pos (dim_at j) /\ fits (dim_at j).
Proof.
  intros j. destruct (nth_error ss j) as [s|] eqn:Q.
  - destruct (dim_at_ok j s Q) as [(P & F & _) _]. auto.
  - apply nth_error_None in Q. rewrite dim_at_end by exact Q. apply h_net_end. exact OK.
Qed.

(** The layers: of shapes [ss] with a softmax layer at the end, initialised, with a slot *)
Definition fit (ls : list (layer T)) : Prop :=
  length ls = S (length ss) /\
  (exists sm, nth_error ls (length ss) = Some (LSoft sm) /\ sm_count sm = nl) /\
  (forall j s, nth_error ss j = Some s -> exists l, nth_error ls j = Some l /\ l_fit l s (dim_at j) /\ ready l /\ index_slot l 0).

Lemma fit_body : forall body sm, net_fit body ss d -> List.Forall ready body -> List.Forall (fun l => index_slot l 0) body -> sm_count sm = nl ->
  fit (body ++ [LSoft sm]).
Proof.
  intros body sm H R S C. pose proof (net_fit_length _ _ _ H) as L. split; [rewrite app_length; cbn; lia|]. split.
  - exists sm. split; [|exact C]. rewrite nth_error_app2 by lia. rewrite L, Nat.sub_diag. reflexivity.
  - clear L C LO OK. unfold dim_at. revert body H R S. generalize d. generalize ss. induction ss0 as [|s0 l IH]; intros d0 body H R S j s Q; [destruct j; discriminate|].
    destruct body as [|b body]; [destruct H|]. destruct H as [H1 H2]. inversion R; subst. inversion S; subst. destruct j as [|j]; cbn in Q.
    + injection Q as <-. exists b. cbn. auto.
    + cbn [app nth_error firstn h_net_out]. apply IH; assumption.
Qed.

Lemma fit_sims : forall ls, fit ls -> sims ls ls.
Proof.
  intros ls (L & (sm & Q & _) & F).
  assert (K : forall j l, nth_error ls j = Some l -> simL l l).
  { intros j l Ql. destruct (nth_error ss j) as [s|] eqn:Qs.
    - destruct (F j s Qs) as (l' & Q' & _ & R & S). rewrite Ql in Q'. injection Q' as <-. apply simL_refl; assumption.
    - apply nth_error_None in Qs. assert (j < length ls)%nat by (apply nth_error_Some; congruence). replace j with (length ss) in Ql by lia.
      rewrite Q in Ql. injection Ql as <-. apply sim_same; exact I. }
  clear - K. induction ls as [|a ls IH]; constructor; [apply (K 0%nat); reflexivity|]. apply IH. intros j l Q. apply (K (S j)). exact Q.
Qed.
Lemma fit_upd : forall ls j s l', fit ls -> nth_error ss j = Some s -> l_fit l' s (dim_at j) -> ready l' -> index_slot l' 0 -> fit (upd ls j l').
Proof.
  intros ls j s l' (L & (sm & Q & C) & F) Qs H1 H2 H3. assert (J : (j < length ss)%nat) by (apply nth_error_Some; congruence).
  split; [rewrite upd_length; exact L|]. split.
  - exists sm. split; [|exact C]. rewrite nth_error_upd_neq by lia. exact Q.
  - intros i s' Qi. destruct (Nat.eq_dec i j) as [->|D].
    + rewrite Qs in Qi. injection Qi as <-. exists l'. split; [apply nth_error_upd_eq; lia|auto].
    + rewrite nth_error_upd_neq by lia. apply F. exact Qi.
Qed.

(** The slot of pooling layer [j] has the size of its output. *)
Definition good (j : nat) (ls : list (layer T)) : Prop := exists q s, nth_error ls j = Some (LPool q) /\ vget (q_idx q) 0 = Ok s /\ has s (dim_at (S j)).
Definition wok (ls : list (layer T)) (w : vwork (T := T)) : Prop :=
  match w with
  | VStart => True
  | VFwd j x recs => (j <= S (length ss))%nat /\ has x (dim_at j)
  | VPool j x recs o k i => (j < length ss)%nat /\ has x (dim_at j) /\ has o (dim_at (S j)) /\ 0 <= k <= vol (dim_at (S j)) /\
      i = idx_of (dx (dim_at (S j))) (dy (dim_at (S j))) k /\ good j ls
  | VEnd r => 0 <= r_label r < nl
  end.

(** What is still to do *)
Definition on_pool {A} (f : pooling -> out pooling A) (l : layer T) : out (layer T) A :=
  match l with LPool q => map_out LPool (f q) | _ => OUB end.
Definition vrest (input : mat f32) (w : vwork (T := T)) : M (list (layer T)) (results T) :=
  match w with
  | VStart => forward_pass E cast nl input 0
  | VFwd j x recs => (ro <- fwd_from E 0 j x ;; finish E labels (snd ro) (recs ++ fst ro))%st
  | VPool j x recs o k i =>
      (y <- on_nth j (on_pool (pool_rest x o k)) ;; r <- lift (float_copy E y) ;;
       ro <- fwd_from E 0 (S j) y ;; finish E labels (snd ro) (recs ++ r :: fst ro))%st
  | VEnd r => ret r
  end.
Definition gives (input : mat f32) (w : vwork (T := T)) (ls : list (layer T)) (r : results T) : Prop := exists ls', vrest input w ls = ORet ls' r.

(** *** The steps of others *)
Lemma finish_sim : forall x recs ls ls', sims ls ls' -> both sims (finish E labels x recs ls) (finish E labels x recs ls').
Proof.
  intros x recs ls ls' H. unfold finish. apply both_bind; [apply both_lift; exact H|]. intros n t t' H1.
  apply both_bind; [destruct (n =? nl); cbn; auto|]. intros u t2 t2' H2. apply both_bind; [apply both_lift; exact H2|]. intros k t3 t3' H3.
  apply both_bind; [apply both_lift; exact H3|]. intros v t4 t4' H4. cbn. auto.
Qed.
Lemma on_nth_sim : forall {A} j (c : M (layer T) A) ls ls', sims ls ls' ->
  (forall l l', nth_error ls j = Some l -> nth_error ls' j = Some l' -> simL l l' -> both simL (c l) (c l')) -> both sims (on_nth j c ls) (on_nth j c ls').
Proof.
  intros A j c ls ls' H K. unfold on_nth. destruct (nth_error ls j) as [l|] eqn:Q.
  - destruct (sims_nth _ _ _ _ H Q) as (l' & Q' & S). rewrite Q'. eapply both_map; [apply K; [reflexivity|exact Q'|exact S]|]. intros s s' S'. apply sims_upd; assumption.
  - destruct (nth_error ls' j) as [l'|] eqn:Q'; [|exact I]. destruct (sims_nth _ _ _ _ (sims_sym _ _ H) Q') as (l & Ql & _). congruence.
Qed.
Lemma simL_looks : forall q q', simL (LPool q : layer T) (LPool q') -> looks q q'.
Proof. intros q q' H. inversion H; subst; [|contradiction]. unfold looks. cbn. eauto 8. Qed.
Lemma gives_sim : forall input w ls ls' r, sims ls ls' -> wok ls w -> wok ls' w -> gives input w ls r -> gives input w ls' r.
Proof.
  intros input w ls ls' r S W W' (t & H).
  assert (B : both sims (vrest input w ls) (vrest input w ls')).
  { destruct w as [|j x recs|j x recs o k i|r0]; cbn [vrest].
    - unfold forward_pass. apply both_bind; [apply both_lift; exact S|]. intros x t1 t1' S1. apply both_bind; [apply both_lift; exact S1|]. intros r0 t2 t2' S2.
      apply both_bind; [apply fwd_layers_sim; exact S2|]. intros ro t3 t3' S3. exact (finish_sim (snd ro) (r0 :: fst ro) t3 t3' S3).
    - apply both_bind; [apply fwd_from_sim; exact S|]. intros ro t1 t1' S1. apply finish_sim. exact S1.
    - apply both_bind.
      + apply on_nth_sim; [exact S|]. intros l l' Q Q' SL. destruct W as (_ & _ & _ & _ & _ & (q & s & A1 & A2 & A3)). destruct W' as (_ & _ & _ & _ & _ & (q' & s' & B1 & B2 & B3)).
        rewrite Q in A1. injection A1 as ->. rewrite Q' in B1. injection B1 as ->. cbn [on_pool]. eapply both_map; [apply pool_rest_looks|exact looks_sim].
        * apply simL_looks. exact SL.
        * intros s1 s1' C1 C2. rewrite A2 in C1. injection C1 as <-. rewrite B2 in C2. injection C2 as <-. eapply has_alike; eassumption.
      + intros y t1 t1' S1. apply both_bind; [apply both_lift; exact S1|]. intros r0 t2 t2' S2.
        apply both_bind; [apply fwd_from_sim; exact S2|]. intros ro t3 t3' S3. apply finish_sim. exact S3.
    - cbn. auto. }
  destruct (both_ret _ _ _ _ _ B H) as (t' & H' & _). exists t'. exact H'.
Qed.

(** *** One step *)
(** A bound for the number of steps that are left *)
Fixpoint sum_list (l : list Z) : Z := match l with [] => 0 | a :: r => a + sum_list r end.
Definition lcost (j : nat) : Z := sum_list (map (fun i => vol (dim_at (S i)) + 3) (seq j (S (length ss) - j))).
Definition wcost (w : vwork (T := T)) : Z :=
  match w with
  | VStart => lcost 0 + 2
  | VFwd j _ _ => lcost j + 1
  | VPool j _ _ _ k _ => lcost (S j) + 2 + (vol (dim_at (S j)) - k)
  | VEnd _ => 0
  end.
Lemma lcost_S : forall j, (j <= length ss)%nat -> lcost j = vol (dim_at (S j)) + 3 + lcost (S j).
Proof. intros j H. unfold lcost. replace (S (length ss) - j)%nat with (S (S (length ss) - S j)) by lia. reflexivity. Qed.
Lemma lcost_pos : forall j, 0 <= lcost j.
Proof.
  intros j. unfold lcost. induction (seq j (S (length ss) - j)) as [|a l IH]; cbn [map sum_list]; [lia|].
  destruct (dim_at_good (S a)) as [P _]. pose proof (vol_pos_of _ P). lia.
Qed.
Lemma wcost_pos : forall ls w, wok ls w -> 0 <= wcost w.
Proof.
  intros ls w W. destruct w as [|j x recs|j x recs o k i|r]; cbn [wcost].
  - pose proof (lcost_pos 0). lia.
  - pose proof (lcost_pos j). lia.
  - destruct W as (_ & _ & _ & K & _). pose proof (lcost_pos (S j)). lia.
  - lia.
Qed.

Definition step_ok (input : mat f32) (w : vwork (T := T)) (ls : list (layer T)) : Prop :=
  exists ls' w', vstep E cast labels input w ls = ORet ls' w' /\ fit ls' /\ wok ls' w' /\ sims ls ls' /\ (forall j, good j ls -> good j ls') /\
    (forall r, gives input w ls r -> gives input w' ls' r) /\ wcost w' < wcost w.

Lemma bind_ret_ok : forall {S A B} (m : M S A) (f : A -> M S B) s s' a, m s = ORet s' a -> bind m f s = f a s'.
Proof. intros. unfold bind. rewrite H. reflexivity. Qed.

Lemma step_start : forall input ls, fit ls -> has input d -> step_ok input VStart ls.
Proof.
  intros input ls F HX. destruct (h_net_head _ _ OK) as [Pd Fd]. destruct (has_is input d HX Pd Fd) as (J & HJ).
  destruct (mat_of_lz_ok (n0 : T) cast (l_val input) tt d J Fd (pos_iterable d Pd) (is_mat_lz input d J tt HJ Fd)) as (x & Ex & Hx).
  destruct (copies E x d (is_has _ _ _ Hx) Pd Fd) as [(x0 & Ex0 & Hx0) _].
  exists ls, (VFwd 0 x [x0]). split; [cbn [vstep]; unfold bind; rewrite Ex; cbn [lift]; rewrite Ex0; reflexivity|]. split; [exact F|].
  split; [split; [lia|eapply is_has; exact Hx]|]. split; [apply fit_sims; exact F|]. split; [auto|].
  split; [|cbn [wcost]; lia].
  intros r (t & H). exists t. rewrite <- H. cbn [vrest]. unfold forward_pass.
  rewrite (bind_ret_ok _ _ ls ls x) by (rewrite Ex; reflexivity). rewrite (bind_ret_ok _ _ ls ls x0) by (rewrite Ex0; reflexivity).
  apply bind_cong; [|reflexivity]. unfold fwd_from. cbn [firstn skipn]. destruct (fwd_layers E ls x 0); reflexivity.
Qed.

Lemma upd_self : forall {A} (l : list A) j a, nth_error l j = Some a -> upd l j a = l.
Proof. intros. apply upd_id. assumption. Qed.

Lemma step_layer : forall input j x recs ls l y, fit ls -> nth_error ls j = Some l -> match l with LPool _ => False | _ => True end ->
  l_forward E x 0 l = ORet l y -> (j <= length ss)%nat -> has y (dim_at (S j)) -> step_ok input (VFwd j x recs) ls.
Proof.
  intros input j x recs ls l y F Q NP EL J HY. destruct (dim_at_good (S j)) as [Po Fo]. destruct (copies E y _ HY Po Fo) as [(r0 & Er & Hr) _].
  assert (ON : on_nth j (l_forward E x 0) ls = ORet ls y) by (unfold on_nth; rewrite Q, EL; cbn [map_out]; rewrite upd_self by exact Q; reflexivity).
  exists ls, (VFwd (S j) y (recs ++ [r0])). split.
  { cbn [vstep]. rewrite Q. rewrite <- (upd_self ls j l Q) at 1. rewrite (upd_self ls j l Q). destruct l; try contradiction; unfold bind; rewrite ON, Er; reflexivity. }
  split; [exact F|]. split; [split; [lia|exact HY]|]. split; [apply fit_sims; exact F|]. split; [auto|].
  split; [|cbn [wcost]; rewrite (lcost_S j) by lia; pose proof (vol_pos_of _ Po); lia].
  intros r (t & H). exists t. rewrite <- H. cbn [vrest]. symmetry. unfold bind at 1. rewrite (fwd_from_some E 0 j x ls l Q).
  rewrite (bind_ret_ok _ _ ls ls y ON). rewrite (bind_ret_ok _ _ ls ls r0) by (rewrite Er; reflexivity). unfold bind.
  destruct (fwd_from E 0 (S j) y ls) as [t1 ro|t1 e|]; try reflexivity. cbn [ret snd fst]. rewrite <- app_assoc. reflexivity.
Qed.

Lemma step_finish : forall input x recs ls, fit ls -> has x (h_net_out ss d) -> step_ok input (VFwd (S (length ss)) x recs) ls.
Proof.
  intros input x recs ls F HX. destruct (h_net_end _ _ OK) as [Po Fo]. destruct (has_is x _ HX Po Fo) as (f & Hf).
  destruct (max_index_total x _ f Hf Fo Po) as (a & b & c & Hi & EI). pose proof LO as (_ & _ & LV).
  assert (Q : nth_error ls (S (length ss)) = None) by (apply nth_error_None; destruct F; lia).
  set (r0 := Results (lin (h_net_out ss d) a b c) 0 (nsub n0 n1) (e_rnd E (f a b c)) recs).
  assert (FI : finish E labels x recs ls = ORet ls r0).
  { unfold finish, bind. rewrite (is_mat_dim _ _ _ Hf), base_size_fits by exact Fo. cbn [lift]. rewrite LV, Z.eqb_refl. cbn [ret]. rewrite EI. cbn [lift].
    rewrite (is_mat_flat x _ _ a b c Hf Hi). reflexivity. }
  exists ls, (VEnd r0). split; [cbn [vstep]; rewrite Q; unfold bind; rewrite FI; reflexivity|]. split; [exact F|].
  split; [cbn; rewrite <- LV; apply lin_range; exact Hi|]. split; [apply fit_sims; exact F|]. split; [auto|].
  split; [|cbn [wcost]; pose proof (lcost_pos (S (length ss))); lia].
  intros r (t & H). exists t. rewrite <- H. cbn [vrest]. unfold bind. rewrite fwd_from_none by exact Q. cbn [snd fst]. rewrite app_nil_r, FI. reflexivity.
Qed.

Lemma good_upd : forall ls j q s, nth_error ls j = Some (LPool q) -> vget (q_idx q) 0 = Ok s -> forall s', has s' (dim_at (S j)) ->
  good j (upd ls j (LPool (with_slot q 0 s'))) /\ (forall i, good i ls -> good i (upd ls j (LPool (with_slot q 0 s')))).
Proof.
  intros ls j q s Q V s' H. assert (J : (j < length ls)%nat) by (apply nth_error_Some; congruence).
  assert (G : good j (upd ls j (LPool (with_slot q 0 s')))).
  { exists (with_slot q 0 s'), s'. split; [apply nth_error_upd_eq; exact J|]. split; [eapply vget_upd0; exact V|exact H]. }
  split; [exact G|]. intros i Gi. destruct (Nat.eq_dec i j) as [->|D]; [exact G|]. destruct Gi as (q1 & s1 & A1 & A2 & A3). exists q1, s1.
  rewrite nth_error_upd_neq by lia. auto.
Qed.

Lemma step_pool : forall input j x recs ls q s, fit ls -> nth_error ls j = Some (LPool q) -> nth_error ss j = Some s -> has x (dim_at j) -> step_ok input (VFwd j x recs) ls.
Proof.
  intros input j x recs ls q s F Q Qs HX. destruct (dim_at_ok j s Qs) as [OKs Dn]. pose proof F as (_ & _ & FF). destruct (FF j s Qs) as (l & Ql & LF & RD & SL).
  rewrite Q in Ql. injection Ql as <-. destruct s as [| |t qx qy sx sy|]; cbn in LF; try contradiction. destruct LF as [HG HT]. destruct SL as (s0 & V & C0).
  set (g := pgeom qx qy sx sy (dim_at j)) in *. pose proof OKs as (_ & _ & G). cbn [h_out] in Dn. change (geom_ok g) in G. change (dim_at (S j) = odim g) in Dn.
  pose proof (odim_fits g G) as FO. pose proof (odim_pos g G) as PO. destruct HX as [HX1 HX2].
  assert (QD : q_outdim q (mdim x) = Ok (odim g)) by (rewrite HX1; rewrite <- (pgeom_dim qx qy sx sy (dim_at j)); exact (q_outdim_ok q g G HG)).
  destruct (mat_fill_ok (odim g) n0 FO) as (o0 & Eo0 & Io0).
  destruct (resize_slot (dim_fill 0) s0 (odim g) C0 FO (vol_pos_of _ PO)) as (s1 & S1 & Er & Is1).
  assert (PB : pool_begin x q = ORet (with_slot q 0 s1) o0).
  { unfold pool_begin. rewrite QD. cbn [rbind]. rewrite Eo0. cbn [rbind]. rewrite V. cbn [rbind]. rewrite (is_mat_dim _ _ _ Io0), Er.
    replace (dz (odim g) <? 0) with false; [reflexivity|]. symmetry. apply Z.ltb_ge. destruct PO as (_ & _ & P3). lia. }
  assert (HS1 : has s1 (dim_at (S j))) by (rewrite Dn; eapply is_has; exact Is1).
  destruct (good_upd ls j q s0 Q V s1 HS1) as [G1 G2]. assert (J : (j < length ss)%nat) by (apply nth_error_Some; congruence).
  exists (upd ls j (LPool (with_slot q 0 s1))), (VPool j x recs o0 0 it_begin). split; [cbn [vstep]; rewrite Q, PB; reflexivity|].
  split; [eapply fit_upd; [exact F|exact Qs|split; [exact HG|exact HT]|exact I|exists s1; split; [eapply vget_upd0; exact V|apply HS1]]|].
  split.
  { split; [exact J|]. split; [split; assumption|]. split; [rewrite Dn; eapply is_has; exact Io0|]. split; [rewrite Dn; pose proof (vol_pos_of _ PO); lia|].
    split; [|exact G1]. unfold idx_of, it_begin. rewrite Dn. destruct PO as (? & ? & ?). rewrite !Z.div_0_l, !Z.mod_0_l by nia. reflexivity. }
  split.
  { eapply sims_upd_self; [apply fit_sims; exact F|exact Q|]. apply looks_sim. unfold looks, with_slot. cbn [q_dim q_stride q_type q_idx].
    repeat (split; [reflexivity|]). split; eexists; [exact V|eapply vget_upd0; exact V]. }
  split; [exact G2|]. split; [|cbn [wcost]; rewrite (lcost_S j) by lia; lia]. intros r (t1 & H). exists t1. rewrite <- H. cbn [vrest]. symmetry. unfold bind at 1. rewrite (fwd_from_some E 0 j x ls _ Q).
  assert (ON : on_nth j (l_forward E x 0) ls = on_nth j (on_pool (pool_rest x o0 0)) (upd ls j (LPool (with_slot q 0 s1)))).
  { unfold on_nth. rewrite Q. rewrite nth_error_upd_eq by (destruct F; lia). cbn [l_forward on_pool].
    rewrite (q_forward_parts x q) by (intros d0 Hd0; rewrite QD in Hd0; injection Hd0 as <-; exact PO). rewrite PB.
    destruct (pool_rest x o0 0 (with_slot q 0 s1)); cbn [map_out]; rewrite ?upd_twice; reflexivity. }
  unfold bind. rewrite ON. clear ON. destruct (on_nth j (on_pool (pool_rest x o0 0)) (upd ls j (LPool (with_slot q 0 s1)))) as [t2 y|t2 e|]; try reflexivity. destruct (float_copy E y) as [r0| |]; try reflexivity. cbn [lift].
  destruct (fwd_from E 0 (S j) y t2) as [t3 ro|t3 e|]; reflexivity.
Qed.

Lemma step_element : forall input j x recs o k i ls, fit ls -> wok ls (VPool j x recs o k i) ->
  (exists r, gives input (VPool j x recs o k i) ls r) -> step_ok input (VPool j x recs o k i) ls.
Proof.
  intros input j x recs o k i ls F (J & HX & HO & K & EI & G) (r0 & t0 & HR). destruct G as (q & s & Q & V & HS).
  destruct (dim_at_good (S j)) as [PO FO]. pose proof PO as (P1 & P2 & P3). pose proof (proj1 HO) as MO.
  assert (EQ : dim_eqb i (it_end (mdim o)) = (k =? vol (dim_at (S j)))).
  { rewrite MO, EI. unfold it_end. destruct (k =? vol (dim_at (S j))) eqn:B.
    - apply Z.eqb_eq in B. assert (X : idx_of (dx (dim_at (S j))) (dy (dim_at (S j))) k = D3 0 0 (dz (dim_at (S j)))) by (apply idx_of_end; [lia|lia|lia|exact B]).
      rewrite X. apply dim_eqb_eq. reflexivity.
    - apply Z.eqb_neq in B. destruct (dim_eqb _ _) eqn:B2; [|reflexivity]. apply dim_eqb_eq in B2. apply idx_of_end in B2; [|lia|lia|lia]. contradiction. }
  assert (JL : (j < length ls)%nat) by (destruct F; lia).
  cbn [vrest] in HR. destruct (Z.eq_dec k (vol (dim_at (S j)))) as [KE|KN].
  - destruct (copies E o _ HO PO FO) as [(c & Ec & Hc) _].
    exists ls, (VFwd (S j) o (recs ++ [c])). split.
    { cbn [vstep]. rewrite Q, EQ. rewrite (proj2 (Z.eqb_eq _ _) KE). unfold bind. rewrite Ec. reflexivity. }
    split; [exact F|]. split; [split; [lia|exact HO]|]. split; [apply fit_sims; exact F|]. split; [auto|].
    split; [|cbn [wcost]; lia].
    intros r (t1 & H). exists t1. rewrite <- H. cbn [vrest]. symmetry.
    assert (PR : on_nth j (on_pool (pool_rest x o k)) ls = ORet ls o).
    { unfold on_nth. rewrite Q. cbn [on_pool]. unfold pool_rest. rewrite V, MO, KE, Z.sub_diag. cbn [Z.to_nat mfor_n ret map_out].
      rewrite with_slot_id by exact V. rewrite upd_self by exact Q. reflexivity. }
    unfold bind. rewrite PR, Ec. cbn [lift]. destruct (fwd_from E 0 (S j) o ls) as [t2 ro|t2 e|]; try reflexivity. rewrite <- app_assoc. reflexivity.
  - assert (KL : 0 <= k < vol (dim_at (S j))) by lia.
    assert (UN : forall q1 : pooling, pool_rest x o k q = match pool_element x o i q with ORet q' o' => pool_rest x o' (k + 1) q' | OThrow q' e => OThrow q' e | OUB => OUB end).
    { intros _. unfold pool_rest at 1, pool_element. rewrite V, MO.
      replace (Z.to_nat (vol (dim_at (S j)) - k)) with (S (Z.to_nat (vol (dim_at (S j)) - (k + 1)))) by lia. cbn [mfor_n]. unfold bind. rewrite <- EI.
      destruct (q_step q x i (o, s)) as [[o' s'] u|[o' s'] e|] eqn:ES; try reflexivity.
      destruct (q_step_dims _ _ _ _ _ _ _ _ ES) as [[A1 A2] _]. unfold pool_rest. cbn [with_slot q_idx]. rewrite (vget_upd0 _ _ s' V). rewrite <- A1, MO.
      change (fun j0 => q_step (with_slot q 0 s') x (idx_of (dx (dim_at (S j))) (dy (dim_at (S j))) j0)) with (fun j0 => q_step q x (idx_of (dx (dim_at (S j))) (dy (dim_at (S j))) j0)).
      destruct (mfor_n _ _ _ (o', s')) as [[o2 s2] u2|[o2 s2] e2|]; try reflexivity; unfold with_slot; cbn [q_idx q_dim q_stride q_type]; rewrite upd_twice; reflexivity. }
    specialize (UN q). unfold bind in HR. unfold on_nth in HR. rewrite Q in HR. cbn [on_pool] in HR. rewrite UN in HR.
    destruct (pool_element x o i q) as [q' o'|q' e|] eqn:PE; try discriminate.
    assert (SH : exists s', q' = with_slot q 0 s' /\ has s' (dim_at (S j)) /\ has o' (dim_at (S j))).
    { unfold pool_element in PE. rewrite V in PE. destruct (q_step q x i (o, s)) as [[o1 s'] u|[o1 s'] e|] eqn:ES; try discriminate.
      injection PE as <- <-. destruct (q_step_dims _ _ _ _ _ _ _ _ ES) as [A1 A2]. exists s'. split; [reflexivity|]. split; eapply alike_has; eassumption. }
    destruct SH as (s' & -> & HS' & HO'). destruct (good_upd ls j q s Q V s' HS') as [G1 G2].
    exists (upd ls j (LPool (with_slot q 0 s'))), (VPool j x recs o' (k + 1) (incr (mdim o) i)). split.
    { cbn [vstep]. rewrite Q, EQ. rewrite (proj2 (Z.eqb_neq _ _) KN). rewrite PE. reflexivity. }
    destruct (nth_error ss j) as [sh|] eqn:Qs; [|apply nth_error_None in Qs; lia].
    pose proof F as (_ & _ & FF). destruct (FF j sh Qs) as (l & Ql & LF & RD & SL). rewrite Q in Ql. injection Ql as <-.
    split; [eapply fit_upd; [exact F|exact Qs|destruct sh; cbn in LF |- *; try contradiction; exact LF|exact I|exists s'; split; [eapply vget_upd0; exact V|apply HS']]|].
    split.
    { split; [exact J|]. split; [exact HX|]. split; [exact HO'|]. split; [lia|]. split; [|exact G1]. rewrite MO, EI. destruct (dim_at (S j)) as [X Y Z0] eqn:DD. cbn [dx dy dz] in *.
      apply incr_idx_of; lia. }
    split.
    { eapply sims_upd_self; [apply fit_sims; exact F|exact Q|]. apply looks_sim. unfold looks, with_slot. cbn [q_dim q_stride q_type q_idx].
      repeat (split; [reflexivity|]). split; eexists; [exact V|eapply vget_upd0; exact V]. }
    split; [exact G2|]. split; [|cbn [wcost]; lia]. intros r (t1 & H). exists t1. rewrite <- H. cbn [vrest]. symmetry.
    assert (ON : on_nth j (on_pool (pool_rest x o k)) ls = on_nth j (on_pool (pool_rest x o' (k + 1))) (upd ls j (LPool (with_slot q 0 s')))).
    { unfold on_nth. rewrite Q, nth_error_upd_eq by exact JL. cbn [on_pool]. rewrite UN. destruct (pool_rest x o' (k + 1) (with_slot q 0 s')); cbn [map_out]; rewrite ?upd_twice; reflexivity. }
    unfold bind. rewrite ON. reflexivity.
Qed.

(** Every step that is not the last one, when the rest would succeed without the others *)
Theorem step_total : forall input w ls r, fit ls -> wok ls w -> has input d -> gives input w ls r -> (forall r, w <> VEnd r) -> step_ok input w ls.
Proof.
  intros input w ls r F W HX G NE. destruct w as [|j x recs|j x recs o k i|r0].
  - apply step_start; assumption.
  - destruct W as [J Hx]. destruct (nth_error ss j) as [s|] eqn:Qs.
    + pose proof F as (_ & _ & FF). destruct (FF j s Qs) as (l & Ql & LF & RD & SL). destruct (dim_at_ok j s Qs) as [OKs Dn].
      destruct (fwd_total E l s (dim_at j) 0 x LF SL OKs Hx) as (l' & y & Ey & Hy & _). rewrite <- Dn in Hy.
      assert (NJ : (j < length ss)%nat) by (apply nth_error_Some; congruence).
      assert (C : (exists q, l = LPool q) \/ match l with LPool _ => False | _ => True end) by (destruct l; eauto). destruct C as [(q & ->)|NP].
      * eapply step_pool; eassumption.
      * pose proof (l_forward_same E x 0 l l' y RD NP Ey). subst l'. eapply step_layer; try eassumption; lia.
    + apply nth_error_None in Qs. assert (C : j = length ss \/ j = S (length ss)) by lia. pose proof F as (L & (sm & Qm & Cm) & _). destruct (h_net_end _ _ OK) as [Po Fo]. destruct C as [->| ->].
      * rewrite dim_at_end in Hx by lia. destruct (has_is x _ Hx Po Fo) as (f & Hf).
        destruct (sm_forward_total (e_exp E) sm x _ f Hf Fo Po ltac:(rewrite Cm; exact LO)) as (p & Ep & Hp).
        eapply step_layer with (l := LSoft sm) (y := p); [exact F|exact Qm|exact I|cbn [l_forward]; rewrite Ep; reflexivity|lia|rewrite dim_at_end by lia; exact Hp].
      * rewrite dim_at_end in Hx by lia. apply step_finish; assumption.
  - apply step_element; eauto.
  - exfalso. apply (NE r0). reflexivity.
Qed.
End Step.
