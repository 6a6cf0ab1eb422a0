(** Forward and backward pass of a network that ends in softmax; the stored gradients are the partial derivatives. *)
From Coq Require Import ZArith List Bool Lia Reals Lra FunctionalExtensionality.
From Coquelicot Require Import Coquelicot.
From Verif Require Import Base Dim Matrix View Num Expr Spec Iter Sums MatFacts MatThms ExprThms Batch Kernel Connected Float32
  FloatFacts Pooling Activation Softmax LayerFacts KernelThms Calc KernelGrad BatchThms ConnectedThms PoolingThms PoolGrad
  ActivationThms SoftmaxThms LayerTotal Chars Model Net NetThms NetPass.
Import ListNotations.
Local Open Scope Z_scope.

(** The output of the last layer before softmax has one number per label. *)
Definition labels_ok (d : dim3) (n : Z) : Prop := dz d = 1 /\ (dx d = 1 \/ dy d = 1) /\ vol d = n.

(** A network: configured layers, the last one softmax, with the slot [i] in every layer *)
Definition network (layers : list (layer R)) (ss : list lspec) (d : dim3) (n i : Z) : Prop :=
  exists ls sm, layers = ls ++ [LSoft sm] /\ sm_count sm = n /\ net_is ls ss d /\ List.Forall (fun l => slot_ok l i) ls.

Definition setw (s : lspec) (W : fn) : lspec := setp s W (s_b s).
Definition setb (s : lspec) (B : fn) : lspec := setp s (s_w s) B.

Lemma last_app : forall {A} (l : list A) a, rev (l ++ [a]) = a :: rev l.
Proof. intros. rewrite rev_app_distr. reflexivity. Qed.

Section Pass.
Context (rand : Z -> Z) (rmax : Z).
Local Notation ER := (envR rand rmax).

(** [v] is the probability that a network with configuration [ss] gives to label number [idx] for input [I]. *)
Definition net_prob (ss : list lspec) (d : dim3) (I : fn) (idx : Z) (v : R) : Prop :=
  exists layers n i (input : mat R) layers' r p rs, network layers ss d n i /\ is_mat input d I /\
    forward_pass ER (fun t => t) n input i layers = ORet layers' r /\ r_inputs r = rs ++ [p] /\ mread_flat p idx = Ok v.

Theorem forward_ok : forall layers ss d n i U (cast : U -> R) (input : mat U) J,
  network layers ss d n i -> net_ok ss d -> labels_ok (net_out ss d) n -> is_mat input d J ->
  let I := fun x y z => cast (J x y z) in
  let P := soft (net_out ss d) (net_sem ss d I) in
  exists ls sm ls' x0 rs p r a b c, layers = ls ++ [LSoft sm] /\ net_is ls ss d /\
    forward_pass ER cast n input i layers = ORet (ls' ++ [LSoft sm]) r /\
    r_inputs r = x0 :: rs ++ [p] /\ is_mat x0 d I /\ recs_are rs ss d I /\ is_mat p (net_out ss d) P /\
    net_is ls' ss d /\ List.Forall (fun l => slot_ok l i) ls' /\ net_recorded ls' ss d i I /\ map params_of ls' = map params_of ls /\
    inb (net_out ss d) a b c /\ r_label r = lin (net_out ss d) a b c /\ r_conf r = P a b c /\
    (forall x y z, inb (net_out ss d) x y z -> (P x y z <= P a b c)%R) /\
    (forall x y z, inb (net_out ss d) x y z -> lin (net_out ss d) x y z < lin (net_out ss d) a b c -> (P x y z < P a b c)%R).
Proof.
  intros layers ss d n i U cast input J (ls & sm & EL & HC & HN & HS) OK LO HJ I P.
  destruct (net_ok_head _ _ OK) as [Pd Fd]. destruct (net_ok_out _ _ OK) as [Po Fo].
  destruct (mat_of_lz_ok (n0 : R) cast (l_val input) tt d J Fd (iterable_pos d Pd) (is_mat_lz input d J tt HJ Fd)) as (x & Ex & Hx).
  destruct (copy_ok rand rmax x d I Hx Fd Pd) as [(x0 & Ex0 & Hx0) _].
  destruct (net_fwd rand rmax ls ss d i x I HN HS OK Hx) as (ls' & rs & o & Ef & Ho & N1 & N2 & N3 & N4 & N5).
  destruct (sm_apply_ok o _ _ Ho Fo Po) as (p & m & Ep & Hp & _).
  destruct (copy_ok rand rmax p _ _ Hp Fo Po) as [(p0 & Ep0 & Hp0) _].
  assert (Es : sm_forward exp sm o = Ok p).
  { destruct (sm_forward_ok sm o _ _ Ho Fo Po) as [S1 _]. rewrite S1; [exact Ep|]. rewrite HC. exact LO. }
  assert (Ef2 : fwd_layers ER (ls ++ [LSoft sm]) x i = ORet (ls' ++ [LSoft sm]) (rs ++ [p0], p)).
  { eapply fwd_layers_app; [exact Ef|]. cbn [fwd_layers l_forward e_exp envR]. rewrite Es. cbn [lift]. rewrite Ep0. reflexivity. }
  destruct (max_ok unit (l_val p) tt _ _ (is_mat_lz p _ _ tt Hp Fo) Fo Po) as (a & b & c & Hi & _ & Em & Mx & Fs).
  destruct (member_index R NumR p _ _ strict_weak_R_max strict_weak_R_min Hp Fo Po) as [MI _].
  destruct (MI a b c Em) as [_ EI].
  exists ls, sm, ls', x0, rs, p0, (Results (lin (net_out ss d) a b c) 0 (0 - 1)%R (P a b c) (x0 :: rs ++ [p0])), a, b, c.
  split; [exact EL|]. split; [exact HN|]. split.
  { unfold forward_pass, bind. rewrite Ex. cbn [lift]. rewrite Ex0. cbn [lift]. rewrite EL, Ef2. cbn [snd fst].
    rewrite (is_mat_dim _ _ _ Hp), base_size_fits by exact Fo. cbn [lift].
    destruct LO as (_ & _ & LV). rewrite LV, Z.eqb_refl. cbn [ret]. rewrite EI. cbn [lift].
    rewrite (is_mat_flat p _ _ a b c Hp Hi). reflexivity. }
  repeat (split; [first [reflexivity|assumption]|]). assumption.
Qed.

(** softmax returns probabilities: the largest is at least 1/n *)
Lemma soft_max_ge : forall d f a b c, pos d -> fits d -> inb d a b c -> (forall x y z, inb d x y z -> (soft d f x y z <= soft d f a b c)%R) ->
  (1 / IZR (vol d) <= soft d f a b c)%R.
Proof.
  intros d f a b c P F Hi Mx. destruct (soft_props d f P) as (_ & S & _).
  assert (V : (0 < IZR (vol d))%R) by (apply IZR_lt; pose proof (vol_pos1 d P); lia).
  assert (B : (rsum3 d (soft d f) <= IZR (vol d) * soft d f a b c)%R).
  { assert (K : rsum3 d (fun _ _ _ => soft d f a b c) = (IZR (vol d) * soft d f a b c)%R).
    { unfold rsum3, vol. unfold pos in P. rewrite !mult_IZR.
      rewrite (rsum_ext _ _ (fun _ => IZR (dy d) * (IZR (dx d) * soft d f a b c))%R).
      - rewrite rsum_const by lia. ring.
      - intros. rewrite (rsum_ext _ _ (fun _ => IZR (dx d) * soft d f a b c)%R).
        + rewrite rsum_const by lia. ring.
        + intros. rewrite rsum_const by lia. ring. }
    rewrite <- K. assert (D : (0 <= rsum3 d (fun x y z => soft d f a b c + -1 * soft d f x y z))%R).
    { apply rsum3_nonneg. intros x y z Hxyz. specialize (Mx x y z Hxyz). lra. }
    rewrite rsum3_plus, (rsum3_scal (-1)) in D. lra. }
  rewrite S in B. apply (Rmult_le_reg_l (IZR (vol d))); [exact V|]. replace (IZR (vol d) * (1 / IZR (vol d)))%R with 1%R by (field; lra). exact B.
Qed.

(** Gradient of the output layer: probabilities, minus one at the true label *)
Definition out_grad (d : dim3) (f : fn) (a b c : Z) : fn := fupd (soft d f) a b c (soft d f a b c - 1)%R.

Theorem backward_ok : forall ls' sm ss d n i I x0 rs p r a b c,
  net_is ls' ss d -> List.Forall (fun l => slot_ok l i) ls' -> net_recorded ls' ss d i I -> sm_count sm = n ->
  net_ok ss d -> net_bkc true ss d -> labels_ok (net_out ss d) n ->
  r_inputs r = x0 :: rs ++ [p] -> is_mat x0 d I -> recs_are rs ss d I -> is_mat p (net_out ss d) (soft (net_out ss d) (net_sem ss d I)) ->
  inb (net_out ss d) a b c ->
  exists ls2 r', backward_pass ER r (lin (net_out ss d) a b c) i (ls' ++ [LSoft sm]) =
      ORet (ls2 ++ [LSoft (Soft true (lin (net_out ss d) a b c) n)]) r' /\
    net_is ls2 ss d /\ net_stored ls2 ss d i (net_grads ss d I (out_grad (net_out ss d) (net_sem ss d I) a b c)) /\
    map params_of ls2 = map params_of ls' /\ r_label r' = r_label r /\ r_true r' = lin (net_out ss d) a b c /\
    r_inputs r' = r_inputs r /\ r_loss r' = loss_R (soft (net_out ss d) (net_sem ss d I) a b c).
Proof.
  intros ls' sm ss d n i I x0 rs p r a b c HN HS HR HC OK BK LO RI HX RS HP Hi.
  destruct (net_ok_head _ _ OK) as [Pd Fd]. destruct (net_ok_out _ _ OK) as [Po Fo].
  set (dd := net_out ss d) in *. set (k := lin dd a b c).
  destruct (copy_ok rand rmax p _ _ HP Fo Po) as [_ (q & Eq & Hq)].
  assert (KR : 0 <= k < n). { destruct LO as (_ & _ & <-). apply lin_range. exact Hi. }
  set (r' := Results (r_label r) k (loss_R (soft dd (net_sem ss d I) a b c)) (r_conf r) (r_inputs r)).
  assert (E1 : assign_loss ER r k = Ok r').
  { unfold assign_loss. rewrite RI. change (x0 :: rs ++ [p]) with ((x0 :: rs) ++ [p]). rewrite last_app. rewrite Eq. cbn [rbind].
    cbn [envR e_log2 e_eps e_rnd]. unfold k. rewrite (loss_ok q dd _ a b c Hq Hi). cbn [rbind]. unfold r'. rewrite RI. reflexivity. }
  assert (E2 : hand_over k (ls' ++ [LSoft sm]) = ORet (ls' ++ [LSoft (Soft true k n)]) tt).
  { unfold hand_over. rewrite last_app. rewrite app_length. cbn [length]. replace (length ls' + 1 - 1)%nat with (length ls') by lia.
    apply on_nth_ret. unfold sm_assign. destruct (sm_count sm <=? k) eqn:Q; [lia|]. cbn. rewrite HC. reflexivity. }
  assert (LR : length rs = length ls').
  { clear - HN RS. revert rs ls' d I HN RS. induction ss as [|s ss IH]; intros rs ls d I HN RS; destruct rs, ls; cbn in *; try contradiction; [reflexivity|].
    f_equal. eapply IH; [apply HN|apply RS]. }
  (* the softmax layer *)
  destruct (sm_dx_ok q dd _ a b c Hq Fo Hi) as (g & Eg & Hg).
  assert (Z0 : exists z z', nth_error (x0 :: rs) (length ls') = Some z /\ double_copy z = Ok z').
  { clear - rand rmax HN RS HX Pd Fd OK. revert rs ls' d I x0 HN RS HX Pd Fd OK.
    induction ss as [|s ss IH]; intros rs ls d I x0 HN RS HX Pd Fd OK; destruct rs as [|r0 rs], ls as [|l ls]; cbn in HN, RS; try contradiction.
    - exists x0. destruct (copy_ok rand rmax x0 d I HX Fd Pd) as [_ (z' & Ez & _)]. exists z'. split; [reflexivity|exact Ez].
    - destruct OK as [O1 O2]. destruct (net_ok_head _ _ O2) as [P2 F2]. cbn [length nth_error].
      apply (IH rs ls (s_out s d) (sem s d I) r0); tauto. }
  destruct Z0 as (z & z' & Nz & Ez).
  assert (SP : exists zs, x0 :: rs = zs ++ [z] /\ length zs = length ls').
  { clear - Nz LR. destruct (nth_error_split _ _ Nz) as (l1 & l2 & E & L). exists l1. split; [|exact L].
    assert (l2 = []) as ->; [|exact E]. apply (f_equal (@length _)) in E. rewrite app_length in E. cbn in E. destruct l2; [reflexivity|cbn in E; lia]. }
  destruct SP as (zs & Ezs & Lzs).
  assert (E3 : bwd_layers ER (S (length ls')) (zs ++ z :: p :: []) mat_empty i (ls' ++ LSoft (Soft true k n) :: []) =
               bwd_layers ER (length ls') (zs ++ z :: p :: []) g i (ls' ++ LSoft (Soft true k n) :: [])).
  { apply (bwd_step ER) with (x' := z') (z' := q); [exact Lzs|exact Ez|exact Eq|]. cbn [l_backward sm_backward sm_known sm_label].
    unfold k in *. rewrite Eg. reflexivity. }
  destruct (net_bwd rand rmax ls' ss d i I [] [LSoft (Soft true k n)] [] x0 rs [p] g (out_grad dd (net_sem ss d I) a b c)
              HN OK HR HX RS eq_refl Hg BK) as (ls2 & gin & E4 & _ & N1 & N2 & N3).
  cbn [length app Nat.add] in E4.
  exists ls2, r'. split.
  { unfold backward_pass, bind. fold k. rewrite E1. cbn [lift]. unfold backward_tail, bind. rewrite E2. unfold mget.
    rewrite app_length. cbn [length]. rewrite Nat.add_1_r. cbn [r' r_inputs]. rewrite RI.
    replace (x0 :: rs ++ [p]) with (zs ++ z :: [p]) by (change (x0 :: rs ++ [p]) with ((x0 :: rs) ++ [p]); rewrite Ezs, <- app_assoc; reflexivity).
    rewrite E3. replace (zs ++ z :: [p]) with (x0 :: rs ++ [p]) by (change (x0 :: rs ++ [p]) with ((x0 :: rs) ++ [p]); rewrite Ezs, <- app_assoc; reflexivity).
    rewrite E4. cbn [bwd_layers ret]. fold r'. reflexivity. }
  repeat (split; [first [reflexivity|assumption]|]). reflexivity.
Qed.

Lemma net_prob_value : forall ss d I a b c v n, net_ok ss d -> labels_ok (net_out ss d) n -> inb (net_out ss d) a b c ->
  net_prob ss d I (lin (net_out ss d) a b c) v -> v = soft (net_out ss d) (net_sem ss d I) a b c.
Proof.
  intros ss d I a b c v n1' OK LO Hi (layers & n & i & input & layers' & r & p & rs & HNW & HX & EF & ER' & EV).
  destruct (Z.eq_dec (vol (net_out ss d)) n) as [EN|NE].
  - assert (LO' : labels_ok (net_out ss d) n) by (destruct LO as (A1 & A2 & _); repeat split; auto).
    destruct (forward_ok layers ss d n i R (fun t => t) input I HNW OK LO' HX) as (ls & sm & ls' & x0 & rs' & p' & r' & a' & b' & c' & _ & _ & EF' & RI & _ & _ & HP & _).
    rewrite EF in EF'. injection EF' as -> ->. rewrite RI in ER'.
    change (x0 :: rs' ++ [p']) with ((x0 :: rs') ++ [p']) in ER'. apply app_inj_tail in ER'. destruct ER' as [_ <-].
    rewrite (is_mat_flat p' _ _ a b c HP Hi) in EV. injection EV as <-. reflexivity.
  - exfalso. destruct HNW as (ls & sm & EL & HC & HN & HS).
    destruct (net_ok_head _ _ OK) as [Pd Fd]. destruct (net_ok_out _ _ OK) as [Po Fo].
    unfold forward_pass, bind in EF.
    destruct (mat_of_lz_ok (n0 : R) (fun t : R => t) (l_val input) tt d I Fd (iterable_pos d Pd) (is_mat_lz input d I tt HX Fd)) as (x & Ex & Hx).
    rewrite Ex in EF. cbn [lift] in EF. destruct (copy_ok rand rmax x d I Hx Fd Pd) as [(x0 & Ex0 & _) _]. rewrite Ex0 in EF. cbn [lift] in EF.
    destruct (net_fwd rand rmax ls ss d i x I HN HS OK Hx) as (ls' & rs' & o & Ef & Ho & _).
    assert (B : forall q, fwd_layers ER layers x i <> ORet layers' q).
    { intros q Q. subst layers. revert Q. clear - Ef Ho Fo Po NE HC. revert ls' rs' x layers' q Ef. induction ls as [|l ls IH]; intros ls' rs' x layers' q Ef.
      - cbn in Ef. injection Ef as <- <- <-. cbn [app fwd_layers l_forward]. destruct (sm_forward_ok sm x _ _ Ho Fo Po) as [_ S2].
        cbn [envR e_exp]. rewrite S2; [discriminate|]. intros (_ & _ & C). congruence.
      - cbn [app fwd_layers] in *. destruct (l_forward ER x i l); try discriminate. destruct (float_copy ER a); try discriminate.
        destruct (fwd_layers ER ls a i) as [t [u w]| |] eqn:Q; cbn [map_out] in *; try discriminate. injection Ef as <- <- <-.
        destruct (fwd_layers ER (ls ++ [LSoft sm]) a i) as [t' [u' w']| |] eqn:Q2; cbn [map_out]; try discriminate.
        exfalso. eapply IH; [exact Q|exact Q2]. }
    destruct (fwd_layers ER layers x i) as [t q| |] eqn:Q; try discriminate.
    cbn [snd] in EF. destruct (base_size (mdim (snd q))); cbn [lift] in EF; try discriminate.
    destruct (_ =? _); cbn [ret mthrow] in EF; [|discriminate]. destruct (max_index (snd q)); cbn [lift] in EF; try discriminate.
    destruct (mread_flat (snd q) a1); cbn [lift ret] in EF; try discriminate. injection EF as <- _. exact (B q eq_refl).
Qed.

(** Derivative of the loss of one input along a curve of parameters *)
Theorem net_loss_curve : forall cs d I t0 a b c, net_ok (map pc_s cs) d -> net_smooth (map (pc_at t0) cs) d I -> pc_ok cs d t0 ->
  inb (net_out (map pc_s cs) d) a b c ->
  let dd := net_out (map pc_s cs) d in
  is_derive (fun t => nll dd (net_sem (map (pc_at t) cs) d I) a b c) t0
    (gdot cs d (net_grads (map (pc_at t0) cs) d I (out_grad dd (net_sem (map (pc_at t0) cs) d I) a b c))).
Proof.
  intros cs d I t0 a b c OK SM PO Hi dd.
  destruct (net_ok_out _ _ OK) as [Po Fo].
  destruct (net_curve rand rmax cs d (fun _ => I) t0 (fun _ _ _ => 0%R) (out_grad dd (net_sem (map (pc_at t0) cs) d I) a b c) OK SM) as (O' & D1 & D2).
  - intros x y z _. apply @is_derive_const.
  - exact PO.
  - pose proof (nll_curve dd (fun t => net_sem (map (pc_at t) cs) d I) t0 O' a b c Po Hi D1) as D.
    fold dd in D2. unfold out_grad at 1 in D2. cbv beta in D. rewrite D2 in D. rewrite dotp_0, Rplus_0_l in D. exact D.
Qed.

(** *** One parameter *)
Definition pconst (s : lspec) : pcurve := PC s (fun _ => s_w s) (fun _ => s_b s) (fun _ _ _ => 0%R) (fun _ _ _ => 0%R).
Definition pc_one_w (s : lspec) (a b c : Z) : pcurve := PC s (fun t => fupd (s_w s) a b c t) (fun _ => s_b s) (delta a b c) (fun _ _ _ => 0%R).
Definition pc_one_b (s : lspec) (a b c : Z) : pcurve := PC s (fun _ => s_w s) (fun t => fupd (s_b s) a b c t) (fun _ _ _ => 0%R) (delta a b c).

Lemma setp_self : forall s, setp s (s_w s) (s_b s) = s.
Proof. destruct s; reflexivity. Qed.
Lemma fupd_self : forall (W : fn) a b c, fupd W a b c (W a b c) = W.
Proof.
  intros. do 3 (apply functional_extensionality; intro). unfold fupd.
  destruct (x =? a) eqn:Q1; [|reflexivity]. destruct (x0 =? b) eqn:Q2; [|reflexivity]. destruct (x1 =? c) eqn:Q3; [|reflexivity].
  apply Z.eqb_eq in Q1, Q2, Q3. subst. reflexivity.
Qed.
Lemma map_upd : forall {A B} (f : A -> B) l j v, map f (upd l j v) = upd (map f l) j (f v).
Proof. intros A B f. induction l; intros; [destruct j; reflexivity|]. destruct j; cbn; [reflexivity|]. rewrite IHl. reflexivity. Qed.
Lemma map_at_const : forall t ss, map (pc_at t) (map pconst ss) = ss.
Proof. intros. rewrite map_map. rewrite <- (map_id ss) at 2. apply map_ext. intros. unfold pc_at, pconst. cbn. apply setp_self. Qed.
Lemma map_s_const : forall ss, map pc_s (map pconst ss) = ss.
Proof. intros. rewrite map_map. rewrite <- (map_id ss) at 2. apply map_ext. reflexivity. Qed.
Lemma upd_self : forall {A} (l : list A) j v, nth_error l j = Some v -> upd l j v = l.
Proof. induction l; intros j v H; destruct j; cbn in *; try discriminate; [congruence|]. f_equal. apply IHl. exact H. Qed.

Definition net_dim (ss : list lspec) (d : dim3) (j : nat) : dim3 := net_out (firstn j ss) d.

Lemma gdot_zero : forall ss d gs, gdot (map pconst ss) d gs = 0%R.
Proof. induction ss; intros; destruct gs; cbn; try reflexivity. rewrite !dotp_0, IHss. ring. Qed.
Lemma gdot_upd : forall ss d gs j p g s, nth_error ss j = Some s -> nth_error gs j = Some g -> pc_s p = s ->
  gdot (upd (map pconst ss) j p) d gs =
    (dotp (s_wdim s (net_dim ss d j)) (fst g) (pc_w' p) + dotp (s_bdim s) (snd g) (pc_b' p))%R.
Proof.
  induction ss as [|s0 ss IH]; intros d gs j p g s Hs Hg Hp; destruct j; cbn [nth_error] in *; try discriminate.
  - destruct gs; [discriminate|]. injection Hs as <-. injection Hg as ->. cbn [map upd gdot]. rewrite gdot_zero, Hp. cbn. ring.
  - destruct gs as [|g0 gs]; [discriminate|]. cbn [map upd gdot pconst pc_s pc_w' pc_b']. rewrite !dotp_0.
    rewrite (IH _ gs j p g s Hs Hg Hp). unfold net_dim. cbn [firstn net_out]. ring.
Qed.
Lemma pc_ok_upd : forall ss d j p s t0, nth_error ss j = Some s -> pc_s p = s ->
  dcurve (s_wdim s (net_dim ss d j)) (pc_w p) t0 (pc_w' p) -> dcurve (s_bdim s) (pc_b p) t0 (pc_b' p) -> pc_ok (upd (map pconst ss) j p) d t0.
Proof.
  assert (C : forall ss d t0, pc_ok (map pconst ss) d t0).
  { induction ss; intros; cbn; [exact Logic.I|]. split; [|split; [|apply IHss]]; intros x y z _; apply @is_derive_const. }
  induction ss as [|s0 ss IH]; intros d j p s t0 Hs Hp D1 D2; destruct j; cbn [nth_error] in *; try discriminate.
  - injection Hs as <-. cbn [map upd pc_ok]. rewrite Hp. cbn in D1. split; [exact D1|]. split; [exact D2|apply C].
  - cbn [map upd pc_ok pconst pc_w pc_b pc_w' pc_b']. split; [intros x y z _; apply @is_derive_const|]. split; [intros x y z _; apply @is_derive_const|].
    apply (IH _ j p s t0 Hs Hp); assumption.
Qed.
Lemma grads_length : forall ss d I G, length (net_grads ss d I G) = length ss.
Proof. induction ss; intros; cbn; [reflexivity|]. rewrite IHss. reflexivity. Qed.
Lemma stored_nth : forall ls ss d i gs j s, net_stored ls ss d i gs -> nth_error ss j = Some s ->
  exists l g, nth_error ls j = Some l /\ nth_error gs j = Some g /\ stored l s (net_dim ss d j) i (fst g) (snd g).
Proof.
  induction ls as [|l ls IH]; intros ss d i gs j s H Hs; destruct ss as [|s0 ss]; destruct gs as [|g gs]; cbn in H; try contradiction.
  - destruct j; discriminate.
  - destruct H as [H1 H2]. destruct j; cbn [nth_error] in *.
    + injection Hs as <-. exists l, g. auto.
    + destruct (IH ss _ i gs j s H2 Hs) as (l' & g' & A & B & C). exists l', g'. auto.
Qed.

(** A forward pass and a backward pass for label number [idx] leave in slot [i] of every layer with parameters two
    matrices; their elements are the derivatives of -ln(probability of that label). *)
Theorem net_gradient : forall layers ss d n i U (cast : U -> R) (input : mat U) J idx,
  network layers ss d n i -> net_ok ss d -> net_bkc true ss d -> labels_ok (net_out ss d) n -> is_mat input d J -> 0 <= idx < n ->
  let I := fun x y z => cast (J x y z) in
  net_smooth ss d I ->
  exists layers1 r layers2 r', forward_pass ER cast n input i layers = ORet layers1 r /\
    backward_pass ER r idx i layers1 = ORet layers2 r' /\
    forall j s, nth_error ss j = Some s -> exists l DW DB, nth_error layers2 j = Some l /\ stored l s (net_dim ss d j) i DW DB /\
      (forall a b c Pt, inb (s_wdim s (net_dim ss d j)) a b c ->
        (forall t, net_prob (upd ss j (setw s (fupd (s_w s) a b c t))) d I idx (Pt t)) ->
        is_derive (fun t => - ln (Pt t))%R (s_w s a b c) (DW a b c)) /\
      (forall a b c Pt, inb (s_bdim s) a b c ->
        (forall t, net_prob (upd ss j (setb s (fupd (s_b s) a b c t))) d I idx (Pt t)) ->
        is_derive (fun t => - ln (Pt t))%R (s_b s a b c) (DB a b c)).
Proof.
  intros layers ss d n i U cast input J idx NW OK BK LO HJ Hidx I SM.
  destruct (forward_ok layers ss d n i U cast input J NW OK LO HJ) as (ls & sm & ls' & x0 & rs & p & r & a0 & b0 & c0 & EL & _ & EF & RI & HX & RS & HP & N1 & N2 & N3 & _).
  fold I in HX, RS, HP, N3.
  assert (SC : sm_count sm = n).
  { destruct NW as (ls0 & sm0 & E0 & C0 & _). rewrite E0 in EL. apply app_inj_tail in EL. destruct EL as [_ EL]. injection EL as <-. exact C0. }
  destruct (net_ok_out _ _ OK) as [Po Fo]. set (dd := net_out ss d) in *.
  assert (IX : exists a b c, inb dd a b c /\ lin dd a b c = idx).
  { destruct LO as (_ & _ & LV). destruct dd as [X Y K] eqn:EDD. unfold pos in Po. cbn [dx dy dz] in *.
    destruct (idx_of_inb X Y K idx ltac:(lia) ltac:(lia)) as [Q1 Q2]; [unfold vol in LV; cbn [dx dy dz] in LV; lia|]. eauto. }
  destruct IX as (ya & yb & yc & Hy & Ey).
  destruct (backward_ok ls' sm ss d n i I x0 rs p r ya yb yc N1 N2 N3 SC OK BK LO RI HX RS HP Hy) as (ls2 & r' & EB & M1 & M2 & _).
  exists (ls' ++ [LSoft sm]), r, (ls2 ++ [LSoft (Soft true idx n)]), r'. split; [exact EF|]. fold dd in EB. rewrite Ey in EB. split; [exact EB|].
  intros j s Hs. destruct (stored_nth ls2 ss d i _ j s M2 Hs) as (l & g & Nl & Ng & St).
  exists l, (fst g), (snd g). split; [rewrite nth_error_app1 by (apply nth_error_Some; congruence); exact Nl|]. split; [exact St|].
  assert (KEY : forall q, pc_s q = s -> forall t0 dir, pc_at t0 q = s ->
     dcurve (s_wdim s (net_dim ss d j)) (pc_w q) t0 (pc_w' q) -> dcurve (s_bdim s) (pc_b q) t0 (pc_b' q) ->
     dir = (dotp (s_wdim s (net_dim ss d j)) (fst g) (pc_w' q) + dotp (s_bdim s) (snd g) (pc_b' q))%R ->
     forall Pt, (forall t, net_prob (upd ss j (pc_at t q)) d I idx (Pt t)) -> is_derive (fun t => - ln (Pt t))%R t0 dir).
  { intros q Eq t0 dir At D1 D2 -> Pt HPt.
    assert (ES : map pc_s (upd (map pconst ss) j q) = ss) by (rewrite map_upd, map_s_const, Eq; apply upd_self; exact Hs).
    assert (EA : forall t, map (pc_at t) (upd (map pconst ss) j q) = upd ss j (pc_at t q)) by (intros; rewrite map_upd, map_at_const; reflexivity).
    assert (E0 : map (pc_at t0) (upd (map pconst ss) j q) = ss) by (rewrite EA, At; apply upd_self; exact Hs).
    pose proof (net_loss_curve (upd (map pconst ss) j q) d I t0 ya yb yc) as LC. rewrite ES, E0 in LC. cbv zeta in LC. fold dd in LC.
    specialize (LC OK SM (pc_ok_upd ss d j q s t0 Hs Eq D1 D2) Hy).
    fold dd in Ng. rewrite (gdot_upd ss d _ j q g s Hs Ng Eq) in LC.
    eapply is_derive_ext; [|exact LC]. intros t. cbv beta. unfold nll. f_equal. f_equal.
    assert (OK' : net_ok (upd ss j (pc_at t q)) d /\ net_out (upd ss j (pc_at t q)) d = dd).
    { unfold dd. clear - Hs Eq OK. revert d j Hs OK. unfold pc_at. rewrite Eq. induction ss as [|s0 ss IH]; intros d j Hs OK; [destruct j; discriminate|].
      destruct j; cbn [nth_error upd net_ok net_out] in *.
      - injection Hs as <-. rewrite s_ok_setp, s_out_setp. auto.
      - destruct OK as [O1 O2]. destruct (IH (s_out s0 d) j Hs O2). auto. }
    destruct OK' as [OK' ED].
    symmetry. rewrite EA. rewrite <- ED in LO, Hy, Ey |- *. apply (net_prob_value _ d I ya yb yc (Pt t) n OK' LO Hy). rewrite Ey. apply HPt. }
  split.
  - intros a b c Pt Hi HPt.
    apply (KEY (pc_one_w s a b c) eq_refl (s_w s a b c)) with (Pt := Pt).
    + unfold pc_at, pc_one_w. cbn [pc_s pc_w pc_b]. rewrite fupd_self. apply setp_self.
    + apply dcurve_fupd.
    + intros x y z _. cbn [pc_one_w pc_one_b pc_w pc_b pc_w' pc_b']. apply @is_derive_const.
    + cbn [pc_one_w pc_w' pc_b']. rewrite dotp_0, dotp_delta by exact Hi. ring.
    + exact HPt.
  - intros a b c Pt Hi HPt.
    apply (KEY (pc_one_b s a b c) eq_refl (s_b s a b c)) with (Pt := Pt).
    + unfold pc_at, pc_one_b. cbn [pc_s pc_w pc_b]. rewrite fupd_self. apply setp_self.
    + intros x y z _. cbn [pc_one_w pc_one_b pc_w pc_b pc_w' pc_b']. apply @is_derive_const.
    + apply dcurve_fupd.
    + cbn [pc_one_b pc_w' pc_b']. rewrite dotp_0, dotp_delta by exact Hi. ring.
    + exact HPt.
Qed.
End Pass.
