(** Layers by their shapes, for any type of numbers: whether an operation succeeds depends only on the sizes, not on the
    values. Nothing is assumed about the arithmetic or the comparison (so NaN is covered). *)
From Coq Require Import ZArith List Bool Lia.
From Verif Require Import Base Dim Matrix View Num Expr Spec Iter Sums MatFacts MatThms ViewThms ExprThms Batch Kernel Connected Float32
  FloatFacts Pooling Activation Softmax LayerFacts KernelThms KernelGrad BatchThms ConnectedThms PoolingThms PoolGrad ActivationThms
  SoftmaxThms LayerTotal Chars Model Net NetPass NetGrad ModelThms TrainNet TrainSgd.
Import ListNotations.
Local Open Scope Z_scope.

(** A layer by its configuration, without the parameters *)
Inductive shape :=
| HConv (fx fy C n : Z)
| HConn (n : Z)
| HPool (t : pool_type) (qx qy sx sy : Z)
| HAct (a : act).

(** Output dimensions for input dimensions [d], and the conditions on the sizes: all products fit an int *)
Definition h_out (s : shape) (d : dim3) : dim3 :=
  match s with
  | HConv fx fy C n => D3 (dx d - fx + 1) (dy d - fy + 1) n
  | HConn n => D3 n 1 1
  | HPool _ qx qy sx sy => odim (pgeom qx qy sx sy d)
  | HAct _ => d
  end.
Definition h_ok (s : shape) (d : dim3) : Prop :=
  pos d /\ fits d /\
  match s with
  | HConv fx fy C n => 1 <= fx <= dx d /\ 1 <= fy <= dy d /\ C = dz d /\ 1 <= n /\
      fits (D3 fx fy (C * n)) /\ fits (D3 n 1 1) /\ fits (D3 (dx d - fx + 1) (dy d - fy + 1) n)
  | HConn n => 1 <= n /\ fits (D3 n (vol d) 1) /\ fits (D3 n 1 1)
  | HPool _ qx qy sx sy => geom_ok (pgeom qx qy sx sy d)
  | HAct _ => True
  end.
(** The input gradient of a convolution is only computed for square outputs (C25). *)
Definition h_bk (s : shape) (d : dim3) : Prop :=
  match s with
  | HConv fx fy _ _ => dx d - fx = dy d - fy /\ fits (D3 (dx d + (dx d - fx)) (dy d + (dy d - fy)) 1)
  | _ => True
  end.
Fixpoint h_net_out (ss : list shape) (d : dim3) : dim3 := match ss with [] => d | s :: r => h_net_out r (h_out s d) end.
Fixpoint h_net_ok (ss : list shape) (d : dim3) : Prop := match ss with [] => pos d /\ fits d | s :: r => h_ok s d /\ h_net_ok r (h_out s d) end.
Fixpoint h_net_bk (ss : list shape) (d : dim3) : Prop := match ss with [] => True | s :: r => h_bk s d /\ h_net_bk r (h_out s d) end.
(** All convolutions but a first layer have square outputs *)
Definition h_net_bkc (first : bool) (ss : list shape) (d : dim3) : Prop :=
  match ss with [] => True | s :: r => (first = false -> h_bk s d) /\ h_net_bk r (h_out s d) end.

Lemma h_ok_out : forall s d, h_ok s d -> pos (h_out s d) /\ fits (h_out s d).
Proof.
  intros s d (P & F & H). destruct s as [fx fy C n|n|t qx qy sx sy|a]; cbn in *.
  - destruct H as (A1 & A2 & A3 & A4 & F1 & F2 & F3). split; [unfold pos; cbn; lia|exact F3].
  - destruct H as (A1 & F1 & F2). split; [unfold pos; cbn; lia|exact F2].
  - split; [apply odim_pos|apply odim_fits]; exact H.
  - auto.
Qed.
Lemma h_net_head : forall ss d, h_net_ok ss d -> pos d /\ fits d.
Proof. destruct ss as [|s r]; intros d H; [exact H|]. destruct H as [(P & F & _) _]. auto. Qed.
Lemma h_net_end : forall ss d, h_net_ok ss d -> pos (h_net_out ss d) /\ fits (h_net_out ss d).
Proof. induction ss as [|s r IH]; intros d H; [exact H|]. destruct H as [_ H]. apply IH. exact H. Qed.
Lemma h_net_bk_bkc : forall ss d b, h_net_bk ss d -> h_net_bkc b ss d.
Proof. destruct ss; cbn; intros; tauto. Qed.

Section Shapes.
Context {T : Type} {N : Num T} (E : env T).
Hypothesis ORD : e_moved E = false.

(** A matrix of dimensions [d] *)
Definition has {A} (m : mat A) (d : dim3) : Prop := mdim m = d /\ consistent m.

Lemma has_is : forall {A} (m : mat A) d, has m d -> pos d -> fits d -> exists f, is_mat m d f.
Proof.
  intros A m d [<- C] P F. destruct (is_mat_exists m C F (vol_pos_of _ P)) as (f & Hf). exists f. exact Hf.
Qed.
Lemma is_has : forall {A} (m : mat A) d f, is_mat m d f -> has m d.
Proof. intros A m d f H. split; [eapply is_mat_dim; exact H|eapply is_mat_consistent; exact H]. Qed.

(** ** Extrema without an order: some element of the box is selected. *)
Lemma extremum_total : forall {S} better (a : lz S T) s d f, is_lz a s d f -> fits d -> pos d ->
  exists x y z, inb d x y z /\ extremum better a s = Ok (Some (lin d x y z, D3 x y z, f x y z)).
Proof.
  intros S better a s d f (D & V) HF HP. unfold extremum. rewrite D. rewrite it_loop_iter by (apply pos_iterable; assumption).
  set (F := elem_no d f).
  destruct (mfor_inv (fun k (b : option (Z * dim3 * T)) =>
      (k = 0 /\ b = None) \/ (0 < k /\ exists j, 0 <= j < k /\ b = Some (j, idx_of (dx d) (dy d) j, F j)))
    (fun k => (fun k i => fun best =>
     match lget a s i with
     | Ok x => match best with
               | None => ORet (Some (k, i, x)) tt
               | Some (k0, i0, b) => if better x b then ORet (Some (k, i, x)) tt else ORet best tt
               end
     | Throw e => OThrow best e
     | UB => OUB
     end) k (idx_of (dx d) (dy d) k)) (vol d) None) as (r & R1 & R2).
  - apply fits_vol. assumption.
  - intros k b Hk HI. destruct (position_case d k HF Hk) as (x & y & z & Hi & Hl & Ei). rewrite Ei. cbv beta. rewrite V by assumption.
    assert (EK : F k = f x y z) by (subst k; unfold F; apply elem_no_lin; assumption).
    destruct HI as [(-> & ->)|(Hk0 & j & Hj & ->)].
    + eexists. split; [reflexivity|]. right. split; [lia|]. exists 0. rewrite Ei, EK. split; [lia|reflexivity].
    + rewrite <- EK. destruct (better (F k) (F j)) eqn:B.
      * eexists. split; [reflexivity|]. right. split; [lia|]. exists k. rewrite Ei. split; [lia|reflexivity].
      * eexists. split; [reflexivity|]. right. split; [lia|]. exists j. split; [lia|reflexivity].
  - left. auto.
  - assert (HV : 0 < vol d) by (apply vol_pos_of; exact HP).
    destruct R2 as [(H0 & _)|(_ & j & Hj & ->)]; [lia|].
    destruct (position_case d j HF Hj) as (x & y & z & Hi & -> & Ei).
    exists x, y, z. split; [assumption|]. rewrite Ei in R1. unfold F in R1. rewrite elem_no_lin in R1 by assumption.
    cbv beta in R1. rewrite R1. reflexivity.
Qed.

Lemma max_index_total : forall (m : mat T) d f, is_mat m d f -> fits d -> pos d -> exists x y z, inb d x y z /\ max_index m = Ok (lin d x y z).
Proof.
  intros m d f H F P. destruct (extremum_total lt_max (l_val (S := unit) m) tt d f (is_mat_lz m d f tt H F) F P) as (x & y & z & I & Q).
  exists x, y, z. split; [exact I|]. unfold max_index. rewrite Q. cbn [rbind]. rewrite (is_mat_dim _ _ _ H). apply it_diff_idx; assumption.
Qed.

(** ** Pooling by maximum or minimum *)
Lemma q_step_total : forall q g x I t i j c o s OF SF, geom_ok g -> has_geom q g -> q_type q = t -> t <> PAvg ->
  is_mat x (xdim g) I -> inb (odim g) i j c -> is_mat o (odim g) OF -> is_mat s (odim g) SF ->
  exists o' s' p v, q_step q x (D3 i j c) (o, s) = ORet (o', s') tt /\ inb (xdim g) (dx p) (dy p) (dz p) /\ is_mat o' (odim g) (fupd OF i j c v) /\ is_mat s' (odim g) (fupd SF i j c p) /\ v = I (dx p) (dy p) (dz p).
Proof.
  intros q g x I t i j c o s OF SF G HG Et Nt HX Io HO HS.
  pose proof (odim_fits g G) as FO. destruct (win_region g i j c G Io) as (R & A & B).
  pose proof G as (H1 & H2 & H3 & H4 & H5 & H6 & H7 & FX). pose proof (fits_dims _ FX) as (F1 & F2 & F3). cbn [xdim dx dy dz] in F1, F2, F3.
  unfold q_step. unfold bind at 1. rewrite (q_corner_ok q g i j c G HG Io), lift_ok.
  unfold bind at 1. rewrite (is_mat_dim _ _ _ HX). unfold q_size. destruct HG as (Q1 & Q2 & Q3 & Q4). rewrite Q1, Q2.
  rewrite mk_view_ok by assumption. rewrite lift_ok.
  set (v := View (D3 (i * g_sx g) (j * g_sy g) c) (D3 (g_qx g) (g_qy g) 1)) in *.
  pose proof (is_lz_view (fun _ : unit => x) tt (xdim g) I v HX FX R) as HL. cbn [v vdim vstart dx dy dz] in HL.
  destruct (extremum_total (better_of t) (l_view (fun _ : unit => x) v) tt (D3 (g_qx g) (g_qy g) 1) _ HL (win_fits g G)) as (a & b & e & Iab & Ee).
  { unfold pos; cbn; lia. }
  destruct Iab as (J1 & J2 & J3). cbn [dx dy dz] in J1, J2, J3. assert (e = 0) by lia. subst e.
  set (p := D3 (i * g_sx g + a) (j * g_sy g + b) c).
  assert (IP : inb (xdim g) (dx p) (dy p) (dz p)).
  { apply (win_inb g i j c); [exact G|exact Io|]. unfold in_win, p. cbn [dx dy]. lia. }
  destruct (mwrite_is s (odim g) SF i j c p HS FO Io) as (s' & Es & Is).
  destruct (mwrite_is o (odim g) OF i j c (I (dx p) (dy p) (dz p)) HO FO Io) as (o' & Eo & Io').
  exists o', s', p, (I (dx p) (dy p) (dz p)). split; [|split; [exact IP|split; [assumption|split; [assumption|reflexivity]]]].
  assert (EA : dim_add (D3 (i * g_sx g) (j * g_sy g) c) (D3 a b 0) = Ok p).
  { rewrite dim_add_ok; unfold p; cbn [dx dy dz]; [f_equal; f_equal; lia| | | ]; destruct IP as (P1 & P2 & P3); unfold p, xdim in P1, P2, P3; cbn [dx dy dz] in *; unfold two31 in *; lia. }
  assert (ER : mread x p = Ok (I (dx p) (dy p) (dz p))) by (apply (is_mat_read x (xdim g) I _ _ _ HX FX IP)).
  rewrite Et. destruct t; [| |contradiction]; unfold bind; unfold max_index3, min_index3; cbn [better_of] in Ee; rewrite Ee; cbn [rbind];
    rewrite lift_ok, EA, lift_ok; unfold on_snd; rewrite Es, ER, lift_ok; unfold on_fst; rewrite Eo; reflexivity.
Qed.

Lemma q_forward_total : forall q g x I slot s0, geom_ok g -> has_geom q g ->
  is_mat x (xdim g) I -> vget (q_idx q) slot = Ok s0 -> consistent s0 ->
  exists o s OF, q_forward x slot q = ORet (with_slot q slot s) o /\ is_mat o (odim g) OF /\ has s (odim g) /\ (q_type q <> PAvg -> exists SF, is_mat s (odim g) SF /\ forall i j c, inb (odim g) i j c -> inb (xdim g) (dx (SF i j c)) (dy (SF i j c)) (dz (SF i j c))) /\
    (q_type q = PAvg -> OF = win_mean g I) /\ (q_type q <> PAvg -> forall i j c, inb (odim g) i j c -> exists a b e, inb (xdim g) a b e /\ OF i j c = I a b e).
Proof.
  intros q g x I slot s0 G HG HX Es0 C0.
  assert (D : q_type q = PAvg \/ q_type q <> PAvg) by (destruct (q_type q); [right|right|left]; congruence). destruct D as [Et|Nt].
  { destruct (q_forward_avg q g x I slot s0 G HG Et HX Es0 C0) as (o & s & E1 & Ho & Cs & Ds). exists o, s, (win_mean g I).
    split; [exact E1|]. split; [exact Ho|]. split; [split; assumption|]. split; [intros NT; contradiction|]. split; [reflexivity|]. intros NT. contradiction. }
  pose proof (odim_fits g G) as FO. pose proof (odim_pos g G) as PO.
  unfold q_forward. rewrite (is_mat_dim _ _ _ HX), (q_outdim_ok q g G HG). cbn [rbind].
  destruct (mat_fill_ok (odim g) n0 FO) as (o0 & Eo0 & Io0). rewrite Eo0. cbn [rbind]. rewrite Es0. cbn [rbind].
  rewrite (is_mat_dim _ _ _ Io0).
  destruct (resize_slot (dim_fill 0) s0 (odim g) C0 FO (vol_pos_of _ PO)) as (s1 & S1 & Er & Is1). rewrite Er.
  set (Inv := fun k (st : mat T * mat dim3) => exists OF SF, is_mat (fst st) (odim g) OF /\ is_mat (snd st) (odim g) SF /\
    forall i j c, inb (odim g) i j c -> lin (odim g) i j c < k -> inb (xdim g) (dx (SF i j c)) (dy (SF i j c)) (dz (SF i j c)) /\
      OF i j c = I (dx (SF i j c)) (dy (SF i j c)) (dz (SF i j c))).
  destruct (PoolingThms.it_loop_inv Inv (odim g) (fun _ i => q_step q x i) (o0, s1) FO (pos_iterable _ PO)) as ([o s] & El & (OF & SF & H1 & H2 & H3)).
  - intros k i j c [o s] Io Ek (OF & SF & H1 & H2 & H3). cbn [fst snd] in *.
    destruct (q_step_total q g x I _ i j c o s OF SF G HG eq_refl Nt HX Io H1 H2) as (o' & s' & p & v & E1 & SEL & H1' & H2' & EV).
    exists (o', s'). split; [exact E1|]. eexists _, _. cbn [fst snd]. split; [exact H1'|]. split; [exact H2'|].
    intros a b e Iab L. rewrite Ek in L. destruct (lin_lt_S (odim g) i j c a b e FO Io Iab L) as [L'|(-> & -> & ->)].
    + unfold fupd. destruct ((a =? i) && (b =? j) && (e =? c)) eqn:Q; [split; assumption|]. apply H3; [exact Iab|lia].
    + rewrite !fupd_eq. split; assumption.
  - exists (fun _ _ _ => n0), S1. cbn [fst snd]. split; [exact Io0|]. split; [exact Is1|]. intros i j c Iij L.
    pose proof (lin_range _ _ _ _ Iij). lia.
  - rewrite El. exists o, s, OF. split; [reflexivity|]. split; [exact H1|]. split; [eapply is_has; exact H2|].
    split; [|split; [intros NT; contradiction|]].
    + intros _. exists SF. split; [exact H2|]. intros i j c Iij. apply H3; [exact Iij|]. apply (lin_range _ _ _ _ Iij).
    + intros _ i j c Iij. destruct (H3 i j c Iij (proj2 (lin_range _ _ _ _ Iij))) as (A & B). eauto 6.
Qed.

(** ** Softmax and loss *)
Lemma sm_forward_total : forall expT s (x : mat T) d f, is_mat x d f -> fits d -> pos d -> labels_ok d (sm_count s) ->
  exists o, sm_forward expT s x = Ok o /\ has o d.
Proof.
  intros expT s x d f H F P (Q1 & Q2 & Q3). pose proof (pos_iterable d P) as IT.
  unfold sm_forward, sm_check. rewrite (is_mat_dim _ _ _ H). rewrite base_size_fits by exact F.
  unfold is_column, is_row, is_flat. rewrite Q1, Q3, Z.eqb_refl. cbn [rbind].
  assert (CK : ((true && (dy d =? 1)) || (true && (dx d =? 1))) = true) by (destruct Q2 as [Q2|Q2]; rewrite Q2; cbn; rewrite ?orb_true_r; reflexivity).
  rewrite CK. cbn [rbind]. rewrite Z.eqb_refl. unfold sm_apply, mmax.
  destruct (extremum_total lt_max (l_val (S := unit) x) tt d f (is_mat_lz x d f tt H F) F P) as (a & b & c & I & Q). rewrite Q. cbn [rbind].
  set (m := f a b c).
  destruct (mat_of_lz_ok n0 (fun t => t) (mk_apply (fun v => Ok (expT v)) (mk_scal_r op_sub (l_val x) m tt) tt) tt d (fun a b c => expT (nsub (f a b c) m)) F IT) as (e & Ee & He).
  { split; [apply (is_mat_dim _ _ _ H)|]. intros a' b' c' I'. cbn. rewrite (is_mat_read x d f a' b' c' H F I'). reflexivity. }
  rewrite Ee. cbn [rbind].
  rewrite (sum_ok _ tt d _ (is_mat_lz e d _ tt He F) F IT). cbn [rbind].
  set (t := nsum (vol d) (elem_no d (fun a0 b0 c0 : Z => expT (nsub (f a0 b0 c0) m)))).
  destruct (mat_of_lz_ok n0 (fun t => t) (mk_scal_r op_div (l_val e) t tt) tt d
     (fun a b c => ndiv (expT (nsub (f a b c) m)) t) F IT) as (o & Eo & Ho).
  { split; [apply (is_mat_dim _ _ _ He)|]. intros a' b' c' I'. cbn. rewrite (is_mat_read e d _ a' b' c' He F I'). reflexivity. }
  rewrite Eo. exists o. split; [reflexivity|]. eapply is_has. exact Ho.
Qed.

Lemma flat_total : forall (m : mat T) d f k, is_mat m d f -> fits d -> pos d -> 0 <= k < vol d -> exists x y z, inb d x y z /\ k = lin d x y z /\ mread_flat m k = Ok (f x y z).
Proof.
  intros m d f k H F P Hk. destruct (position_case d k F Hk) as (x & y & z & Hi & Hl & Ei). exists x, y, z. split; [exact Hi|]. split; [auto|].
  rewrite Hl. apply is_mat_flat; assumption.
Qed.
Lemma sm_dx_total : forall (y : mat T) d f k, is_mat y d f -> fits d -> pos d -> 0 <= k < vol d -> exists r, sm_dx y k = Ok r /\ has r d.
Proof.
  intros y d f k H F P Hk. destruct (flat_total y d f k H F P Hk) as (a & b & c & I & -> & Q). unfold sm_dx. rewrite Q. cbn [rbind].
  destruct (mwrite_is y d f a b c (nsub (f a b c) n1) H F I) as (r & Er & Hr). exists r. split; [|eapply is_has; exact Hr].
  unfold mwrite in Er. rewrite (is_mat_dim _ _ _ H), get_index_lin in Er by assumption.
  unfold run_state, mwrite_flat. rewrite (is_mat_dim _ _ _ H). rewrite Er. reflexivity.
Qed.
Lemma loss_total : forall log2T eps rnd (m : mat T) d f k, is_mat m d f -> fits d -> pos d -> 0 <= k < vol d -> exists v, loss_fcn log2T eps rnd m k = Ok v.
Proof.
  intros log2T eps rnd m d f k H F P Hk. destruct (flat_total m d f k H F P Hk) as (a & b & c & I & -> & Q). unfold loss_fcn. rewrite Q. cbn [rbind]. eauto.
Qed.
Lemma copies : forall (m : mat T) d, has m d -> pos d -> fits d ->
  (exists m', float_copy E m = Ok m' /\ has m' d) /\ (exists m', double_copy m = Ok m' /\ has m' d).
Proof.
  intros m d H P F. destruct (has_is m d H P F) as (f & Hf). split; unfold float_copy, double_copy.
  - destruct (mat_of_lz_ok n0 (e_rnd E) (l_val m) tt d f F (pos_iterable d P) (is_mat_lz m d f tt Hf F)) as (m' & Q & H'). eauto using is_has.
  - destruct (mat_of_lz_ok n0 (fun t : T => t) (l_val m) tt d f F (pos_iterable d P) (is_mat_lz m d f tt Hf F)) as (m' & Q & H'). eauto using is_has.
Qed.

(** ** Layers *)
(** The layer object [l] has configuration [s], for inputs of dimensions [d]. A fully connected layer has seen an input of
    these dimensions, or none at all. *)
Definition l_fit (l : layer T) (s : shape) (d : dim3) : Prop :=
  match l, s with
  | LKernel k, HConv fx fy C n => (exists W B, kernel_is k fx fy C n W B) /\ k_stride k = 1
  | LConn c, HConn n => (exists W B, conn_is c n (vol d) W B) /\ c_in c = d \/ conn_fresh c n
  | LPool q, HPool t qx qy sx sy => has_geom q (pgeom qx qy sx sy d) /\ q_type q = t
  | LAct a, HAct k => a_fun a = k /\ a_der a = k
  | _, _ => False
  end.
Definition h_wdim (s : shape) (d : dim3) : dim3 :=
  match s with HConv fx fy C n => D3 fx fy (C * n) | HConn n => D3 n (vol d) 1 | _ => D3 0 0 0 end.
Definition h_bdim (s : shape) : dim3 := match s with HConv _ _ _ n | HConn n => D3 n 1 1 | _ => D3 0 0 0 end.

(** The gradient slot [i] holds matrices of the right sizes. *)
Definition filled (l : layer T) (s : shape) (d : dim3) (i : Z) : Prop :=
  match l with
  | LKernel k => exists gw gb, vget (p_wg (k_par k)) i = Ok gw /\ has gw (h_wdim s d) /\ vget (p_bg (k_par k)) i = Ok gb /\ has gb (h_bdim s)
  | LConn c => exists gw gb, vget (p_wg (c_par c)) i = Ok gw /\ has gw (h_wdim s d) /\ vget (p_bg (c_par c)) i = Ok gb /\ has gb (h_bdim s)
  | _ => True
  end.
(** What the backward pass of slot [i] needs from the forward pass *)
Definition marked (l : layer T) (s : shape) (d : dim3) (i : Z) : Prop :=
  match l, s with
  | LPool q, HPool t qx qy sx sy =>
      let g := pgeom qx qy sx sy d in
      exists m, vget (q_idx q) i = Ok m /\ consistent m /\
        (t <> PAvg -> exists SF, is_mat m (odim g) SF /\ forall a b c, inb (odim g) a b c -> inb (xdim g) (dx (SF a b c)) (dy (SF a b c)) (dz (SF a b c)))
  | _, _ => slot_ok l i
  end.
(** The gradient slots of a layer, which the forward pass does not touch *)
Definition grads_of (l : layer T) : list (mat T) * list (mat T) :=
  match l with LKernel k => (p_wg (k_par k), p_bg (k_par k)) | LConn c => (p_wg (c_par c), p_bg (c_par c)) | _ => ([], []) end.
Definition idxs_of (l : layer T) : list (mat dim3) := match l with LPool q => q_idx q | _ => [] end.

Lemma vget_upd_cases : forall {A} (l : list A) k v i a, vget l i = Ok a -> 0 <= k -> exists b, vget (upd l (Z.to_nat k) v) i = Ok b /\ (b = a \/ b = v).
Proof.
  intros A l k v i a H Hk. destruct (Z.eq_dec k i) as [->|D].
  - exists v. split; [eapply vget_upd_eq; exact H|auto].
  - exists a. split; [|auto]. rewrite <- H. apply vget_upd_neq; auto.
Qed.

(** All that the forward pass needs of slot [i] *)
Definition index_slot (l : layer T) (i : Z) : Prop := match l with LPool _ => slot_ok l i | _ => True end.
Lemma slot_index : forall l i, slot_ok l i -> index_slot l i.
Proof. intros l i H. destruct l; cbn; auto. Qed.

Lemma fwd_total : forall l s d i x, l_fit l s d -> index_slot l i -> h_ok s d -> has x d ->
  exists l' o, l_forward E x i l = ORet l' o /\ has o (h_out s d) /\ l_fit l' s d /\ ready l' /\ (slot_ok l i -> marked l' s d i) /\
    grads_of l' = grads_of l /\ (forall j, slot_ok l j -> slot_ok l' j) /\ (forall j, index_slot l j -> index_slot l' j).
Proof.
  intros l s d i x HL HS (P & F & OK) HX0. destruct (has_is x d HX0 P F) as (I & HX).
  destruct l as [k|c|q|a|sm]; destruct s as [fx fy C n|n|t qx qy sx sy|ac]; cbn in HL; try contradiction; cbn [l_forward h_out].
  - destruct HL as ((W & B & HK) & HT). destruct OK as (A1 & A2 & A3 & A4 & F1 & F2 & F3).
    assert (HX' : is_mat x (D3 (dx d) (dy d) C) I) by (rewrite A3; destruct d; exact HX).
    assert (F' : fits (D3 (dx d) (dy d) C)) by (rewrite A3; destruct d; exact F).
    destruct (k_forward_ok k x fx fy C n (dx d) (dy d) W B I HK HT HX' F' ltac:(lia) ltac:(lia) F3) as (o & Eo & Ho).
    rewrite Eo. exists (LKernel k), o. cbn [lift]. split; [reflexivity|]. split; [eapply is_has; exact Ho|]. split; [cbn; eauto|].
    split; [exact Logic.I|]. auto.
  - destruct OK as (A1 & F1 & F2). destruct HL as [((W & B & HK) & HT)|HFr].
    + destruct (c_forward_ready (e_rand E) (e_rmax E) (e_sqrt E) c n (vol d) W B x d I HK HX F eq_refl) as (o & Eo & Ho).
      rewrite Eo. exists (LConn c), o. cbn [map_out]. split; [reflexivity|]. split; [eapply is_has; exact Ho|]. split; [cbn; left; eauto|].
      split; [apply HK|]. auto.
    + destruct (c_forward_first (e_rand E) (e_rmax E) (e_sqrt E) c n x d I HFr HX F (vol_pos1 d P) F1) as (c' & o & Eo & HK & HI & G1 & G2 & Eo').
      destruct (c_forward_ready (e_rand E) (e_rmax E) (e_sqrt E) c' n (vol d) _ _ x d I HK HX F eq_refl) as (o' & Eo2 & Ho).
      rewrite Eo' in Eo2. injection Eo2 as <-.
      rewrite Eo. exists (LConn c'), o. cbn [map_out]. split; [reflexivity|]. split; [eapply is_has; exact Ho|]. split; [cbn; left; eauto|].
      split; [apply HK|]. split; [cbn in *; rewrite G1, G2; auto|]. split; [cbn; rewrite G1, G2; reflexivity|]. split; [|auto]. intros j Hj. cbn in *. rewrite G1, G2. exact Hj.
  - destruct HL as (HG & HT). cbn in HS. destruct HS as (s0 & Es & Cs).
    assert (HX' : is_mat x (xdim (pgeom qx qy sx sy d)) I) by (rewrite pgeom_dim; exact HX).
    destruct (q_forward_total q _ x I i s0 OK HG HX' Es Cs) as (o & m & OF & Eo & Ho & (Dm & Cm) & SE & _).
    rewrite Eo. exists (LPool (with_slot q i m)), o. cbn [map_out]. split; [reflexivity|]. split; [eapply is_has; exact Ho|]. split; [cbn; auto|].
    assert (IS : vget (q_idx (with_slot q i m)) i = Ok m) by (cbn; eapply vget_upd_eq; exact Es).
    split; [exact Logic.I|]. split; [intros _; exists m; split; [exact IS|]; split; [exact Cm|]; intros NT; apply SE; rewrite HT; exact NT|]. split; [reflexivity|].
    assert (KS : forall j, slot_ok (T := T) (LPool q) j -> slot_ok (T := T) (LPool (with_slot q i m)) j); [|auto].
    intros j (s1 & E1 & C1). cbn [slot_ok with_slot q_idx].
    assert (Hi : 0 <= i) by (unfold vget in Es; destruct (Z.leb_spec 0 i); [assumption|discriminate]).
    destruct (vget_upd_cases (q_idx q) i m j s1 E1 Hi) as (v & Hv & [->| ->]); eauto.
  - destruct HL as (H1 & H2).
    destruct (a_forward_ok (e_exp E) (e_tanh E) (e_c01f E) ac x d I HX F (pos_iterable d P)) as (o & Eo & Ho).
    rewrite H1, Eo. exists (LAct a), o. cbn [lift]. split; [reflexivity|]. split; [eapply is_has; exact Ho|]. split; [cbn; auto|].
    split; [exact Logic.I|]. auto.
Qed.

Lemma bwd_total : forall l s d i x z g last, l_fit l s d -> ready l -> h_ok s d -> marked l s d i -> (last = false -> h_bk s d) ->
  has x d -> has z (h_out s d) -> has g (h_out s d) ->
  exists l' r, l_backward E x z g i last l = ORet l' r /\ (last = false -> has r d) /\ l_fit l' s d /\ ready l' /\ filled l' s d i /\
    (forall j, slot_ok l j -> slot_ok l' j) /\ (forall j, filled l s d j -> filled l' s d j) /\ (forall b, nslots b l -> nslots b l').
Proof.
  intros l s d i x z g last HL RD OK0 HR HB HX0 HZ0 HG0. destruct (h_ok_out s d OK0) as [PO FO]. destruct OK0 as (P & F & OK).
  destruct (has_is x d HX0 P F) as (I & HX). destruct (has_is z _ HZ0 PO FO) as (Zf & HZ). destruct (has_is g _ HG0 PO FO) as (G & HG).
  assert (VS : forall A (l0 : list A) j v, 0 <= i < Z.of_nat (length l0) -> vget l0 j = Ok v -> forall w, exists b, vget (upd l0 (Z.to_nat i) w) j = Ok b /\ (b = v \/ b = w)).
  { intros A l0 j v Hi Hv w. apply vget_upd_cases; [exact Hv|lia]. }
  destruct l as [k|c|q|a|sm]; destruct s as [fx fy C n|n|t qx qy sx sy|ac]; cbn in HL; try contradiction; cbn [l_backward h_out] in *.
  - destruct HL as ((W & B & HK) & HT). destruct OK as (A1 & A2 & A3 & A4 & F1 & F2 & F3). cbn in HR. destruct HR as [R1 R2].
    assert (HX' : is_mat x (D3 (dx d) (dy d) C) I) by (rewrite A3; destruct d; exact HX).
    assert (F' : fits (D3 (dx d) (dy d) C)) by (rewrite A3; destruct d; exact F).
    destruct (k_dw_ok k x g fx fy C n (dx d) (dy d) (dx d - fx + 1) (dy d - fy + 1) W B I G HK HX' F' eq_refl eq_refl ltac:(lia) ltac:(lia) HG F3) as (dw & Edw & Hdw).
    destruct (k_db_ok k g fx fy C n (dx d - fx + 1) (dy d - fy + 1) W B G HK ltac:(lia) ltac:(lia) HG F3) as (db & Edb & Hdb).
    rewrite (k_backward_ok k x g dw db i last Edw Edb R1 R2).
    set (l' := LKernel (with_par k (store (k_par k) i dw db))).
    assert (ST : l_fit l' (HConv fx fy C n) d /\ ready l' /\ filled l' (HConv fx fy C n) d i /\
      (forall j, slot_ok (LKernel k) j -> slot_ok l' j) /\ (forall j, filled (LKernel k) (HConv fx fy C n) d j -> filled l' (HConv fx fy C n) d j) /\
      (forall b, nslots b (LKernel k) -> nslots b l')).
    { split; [cbn; split; [exists W, B; exact HK|exact HT]|]. split; [exact Logic.I|]. split.
      { exists dw, db. cbn [l' with_par k_par store p_wg p_bg]. rewrite !vget_upd_same by assumption. eauto 8 using is_has. }
      split; [intros j Hj; cbn; rewrite !upd_length; exact Hj|]. split; [|intros b0 Hb0; cbn in *; rewrite !upd_length; exact Hb0].
      intros j (gw & gb & V1 & V2 & V3 & V4). cbn [l' with_par filled k_par store p_wg p_bg].
      destruct (VS _ _ j gw R1 V1 dw) as (w' & V5 & V6). destruct (VS _ _ j gb R2 V3 db) as (b' & V7 & V8). exists w', b'.
      split; [exact V5|]. split; [destruct V6 as [->| ->]; [exact V2|eapply is_has; exact Hdw]|].
      split; [exact V7|]. destruct V8 as [->| ->]; [exact V4|eapply is_has; exact Hdb]. }
    destruct last.
    + cbn [lift map_out]. eexists _, _. split; [reflexivity|]. split; [discriminate|]. exact ST.
    + destruct (HB eq_refl) as [B1 B2].
      assert (F4 : fits (D3 (fx + 2 * (dx d - fx + 1 - 1)) (fy + 2 * (dx d - fx + 1 - 1)) 1)).
      { replace (fx + 2 * (dx d - fx + 1 - 1)) with (dx d + (dx d - fx)) by lia.
        replace (fy + 2 * (dx d - fx + 1 - 1)) with (dy d + (dy d - fy)) by lia. exact B2. }
      assert (B3 : 2 * (dx d - fx + 1 - 1) < two31).
      { pose proof (fits_vol _ F4) as [_ V]. cbn [dx dy] in V.
        set (u := 2 * (dx d - fx + 1 - 1)) in *. assert (0 <= u) by (unfold u; lia).
        assert (fx + u <= (fx + u) * (fy + u)) by (apply Z.le_mul_diag_r; lia). lia. }
      assert (EY : dy d - fy + 1 = dx d - fx + 1) by lia.
      rewrite EY in HG, F3.
      destruct (k_dx_ok k x g fx fy C n (dx d) (dy d) (dx d - fx + 1) W B I G HK HX' F' eq_refl (eq_sym EY) ltac:(lia) B3 HG F3 F4) as (r & Er & Hr).
      rewrite Er. cbn [lift map_out]. eexists _, _. split; [reflexivity|]. split.
      { intros _. rewrite A3 in Hr. destruct d. eapply is_has. exact Hr. }
      exact ST.
  - cbn in RD. assert (HL' : (exists W B, conn_is c n (vol d) W B) /\ c_in c = d) by (destruct HL as [H|H]; [exact H|destruct H as (H & _); congruence]).
    destruct HL' as ((W & B & HK) & HT). destruct OK as (A1 & F1 & F2). cbn in HR. destruct HR as [R1 R2].
    destruct (c_dw_ok x g n d I G HX F HG A1 (vol_pos1 d P) F2 F1) as (dw & Edw & Hdw).
    rewrite ORD, (c_backward_ok false c x g dw i last Edw R1 R2).
    set (l' := LConn (Conn (store (c_par c) i dw g) (c_in c) (c_ready c))).
    assert (ST : l_fit l' (HConn n) d /\ ready l' /\ filled l' (HConn n) d i /\
      (forall j, slot_ok (LConn c) j -> slot_ok l' j) /\ (forall j, filled (LConn c) (HConn n) d j -> filled l' (HConn n) d j) /\
      (forall b, nslots b (LConn c) -> nslots b l')).
    { split; [cbn; left; split; [exists W, B; exact HK|exact HT]|]. split; [exact RD|]. split.
      { exists dw, g. cbn [l' c_par store p_wg p_bg]. rewrite !vget_upd_same by assumption. eauto 8 using is_has. }
      split; [intros j Hj; cbn; rewrite !upd_length; exact Hj|]. split; [|intros b0 Hb0; cbn in *; rewrite !upd_length; exact Hb0].
      intros j (gw & gb & V1 & V2 & V3 & V4). cbn [l' filled c_par store p_wg p_bg].
      destruct (VS _ _ j gw R1 V1 dw) as (w' & V5 & V6). destruct (VS _ _ j gb R2 V3 g) as (b' & V7 & V8). exists w', b'.
      split; [exact V5|]. split; [destruct V6 as [->| ->]; [exact V2|eapply is_has; exact Hdw]|].
      split; [exact V7|]. destruct V8 as [->| ->]; [exact V4|eapply is_has; exact HG]. }
    destruct last.
    + cbn [lift map_out]. eexists _, _. split; [reflexivity|]. split; [discriminate|]. exact ST.
    + destruct (c_dx_ok c g n (vol d) W B G HK HG ltac:(rewrite HT; exact F) ltac:(rewrite HT; reflexivity)) as (r & Er & Hr).
      rewrite Er. cbn [lift map_out]. eexists _, _. split; [reflexivity|]. split; [intros _; rewrite HT in Hr; eapply is_has; exact Hr|]. exact ST.
  - destruct HL as (HGe & HT). cbn in HR. destruct HR as (m & Em & Cm & Sm).
    assert (HX' : is_mat x (xdim (pgeom qx qy sx sy d)) I) by (rewrite pgeom_dim; exact HX).
    assert (D : t = PAvg \/ t <> PAvg) by (destruct t; [right|right|left]; congruence).
    assert (QD : exists r, q_dx q x g i = Ok r /\ has r d).
    { destruct D as [-> | D].
      + destruct (q_dx_avg q _ x I i m g G OK HGe HT HX' Em HG) as (r & Er & Hr). rewrite pgeom_dim in Hr. eauto using is_has.
      + destruct (Sm D) as (SF & Hm & Se).
        destruct (q_dx_ext q _ x I i m SF g G OK ltac:(rewrite HT; exact D) HX' Em Hm HG Se) as (r & Er & Hr). rewrite pgeom_dim in Hr. eauto using is_has. }
    destruct QD as (r & Er & Hr). unfold q_backward, bind, mget. rewrite Er. cbn [lift map_out].
    exists (LPool q), r. split; [reflexivity|]. split; [auto|]. split; [cbn; auto|]. split; [exact Logic.I|]. split; [exact Logic.I|]. auto.
  - destruct HL as (H1 & H2).
    destruct (a_backward_ok (e_exp E) (e_tanh E) (e_c01 E) ac z g d _ G HZ HG F (pos_iterable d P)) as (r & Er & Hr).
    rewrite H2, Er. cbn [lift]. exists (LAct a), r. split; [reflexivity|]. split; [intros _; eapply is_has; exact Hr|]. split; [cbn; auto|]. split; [exact Logic.I|]. split; [exact Logic.I|]. auto.
Qed.
End Shapes.
