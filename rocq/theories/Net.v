(** Networks over the real numbers: what a layer and a list of layers compute, and the gradients they produce, as
    explicit functions; the layer operations of Model.v compute these functions. *)
From Coq Require Import ZArith List Bool Lia Reals Lra.
From Coquelicot Require Import Coquelicot.
From Verif Require Import Base Dim Matrix View Num Expr Spec Iter Sums MatFacts MatThms ExprThms Batch Kernel Connected Float32
  FloatFacts Pooling Activation Softmax LayerFacts KernelThms Calc KernelGrad BatchThms ConnectedThms PoolingThms PoolGrad
  ActivationThms SoftmaxThms LayerTotal Chars Model.
Import ListNotations.
Local Open Scope Z_scope.

Definition fn := Z -> Z -> Z -> R.

(** The environment with exact arithmetic; matrices are recorded without rounding. *)
Definition envR (rand : Z -> Z) (rmax : Z) : env R :=
  Env R rand rmax sqrt exp tanh log2 f01 d01 eps32 (fun t => t) false.

(** A layer by its configuration and parameters (softmax is treated separately, as the last layer). *)
Inductive lspec :=
| SConv (fx fy C n : Z) (W B : fn)
| SConn (n : Z) (W B : fn)
| SPool (t : pool_type) (qx qy sx sy : Z)
| SAct (a : act).

Definition pgeom (qx qy sx sy : Z) (d : dim3) : pool_geom := PG qx qy sx sy (dx d) (dy d) (dz d).

(** Output dimensions for input dimensions [d], and the conditions on the shapes *)
Definition s_out (s : lspec) (d : dim3) : dim3 :=
  match s with
  | SConv fx fy C n _ _ => D3 (dx d - fx + 1) (dy d - fy + 1) n
  | SConn n _ _ => D3 n 1 1
  | SPool _ qx qy sx sy => odim (pgeom qx qy sx sy d)
  | SAct _ => d
  end.
Definition s_ok (s : lspec) (d : dim3) : Prop :=
  pos d /\ fits d /\
  match s with
  | SConv fx fy C n _ _ => 1 <= fx <= dx d /\ 1 <= fy <= dy d /\ C = dz d /\ 1 <= n /\
      fits (D3 fx fy (C * n)) /\ fits (D3 n 1 1) /\ fits (D3 (dx d - fx + 1) (dy d - fy + 1) n)
  | SConn n _ _ => 1 <= n /\ fits (D3 n (vol d) 1) /\ fits (D3 n 1 1)
  | SPool _ qx qy sx sy => geom_ok (pgeom qx qy sx sy d)
  | SAct _ => True
  end.
(** The input gradient of a convolution is only computed for square outputs (C25). *)
Definition s_bk (s : lspec) (d : dim3) : Prop :=
  match s with
  | SConv fx fy _ _ _ _ => dx d - fx = dy d - fy /\ fits (D3 (dx d + (dx d - fx)) (dy d + (dy d - fy)) 1)
  | _ => True
  end.

(** The layer object [l] has configuration [s], for inputs of dimensions [d]. *)
Definition l_is (l : layer R) (s : lspec) (d : dim3) : Prop :=
  match l, s with
  | LKernel k, SConv fx fy C n W B => kernel_is k fx fy C n W B /\ k_stride k = 1
  | LConn c, SConn n W B => conn_is c n (vol d) W B /\ c_in c = d
  | LPool q, SPool t qx qy sx sy => has_geom q (pgeom qx qy sx sy d) /\ q_type q = t
  | LAct a, SAct k => a_fun a = k /\ a_der a = k
  | _, _ => False
  end.
(** It has a slot number [i]. *)
Definition slot_ok {T} (l : layer T) (i : Z) : Prop :=
  match l with
  | LKernel k => 0 <= i < Z.of_nat (length (p_wg (k_par k))) /\ 0 <= i < Z.of_nat (length (p_bg (k_par k)))
  | LConn c => 0 <= i < Z.of_nat (length (p_wg (c_par c))) /\ 0 <= i < Z.of_nat (length (p_bg (c_par c)))
  | LPool q => exists s0, vget (q_idx q) i = Ok s0 /\ consistent s0
  | _ => True
  end.

(** A matrix with given content, and the content of a matrix *)
Definition mk_mat {T} (d : dim3) (f : Z -> Z -> Z -> T) : mat T :=
  Mat d (map (fun k => elem_no d f (Z.of_nat k)) (seq 0 (Z.to_nat (vol d)))).
Definition rd {T} (t0 : T) (m : mat T) (x y z : Z) : T := match mread m (D3 x y z) with Ok v => v | _ => t0 end.

Lemma mk_mat_ok : forall {T} d (f : Z -> Z -> Z -> T), fits d -> is_mat (mk_mat d f) d f.
Proof.
  intros T d f F. pose proof (fits_vol d F) as [V _]. unfold mk_mat. split; [reflexivity|]. split.
  - cbn [mvals]. rewrite map_length, seq_length. lia.
  - intros x y z I. pose proof (lin_range d x y z I) as R. change (x + dx d * y + dx d * dy d * z) with (lin d x y z).
    unfold cell. cbn [mvals]. destruct (lin d x y z <? 0) eqn:Q; [lia|].
    assert (Q2 : nth_error (seq 0 (Z.to_nat (vol d))) (Z.to_nat (lin d x y z)) = Some (Z.to_nat (lin d x y z))).
    { rewrite (nth_error_nth' _ 0%nat) by (rewrite seq_length; lia). f_equal. rewrite seq_nth by lia. lia. }
    rewrite (map_nth_error _ _ _ Q2). f_equal. rewrite Z2Nat.id by lia. apply elem_no_lin; assumption.
Qed.
Lemma rd_ok : forall {T} (t0 : T) m d f x y z, is_mat m d f -> fits d -> inb d x y z -> rd t0 m x y z = f x y z.
Proof. intros. unfold rd. rewrite (is_mat_read m d f x y z) by assumption. reflexivity. Qed.
Lemma is_mat_eq : forall {T} (m : mat T) d f g, is_mat m d f -> is_mat m d g -> fits d -> forall x y z, inb d x y z -> f x y z = g x y z.
Proof. intros T m d f g A B F x y z I. pose proof (is_mat_read m d f x y z A F I). pose proof (is_mat_read m d g x y z B F I). congruence. Qed.

(** Pooling by maximum or minimum: a run of the code on a layer with one slot; the selected index of each window *)
Definition pool_sel (t : pool_type) (g : pool_geom) (I : fn) : Z -> Z -> Z -> dim3 :=
  match q_forward (mk_mat (xdim g) I) 0 (Pool (D3 (g_qx g) (g_qy g) 1) (D3 (g_sx g) (g_sy g) 1) t [mat_empty]) with
  | ORet q _ => match q_idx q with m :: _ => rd (D3 0 0 0) m | [] => fun _ _ _ => D3 0 0 0 end
  | _ => fun _ _ _ => D3 0 0 0
  end.

Lemma pool_sel_ok : forall t g I, geom_ok g -> t <> PAvg ->
  forall i j c, inb (odim g) i j c -> selected (better_of t) g I i j c (pool_sel t g I i j c).
Proof.
  intros t g I G NT i j c Hi. unfold pool_sel. assert (F : fits (xdim g)) by apply G.
  set (q := Pool (D3 (g_qx g) (g_qy g) 1) (D3 (g_sx g) (g_sy g) 1) t [mat_empty]).
  destruct (q_forward_ext q g (mk_mat (xdim g) I) I t 0 mat_empty G ltac:(repeat split) eq_refl NT (strict_weak_of t) (mk_mat_ok _ _ F) eq_refl eq_refl)
    as (o & s & OF & SF & E & Ho & Hs & P).
  rewrite E. cbn [with_slot q_idx q upd Z.to_nat]. rewrite (rd_ok _ s (odim g) SF) by (auto using odim_fits). apply P. exact Hi.
Qed.

(** What a layer computes *)
Definition sem (s : lspec) (d : dim3) (I : fn) : fn :=
  match s with
  | SConv fx fy C n W B => fwd_R fx fy C I W B
  | SConn n W B => fun i _ _ => affine (vol d) W B (elem_no d I) i
  | SPool PAvg qx qy sx sy => win_mean (pgeom qx qy sx sy d) I
  | SPool t qx qy sx sy => fun i j c => let p := pool_sel t (pgeom qx qy sx sy d) I i j c in I (dx p) (dy p) c
  | SAct a => fun x y z => act_R a (I x y z)
  end.

(** The gradients it computes from the gradient [G] of its output: input, weights, biases *)
Definition s_dx (s : lspec) (d : dim3) (I G : fn) : fn :=
  match s with
  | SConv fx fy C n W B => dx_elem (dx d - fx + 1) (dy d - fy + 1) fx fy C n W G
  | SConn n W B => fun x y z => rsum n (fun i => (W i (lin d x y z) 0%Z * G i 0%Z 0%Z)%R)
  | SPool PAvg qx qy sx sy => avg_dx (pgeom qx qy sx sy d) G
  | SPool t qx qy sx sy => sel_dx (pgeom qx qy sx sy d) (pool_sel t (pgeom qx qy sx sy d) I) G
  | SAct a => fun x y z => (G x y z * actg_R a (act_R a (I x y z)))%R
  end.
Definition s_wdim (s : lspec) (d : dim3) : dim3 :=
  match s with SConv fx fy C n _ _ => D3 fx fy (C * n) | SConn n _ _ => D3 n (vol d) 1 | _ => D3 0 0 0 end.
Definition s_bdim (s : lspec) : dim3 := match s with SConv _ _ _ n _ _ | SConn n _ _ => D3 n 1 1 | _ => D3 0 0 0 end.
Definition s_dw (s : lspec) (d : dim3) (I G : fn) : fn :=
  match s with
  | SConv fx fy C n W B => dw_elem (dx d - fx + 1) (dy d - fy + 1) C I G
  | SConn n W B => fun i k _ => (0 + G i 0%Z 0%Z * elem_no d I k)%R
  | _ => fun _ _ _ => 0%R
  end.
Definition s_db (s : lspec) (d : dim3) (G : fn) : fn :=
  match s with
  | SConv fx fy C n W B => fun f _ _ =>
      nsum ((dx d - fx + 1) * (dy d - fy + 1) * 1) (elem_no (D3 (dx d - fx + 1) (dy d - fy + 1) 1) (fun x y _ => G x y f))
  | SConn n W B => G
  | _ => fun _ _ _ => 0%R
  end.

(** Parameters *)
Definition s_w (s : lspec) : fn := match s with SConv _ _ _ _ W _ | SConn _ W _ => W | _ => fun _ _ _ => 0%R end.
Definition s_b (s : lspec) : fn := match s with SConv _ _ _ _ _ B | SConn _ _ B => B | _ => fun _ _ _ => 0%R end.
Definition setp (s : lspec) (W B : fn) : lspec :=
  match s with SConv fx fy C n _ _ => SConv fx fy C n W B | SConn n _ _ => SConn n W B | _ => s end.

Lemma s_out_setp : forall s d W B, s_out (setp s W B) d = s_out s d.
Proof. destruct s; reflexivity. Qed.
Lemma s_ok_setp : forall s d W B, s_ok (setp s W B) d <-> s_ok s d.
Proof. destruct s; intros; cbn; tauto. Qed.
Lemma s_ok_out : forall s d, s_ok s d -> pos (s_out s d) /\ fits (s_out s d).
Proof.
  intros s d (P & F & H). destruct s as [fx fy C n W B|n W B|t qx qy sx sy|a]; cbn in *.
  - destruct H as (A1 & A2 & A3 & A4 & F1 & F2 & F3). split; [unfold pos; cbn; lia|exact F3].
  - destruct H as (A1 & F1 & F2). split; [unfold pos; cbn; lia|exact F2].
  - split; [apply odim_pos|apply odim_fits]; exact H.
  - auto.
Qed.
Lemma iterable_pos : forall d, pos d -> iterable d.
Proof. intros d P. left. unfold pos in P. lia. Qed.
Lemma vol_pos1 : forall d, pos d -> 1 <= vol d.
Proof. intros d P. pose proof (vol_pos_of d P). lia. Qed.
Lemma pgeom_dim : forall qx qy sx sy d, xdim (pgeom qx qy sx sy d) = d.
Proof. intros. destruct d. reflexivity. Qed.
Lemma fits_1 : forall X Y Z0, fits (D3 X Y Z0) -> 1 <= Z0 -> fits (D3 X Y 1).
Proof. exact fits_flat. Qed.

(** *** The object computes [sem], and [s_dx], [s_dw], [s_db] *)
Section Object.
Context (rand : Z -> Z) (rmax : Z).
Let E := envR rand rmax.

(** The gradients stored in slot [i] are matrices with contents [DW] and [DB]. *)
Definition stored (l : layer R) (s : lspec) (d : dim3) (i : Z) (DW DB : fn) : Prop :=
  match l with
  | LKernel k => exists gw gb, vget (p_wg (k_par k)) i = Ok gw /\ is_mat gw (s_wdim s d) DW /\
                               vget (p_bg (k_par k)) i = Ok gb /\ is_mat gb (s_bdim s) DB
  | LConn c => exists gw gb, vget (p_wg (c_par c)) i = Ok gw /\ is_mat gw (s_wdim s d) DW /\
                             vget (p_bg (c_par c)) i = Ok gb /\ is_mat gb (s_bdim s) DB
  | _ => True
  end.

Definition params_of {T} (l : layer T) : option (mat T * mat T) :=
  match l with LKernel k => Some (k_w k, k_b k) | LConn c => Some (c_w c, c_b c) | _ => None end.

Lemma slot_vget : forall {A} (l : list A) i, 0 <= i < Z.of_nat (length l) -> exists v, vget l i = Ok v.
Proof.
  intros A l i H. unfold vget. destruct (0 <=? i) eqn:Q1; [|lia]. destruct (i <? Z.of_nat (length l)) eqn:Q2; [|lia]. cbn.
  destruct (nth_error l (Z.to_nat i)) eqn:Q; [eauto|]. apply nth_error_None in Q. lia.
Qed.
Lemma vget_upd_same : forall {A} (l : list A) i v, 0 <= i < Z.of_nat (length l) -> vget (upd l (Z.to_nat i) v) i = Ok v.
Proof. intros A l i v H. destruct (slot_vget l i H) as (v0 & E0). eapply vget_upd_eq. exact E0. Qed.

(** What a backward pass may assume about a layer after the forward pass on input [I] with slot [i] *)
Definition recorded (l : layer R) (s : lspec) (d : dim3) (i : Z) (I : fn) : Prop :=
  match l, s with
  | LPool q, SPool t qx qy sx sy =>
      let g := pgeom qx qy sx sy d in
      exists m, vget (q_idx q) i = Ok m /\ consistent m /\
        (t <> PAvg -> exists SF, is_mat m (odim g) SF /\ forall a b c, inb (odim g) a b c -> selected (better_of t) g I a b c (SF a b c))
  | _, _ => slot_ok l i
  end.

Lemma layer_fwd : forall l s d i x I, l_is l s d -> slot_ok l i -> s_ok s d -> is_mat x d I ->
  exists l' o, l_forward E x i l = ORet l' o /\ is_mat o (s_out s d) (sem s d I) /\ l_is l' s d /\ slot_ok l' i /\
    recorded l' s d i I /\ params_of l' = params_of l /\ (match l with LPool _ => True | _ => l' = l end).
Proof.
  intros l s d i x I HL HS (P & F & OK) HX.
  destruct l as [k|c|q|a|sm]; destruct s as [fx fy C n W B|n W B|t qx qy sx sy|ac]; cbn in HL; try contradiction; cbn [l_forward s_out sem].
  - destruct HL as (HK & HT). destruct OK as (A1 & A2 & A3 & A4 & F1 & F2 & F3).
    assert (HX' : is_mat x (D3 (dx d) (dy d) C) I) by (rewrite A3; destruct d; exact HX).
    assert (F' : fits (D3 (dx d) (dy d) C)) by (rewrite A3; destruct d; exact F).
    destruct (k_forward_ok k x fx fy C n (dx d) (dy d) W B I HK HT HX' F' ltac:(lia) ltac:(lia) F3) as (o & Eo & Ho).
    rewrite Eo. exists (LKernel k), o. repeat (split; [first [reflexivity|exact Ho|cbn; auto]|]). reflexivity.
  - destruct HL as (HK & HT). destruct OK as (A1 & F1 & F2).
    destruct (c_forward_ready rand rmax sqrt c n (vol d) W B x d I HK HX F eq_refl) as (o & Eo & Ho).
    cbn [E envR e_rand e_rmax e_sqrt]. rewrite Eo. exists (LConn c), o. cbn [map_out].
    repeat (split; [first [reflexivity|exact Ho|cbn; auto]|]). reflexivity.
  - destruct HL as (HG & HT). cbn in HS. destruct HS as (s0 & Es & Cs).
    assert (HX' : is_mat x (xdim (pgeom qx qy sx sy d)) I) by (rewrite pgeom_dim; exact HX).
    assert (IS : forall m, vget (q_idx (with_slot q i m)) i = Ok m) by (intros; cbn; eapply vget_upd_eq; exact Es).
    assert (D : t = PAvg \/ t <> PAvg) by (destruct t; [right|right|left]; congruence).
    destruct D as [-> | D].
    + destruct (q_forward_avg q _ x I i s0 OK HG HT HX' Es Cs) as (o & m & Eo & Ho & Cm & _). rewrite Eo.
      exists (LPool (with_slot q i m)), o. cbn [map_out].
      split; [reflexivity|]. split; [exact Ho|]. split; [cbn; auto|]. split; [exists m; auto|].
      split; [exists m; split; [auto|]; split; [assumption|congruence]|]. split; reflexivity.
    + destruct (q_forward_ext q _ x I t i s0 OK HG HT D (strict_weak_of t) HX' Es Cs) as (o & m & OF & SF & Eo & Ho & Hm & S).
      rewrite Eo. exists (LPool (with_slot q i m)), o. cbn [map_out].
      split; [reflexivity|]. split.
      { assert (Ho' : is_mat o (odim (pgeom qx qy sx sy d))
                (fun i0 j c => let p := pool_sel t (pgeom qx qy sx sy d) I i0 j c in I (dx p) (dy p) c)).
        { apply is_mat_extl with OF; [exact Ho|]. intros a b c Hi. destruct (S a b c Hi) as [S1 S2]. cbv zeta.
          rewrite (selected_unique _ _ _ _ _ _ _ _ (pool_sel_ok t _ I OK D a b c Hi) S1). exact S2. }
        destruct t; [exact Ho'|exact Ho'|congruence]. }
      split; [cbn; auto|]. split; [exists m; split; [auto|eapply is_mat_consistent; exact Hm]|].
      split; [exists m; split; [auto|]; split; [eapply is_mat_consistent; exact Hm|]; intros _; exists SF; split; [exact Hm|]; intros; apply S; assumption|].
      split; reflexivity.
  - destruct HL as (H1 & H2).
    destruct (a_forward_ok exp tanh f01 ac x d I HX F (iterable_pos d P)) as (o & Eo & Ho).
    cbn [E envR e_exp e_tanh e_c01f]. rewrite H1, Eo. exists (LAct a), o. cbn [lift].
    repeat (split; [first [reflexivity|exact Ho|cbn; auto]|]). reflexivity.
Qed.

Lemma layer_bwd : forall l s d i x z g I G last, l_is l s d -> s_ok s d -> recorded l s d i I -> (last = false -> s_bk s d) ->
  is_mat x d I -> is_mat z (s_out s d) (sem s d I) -> is_mat g (s_out s d) G ->
  exists l' r, l_backward E x z g i last l = ORet l' r /\ (last = false -> is_mat r d (s_dx s d I G)) /\
    l_is l' s d /\ stored l' s d i (s_dw s d I G) (s_db s d G) /\ params_of l' = params_of l.
Proof.
  intros l s d i x z g I G last HL (P & F & OK) HR HB HX HZ HG.
  destruct l as [k|c|q|a|sm]; destruct s as [fx fy C n W B|n W B|t qx qy sx sy|ac]; cbn in HL; try contradiction; cbn [l_backward s_out] in *.
  - destruct HL as (HK & HT). destruct OK as (A1 & A2 & A3 & A4 & F1 & F2 & F3). cbn in HR. destruct HR as [R1 R2].
    assert (HX' : is_mat x (D3 (dx d) (dy d) C) I) by (rewrite A3; destruct d; exact HX).
    assert (F' : fits (D3 (dx d) (dy d) C)) by (rewrite A3; destruct d; exact F).
    destruct (k_dw_ok k x g fx fy C n (dx d) (dy d) (dx d - fx + 1) (dy d - fy + 1) W B I G HK HX' F' eq_refl eq_refl ltac:(lia) ltac:(lia) HG F3) as (dw & Edw & Hdw).
    destruct (k_db_ok k g fx fy C n (dx d - fx + 1) (dy d - fy + 1) W B G HK ltac:(lia) ltac:(lia) HG F3) as (db & Edb & Hdb).
    rewrite (k_backward_ok k x g dw db i last Edw Edb R1 R2).
    assert (ST : stored (LKernel (with_par k (store (k_par k) i dw db))) (SConv fx fy C n W B) d i
                   (s_dw (SConv fx fy C n W B) d I G) (s_db (SConv fx fy C n W B) d G)).
    { exists dw, db. cbn [with_par k_par store p_wg p_bg]. rewrite !vget_upd_same by assumption. auto. }
    destruct last.
    + cbn [lift map_out]. eexists _, _. split; [reflexivity|]. split; [discriminate|]. split; [cbn; auto|]. split; [exact ST|reflexivity].
    + destruct (HB eq_refl) as [B1 B2].
      assert (F4 : fits (D3 (fx + 2 * (dx d - fx + 1 - 1)) (fy + 2 * (dx d - fx + 1 - 1)) 1)).
      { replace (fx + 2 * (dx d - fx + 1 - 1)) with (dx d + (dx d - fx)) by lia.
        replace (fy + 2 * (dx d - fx + 1 - 1)) with (dy d + (dy d - fy)) by lia. exact B2. }
      assert (B3 : 2 * (dx d - fx + 1 - 1) < two31).
      { pose proof (fits_vol _ F4) as [_ V]. cbn [dx dy] in V.
        set (u := 2 * (dx d - fx + 1 - 1)) in *. assert (0 <= u) by (unfold u; lia).
        assert (fx + u <= (fx + u) * (fy + u)) by (apply Z.le_mul_diag_r; lia). lia. }
      assert (EY : dy d - fy + 1 = dx d - fx + 1) by lia.
      rewrite EY in HG, F3.
      destruct (k_dx_ok k x g fx fy C n (dx d) (dy d) (dx d - fx + 1) W B I G HK HX' F' eq_refl (eq_sym EY) ltac:(lia) B3 HG F3 F4) as (r & Er & Hr).
      rewrite Er. cbn [lift map_out]. eexists _, _. split; [reflexivity|]. split.
      { intros _. cbn [s_dx]. rewrite EY. rewrite A3 in Hr |- *. destruct d; exact Hr. }
      split; [cbn; auto|]. split; [exact ST|reflexivity].
  - destruct HL as (HK & HT). destruct OK as (A1 & F1 & F2). cbn in HR. destruct HR as [R1 R2].
    destruct (c_dw_ok x g n d I G HX F HG A1 (vol_pos1 d P) F2 F1) as (dw & Edw & Hdw).
    cbn [E envR e_moved]. rewrite (c_backward_ok false c x g dw i last Edw R1 R2).
    assert (ST : stored (LConn (Conn (store (c_par c) i dw g) (c_in c) (c_ready c))) (SConn n W B) d i
                   (s_dw (SConn n W B) d I G) (s_db (SConn n W B) d G)).
    { exists dw, g. cbn [c_par store p_wg p_bg]. rewrite !vget_upd_same by assumption. auto. }
    destruct last.
    + cbn [lift map_out]. eexists _, _. split; [reflexivity|]. split; [discriminate|]. split; [cbn; auto|]. split; [exact ST|reflexivity].
    + destruct (c_dx_ok c g n (vol d) W B G HK HG ltac:(rewrite HT; exact F) ltac:(rewrite HT; reflexivity)) as (r & Er & Hr).
      rewrite Er. cbn [lift map_out]. eexists _, _. split; [reflexivity|]. split; [intros _; rewrite HT in Hr; exact Hr|].
      split; [cbn; auto|]. split; [exact ST|reflexivity].
  - destruct HL as (HGe & HT). cbn in HR. destruct HR as (m & Em & Cm & Sm).
    assert (HX' : is_mat x (xdim (pgeom qx qy sx sy d)) I) by (rewrite pgeom_dim; exact HX).
    assert (D : t = PAvg \/ t <> PAvg) by (destruct t; [right|right|left]; congruence).
    unfold q_backward, bind, mget.
    destruct D as [-> | D].
    + destruct (q_dx_avg q _ x I i m g G OK HGe HT HX' Em HG) as (r & Er & Hr). rewrite Er. cbn [lift map_out].
      eexists _, _. split; [reflexivity|]. split; [intros _; rewrite pgeom_dim in Hr; exact Hr|]. split; [cbn; auto|]. split; [exact Logic.I|reflexivity].
    + destruct (Sm D) as (SF & Hm & Se).
      assert (SI : forall a b c, inb (odim (pgeom qx qy sx sy d)) a b c -> inb (xdim (pgeom qx qy sx sy d)) (dx (SF a b c)) (dy (SF a b c)) (dz (SF a b c))).
      { intros a b c Hi. destruct (Se a b c Hi) as (Z1 & W1 & _). rewrite Z1. eapply win_inb; eassumption. }
      destruct (q_dx_ext q _ x I i m SF g G OK ltac:(rewrite HT; exact D) HX' Em Hm HG SI) as (r & Er & Hr). rewrite Er. cbn [lift map_out].
      eexists _, _. split; [reflexivity|]. split.
      { intros _. rewrite pgeom_dim in Hr.
        assert (Hr' : is_mat r d (sel_dx (pgeom qx qy sx sy d) (pool_sel t (pgeom qx qy sx sy d) I) G)).
        { apply is_mat_extl with (1 := Hr). intros a b e Hi. unfold sel_dx. rewrite !scatter_R by (apply odim_fits; exact OK).
          apply rsum3_ext. intros i0 j0 c0 Hi0.
          rewrite (selected_unique _ _ _ _ _ _ _ _ (pool_sel_ok t _ I OK D i0 j0 c0 Hi0) (Se i0 j0 c0 Hi0)). reflexivity. }
        destruct t; [exact Hr'|exact Hr'|congruence]. }
      split; [cbn; auto|]. split; [exact Logic.I|reflexivity].
  - destruct HL as (H1 & H2).
    destruct (a_backward_ok exp tanh d01 ac z g d _ G HZ HG F (iterable_pos d P)) as (r & Er & Hr).
    cbn [E envR e_exp e_tanh e_c01]. rewrite H2, Er. cbn [lift].
    eexists _, _. split; [reflexivity|]. split; [intros _; exact Hr|]. split; [cbn; auto|]. split; [exact Logic.I|reflexivity].
Qed.
End Object.
