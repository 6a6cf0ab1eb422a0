(** Existence of the objects the layer theorems speak about, construction of layers, and propagateBackward. *)
From Coq Require Import ZArith List Bool Lia Reals Lra.
From Coquelicot Require Import Coquelicot.
From Verif Require Import Base Dim Matrix View Num Expr Spec Iter Sums MatFacts MatThms ExprThms Batch Kernel Connected Pooling
  LayerFacts KernelThms Calc KernelGrad BatchThms ConnectedThms PoolingThms PoolGrad.
Import ListNotations.
Local Open Scope Z_scope.

(** Every function on an index box is the content of a matrix. *)
Lemma mat_exists : forall {T} d (f : Z -> Z -> Z -> T), fits d -> exists m, is_mat m d f.
Proof.
  intros T d f F. pose proof (fits_vol d F) as [V _].
  exists (Mat d (map (fun k => elem_no d f (Z.of_nat k)) (seq 0 (Z.to_nat (vol d))))).
  split; [reflexivity|]. split.
  - cbn [mvals]. rewrite map_length, seq_length. lia.
  - intros x y z I. pose proof (lin_range d x y z I) as R. change (x + dx d * y + dx d * dy d * z) with (lin d x y z).
    unfold cell. cbn [mvals]. destruct (lin d x y z <? 0) eqn:Q; [lia|].
    assert (Q2 : nth_error (seq 0 (Z.to_nat (vol d))) (Z.to_nat (lin d x y z)) = Some (Z.to_nat (lin d x y z))).
    { rewrite (nth_error_nth' _ 0%nat) by (rewrite seq_length; lia). f_equal. rewrite seq_nth by lia. lia. }
    rewrite (map_nth_error _ _ _ Q2). f_equal. rewrite Z2Nat.id by lia. apply elem_no_lin; assumption.
Qed.

Lemma conv_total : forall fx fy C n X Y W B I, 1 <= fx -> 1 <= fy -> 0 <= C -> 0 <= n -> fits (D3 fx fy (C * n)) -> fits (D3 n 1 1) ->
  fits (D3 X Y C) -> fx <= X -> fy <= Y -> fits (D3 (X - fx + 1) (Y - fy + 1) n) -> exists O, conv_gives fx fy C n X Y W B I O.
Proof.
  intros fx fy C n X Y W B I A1 A2 A3 A4 F1 F2 F3 A5 A6 F4.
  destruct (mat_exists _ W F1) as (w & Hw). destruct (mat_exists _ B F2) as (b & Hb). destruct (mat_exists _ I F3) as (x & Hx).
  assert (K : kernel_is (Kern (Par w b [] []) (D3 fx fy C) 1 n) fx fy C n W B) by (unfold kernel_is; cbn; auto 12).
  destruct (k_forward_ok _ x fx fy C n X Y W B I K eq_refl Hx F3 A5 A6 F4) as (o & Eo & Ho).
  eexists. exists (Kern (Par w b [] []) (D3 fx fy C) 1 n), x, o. split; [exact K|]. split; [reflexivity|]. split; [exact Hx|]. split; [exact Eo|exact Ho].
Qed.

Lemma conn_total : forall rand rmax n d W B I, 1 <= n -> 1 <= vol d -> fits d -> fits (D3 n (vol d) 1) -> fits (D3 n 1 1) ->
  exists O, conn_gives rand rmax n (vol d) d W B I O.
Proof.
  intros rand rmax n d W B I A1 A2 F1 F2 F3.
  destruct (mat_exists _ W F2) as (w & Hw). destruct (mat_exists _ B F3) as (b & Hb). destruct (mat_exists _ I F1) as (x & Hx).
  assert (K : conn_is (Conn (Par w b [] []) d true) n (vol d) W B) by (unfold conn_is; cbn; auto 12).
  destruct (c_forward_ready rand rmax sqrt _ n (vol d) W B x d I K Hx F1 eq_refl) as (o & Eo & Ho).
  eexists. exists (Conn (Par w b [] []) d true), x, o. split; [exact K|]. split; [exact Hx|]. split; [exact Eo|exact Ho].
Qed.

Lemma pool_total : forall t g I, geom_ok g -> exists O, pool_gives t g I O.
Proof.
  intros t g I G. assert (F : fits (xdim g)) by apply G.
  destruct (mat_exists _ I F) as (x & Hx).
  set (q := Pool (D3 (g_qx g) (g_qy g) 1) (D3 (g_sx g) (g_sy g) 1) t [mat_empty]).
  assert (HG : has_geom q g) by (repeat split).
  assert (SW := strict_weak_of t).
  destruct t.
  1,2: destruct (q_forward_ext q g x I _ 0 mat_empty G HG eq_refl ltac:(discriminate) SW Hx eq_refl eq_refl) as (o & s & OF & SF & E & Ho & _);
       exists OF, q, x, 0, mat_empty, (with_slot q 0 s), o; repeat (split; [first [assumption|reflexivity]|]); exact Ho.
  destruct (q_forward_avg q g x I 0 mat_empty G HG eq_refl Hx eq_refl eq_refl) as (o & s & E & Ho & _).
  exists (win_mean g I), q, x, 0, mat_empty, (with_slot q 0 s), o. repeat (split; [first [assumption|reflexivity]|]); exact Ho.
Qed.

Section Generic.
Context {T : Type} {N : Num T}.

(** Construction of a convolution layer *)
Theorem k_make_ok : forall rand rmax (sqrtT : T -> T) fx fy C n stride, 1 <= fx -> 1 <= fy -> 1 <= C -> 1 <= n ->
  fits (D3 fx fy (C * n)) -> fits (D3 n 1 1) ->
  exists k, k_make rand rmax sqrtT (D3 fx fy C) n stride = Ok k /\
    kernel_is k fx fy C n (init_val rand rmax sqrtT 0 (D3 fx fy (C * n)))
                          (init_val rand rmax sqrtT (fx * fy * (C * n)) (D3 n 1 1)) /\
    k_stride k = stride /\ p_wg (k_par k) = [] /\ p_bg (k_par k) = [].
Proof.
  intros rand rmax sqrtT fx fy C n stride A1 A2 A3 A4 F1 F2. unfold k_make. cbn [dx dy dz].
  assert (HC : C <= C * n) by nia.
  assert (B1 : 0 <= n < two31) by (destruct F2 as (X1 & _ & _ & X4); unfold vol in X4; cbn [dx dy dz] in *; lia).
  assert (B2 : 0 <= C * n < two31) by (pose proof (fits_vol _ F1); unfold vol in *; cbn [dx dy dz] in *; nia).
  rewrite (u32_id31 C) by lia. rewrite !s32_id by lia.
  destruct (mat_fill_ok (D3 n 1 1) (n0 : T) F2) as (b & Eb & Hb). rewrite Eb. cbn [rbind].
  destruct (mat_fill_ok (D3 fx fy (C * n)) (n0 : T) F1) as (w & Ew & Hw). rewrite Ew. cbn [rbind].
  destruct (init_params_ok rand rmax sqrtT w b _ _ _ _ F1 ltac:(left; cbn; lia) F2 ltac:(left; cbn; lia) Hw Hb) as (w' & b' & E & Iw & Ib).
  rewrite E. cbn [run_state rbind fst snd]. eexists. split; [reflexivity|]. split; [|repeat split].
  unfold kernel_is. cbn [k_w k_b k_par p_w p_b k_dim k_n].
  replace (fx * fy * (C * n)) with (Z.of_nat (it_fuel (D3 fx fy (C * n)))) 
    by (unfold it_fuel; cbn [dx dy dz]; rewrite !Z.max_r by lia; apply Z2Nat.id; apply Z.mul_nonneg_nonneg; lia).
  repeat (split; [first [assumption|lia]|]). repeat split; auto.
Qed.

(** The layer after a gradient pair was stored in slot [i]. *)
Definition store (p : @params T) (i : Z) (dw db : mat T) : params :=
  Par (p_w p) (p_b p) (upd (p_wg p) (Z.to_nat i) dw) (upd (p_bg p) (Z.to_nat i) db).

Lemma vset_ok : forall {A} (l : list A) i v, 0 <= i < Z.of_nat (length l) -> vset l i v = Ok (upd l (Z.to_nat i) v).
Proof. intros A l i v H. unfold vset. destruct (0 <=? i) eqn:Q1; [|lia]. destruct (i <? Z.of_nat (length l)) eqn:Q2; [reflexivity|lia]. Qed.

Theorem k_backward_ok : forall (k : kernel T) x g dw db i last, k_dw k x g = Ok dw -> k_db k g = Ok db ->
  0 <= i < Z.of_nat (length (p_wg (k_par k))) -> 0 <= i < Z.of_nat (length (p_bg (k_par k))) ->
  k_backward x g i last k = lift (if last then Ok mat_empty else k_dx k x g) (with_par k (store (k_par k) i dw db)).
Proof.
  intros k x g dw db i last E1 E2 H1 H2. unfold k_backward, bind, mget. rewrite E1. cbn [lift]. unfold on_par at 1. unfold store_wg.
  rewrite (vset_ok _ _ _ H1), E2. cbn [lift with_par]. unfold on_par, store_bg. cbn [k_par with_par p_bg].
  rewrite (vset_ok _ _ _ H2). destruct last; reflexivity.
Qed.

Theorem c_backward_ok : forall moved (c : connected T) x g dw i last, c_dw moved x g = Ok dw ->
  0 <= i < Z.of_nat (length (p_wg (c_par c))) -> 0 <= i < Z.of_nat (length (p_bg (c_par c))) ->
  c_backward moved x g i last c =
    lift (if last then Ok mat_empty else c_dx moved c g) (Conn (store (c_par c) i dw g) (c_in c) (c_ready c)).
Proof.
  intros moved c x g dw i last E1 H1 H2. unfold c_backward, bind, mget. rewrite E1. cbn [lift]. unfold on_cpar at 1. unfold store_wg.
  rewrite (vset_ok _ _ _ H1). cbn [c_par]. unfold on_cpar, store_bg. cbn [c_par p_bg].
  rewrite (vset_ok _ _ _ H2). destruct last; reflexivity.
Qed.
End Generic.

Lemma step_rate_zero : forall n p (G : Z -> R), step_val 0%R n p G = p.
Proof. intros. unfold step_val. cbn. ring. Qed.

(** Over the real numbers the selected element is the maximum or minimum of its window. *)
Lemma pool_extremum_R : forall t q g x (I : Z -> Z -> Z -> R) slot s0, t <> PAvg -> geom_ok g -> has_geom q g -> q_type q = t ->
  is_mat x (xdim g) I -> vget (q_idx q) slot = Ok s0 -> consistent s0 ->
  exists q' o OF, q_forward x slot q = ORet q' o /\ is_mat o (odim g) OF /\
    forall i j c, inb (odim g) i j c ->
      (exists a b, in_win g i j a b /\ OF i j c = I a b c) /\
      forall a b, in_win g i j a b -> match t with PMin => (OF i j c <= I a b c)%R | _ => (I a b c <= OF i j c)%R end.
Proof.
  intros t q g x I slot s0 NT G HG QT Hx Hs Cs.
  destruct (q_forward_ext q g x I t slot s0 G HG QT NT (strict_weak_of t) Hx Hs Cs) as (o & s & OF & SF & E & Ho & _ & S).
  exists (with_slot q slot s), o, OF. split; [exact E|]. split; [exact Ho|]. intros i j c Hi. destruct (S i j c Hi) as ((Sz & Sw & Sb & _) & Ev).
  split; [exists (dx (SF i j c)), (dy (SF i j c)); split; [exact Sw|exact Ev]|].
  intros a b Hw. specialize (Sb a b Hw). rewrite Ev. unfold better_of, lt_min, lt_max in Sb. cbn in Sb.
  destruct t; [| |congruence]; unfold Rltb in Sb; destruct (Rlt_dec _ _) in Sb; try discriminate; lra.
Qed.
