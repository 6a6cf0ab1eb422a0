(** setBatchSize for every class of layer and for a model, also with a negative number *)
From Coq Require Import ZArith Bool Lia List.
From Verif Require Import Base Dim Matrix View Num Expr Spec Iter MatFacts Batch Kernel Connected Pooling Activation Softmax Bar Model Train.
Import ListNotations.
Local Open Scope Z_scope.

(** What setBatchSize does not touch *)
Definition same_but_slots {T} (l l' : layer T) : Prop :=
  match l, l' with
  | LKernel k, LKernel k' => k_w k' = k_w k /\ k_b k' = k_b k /\ k_dim k' = k_dim k /\ k_stride k' = k_stride k /\ k_n k' = k_n k
  | LConn c, LConn c' => c_w c' = c_w c /\ c_b c' = c_b c /\ c_in c' = c_in c /\ c_ready c' = c_ready c
  | LPool q, LPool q' => q_dim q' = q_dim q /\ q_stride q' = q_stride q /\ q_type q' = q_type q
  | LAct a, LAct a' => a' = a
  | LSoft s, LSoft s' => s' = s
  | _, _ => False
  end.
(** The slots afterwards: empty gradients, [n] of each; a pooling layer keeps what it has, up to [n]. *)
Definition slots_set {T} (n : Z) (l l' : layer T) : Prop :=
  match l, l' with
  | LKernel k, LKernel k' => Z.of_nat (length (p_wg (k_par k'))) = n /\ Z.of_nat (length (p_bg (k_par k'))) = n /\
      List.Forall (fun g => g = mat_empty) (p_wg (k_par k')) /\ List.Forall (fun g => g = mat_empty) (p_bg (k_par k'))
  | LConn c, LConn c' => Z.of_nat (length (p_wg (c_par c'))) = n /\ Z.of_nat (length (p_bg (c_par c'))) = n /\
      List.Forall (fun g => g = mat_empty) (p_wg (c_par c')) /\ List.Forall (fun g => g = mat_empty) (p_bg (c_par c'))
  | LPool q, LPool q' => Z.of_nat (length (q_idx q')) = n /\
      forall i, 0 <= i < n -> vget (q_idx q') i = if i <? Z.of_nat (length (q_idx q)) then vget (q_idx q) i else Ok mat_empty
  | _, _ => True
  end.
Definition slotted {T} (l : layer T) : bool := match l with LAct _ | LSoft _ => false | _ => true end.

Lemma repeat_all : forall {A} (a : A) n, List.Forall (fun g => g = a) (repeat a n).
Proof. intros A a n. apply Forall_forall. intros x H. eapply repeat_spec. exact H. Qed.

Theorem set_batch_ok : forall {T} n (l : layer T), 0 <= n -> exists l', l_set_batch n l = ORet l' tt /\ same_but_slots l l' /\ slots_set n l l'.
Proof.
  intros T n l H. assert (Q : n <? 0 = false) by lia. destruct l as [k|c|q|a|s]; cbn [l_set_batch]; try rewrite Q.
  - eexists. split; [reflexivity|]. cbn. rewrite repeat_length. repeat split; try apply repeat_all; lia.
  - eexists. split; [reflexivity|]. cbn. rewrite repeat_length. repeat split; try apply repeat_all; lia.
  - unfold q_batch, vec_resize. rewrite Q. cbn. eexists. split; [reflexivity|]. cbn. split; [auto|].
    assert (L : Z.of_nat (length (firstn (Z.to_nat n) (q_idx q) ++ repeat mat_empty (Z.to_nat n - length (q_idx q)))) = n) by (rewrite app_length, firstn_length, repeat_length; lia).
    split; [exact L|]. intros i Hi. unfold vget. rewrite L. replace (0 <=? i) with true by lia. replace (i <? n) with true by lia. cbn [andb].
    destruct (i <? Z.of_nat (length (q_idx q))) eqn:J.
    + rewrite nth_error_app1 by (rewrite firstn_length; lia). rewrite (nth_error_nth' _ mat_empty) by (rewrite firstn_length; lia). rewrite (nth_error_nth' (q_idx q) mat_empty) by lia. f_equal.
      rewrite <- (firstn_skipn (Z.to_nat n) (q_idx q)) at 2. rewrite app_nth1 by (rewrite firstn_length; lia). reflexivity.
    + rewrite nth_error_app2 by (rewrite firstn_length; lia). rewrite (nth_error_nth' _ mat_empty) by (rewrite repeat_length, firstn_length; lia). f_equal. apply nth_repeat.
  - eexists. split; [reflexivity|]. cbn. auto.
  - eexists. split; [reflexivity|]. cbn. auto.
Qed.
Theorem set_batch_negative : forall {T} n (l : layer T), n < 0 -> slotted l = true ->
  exists l', l_set_batch n l = OThrow l' LengthError /\ same_but_slots l l' /\ match l with LPool _ => l' = l | _ => slots_set 0 l l' end.
Proof.
  intros T n l H S. assert (Q : n <? 0 = true) by lia. destruct l as [k|c|q|a|s]; cbn [l_set_batch]; try discriminate S; try rewrite Q.
  - eexists. split; [reflexivity|]. cbn. auto 12.
  - eexists. split; [reflexivity|]. cbn. auto 12.
  - unfold q_batch, vec_resize. rewrite Q. cbn. eexists. split; [reflexivity|]. auto.
Qed.
(** A model: the first layer with slots throws, and no later layer is called. *)
Theorem set_batch_all_negative : forall {T} n (pre : list (layer T)) l post, n < 0 -> List.Forall (fun l => slotted l = false) pre -> slotted l = true ->
  exists l', set_batch_all n (pre ++ l :: post) = OThrow (pre ++ l' :: post) LengthError /\ l_set_batch n l = OThrow l' LengthError.
Proof.
  intros T n pre l post H F S. destruct (set_batch_negative n l H S) as (l' & E & _). exists l'. split; [|exact E]. unfold set_batch_all.
  induction F as [|p pre P F IH]; cbn [app each_layer]; [rewrite E; reflexivity|].
  destruct p as [k|c|q|a|s]; try discriminate P; cbn [l_set_batch]; rewrite IH; reflexivity.
Qed.
Theorem set_batch_all_ok : forall {T} n (ls : list (layer T)), 0 <= n -> exists ls', set_batch_all n ls = ORet ls' tt /\ Forall2 (fun l l' => same_but_slots l l' /\ slots_set n l l') ls ls'.
Proof.
  intros T n ls H. unfold set_batch_all. induction ls as [|l ls (ls' & E & F)]; [exists []; split; [reflexivity|constructor]|].
  destruct (set_batch_ok n l H) as (l' & E1 & Q). exists (l' :: ls'). cbn [each_layer]. rewrite E1, E. split; [reflexivity|constructor; assumption].
Qed.
Lemma set_batch_free : forall {T} n (ls : list (layer T)), List.Forall (fun l => slotted l = false) ls -> set_batch_all n ls = ORet ls tt.
Proof.
  intros T n ls F. unfold set_batch_all. induction F as [|p pre P F IH]; cbn [each_layer]; [reflexivity|].
  destruct p as [k|c|q|a|s]; try discriminate P; cbn [l_set_batch]; rewrite IH; reflexivity.
Qed.
Theorem train_negative : forall {T} {N : Num T} (E : env T) {U L} (cast : U -> T) (eqL : L -> L -> bool) labels P (h : hyper) size src pre l post s o,
  h_bs h < 0 -> List.Forall (fun l => slotted l = false) pre -> slotted l = true -> train E cast eqL labels P h size src (pre ++ l :: post) s o ->
  exists l', o = OThrow (pre ++ l' :: post) LengthError /\ same_but_slots l l' /\ match l with LPool _ => l' = l | _ => slots_set 0 l l' end.
Proof.
  intros T N E U L cast eqL labels P h size src pre l post s o H F S R.
  destruct (set_batch_all_negative (h_bs h) pre l post H F S) as (l' & E1 & E2). destruct (set_batch_negative (h_bs h) l H S) as (l2 & E3 & Q).
  rewrite E2 in E3. injection E3 as <-. exists l'. split; [|exact Q]. inversion R; subst; congruence.
Qed.
