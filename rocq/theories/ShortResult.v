(** Results with fewer matrices than the network has layers, and one more (ModelDescription.tpp 209-210). *)
From Coq Require Import ZArith List Bool Lia.
From Verif Require Import Base Dim Matrix View Num Expr Spec Iter Sums MatFacts MatThms ViewThms ExprThms Batch Kernel Connected Float32
  FloatFacts Pooling Activation Softmax LayerFacts KernelThms KernelGrad BatchThms ConnectedThms PoolingThms PoolGrad ActivationThms
  SoftmaxThms LayerTotal Chars Model Net NetPass NetGrad ModelThms Train TrainLocal TrainRest TrainNet TrainSgd Shapes ShapeNet.
Import ListNotations.
Local Open Scope Z_scope.
Section Short.
Context {T : Type} {N : Num T} (E : env T).
Theorem few_records : forall r rs p d idx slot ls sm, r_inputs r = rs ++ [p] -> has p d -> pos d -> fits d -> 0 <= idx < vol d -> idx < sm_count sm ->
  (length rs <= length ls)%nat -> backward_pass E r idx slot (ls ++ [LSoft sm]) = OThrow (ls ++ [LSoft (Soft true idx (sm_count sm))]) OutOfRange.
Proof.
  intros r rs p d idx slot ls sm EI HP P F HI HC LE. unfold backward_pass, bind, assign_loss. rewrite EI, rev_app_distr. cbn [rev app].
  destruct (copies E p d HP P F) as [_ (q & EQ & HQ)]. rewrite EQ. cbn [rbind]. destruct (has_is q d HQ P F) as (f & Hf).
  destruct (loss_total (e_log2 E) (e_eps E) (e_rnd E) q d f idx Hf F P HI) as [v EV]. rewrite EV. cbn [rbind lift r_inputs].
  unfold backward_tail, bind, hand_over. rewrite rev_app_distr. cbn [rev app].
  unfold on_nth at 1. rewrite app_length. cbn [length]. replace (length ls + 1 - 1)%nat with (length ls) by lia.
  rewrite nth_error_app2, Nat.sub_diag by lia. cbn [nth_error]. unfold sm_assign. destruct (sm_count sm <=? idx) eqn:Q; [lia|]. cbn [map_out].
  assert (U : upd (ls ++ [LSoft sm]) (length ls) (LSoft (T := T) (Soft true idx (sm_count sm))) = ls ++ [LSoft (Soft true idx (sm_count sm))]).
  { clear. induction ls; cbn; [reflexivity|]. rewrite IHls. reflexivity. }
  rewrite U. cbn [mget]. rewrite app_length. cbn [length]. replace (length ls + 1)%nat with (S (length ls)) by lia. cbn [bwd_layers]. unfold bind, vat, lift.
  destruct (nth_error (rs ++ [p]) (length ls)); [|reflexivity].
  destruct (nth_error (rs ++ [p]) (S (length ls))) eqn:N2; [|reflexivity].
  exfalso. assert (B : (S (length ls) < length (rs ++ [p]))%nat) by (apply nth_error_Some; congruence). rewrite app_length in B. cbn in B. lia.
Qed.

(** After a forward pass of a smaller network *)
Theorem smaller_result : forall body sm ss d n i U (cast : U -> T) (input : mat U) ls' r,
  net_fit body ss d -> sm_count sm = n -> List.Forall (fun l => index_slot l i) body -> h_net_ok ss d -> labels_ok (h_net_out ss d) n -> has input d ->
  forward_pass E cast n input i (body ++ [LSoft sm]) = ORet ls' r ->
  forall idx slot ls sm2, 0 <= idx < n -> sm_count sm2 = n -> (length body < length ls)%nat ->
  backward_pass E r idx slot (ls ++ [LSoft sm2]) = OThrow (ls ++ [LSoft (Soft true idx n)]) OutOfRange.
Proof.
  intros body sm ss d n i U cast input ls' r NF SC IX OK LO HX FW idx slot ls sm2 HI SC2 LE.
  destruct (forward_total E body sm ss d n i U cast input NF SC IX OK LO HX) as (body' & x0 & rs & p & r' & FW' & EI & _ & RH & HP & _).
  rewrite FW in FW'. injection FW' as _ <-. destruct (h_net_end ss d OK) as [P F].
  destruct (forward_records E _ _ _ _ _ _ _ _ FW) as (_ & x & rs' & o & c & L1 & _ & _ & (r0 & _ & EI') & _).
  assert (LR : length (x0 :: rs) = S (length body)).
  { rewrite EI in EI'. injection EI' as _ E2. rewrite <- E2, !app_length in L1. cbn [length] in *. lia. }
  rewrite <- SC2. apply (few_records r (x0 :: rs) p (h_net_out ss d)); auto; try (cbn [length]; lia); try lia.
  destruct LO. lia.
Qed.
End Short.
