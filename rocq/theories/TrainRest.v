(** The steps of a worker on one data point, run without other threads, are forwardPropagation and backwardsPropagation
    of Model.v. *)
From Coq Require Import ZArith List Bool Lia.
From Verif Require Import Base Dim Matrix View Num Expr Iter MatFacts Batch Kernel Connected Float32 Pooling Activation Softmax
  Chars Model Net ModelThms Train TrainLocal.
Import ListNotations.
Local Open Scope Z_scope.

Lemma bind_assoc : forall {S A B C} (m : M S A) (f : A -> M S B) (g : B -> M S C) s, bind (bind m f) g s = bind m (fun a => bind (f a) g) s.
Proof. intros. unfold bind. destruct (m s); reflexivity. Qed.
Lemma bind_ext : forall {S A B} (m : M S A) (f g : A -> M S B) s, (forall a s', f a s' = g a s') -> bind m f s = bind m g s.
Proof. intros. unfold bind. destruct (m s); auto. Qed.
Lemma bind_cong : forall {S A B} (m m' : M S A) (f g : A -> M S B) s, m s = m' s -> (forall a s', f a s' = g a s') -> bind m f s = bind m' g s.
Proof. intros S A B m m' f g s H K. unfold bind. rewrite H. destruct (m' s); auto. Qed.

Section Rest.
Context {T : Type} {N : Num T} (E : env T).
Context {U L : Type} (cast : U -> T) (eqL : L -> L -> bool) (labels : list L).
Context (slot : Z) (p : point U L).

Local Notation idx := (label_idx eqL labels p).
Local Notation nl := (Z.of_nat (length labels)).

(** A step, with the label [k] handed over to the output layer *)
Definition pstep (k : Z) (w : work (T := T)) : M (list (layer T)) work :=
  match w with
  | WHand r => (hand_over k ;; ls <- mget ;; ret (WBwd (length ls) mat_empty r))%st
  | _ => wstep E cast eqL labels slot p w
  end.

(** The states reached without other threads *)
Inductive priv (k : Z) (ls0 : list (layer T)) : list (layer T) -> work -> Prop :=
| priv_start : priv k ls0 ls0 WStart
| priv_step : forall ls w ls' w', priv k ls0 ls w -> pstep k w ls = ORet ls' w' -> priv k ls0 ls' w'.

(** What is still to do *)
Definition fwd_from (i : nat) (x : mat T) : M (list (layer T)) (list (mat T) * mat T) := fun ls =>
  map_out (app (firstn i ls)) (fwd_layers E (skipn i ls) x slot).
Definition back (k : Z) (r : results T) : M (list (layer T)) (results T) :=
  (r' <- lift (assign_loss E r idx) ;; backward_tail E (r_inputs r') k slot ;; ret r')%st.
Definition finish (x : mat T) (recs : list (mat T)) : M (list (layer T)) (results T) :=
  (n <- lift (base_size (mdim x)) ;;
   (if n =? nl then ret tt else mthrow AssertFail) ;;
   k <- lift (max_index x) ;;
   v <- lift (mread_flat x k) ;;
   ret (Results k 0 (nsub n0 n1) (e_rnd E v) recs))%st.
Definition rest (k : Z) (w : work) : M (list (layer T)) (results T) :=
  match w with
  | WStart => (r <- forward_pass E cast nl (pt_data p) slot ;; back k r)%st
  | WFwd i x recs => (ro <- fwd_from i x ;; r <- finish (snd ro) (recs ++ fst ro) ;; back k r)%st
  | WBack r => back k r
  | WHand r => (backward_tail E (r_inputs r) k slot ;; ret r)%st
  | WBwd n g r => (bwd_layers E n (r_inputs r) g slot ;; ret r)%st
  | WEnd r => ret r
  end.

Lemma fwd_from_none : forall i x ls, nth_error ls i = None -> fwd_from i x ls = ORet ls ([], x).
Proof.
  intros i x ls H. apply nth_error_None in H. unfold fwd_from. rewrite skipn_all2 by lia. cbn. rewrite firstn_all2 by lia. rewrite app_nil_r. reflexivity.
Qed.
Lemma split_nth : forall {A} (ls : list A) i l, nth_error ls i = Some l -> ls = firstn i ls ++ l :: skipn (S i) ls /\ length (firstn i ls) = i.
Proof.
  intros A. induction ls as [|a ls IH]; intros [|i] l H; try discriminate.
  - injection H as ->. auto.
  - cbn in H. destruct (IH i l H) as [A1 A2]. cbn. split; [f_equal; exact A1|f_equal; exact A2].
Qed.
Lemma upd_mid : forall {A} (a b : list A) x v, upd (a ++ x :: b) (length a) v = a ++ v :: b.
Proof. induction a; intros; cbn; [reflexivity|]. f_equal. apply IHa. Qed.
Lemma fwd_from_some : forall i x ls l, nth_error ls i = Some l -> fwd_from i x ls =
  (y <- on_nth i (l_forward E x slot) ;; r <- lift (float_copy E y) ;; ro <- fwd_from (S i) y ;; ret (r :: fst ro, snd ro))%st ls.
Proof.
  intros i x ls l H. destruct (split_nth ls i l H) as [EQ LE].
  assert (SK : skipn i ls = l :: skipn (S i) ls).
  { rewrite EQ at 1. rewrite skipn_app, LE, Nat.sub_diag. rewrite skipn_all2 by lia. reflexivity. }
  unfold fwd_from at 1. rewrite SK. cbn [fwd_layers]. unfold on_nth, bind. rewrite H.
  assert (UP : forall l', upd ls i l' = firstn i ls ++ l' :: skipn (S i) ls).
  { intros l'. rewrite EQ at 1. pose proof (upd_mid (firstn i ls) (skipn (S i) ls) l l') as UM. rewrite LE in UM. exact UM. }
  destruct (l_forward E x slot l) as [l' y|l' e|]; cbn [map_out]; [|rewrite UP; reflexivity|reflexivity].
  destruct (float_copy E y) as [r|e|]; cbn [lift]; [|cbn [map_out]; rewrite UP; reflexivity|reflexivity].
  unfold fwd_from. rewrite UP.
  assert (F1 : firstn (S i) (firstn i ls ++ l' :: skipn (S i) ls) = firstn i ls ++ [l']).
  { rewrite firstn_app, LE. rewrite firstn_firstn. replace (Nat.min (S i) i) with i by lia. replace (S i - i)%nat with 1%nat by lia. reflexivity. }
  assert (F2 : skipn (S i) (firstn i ls ++ l' :: skipn (S i) ls) = skipn (S i) ls).
  { rewrite skipn_app, LE. rewrite skipn_all2 by (rewrite LE; lia). replace (S i - i)%nat with 1%nat by lia. reflexivity. }
  rewrite F1, F2. destruct (fwd_layers E (skipn (S i) ls) y slot) as [t [rs o]|t e|]; cbn [map_out fst snd ret]; rewrite <- ?app_assoc; reflexivity.
Qed.

Ltac assoc := repeat (rewrite bind_assoc; apply bind_ext; intros).

Lemma rest_step : forall k w ls, rest k w ls = (w' <- pstep k w ;; rest k w')%st ls.
Proof.
  intros k w ls. destruct w as [|i x recs|r|r|n g r|r]; cbn [pstep wstep].
  - cbn [rest]. unfold forward_pass. rewrite !bind_assoc. apply bind_ext. intros x s. rewrite !bind_assoc. apply bind_ext. intros r0 s1.
    rewrite !bind_assoc. change (bind (ret (WFwd 0 x [r0])) (fun w' => rest k w') s1) with (rest k (WFwd 0 x [r0]) s1). cbn [rest].
    apply bind_cong.
    { unfold fwd_from. cbn [firstn skipn]. destruct (fwd_layers E s1 x slot); reflexivity. }
    intros [rs o] t. unfold finish. cbn [fst snd]. rewrite !bind_assoc. apply bind_ext. intros n s2. rewrite !bind_assoc. apply bind_ext. intros u s3.
    rewrite !bind_assoc. apply bind_ext. intros k0 s4. rewrite !bind_assoc. apply bind_ext. intros v s5. reflexivity.
  - cbn [rest]. destruct (nth_error ls i) as [l|] eqn:Q.
    + transitivity ((ro <- (y <- on_nth i (l_forward E x slot);; r <- lift (float_copy E y);; ro <- fwd_from (S i) y;; ret (r :: fst ro, snd ro));;
         r <- finish (snd ro) (recs ++ fst ro) ;; back k r)%st ls).
      { apply bind_cong; [apply (fwd_from_some i x ls l Q)|reflexivity]. }
      transitivity ((w' <- (y <- on_nth i (l_forward E x slot);; r <- lift (float_copy E y);; ret (WFwd (S i) y (recs ++ [r]))) ;; rest k w')%st ls);
        [|apply bind_cong; [rewrite Q; reflexivity|reflexivity]].
      rewrite !bind_assoc. apply bind_ext. intros y s1. rewrite !bind_assoc. apply bind_ext. intros r s2. rewrite !bind_assoc.
      change (bind (ret (WFwd (S i) y (recs ++ [r]))) (fun w' => rest k w') s2) with (rest k (WFwd (S i) y (recs ++ [r])) s2). cbn [rest].
      apply bind_ext. intros ro s3. unfold bind at 1. cbn [ret fst snd]. rewrite <- app_assoc. reflexivity.
    + transitivity ((r <- finish x recs ;; back k r)%st ls).
      { unfold bind at 1. rewrite (fwd_from_none i x ls Q). cbn [fst snd]. rewrite app_nil_r. reflexivity. }
      transitivity ((w' <- (n <- lift (base_size (mdim x));; (if n =? nl then ret tt else mthrow AssertFail);; k0 <- lift (max_index x);; v <- lift (mread_flat x k0);;
           ret (WBack (Results k0 0 (nsub n0 n1) (e_rnd E v) recs))) ;; rest k w')%st ls);
        [|apply bind_cong; [rewrite Q; reflexivity|reflexivity]].
      unfold finish. rewrite !bind_assoc. apply bind_ext. intros n s1. rewrite !bind_assoc. apply bind_ext. intros u s2.
      rewrite !bind_assoc. apply bind_ext. intros k0 s3. rewrite !bind_assoc. apply bind_ext. intros v s4. reflexivity.
  - cbn [rest]. unfold back. rewrite !bind_assoc. apply bind_ext. intros r' s. reflexivity.
  - cbn [rest]. unfold backward_tail. rewrite !bind_assoc. apply bind_ext. intros u s. rewrite !bind_assoc. apply bind_ext. intros ls1 s1.
    rewrite !bind_assoc. reflexivity.
  - destruct n as [|i].
    + reflexivity.
    + cbn [rest]. cbn [bwd_layers]. rewrite !bind_assoc. apply bind_ext. intros x s. rewrite !bind_assoc. apply bind_ext. intros z s1.
      rewrite !bind_assoc. apply bind_ext. intros x1 s2. rewrite !bind_assoc. apply bind_ext. intros z1 s3. rewrite !bind_assoc. reflexivity.
  - reflexivity.
Qed.

Theorem priv_rest : forall k ls0 ls w, priv k ls0 ls w -> rest k WStart ls0 = rest k w ls.
Proof.
  intros k ls0 ls w H. induction H as [|ls w ls' w' H IH ST]; [reflexivity|]. rewrite IH, rest_step. unfold bind. rewrite ST. reflexivity.
Qed.

(** A finished run: the two calls of lines 251 and 252, with label [k] *)
Theorem priv_end : forall k ls0 ls r, priv k ls0 ls (WEnd r) ->
  exists ls1 r1, forward_pass E cast nl (pt_data p) slot ls0 = ORet ls1 r1 /\ assign_loss E r1 idx = Ok r /\
    backward_tail E (r_inputs r) k slot ls1 = ORet ls tt.
Proof.
  intros k ls0 ls r H. apply priv_rest in H. cbn [rest] in H. unfold ret in H. unfold bind in H.
  destruct (forward_pass E cast nl (pt_data p) slot ls0) as [ls1 r1| |]; try discriminate.
  unfold back, bind, lift in H. destruct (assign_loss E r1 idx) as [r2| |] eqn:QA; try discriminate.
  destruct (backward_tail E (r_inputs r2) k slot ls1) as [ls2 []| |] eqn:QB; try discriminate. cbn in H. injection H as <- <-. eauto.
Qed.
(** With its own label it is the call of backwardsPropagation. *)
Lemma priv_end_own : forall ls0 ls r, priv idx ls0 ls (WEnd r) ->
  exists ls1 r1, forward_pass E cast nl (pt_data p) slot ls0 = ORet ls1 r1 /\ backward_pass E r1 idx slot ls1 = ORet ls r.
Proof.
  intros ls0 ls r H. destruct (priv_end _ _ _ _ H) as (ls1 & r1 & A & B & C). exists ls1, r1. split; [exact A|].
  unfold backward_pass, bind. rewrite B. cbn [lift]. rewrite C. reflexivity.
Qed.

(** If the two calls succeed then every step does. *)
Theorem priv_progress : forall k ls0 ls w lsf rf, rest k WStart ls0 = ORet lsf rf -> priv k ls0 ls w -> exists ls' w', pstep k w ls = ORet ls' w'.
Proof.
  intros k ls0 ls w lsf rf H P. rewrite (priv_rest _ _ _ _ P), rest_step in H. unfold bind in H. destruct (pstep k w ls); try discriminate. eauto.
Qed.

Lemma assign_true : forall r1 r, assign_loss E r1 idx = Ok r -> r_true r = idx /\ r_label r = r_label r1.
Proof.
  intros r1 r H. unfold assign_loss in H. destruct (rev (r_inputs r1)); try discriminate. destruct (double_copy m); cbn in H; try discriminate.
  destruct (loss_fcn _ _ _ a idx); cbn in H; try discriminate. injection H as <-. auto.
Qed.
Lemma priv_hand : forall k ls0 ls w r, priv k ls0 ls w -> w = WHand r \/ (exists n g, w = WBwd n g r) \/ w = WEnd r -> r_true r = idx.
Proof.
  intros k ls0 ls w r H. revert r. induction H as [|ls w ls' w' H IH ST]; intros r D.
  - destruct D as [D|[(n & g & D)|D]]; discriminate.
  - destruct w as [|i x recs|r0|r0|n g r0|r0]; cbn [pstep wstep] in ST.
    + unfold bind in ST. destruct (mat_of_lz _ _ _ _); cbn in ST; try discriminate. destruct (float_copy E a); cbn in ST; try discriminate.
      injection ST as <- <-. destruct D as [D|[(n & g & D)|D]]; discriminate.
    + destruct (nth_error ls i); unfold bind in ST.
      * destruct (on_nth i (l_forward E x slot) ls); try discriminate. destruct (float_copy E a); cbn in ST; try discriminate.
        injection ST as <- <-. destruct D as [D|[(n & g & D)|D]]; discriminate.
      * destruct (base_size (mdim x)); cbn in ST; try discriminate. destruct (a =? nl); cbn in ST; try discriminate.
        destruct (max_index x); cbn in ST; try discriminate. destruct (mread_flat x a0); cbn in ST; try discriminate.
        injection ST as <- <-. destruct D as [D|[(n & g & D)|D]]; discriminate.
    + unfold bind in ST. destruct (assign_loss E r0 idx) eqn:Q; cbn in ST; try discriminate. injection ST as <- <-.
      destruct D as [D|[(n & g & D)|D]]; try discriminate. injection D as ->. eapply assign_true. exact Q.
    + unfold bind in ST. destruct (hand_over k ls); cbn in ST; try discriminate. injection ST as <- <-.
      destruct D as [D|[(n & g & D)|D]]; try discriminate. injection D as _ _ ->. apply IH. auto.
    + destruct n as [|n].
      * injection ST as <- <-. destruct D as [D|[(n & g' & D)|D]]; try discriminate. injection D as ->. apply IH. eauto.
      * unfold bind in ST. destruct (vat (r_inputs r0) n); cbn in ST; try discriminate. destruct (vat (r_inputs r0) (S n)); cbn in ST; try discriminate.
        destruct (double_copy a); cbn in ST; try discriminate. destruct (double_copy a0); cbn in ST; try discriminate.
        destruct (on_nth n _ ls); cbn in ST; try discriminate. injection ST as <- <-.
        destruct D as [D|[(n1' & g' & D)|D]]; try discriminate. injection D as _ _ ->. apply IH. eauto.
    + injection ST as <- <-. destruct D as [D|[(n & g & D)|D]]; try discriminate. injection D as ->. apply IH. auto.
Qed.
End Rest.
