(** Two threads: the result of a training with doubles depends on the order of the steps. *)
From Coq Require Import String ZArith List Bool Lia.
From Flocq Require Import Core.Core IEEE754.BinarySingleNaN.
From Verif Require Import Base Dim Matrix View Num Expr Batch Kernel Connected Float32 Pooling Activation Softmax Chars Model
  Double Train TrainMore.
Import ListNotations.
Local Open Scope Z_scope.

(** Two outputs, one input; all parameters are zero, so exp is only called with 0 (the function below gives NaN otherwise, and
    no NaN occurs in the results). Four data points 1, 2^-53, 2^-53, 0; the gradients are half of these. *)
Definition eps53 : double := @B754_finite prec emax false 4503599627370496 (-105) eq_refl.
Definition o_env : env double := Env double (fun _ => 0) 100 (fun x => x) (fun x => match x with B754_zero _ => n1 | _ => B754_nan end)
  (fun x => x) (fun _ => nsub n0 n1) n0 n0 n0 (fun x => x) false.
Definition o_net : list (layer double) :=
  [LConn (Conn (Par (Mat (D3 2 1 1) [n0; n0]) (Mat (D3 2 1 1) [n0; n0]) [] []) (D3 1 1 1) true); LSoft (sm_make 2)].
Definition o_pt (v : double) : point double Z := Point (Mat (D3 1 1 1) [v]) 0.
Definition o_src : list (point double Z) := [o_pt n1; o_pt eps53; o_pt eps53; o_pt n0].
Definition o_hyper : hyper (T := double) := Hyper n1 4 2 1.
(** The weights of the layer *)
Definition o_weights (ls : list (layer double)) : list SpecFloat.spec_float := match ls with LConn c :: _ => map B2SF (mvals (c_w c)) | _ => [] end.
Local Notation o_start := (match set_batch_all 4 o_net with ORet ls _ => Est ls o_src (repeat None 4) 0 | _ => Est [] [] [] 0 end).
Local Notation o_run s := (run o_env (fun v : double => v) Z.eqb [0; 1] 2 4 s (start o_start [PLoop 0; PLoop 2])).
Definition o_result (s : list nat) : option (list SpecFloat.spec_float) :=
  match o_run s with
  | GNext g => if forallb (fun c => match c with PDone _ => true | _ => false end) (g_pcs g)
               then match apply_all n1 (g_layers g) with ORet ls _ => Some (o_weights ls) | _ => None end else None
  | _ => None
  end.
Lemma o_trains : forall s w, o_result s = Some w -> exists ls,
  train o_env (fun v : double => v) Z.eqb [0; 1] (fun _ => True) o_hyper 4 o_src o_net o_src (ORet ls tt) /\ o_weights ls = w.
Proof.
  intros s w H. unfold o_result in H. destruct (set_batch_all 4 o_net) as [ls0 []| |] eqn:SB; [|vm_compute in SB; discriminate SB|vm_compute in SB; discriminate SB].
  destruct (run o_env (fun v : double => v) Z.eqb [0; 1] 2 4 s (start (Est ls0 o_src (repeat None 4) 0) [PLoop 0; PLoop 2])) as [g| | |] eqn:R; try discriminate.
  destruct (forallb _ (g_pcs g)) eqn:FI; [|discriminate]. destruct (apply_all n1 (g_layers g)) as [ls []| |] eqn:AP; try discriminate. injection H as <-.
  exists ls. split; [|reflexivity]. apply train_run with (ls' := ls0); [exact SB|]. cbn [o_hyper h_epochs]. change (Z.to_nat 1) with 1%nat.
  apply epochs_cons with (e := with_layers (est_of g) ls); [|apply epochs_nil].
  apply epoch_run with (wc := 2) (nb := 1); cbn [o_hyper h_nt h_bs h_lr]; try lia; try reflexivity.
  change (Z.to_nat 1) with 1%nat. change (Z.to_nat 2) with 2%nat. change (Z.to_nat 4) with 4%nat.
  eapply batches_cons; [|apply batches_nil]. replace (ORet (with_layers (est_of g) ls) tt) with (map_out (with_layers (est_of g)) (apply_all n1 (g_layers g))) by (rewrite AP; reflexivity).
  eapply batch_done; [reflexivity|apply run_exec in R; exact R|]. intros c IC. rewrite forallb_forall in FI. specialize (FI c IC). destruct c as [| | | | | | |b]; try discriminate. exists b. reflexivity.
Qed.
(** First thread 0, then thread 1; and thread 1 with the first point, then thread 0, then thread 1 again *)
Definition o_first : list nat := repeat 0%nat 33 ++ repeat 1%nat 33.
Definition o_second : list nat := repeat 1%nat 16 ++ repeat 0%nat 33 ++ repeat 1%nat 17.
Lemma o_differ : o_result o_first = Some [SpecFloat.S754_finite false 4503599627370496 (-55); SpecFloat.S754_finite true 4503599627370496 (-55)] /\
  o_result o_second = Some [SpecFloat.S754_finite false 4503599627370497 (-55); SpecFloat.S754_finite true 4503599627370497 (-55)].
Proof. split; vm_compute; reflexivity. Qed.
Theorem order_matters : exists ls1 ls2,
  train o_env (fun v : double => v) Z.eqb [0; 1] (fun _ => True) o_hyper 4 o_src o_net o_src (ORet ls1 tt) /\
  train o_env (fun v : double => v) Z.eqb [0; 1] (fun _ => True) o_hyper 4 o_src o_net o_src (ORet ls2 tt) /\ o_weights ls1 <> o_weights ls2.
Proof.
  destruct o_differ as [D1 D2]. destruct (o_trains _ _ D1) as (ls1 & T1 & W1). destruct (o_trains _ _ D2) as (ls2 & T2 & W2).
  exists ls1, ls2. split; [exact T1|]. split; [exact T2|]. rewrite W1, W2. discriminate.
Qed.
