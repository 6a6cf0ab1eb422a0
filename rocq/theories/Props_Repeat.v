(** Property C97: two runs with the same files and random numbers. *)
From Coq Require Import String ZArith List Bool Lia.
From Flocq Require Import Core.Core IEEE754.BinarySingleNaN.
From Verif Require Import Base Dim Matrix View Num Expr Batch Kernel Connected Float32 Pooling Activation Softmax Chars Model
  Double Stream Text Mnist MnistFacts Train TrainRest Main Validate Bar Report Program Repeat RepeatEx.
Import ListNotations.
Local Open Scope Z_scope.

(** ** C97 *)
(** With one thread, for every type of numbers: two executions have the same outcome, also if it is an exception. *)
Theorem C97_train_partial : forall T (N : Num T) (E : env T) U L (cast : U -> T) (eqL : L -> L -> bool) labels P P' h size src ls s o o', h_nt h = 1 ->
  train E cast eqL labels P h size src ls s o -> train E cast eqL labels P' h size src ls s o' -> o = o'.
Proof. exact @train_unique. Qed.
Print Assumptions C97_train_partial.
Theorem C97_validation_partial : forall T (N : Num T) (E : env T) cast labels big limit ei el ls o o',
  validation E cast labels big limit ei el 1 ls o -> validation E cast labels big limit ei el 1 ls o' -> o = o'.
Proof. exact @validation_unique. Qed.
Print Assumptions C97_validation_partial.
(** The whole program: [same_ending e e']: the same exception, both undefined, or the same count, the same saved file and the
    same printed text, except for the number of milliseconds. *)
Theorem C97_main_partial : forall T (N : Num T) (E : env T) cast show showf wr big limit rmax P P' ti tl vi vl u lr rs save e e',
  main_run E cast show showf wr big limit rmax P ti tl vi vl u lr 1 rs save e ->
  main_run E cast show showf wr big limit rmax P' ti tl vi vl u lr 1 rs save e' -> same_ending e e'.
Proof. exact @main_unique. Qed.
Print Assumptions C97_main_partial.
(** With two threads and doubles: four data points in one batch, in two orders of the threads. Each thread finishes a data point
    before the other one takes the next: the labels are not mixed up. *)
Theorem C97_threads_refuted : exists (E : env double) (ls ls1 ls2 : list (layer double)) (src : list (point double Z)) h, h_nt h = 2 /\ h_bs h = 4 /\ length src = 4%nat /\
  train E (fun v : double => v) Z.eqb [0; 1] (fun _ => True) h 4 src ls src (ORet ls1 tt) /\
  train E (fun v : double => v) Z.eqb [0; 1] (fun _ => True) h 4 src ls src (ORet ls2 tt) /\ ls1 <> ls2.
Proof.
  destruct order_matters as (ls1 & ls2 & T1 & T2 & D). exists o_env, o_net, ls1, ls2, o_src, o_hyper.
  split; [reflexivity|]. split; [reflexivity|]. split; [reflexivity|]. split; [exact T1|]. split; [exact T2|]. intros ->. exact (D eq_refl).
Qed.
Print Assumptions C97_threads_refuted.
(** The weights in the last digit: 1/8 and 1/8 + 2^-55 *)
Example C97_ex : o_result o_first = Some [SpecFloat.S754_finite false 4503599627370496 (-55); SpecFloat.S754_finite true 4503599627370496 (-55)] /\
  o_result o_second = Some [SpecFloat.S754_finite false 4503599627370497 (-55); SpecFloat.S754_finite true 4503599627370497 (-55)].
Proof. exact o_differ. Qed.
