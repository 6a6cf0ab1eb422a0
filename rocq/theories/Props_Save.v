(** Property C95: the layout of saved matrices. *)
From Coq Require Import String ZArith List Bool Ascii Lia Reals Lra.
From Flocq Require Import Core.Core IEEE754.BinarySingleNaN.
From Verif Require Import Base Dim Matrix View Num Expr Spec Iter MatFacts Batch Kernel Connected Float32 Pooling Activation Softmax FloatFacts Chars Double DoubleFacts
  Stream StreamFacts Text TextFacts Model LayerText LoadThms LoadSafe LoadEx Decimal DecimalFacts Report PrintFacts SaveLayout.
Import ListNotations.
Local Open Scope Z_scope.

(** ** C95 *)
(** [line_no t k l]: line [k] of [t] is [l] ([lines]: the pieces between newlines). The first line has the sizes, then every layer
    has one line per row and an empty line; nothing follows. The texts of the elements of a row stand in a field of at least 16
    characters each, to the right, followed by a blank. *)
Theorem C95_lines : forall (m : mat double) d f, is_mat m d f -> fits d ->
  exists t, mat_text put_double m = Ok t /\
    line_no t 0 (dec (dx d) ++ lit " " ++ dec (dy d) ++ lit " " ++ dec (dz d)) /\
    (forall x z, 0 <= x < dx d -> 0 <= z < dz d -> line_no t (1 + z * (dx d + 1) + x) (cat (dy d) (fun y => field (put_double (f x y z))))) /\
    (forall z, 0 <= z < dz d -> line_no t (1 + z * (dx d + 1) + dx d) []) /\
    line_no t (1 + dz d * (dx d + 1)) [] /\ Z.of_nat (length (lines t)) = 2 + dz d * (dx d + 1).
Proof. intros m d f IM F. apply (mat_lines put_double m d f IM F). intros. apply no_nl_put. Qed.
Print Assumptions C95_lines.
(** [slice a n l]: the n characters of l from position a *)
Theorem C95_columns : forall (m : mat double) d f t, is_mat m d f -> fits d -> mat_text put_double m = Ok t ->
  (forall x y z, inb d x y z -> is_finite (f x y z) = true /\ (Rabs (B2R (f x y z)) < 99999999.9999995)%R) ->
  forall x z, 0 <= x < dx d -> 0 <= z < dz d -> exists l, line_no t (1 + z * (dx d + 1) + x) l /\ Z.of_nat (length l) = 17 * dy d /\
    forall y, 0 <= y < dy d -> let w := put_double (f x y z) in
      (length w <= 16)%nat /\ slice (17 * y) 16 l = repeat " "%char (16 - length w) ++ w /\ slice (17 * y + 16) 1 l = lit " ".
Proof.
  intros m d f t IM F TX B x z Hx Hz. pose proof (fits_dims d F) as (DX & DY & DZ).
  destruct (C95_lines m d f IM F) as (t' & TX' & _ & L & _). rewrite TX in TX'. injection TX' as <-. eexists. split; [apply L; assumption|].
  assert (SH : forall y, 0 <= y < dy d -> (length (put_double (f x y z)) <= 16)%nat).
  { intros y Hy. destruct (B x y z ltac:(repeat split; lia)) as [B1 B2]. apply put_short; assumption. }
  destruct (columns (fun y => put_double (f x y z)) (dy d) (proj1 DY) SH) as [C1 C2]. split; [unfold len in C1; rewrite C1; lia|].
  intros y Hy w. split; [apply SH, Hy|]. destruct (C2 y Hy) as [C3 C4]. replace (17 * y) with (y * 17) by lia. auto.
Qed.
Print Assumptions C95_columns.
(** Wider elements move the following columns. *)
Theorem C95_wide_refuted : exists (m : mat double) t l l', mdim m = D3 2 1 1 /\ (forall v, In v (mvals m) -> is_finite v = true) /\ mat_text put_double m = Ok t /\
  line_no t 1 l /\ line_no t 2 l' /\ length l = 17%nat /\ length l' = 19%nat.
Proof.
  exists (Mat (D3 2 1 1) (map cents [100; -100000000000])). do 3 eexists. split; [reflexivity|].
  split; [intros v [<-|[<-|[]]]; reflexivity|]. split; [vm_compute; reflexivity|]. split; [split; [lia|vm_compute; reflexivity]|]. split; [split; [lia|vm_compute; reflexivity]|].
  split; reflexivity.
Qed.
Print Assumptions C95_wide_refuted.
Example C95_ex : exists t, mat_text put_double (Mat (D3 2 2 2) (map cents [125; -250; 7; 0; 100000; 1; 2; -3])) = Ok t /\
  lines t = [lit "2 2 2";
             lit "        1.250000         0.070000 "; lit "       -2.500000         0.000000 "; [];
             lit "     1000.000000         0.020000 "; lit "        0.010000        -0.030000 "; []; []].
Proof. eexists. split; vm_compute; reflexivity. Qed.
