(** Property C107: sizes in the text of a layer that are missing or do not fit their type. *)
From Coq Require Import String ZArith List Bool Ascii Lia.
From Verif Require Import Base Dim Matrix View Num Batch Kernel Connected Float32 Pooling Activation Softmax Chars Model Double Stream Text LayerText FreeText FreeSize.
Import ListNotations.
Local Open Scope Z_scope.
Local Notation px x := (place (lit "x") (dec x)).
Local Notation py y := (place (lit "y") (dec y)).
Local Notation pz z := (place (lit "z") (dec z)).
Local Notation pn n := (place (lit "n") (dec n)).

(** [bad_int e old t v]: the text [t] does not start with the label [e] (then [v] is the old value), or it starts with the label
    and a number outside the range of int (then [v] is the nearest int) or something that is no number (then [v] is 0).
    Loading throws runtime_error in all cases. The sizes
    before are stored; the others, the stride and the parameters are not changed. *)
Theorem C107_kernel_partial : forall T (N : Num T) (rd : istream -> option T * istream) (k : kernel T) x y z t v, is_int x -> is_int y -> is_int z ->
  let load t := k_load rd (k, open_text (lit "Kernel" ++ nl ++ t)) in
  let sized d := Kern (k_par k) d (k_stride k) (k_n k) in
  (bad_int (lit "x") (dx (k_dim k)) t v -> exists s, load t = OThrow (sized (D3 v (dy (k_dim k)) (dz (k_dim k))), s) RuntimeError) /\
  (bad_int (lit "y") (dy (k_dim k)) t v -> exists s, load (px x ++ t) = OThrow (sized (D3 x v (dz (k_dim k))), s) RuntimeError) /\
  (bad_int (lit "z") (dz (k_dim k)) t v -> exists s, load (px x ++ py y ++ t) = OThrow (sized (D3 x y v), s) RuntimeError) /\
  (no_label (lit "n") t -> exists s, load (px x ++ py y ++ pz z ++ t) = OThrow (sized (D3 x y z), s) RuntimeError).
Proof. intros T N rd k x y z t v X Y Z1. split; [apply k_bad_x|split; [intros; apply k_bad_y; assumption|split; [intros; apply k_bad_z; assumption|intros; apply k_bad_n; assumption]]]. Qed.
Print Assumptions C107_kernel_partial.
(** The number of filters is read as an unsigned number: a value of 2^32 or more is reported, after storing 2^32 - 1. *)
Theorem C107_count_partial : forall T (N : Num T) (rd : istream -> option T * istream) (k : kernel T) x y z n t, is_int x -> is_int y -> is_int z -> two32 <= Z.abs n ->
  exists s, k_load rd (k, open_text (lit "Kernel" ++ nl ++ px x ++ py y ++ pz z ++ pn n ++ t)) = OThrow (Kern (k_par k) (D3 x y z) (k_stride k) (two32 - 1), s) RuntimeError.
Proof. intros T N rd k x y z n t X Y Z1 H. exact (proj2 (k_count rd k x y z n t X Y Z1) H). Qed.
Print Assumptions C107_count_partial.
(** Something that is no number is reported, after storing 0. *)
Theorem C107_count_word_partial : forall T (N : Num T) (rd : istream -> option T * istream) (k : kernel T) x y z w, is_int x -> is_int y -> is_int z -> word w ->
  exists s, k_load rd (k, open_text (lit "Kernel" ++ nl ++ px x ++ py y ++ pz z ++ lit "n" ++ w)) = OThrow (Kern (k_par k) (D3 x y z) (k_stride k) 0, s) RuntimeError.
Proof. intros T N rd k x y z w X Y Z1 W. exact (k_word rd k x y z w X Y Z1 W). Qed.
Print Assumptions C107_count_word_partial.
(** A text that ends after a label is not reported: the program returns a variable that was never written. *)
Theorem C107_end_refuted : forall T (N : Num T) (rd : istream -> option T * istream) (k : kernel T) x y z w, is_int x -> is_int y -> is_int z -> white w ->
  let load t := k_load rd (k, open_text (lit "Kernel" ++ nl ++ t)) in
  load (lit "x" ++ w) = OUB /\ load (px x ++ lit "y" ++ w) = OUB /\ load (px x ++ py y ++ lit "z" ++ w) = OUB /\ load (px x ++ py y ++ pz z ++ lit "n" ++ w) = OUB.
Proof. intros T N rd k x y z w X Y Z1 W. exact (k_end rd k x y z w X Y Z1 W). Qed.
Print Assumptions C107_end_refuted.
(** A negative number of filters is not reported: it is stored modulo 2^32, and loading goes on with the weights. *)
Theorem C107_count_refuted : forall T (N : Num T) (rd : istream -> option T * istream) (k : kernel T) x y z n t p s b, is_int x -> is_int y -> is_int z -> - two32 < n < 0 ->
  par_load rd (k_par k, open_text t) = ORet (p, s) b ->
  k_load rd (k, open_text (lit "Kernel" ++ nl ++ px x ++ py y ++ pz z ++ pn n ++ t)) = ORet (Kern p (D3 x y z) (k_stride k) (n + two32), s) b.
Proof. intros. apply k_negative; assumption. Qed.
Print Assumptions C107_count_refuted.

(** Pooling layers: [w] is the type in the text. *)
Theorem C107_pool_partial : forall q w x y x' t v, is_int x -> is_int y -> is_int x' ->
  let load t := q_load (q, open_text (lit "Pooling" ++ nl ++ pool_word w ++ nl ++ t)) in
  let sized d e := Pool d e w (q_idx q) in let d := q_dim q in let e := q_stride q in
  (bad_int (lit "x") (dx d) t v -> exists s, load t = OThrow (sized (D3 v (dy d) (dz d)) e, s) RuntimeError) /\
  (bad_int (lit "y") (dy d) t v -> exists s, load (px x ++ t) = OThrow (sized (D3 x v (dz d)) e, s) RuntimeError) /\
  (no_label (lit "stride") t -> exists s, load (px x ++ py y ++ t) = OThrow (sized (D3 x y (dz d)) e, s) RuntimeError) /\
  (bad_int (lit "x") (dx e) t v -> exists s, load (px x ++ py y ++ (lit "stride" ++ nl) ++ t) = OThrow (sized (D3 x y (dz d)) (D3 v (dy e) (dz e)), s) RuntimeError) /\
  (no_label (lit "y") t -> exists s, load (px x ++ py y ++ (lit "stride" ++ nl) ++ px x' ++ t) = OThrow (sized (D3 x y (dz d)) (D3 x' (dy e) (dz e)), s) RuntimeError).
Proof.
  intros q w x y x' t v X Y X'. split; [apply q_bad_x|]. split; [intros; apply q_bad_y; assumption|]. split; [intros; apply q_bad_stride; assumption|].
  split; [intros; apply q_bad_stride_x; assumption|]. apply (q_bad_stride_y q w x y x' t X Y X').
Qed.
Print Assumptions C107_pool_partial.
(** The last number of a pooling layer is accepted even if it does not fit: the nearest int is stored and the result is true. *)
Theorem C107_pool_refuted : forall q w x y x' y' t, is_int x -> is_int y -> is_int x' -> ~ is_int y' ->
  exists s, q_load (q, open_text (lit "Pooling" ++ nl ++ pool_word w ++ nl ++ px x ++ py y ++ (lit "stride" ++ nl) ++ px x' ++ py y' ++ t)) =
    ORet (Pool (D3 x y (dz (q_dim q))) (D3 x' (nearest_int y') (dz (q_stride q))) w (q_idx q), s) true.
Proof. intros q w x y x' y' t X Y X' Y'. exact (proj2 (q_bad_stride_y q w x y x' t X Y X') y' Y'). Qed.
Print Assumptions C107_pool_refuted.
(** So is something that is no number, as 0. *)
Theorem C107_pool_word_refuted : forall q w x y x' u, is_int x -> is_int y -> is_int x' -> word u ->
  exists s, q_load (q, open_text (lit "Pooling" ++ nl ++ pool_word w ++ nl ++ px x ++ py y ++ (lit "stride" ++ nl) ++ px x' ++ lit "y" ++ u)) =
    ORet (Pool (D3 x y (dz (q_dim q))) (D3 x' 0 (dz (q_stride q))) w (q_idx q), s) true.
Proof. exact q_word. Qed.
Print Assumptions C107_pool_word_refuted.
Theorem C107_pool_end_refuted : forall q w x y x' u, is_int x -> is_int y -> is_int x' -> white u ->
  let load t := q_load (q, open_text (lit "Pooling" ++ nl ++ pool_word w ++ nl ++ t)) in
  load (lit "x" ++ u) = OUB /\ load (px x ++ lit "y" ++ u) = OUB /\
  load (px x ++ py y ++ (lit "stride" ++ nl) ++ lit "x" ++ u) = OUB /\ load (px x ++ py y ++ (lit "stride" ++ nl) ++ px x' ++ lit "y" ++ u) = OUB.
Proof. intros q w x y x' u X Y X' U. exact (q_end q w x y x' u X Y X' U). Qed.
Print Assumptions C107_pool_end_refuted.

(** Fully connected layers do not store the sizes in the text: the layer is not changed. *)
Theorem C107_connected : forall T (N : Num T) (rd : istream -> option T * istream) (c : connected T) t v,
  (forall old, bad_int (lit "x") old t v -> exists s, c_load rd (c, open_text (lit "Connected Layer" ++ nl ++ t)) = OThrow (c, s) RuntimeError) /\
  forall x old, is_int x -> bad_int (lit "y") old t v -> exists s, c_load rd (c, open_text (lit "Connected Layer" ++ nl ++ px x ++ t)) = OThrow (c, s) RuntimeError.
Proof. exact c_bad. Qed.
Print Assumptions C107_connected.
Theorem C107_connected_end_refuted : forall T (N : Num T) (rd : istream -> option T * istream) (c : connected T) x w, is_int x -> white w ->
  c_load rd (c, open_text (lit "Connected Layer" ++ nl ++ lit "x" ++ w)) = OUB /\ c_load rd (c, open_text (lit "Connected Layer" ++ nl ++ px x ++ lit "y" ++ w)) = OUB.
Proof. exact c_end. Qed.
Print Assumptions C107_connected_end_refuted.

(** All kinds of bad texts exist, and the examples of the theorems for concrete texts *)
Example C107_ex_bad : bad_int (lit "x") 7 (lit "rows 3" ++ nl) 7 /\ bad_int (lit "x") 7 (lit "x 5000000000" ++ nl) 2147483647.
Proof.
  split; [apply bad_missing; intros (r & Q); discriminate|].
  change (lit "x 5000000000" ++ nl) with (place (lit "x") (dec 5000000000) ++ []). apply (bad_large (lit "x") 7 5000000000 []). unfold is_int, two31. lia.
Qed.
Example C107_ex_kernel :
  k_load (T := Z) (fun s => (None, s)) (Kern (Par mat_empty mat_empty [] []) (D3 7 8 9) 1 2, open_text (lit "Kernel" ++ nl ++ lit "x 3" ++ nl ++ lit "y -5000000000" ++ nl ++ lit "z 1" ++ nl)) =
  OThrow (Kern (Par mat_empty mat_empty [] []) (D3 3 (-2147483648) 9) 1 2, IS (nl ++ lit "z 1" ++ nl) false true) RuntimeError.
Proof. vm_compute. reflexivity. Qed.
Example C107_ex_pool :
  q_load (Pool (D3 7 8 9) (D3 1 1 1) PMin [], open_text (lit "Pooling" ++ nl ++ lit "MAX" ++ nl ++ lit "x 3" ++ nl ++ lit "y 4" ++ nl ++ lit "stride" ++ nl ++ lit "x 2" ++ nl ++ lit "y 5000000000" ++ nl)) =
  ORet (Pool (D3 3 4 9) (D3 2 2147483647 1) PMax [], IS nl false true) true.
Proof. vm_compute. reflexivity. Qed.
Example C107_ex_word : bad_int (lit "x") 7 (lit "x many" ++ nl) 0 /\ word (lit " -" ++ nl) /\ white (lit "  " ++ nl).
Proof.
  split; [|split].
  - apply (bad_word (lit "x") 7 (lit " many" ++ nl)). exists (lit " "), [], (lit "many" ++ nl). split; [reflexivity|]. split; [intros c [<-|[]]; cbn; auto|].
    split; [left; reflexivity|]. split; [discriminate|]. split; [intros [A B]; vm_compute in A, B; first [exact (A eq_refl)|exact (B eq_refl)]|]. intros _ c q Q. injection Q as <- _. split; [discriminate|]. split; [discriminate|].
    intro W. specialize (W "m"%char (or_introl eq_refl)). vm_compute in W. intuition discriminate.
  - exists (lit " "), (lit "-"), nl. split; [reflexivity|]. split; [intros c [<-|[]]; cbn; auto|]. split; [right; right; reflexivity|]. split; [discriminate|]. split; [intros [A B]; vm_compute in A, B; first [exact (A eq_refl)|exact (B eq_refl)]|].
    intro Q. discriminate.
  - intros c [<-|[<-|[<-|[]]]]; cbn; auto.
Qed.
Example C107_ex_count : k_load (T := Z) (fun s => (None, s)) (Kern (Par mat_empty mat_empty [] []) (D3 7 8 9) 1 2, open_text (lit "Kernel" ++ nl ++ lit "x 3" ++ nl ++ lit "y 4" ++ nl ++ lit "z 1" ++ nl ++ lit "n many" ++ nl)) =
  OThrow (Kern (Par mat_empty mat_empty [] []) (D3 3 4 1) 1 0, IS (lit "many" ++ nl) false true) RuntimeError.
Proof. vm_compute. reflexivity. Qed.
