(** Theorems about files that are too short: C99. *)
From Coq Require Import String ZArith Bool Lia List.
From Verif Require Import Base Dim Matrix View Num Expr Spec MatFacts Batch Kernel Connected Float32 Pooling Activation Softmax
  Chars Double Bar Stream Text Model Mnist MnistFacts MnistCut Train Main Validate Report Program ProgramFeed ModelThms Shapes ValidateThms Truncated ValidateCut
  Props_Model Props_Data Props_Validate Props_Report.
Import ListNotations.
Local Open Scope Z_scope.

(** ** C99. [cut limit n m h w fi fl]: the headers of the two files promise [n] images of h rows and w columns, the first [m] of
    them and their labels are there, and the next image or its label is not complete. *)
(** The reader gives the images that are there, *)
Theorem C99_read : forall big limit n m h w fi fl, cut limit n m h w fi fl -> forall i, 0 <= i < m ->
  exists img, next_image big (Reader (at_pos fi (16 + i * h * w)) (at_pos fl (8 + i)) n w h i) =
    ORet (Reader (at_pos fi (16 + (i + 1) * h * w)) (at_pos fl (8 + (i + 1))) n w h (i + 1)) img /\ image_no h w fi fl i img.
Proof. exact cut_next. Qed.
Print Assumptions C99_read.
(** Refuted: but the read of the next one is not reported. It uses numbers that were never read. *)
Theorem C99_reader_refuted : forall big limit n m h w fi fl, cut limit n m h w fi fl ->
  next_image big (Reader (at_pos fi (16 + m * h * w)) (at_pos fl (8 + m)) n w h m) = OUB.
Proof. exact cut_stop. Qed.
Print Assumptions C99_reader_refuted.
(** Refuted for the program: with one thread, a short training file makes its behaviour undefined, whatever the other files
    are. The labels that are there are digits. *)
Theorem C99_refuted : forall T (N : Num T) (E : env T), e_moved E = false ->
  forall cast show showf wr big limit rmax n m ti tl, cut limit n m 28 28 ti tl -> n <= 2 ^ 24 -> (forall i, 1 <= i < m -> f_byte tl (8 + i) < 10) ->
  forall P vi vl u lr rs save e, main_run E cast show showf wr big limit rmax P (Readable ti) (Readable tl) vi vl u lr 1 rs save e -> e = Undefined.
Proof. exact @main_truncated. Qed.
Print Assumptions C99_refuted.
Theorem C99_exists : forall T (N : Num T) (E : env T), e_moved E = false ->
  forall cast show showf wr big limit rmax n m ti tl, cut limit n m 28 28 ti tl -> n <= 2 ^ 24 -> (forall i, 1 <= i < m -> f_byte tl (8 + i) < 10) ->
  forall vi vl u lr rs save, main_run E cast show showf wr big limit rmax (fun _ => True) (Readable ti) (Readable tl) vi vl u lr 1 rs save Undefined.
Proof. exact @main_truncated_runs. Qed.
Print Assumptions C99_exists.
(** An opened reader has exactly one sequence of data points, whatever its files hold after the headers; so the program is
    defined for all such files. *)
Theorem C99_feed : forall big r, fits (D3 (r_height r) (r_width r) 1) -> 0 <= r_cur r <= r_num r -> r_num r < two31 ->
  exists ps, feed big r ps /\ forall ps', feed big r ps' -> ps' = ps.
Proof.
  intros big r F C N. destruct (feed_total big (Z.to_nat (r_num r - r_cur r)) r F) as [ps H]; [lia..|]. exists ps. split; [exact H|].
  intros ps' H'. exact (feed_fun _ _ _ _ H' H).
Qed.
Print Assumptions C99_feed.
(** 33 images are promised, the file of images ends in the middle of the fifth one. *)
Definition tx_images : file := File (16 + 4 * 784 + 100) (f_byte (rx_images 33)).
Lemma tx_cut : cut (2 ^ 62) 33 4 28 28 tx_images (rx_labels 33).
Proof.
  pose proof (rx_mnist 33 (or_introl eq_refl)) as M.
  split; try (match goal with |- forall _, _ => fail 1 | |- _ \/ _ => fail 1 | _ => idtac end; vm_compute; intuition congruence).
  - left. reflexivity.
  - exact (mn_bytes _ _ _ _ _ _ M).
Qed.
Example C99_ex : forall u save vi vl e, main_run ex_env vx_cast (fun v => dec v) (fun _ => []) (fun v => dec v) true (2 ^ 62) 2147483647 (fun _ => True)
    (Readable tx_images) (Readable (rx_labels 33)) vi vl u 1 1 [5; 6; 7; 8; 9] save e -> e = Undefined.
Proof.
  intros u save vi vl e. apply (C99_refuted Z NumZ ex_env eq_refl vx_cast _ _ _ true (2 ^ 62) 2147483647 33 4 _ _ tx_cut ltac:(lia)).
  intros i Hi. cbn [rx_labels f_byte]. replace (8 + i <? 4) with false by (symmetry; apply Z.ltb_ge; lia). replace (8 + i <? 8) with false by (symmetry; apply Z.ltb_ge; lia).
  apply Z.mod_pos_bound. lia.
Qed.
(** Refuted for validate: with any number of threads and any schedule, a short file makes its behaviour undefined. *)
Theorem C99_validate_refuted : forall T (N : Num T) (E : env T) cast labels ls ss h w big limit n m fi fl nt, usable_net labels ls ss (D3 h w 1) ->
  cut limit n m h w fi fl -> 1 <= nt -> n + nt <= 2 ^ 31 ->
  (forall o, validation E cast labels big limit (Readable fi) (Readable fl) nt ls o -> o = OUB) /\
  validation E cast labels big limit (Readable fi) (Readable fl) nt ls OUB.
Proof.
  intros T N E cast labels ls ss h w big limit n m fi fl nt U C NT NN. split.
  - exact (validate_cut E cast labels ls ss h w big limit n m fi fl nt U C NT NN).
  - exact (validate_cut_runs E cast labels ls ss h w big limit n m fi fl nt U C NT NN).
Qed.
Print Assumptions C99_validate_refuted.
(** Refuted for the program with complete files for training and short ones for validation: after the training its behaviour
    is undefined, and the trained model is not saved. *)
Theorem C99_test_refuted : forall T (N : Num T) (E : env T), e_moved E = false ->
  forall cast show showf wr big limit rmax n k m ti tl vi vl, mnist limit n 28 28 ti tl -> cut limit k m 28 28 vi vl -> 33 <= n <= 2 ^ 24 ->
  (forall i, 1 <= i < n -> f_byte tl (8 + i) < 10) -> forall u lr rs save,
  (forall P e, main_run E cast show showf wr big limit rmax P (Readable ti) (Readable tl) (Readable vi) (Readable vl) u lr 1 rs save e -> e = Undefined) /\
  (length rs = 5%nat -> main_run E cast show showf wr big limit rmax (fun _ => True) (Readable ti) (Readable tl) (Readable vi) (Readable vl) u lr 1 rs save Undefined).
Proof.
  intros T N E ORD cast show showf wr big limit rmax n k m ti tl vi vl TR VA Hn DG u lr rs save. split.
  - intros P e. exact (main_cut E ORD cast show showf wr big limit rmax n k m ti tl vi vl TR VA Hn DG P u lr rs save e).
  - exact (main_cut_runs E ORD cast show showf wr big limit rmax n k m ti tl vi vl TR VA Hn DG u lr rs save).
Qed.
Print Assumptions C99_test_refuted.
(** The short files for validation *)
Example C99_ex_test : forall u save, main_run ex_env vx_cast (fun v => dec v) (fun _ => []) (fun v => dec v) true (2 ^ 62) 2147483647 (fun _ => True)
    (Readable (rx_images 33)) (Readable (rx_labels 33)) (Readable tx_images) (Readable (rx_labels 33)) u 1 1 [5; 6; 7; 8; 9] save Undefined.
Proof.
  intros u save. apply (C99_test_refuted Z NumZ ex_env eq_refl vx_cast _ _ _ true (2 ^ 62) 2147483647 33 33 4 _ _ _ _ (rx_mnist 33 (or_introl eq_refl)) tx_cut ltac:(lia)); [|reflexivity].
  intros i Hi. cbn [rx_labels f_byte]. replace (8 + i <? 4) with false by (symmetry; apply Z.ltb_ge; lia). replace (8 + i <? 8) with false by (symmetry; apply Z.ltb_ge; lia).
  apply Z.mod_pos_bound. lia.
Qed.
