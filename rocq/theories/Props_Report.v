(** Properties C76-C80: what the program prints after the validation, and the whole program. *)
From Coq Require Import String ZArith Bool Lia Reals Lra Ascii List.
From Flocq Require Import Core IEEE754.BinarySingleNaN.
From Verif Require Import Base Dim Matrix View Num Expr Spec Iter MatFacts Batch Kernel Connected Float32 Pooling Activation Softmax
  LayerTotal FloatFacts Chars Double Bar Stream Text Model Net ModelThms Train TrainRest Shapes ShapeNet
  Mnist MnistFacts Main Validate ValidateFacts ValidateStep ValidateRun ValidateThms Report ReportFacts ReportThms Program ProgramThms
  Props_Model Props_Data Props_Validate Sample AccNear.
Import ListNotations.
Local Open Scope Z_scope.
Local Notation rnd32 := (round radix2 (SpecFloat.fexp 24 128) ZnearestE).

(** ** C76 *)
(** Up to 671088 images the number is the float nearest to the percentage: finite, and between 0 and 100. *)
Theorem C76_accuracy_partial : forall c n, 0 <= c <= n -> 1 <= n -> 25 * n <= 2 ^ 24 ->
  is_finite (accuracy c n) = true /\ B2R (accuracy c n) = rnd32 (100 * IZR c / IZR n) /\ (0 <= B2R (accuracy c n) <= 100)%R.
Proof. exact accuracy_ok. Qed.
Print Assumptions C76_accuracy_partial.
(** For any number of images the relative error is at most 5 * 2^-24, and the number is at most 100.00003. *)
Theorem C76_near_partial : forall c n, 0 <= c <= n -> 1 <= n < two31 ->
  is_finite (accuracy c n) = true /\ (Rabs (B2R (accuracy c n) - 100 * IZR c / IZR n) <= 100 * IZR c / IZR n * (5 / 16777216))%R.
Proof. exact accuracy_near. Qed.
Print Assumptions C76_near_partial.
Theorem C76_below_partial : forall c n, 0 <= c <= n -> 1 <= n < two31 -> (0 <= B2R (accuracy c n) <= 100 + 3 / 100000)%R.
Proof. exact accuracy_below. Qed.
Print Assumptions C76_below_partial.
(** Refuted: with 671091 images, all recognised, it is more than 100. *)
Theorem C76_refuted : exists n, 1 <= n < 2 ^ 31 /\ Bltb (f32_of_Z 100) (accuracy n n) = true.
Proof. exists 671091. split; [lia|]. vm_compute. reflexivity. Qed.
Print Assumptions C76_refuted.
(** Without images it is not a number. *)
Theorem C76_no_images_refuted : is_nan (accuracy 0 0) = true.
Proof. vm_compute. reflexivity. Qed.
Print Assumptions C76_no_images_refuted.
(** 9737 of 10000: 97.37 as a float *)
Example C76_ex : B2SF (accuracy 9737 10000) = SpecFloat.S754_finite false 12762481 (-17) /\ B2SF (accuracy 10000 10000) = B2SF (f32_of_Z 100).
Proof. vm_compute. auto. Qed.

(** ** C77 *)
Theorem C77_valid_partial : forall rmax r n, 1 <= rmax < 2 ^ 31 -> 0 <= r <= rmax -> 0 <= n < 2 ^ 31 -> r < rmax -> 1 <= n ->
  exists k, sample_index rmax r n = Ok k /\ 0 <= k < n.
Proof. exact sample_index_ok. Qed.
Print Assumptions C77_valid_partial.
(** It is the integer part of r * n / RAND_MAX unless that is an integer. *)
Theorem C77_exact_partial : forall rmax r n, 1 <= rmax < 2 ^ 31 -> 0 <= r <= rmax -> 0 <= n < 2 ^ 31 ->
  n <= 2 ^ 20 -> r < rmax -> (r * n) mod rmax <> 0 -> sample_index rmax r n = Ok (r * n / rmax).
Proof. exact sample_index_exact. Qed.
Print Assumptions C77_exact_partial.
(** With the RAND_MAX of the GNU C library, which is a prime, that is so for all values but RAND_MAX. *)
Theorem C77_gnu_partial : forall r n, 0 <= r < 2147483647 -> 1 <= n <= 2 ^ 20 -> sample_index 2147483647 r n = Ok (r * n / 2147483647).
Proof. exact sample_gnu. Qed.
Print Assumptions C77_gnu_partial.
(** Refuted: RAND_MAX selects the image after the last one, for every number of images. *)
Theorem C77_refuted : forall rmax n, 1 <= rmax < 2 ^ 31 -> 0 <= n < 2 ^ 31 -> sample_index rmax rmax n = Ok n.
Proof. intros rmax n RM HN. apply sample_index_max; [exact RM|lia|exact HN|reflexivity]. Qed.
Print Assumptions C77_refuted.
(** When r * n / RAND_MAX is an integer, the image before it may be selected: 62 instead of 63. *)
Theorem C77_exact_refuted : exists r n, 0 <= r < 32767 /\ 1 <= n /\ (r * n) mod 32767 = 0 /\ sample_index 32767 r n = Ok (r * n / 32767 - 1).
Proof. exists 22197, 93. vm_compute. intuition congruence. Qed.
Print Assumptions C77_exact_refuted.
Example C77_ex : sample_index 2147483647 1804289383 10000 = Ok 8401 /\ sample_index 2147483647 2147483646 10000 = Ok 9999 /\ sample_index 32767 0 10000 = Ok 0.
Proof. vm_compute. auto. Qed.

(** ** C78 *)
(** [is_mat m d f]: the matrix m has dimensions d and the elements f x y z. [picture d c]: a line for every row, and in it two
    spaces with the background c x y for every column. *)
Theorem C78_gray_partial : forall (m : mat f32) d f, is_mat m d f -> fits d -> pos d -> (forall x y z, inb d x y z -> is_finite (f x y z) = true) ->
  forall o, dz d <> 3 -> (forall x y z, inb d x y z -> (Rabs (B2R (f x y z)) <= 16777216)%R) ->
  (exists x y z, inb d x y z /\ (B2R (f x y z) < 1 \/ exists x' y' z', inb d x' y' z' /\ (B2R (f x y z) < B2R (f x' y' z')))%R) ->
  exists c, print_image m o = ORet (o ++ picture d c) tt /\
    (forall x y, 0 <= x < dx d -> 0 <= y < dy d -> 0 <= c x y <= 255) /\
    (forall x y x' y', 0 <= x < dx d -> 0 <= y < dy d -> 0 <= x' < dx d -> 0 <= y' < dy d -> (B2R (f x y 0%Z) <= B2R (f x' y' 0%Z))%R -> c x y <= c x' y') /\
    (forall x y, 0 <= x < dx d -> 0 <= y < dy d -> (forall x' y' z', inb d x' y' z' -> B2R (f x y 0%Z) <= B2R (f x' y' z'))%R -> c x y = 0) /\
    (forall x y, 0 <= x < dx d -> 0 <= y < dy d -> (1 <= B2R (f x y 0%Z))%R -> (forall x' y' z', inb d x' y' z' -> B2R (f x' y' z') <= B2R (f x y 0%Z))%R -> c x y = 255).
Proof. exact print_gray_ok. Qed.
Print Assumptions C78_gray_partial.
Theorem C78_colour_partial : forall (m : mat f32) d f, is_mat m d f -> fits d -> pos d -> (forall x y z, inb d x y z -> is_finite (f x y z) = true) ->
  forall o, dz d = 3 -> (forall x y z, inb d x y z -> (0 <= B2R (f x y z))%R) ->
  exists c, print_image m o = ORet (o ++ colour_picture d c) tt /\
    (forall x y z, inb d x y z -> 0 <= c x y z <= 255) /\
    (forall x y z x' y' z', inb d x y z -> inb d x' y' z' -> (B2R (f x y z) <= B2R (f x' y' z'))%R -> c x y z <= c x' y' z') /\
    (forall x y z, inb d x y z -> B2R (f x y z) = 0%R -> c x y z = 0) /\
    (forall x y z, inb d x y z -> (1 <= B2R (f x y z))%R -> (forall x' y' z', inb d x' y' z' -> B2R (f x' y' z') <= B2R (f x y z))%R -> c x y z = 255).
Proof. exact print_color_ok. Qed.
Print Assumptions C78_colour_partial.
(** Refuted: an image with the same value of at least 1 everywhere has undefined behaviour. *)
Theorem C78_constant_refuted : forall (m : mat f32) d f, is_mat m d f -> fits d -> pos d -> (forall x y z, inb d x y z -> is_finite (f x y z) = true) ->
  forall o v, dz d <> 3 -> (forall x y z, inb d x y z -> f x y z = v) -> (1 <= B2R v)%R -> print_image m o = OUB.
Proof. exact print_gray_const. Qed.
Print Assumptions C78_constant_refuted.
(** Refuted: a colour image with a negative value has undefined behaviour. *)
Theorem C78_negative_refuted : exists a b c : f32, is_finite a = true /\ is_finite b = true /\ is_finite c = true /\
  print_image (Mat (D3 1 1 3) [a; b; c]) [] = OUB.
Proof. exists (f32_of_Z 0), (f32_of_Z (-1)), (f32_of_Z 1). vm_compute. auto. Qed.
Print Assumptions C78_negative_refuted.
(** Refuted: the largest value is not white if it is below 1. For the values that MnistReader delivers, no brightness is above 169. *)
Theorem C78_white_refuted : forall (m : mat f32) d (f : Z -> Z -> Z -> f32) o, is_mat m d f -> fits d -> pos d -> dz d <> 3 ->
  (forall x y z, inb d x y z -> is_finite (f x y z) = true /\ (- 32897 / 65536 <= B2R (f x y z) <= 32640 / 65536)%R) ->
  exists c, print_image m o = ORet (o ++ picture d c) tt /\
    (forall x y, 0 <= x < dx d -> 0 <= y < dy d -> 0 <= c x y <= 169) /\
    (forall x y x' y', 0 <= x < dx d -> 0 <= y < dy d -> 0 <= x' < dx d -> 0 <= y' < dy d -> (B2R (f x y 0%Z) <= B2R (f x' y' 0%Z))%R -> c x y <= c x' y') /\
    (forall x y, 0 <= x < dx d -> 0 <= y < dy d -> (forall x' y' z', inb d x' y' z' -> B2R (f x y 0%Z) <= B2R (f x' y' z'))%R -> c x y = 0).
Proof. exact dim_picture. Qed.
Print Assumptions C78_white_refuted.
Definition rx_text (o : out text unit) : option text := match o with ORet t _ => Some t | _ => None end.
(** Rows 0 1 and 2 4: black, a quarter, a half, white. The elements are stored by columns. *)
Definition rx_cell (c : String.string) : text := esc ++ lit "[48;2;" ++ lit c ++ lit ";" ++ lit c ++ lit ";" ++ lit c ++ lit "m  ".
Definition rx_end : text := esc ++ lit "[0m" ++ nl.
Example C78_ex : rx_text (print_image (Mat (D3 2 2 1) (map f32_of_Z [0; 2; 1; 4])) []) =
  Some (rx_cell "0" ++ rx_cell "63" ++ rx_end ++ rx_cell "127" ++ rx_cell "255" ++ rx_end).
Proof. vm_compute. reflexivity. Qed.
Example C78_ex_colour : rx_text (print_image (Mat (D3 1 1 3) (map f32_of_Z [0; 2; 4])) []) =
  Some (esc ++ lit "[48;2;0;127;255m   " ++ esc ++ lit "[0m" ++ nl).
Proof. vm_compute. reflexivity. Qed.
(** The brightest and the darkest pixel of MnistReader *)
Example C78_ex_mnist : rx_text (print_image (Mat (D3 1 2 1) [shade 0; shade 255]) []) = Some (rx_cell "0" ++ rx_cell "169" ++ rx_end).
Proof. vm_compute. reflexivity. Qed.

(** ** C79 *)
(** [shown … r t]: t is the text of a sample for the value r of rand(): the name of the label that the network finds for an
    image, its label byte, its picture, and the result. [usable … rd]: a reader after any history of calls. *)
Theorem C79_samples_partial : forall T (N : Num T) (E : env T) cast labels show ls ss h w big limit n fi fl rmax,
  usable_net labels ls ss (D3 h w 1) -> mnist limit n h w fi fl -> 1 <= n -> 1 <= rmax < 2 ^ 31 ->
  forall rs rvals rd o, alone E cast labels h w fi fl n ls rs -> List.Forall (fun r => 0 <= r < rmax) rvals -> usable n h w fi fl rd ->
  exists ls' rd' ts, samples E cast labels show big limit rmax n rvals (ls, rd, o) = ORet (ls', rd', o ++ concat ts) tt /\
    Forall2 (shown labels show h w n fi fl rs rmax) rvals ts /\ map params_of ls' = map params_of ls /\ usable n h w fi fl rd'.
Proof.
  intros T N E cast labels show ls ss h w big limit n fi fl rmax U P N1 RM rs rvals rd o A F R.
  destruct (alone_exists E cast labels ls ss h w limit n fi fl U P) as (rs' & A' & RL).
  pose proof (alone_unique E cast labels ls h w limit n fi fl rs rs' P A A') as EQ. pose proof (un_fit _ _ _ _ U) as FI.
  destruct (h_net_head _ _ (un_ok _ _ _ _ U)) as [(H1 & H2 & _) _]. cbn in H1, H2.
  destruct (samples_ok E cast labels show ss h w big limit n fi fl P ltac:(lia) rs ltac:(intros i Hi; rewrite EQ by exact Hi; auto) ls A rmax RM N1 rvals ls rd o F
    (fit_sims _ _ _ _ FI) R) as (ls' & rd' & ts & ES & S' & U' & SH).
  exists ls', rd', ts. split; [exact ES|]. split; [exact SH|]. split; [symmetry; apply sims_params; exact S'|exact U'].
Qed.
Print Assumptions C79_samples_partial.
(** Refuted: if rand() returns RAND_MAX for one of the samples there is an exception; without images also. *)
Theorem C79_refuted : forall T (N : Num T) (E : env T) cast labels show ls ss h w big limit n fi fl rmax,
  usable_net labels ls ss (D3 h w 1) -> mnist limit n h w fi fl -> 1 <= n -> 1 <= rmax < 2 ^ 31 ->
  forall pre post rd o, List.Forall (fun r => 0 <= r < rmax) pre -> usable n h w fi fl rd ->
  exists s, samples E cast labels show big limit rmax n (pre ++ rmax :: post) (ls, rd, o) = OThrow s RuntimeError.
Proof.
  intros T N E cast labels show ls ss h w big limit n fi fl rmax U P N1 RM pre post rd o F R.
  destruct (alone_exists E cast labels ls ss h w limit n fi fl U P) as (rs & A & RL). pose proof (un_fit _ _ _ _ U) as FI.
  destruct (h_net_head _ _ (un_ok _ _ _ _ U)) as [(H1 & H2 & _) _]. cbn in H1, H2.
  exact (samples_max E cast labels show ss h w big limit n fi fl P ltac:(lia) rs RL ls A rmax RM N1 pre post ls rd o F (fit_sims _ _ _ _ FI) R).
Qed.
Print Assumptions C79_refuted.
Theorem C79_no_images_refuted : forall T (N : Num T) (E : env T) cast labels show big limit h w fi fl rmax r rvals ls rd o,
  mnist limit 0 h w fi fl -> 1 <= rmax < 2 ^ 31 -> 0 <= r <= rmax -> usable 0 h w fi fl rd ->
  exists s, samples E cast labels show big limit rmax 0 (r :: rvals) (ls, rd, o) = OThrow s RuntimeError.
Proof. exact @samples_none. Qed.
Print Assumptions C79_no_images_refuted.
(** The network and the files of C72; the values 5 and 9 of at most 10 select the images 1 and 2. *)
Definition rx_samples (rvals : list Z) : option text :=
  match reader_open false (Readable vx_images) (Readable vx_labels) with
  | Ok rd => match samples ex_env vx_cast vx_names (fun v => dec v) false (2 ^ 62) 10 3 rvals (vx_net, rd, []) with ORet (_, _, t) _ => Some t | _ => None end
  | _ => None
  end.
Definition rx_row (a b : String.string) : text := rx_cell a ++ rx_cell b ++ rx_end.
Definition rx_result (label conf : Z) : text :=
  lit "Layer Results:" ++ nl ++ tab ++ lit "Label Index: " ++ dec label ++ nl ++ tab ++ lit "Confidence:  " ++ dec conf ++ nl ++ nl.
Example C79_ex : rx_samples [5; 9] = Some (
  lit "This image is a 1 (actual label 1)" ++ nl ++ rx_row "0" "0" ++ rx_row "0" "0" ++ rx_row "0" "0" ++ rx_row "133" "0" ++ rx_result 1 1 ++ nl ++ nl ++
  lit "This image is a 1 (actual label 0)" ++ nl ++ rx_row "0" "0" ++ rx_row "0" "0" ++ rx_row "1" "169" ++ rx_row "0" "0" ++ rx_result 1 1 ++ nl ++ nl) /\
  rx_samples [5; 10] = None.
Proof. vm_compute. auto. Qed.

(** ** C80 *)
(** main.cpp 147-195 with one thread: [n] images for training, [k] images for validation. [rs]: what rand() returns. *)
Theorem C80_main_partial : forall T (N : Num T) (E : env T), e_moved E = false ->
  forall cast show showf wr big limit rmax, 1 <= rmax < 2 ^ 31 ->
  forall n k ti tl vi vl, mnist limit n 28 28 ti tl -> mnist limit k 28 28 vi vl -> 33 <= n <= 2 ^ 24 -> 1 <= k ->
  (forall i, 1 <= i < n -> f_byte tl (8 + i) < 10) ->
  forall P u lr rs save e, List.Forall (fun r => 0 <= r < rmax) rs ->
  main_run E cast show showf wr big limit rmax P (Readable ti) (Readable tl) (Readable vi) (Readable vl) u lr 1 rs save e ->
  exists m r ps ls ms res ts f, main_model E u = Ok m /\ gen_open big limit (Readable ti) (Readable tl) = Ok r /\ delivers big r ps /\
    train E cast text_eqb main_labels P (main_params lr 1) (gen_size r) ps (map snd (m_layers m)) ps (ORet ls tt) /\
    alone E cast main_labels 28 28 vi vl k ls res /\ Forall2 (shown main_labels show 28 28 k vi vl res rmax) rs ts /\
    save_model wr word_io (with_layers m ls) = Ok (true, f) /\
    e = Done (tally k (hit main_labels vl res)) k (count_text showf ms (tally k (hit main_labels vl res)) k ++ concat ts) (if save then Some f else None).
Proof. exact @main_ok. Qed.
Print Assumptions C80_main_partial.
(** The program has an execution that ends. *)
Theorem C80_exists_partial : forall T (N : Num T) (E : env T), e_moved E = false ->
  forall cast show showf wr big limit rmax n k ti tl vi vl, mnist limit n 28 28 ti tl -> mnist limit k 28 28 vi vl -> 33 <= n <= 2 ^ 24 ->
  (forall i, 1 <= i < n -> f_byte tl (8 + i) < 10) -> forall u lr rs save, length rs = 5%nat ->
  exists e, main_run E cast show showf wr big limit rmax (fun _ => True) (Readable ti) (Readable tl) (Readable vi) (Readable vl) u lr 1 rs save e.
Proof. exact @main_runs. Qed.
Print Assumptions C80_exists_partial.
(** Refuted: if rand() returns RAND_MAX for a sample, the program ends with an exception, and the trained model is not saved. *)
Theorem C80_refuted : forall T (N : Num T) (E : env T), e_moved E = false ->
  forall cast show showf wr big limit rmax, 1 <= rmax < 2 ^ 31 ->
  forall n k ti tl vi vl, mnist limit n 28 28 ti tl -> mnist limit k 28 28 vi vl -> 33 <= n <= 2 ^ 24 -> 1 <= k ->
  (forall i, 1 <= i < n -> f_byte tl (8 + i) < 10) ->
  forall P u lr pre post save e, List.Forall (fun r => 0 <= r < rmax) pre ->
  main_run E cast show showf wr big limit rmax P (Readable ti) (Readable tl) (Readable vi) (Readable vl) u lr 1 (pre ++ rmax :: post) save e ->
  e = Failed RuntimeError.
Proof. exact @main_max. Qed.
Print Assumptions C80_refuted.
(** Files with [n] images that repeat the bytes 0 to 255, and the labels 0, 1, … 9, 0, … *)
Definition rx_be (n k : Z) : Z := n / 256 ^ (3 - k) mod 256.
Definition rx_images (n : Z) : file := File (16 + n * 784) (fun k =>
  if k <? 4 then rx_be 2051 k else if k <? 8 then rx_be n (k - 4) else if k <? 12 then rx_be 28 (k - 8) else if k <? 16 then rx_be 28 (k - 12) else k mod 256).
Definition rx_labels (n : Z) : file := File (8 + n) (fun k => if k <? 4 then rx_be 2049 k else if k <? 8 then rx_be n (k - 4) else (k - 8) mod 10).
Lemma rx_mnist : forall n, n = 33 \/ n = 2 -> mnist (2 ^ 62) n 28 28 (rx_images n) (rx_labels n).
Proof.
  intros n H. split; try (match goal with |- forall _, _ => fail 1 | _ => idtac end; destruct H as [-> | ->]; vm_compute; intuition congruence).
  intros k. cbn [rx_images rx_labels f_byte]. unfold rx_be. assert (B : forall a b, 0 < b <= 256 -> 0 <= a mod b < 256) by (intros a b Hb; pose proof (Z.mod_pos_bound a b); lia).
  split; repeat match goal with |- context [if ?c then _ else _] => destruct c end; apply B; lia.
Qed.
Example C80_ex : forall (u : nat -> Z) save, (exists e, main_run ex_env vx_cast (fun v => dec v) (fun _ => []) (fun v => dec v) true (2 ^ 62) 2147483647 (fun _ => True)
    (Readable (rx_images 33)) (Readable (rx_labels 33)) (Readable (rx_images 2)) (Readable (rx_labels 2)) u 1 1 [5; 6; 7; 8; 9] save e) /\
  forall e, main_run ex_env vx_cast (fun v => dec v) (fun _ => []) (fun v => dec v) true (2 ^ 62) 2147483647 (fun _ => True)
    (Readable (rx_images 33)) (Readable (rx_labels 33)) (Readable (rx_images 2)) (Readable (rx_labels 2)) u 1 1 [5; 6; 7; 8; 9] save e ->
  exists c t s, e = Done c 2 t s /\ (s = None <-> save = false).
Proof.
  assert (DG : forall i, 1 <= i < 33 -> f_byte (rx_labels 33) (8 + i) < 10).
  { intros i Hi. cbn [rx_labels f_byte]. replace (8 + i <? 4) with false by (symmetry; apply Z.ltb_ge; lia). replace (8 + i <? 8) with false by (symmetry; apply Z.ltb_ge; lia).
    apply Z.mod_pos_bound. lia. }
  intros u save. split.
  - apply (C80_exists_partial Z NumZ ex_env eq_refl vx_cast _ _ _ true (2 ^ 62) 2147483647 33 2 _ _ _ _ (rx_mnist 33 (or_introl eq_refl)) (rx_mnist 2 (or_intror eq_refl)) ltac:(lia) DG).
    reflexivity.
  - intros e H.
    destruct (C80_main_partial Z NumZ ex_env eq_refl vx_cast _ _ _ true (2 ^ 62) 2147483647 ltac:(lia) 33 2 _ _ _ _ (rx_mnist 33 (or_introl eq_refl)) (rx_mnist 2 (or_intror eq_refl))
      ltac:(lia) ltac:(lia) DG (fun _ => True) u 1 [5; 6; 7; 8; 9] save e ltac:(repeat (constructor; [lia|]); constructor) H) as (m & r & ps & ls & ms & res & ts & f & _ & _ & _ & _ & _ & _ & _ & ->).
    eexists _, _, _. split; [reflexivity|]. destruct save; split; congruence.
Qed.
Example C80_ex_missing : main_run ex_env vx_cast (fun v => dec v) (fun _ => []) (fun v => dec v) true (2 ^ 62) 2147483647 (fun _ => True)
  Missing (Readable (rx_labels 33)) (Readable (rx_images 2)) (Readable (rx_labels 2)) (fun _ => 0) 1 1 [5; 6; 7; 8; 9] true (Failed AssertFail).
Proof. apply run_open. reflexivity. Qed.
