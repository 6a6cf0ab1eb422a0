(** Properties C89-C94: numbers, matrices, images and weights on the console. *)
From Coq Require Import String ZArith Bool Lia Reals Lra Ascii List.
From Flocq Require Import Core IEEE754.BinarySingleNaN.
From Verif Require Import Base Dim Matrix View Num Expr Spec Iter MatFacts Batch Kernel Connected Float32 Pooling Activation Softmax
  ExprThms Sums LayerTotal FloatFacts Chars Double DoubleFacts Bar BarFacts Decimal DecimalFacts Stream StreamFacts Text Model Net ModelThms Train TrainRest Shapes ShapeNet
  Mnist MnistFacts Main Validate ValidateThms Report ReportFacts Program Print PrintFacts PrintImage EpochText Props_Train TextFacts LayerText.
Import ListNotations.
Local Open Scope Z_scope.

(** ** C89 *)
(** [denotes t v]: t is a decimal numeral for v, possibly with a point, an exponent, and a minus sign. For every finite number
    and every format (precision p): half a unit of the last of p digits after the point (fixed), of p + 1 digits (scientific),
    or of p digits (otherwise). *)
Theorem C89_number : forall p n (x : double), 0 <= p -> is_finite x = true ->
  exists v, denotes (put_num (Format p n) x) v /\
    (Rabs (v - B2R x) <= match n with Fixed => / 2 * bpow radix10 (- p) | Scientific => / 2 * bpow radix10 (- p) * Rabs (B2R x)
                         | General => / 2 * bpow radix10 (1 - Z.max 1 p) * Rabs (B2R x) end)%R.
Proof. intros p n x P F. exact (put_num_ok (Format p n) x P F). Qed.
Print Assumptions C89_number.
(** The form of the text of a number that is not zero: a minus sign for negative ones, and then (DecimalFacts.v, [form])
    - fixed: digits without superfluous zeros in front, a point, p digits;
    - scientific: a digit that is not zero, a point, p digits, "e", a sign and at least two digits;
    - otherwise, with at most n = max(p, 1) digits: the first of these if the rounded number is at least 0.0001 and below 10^n,
      else the second, in both cases without zeros at the end and without the point if no digit follows. *)
Theorem C89_form : forall f (x : double), 0 <= f_prec f -> is_finite x = true -> B2R x <> 0%R ->
  exists t v, put_num f x = (if Rlt_bool (B2R x) 0 then lit "-" ++ t else t) /\ denotes t v /\
    (Rabs (v - Rabs (B2R x)) <= tolerance f (B2R x))%R /\ form f t v.
Proof. exact put_num_form. Qed.
Print Assumptions C89_form.
(** The accuracy after the validation, for every number of images *)
Theorem C89_validation : forall ms c n, 0 <= c <= n -> 1 <= n < 2 ^ 31 ->
  exists t v, count_text (put_f32 default_format) ms c n =
      lit "Running model validation test..." ++ nl ++ nl ++ lit "Validation finished in " ++ dec ms ++ lit " milliseconds." ++ nl ++
      lit "Validation accuracy was " ++ t ++ lit "%" ++ nl ++ nl /\
    denotes t v /\ (Rabs (v - 100 * IZR c / IZR n) <= 0.0000053 * (100 * IZR c / IZR n))%R.
Proof.
  intros ms c n HC HN. destruct (accuracy_text c n HC HN) as (v & D & A). eexists. exists v. split; [reflexivity|]. split; [exact D|exact A].
Qed.
Print Assumptions C89_validation.
(** The confidence of a result *)
Theorem C89_confidence : forall r : results double, is_finite (r_conf r) = true -> (0 <= B2R (r_conf r) <= 1)%R ->
  exists t v, results_text (put_num default_format) r =
      lit "Layer Results:" ++ nl ++ tab ++ lit "Label Index: " ++ dec (r_label r) ++ nl ++ tab ++ lit "Confidence:  " ++ t ++ nl ++ nl /\
    denotes t v /\ (Rabs (v - B2R (r_conf r)) <= 0.000005 * B2R (r_conf r))%R.
Proof.
  intros r F H. destruct (confidence_text _ F H) as (v & D & A). eexists. exists v. split; [reflexivity|]. split; [exact D|exact A].
Qed.
Print Assumptions C89_confidence.
Example C89_ex : put_f32 default_format (accuracy 9737 10000) = lit "97.37" /\ put_f32 default_format (accuracy 2 3) = lit "66.6667" /\
  put_f32 default_format (accuracy 10000 10000) = lit "100" /\ put_num default_format (ndiv (d_of_Z 1) (d_of_Z 1048576)) = lit "9.53674e-07".
Proof. vm_compute. auto. Qed.

(** ** C90 *)
(** [shows d f w P lines]: one line for every row; in it, for every layer, "[", the cells with commas between them, "]" and three
    spaces; every cell has w + 1 characters, so that the cells of a column stand below each other; P (f x y z) holds of the
    text of the cell. [cell_of neg w t v err]: t is the sign, spaces, and a numeral for v up to err. *)
Theorem C90_double_partial : forall S (a : lz S double) (mem : S) d f t0 f0, is_lz a mem d f -> pos d ->
  (forall x y z, inb d x y z -> is_finite (f x y z) = true /\ (Rabs (B2R (f x y z)) < 9999.995)%R) ->
  exists lines, mat_print el_double a mem (Streams t0 f0 None) =
      ORet (Streams (t0 ++ nl ++ concat (map (fun l => l ++ nl) lines)) (Format (f_prec f0) General) None) tt /\
    shows d f 7 (fun v t => cell_of (Rlt_bool (B2R v) 0) 7 t (Rabs (B2R v)) 0.005) lines.
Proof.
  intros S a mem d f t0 f0 IL HP H. apply (mat_print_shows el_double a mem d f (Streams t0 f0 None)
    (fun v t => cell_of (Rlt_bool (B2R v) 0) 7 t (Rabs (B2R v)) 0.005) IL HP).
  intros x y z J. destruct (H x y z J) as [F B]. exact (double_cell (f x y z) F B).
Qed.
Print Assumptions C90_double_partial.
Theorem C90_float_partial : forall S (a : lz S f32) (mem : S) d f t0 f0, is_lz a mem d f -> pos d ->
  (forall x y z, inb d x y z -> is_finite (f x y z) = true /\ (Rabs (B2R (f x y z)) < 9999.995)%R) ->
  exists lines, mat_print el_f32 a mem (Streams t0 f0 None) =
      ORet (Streams (t0 ++ nl ++ concat (map (fun l => l ++ nl) lines)) (Format (f_prec f0) General) None) tt /\
    shows d f 7 (fun v t => cell_of (Rlt_bool (B2R v) 0) 7 t (Rabs (B2R v)) 0.005) lines.
Proof.
  intros S a mem d f t0 f0 IL HP H. apply (mat_print_shows el_f32 a mem d f (Streams t0 f0 None)
    (fun v t => cell_of (Rlt_bool (B2R v) 0) 7 t (Rabs (B2R v)) 0.005) IL HP).
  intros x y z J. destruct (H x y z J) as [F B]. exact (f32_cell (f x y z) F B).
Qed.
Print Assumptions C90_float_partial.
(** Ints on any stream *)
Theorem C90_int_partial : forall S (a : lz S Z) (mem : S) d f s, is_lz a mem d f -> pos d ->
  (forall x y z, inb d x y z -> Z.abs (f x y z) <= 9999) ->
  exists lines s', mat_print el_int a mem s = ORet s' tt /\ s_text s' = s_text s ++ nl ++ concat (map (fun l => l ++ nl) lines) /\
    shows d f 4 (fun v t => cell_of (v <? 0) 4 t (IZR (Z.abs v)) 0) lines.
Proof.
  intros S a mem d f s IL HP H. destruct (mat_print_shows el_int a mem d f s (fun v t => cell_of (v <? 0) 4 t (IZR (Z.abs v)) 0) IL HP) as (lines & E & SH).
  { intros x y z J. exact (int_cell _ (f x y z) (H x y z J)). }
  exists lines. eexists. split; [exact E|]. split; [|exact SH]. destruct s as [t f0 [c|]]; reflexivity.
Qed.
Print Assumptions C90_int_partial.
Definition px_text {A} (o : out streams A) : option text := match o with ORet s _ => Some (s_text s) | _ => None end.
Definition px_cout : streams := Streams [] default_format None.
Definition px_file : streams := Streams [] default_format (Some default_format).
(** Refuted: the format is set for std::cout. On another stream a third is written with six digits, in eight characters. *)
Theorem C90_stream_refuted : px_text (mat_print el_double (l_val (Mat (D3 2 1 1) [dx_num 1 3; dx_num 1 2])) tt px_file) =
  Some (nl ++ lit "[ 0.333333]   " ++ nl ++ lit "[     0.5]   " ++ nl).
Proof. vm_compute. reflexivity. Qed.
Print Assumptions C90_stream_refuted.
(** Refuted: from 9999.995 on a number is longer than its column. *)
Theorem C90_wide_refuted : px_text (mat_print el_double (l_val (Mat (D3 2 1 1) [d_of_Z 10000; d_of_Z (-1)])) tt px_cout) =
  Some (nl ++ lit "[ 10000.00]   " ++ nl ++ lit "[-   1.00]   " ++ nl) /\
  px_text (mat_print el_int (l_val (Mat (D3 2 1 1) [10000; 1])) tt px_cout) = Some (nl ++ lit "[ 10000]   " ++ nl ++ lit "[    1]   " ++ nl).
Proof. vm_compute. auto. Qed.
Print Assumptions C90_wide_refuted.
(** Refuted: the smallest int has no absolute value; a matrix without columns has no closing bracket. *)
Theorem C90_min_refuted : mat_print el_int (l_val (Mat (D3 1 1 1) [- 2 ^ 31])) tt px_cout = OUB /\
  px_text (mat_print el_int (l_val (Mat (D3 1 0 1) [])) tt px_cout) = Some (nl ++ lit "[   " ++ nl).
Proof. vm_compute. auto. Qed.
Print Assumptions C90_min_refuted.
(** Two rows, two columns, two layers *)
Example C90_ex : px_text (mat_print el_double (l_val (Mat (D3 2 2 2) (map (fun k => dx_num k 3) [0; -1; 2; 300; 4; 5; -29998; 7]))) tt px_cout) =
  Some (nl ++ lit "[    0.00,    0.67]   [    1.33,-9999.33]   " ++ nl ++ lit "[-   0.33,  100.00]   [    1.67,    2.33]   " ++ nl) /\
  px_text (mat_print el_int (l_val (Mat (D3 2 2 1) [1; -20; 300; -9999])) tt px_cout) = Some (nl ++ lit "[    1,  300]   " ++ nl ++ lit "[-  20,-9999]   " ++ nl).
Proof. vm_compute. auto. Qed.

(** ** C91 *)
(** Printing keeps the precision of std::cout and the format of every other stream. The notation of std::cout is reset. *)
Theorem C91_format_partial : forall S T (el : element T) (a : lz S T) (mem : S) s s', mat_print el a mem s = ORet s' tt ->
  cout_format s' = Format (f_prec (cout_format s)) General /\ (s_other s <> None -> s_os s' = s_os s) /\ (s_other s = None <-> s_other s' = None).
Proof. exact @mat_print_formats. Qed.
Print Assumptions C91_format_partial.
(** Refuted: fixed notation is lost, so that the next number looks different. *)
Theorem C91_refuted : exists (m : mat double) s s', mat_print el_double (l_val m) tt s = ORet s' tt /\ s_other s = None /\
  put_num (s_os s) (dx_num 1 2) = lit "0.500000" /\ put_num (s_os s') (dx_num 1 2) = lit "0.5".
Proof.
  exists (Mat (D3 1 1 1) [dx_num 1 2]), (Streams [] (Format 6 Fixed) None). eexists. split; [vm_compute; reflexivity|]. split; [reflexivity|]. split; vm_compute; reflexivity.
Qed.
Print Assumptions C91_refuted.
Example C91_ex : match mat_print el_double (l_val (Mat (D3 1 1 1) [dx_num 1 3])) tt (Streams [] (Format 9 General) None) with
  | ORet s _ => s = Streams (nl ++ lit "[    0.33]   " ++ nl) (Format 9 General) None | _ => False end.
Proof. vm_compute. reflexivity. Qed.

(** ** C92 *)
(** [hits … src rs]: how many of the results [rs] have the label of their data point. The results are the elements of
    batch_results at the ends of the batches. For all executions, with any number of threads: *)
Theorem C92_epoch : forall T (N : Num T) (E : env T) U L (cast : U -> T) (eqL : L -> L -> bool) labels P h size ls src e no,
  1 <= h_nt h < 2 ^ 24 -> 1 <= h_bs h < 2 ^ 24 -> size = Z.of_nat (length src) -> 1 <= size < 2 ^ 24 ->
  epoch E cast eqL labels P h size ls src (ORet e tt) ->
  exists wc bl, batches_results E cast eqL labels P wc (h_bs h) (Z.to_nat (h_nt h)) (h_lr h) bl (Est ls src (repeat None (Z.to_nat (h_bs h))) 0) e /\
    concat (map (fun b => map snd (fst b)) bl) = src /\ length (concat (map snd bl)) = length src /\
    let c := hits eqL labels src (concat (map snd bl)) in s_success e = c /\ 0 <= c <= size /\
    exists t v, epoch_text no (s_success e) size = nl ++ lit "Epoch " ++ dec no ++ lit ": Accuracy was " ++ t ++ lit "%" ++ nl /\
      denotes t v /\ (Rabs (v - 100 * IZR c / IZR size) <= 0.000005001 * (100 * IZR c / IZR size))%R.
Proof.
  intros T N E U L cast eqL labels P h size ls src e no Hn Hb HS HS2 H.
  destruct (epoch_hits E cast eqL labels P h size ls src e Hn Hb HS ltac:(lia) H) as (wc & bl & B1 & B2 & B3 & B4 & B5).
  exists wc, bl. split; [exact B1|]. split; [exact B2|]. split; [exact B3|]. cbv zeta. rewrite <- B4. split; [reflexivity|]. split; [exact B5|].
  destruct (epoch_accuracy_text (s_success e) size B5 ltac:(lia)) as (v & D & A). eexists. exists v. split; [reflexivity|]. split; [exact D|exact A].
Qed.
Print Assumptions C92_epoch.
(** If all data points are recognised, the text is 100. *)
Theorem C92_all : forall no n, 1 <= n < 2 ^ 31 -> epoch_text no n n = nl ++ lit "Epoch " ++ dec no ++ lit ": Accuracy was 100%" ++ nl.
Proof. intros no n H. unfold epoch_text. rewrite whole_accuracy by exact H. reflexivity. Qed.
Print Assumptions C92_all.
Example C92_ex : epoch_text 2 59000 60000 = nl ++ lit "Epoch 2: Accuracy was 98.3333%" ++ nl /\ epoch_text 0 1 60000 = nl ++ lit "Epoch 0: Accuracy was 0.00166667%" ++ nl /\
  epoch_text 0 59999 59999 = nl ++ lit "Epoch 0: Accuracy was 100%" ++ nl.
Proof. vm_compute. auto. Qed.

(** ** C93 *)
(** Bytes as colours: exact, for every image with three layers. Larger ints appear as 255. *)
Theorem C93_colour : forall (m : mat Z) d f o, is_mat m d f -> fits d -> dz d = 3 -> (forall x y z, inb d x y z -> 0 <= f x y z < 2 ^ 31) ->
  print_image_int m o = ORet (o ++ cat (dx d) (fun x => cat (dy d) (fun y =>
    esc ++ lit "[48;2;" ++ dec (Z.min 255 (f x y 0)) ++ lit ";" ++ dec (Z.min 255 (f x y 1)) ++ lit ";" ++ dec (Z.min 255 (f x y 2)) ++ lit "m   ") ++
    esc ++ lit "[0m" ++ nl)) tt.
Proof.
  intros m d f o IM HF D3' B. rewrite (print_color_int_ok m d f IM HF o D3' B). unfold colour_picture.
  do 2 f_equal. apply cat_ext. intros x _. f_equal. apply cat_ext. intros y _. unfold colour_cell. change (cat 3 ?g) with (g 0 ++ g 1 ++ g 2 ++ []).
  cbv beta. rewrite <- !app_assoc. reflexivity.
Qed.
Print Assumptions C93_colour.
(** Bytes and ints as gray values, if one of them is below 255: the smallest is black, 255 and above is white, the order is kept,
    and between them the gray value is the number's share of the way to 255, cut off, up to 0.0002. *)
Theorem C93_gray_partial : forall (m : mat Z) d f o, is_mat m d f -> fits d -> pos d -> dz d <> 3 ->
  (forall x y z, inb d x y z -> 255 - 2 ^ 31 < f x y z < 2 ^ 31) -> (exists x y z, inb d x y z /\ f x y z < 255) ->
  exists c, print_image_int m o = ORet (o ++ picture d c) tt /\
    (forall x y, 0 <= x < dx d -> 0 <= y < dy d -> 0 <= c x y <= 255) /\
    (forall x y x' y', 0 <= x < dx d -> 0 <= y < dy d -> 0 <= x' < dx d -> 0 <= y' < dy d -> f x y 0 <= f x' y' 0 -> c x y <= c x' y') /\
    (forall x y, 0 <= x < dx d -> 0 <= y < dy d -> (forall x' y' z', inb d x' y' z' -> f x y 0 <= f x' y' z') -> c x y = 0) /\
    (forall x y, 0 <= x < dx d -> 0 <= y < dy d -> 255 <= f x y 0 -> c x y = 255) /\
    (forall x y x' y' z', 0 <= x < dx d -> 0 <= y < dy d -> f x y 0 <= 255 -> inb d x' y' z' -> (forall x1 y1 z1, inb d x1 y1 z1 -> f x' y' z' <= f x1 y1 z1) ->
      let g := (255 * IZR (f x y 0%Z - f x' y' z') / IZR (255 - f x' y' z'))%R in (g - 1.0002 < IZR (c x y) <= g + 0.0002)%R).
Proof. intros m d f o IM HF HP. exact (print_gray_int_ok m d f IM HF HP o). Qed.
Print Assumptions C93_gray_partial.
(** Refuted: an image that is white everywhere is undefined behaviour. *)
Theorem C93_white_refuted : forall (m : mat Z) d f o, is_mat m d f -> fits d -> pos d -> dz d <> 3 ->
  (forall x y z, inb d x y z -> f x y z = 255) -> print_image_int m o = OUB.
Proof. intros m d f o IM HF HP. exact (print_gray_int_white m d f IM HF HP o). Qed.
Print Assumptions C93_white_refuted.
(** Refuted: so are images whose ints are all above 255, images with very small ints, and negative ints in colour images. *)
Theorem C93_int_refuted : print_image_int (Mat (D3 1 2 1) [256; 300]) [] = OUB /\ print_image_int (Mat (D3 1 2 1) [255 - 2 ^ 31; 0]) [] = OUB /\
  print_image_int (Mat (D3 1 1 3) [0; -1; 5]) [] = OUB.
Proof. vm_compute. auto. Qed.
Print Assumptions C93_int_refuted.
Definition px_str (o : out text unit) : option text := match o with ORet t _ => Some t | _ => None end.
Example C93_ex : px_str (print_image_int (Mat (D3 1 3 1) [55; 155; 255]) []) =
  Some (esc ++ lit "[48;2;0;0;0m  " ++ esc ++ lit "[48;2;127;127;127m  " ++ esc ++ lit "[48;2;255;255;255m  " ++ esc ++ lit "[0m" ++ nl) /\
  px_str (print_image_int (Mat (D3 1 2 1) [-1000; 300]) []) = Some (esc ++ lit "[48;2;0;0;0m  " ++ esc ++ lit "[48;2;255;255;255m  " ++ esc ++ lit "[0m" ++ nl) /\
  px_str (print_image_int (Mat (D3 1 1 3) [1; 128; 254]) []) = Some (esc ++ lit "[48;2;1;128;254m   " ++ esc ++ lit "[0m" ++ nl).
Proof. vm_compute. auto. Qed.

(** ** C94 *)
(** [norm_is sqrtT m v]: v is the root of the sum of the squares of the elements of m. For every network: two lines for every
    layer, in order, with these norms. *)
Theorem C94_norms : forall T (N : Num T) sqrtT show labels (ls : list (layer T)) ss d o, usable_net labels ls ss d ->
  exists ps, Forall2 (fun l p => norm_is sqrtT (weights_of l) (fst p) /\ norm_is sqrtT (biases_of l) (snd p)) ls ps /\
    debug_weights sqrtT show 0 ls o = ORet (o ++ norm_text show 0 ps) tt.
Proof.
  intros T N sqrtT show labels ls ss d o U. destruct (net_norms sqrtT labels ls ss d U) as [ps H]. exists ps. split; [exact H|]. apply debug_weights_ok. exact H.
Qed.
Print Assumptions C94_norms.
Example C94_ex : px_str (debug_weights (fun v => Z.sqrt v) dec 0 [LConn (Conn (Par (Mat (D3 1 2 1) [3; -4]) (Mat (D3 1 1 1) [-2]) [] []) (D3 2 1 1) true); LSoft (sm_make 2)] []) =
  Some (lit "Layer 0 has weights of norm 5" ++ nl ++ lit "Layer 0 has biases of norm 2" ++ nl ++
        lit "Layer 1 has weights of norm 0" ++ nl ++ lit "Layer 1 has biases of norm 0" ++ nl).
Proof. vm_compute. reflexivity. Qed.
