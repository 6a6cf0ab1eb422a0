(** Properties C63 to C66: the MNIST reader, the data generator and the progress bar. *)
From Coq Require Import String ZArith Bool Ascii Lia Reals Lra List.
From Flocq Require Import Core.Core IEEE754.BinarySingleNaN.
From Verif Require Import Base Dim Matrix Float32 FloatFacts Batch Chars Train Spec Iter MatFacts LayerFacts Double Mnist MnistFacts Bar BarFacts.
Import ListNotations.
Local Open Scope Z_scope.

(** ** C63. [be32 f p] is the big-endian number at offset p, s32 its value as a signed number (the number itself below
    2^31); [big] is the byte order of the machine. *)
Theorem C63_open : forall big fi fl, 16 <= f_len fi -> 8 <= f_len fl ->
  s32 (be32 fi 0) = 2051 -> s32 (be32 fl 0) = 2049 -> s32 (be32 fi 4) = s32 (be32 fl 4) ->
  exists r, reader_open big (Readable fi) (Readable fl) = Ok r /\
    r_num r = s32 (be32 fi 4) /\ r_height r = s32 (be32 fi 8) /\ r_width r = s32 (be32 fi 12) /\ image_index r = 0 /\
    (0 <= s32 (be32 fi 4) -> num_images r = s32 (be32 fi 4)).
Proof.
  intros big fi fl Hi Hl A B C. rewrite reader_open_eq by assumption. rewrite A, B, C. cbn [andb Z.eqb Pos.eqb]. rewrite Z.eqb_refl.
  eexists. split; [reflexivity|]. repeat split. intros N. unfold num_images. cbn [r_num]. apply u64_id.
  unfold s32, two64, two31, two32 in *. pose proof (Z.mod_pos_bound (be32 fl 4 + 2147483648) 4294967296). lia.
Qed.
Print Assumptions C63_open.
Theorem C63_stop : forall big fi fl, 16 <= f_len fi -> 8 <= f_len fl ->
  s32 (be32 fi 0) <> 2051 \/ s32 (be32 fl 0) <> 2049 \/ s32 (be32 fi 4) <> s32 (be32 fl 4) ->
  reader_open big (Readable fi) (Readable fl) = Throw AssertFail.
Proof.
  intros big fi fl Hi Hl H. rewrite reader_open_eq by assumption.
  destruct (Z.eqb_spec (s32 (be32 fi 0)) 2051); [|reflexivity]. destruct (Z.eqb_spec (s32 (be32 fl 0)) 2049); [|reflexivity].
  destruct (Z.eqb_spec (s32 (be32 fi 4)) (s32 (be32 fl 4))); [|reflexivity]. tauto.
Qed.
Print Assumptions C63_stop.
(** A file name without a file stops the program as well. *)
Theorem C63_missing : forall big ei el, ei = Missing \/ el = Missing -> reader_open big ei el = Throw AssertFail.
Proof. intros big ei el [-> | ->]; unfold reader_open; [|destruct ei]; reflexivity. Qed.
Print Assumptions C63_missing.
(** A file without a complete magic number is outside the property: whatever is compared with 2051 is undefined. *)
Theorem C63_short : forall big fi el, 0 <= f_len fi < 4 -> el <> Missing -> reader_open big (Readable fi) el = UB.
Proof. exact reader_open_short. Qed.
Print Assumptions C63_short.

(** Three images of 2 rows and 3 columns *)
Definition file_of (l : list Z) : file := File (Z.of_nat (length l)) (fun k => nth (Z.to_nat k) l 0).
Definition ex_images : file := file_of
  ([0;0;8;3] ++ [0;0;0;3] ++ [0;0;0;2] ++ [0;0;0;3] ++ [10;20;30;40;50;60] ++ [0;128;255;129;127;1] ++ [7;7;7;7;7;8]).
Definition ex_labels : file := file_of ([0;0;8;1] ++ [0;0;0;3] ++ [5;200;9]).
Example C63_ex :
  match reader_open false (Readable ex_images) (Readable ex_labels) with
  | Ok r => r_num r = 3 /\ r_height r = 2 /\ r_width r = 3 /\ num_images r = 3
  | _ => False
  end
  /\ reader_open true (Readable ex_labels) (Readable ex_images) = Throw AssertFail
  /\ reader_open true (Readable ex_images) (Readable (file_of ([0;0;8;1] ++ [0;0;3;0]))) = Throw AssertFail
  /\ match reader_open true (Readable (file_of ([0;0;8;3] ++ [1;2;3;4] ++ [5;6;7;8] ++ [128;0;0;1]))) (Readable (file_of ([0;0;8;1] ++ [1;2;3;4]))) with
     | Ok r => r_num r = 16909060 /\ r_height r = 84281096 /\ r_width r = -2147483647
     | _ => False
     end.
Proof. vm_compute. repeat split. Qed.

(** ** C64. [mnist limit n h w fi fl]: a complete pair of files with n images of h rows and w columns, h*w an int; [limit]
    is the largest file offset the system takes. [asked] lists the images that a history of calls asks for, [answer] says
    what the outcome must be: the image, or an exception if there is none with this number. *)
Theorem C64_history_partial : forall big limit n h w fi fl cs, mnist limit n h w fi fl -> Forall (sensible limit h w) cs ->
  exists r os r', reader_open big (Readable fi) (Readable fl) = Ok r /\ play big limit cs r = Ok (os, r') /\
    Forall2 (answer n h w fi fl) (asked n 0 cs) os.
Proof.
  intros big limit n h w fi fl cs P S. destruct (open_usable big limit n h w fi fl P) as (r & E & U & C).
  destruct (play_ok big limit n h w fi fl P cs r U S) as (os & r' & E' & A & _). rewrite C in A. eauto 10.
Qed.
Print Assumptions C64_history_partial.
(** getImage alone, whatever was called before: the pixels and the label, and the error *)
Theorem C64_get_image_partial : forall big limit n h w fi fl cs i, mnist limit n h w fi fl -> Forall (sensible limit h w) cs ->
  forall r os r', reader_open big (Readable fi) (Readable fl) = Ok r -> play big limit cs r = Ok (os, r') ->
  (0 <= i < n -> exists r'' g, get_image big limit i r' = ORet r'' g /\
     is_mat (i_data g) (D3 h w 1) (fun r c _ => shade (f_byte fi (16 + i * h * w + r * w + c))) /\ i_label g = f_byte fl (8 + i)) /\
  (n <= i -> reachable limit h w i -> exists r'', get_image big limit i r' = OThrow r'' RuntimeError).
Proof.
  intros big limit n h w fi fl cs i P S r os r' E E'.
  destruct (open_usable big limit n h w fi fl P) as (r0 & E0 & U & C). rewrite E in E0. injection E0 as <-.
  destruct (play_ok big limit n h w fi fl P cs r U S) as (os0 & r0 & E1 & _ & U'). rewrite E' in E1. injection E1 as <- <-.
  split.
  - intros Hi. destruct (call_ok big limit n h w fi fl P (Get i) r' U' (index_reachable limit n h w fi fl P i ltac:(lia)))
      as [(_ & r'' & g & X & (G1 & G2) & _)|(L & _)]; [eauto 10|lia].
  - intros Hi R. destruct (call_ok big limit n h w fi fl P (Get i) r' U' R) as [(L & _)|(_ & r'' & X & _)]; [lia|eauto].
Qed.
Print Assumptions C64_get_image_partial.
(** The value of a pixel is the float nearest to (byte - 128)/255. *)
Theorem C64_pixel : forall b, 0 <= b < 256 -> is_finite (shade b) = true /\
  B2R (shade b) = round radix2 (SpecFloat.fexp 24 128) ZnearestE ((IZR b - 128) / 255).
Proof.
  intros b H. destruct (normal_ok b H) as (v & E & F & V). rewrite normal_shade in E by assumption. injection E as <-. auto.
Qed.
Print Assumptions C64_pixel.

Lemma byte_list : forall l, forallb (fun b => (0 <=? b) && (b <? 256)) l = true -> forall k, 0 <= nth k l 0 < 256.
Proof.
  intros l H k. destruct (Nat.lt_ge_cases k (length l)) as [L|L].
  - rewrite forallb_forall in H. specialize (H _ (nth_In l 0 L)). lia.
  - rewrite nth_overflow by assumption. lia.
Qed.
Lemma ex_mnist : mnist 100 3 2 3 ex_images ex_labels.
Proof.
  split; try reflexivity; try (vm_compute; intuition congruence).
  intros k. split; apply byte_list; reflexivity.
Qed.
(** The second image, read by going on after the first one, and again by its number after the error for number 3 *)
Definition floats (m : mat f32) : list (bool * positive * Z) :=
  map (fun x => match x with B754_finite s m e _ => (s, m, e) | _ => (false, 1%positive, 0) end) (mvals m).
Definition shown_image (o : image + exn) : list (bool * positive * Z) * Z + exn :=
  match o with inl g => inl (floats (i_data g), i_label g) | inr e => inr e end.
Example C64_ex :
  match (r <- reader_open true (Readable ex_images) (Readable ex_labels) ;; play true 100 [Get 0; Next; Get 3; Next; Get 1; Next; Next] r)%res with
  | Ok (os, _) =>
      map (fun o => match o with inl g => inl (i_label g) | inr e => inr e end) os =
        [inl 5; inl 200; inr RuntimeError; inr RuntimeError; inl 200; inl 9; inr RuntimeError] /\
      nth 1 (map shown_image os) (inr AssertFail) = nth 4 (map shown_image os) (inr AssertFail) /\
      match nth 4 os (inr AssertFail) with
      | inl g => mdim (i_data g) = D3 2 3 1 /\ map B2SF (mvals (i_data g)) = map (fun b => B2SF (shade b)) [0; 129; 128; 127; 255; 1]
      | _ => False
      end
  | _ => False
  end.
Proof. vm_compute. repeat split. Qed.

(** An index so large that the offset cannot be represented raises the error, but then the stream has failed for good:
    the next image is undefined. *)
Theorem C64_far_refuted : exists n h w fi fl r r' i, mnist (2 ^ 63 - 1) n h w fi fl /\ 0 <= i < two64 /\
  reader_open false (Readable fi) (Readable fl) = Ok r /\
  get_image false (2 ^ 63 - 1) i r = OThrow r' RuntimeError /\ 0 < n /\ get_image false (2 ^ 63 - 1) 0 r' = OUB.
Proof.
  exists 3, 2, 3, ex_images, ex_labels, (Reader (at_pos ex_images 16) (at_pos ex_labels 8) 3 3 2 0),
    (Reader (at_pos ex_images 16) (FStr ex_labels 8 false true) 3 3 2 (2 ^ 63)), (2 ^ 63).
  split; [apply (mnist_mono 100); [exact ex_mnist|vm_compute; intuition congruence]|].
  split; [vm_compute; intuition congruence|]. split; [vm_compute; reflexivity|]. split; [vm_compute; reflexivity|].
  split; vm_compute; reflexivity.
Qed.
Print Assumptions C64_far_refuted.
Definition cut_images : file := file_of ([0;0;8;3] ++ [0;0;0;2] ++ [0;0;0;1] ++ [0;0;0;2] ++ [10;20;30]).
Definition cut_labels : file := file_of ([0;0;8;1] ++ [0;0;0;2] ++ [1;2]).
(** Images that the headers promise but the file does not contain are undefined, not an error. *)
Theorem C64_truncated_refuted : exists fi fl r, reader_open false (Readable fi) (Readable fl) = Ok r /\
  num_images r = 2 /\ get_image false 1000 1 r = OUB.
Proof.
  exists cut_images, cut_labels, (Reader (at_pos cut_images 16) (at_pos cut_labels 8) 2 2 1 0).
  split; [vm_compute; reflexivity|]. split; vm_compute; reflexivity.
Qed.
Print Assumptions C64_truncated_refuted.
Definition huge_images : file :=
  File (16 + 65536 * 32768) (fun k => nth (Z.to_nat k) ([0;0;8;3] ++ [0;0;0;1] ++ [0;1;0;0] ++ [0;0;128;0]) 0).
Definition huge_labels : file := file_of ([0;0;8;1] ++ [0;0;0;1] ++ [1]).
(** Images with 2^31 pixels or more: the number of elements overflows an int. *)
Theorem C64_large_refuted : exists fi fl r, reader_open false (Readable fi) (Readable fl) = Ok r /\
  num_images r = 1 /\ f_len fi = 16 + r_height r * r_width r /\ f_len fl = 9 /\ get_image false (2 ^ 63 - 1) 0 r = OUB.
Proof.
  exists huge_images, huge_labels, (Reader (at_pos huge_images 16) (at_pos huge_labels 8) 1 32768 65536 0).
  split; [vm_compute; reflexivity|]. repeat (split; [reflexivity|]). vm_compute. reflexivity.
Qed.
Print Assumptions C64_large_refuted.

(** ** C65. [delivers r ps]: hasAvailableData is true and getNextDataPoint returns the points ps one after the other, then
    hasAvailableData is false (and a further getNextDataPoint raises an exception). *)
Theorem C65_generator_partial : forall big limit n h w fi fl, mnist limit n h w fi fl -> 1 <= n ->
  exists r ps, gen_open big limit (Readable fi) (Readable fl) = Ok r /\
    gen_size r = n - 1 /\ Z.of_nat (length ps) = gen_size r /\
    (forall k p, nth_error ps k = Some p -> point_no h w fi fl (Z.of_nat k + 1) p) /\
    delivers big r ps /\
    forall cs, exists r' r'', gen_play big limit cs r = Ok r' /\ gen_size r' = n - 1 /\
      gen_reset big limit r' = ORet r'' tt /\ delivers big r'' ps.
Proof.
  intros big limit n h w fi fl P Hn. assert (N : 0 <= n < two31) by apply P.
  destruct (gen_open_ok big limit n h w fi fl P Hn) as (r & E & U & X).
  destruct (delivers_rest big limit n h w fi fl P Hn) as (ps & D & L & A).
  assert (G : forall r0, usable n h w fi fl r0 -> gen_size r0 = n - 1).
  { intros r0 (p & q & i & -> & _). unfold gen_size, num_images. cbn [r_num]. rewrite (u64_id n) by (unfold two64, two31 in *; lia).
    apply u64_id. unfold two64, two31 in *. lia. }
  exists r, ps. split; [exact E|]. split; [apply G; exact U|]. split; [rewrite (G r U); exact L|]. split; [exact A|]. split; [rewrite X; exact D|].
  intros cs. destruct (gen_play_ok big limit n h w fi fl P cs r U) as (r' & E' & U').
  destruct (reset_ok big limit n h w fi fl P r' U' Hn) as (r'' & E'' & _ & X'').
  exists r', r''. split; [exact E'|]. split; [apply G; exact U'|]. split; [exact E''|]. rewrite X''. exact D.
Qed.
Print Assumptions C65_generator_partial.
(** There is no generator for files without images. *)
Theorem C65_no_images : forall big limit h w fi fl, mnist limit 0 h w fi fl ->
  gen_open big limit (Readable fi) (Readable fl) = Throw RuntimeError.
Proof. intros. eapply gen_open_empty; eauto. Qed.
Print Assumptions C65_no_images.
(** If the file is shorter than announced the end is passed. *)
Theorem C65_truncated_refuted : exists fi fl r, gen_open false 1000 (Readable fi) (Readable fl) = Ok r /\
  gen_size r = 1 /\ gen_has r = true /\ gen_next false r = OUB.
Proof.
  exists cut_images, cut_labels, (Reader (at_pos cut_images 18) (at_pos cut_labels 9) 2 2 1 1).
  split; [vm_compute; reflexivity|]. split; [vm_compute; reflexivity|]. split; vm_compute; reflexivity.
Qed.
Print Assumptions C65_truncated_refuted.

Example C65_ex :
  match gen_open false 100 (Readable ex_images) (Readable ex_labels) with
  | Ok r => gen_size r = 2 /\ gen_has r = true /\
      match gen_next false r with
      | ORet r1 p1 => pt_label p1 = lit "200" /\ gen_has r1 = true /\
          match gen_next false r1 with
          | ORet r2 p2 => pt_label p2 = lit "9" /\ map B2SF (mvals (pt_data p2)) = map (fun b => B2SF (shade b)) [7; 7; 7; 7; 7; 8] /\
              gen_has r2 = false /\
              match gen_reset false 100 r2 with ORet r3 _ => gen_has r3 = true /\ r3 = r | _ => False end
          | _ => False
          end
      | _ => False
      end
  | _ => False
  end.
Proof. vm_compute. repeat split. Qed.

(** ** C66. The line has 56 characters, its percentage is the rounded-down one plus one. *)
Theorem C66_bar_partial : forall n nb, 0 <= n < nb -> nb <= 2 ^ 24 -> exists o p,
  batch_bar n nb = Ok (framed (bar_of o p)) /\ length (bar_of o p) = 56%nat /\ 0 <= o <= 49 /\
  p = 100 * n / nb + 1 /\ 1 <= p <= 100.
Proof.
  intros n nb H L. destruct (batch_bar_eq n nb H) as (o & p & E & O & P & X); [unfold two31; lia|].
  destruct (X L) as (Ho & Hp). exists o, p. split; [exact E|].
  assert (100 * n / nb < 100) by (apply Z.div_lt_upper_bound; lia).
  split; [|lia]. rewrite bar_width by lia. destruct (Z.eqb_spec o 50); [lia|reflexivity].
Qed.
Print Assumptions C66_bar_partial.
(** For any number of batches nothing is undefined, and the line has at most one character too many. *)
Theorem C66_any_count_partial : forall n nb, 0 <= n < nb -> nb <= two31 -> exists o p,
  batch_bar n nb = Ok (framed (bar_of o p)) /\ (length (bar_of o p) = 56 \/ length (bar_of o p) = 57)%nat /\ 1 <= p <= 101.
Proof.
  intros n nb H L. destruct (batch_bar_eq n nb H L) as (o & p & E & O & P & _). exists o, p. split; [exact E|].
  split; [|exact P]. rewrite bar_width by lia. destruct (o =? 50); auto.
Qed.
Print Assumptions C66_any_count_partial.
(** The number of = signs is the rounded quotient times the rounded width, cut off; below 0, from 2^64 on and without a
    value (total 0) the conversion is undefined. *)
Theorem C66_occupied : forall val total width, let q := f32_mul (f32_div val total) (f32_of_Z width) in
  bar_occupied val total width =
    if is_finite q && (0 <=? Ztrunc (B2R q)) && (Ztrunc (B2R q) <? two64) then Ok (Ztrunc (B2R q)) else UB.
Proof.
  intros val total width q. unfold bar_occupied. fold q. unfold to_size. destruct (is_finite q) eqn:F.
  - rewrite truncated_ok by exact F. reflexivity.
  - destruct q; try discriminate; reflexivity.
Qed.
Print Assumptions C66_occupied.
Example C66_occupied_ex : bar_occupied (f32_of_Z 3) (f32_of_Z 4) 50 = Ok 37 /\ bar_occupied (f32_of_Z (-3)) (f32_of_Z 4) 50 = UB /\
  bar_occupied (f32_of_Z 3) (f32_of_Z 0) 50 = UB.
Proof. vm_compute. repeat split. Qed.
(** From 2^24+1 batches on the counts are rounded: 101%, and one more column. *)
Theorem C66_many_batches_refuted : exists n nb o p, 0 <= n < nb /\ nb < two31 /\
  batch_bar n nb = Ok (framed (bar_of o p)) /\ p = 101 /\ length (bar_of o p) = 57%nat.
Proof. exists 16777216, 16777217, 50, 101. vm_compute. repeat split; congruence. Qed.
Print Assumptions C66_many_batches_refuted.
Example C66_ex :
  batch_bar 937 1875 = Ok (framed (lit "[========================                         ]  50%")) /\
  batch_bar 0 1 = Ok (framed (lit "[                                                 ]   1%")) /\
  batch_bar 1874 1875 = Ok (framed (lit "[=================================================] 100%")).
Proof. vm_compute. repeat split. Qed.
