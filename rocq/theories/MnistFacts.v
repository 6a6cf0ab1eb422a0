(** Facts about the MNIST reader and the data generator of Mnist.v. *)
From Coq Require Import ZArith List Bool Lia Reals Lra.
From Flocq Require Import Core BinarySingleNaN.
From Verif Require Import Base Dim Matrix Float32 Batch Chars Train Spec Iter MatFacts FloatFacts LayerFacts Mnist.
Import ListNotations.
Local Open Scope Z_scope.

(** A stream without error bits *)
Notation at_pos f p := (FStr f p false false).

Lemma is_bigendian_ok : forall big, is_bigendian big = big.
Proof. destruct big; reflexivity. Qed.

Lemma fread1_ok : forall f p, p + 1 <= f_len f -> fread 1 (at_pos f p) = (at_pos f (p + 1), [f_byte f p]).
Proof.
  intros f p H. unfold fread. cbn [s_eof s_fail orb s_pos s_file]. change (Z.of_nat 1) with 1.
  rewrite (proj2 (Z.leb_le _ _)) by lia. unfold bytes_at. cbn [seq map]. rewrite Z.add_0_r. reflexivity.
Qed.
Lemma fread4_ok : forall f p, p + 4 <= f_len f ->
  fread 4 (at_pos f p) = (at_pos f (p + 4), [f_byte f p; f_byte f (p + 1); f_byte f (p + 2); f_byte f (p + 3)]).
Proof.
  intros f p H. unfold fread. cbn [s_eof s_fail orb s_pos s_file]. change (Z.of_nat 4) with 4.
  rewrite (proj2 (Z.leb_le _ _)) by lia. unfold bytes_at. cbn [seq map].
  change (Z.of_nat 0) with 0. change (Z.of_nat 1) with 1. change (Z.of_nat 2) with 2. change (Z.of_nat 3) with 3.
  rewrite Z.add_0_r. reflexivity.
Qed.

(** The four bytes from [p] on as a big-endian number *)
Definition be32 (f : file) (p : Z) : Z :=
  16777216 * f_byte f p + 65536 * f_byte f (p + 1) + 256 * f_byte f (p + 2) + f_byte f (p + 3).

Lemma read_num4_ok : forall big f p, p + 4 <= f_len f -> read_num big 4 (at_pos f p) = ORet (at_pos f (p + 4)) (be32 f p).
Proof.
  intros big f p H. unfold read_num, read_raw. rewrite is_bigendian_ok. destruct big.
  - rewrite fread4_ok by lia. cbn -[Z.mul Z.add]. f_equal. unfold number, be32. cbn -[Z.mul Z.add]. ring.
  - cbn [read_down]. rewrite fread1_ok by lia. rewrite fread1_ok by lia. rewrite fread1_ok by lia. rewrite fread1_ok by lia.
    cbn -[Z.mul Z.add]. replace (p + 1 + 1) with (p + 2) by ring. replace (p + 2 + 1) with (p + 3) by ring.
    replace (p + 3 + 1) with (p + 4) by ring. f_equal. unfold number, be32. cbn -[Z.mul Z.add]. ring.
Qed.
Lemma read_i32_ok : forall big f p, p + 4 <= f_len f -> read_i32 big (at_pos f p) = ORet (at_pos f (p + 4)) (s32 (be32 f p)).
Proof. intros. unfold read_i32. rewrite read_num4_ok by assumption. reflexivity. Qed.
Lemma read_u8_ok : forall big f p, p + 1 <= f_len f -> read_u8 big (at_pos f p) = ORet (at_pos f (p + 1)) (f_byte f p).
Proof.
  intros big f p H. unfold read_u8, read_num, read_raw. rewrite is_bigendian_ok.
  destruct big; cbn [read_down]; rewrite fread1_ok by lia; cbn -[Z.mul Z.add]; f_equal; unfold number; cbn -[Z.mul Z.add]; ring.
Qed.

(** ** Opening. *)

(** The whole behaviour of the constructor on files with complete headers *)
Lemma reader_open_eq : forall big fi fl, 16 <= f_len fi -> 8 <= f_len fl ->
  reader_open big (Readable fi) (Readable fl) =
  if (s32 (be32 fi 0) =? 2051) && (s32 (be32 fl 0) =? 2049) && (s32 (be32 fi 4) =? s32 (be32 fl 4))
  then Ok (Reader (at_pos fi 16) (at_pos fl 8) (s32 (be32 fi 4)) (s32 (be32 fi 12)) (s32 (be32 fi 8)) 0)
  else Throw AssertFail.
Proof.
  intros big fi fl Hi Hl. unfold reader_open. cbn [exists_file negb fopen]. unfold reader_init, bind, on_images at 1. cbn [r_images].
  rewrite read_i32_ok by lia. unfold massert at 1. cbn [r_labels r_num r_width r_height r_cur].
  destruct (s32 (be32 fi 0) =? 2051); [|reflexivity]. cbn [ret andb].
  unfold on_labels at 1. cbn [r_labels]. rewrite read_i32_ok by lia. unfold massert at 1. cbn [r_images r_num r_width r_height r_cur].
  destruct (s32 (be32 fl 0) =? 2049); [|reflexivity]. cbn [ret andb].
  unfold on_images at 1. cbn [r_images]. rewrite read_i32_ok by lia. cbn [r_labels r_num r_width r_height r_cur].
  unfold on_labels at 1. cbn [r_labels]. rewrite read_i32_ok by lia. unfold massert. cbn [r_images r_num r_width r_height r_cur].
  destruct (s32 (be32 fi (0 + 4)) =? s32 (be32 fl (0 + 4))) eqn:E; cbn [Z.add] in E; rewrite E; [|reflexivity]. cbn [ret andb set_num].
  unfold on_images at 1. cbn [r_images r_labels r_num r_width r_height r_cur]. rewrite read_i32_ok by lia. cbn [r_labels r_num r_width r_height r_cur set_height r_images].
  unfold on_images at 1. cbn [r_images r_labels r_num r_width r_height r_cur]. rewrite read_i32_ok by lia. cbn [r_labels r_num r_width r_height r_cur set_width r_images].
  reflexivity.
Qed.

(** A file that is too short for its magic number is not recognised: the value is indeterminate. *)
Lemma read_i32_short : forall big f, 0 <= f_len f < 4 -> read_i32 big (at_pos f 0) = OUB.
Proof.
  intros big f H. unfold read_i32, read_num, read_raw. rewrite is_bigendian_ok.
  assert (C : f_len f = 0 \/ f_len f = 1 \/ f_len f = 2 \/ f_len f = 3) by lia.
  destruct f as [n b]. cbn [f_len] in C. destruct C as [->|[->|[->| ->]]]; destruct big; reflexivity.
Qed.
Lemma reader_open_short : forall big fi el, 0 <= f_len fi < 4 -> el <> Missing -> reader_open big (Readable fi) el = UB.
Proof.
  intros big fi el H E. unfold reader_open. cbn [exists_file negb fopen].
  destruct el; [contradiction| |]; cbn [exists_file negb]; unfold reader_init, bind, on_images; cbn [r_images];
    rewrite read_i32_short by assumption; reflexivity.
Qed.

(** ** Pixels. *)

Lemma normal_ok : forall b, 0 <= b < 256 -> exists v, normal b = Ok v /\ is_finite v = true /\
  B2R v = round radix2 (SpecFloat.fexp 24 128) ZnearestE ((IZR b - 128) / 255).
Proof.
  intros b H. unfold normal. rewrite i32_ok by (unfold two31; lia). cbn [rbind].
  destruct (of_Z_exact (b - 128)) as [A A']; [lia|]. destruct (of_Z_exact 255) as [B B']; [lia|].
  eexists. split; [reflexivity|].
  destruct (div_correct (f32_of_Z (b - 128)) (f32_of_Z 255)) as [C D].
  - exact A'.
  - rewrite A. rewrite <- abs_IZR. change (bpow radix2 32) with (IZR (2 ^ 32)). apply IZR_le. lia.
  - rewrite B. lra.
  - split; [exact C|]. rewrite D, A, B, minus_IZR. reflexivity.
Qed.
(** The value that [normal] gives for a byte *)
Definition shade (b : Z) : f32 := f32_div (f32_of_Z (b - 128)) (f32_of_Z 255).
Lemma normal_shade : forall b, 0 <= b < 256 -> normal b = Ok (shade b).
Proof. intros. unfold normal. rewrite i32_ok by (unfold two31; lia). reflexivity. Qed.

Lemma read_pixels_ok : forall big f p h w m0, fits (D3 h w 1) -> p + h * w <= f_len f -> mdim m0 = D3 h w 1 -> consistent m0 ->
  (exists g, is_mat m0 (D3 h w 1) g) ->
  exists m, read_pixels big h w (at_pos f p, m0) = ORet (at_pos f (p + h * w), m) tt /\
    is_mat m (D3 h w 1) (fun r c _ => f_byte f (p + r * w + c)).
Proof.
  intros big f p h w m0 F L _ _ [g0 G0].
  pose proof (fits_dims _ F) as (H1 & H2 & _). cbn [dx dy] in H1, H2.
  unfold read_pixels.
  set (body := fun row => mfor w _).
  pose (I := fun (k : Z) (st : fstr * mat Z) => exists m g, st = (at_pos f (p + k * w), m) /\ is_mat m (D3 h w 1) g /\
                forall r c, 0 <= r < k -> 0 <= c < w -> g r c 0 = f_byte f (p + r * w + c)).
  destruct (mfor_inv I body h (at_pos f p, m0)) as (st & E & J).
  - lia.
  - intros row st Hr (m & g & -> & Gm & Gv). unfold body.
    pose (I' := fun (k : Z) (st : fstr * mat Z) => exists m g, st = (at_pos f (p + row * w + k), m) /\ is_mat m (D3 h w 1) g /\
                forall r c, 0 <= c < w -> (0 <= r < row \/ r = row /\ c < k) -> g r c 0 = f_byte f (p + r * w + c)).
    match goal with |- context [mfor w ?b] => destruct (mfor_inv I' b w (at_pos f (p + row * w), m)) as (st' & E' & J') end.
    + lia.
    + intros col st' Hc (m1 & g1 & -> & Gm1 & Gv1).
      rewrite read_u8_ok by nia.
      destruct (mwrite_is m1 (D3 h w 1) g1 row col 0 (f_byte f (p + row * w + col)) Gm1 F) as (m2 & W & Gm2).
      { unfold inb; cbn [dx dy dz]; lia. }
      rewrite W. eexists. split; [reflexivity|].
      exists m2, (fupd g1 row col 0 (f_byte f (p + row * w + col))). split; [f_equal; f_equal; ring|]. split; [exact Gm2|].
      intros r c Hc' Hx. destruct (Z.eq_dec r row) as [->|N1]; [destruct (Z.eq_dec c col) as [->|N2]|].
      * apply fupd_eq.
      * rewrite fupd_neq by congruence. apply Gv1; lia.
      * rewrite fupd_neq by congruence. apply Gv1; lia.
    + exists m, g. rewrite Z.add_0_r. split; [reflexivity|]. split; [exact Gm|]. intros r c Hc [Hx|Hx]; [apply Gv; lia|lia].
    + rewrite E'. eexists. split; [reflexivity|]. destruct J' as (m1 & g1 & -> & Gm1 & Gv1).
      exists m1, g1. split; [f_equal; f_equal; ring|]. split; [exact Gm1|]. intros r c Hr' Hc'. apply Gv1; lia.
  - exists m0, g0. rewrite Z.mul_0_l, Z.add_0_r. repeat split; auto; try apply G0; intros; lia.
  - destruct J as (m & g & -> & Gm & Gv). rewrite E. exists m. split; [reflexivity|].
    apply (is_mat_ext m _ _ _ Gm). intros x y z. unfold inb. cbn [dx dy dz]. intros. replace z with 0 by lia. apply Gv; lia.
Qed.

(** ** Images. *)

(** A pair of files with [n] images of [h] rows and [w] columns; [limit] is the largest offset of the file system. *)
Record mnist (limit n h w : Z) (fi fl : file) : Prop := {
  mn_imagic : be32 fi 0 = 2051;
  mn_lmagic : be32 fl 0 = 2049;
  mn_icount : be32 fi 4 = n;
  mn_lcount : be32 fl 4 = n;
  mn_height : be32 fi 8 = h;
  mn_width : be32 fi 12 = w;
  mn_n : 0 <= n < two31;
  mn_fits : fits (D3 h w 1);
  mn_ilen : 16 + n * h * w <= f_len fi;
  mn_llen : 8 + n <= f_len fl;
  mn_bytes : forall k, 0 <= f_byte fi k < 256 /\ 0 <= f_byte fl k < 256;
  mn_limit : f_len fi <= limit /\ f_len fl <= limit /\ limit < 2 ^ 63;
}.

Lemma mnist_mono : forall limit limit' n h w fi fl, mnist limit n h w fi fl -> limit <= limit' < 2 ^ 63 -> mnist limit' n h w fi fl.
Proof. intros limit limit' n h w fi fl P L. destruct P. constructor; try assumption. lia. Qed.

(** Image number [i] of the files *)
Definition image_no (h w : Z) (fi fl : file) (i : Z) (g : image) : Prop :=
  is_mat (i_data g) (D3 h w 1) (fun r c _ => shade (f_byte fi (16 + i * h * w + r * w + c))) /\
  i_label g = f_byte fl (8 + i).

(** The reader is usable: no error bits, and the streams are at the current image if there is one. *)
Definition usable (n h w : Z) (fi fl : file) (r : reader) : Prop :=
  exists p q i, r = Reader (at_pos fi p) (at_pos fl q) n w h i /\ 0 <= i < two64 /\ (i < n -> p = 16 + i * h * w /\ q = 8 + i).

(** One image; the rest of the files may be missing. *)
Lemma next_at : forall big n h w fi fl i, 0 <= i < n -> n < two31 -> fits (D3 h w 1) -> 16 + (i + 1) * h * w <= f_len fi -> 8 + (i + 1) <= f_len fl ->
  (forall k, 0 <= f_byte fi k < 256 /\ 0 <= f_byte fl k < 256) ->
  exists g, next_image big (Reader (at_pos fi (16 + i * h * w)) (at_pos fl (8 + i)) n w h i) =
      ORet (Reader (at_pos fi (16 + (i + 1) * h * w)) (at_pos fl (8 + (i + 1))) n w h (i + 1)) g /\
    image_no h w fi fl i g.
Proof.
  intros big n h w fi fl i Hi Hn F L1 L2 BY.
  unfold next_image, bind, mget, num_images. cbn [r_num r_cur r_height r_width].
  rewrite u64_id by (unfold two64, two31 in *; lia).
  destruct (Z.leb_spec n i); [lia|]. unfold lift.
  destruct (mat_fill_ok (D3 h w 1) 0 F) as (m0 & E0 & G0). rewrite E0.
  unfold on_images. cbn [r_images].
  destruct (read_pixels_ok big fi (16 + i * h * w) h w m0 F) as (m & E & G).
  { nia. }
  { apply G0. } { apply (is_mat_consistent _ _ _ G0). } { eauto. }
  rewrite E. unfold on_labels. cbn [r_labels r_images r_num r_width r_height r_cur].
  rewrite read_u8_ok by lia. cbn [r_images r_num r_width r_height r_cur].
  destruct (assign_lz_indep (f32_of_Z 0) (normalised m) mat_empty (D3 h w 1)
             (fun r c _ => shade (f_byte fi (16 + i * h * w + r * w + c))) F) as (d & Ed & Gd).
  { cbn. apply G. } { reflexivity. }
  { intros s x y z I. cbn [normalised lget]. rewrite (is_mat_read m _ _ x y z G F I). cbn [rbind].
    apply normal_shade. apply BY. }
  rewrite Ed. cbn [run_state set_cur]. unfold ret, set_cur. cbn [r_images r_labels r_num r_width r_height r_cur].
  rewrite u64_id by (unfold two64, two31 in *; lia).
  eexists. split.
  - f_equal. f_equal; f_equal; ring.
  - split; [exact Gd|reflexivity].
Qed.

Section Files.
Context (big : bool) (limit n h w : Z) (fi fl : file) (P : mnist limit n h w fi fl).

Lemma size_bounds : 0 <= h < two31 /\ 0 <= w < two31 /\ 0 <= n * h * w.
Proof.
  destruct P. pose proof (fits_dims _ mn_fits0) as (A & B & _). cbn [dx dy] in *. split; [lia|]. split; [lia|].
  apply Z.mul_nonneg_nonneg; [apply Z.mul_nonneg_nonneg|]; lia.
Qed.

Lemma open_usable : exists r, reader_open big (Readable fi) (Readable fl) = Ok r /\ usable n h w fi fl r /\ r_cur r = 0.
Proof.
  pose proof size_bounds as (B1 & B2 & B3). destruct P.
  rewrite reader_open_eq by lia.
  rewrite mn_imagic0, mn_lmagic0, mn_icount0, mn_lcount0, mn_height0, mn_width0.
  rewrite !s32_id by (unfold two31 in *; lia). cbn [Z.eqb Pos.eqb andb]. rewrite Z.eqb_refl.
  eexists. split; [reflexivity|]. split; [|reflexivity].
  exists 16, 8, 0. split; [reflexivity|]. split; [unfold two64; lia|]. intros. split; lia.
Qed.

Lemma next_ok : forall i, 0 <= i < n ->
  exists g, next_image big (Reader (at_pos fi (16 + i * h * w)) (at_pos fl (8 + i)) n w h i) =
      ORet (Reader (at_pos fi (16 + (i + 1) * h * w)) (at_pos fl (8 + (i + 1))) n w h (i + 1)) g /\
    image_no h w fi fl i g.
Proof.
  intros i Hi. pose proof size_bounds as (B1 & B2 & B3). destruct P. apply next_at; try assumption; try lia.
  assert ((i + 1) * (h * w) <= n * (h * w)) by (apply Z.mul_le_mono_nonneg_r; nia). nia.
Qed.

Lemma next_end : forall p q i, n <= i ->
  next_image big (Reader p q n w h i) = OThrow (Reader p q n w h i) RuntimeError.
Proof.
  intros p q i Hi. destruct P. unfold next_image, bind, mget, num_images. cbn [r_num r_cur].
  rewrite u64_id by (unfold two64, two31 in *; lia). rewrite (proj2 (Z.leb_le _ _)) by assumption. reflexivity.
Qed.

(** An offset that the file system takes: indices so far beyond the end that the offsets leave its range are not. *)
Definition reachable (i : Z) : Prop := 0 <= i /\ 16 + i * h * w <= limit /\ 8 + i <= limit.

Lemma index_reachable : forall i, 0 <= i <= n -> reachable i.
Proof.
  intros i Hi. pose proof size_bounds as (B1 & B2 & B3). destruct P. unfold reachable.
  assert (i * (h * w) <= n * (h * w)) by (apply Z.mul_le_mono_nonneg_r; nia). split; [lia|]. split; nia.
Qed.

Lemma s64_id : forall z, 0 <= z < 2 ^ 63 -> s64 z = z.
Proof. intros z H. unfold s64. rewrite Z.mod_small; unfold two64; lia. Qed.

Lemma seek_ok : forall f p o, 0 <= o <= limit -> seekg limit (u64 o) (at_pos f p) = at_pos f o.
Proof.
  intros f p o H. destruct P. unfold seekg. cbn [s_fail s_file]. rewrite u64_id by (unfold two64; lia). rewrite s64_id by lia.
  destruct (Z.ltb_spec o 0); [lia|]. destruct (Z.ltb_spec limit o); [lia|]. reflexivity.
Qed.

Lemma get_eq : forall p q c i, reachable i ->
  get_image big limit i (Reader (at_pos fi p) (at_pos fl q) n w h c) =
  next_image big (Reader (at_pos fi (16 + i * h * w)) (at_pos fl (8 + i)) n w h i).
Proof.
  intros p q c i (R1 & R2 & R3). pose proof size_bounds as (B1 & B2 & B3).
  unfold get_image, bind. cbn [set_cur]. unfold set_cur, mget, on_images, on_labels. cbn [r_images r_labels r_num r_width r_height r_cur].
  change (4 * 4) with 16. change (2 * 4) with 8.
  rewrite seek_ok by (split; [|assumption]; nia). rewrite seek_ok by lia. reflexivity.
Qed.

(** ** Histories of calls *)

Lemma Forall2_len : forall {A B} (R : A -> B -> Prop) l l', Forall2 R l l' -> length l = length l'.
Proof. intros A B R l l' F. induction F; cbn; congruence. Qed.
Lemma Forall2_nth : forall {A B} (R : A -> B -> Prop) l l', Forall2 R l l' ->
  forall k a b, nth_error l k = Some a -> nth_error l' k = Some b -> R a b.
Proof.
  intros A B R l l' F. induction F as [|x y xs ys H F IH]; intros [|k] a b Ha Hb; cbn in *; try discriminate; eauto.
  injection Ha as <-. injection Hb as <-. exact H.
Qed.

Inductive call := Get (i : Z) | Next.
Definition do_call (c : call) : M reader image := match c with Get i => get_image big limit i | Next => next_image big end.
(** The outcomes of a sequence of calls; a caller that catches an exception goes on with the same reader. *)
Fixpoint play (cs : list call) (r : reader) : res (list (image + exn) * reader) :=
  match cs with
  | [] => Ok ([], r)
  | c :: cs' =>
      match do_call c r with
      | ORet r' g => (x <- play cs' r' ;; Ok (inl g :: fst x, snd x))%res
      | OThrow r' e => (x <- play cs' r' ;; Ok (inr e :: fst x, snd x))%res
      | OUB => UB
      end
  end.

(** The image each call asks for: the given one, or the one after the last that was returned (the last that was asked for,
    if there was none to return). *)
Fixpoint asked (cur : Z) (cs : list call) : list Z :=
  match cs with
  | [] => []
  | c :: cs' => let i := match c with Get i => i | Next => cur end in i :: asked (if i <? n then i + 1 else i) cs'
  end.
Definition answer (i : Z) (o : image + exn) : Prop :=
  if i <? n then exists g, o = inl g /\ image_no h w fi fl i g else o = inr RuntimeError.
Definition sensible (c : call) : Prop := match c with Get i => reachable i | Next => True end.

Lemma call_ok : forall c r, usable n h w fi fl r -> sensible c ->
  let i := match c with Get i => i | Next => r_cur r end in
  (i < n /\ exists r' g, do_call c r = ORet r' g /\ image_no h w fi fl i g /\ usable n h w fi fl r' /\ r_cur r' = i + 1) \/
  (n <= i /\ exists r', do_call c r = OThrow r' RuntimeError /\ usable n h w fi fl r' /\ r_cur r' = i).
Proof.
  intros c r (p & q & cur & -> & Hc & Hpos) S. pose proof size_bounds as (B1 & B2 & B3).
  assert (N : 0 <= n < two31) by apply P.
  assert (L : limit < 2 ^ 63) by apply P.
  destruct c as [i|]; cbn [do_call r_cur].
  - cbn [sensible] in S. rewrite get_eq by assumption. destruct S as (S1 & S2 & S3). destruct (Z.lt_ge_cases i n) as [Hi|Hi].
    + left. split; [assumption|]. destruct (next_ok i) as (g & E & G); [lia|]. eexists _, g. split; [exact E|]. split; [exact G|].
      split; [|reflexivity]. eexists _, _, _. split; [reflexivity|]. split; [unfold two64, two31 in *; lia|]. auto.
    + right. split; [assumption|]. rewrite next_end by assumption. eexists. split; [reflexivity|].
      split; [|reflexivity]. eexists _, _, _. split; [reflexivity|]. split; [unfold two64; lia|]. auto.
  - destruct (Z.lt_ge_cases cur n) as [Hi|Hi].
    + left. split; [assumption|]. destruct (Hpos Hi) as (-> & ->). destruct (next_ok cur) as (g & E & G); [lia|].
      eexists _, g. split; [exact E|]. split; [exact G|].
      split; [|reflexivity]. eexists _, _, _. split; [reflexivity|]. split; [unfold two64, two31 in *; lia|]. auto.
    + right. split; [assumption|]. rewrite next_end by assumption. eexists. split; [reflexivity|].
      split; [|reflexivity]. eexists _, _, _. split; [reflexivity|]. split; [lia|]. auto.
Qed.

Lemma play_ok : forall cs r, usable n h w fi fl r -> Forall sensible cs ->
  exists os r', play cs r = Ok (os, r') /\ Forall2 answer (asked (r_cur r) cs) os /\ usable n h w fi fl r'.
Proof.
  induction cs as [|c cs IH]; intros r U S.
  - exists [], r. cbn. auto.
  - inversion S as [|? ? Sc Scs]; subst. cbn [play asked]. destruct (call_ok c r U Sc) as [(Hi & r' & g & E & G & U' & C)|(Hi & r' & E & U' & C)].
    + rewrite E. destruct (IH r' U' Scs) as (os & r'' & E' & A & U''). rewrite E'. cbn [rbind fst snd].
      eexists _, _. split; [reflexivity|]. split; [|exact U''].
      rewrite C in A. apply Z.ltb_lt in Hi. rewrite Hi. constructor; [|exact A]. unfold answer. rewrite Hi. eauto.
    + rewrite E. destruct (IH r' U' Scs) as (os & r'' & E' & A & U''). rewrite E'. cbn [rbind fst snd].
      eexists _, _. split; [reflexivity|]. split; [|exact U''].
      rewrite C in A. apply Z.ltb_ge in Hi. rewrite Hi. constructor; [|exact A]. unfold answer. rewrite Hi. reflexivity.
Qed.

(** ** The generator *)

(** The data point made of image number [i] *)
Definition point_no (i : Z) (p : point f32 text) : Prop :=
  is_mat (pt_data p) (D3 h w 1) (fun r c _ => shade (f_byte fi (16 + i * h * w + r * w + c))) /\
  pt_label p = dec (f_byte fl (8 + i)).

(** From state [r] on the generator delivers the points [ps], and then reports that there are no more. *)
Fixpoint delivers (r : reader) (ps : list (point f32 text)) : Prop :=
  match ps with
  | [] => gen_has r = false /\ gen_next big r = OThrow r RuntimeError
  | p :: ps' => gen_has r = true /\ exists r', gen_next big r = ORet r' p /\ delivers r' ps'
  end.

Lemma delivers_from : forall k i, 0 <= i -> i + Z.of_nat k = n ->
  exists ps, delivers (Reader (at_pos fi (16 + i * h * w)) (at_pos fl (8 + i)) n w h i) ps /\
    Forall2 point_no (map (fun j => i + Z.of_nat j) (seq 0 k)) ps.
Proof.
  assert (N : 0 <= n < two31) by apply P.
  assert (Hu : u64 n = n) by (apply u64_id; unfold two64, two31 in *; lia).
  induction k as [|k IH]; intros i H E.
  - exists []. cbn. unfold gen_has, image_index, num_images. cbn [r_cur r_num]. rewrite Hu. split; [|constructor]. split.
    + apply Z.ltb_ge. lia.
    + unfold gen_next, bind. rewrite next_end by lia. reflexivity.
  - destruct (next_ok i) as (g & En & G); [lia|]. destruct (IH (i + 1)) as (ps & D & F); [lia|lia|].
    exists (Point (i_data g) (dec (i_label g)) :: ps). split.
    + cbn [delivers]. split.
      * unfold gen_has, image_index, num_images. cbn [r_cur r_num]. rewrite Hu. apply Z.ltb_lt. lia.
      * eexists. split; [|exact D]. unfold gen_next, bind. rewrite En. reflexivity.
    + cbn [seq map]. constructor.
      * rewrite Z.add_0_r. destruct G as (G1 & G2). split; [exact G1|]. cbn [pt_label]. rewrite G2. reflexivity.
      * rewrite <- seq_shift, map_map. erewrite map_ext; [exact F|]. intros a. lia.
Qed.

Lemma reset_ok : forall r, usable n h w fi fl r -> 1 <= n ->
  exists r', gen_reset big limit r = ORet r' tt /\ usable n h w fi fl r' /\
    r' = Reader (at_pos fi (16 + 1 * h * w)) (at_pos fl (8 + 1)) n w h 1.
Proof.
  intros r (p & q & c & -> & _ & _) Hn. assert (N : 0 <= n < two31) by apply P.
  unfold gen_reset, bind. rewrite get_eq by (apply index_reachable; lia).
  destruct (next_ok 0) as (g & E & _); [lia|]. rewrite E. eexists. split; [reflexivity|]. split; [|reflexivity].
  eexists _, _, _. split; [reflexivity|]. split; [unfold two64; lia|]. auto.
Qed.

(** Histories of calls of the generator; a caller that catches an exception goes on. *)
Inductive gcall := GNext | GReset.
Definition do_gcall (c : gcall) (r : reader) : res reader :=
  match c with
  | GNext => match gen_next big r with ORet r' _ | OThrow r' _ => Ok r' | OUB => UB end
  | GReset => match gen_reset big limit r with ORet r' _ | OThrow r' _ => Ok r' | OUB => UB end
  end.
Fixpoint gen_play (cs : list gcall) (r : reader) : res reader :=
  match cs with [] => Ok r | c :: cs' => (r' <- do_gcall c r ;; gen_play cs' r')%res end.

Lemma gen_play_ok : forall cs r, usable n h w fi fl r -> exists r', gen_play cs r = Ok r' /\ usable n h w fi fl r'.
Proof.
  assert (N : 0 <= n < two31) by apply P.
  induction cs as [|c cs IH]; intros r U; [exists r; auto|]. cbn [gen_play].
  assert (X : exists r', do_gcall c r = Ok r' /\ usable n h w fi fl r').
  { destruct c; cbn [do_gcall].
    - unfold gen_next, bind. destruct (call_ok Next r U I) as [(_ & r' & g & E & _ & U' & _)|(_ & r' & E & U' & _)];
        cbn [do_call] in E; rewrite E; (eexists; split; [reflexivity|exact U']).
    - unfold gen_reset, bind.
      destruct (call_ok (Get 0) r U (index_reachable 0 ltac:(lia))) as [(_ & r' & g & E & _ & U' & _)|(_ & r' & E & U' & _)];
        cbn [do_call] in E; rewrite E; (eexists; split; [reflexivity|exact U']). }
  destruct X as (r' & E & U'). rewrite E. cbn [rbind]. apply IH. exact U'.
Qed.

(** Construction, and every later reset, lead to the same state. *)
Lemma gen_open_ok : 1 <= n -> exists r, gen_open big limit (Readable fi) (Readable fl) = Ok r /\ usable n h w fi fl r /\
    r = Reader (at_pos fi (16 + 1 * h * w)) (at_pos fl (8 + 1)) n w h 1.
Proof.
  intros Hn. destruct open_usable as (r & E & U & _). unfold gen_open. rewrite E. cbn [rbind].
  destruct (reset_ok r U Hn) as (r' & E' & U' & X). rewrite E'. cbn [run_state]. eauto.
Qed.
Lemma gen_open_empty : n = 0 -> gen_open big limit (Readable fi) (Readable fl) = Throw RuntimeError.
Proof.
  intros Hn. destruct open_usable as (r & E & (p & q & c & -> & _ & _) & _). unfold gen_open. rewrite E. cbn [rbind].
  unfold gen_reset, bind. rewrite get_eq by (apply index_reachable; lia). rewrite next_end by lia. reflexivity.
Qed.
Lemma delivers_rest : 1 <= n -> exists ps,
  delivers (Reader (at_pos fi (16 + 1 * h * w)) (at_pos fl (8 + 1)) n w h 1) ps /\ Z.of_nat (length ps) = n - 1 /\
  forall k p, nth_error ps k = Some p -> point_no (Z.of_nat k + 1) p.
Proof.
  intros Hn. destruct (delivers_from (Z.to_nat (n - 1)) 1) as (ps & D & F); [lia|lia|].
  exists ps. split; [exact D|]. split.
  - apply Forall2_len in F. rewrite map_length, seq_length in F. lia.
  - intros k p Hp. assert (Hk : (k < length ps)%nat) by (apply nth_error_Some; congruence).
    pose proof (Forall2_len _ _ _ F) as L. rewrite map_length, seq_length in L.
    apply (Forall2_nth _ _ _ F k); [|exact Hp].
    rewrite nth_error_map, nth_error_nth' with (d := 0%nat) by (rewrite seq_length; lia). rewrite seq_nth by lia.
    cbn [option_map]. f_equal. lia.
Qed.
End Files.

