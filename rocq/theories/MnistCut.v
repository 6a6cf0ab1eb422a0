(** Files that are shorter than their headers say. *)
From Coq Require Import ZArith List Bool Lia.
From Verif Require Import Base Dim Matrix Float32 Batch Chars Spec Iter MatFacts LayerFacts Mnist MnistFacts Train.
Import ListNotations.
Local Open Scope Z_scope.

(** A loop whose step number [k] is undefined *)
Lemma mfor_n_ub : forall {S} (I : Z -> S -> Prop) (body : Z -> M S unit) k n a s, a <= k < a + Z.of_nat n ->
  (forall j s, a <= j < k -> I j s -> exists s', body j s = ORet s' tt /\ I (j + 1) s') -> (forall s, I k s -> body k s = OUB) -> I a s ->
  mfor_n n a body s = OUB.
Proof.
  intros S I body k. induction n as [|n IH]; intros a s K B U J; [lia|]. cbn [mfor_n]. unfold bind. destruct (Z.eq_dec a k) as [->|].
  - rewrite (U s J). reflexivity.
  - destruct (B a s ltac:(lia) J) as (s' & -> & J'). apply IH; [lia| |exact U|exact J']. intros j t Hj. apply B. lia.
Qed.
Lemma mfor_ub : forall {S} (I : Z -> S -> Prop) (body : Z -> M S unit) k n s, 0 <= k < n ->
  (forall j s, 0 <= j < k -> I j s -> exists s', body j s = ORet s' tt /\ I (j + 1) s') -> (forall s, I k s -> body k s = OUB) -> I 0 s ->
  mfor n body s = OUB.
Proof. intros S I body k n s K. unfold mfor. apply mfor_n_ub. lia. Qed.

Lemma read_u8_end : forall big f p, f_len f <= p -> read_u8 big (at_pos f p) = OUB.
Proof.
  intros big f p H. unfold read_u8, read_num, read_raw. rewrite is_bigendian_ok.
  assert (FR : fread 1 (at_pos f p) = (FStr f (p + 0) true true, [])).
  { unfold fread. cbn [s_eof s_fail orb s_pos s_file]. change (Z.of_nat 1) with 1. rewrite (proj2 (Z.leb_gt _ _)) by lia.
    replace (Z.to_nat (f_len f - p)) with O by lia. reflexivity. }
  destruct big; cbn [read_down repeat]; rewrite FR; reflexivity.
Qed.

Lemma read_pixels_cut : forall big f p h w m0 g0, fits (D3 h w 1) -> p <= f_len f < p + h * w -> is_mat m0 (D3 h w 1) g0 ->
  read_pixels big h w (at_pos f p, m0) = OUB.
Proof.
  intros big f p h w m0 g0 F L G0. pose proof (fits_dims _ F) as (H1 & H2 & _). cbn [dx dy] in H1, H2.
  set (a := f_len f - p). assert (HA : 0 <= a < h * w) by (unfold a; lia).
  assert (W0 : 0 < w) by nia.
  assert (RB : 0 <= a / w < h) by (split; [apply Z.div_pos; lia|apply Z.div_lt_upper_bound; lia]).
  pose proof (Z.mod_pos_bound a w W0) as CB. pose proof (Z.div_mod a w ltac:(lia)) as DM.
  set (r := a / w) in *. set (c := a mod w) in *.
  unfold read_pixels. apply (mfor_ub (fun k st => exists m g, st = (at_pos f (p + k * w), m) /\ is_mat m (D3 h w 1) g) _ r h); [exact RB| | |].
  - intros row st Hr (m & g & -> & Gm).
    match goal with |- context [mfor w ?b] => destruct (mfor_inv (fun k st => exists m g, st = (at_pos f (p + row * w + k), m) /\ is_mat m (D3 h w 1) g) b w (at_pos f (p + row * w), m)) as (st' & E' & J') end.
    + lia.
    + intros col st' Hc (m1 & g1 & -> & Gm1). rewrite read_u8_ok by (unfold a in *; nia).
      destruct (mwrite_is m1 (D3 h w 1) g1 row col 0 (f_byte f (p + row * w + col)) Gm1 F) as (m2 & W & Gm2).
      { unfold inb; cbn [dx dy dz]; lia. }
      rewrite W. eexists. split; [reflexivity|]. eexists _, _. split; [f_equal; f_equal; ring|exact Gm2].
    + exists m, g. rewrite Z.add_0_r. auto.
    + rewrite E'. eexists. split; [reflexivity|]. destruct J' as (m1 & g1 & -> & Gm1). exists m1, g1. split; [f_equal; f_equal; ring|exact Gm1].
  - intros st (m & g & -> & Gm).
    apply (mfor_ub (fun k st => exists m g, st = (at_pos f (p + r * w + k), m) /\ is_mat m (D3 h w 1) g) _ c w); [exact CB| | |].
    + intros col st' Hc (m1 & g1 & -> & Gm1). rewrite read_u8_ok by (unfold a in *; nia).
      destruct (mwrite_is m1 (D3 h w 1) g1 r col 0 (f_byte f (p + r * w + col)) Gm1 F) as (m2 & W & Gm2).
      { unfold inb; cbn [dx dy dz]; lia. }
      rewrite W. eexists. split; [reflexivity|]. eexists _, _. split; [f_equal; f_equal; ring|exact Gm2].
    + intros st' (m1 & g1 & -> & _). rewrite read_u8_end; [reflexivity|]. unfold a in *. nia.
    + exists m, g. rewrite Z.add_0_r. auto.
  - exists m0, g0. rewrite Z.mul_0_l, Z.add_0_r. auto.
Qed.

(** A pair of files whose headers promise [n] images; the first [m] are there, the next one or its label is not complete. *)
Record cut (limit n m h w : Z) (fi fl : file) : Prop := {
  ct_imagic : be32 fi 0 = 2051;
  ct_lmagic : be32 fl 0 = 2049;
  ct_icount : be32 fi 4 = n;
  ct_lcount : be32 fl 4 = n;
  ct_height : be32 fi 8 = h;
  ct_width : be32 fi 12 = w;
  ct_m : 0 <= m < n;
  ct_n : n < two31;
  ct_fits : fits (D3 h w 1);
  ct_ilen : 16 + m * h * w <= f_len fi;
  ct_llen : 8 + m <= f_len fl;
  ct_end : f_len fi < 16 + (m + 1) * h * w \/ f_len fl < 8 + (m + 1);
  ct_bytes : forall k, 0 <= f_byte fi k < 256 /\ 0 <= f_byte fl k < 256;
  ct_limit : f_len fi <= limit /\ f_len fl <= limit /\ limit < 2 ^ 63;
}.

Section Cut.
Context (big : bool) (limit n m h w : Z) (fi fl : file) (C : cut limit n m h w fi fl).

Lemma cut_bounds : 0 <= h < two31 /\ 0 <= w < two31 /\ 0 <= m * h * w.
Proof.
  destruct C. pose proof (fits_dims _ ct_fits0) as (A & B & _). cbn [dx dy] in *. split; [lia|]. split; [lia|].
  apply Z.mul_nonneg_nonneg; [apply Z.mul_nonneg_nonneg|]; lia.
Qed.
Lemma cut_next : forall i, 0 <= i < m ->
  exists g, next_image big (Reader (at_pos fi (16 + i * h * w)) (at_pos fl (8 + i)) n w h i) =
      ORet (Reader (at_pos fi (16 + (i + 1) * h * w)) (at_pos fl (8 + (i + 1))) n w h (i + 1)) g /\ image_no h w fi fl i g.
Proof.
  intros i Hi. pose proof cut_bounds as (B1 & B2 & B3). destruct C. apply next_at; try assumption; try lia.
  assert ((i + 1) * (h * w) <= m * (h * w)) by (apply Z.mul_le_mono_nonneg_r; nia). nia.
Qed.
Lemma cut_stop : next_image big (Reader (at_pos fi (16 + m * h * w)) (at_pos fl (8 + m)) n w h m) = OUB.
Proof.
  pose proof cut_bounds as (B1 & B2 & B3). destruct C.
  unfold next_image, bind, mget, num_images. cbn [r_num r_cur r_height r_width].
  rewrite u64_id by (unfold two64, two31 in *; lia). destruct (Z.leb_spec n m); [lia|]. unfold lift.
  destruct (mat_fill_ok (D3 h w 1) 0 ct_fits0) as (m0 & E0 & G0). rewrite E0. unfold on_images. cbn [r_images].
  destruct (Z_lt_le_dec (f_len fi) (16 + m * h * w + h * w)) as [L|L].
  - rewrite (read_pixels_cut big fi (16 + m * h * w) h w m0 _ ct_fits0 ltac:(lia) G0). reflexivity.
  - destruct (read_pixels_ok big fi (16 + m * h * w) h w m0 ct_fits0 L) as (m1 & -> & _).
    { apply G0. } { apply (is_mat_consistent _ _ _ G0). } { eauto. }
    unfold on_labels. cbn [r_labels]. rewrite read_u8_end; [reflexivity|]. replace ((m + 1) * h * w) with (m * h * w + h * w) in ct_end0 by ring; lia.
Qed.

Lemma cut_open : reader_open big (Readable fi) (Readable fl) = Ok (Reader (at_pos fi 16) (at_pos fl 8) n w h 0).
Proof.
  pose proof cut_bounds as (B1 & B2 & B3). destruct C. rewrite reader_open_eq by lia.
  rewrite ct_imagic0, ct_lmagic0, ct_icount0, ct_lcount0, ct_height0, ct_width0.
  rewrite !s32_id by (unfold two31 in *; lia). cbn [Z.eqb Pos.eqb andb]. rewrite Z.eqb_refl. reflexivity.
Qed.
Lemma cut_reset : gen_reset big limit (Reader (at_pos fi 16) (at_pos fl 8) n w h 0) =
  match next_image big (Reader (at_pos fi 16) (at_pos fl 8) n w h 0) with ORet r _ => ORet r tt | OThrow r e => OThrow r e | OUB => OUB end.
Proof.
  pose proof cut_bounds as (B1 & B2 & B3). destruct C.
  unfold gen_reset, get_image, bind. cbn [set_cur]. unfold set_cur, mget, on_images, on_labels. cbn [r_images r_labels r_num r_width r_height r_cur].
  assert (SK : forall f p o, 0 <= o <= limit -> seekg limit (u64 o) (at_pos f p) = at_pos f o).
  { intros f p o H. unfold seekg. cbn [s_fail s_file]. rewrite u64_id by (unfold two64; lia). rewrite s64_id by lia.
    destruct (Z.ltb_spec o 0); [lia|]. destruct (Z.ltb_spec limit o); [lia|]. reflexivity. }
  change (4 * 4) with 16. change (2 * 4) with 8. rewrite !Z.mul_0_l, !Z.add_0_r. rewrite !SK by lia.
  destruct (next_image big _); reflexivity.
Qed.
(** Without the first image the constructor of the generator is undefined. *)
Lemma cut_open_ub : m = 0 -> gen_open big limit (Readable fi) (Readable fl) = UB.
Proof.
  intros M0. unfold gen_open. rewrite cut_open. cbn [rbind]. rewrite cut_reset.
  pose proof cut_stop as S. rewrite M0, !Z.mul_0_l, !Z.add_0_r in S. rewrite S. reflexivity.
Qed.
Lemma cut_open_ok : 1 <= m -> gen_open big limit (Readable fi) (Readable fl) = Ok (Reader (at_pos fi (16 + 1 * h * w)) (at_pos fl (8 + 1)) n w h 1).
Proof.
  intros M1. unfold gen_open. rewrite cut_open. cbn [rbind]. rewrite cut_reset.
  destruct (cut_next 0 ltac:(lia)) as (g & E & _). rewrite !Z.mul_0_l, !Z.add_0_r, !Z.add_0_l in E. rewrite E. reflexivity.
Qed.
End Cut.
