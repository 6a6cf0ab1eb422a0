(** The data points that the generator of the program delivers. *)
From Coq Require Import String ZArith List Bool Lia.
From Verif Require Import Base Dim Matrix View Num Expr Spec Iter MatFacts Batch Kernel Connected Float32 Pooling Activation Softmax LayerFacts Chars Model Train TrainRest
  Double Stream Text Mnist MnistFacts MnistCut Main Validate Bar Report Program.
Import ListNotations.
Local Open Scope Z_scope.

Section Feed.
Context (big : bool).
Lemma feed_fun : forall ps ps' r, feed big r ps -> feed big r ps' -> ps = ps'.
Proof.
  induction ps as [|p ps IH]; intros [|p' ps'] r D D'; cbn [feed] in *; try reflexivity.
  - exfalso. destruct D' as [D' _]. congruence.
  - exfalso. destruct D as [D _]. congruence.
  - destruct D as [_ D], D' as [_ D']. destruct (gen_next big r) as [r1 q| |]; [|contradiction|].
    + destruct D as [-> D], D' as [-> D']. f_equal. eapply IH; eassumption.
    + destruct D as [-> ->], D' as [-> ->]. reflexivity.
Qed.
Lemma delivers_feed : forall ps r, delivers big r ps -> feed big r ps.
Proof.
  induction ps as [|p ps IH]; intros r D; cbn [delivers feed] in *; [apply D|].
  destruct D as (H & r' & Q & D). split; [exact H|]. rewrite Q. auto.
Qed.

(** There is always such a list: an exception is raised only if there are no more images. *)
Lemma mfor_n_quiet : forall {S} (J : S -> Prop) (body : Z -> M S unit) n a s,
  (forall k s, a <= k < a + Z.of_nat n -> J s -> match body k s with ORet s' _ => J s' | OThrow _ _ => False | OUB => True end) -> J s ->
  match mfor_n n a body s with ORet s' _ => J s' | OThrow _ _ => False | OUB => True end.
Proof.
  intros S J body. induction n as [|n IH]; intros a s B H; [exact H|]. cbn [mfor_n]. unfold bind.
  pose proof (B a s ltac:(lia) H) as K. destruct (body a s) as [s' []|s' e|]; [|contradiction|exact I]. apply IH; [|exact K]. intros k t Hk. apply B. lia.
Qed.
Lemma mfor_quiet : forall {S} (J : S -> Prop) (body : Z -> M S unit) n s,
  (forall k s, 0 <= k < n -> J s -> match body k s with ORet s' _ => J s' | OThrow _ _ => False | OUB => True end) -> J s ->
  match mfor n body s with ORet s' _ => J s' | OThrow _ _ => False | OUB => True end.
Proof. intros S J body n s B. unfold mfor. apply mfor_n_quiet. intros k t Hk. apply B. lia. Qed.

Lemma next_quiet : forall r, fits (D3 (r_height r) (r_width r) 1) -> gen_has r = true ->
  match next_image big r with
  | ORet r' _ => r_height r' = r_height r /\ r_width r' = r_width r /\ r_num r' = r_num r /\ r_cur r' = u64 (r_cur r + 1)
  | OThrow _ _ => False
  | OUB => True
  end.
Proof.
  intros [ri rl n w h i] F H. unfold gen_has, image_index in H. cbn [r_height r_width r_num r_cur] in *. apply Z.ltb_lt in H.
  unfold next_image, bind, mget. cbn [r_num r_cur r_height r_width]. destruct (Z.leb_spec (num_images (Reader ri rl n w h i)) i); [lia|]. unfold lift.
  destruct (mat_fill_ok (D3 h w 1) 0 F) as (m0 & E0 & G0). rewrite E0. unfold on_images. cbn [r_images].
  assert (Q : match read_pixels big h w (ri, m0) with ORet (s, m) _ => exists g, is_mat m (D3 h w 1) g | OThrow _ _ => False | OUB => True end).
  { unfold read_pixels. match goal with |- match mfor h ?b ?s with _ => _ end =>
      pose proof (mfor_quiet (fun st : fstr * mat Z => exists g, is_mat (snd st) (D3 h w 1) g) b h s) as K end.
    cbn [snd] in K. match type of K with ?A -> _ => assert (KA : A) end.
    { intros row [s m] Hr G. match goal with |- match mfor w ?b ?s with _ => _ end =>
        apply (mfor_quiet (fun st : fstr * mat Z => exists g, is_mat (snd st) (D3 h w 1) g) b w s) end; [|exact G].
      intros col [s1 m1] Hc (g1 & G1). cbn [snd] in *. unfold read_u8, read_num. destruct (read_raw big 1 s1) as [s2 bs]. destruct (all_set bs); [|exact I].
      destruct (mwrite_is m1 (D3 h w 1) g1 row col 0 (number big l) G1 F) as (m2 & W & Gm2). { unfold inb; cbn [dx dy dz]; lia. }
      rewrite W. eauto. }
    specialize (K KA (ex_intro _ _ G0)). destruct (mfor h _ (ri, m0)) as [[s m] []|[s m] e|]; exact K. }
  destruct (read_pixels big h w (ri, m0)) as [[s1 m1] []|[s1 m1] e|]; [|contradiction|exact I]. destruct Q as (g & G).
  unfold on_labels, read_u8, read_num. cbn [r_labels r_images r_num r_width r_height r_cur]. destruct (read_raw big 1 rl) as [s2 bs]. destruct (all_set bs) as [l|]; [|exact I].
  cbn [r_images r_num r_width r_height r_cur].
  assert (A : match run_state (assign_lz (f32_of_Z 0) (normalised m1) mat_empty) with Throw _ => False | _ => True end).
  { unfold assign_lz. cbn [normalised ldim]. rewrite (is_mat_dim _ _ _ G). rewrite int_prod_fits by exact F. pose proof (fits_vol _ F) as [V _].
    unfold vec_resize. destruct (vol (D3 h w 1) <? 0) eqn:EV; [lia|]. rewrite copy_loop_mfor by exact F.
    match goal with |- match run_state (mfor ?k ?b ?s) with _ => _ end =>
      pose proof (mfor_quiet (fun m : mat f32 => Z.of_nat (length (mvals m)) = vol (D3 h w 1)) b k s) as K end.
    match type of K with ?A -> _ => assert (KA : A) end.
    { intros k m Hk L. unfold bind, mget, lift. destruct (position_case _ _ F Hk) as (x & y & z & IN & _ & ->). cbn [normalised lget].
      rewrite (is_mat_read m1 _ _ x y z G F IN). cbn [rbind]. unfold normal. destruct (i32 (g x y z - 128)) as [v|e|] eqn:QI; cbn [rbind]; [| |exact I].
      - rewrite mwrite_flat_put by lia. unfold put. cbn [mvals]. rewrite upd_length. exact L.
      - unfold i32 in QI. destruct ((_ <=? _) && _); discriminate QI. }
    specialize (K KA). destruct (mfor _ _ _); cbn [run_state]; [exact I| |exact I]. apply K. cbn [mvals mat_empty]. rewrite app_length, firstn_length, repeat_length. cbn [length]. lia. }
  destruct (run_state (assign_lz (f32_of_Z 0) (normalised m1) mat_empty)); [|contradiction|exact I].
  unfold set_cur, ret. cbn [r_images r_labels r_num r_width r_height r_cur]. auto.
Qed.

Lemma feed_total : forall k r, fits (D3 (r_height r) (r_width r) 1) -> 0 <= r_num r < two31 -> 0 <= r_cur r -> r_cur r + Z.of_nat k = r_num r -> exists ps, feed big r ps.
Proof.
  induction k as [|k IH]; intros r F N C E.
  - exists []. cbn [feed]. unfold gen_has, image_index, num_images. rewrite u64_id by (unfold two64, two31 in *; lia). apply Z.ltb_ge. lia.
  - assert (H : gen_has r = true). { unfold gen_has, image_index, num_images. rewrite u64_id by (unfold two64, two31 in *; lia). apply Z.ltb_lt. lia. }
    pose proof (next_quiet r F H) as Q. destruct (next_image big r) as [r' g|r' e|] eqn:EN; [|contradiction|].
    + destruct Q as (Q1 & Q2 & Q3 & Q4). rewrite u64_id in Q4 by (unfold two64, two31 in *; lia).
      destruct (IH r') as (ps & D); [rewrite Q1, Q2; exact F|rewrite Q3; exact N|lia|lia|].
      exists (Point (i_data g) (dec (i_label g)) :: ps). cbn [feed]. split; [exact H|]. unfold gen_next, bind. rewrite EN. cbn [ret]. auto.
    + exists [damaged]. cbn [feed]. split; [exact H|]. unfold gen_next, bind. rewrite EN. auto.
Qed.

(** A file that ends before image number [m] *)
Lemma cut_feed : forall limit n m h w fi fl, cut limit n m h w fi fl -> forall k i, 0 <= i -> i + Z.of_nat k = m ->
  exists ps, feed big (Reader (at_pos fi (16 + i * h * w)) (at_pos fl (8 + i)) n w h i) (ps ++ [damaged]) /\ length ps = k /\
    forall j p, nth_error ps j = Some p -> point_no h w fi fl (i + Z.of_nat j) p.
Proof.
  intros limit n m h w fi fl C. pose proof (ct_m _ _ _ _ _ _ _ C) as MB. pose proof (ct_n _ _ _ _ _ _ _ C) as NB.
  assert (H : forall i, 0 <= i < n -> gen_has (Reader (at_pos fi (16 + i * h * w)) (at_pos fl (8 + i)) n w h i) = true).
  { intros i Hi. unfold gen_has, image_index, num_images. cbn [r_num r_cur]. rewrite u64_id by (unfold two64, two31 in *; lia). apply Z.ltb_lt. lia. }
  induction k as [|k IH]; intros i Hi E.
  - exists []. assert (i = m) as -> by lia. cbn [app feed]. split; [split; [apply H; lia|]|split; [reflexivity|intros [|j] p Q; discriminate]].
    unfold gen_next, bind. rewrite (cut_stop big _ _ _ _ _ _ _ C). auto.
  - destruct (cut_next big _ _ _ _ _ _ _ C i ltac:(lia)) as (g & EN & G). destruct (IH (i + 1)) as (ps & D & L & PN); [lia|lia|].
    exists (Point (i_data g) (dec (i_label g)) :: ps). cbn [app feed]. split; [split; [apply H; lia|]|split; [cbn; lia|]].
    + unfold gen_next, bind. rewrite EN. cbn [ret]. auto.
    + intros [|j] p Q; cbn [nth_error] in Q.
      * injection Q as <-. rewrite Z.add_0_r. destruct G as [G1 G2]. split; [exact G1|]. cbn [pt_label]. rewrite G2. reflexivity.
      * replace (i + Z.of_nat (S j)) with (i + 1 + Z.of_nat j) by lia. apply PN. exact Q.
Qed.
End Feed.
