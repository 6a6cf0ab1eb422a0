(** validate with files that are too short: whatever the number of threads and the schedule, the behaviour is undefined. *)
From Coq Require Import ZArith List Bool Lia.
From Verif Require Import Base Dim Matrix View Num Expr Spec Iter Sums MatFacts MatThms Batch Kernel Connected Float32 FloatFacts Pooling Activation Softmax
  LayerFacts KernelThms ConnectedThms PoolingThms PoolGrad LayerTotal Chars Model Net NetGrad ModelThms Mnist MnistFacts MnistCut Train TrainLocal TrainRest TrainSgd Shapes ShapeNet
  Validate ValidateFacts ValidateStep ValidateRun ValidateThms Double Stream Text Main Bar Report Program ProgramFeed ProgramThms Truncated.
Import ListNotations.
Local Open Scope Z_scope.

(** A stream that does not give another byte *)
Lemma read_u8_fail : forall big s, s_fail s = true -> read_u8 big s = OUB.
Proof.
  intros big s H. unfold read_u8, read_num, read_raw. rewrite is_bigendian_ok.
  assert (FR : fread 1 s = (FStr (s_file s) (s_pos s) (s_eof s) true, [])) by (unfold fread; rewrite H, orb_true_r; reflexivity).
  destruct big; cbn [read_down repeat]; rewrite FR; reflexivity.
Qed.
Lemma read_pixels_none : forall big h w s m, 0 < h -> 0 < w -> read_u8 big s = OUB -> read_pixels big h w (s, m) = OUB.
Proof.
  intros big h w s m H W R. unfold read_pixels. apply (mfor_ub (fun k st => st = (s, m)) _ 0 h); [lia|intros; lia| |reflexivity].
  intros st ->. apply (mfor_ub (fun k st => st = (s, m)) _ 0 w); [lia|intros; lia| |reflexivity]. intros st ->. rewrite R. reflexivity.
Qed.

Section Cut.
Context (big : bool) (limit n m h w : Z) (fi fl : file) (C : cut limit n m h w fi fl).

Lemma seek_cases : forall f p o, 0 <= o < 2 ^ 62 + 16 -> (seekg limit (u64 o) (at_pos f p) = at_pos f o) \/ limit < o /\ s_fail (seekg limit (u64 o) (at_pos f p)) = true.
Proof.
  intros f p o H. unfold seekg. cbn [s_fail s_file]. rewrite u64_id by (unfold two64; lia). rewrite s64_id by lia.
  destruct (Z.ltb_spec o 0); [lia|]. destruct (Z.ltb_spec limit o); [right; split; [assumption|reflexivity]|left; reflexivity].
Qed.
Lemma get_parts : forall p q c i, exists s1 s2, get_image big limit i (Reader (at_pos fi p) (at_pos fl q) n w h c) = next_image big (Reader s1 s2 n w h i) /\
  s1 = seekg limit (u64 (16 + i * h * w)) (at_pos fi p) /\ s2 = seekg limit (u64 (8 + i)) (at_pos fl q).
Proof. intros p q c i. eexists _, _. split; [|split; reflexivity]. reflexivity. Qed.

Lemma size_31 : forall i, 0 <= i < n -> 0 <= i * h * w < 2 ^ 62.
Proof.
  intros i Hi. pose proof (cut_bounds _ _ _ _ _ _ _ C) as (B1 & B2 & B3). pose proof C as [_ _ _ _ _ _ CM CN CF CI CL CE CB CX].
  pose proof (fits_vol _ CF) as V. unfold vol in *. cbn [dx dy dz] in *.
  unfold two31 in *. replace (i * h * w) with (i * (h * w)) by ring. assert (0 <= h * w < 2147483648) by nia. nia.
Qed.

Lemma next_lost : forall s1 s2 i, m <= i < n -> (s1 = at_pos fi (16 + i * h * w) \/ s_fail s1 = true) -> (s2 = at_pos fl (8 + i) \/ s_fail s2 = true) ->
  next_image big (Reader s1 s2 n w h i) = OUB.
Proof.
  intros s1 s2 i Hi S1 S2. pose proof (cut_bounds _ _ _ _ _ _ _ C) as (B1 & B2 & B3). pose proof C as [_ _ _ _ _ _ CM CN CF CI CL CE CB CX].
  destruct (mat_fill_ok (D3 h w 1) 0 CF) as (m0 & E0 & G0).
  assert (HW : m * (h * w) <= i * (h * w)) by (apply Z.mul_le_mono_nonneg_r; nia).
  destruct (Z_lt_le_dec (f_len fi) (16 + (m + 1) * h * w)) as [L|L].
  - assert (P0 : 0 < h /\ 0 < w) by nia.
    assert (R : read_pixels big h w (s1, m0) = OUB).
    { destruct S1 as [->|S1]; [|apply read_pixels_none; [lia|lia|apply read_u8_fail; exact S1]].
      destruct (Z_lt_le_dec (f_len fi) (16 + i * h * w)) as [K|K].
      - apply read_pixels_none; [lia|lia|]. apply read_u8_end. lia.
      - eapply read_pixels_cut; [exact CF| |exact G0]. split; [exact K|]. replace (16 + i * h * w + h * w) with (16 + (i * (h * w) + h * w)) by ring.
        replace (16 + (m + 1) * h * w) with (16 + (m * (h * w) + h * w)) in L by ring. lia. }
    unfold next_image, bind, mget, num_images. cbn [r_num r_cur r_height r_width].
    rewrite u64_id by (unfold two64, two31 in *; lia). destruct (Z.leb_spec n i); [lia|]. unfold lift. rewrite E0. unfold on_images. cbn [r_images]. rewrite R. reflexivity.
  - assert (RL : read_u8 big s2 = OUB). { destruct S2 as [->|S2]; [apply read_u8_end; lia|apply read_u8_fail; exact S2]. }
    pose proof (next_quiet big (Reader s1 s2 n w h i) CF) as Q.
    assert (GH : gen_has (Reader s1 s2 n w h i) = true).
    { unfold gen_has, image_index, num_images. cbn [r_num r_cur]. rewrite u64_id by (unfold two64, two31 in *; lia). apply Z.ltb_lt. lia. }
    specialize (Q GH). destruct (next_image big (Reader s1 s2 n w h i)) as [r' g|r' e|] eqn:X; [|destruct Q|reflexivity]. exfalso.
    unfold next_image, bind, mget, num_images in X. cbn [r_num r_cur r_height r_width] in X.
    rewrite u64_id in X by (unfold two64, two31 in *; lia). destruct (Z.leb_spec n i); [lia|]. unfold lift in X. rewrite E0 in X. unfold on_images in X. cbn [r_images] in X.
    destruct (read_pixels big h w (s1, m0)) as [[s' m'] []|[s' m'] e|]; try discriminate X.
    unfold on_labels in X. cbn [r_labels] in X. rewrite RL in X. discriminate X.
Qed.

Lemma get_cut : forall i r, 0 <= i < n -> usable n h w fi fl r ->
  (~ m <= i /\ exists r' g, get_image big limit i r = ORet r' g /\ image_no h w fi fl i g /\ usable n h w fi fl r') \/ (m <= i /\ get_image big limit i r = OUB).
Proof.
  intros i r Hi (p & q & c & -> & _ & _). pose proof (cut_bounds _ _ _ _ _ _ _ C) as (B1 & B2 & B3). pose proof C as [_ _ _ _ _ _ CM CN CF CI CL CE CB CX].
  destruct (get_parts p q c i) as (s1 & s2 & EG & E1 & E2). rewrite EG. pose proof (size_31 i Hi) as SZ.
  destruct (seek_cases fi p (16 + i * h * w) ltac:(lia)) as [K1|[K1 F1]]; destruct (seek_cases fl q (8 + i) ltac:(unfold two31 in *; lia)) as [K2|[K2 F2]];
    destruct (Z_lt_le_dec i m) as [LT|GE]; try (right; split; [exact GE|apply next_lost; [lia|left + right; congruence|left + right; congruence]]).
  - left. split; [lia|]. rewrite E1, E2, K1, K2. destruct (cut_next big _ _ _ _ _ _ _ C i ltac:(lia)) as (g & EN & IM). rewrite EN. eexists _, g. split; [reflexivity|]. split; [exact IM|].
    eexists _, _, _. split; [reflexivity|]. split; [unfold two64, two31 in *; lia|auto].
  - exfalso. lia.
  - exfalso. assert (i * (h * w) <= m * (h * w)) by (apply Z.mul_le_mono_nonneg_r; nia). nia.
  - exfalso. lia.
Qed.
End Cut.

Section Validation.
Context {T : Type} {N : Num T} (E : env T) (cast : f32 -> T) (labels : list text).
Local Notation nl := (Z.of_nat (length labels)).
Context (ls : list (layer T)) (ss : list shape) (h w : Z) (big : bool) (limit n m : Z) (fi fl : file) (nt : Z).
Hypothesis U : usable_net labels ls ss (D3 h w 1).
Hypothesis C : cut limit n m h w fi fl.
Hypothesis NT : 1 <= nt.
Hypothesis NN : n + nt <= 2 ^ 31.

Lemma cut_usable : usable n h w fi fl (Reader (at_pos fi 16) (at_pos fl 8) n w h 0).
Proof. eexists _, _, 0. split; [reflexivity|]. split; [unfold two64; lia|]. intros _. split; [ring|reflexivity]. Qed.
Lemma cut_alone : exists rs, forall i g, 0 <= i < n -> ~ m <= i -> image_no h w fi fl i g -> exists ls', forward_pass E cast nl (i_data g) 0 ls = ORet ls' (rs i).
Proof.
  set (rd := Reader (at_pos fi 16) (at_pos fl 8) n w h 0).
  exists (fun i => match get_image true limit i rd with
                   | ORet _ g => match forward_pass E cast nl (i_data g) 0 ls with ORet _ r => r | _ => Results 0 0 n0 n0 [] end
                   | _ => Results 0 0 n0 n0 []
                   end).
  intros i g Hi NM IM. destruct (get_cut true limit n m h w fi fl C i rd Hi cut_usable) as [(_ & r' & g' & EC & IM' & _)|(B & _)]; [|lia].
  assert (EQ : i_data g' = i_data g) by (destruct IM as [IM _], IM' as [IM' _]; eapply is_mat_unique; [apply (ct_fits _ _ _ _ _ _ _ C)|exact IM'|exact IM]).
  destruct U as [(body & sm & -> & SC & NF & RD & IX) OK LO].
  destruct (forward_total E body sm ss (D3 h w 1) nl 0 _ cast (i_data g) NF SC IX OK LO (is_has _ _ _ (proj1 IM))) as (b' & x0 & r1 & p & r & EF & _).
  rewrite EC, EQ, EF. eauto.
Qed.
Lemma cut_count : s32 (num_images (Reader (at_pos fi 16) (at_pos fl 8) n w h 0)) = n.
Proof.
  pose proof (ct_m _ _ _ _ _ _ _ C) as CM. pose proof (ct_n _ _ _ _ _ _ _ C) as CN. unfold num_images. cbn [r_num].
  rewrite u64_id by (unfold two64, two31 in *; lia). apply s32_id. unfold two31 in *. lia.
Qed.

Theorem validate_cut : forall o, validation E cast labels big limit (Readable fi) (Readable fl) nt ls o -> o = OUB.
Proof.
  intros o V. pose proof (cut_open big _ _ _ _ _ _ _ C) as ER. destruct cut_alone as (rs & A). pose proof (un_fit _ _ _ _ U) as F. pose proof U as [_ OK LO].
  pose proof (ct_m _ _ _ _ _ _ _ C) as CM. pose proof (ct_n _ _ _ _ _ _ _ C) as CN. assert (NN' : n + nt <= two31) by (unfold two31; exact NN).
  assert (N31 : 0 <= n < two31) by (unfold two31 in *; lia).
  destruct V as [rd' g N0 ER' n' X FIN|rd' g t e N0 ER' n' X ST|rd' g t N0 ER' n' X ST|e ER'|ER'|rd' ER' NEG]; rewrite ER in ER'; try discriminate; try reflexivity; [| |lia];
    injection ER' as <-; assert (EN : n' = n) by exact cut_count; clearbody n'; subst n'.
  - exfalso. destruct (run_count E cast labels ss h w OK LO big limit n fi fl N31 (Z.le m) (get_cut big limit n m h w fi fl C) nt NT NN' ls F rs A _ g cut_usable X FIN) as (_ & _ & _ & L).
    apply (L m); lia.
  - exfalso. pose proof (run_safe E cast labels ss h w OK LO big limit n fi fl N31 (Z.le m) (get_cut big limit n m h w fi fl C) nt NT NN' ls F rs A _ g t cut_usable X) as RS.
    rewrite ST in RS. exact RS.
Qed.
Theorem validate_cut_runs : validation E cast labels big limit (Readable fi) (Readable fl) nt ls OUB.
Proof.
  pose proof (cut_open big _ _ _ _ _ _ _ C) as ER. destruct cut_alone as (rs & A). pose proof (un_fit _ _ _ _ U) as F. pose proof U as [_ OK LO].
  pose proof (ct_m _ _ _ _ _ _ _ C) as CM. pose proof (ct_n _ _ _ _ _ _ _ C) as CN. assert (NN' : n + nt <= two31) by (unfold two31; exact NN).
  assert (N31 : 0 <= n < two31) by (unfold two31 in *; lia).
  destruct (run_ends E cast labels ss h w OK LO big limit n fi fl N31 (Z.le m) (get_cut big limit n m h w fi fl C) nt NT NN' ls F rs A _ cut_usable) as [_ R].
  destruct (R [] _ eq_refl) as (sched & g & RG & [FIN|((t & ST) & _)]); assert (X : vexec E cast labels big limit nt n (vstart nt ls (Reader (at_pos fi 16) (at_pos fl 8) n w h 0)) g) by (eapply vrun_exec; [apply vx_nil|exact RG]).
  - exfalso. destruct (run_count E cast labels ss h w OK LO big limit n fi fl N31 (Z.le m) (get_cut big limit n m h w fi fl C) nt NT NN' ls F rs A _ g cut_usable X FIN) as (_ & _ & _ & L).
    apply (L m); lia.
  - eapply val_undef with (g := g) (t := t); [lia|exact ER| |]; rewrite cut_count; [exact X|exact ST].
Qed.
End Validation.

(** The whole program: complete files for training, files for validation that are too short *)
Section Program.
Context {T : Type} {N : Num T} (E : env T) (ORD : e_moved E = false) (cast : f32 -> T) (show : T -> text) (showf : f32 -> text) (wr : T -> text) (big : bool) (limit rmax : Z).
Context (n k m : Z) (ti tl vi vl : file) (TR : mnist limit n 28 28 ti tl) (VA : cut limit k m 28 28 vi vl) (Hn : 33 <= n <= 2 ^ 24)
  (DG : forall i, 1 <= i < n -> f_byte tl (8 + i) < 10).

Theorem main_cut : forall P u lr rs save e,
  main_run E cast show showf wr big limit rmax P (Readable ti) (Readable tl) (Readable vi) (Readable vl) u lr 1 rs save e -> e = Undefined.
Proof.
  intros P u lr rs save e H. pose proof (ct_m _ _ _ _ _ _ _ VA) as CM. pose proof (ct_n _ _ _ _ _ _ _ VA) as CN. unfold two31 in CN.
  destruct (main_trains E ORD cast big limit n ti tl u lr TR Hn DG) as (r & ps & m0 & ER & D & _ & EM & TA & _).
  destruct (main_model_ok E u) as (m1 & body & EM1 & ML & _). rewrite EM in EM1. injection EM1 as <-.
  destruct H as [e ER'|ER'|r' e ER' EM'|r' ER' EM'|r' m' ps' ls e ER' EM' D' TN|r' m' ps' ER' EM' D' TN|r' m' ps' ls o ms ER' EM' D' TN V L5]; rewrite ER in ER'; try discriminate ER';
    injection ER' as <-; rewrite EM in EM'; try discriminate EM'; injection EM' as <-; rewrite (feed_fun _ _ _ _ D' (delivers_feed _ _ _ D)) in TN; destruct (TA P _ TN) as (ls0 & Q & SU & RD);
    try discriminate Q. injection Q as <-. rewrite ML in V.
  rewrite (validate_cut E cast main_labels ls main_shapes 28 28 big limit k m vi vl 1 (set_usable ls SU RD) VA ltac:(lia) ltac:(lia) o V). reflexivity.
Qed.
Theorem main_cut_runs : forall u lr rs save, length rs = 5%nat ->
  main_run E cast show showf wr big limit rmax (fun _ => True) (Readable ti) (Readable tl) (Readable vi) (Readable vl) u lr 1 rs save Undefined.
Proof.
  intros u lr rs save L5. pose proof (ct_m _ _ _ _ _ _ _ VA) as CM. pose proof (ct_n _ _ _ _ _ _ _ VA) as CN. unfold two31 in CN.
  destruct (main_trains E ORD cast big limit n ti tl u lr TR Hn DG) as (r & ps & m0 & ER & D & _ & EM & TA & (o & TN)).
  destruct (TA _ _ TN) as (ls & -> & SU & RD).
  destruct (main_model_ok E u) as (m1 & body & EM1 & ML & _). rewrite EM in EM1. injection EM1 as <-.
  apply (run_all E cast show showf wr big limit rmax _ _ _ _ _ u lr 1 rs save r m0 ps ls OUB 0); [exact ER|exact EM|apply delivers_feed; exact D|exact TN| |exact L5].
  rewrite ML. apply (validate_cut_runs E cast main_labels ls main_shapes 28 28 big limit k m vi vl 1 (set_usable ls SU RD) VA); lia.
Qed.
End Program.
