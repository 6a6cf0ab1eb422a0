(** Validation with doubles against the labels of exact arithmetic. *)
From Coq Require Import ZArith List Bool Lia Reals Lra.
From Flocq Require Import Core BinarySingleNaN.
From Verif Require Import Base Dim Matrix View Num Expr Spec Iter MatFacts Sums ExprThms Batch Kernel Connected Pooling PoolingThms PoolGrad Activation ActivationThms
  Softmax SoftmaxThms LayerFacts LayerTotal Calc Chars Double Float32 FloatFacts Bar BarFacts Model Net NetThms NetPass NetGrad ModelThms TrainNet Shapes ShapeNet Main FiniteFacts FiniteSoft FiniteNet FiniteReal FiniteMain
  Rounding RoundLayers RoundNet RoundPass RoundBack RoundTrain Mnist MnistFacts Validate ValidateFacts ValidateStep ValidateRun ValidateThms.
Import ListNotations.
Local Open Scope Z_scope.

(** The text of label number [k] is the decimal text of the byte [b]. *)
Definition named (labels : list text) (k b : Z) : bool := match vget labels k with Ok l => text_eqb l (dec b) | _ => false end.

Lemma hit_named : forall (labels : list text) (fl : file) (rs : Z -> results double) i, hit labels fl rs i = named labels (r_label (rs i)) (f_byte fl (8 + i)).
Proof. reflexivity. Qed.

Lemma tally_near : forall n P Q C, (forall i, 0 <= i < n -> C i = false -> P i = Q i) -> Z.abs (tally n P - tally n Q) <= tally n C.
Proof.
  intros n P Q C H. unfold tally. assert (K : forall i, In i (map Z.of_nat (seq 0 (Z.to_nat n))) -> C i = false -> P i = Q i).
  { intros i Hi. apply in_map_iff in Hi. destruct Hi as (k & <- & Hk). apply in_seq in Hk. apply H. lia. }
  clear H. induction (map Z.of_nat (seq 0 (Z.to_nat n))) as [|a l IH]; [cbn; lia|]. specialize (IH (fun i Hi => K i (or_intror Hi))). specialize (K a (or_introl eq_refl)).
  cbn [filter]. destruct (C a); [destruct (P a), (Q a); cbn [length]; lia|]. rewrite K by reflexivity. destruct (Q a); cbn [length]; lia.
Qed.

(** A pixel *)
Local Notation pw := (bpow radix2).
Lemma shade_small : forall b, 0 <= b < 256 -> within 1 0 (d_of_f32 (shade b)) /\ B2R (d_of_f32 (shade b)) = B2R (shade b) /\
  (Rabs (B2R (shade b) - (IZR b - 128) / 255) <= pw (-24))%R.
Proof.
  intros b Hb. destruct (normal_ok b Hb) as (v & E & F & V). rewrite normal_shade in E by assumption. injection E as <-.
  destruct (d_of_f32_ok _ F) as (D1 & D2). set (x := ((IZR b - 128) / 255)%R) in *.
  assert (B : (Rabs x <= 128 / 255)%R).
  { assert (0 <= IZR b <= 255)%R by (split; apply IZR_le; lia). unfold x. apply Rabs_le. split; lra. }
  assert (ER : (Rabs (B2R (shade b) - x) <= pw (-24))%R).
  { rewrite V. apply (rnd32_error x 0); [lia|]. cbn [bpow]. lra. }
  split; [|split; assumption]. split; [exact D2|]. rewrite D1. replace (B2R (shade b)) with ((B2R (shade b) - x) + x)%R by ring.
  eapply Rle_trans; [apply Rabs_triang|]. assert (pw (-24) <= 1 / 4)%R by (apply Rle_trans with (pw (-2)); [apply bpow_le; lia|cbn; lra]). cbn [bpow]. lra.
Qed.

(** The pixels of image [i], and the numbers (byte - 128) / 255 that they stand for *)
Definition pixels (h w : Z) (fi : file) (i : Z) : fn := fun r c _ => B2R (shade (f_byte fi (16 + i * h * w + r * w + c))).
Definition grey (h w : Z) (fi : file) (i : Z) : fn := fun r c _ => ((IZR (f_byte fi (16 + i * h * w + r * w + c)) - 128) / 255)%R.

(** [x] is larger than all other elements of [X] by more than [t]. *)
Definition leads (d : dim3) (X : fn) (t : R) (k : Z) : Prop := exists a b c, inb d a b c /\ k = lin d a b c /\
  forall a' b' c', inb d a' b' c' -> (a', b', c') <> (a, b, c) -> (X a' b' c' + t < X a b c)%R.

Section Run.
Variable E : env double.
Hypothesis AO : acc_ok E.

Lemma pass_label : forall w body sm ss d n i e g U (cast : U -> double) (input : mat U) J F,
  net_fit body ss d -> sm_count sm = n -> List.Forall ready body -> List.Forall (fun l => index_slot l i) body -> h_net_ok ss d -> labels_ok (h_net_out ss d) n ->
  is_mat input d J -> (forall a b c, inb d a b c -> within 1 e (cast (J a b c))) -> nearby g d (fun a b c => cast (J a b c)) F ->
  net_small w body ss d -> 0 <= w -> 0 <= e -> h_net_lim 127 w ss d e -> h_net_exp w ss d e <= 49 -> h_net_err w ss d e g <= -2 ->
  exists ls' r, forward_pass E cast n input i (body ++ [LSoft sm]) = ORet ls' r /\
    forall k, leads (h_net_out ss d) (net_sem (real_net ss body) d F) (pw (h_net_err w ss d e g + 1) + pw (-50)) k -> r_label r = k.
Proof.
  intros w body sm ss d n i e g U cast input J F HN HC HR HS OK LO HJ BJ CJ HW Hw He HL LE LG.
  destruct (label_accuracy E AO w body sm ss d n i e g U cast input J F HN HC HS OK LO HJ BJ CJ HW Hw He HL LE LG) as (body' & r & EF & K).
  exists (body' ++ [LSoft sm]), r. split; [exact EF|]. intros k (a & b & c & I & -> & L). apply K; [exact I|].
  destruct (forward_total E body sm ss d n i U cast input HN HC HS OK LO (is_has _ _ _ HJ)) as (b2 & x0 & rs & p & r2 & EF2 & _ & _ & _ & _ & _ & NF & _).
  rewrite EF in EF2. injection EF2 as EB ER. apply app_inj_tail in EB. destruct EB as (<- & _).
  pose proof (forward_keeps E U cast n input i (body ++ [LSoft sm])) as FK. rewrite EF in FK. cbn [leaves] in FK.
  destruct FK as (FK & _); [apply Forall_app; split; [exact HR|repeat constructor]|].
  rewrite !map_app in FK. apply app_inj_tail in FK. destruct FK as (FK & _).
  rewrite (real_net_params ss body body' d HN NF FK). intros a' b' c' I' NE. specialize (L a' b' c' I' NE). lra.
Qed.

Theorem validate_near : forall wd labels body sm ss h w big limit n fi fl nt g (F : Z -> fn),
  usable_net labels (body ++ [LSoft sm]) ss (D3 h w 1) -> mnist limit n h w fi fl -> 1 <= nt -> n + nt <= 2 ^ 31 ->
  net_small wd body ss (D3 h w 1) -> 0 <= wd -> h_net_lim 127 wd ss (D3 h w 1) 0 -> h_net_exp wd ss (D3 h w 1) 0 <= 49 -> h_net_err wd ss (D3 h w 1) 0 g <= -2 ->
  (forall i r c, 0 <= i < n -> 0 <= r < h -> 0 <= c < w -> (Rabs (pixels h w fi i r c 0%Z - F i r c 0%Z) <= pw g)%R) ->
  forall (win : Z -> Z) (close : Z -> bool),
  (forall i, 0 <= i < n -> close i = false -> leads (h_net_out ss (D3 h w 1)) (net_sem (real_net ss body) (D3 h w 1) (F i)) (pw (h_net_err wd ss (D3 h w 1) 0 g + 1) + pw (-50)) (win i)) ->
  forall o, validation E d_of_f32 labels big limit (Readable fi) (Readable fl) nt (body ++ [LSoft sm]) o ->
  exists ls' rd count, o = ORet ls' (count, n, rd) /\ Z.abs (count - tally n (fun i => named labels (win i) (f_byte fl (8 + i)))) <= tally n close.
Proof.
  intros wd labels body sm ss h w big limit n fi fl nt g F U P NT NN HW Hw HL LE LG HF win close HC o V.
  destruct (alone_exists E d_of_f32 labels _ ss h w limit n fi fl U P) as (rs & A & _).
  destruct (validate_ends E d_of_f32 labels _ ss h w big limit n fi fl nt U P NT NN rs o A V) as (ls' & rd & EO & _).
  exists ls', rd, (tally n (hit labels fl rs)). split; [exact EO|]. apply tally_near. intros i Hi CI. rewrite hit_named. f_equal.
  destruct (open_usable true limit n h w fi fl P) as (rd0 & _ & UR & _).
  destruct (call_ok true limit n h w fi fl P (Get i) rd0 UR (index_reachable limit n h w fi fl P i ltac:(lia))) as [(_ & r' & m & _ & IM & _)|(B & _)]; [|lia].
  destruct (A i m Hi IM) as (l1 & E1). destruct IM as (IM & _).
  destruct U as [(body0 & sm0 & EB & C & NF & RD & IX) OK LO]. apply app_inj_tail in EB. destruct EB as (<- & EB). injection EB as <-.
  assert (BY : forall p, 0 <= f_byte fi p < 256) by (intros p; apply (mn_bytes _ _ _ _ _ _ P)).
  destruct (pass_label wd body sm ss (D3 h w 1) _ 0 0 g _ d_of_f32 (i_data m) _ (F i) NF C RD IX OK LO IM) as (l2 & r2 & E2 & K); try assumption; try lia.
  - intros a b c _. apply shade_small. apply BY.
  - intros a b c (I1 & I2 & I3). cbn [dx dy dz] in *. replace c with 0 by lia. rewrite (proj1 (proj2 (shade_small _ (BY _)))). apply (HF i a b Hi I1 I2).
  - rewrite E1 in E2. injection E2 as _ ->. apply K. apply HC; assumption.
Qed.
End Run.

Section Uses.
Variable E : env double.
Hypothesis AO : acc_ok E.

(** Against the exact results for the floats that the pixels are: no error of the image, so any [g] will do *)
Theorem validate_floats : forall wd labels body sm ss h w big limit n fi fl nt g,
  usable_net labels (body ++ [LSoft sm]) ss (D3 h w 1) -> mnist limit n h w fi fl -> 1 <= nt -> n + nt <= 2 ^ 31 ->
  net_small wd body ss (D3 h w 1) -> 0 <= wd -> h_net_lim 127 wd ss (D3 h w 1) 0 -> h_net_exp wd ss (D3 h w 1) 0 <= 49 -> h_net_err wd ss (D3 h w 1) 0 g <= -2 ->
  forall (win : Z -> Z) (close : Z -> bool),
  (forall i, 0 <= i < n -> close i = false -> leads (h_net_out ss (D3 h w 1)) (net_sem (real_net ss body) (D3 h w 1) (pixels h w fi i)) (pw (h_net_err wd ss (D3 h w 1) 0 g + 1) + pw (-50)) (win i)) ->
  forall o, validation E d_of_f32 labels big limit (Readable fi) (Readable fl) nt (body ++ [LSoft sm]) o ->
  exists ls' rd count, o = ORet ls' (count, n, rd) /\ Z.abs (count - tally n (fun i => named labels (win i) (f_byte fl (8 + i)))) <= tally n close.
Proof.
  intros wd labels body sm ss h w big limit n fi fl nt g U P NT NN HW Hw HL LE LG.
  apply (validate_near E AO wd labels body sm ss h w big limit n fi fl nt g (pixels h w fi) U P NT NN HW Hw HL LE LG).
  intros. rewrite Rminus_diag_eq, Rabs_R0 by reflexivity. left. apply bpow_gt_0.
Qed.
(** Against the exact results for the numbers (byte - 128) / 255 *)
Theorem validate_grey : forall wd labels body sm ss h w big limit n fi fl nt,
  usable_net labels (body ++ [LSoft sm]) ss (D3 h w 1) -> mnist limit n h w fi fl -> 1 <= nt -> n + nt <= 2 ^ 31 ->
  net_small wd body ss (D3 h w 1) -> 0 <= wd -> h_net_lim 127 wd ss (D3 h w 1) 0 -> h_net_exp wd ss (D3 h w 1) 0 <= 49 -> h_net_err wd ss (D3 h w 1) 0 (-24) <= -2 ->
  forall (win : Z -> Z) (close : Z -> bool),
  (forall i, 0 <= i < n -> close i = false -> leads (h_net_out ss (D3 h w 1)) (net_sem (real_net ss body) (D3 h w 1) (grey h w fi i)) (pw (h_net_err wd ss (D3 h w 1) 0 (-24) + 1) + pw (-50)) (win i)) ->
  forall o, validation E d_of_f32 labels big limit (Readable fi) (Readable fl) nt (body ++ [LSoft sm]) o ->
  exists ls' rd count, o = ORet ls' (count, n, rd) /\ Z.abs (count - tally n (fun i => named labels (win i) (f_byte fl (8 + i)))) <= tally n close.
Proof.
  intros wd labels body sm ss h w big limit n fi fl nt U P NT NN HW Hw HL LE LG.
  apply (validate_near E AO wd labels body sm ss h w big limit n fi fl nt (-24) (grey h w fi) U P NT NN HW Hw HL LE LG).
  intros i r c _ _ _. apply shade_small. apply (mn_bytes _ _ _ _ _ _ P).
Qed.

Lemma tally_none : forall n, tally n (fun _ => false) = 0.
Proof. intros n. unfold tally. induction (map Z.of_nat (seq 0 (Z.to_nat n))); [reflexivity|assumption]. Qed.

(** The network of main.cpp, with parameters of absolute value at most 16, after training for example *)
Theorem validate_main : forall body sm big limit n fi fl nt,
  usable_net main_labels (body ++ [LSoft sm]) main_shapes (D3 28 28 1) -> mnist limit n 28 28 fi fl -> 1 <= nt -> n + nt <= 2 ^ 31 ->
  net_small 4 body main_shapes (D3 28 28 1) ->
  forall (win : Z -> Z) (close : Z -> bool),
  (forall i, 0 <= i < n -> close i = false -> 0 <= win i < 10 /\ forall k, 0 <= k < 10 -> k <> win i ->
    let X := net_sem (real_net main_shapes body) (D3 28 28 1) (pixels 28 28 fi i) in (X k 0%Z 0%Z + bpow radix2 (-12) < X (win i) 0%Z 0%Z)%R) ->
  forall o, validation E d_of_f32 main_labels big limit (Readable fi) (Readable fl) nt (body ++ [LSoft sm]) o ->
  exists ls' rd count, o = ORet ls' (count, n, rd) /\ Z.abs (count - tally n (fun i => named main_labels (win i) (f_byte fl (8 + i)))) <= tally n close.
Proof.
  intros body sm big limit n fi fl nt U P NT NN HW win close HC.
  apply (validate_floats 4 main_labels body sm main_shapes 28 28 big limit n fi fl nt (-60) U P NT NN HW); [lia|vm_compute; intuition congruence|vm_compute; congruence|vm_compute; congruence|].
  intros i Hi CI. destruct (HC i Hi CI) as (W & L). change (h_net_out main_shapes (D3 28 28 1)) with (D3 10 1 1). change (h_net_err 4 main_shapes (D3 28 28 1) 0 (-60)) with (-14).
  exists (win i), 0, 0. split; [unfold inb; cbn [dx dy dz]; lia|]. split; [unfold lin; cbn [dx dy dz]; lia|]. intros a b c (I1 & I2 & I3) NE. cbn [dx dy dz] in *.
  assert (b = 0) by lia. assert (c = 0) by lia. subst b c. specialize (L a I1 ltac:(congruence)). cbv zeta in L.
  assert (pw (-14 + 1) + pw (-50) <= pw (-12))%R; [|lra]. change (-14 + 1) with (-13). replace (pw (-12)) with (pw (-13) + pw (-13))%R by (change (-12) with (1 + -13); rewrite bpow_plus; cbn [bpow]; change (Z.pow_pos radix2 1) with 2; lra).
  apply Rplus_le_compat_l. apply bpow_le. lia.
Qed.
End Uses.
