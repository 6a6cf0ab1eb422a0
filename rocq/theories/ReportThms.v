(** The samples that validate prints. *)
From Coq Require Import String ZArith Bool Lia Reals Lra Ascii List.
From Flocq Require Import Core BinarySingleNaN.
From Verif Require Import Base Dim Matrix View Num Expr Spec Iter MatFacts MatThms Batch Kernel Connected Float32 FloatFacts Pooling Activation Softmax
  LayerFacts LayerTotal Chars Double Bar BarFacts Stream Text TextFacts Model Net ModelThms Train TrainRest Shapes ShapeNet Mnist MnistFacts Validate ValidateFacts ValidateStep ValidateRun ValidateThms Report ReportFacts.
Import ListNotations.
Local Open Scope Z_scope.

(** ** forwardPropagation only changes the slots of pooling layers *)
Section Keep.
Context {T : Type} {N : Num T} (E : env T).

Lemma q_forward_keeps : forall (x : mat T) q q' y, q_forward x 0 q = ORet q' y -> looks q q'.
Proof.
  intros x q q' y H. unfold q_forward in H. destruct (q_outdim q (mdim x)) as [d| |]; cbn [rbind] in H; try discriminate.
  destruct (mat_fill d n0) as [o| |]; cbn [rbind] in H; try discriminate. destruct (vget (q_idx q) 0) as [s| |] eqn:V; cbn [rbind] in H; try discriminate.
  destruct (resize (dim_fill 0) (mdim o) s) as [s1 u| |]; try discriminate.
  destruct (it_loop (mdim o) (fun _ i => q_step q x i) (o, s1)) as [[o' s'] u'|[o' s'] e|]; try discriminate. injection H as <- <-.
  unfold looks, with_slot. cbn [q_dim q_stride q_type q_idx]. repeat (split; [reflexivity|]). split; [eauto|]. eexists. eapply vget_upd0. exact V.
Qed.
Lemma l_forward_keeps : forall x (l l' : layer T) y, simL l l -> l_forward E x 0 l = ORet l' y -> simL l l'.
Proof.
  intros x l l' y S H. assert (D : (exists q, l = LPool q) \/ match l with LPool _ => False | _ => True end) by (destruct l; eauto). destruct D as [(q & ->)|NP].
  - cbn [l_forward] in H. destruct (q_forward x 0 q) as [q' y'| |] eqn:Q; cbn in H; try discriminate. injection H as <- _. apply looks_sim. eapply q_forward_keeps. exact Q.
  - inversion S; subst; [contradiction|]. rewrite (l_forward_same E x 0 l l' y) in * by assumption. assumption.
Qed.
Lemma fwd_layers_keeps : forall (ls ls' : list (layer T)) x y, sims ls ls -> fwd_layers E ls x 0 = ORet ls' y -> sims ls ls'.
Proof.
  induction ls as [|l ls IH]; intros ls' x y S H; cbn [fwd_layers] in H.
  - injection H as <- _. constructor.
  - inversion S; subst. destruct (l_forward E x 0 l) as [l1 y1| |] eqn:Q; try discriminate. destruct (float_copy E y1); try discriminate.
    destruct (fwd_layers E ls y1 0) as [t [rs o]|t e|] eqn:Q2; cbn in H; try discriminate. injection H as <- _. constructor.
    + eapply l_forward_keeps; eassumption.
    + eapply IH; eassumption.
Qed.
Lemma forward_keeps : forall {U} (cast : U -> T) nl input (ls ls' : list (layer T)) r, sims ls ls -> forward_pass E cast nl input 0 ls = ORet ls' r -> sims ls ls'.
Proof.
  intros U cast nl input ls ls' r S H. unfold forward_pass, bind, lift in H.
  destruct (mat_of_lz n0 cast (l_val input) tt) as [x| |]; try discriminate. destruct (float_copy E x) as [r0| |]; try discriminate.
  destruct (fwd_layers E ls x 0) as [l1 ro| |] eqn:Q; try discriminate. destruct (base_size (mdim (snd ro))) as [k| |]; try discriminate.
  destruct (k =? nl); [|discriminate]. cbn [ret] in H. destruct (max_index (snd ro)) as [i| |]; try discriminate. destruct (mread_flat (snd ro) i) as [v| |]; try discriminate.
  unfold ret in H. injection H as <- _. eapply fwd_layers_keeps; eassumption.
Qed.
End Keep.

(** ** The samples *)
Lemma shade_ok : forall b, 0 <= b < 256 -> is_finite (shade b) = true /\ (- 32897 / 65536 <= B2R (shade b) <= 32640 / 65536)%R.
Proof.
  intros b H. destruct (normal_ok b H) as (v & EV & F & V). rewrite normal_shade in EV by exact H. injection EV as <-. split; [exact F|]. rewrite V.
  assert (B : (0 <= IZR b <= 255)%R) by (split; apply IZR_le; lia). apply rnd32_range; [apply (part16 (-32897)); lia|apply (part16 32640); lia|lra].
Qed.

Section Samples.
Context {T : Type} {N : Num T} (E : env T) (cast : f32 -> T) (labels : list text) (show : T -> text).
Local Notation nlab := (Z.of_nat (length labels)).
Context (ss : list shape) (h w : Z) (big : bool) (limit n : Z) (fi fl : file) (P : mnist limit n h w fi fl) (HW : 1 <= h /\ 1 <= w).
Context (rs : Z -> results T) (RL : forall i, 0 <= i < n -> 0 <= r_label (rs i) < nlab).

(** The text [t] that is printed for the value [r] of rand(): a picture of some image, its label, and the result of the network *)
Definition shown (rmax r : Z) (t : text) : Prop :=
  exists k l c, sample_index rmax r n = Ok k /\ 0 <= k < n /\ nth_error labels (Z.to_nat (r_label (rs k))) = Some l /\
    (forall x y, 0 <= x < h -> 0 <= y < w -> 0 <= c x y <= 169) /\
    (forall x y x' y', 0 <= x < h -> 0 <= y < w -> 0 <= x' < h -> 0 <= y' < w ->
       f_byte fi (16 + k * h * w + x * w + y) <= f_byte fi (16 + k * h * w + x' * w + y') -> c x y <= c x' y') /\
    t = lit "This image is a " ++ l ++ lit " (actual label " ++ dec (f_byte fl (8 + k)) ++ lit ")" ++ nl ++
        picture (D3 h w 1) c ++ lit "Layer Results:" ++ nl ++ tab ++ lit "Label Index: " ++ dec (r_label (rs k)) ++ nl ++
        tab ++ lit "Confidence:  " ++ show (r_conf (rs k)) ++ nl ++ nl ++ nl ++ nl.

Lemma mono_shade : forall a b, 0 <= a < 256 -> 0 <= b < 256 -> a <= b -> (B2R (shade a) <= B2R (shade b))%R.
Proof.
  intros a b A B L. destruct (normal_ok a A) as (v & EV & _ & V). destruct (normal_ok b B) as (u & EU & _ & U). rewrite normal_shade in EV, EU by assumption.
  injection EV as <-. injection EU as <-. rewrite V, U. apply round_le; [apply fexp_correct; reflexivity|typeclasses eauto|]. apply IZR_le in L. apply Rmult_le_compat_r; [|lra].
  apply Rlt_le, Rinv_0_lt_compat. lra.
Qed.

Context (ls0 : list (layer T)) (S0 : sims ls0 ls0) (A0 : alone E cast labels h w fi fl n ls0 rs).
Context (rmax : Z) (RM : 1 <= rmax < 2 ^ 31) (N1 : 1 <= n).

Lemma sample_ok : forall r ls rd o, 0 <= r < rmax -> sims ls0 ls -> usable n h w fi fl rd ->
  exists ls' rd' t, sample E cast labels show big limit rmax n r (ls, rd, o) = ORet (ls', rd', o ++ t) tt /\ sims ls0 ls' /\ usable n h w fi fl rd' /\ shown rmax r t.
Proof.
  intros r ls rd o Hr S U. pose proof (mn_n _ _ _ _ _ _ P) as BN. unfold two31 in BN.
  destruct (sample_index_ok rmax r n RM ltac:(lia) ltac:(lia) ltac:(lia) N1) as (k & EK & Hk).
  destruct (call_ok big limit n h w fi fl P (Get k) rd U (index_reachable limit n h w fi fl P k ltac:(lia))) as [(_ & rd' & m & EC & IM & U' & _)|(B & _)]; [|lia].
  cbn [do_call] in EC.
  assert (G : gives E cast labels (i_data m) VStart ls (rs k)).
  { eapply (gives_sim E cast labels ss (D3 h w 1) (i_data m) VStart ls0 ls); [exact S|exact I|exact I|]. apply A0; assumption. }
  destruct G as (ls' & G). cbn [vrest] in G.
  assert (KS : sims ls ls') by (eapply forward_keeps; [|exact G]; eapply sims_trans; [apply sims_sym; exact S|exact S]).
  destruct (nth_error labels (Z.to_nat (r_label (rs k)))) as [l|] eqn:QL.
  2:{ apply nth_error_None in QL. specialize (RL k Hk). lia. }
  destruct IM as [IM IL].
  destruct (dim_picture (i_data m) (D3 h w 1) _ (o ++ (lit "This image is a " ++ l ++ lit " (actual label " ++ dec (i_label m) ++ lit ")" ++ nl)) IM (mn_fits _ _ _ _ _ _ P)) as (c & EP & C1 & C2 & _).
  { unfold pos. cbn. lia. } { cbn. lia. } { intros x y z _. apply shade_ok. apply (mn_bytes _ _ _ _ _ _ P). }
  exists ls', rd', (lit "This image is a " ++ l ++ lit " (actual label " ++ dec (f_byte fl (8 + k)) ++ lit ")" ++ nl ++ picture (D3 h w 1) c ++ lit "Layer Results:" ++ nl ++ tab ++ lit "Label Index: " ++ dec (r_label (rs k)) ++ nl ++
        tab ++ lit "Confidence:  " ++ show (r_conf (rs k)) ++ nl ++ nl ++ nl ++ nl).
  split; [|split; [eapply sims_trans; eassumption|split; [exact U'|]]].
  - unfold sample. unfold bind at 1, lift at 1. rewrite EK. rewrite (u64_id k) by (unfold two64; lia).
    erewrite bind_ok by (apply on_fst_ok, on_snd_ok; exact EC). unfold on_net at 1. erewrite bind_ok by (apply on_fst_ok, on_fst_ok; exact G).
    unfold bind at 1, lift at 1. unfold vget at 1. specialize (RL k Hk). replace ((0 <=? r_label (rs k)) && (r_label (rs k) <? nlab)) with true by (symmetry; apply andb_true_intro; split; [apply Z.leb_le|apply Z.ltb_lt]; lia).
    rewrite QL. erewrite bind_ok by (apply on_snd_ok; reflexivity). erewrite bind_ok by (apply on_snd_ok; exact EP).
    erewrite on_snd_ok by reflexivity. rewrite IL. f_equal. f_equal. unfold results_text. rewrite <- !app_assoc. reflexivity.
  - exists k, l, c. split; [exact EK|]. split; [exact Hk|]. split; [exact QL|]. split; [exact C1|]. split; [|reflexivity].
    intros x y x' y' X Y X' Y' L. apply C2; try assumption. apply mono_shade; [apply (mn_bytes _ _ _ _ _ _ P)..|exact L].
Qed.

Theorem samples_ok : forall rvals ls rd o, List.Forall (fun r => 0 <= r < rmax) rvals -> sims ls0 ls -> usable n h w fi fl rd ->
  exists ls' rd' ts, samples E cast labels show big limit rmax n rvals (ls, rd, o) = ORet (ls', rd', o ++ concat ts) tt /\ sims ls0 ls' /\ usable n h w fi fl rd' /\
    Forall2 (shown rmax) rvals ts.
Proof.
  induction rvals as [|r rvals IH]; intros ls rd o F S U; cbn [samples].
  - exists ls, rd, []. cbn. rewrite app_nil_r. auto.
  - inversion F; subst. destruct (sample_ok r ls rd o ltac:(assumption) S U) as (l1 & r1 & t & E1 & S1 & U1 & SH1). rewrite (bind_ok _ _ _ _ _ E1).
    destruct (IH l1 r1 (o ++ t) ltac:(assumption) S1 U1) as (l2 & r2 & ts & E2 & S2 & U2 & SH2). exists l2, r2, (t :: ts). cbn [concat]. rewrite app_assoc. auto.
Qed.

(** RAND_MAX selects an image that does not exist. *)
Theorem samples_max : forall pre post ls rd o, List.Forall (fun r => 0 <= r < rmax) pre -> sims ls0 ls -> usable n h w fi fl rd ->
  exists s, samples E cast labels show big limit rmax n (pre ++ rmax :: post) (ls, rd, o) = OThrow s RuntimeError.
Proof.
  induction pre as [|r pre IH]; intros post ls rd o F S U; cbn [samples app].
  - pose proof (mn_n _ _ _ _ _ _ P) as BN. unfold two31 in BN.
    destruct (call_ok big limit n h w fi fl P (Get n) rd U (index_reachable limit n h w fi fl P n ltac:(lia))) as [(B & _)|(_ & rd' & EC & _)]; [lia|].
    cbn [do_call] in EC. unfold bind at 1. unfold sample. unfold bind at 1, lift at 1. rewrite (sample_index_max rmax rmax n RM ltac:(lia) ltac:(lia) eq_refl).
    rewrite (u64_id n) by (unfold two64; lia). unfold bind at 1, on_fst at 1, on_snd at 1. rewrite EC. eexists. reflexivity.
  - inversion F; subst. destruct (sample_ok r ls rd o ltac:(assumption) S U) as (l1 & r1 & t & E1 & S1 & U1 & SH1). rewrite (bind_ok _ _ _ _ _ E1).
    apply IH; assumption.
Qed.
End Samples.

(** Without images there is nothing to show either. *)
Theorem samples_none : forall {T} {N : Num T} (E : env T) cast labels show big limit h w fi fl rmax r rvals ls rd o, mnist limit 0 h w fi fl -> 1 <= rmax < 2 ^ 31 ->
  0 <= r <= rmax -> usable 0 h w fi fl rd -> exists s, samples E cast labels show big limit rmax 0 (r :: rvals) (ls, rd, o) = OThrow s RuntimeError.
Proof.
  intros T N E cast labels show big limit h w fi fl rmax r rvals ls rd o P RM Hr U.
  destruct (call_ok big limit 0 h w fi fl P (Get 0) rd U (index_reachable limit 0 h w fi fl P 0 ltac:(lia))) as [(B & _)|(_ & rd' & EC & _)]; [lia|].
  cbn [do_call] in EC. cbn [samples]. unfold bind at 1. unfold sample. unfold bind at 1, lift at 1.
  assert (SI : sample_index rmax r 0 = Ok 0).
  { destruct (product_ok rmax r 0 RM Hr ltac:(lia)) as (_ & SI & RB). rewrite SI. f_equal. apply trunc_nonneg; [|lia]. lra. }
  rewrite SI. change (u64 0) with 0. unfold bind at 1, on_fst at 1, on_snd at 1. rewrite EC. eexists. reflexivity.
Qed.
