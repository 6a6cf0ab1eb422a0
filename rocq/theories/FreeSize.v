(** Layers whose sizes are missing, or are too large for their type. *)
From Coq Require Import String ZArith List Bool Ascii Lia.
From Verif Require Import Base Dim Matrix View Num Expr Spec Iter MatFacts Batch Kernel Connected Float32 Pooling Activation Softmax Chars Model
  Double Stream StreamFacts Text TextFacts LayerText FreeText.
Import ListNotations.
Local Open Scope Z_scope.

Definition no_label (e t : text) : Prop := ~ exists r, t = e ++ r.
(** The nearest value in the range of int *)
Definition nearest_int (v : Z) : Z := Z.min (two31 - 1) (Z.max (- two31) v).
(** A stream that reports an error *)
Definition broken (s : istream) : Prop := good s = false.

Lemma not_blank : forall a c, c <> " "%char -> ~ ends_blank (a ++ [c]).
Proof. intros a c H (b & Q). change (lit " ") with [" "%char] in Q. apply app_inj_tail in Q. destruct Q as [_ Q]. congruence. Qed.
Definition letters (e : text) : Prop := e <> [] /\ ~ ends_blank e.
Lemma letter_1 : forall c, c <> " "%char -> letters [c].
Proof. intros c H. split; [discriminate|]. apply (not_blank [] c H). Qed.
Lemma letters_x : letters (lit "x"). Proof. apply letter_1. discriminate. Qed.
Lemma letters_y : letters (lit "y"). Proof. apply letter_1. discriminate. Qed.
Lemma letters_z : letters (lit "z"). Proof. apply letter_1. discriminate. Qed.
Lemma letters_n : letters (lit "n"). Proof. apply letter_1. discriminate. Qed.
Lemma letters_stride : letters (lit "stride"). Proof. split; [discriminate|]. apply (not_blank (lit "strid") "e"%char). discriminate. Qed.
Lemma letters_weights : letters (lit "weights"). Proof. split; [discriminate|]. apply (not_blank (lit "weight") "s"%char). discriminate. Qed.

(** The label is not there, or the stream is broken. *)
Definition stuck (e : text) (s : istream) : Prop := broken s \/ no_label e (rest s).
Lemma label_stuck : forall e s, letters e -> stuck e s -> exists s', expect_label e s = OThrow s' RuntimeError.
Proof.
  intros e s [N B] H. apply expect_label_bad; [exact B|exact N|]. intros [G Q]. destruct H as [H|H]; [unfold broken in H; congruence|]. exact (H Q).
Qed.
Lemma val_stuck : forall A (get : istream -> option A * istream) e s, letters e -> stuck e s -> exists s', expect_val get e s = OThrow s' RuntimeError.
Proof. intros A get e s L H. destruct (label_stuck e s L H) as (s' & Q). exists s'. unfold expect_val, bind. rewrite Q. reflexivity. Qed.
Lemma void_stuck : forall e s, letters e -> stuck e s -> exists s', expect_void e s = OThrow s' RuntimeError.
Proof. intros e s L H. destruct (label_stuck e s L H) as (s' & Q). exists s'. unfold expect_void, bind. rewrite Q. reflexivity. Qed.

Lemma clear_broken : forall s, failb s = true -> broken (clear_line s).
Proof.
  intros s H. unfold clear_line, sentry, good. rewrite H, andb_false_r. cbn [negb]. unfold broken, good, set_fail. cbn. apply andb_false_r.
Qed.
Lemma clear_broken2 : forall s, broken s -> broken (clear_line s).
Proof. intros s H. unfold clear_line, sentry. unfold broken in H. rewrite H. cbn [negb]. unfold broken, good, set_fail. cbn. apply andb_false_r. Qed.

(** Numbers that do not fit *)
Lemma int_large : forall e v t, ~ is_int v -> exists s, expect_int e (open_text (place e (dec v) ++ t)) = ORet s (nearest_int v) /\ broken s.
Proof.
  intros e v t V. unfold is_int in V. unfold expect_int, expect_val, place. rewrite <- !app_assoc. unfold bind. rewrite expect_label_ok. unfold stm.
  unfold get_int. destruct (dec_head v (nl ++ t)) as [H1 H2]. rewrite sentry_skip; [|reflexivity|assumption|assumption].
  cbn [rest open_text]. rewrite scan_dec by reflexivity. rewrite is_nil_dec_pos, dec_pos_num by lia.
  replace (if v <? 0 then - Z.abs v else Z.abs v) with v by (destruct (v <? 0) eqn:Q; lia). unfold nearest_int.
  destruct (v <? - two31) eqn:Q1; [|destruct (two31 <=? v) eqn:Q2; [|lia]].
  - replace (Z.min (two31 - 1) (Z.max (- two31) v)) with (- two31) by (unfold two31 in *; lia). eexists. split; [reflexivity|apply clear_broken; reflexivity].
  - replace (Z.min (two31 - 1) (Z.max (- two31) v)) with (two31 - 1) by (unfold two31 in *; lia). eexists. split; [reflexivity|apply clear_broken; reflexivity].
Qed.
Lemma unsigned_large : forall e v t, two32 <= Z.abs v -> exists s, expect_unsigned e (open_text (place e (dec v) ++ t)) = ORet s (two32 - 1) /\ broken s.
Proof.
  intros e v t V. unfold expect_unsigned, expect_val, place. rewrite <- !app_assoc. unfold bind. rewrite expect_label_ok. unfold stm.
  unfold get_unsigned. destruct (dec_head v (nl ++ t)) as [H1 H2]. rewrite sentry_skip; [|reflexivity|assumption|assumption].
  cbn [rest open_text]. rewrite scan_dec by reflexivity. rewrite is_nil_dec_pos, dec_pos_num by lia.
  destruct (two32 <=? Z.abs v) eqn:Q2; [|lia]. eexists. split; [reflexivity|apply clear_broken; reflexivity].
Qed.
Lemma unsigned_any : forall e v t, Z.abs v < two32 -> expect_unsigned e (open_text (place e (dec v) ++ t)) = ORet (open_text t) (v mod two32).
Proof.
  intros e v t V. unfold expect_unsigned, expect_val, place. rewrite <- !app_assoc. unfold bind. rewrite expect_label_ok. unfold stm.
  unfold get_unsigned. destruct (dec_head v (nl ++ t)) as [H1 H2]. rewrite sentry_skip; [|reflexivity|assumption|assumption].
  cbn [rest open_text]. rewrite scan_dec by reflexivity. rewrite is_nil_dec_pos, dec_pos_num by lia.
  destruct (two32 <=? Z.abs v) eqn:Q2; [lia|].
  cbn [is_nil nl app]. change (IS (newline :: t) false false) with (open_text (nl ++ t)). rewrite clear_line_nl. f_equal.
  destruct (v <? 0) eqn:Q.
  - replace (- Z.abs v) with v by lia. reflexivity.
  - rewrite Z.abs_eq by lia. rewrite Z.mod_small by lia. reflexivity.
Qed.

(** White space, an optional sign, and then something other than a digit *)
Definition word (w : text) : Prop := exists sp s t, w = sp ++ s ++ t /\ white sp /\ is_sign s /\ s ++ t <> [] /\ no_digit t /\
  (s = [] -> forall c q, t = c :: q -> c <> "+"%char /\ c <> "-"%char /\ ~ white [c]).
Lemma word_scan : forall w, word w -> exists neg r t, sentry true (open_text w) = (true, open_text r) /\ scan_int r = (neg, [], t).
Proof.
  intros w (sp & s & t & -> & W & S & NE & D & O). exists (minus s), (s ++ t), t. split.
  - apply sentry_skip; [apply white_is; exact W| |exact NE].
    destruct S as [->|[->| ->]]; [|reflexivity|reflexivity]. cbn [app]. destruct t as [|c t]; [exact Logic.I|]. cbn [stops].
    destruct (O eq_refl c t eq_refl) as (_ & _ & B). destruct (is_space c) eqn:Q; [|reflexivity]. exfalso. apply B. apply is_white. unfold spaces. cbn [forallb]. rewrite Q. reflexivity.
  - apply no_digit_stops in D. pose proof (span_app is_digit [] t eq_refl D) as SA. cbn [app] in SA.
    unfold scan_int. destruct S as [->|[->| ->]].
    + pose proof (minus_cases [] (or_introl eq_refl) [] t ltac:(intros c [])) as MC. cbn [app] in *. rewrite MC; [rewrite SA; reflexivity|].
      destruct t as [|c t]; [left; reflexivity|right; exists c, t; split; [reflexivity|]]. destruct (O eq_refl c t eq_refl) as (A & B & _); auto.
    + cbn [lit list_ascii_of_string app scan_sign Ascii.eqb Bool.eqb]. rewrite SA. reflexivity.
    + cbn [lit list_ascii_of_string app scan_sign Ascii.eqb Bool.eqb]. rewrite SA. reflexivity.
Qed.
Lemma int_word : forall e w, word w -> exists s, expect_int e (open_text (e ++ w)) = ORet s 0 /\ broken s.
Proof.
  intros e w W. destruct (word_scan w W) as (neg & r & t & A & B). unfold expect_int, expect_val, bind. rewrite expect_label_ok. unfold stm, get_int. rewrite A.
  cbn [rest open_text]. rewrite B. cbn [is_nil]. eexists. split; [reflexivity|apply clear_broken; reflexivity].
Qed.
Lemma unsigned_word : forall e w, word w -> exists s, expect_unsigned e (open_text (e ++ w)) = ORet s 0 /\ broken s.
Proof.
  intros e w W. destruct (word_scan w W) as (neg & r & t & A & B). unfold expect_unsigned, expect_val, bind. rewrite expect_label_ok. unfold stm, get_unsigned. rewrite A.
  cbn [rest open_text]. rewrite B. cbn [is_nil]. eexists. split; [reflexivity|apply clear_broken; reflexivity].
Qed.
(** The text ends after the label: the variable for the number is never written. *)
Lemma sentry_end : forall w, white w -> exists s, sentry true (open_text w) = (false, s).
Proof.
  intros w W. unfold sentry. cbn [good open_text eofb failb negb andb rest]. rewrite <- (app_nil_r w). rewrite span_app; [|apply white_is; exact W|exact Logic.I].
  eexists. reflexivity.
Qed.
Lemma int_end : forall e w, white w -> expect_int e (open_text (e ++ w)) = OUB.
Proof.
  intros e w W. destruct (sentry_end w W) as (s & A). unfold expect_int, expect_val, bind. rewrite expect_label_ok. unfold stm, get_int. rewrite A. reflexivity.
Qed.
Lemma unsigned_end : forall e w, white w -> expect_unsigned e (open_text (e ++ w)) = OUB.
Proof.
  intros e w W. destruct (sentry_end w W) as (s & A). unfold expect_unsigned, expect_val, bind. rewrite expect_label_ok. unfold stm, get_unsigned. rewrite A. reflexivity.
Qed.

Section Layers.
Context {T : Type} {N : Num T} (rd : istream -> option T * istream).

(** What can be wrong with the next size: its label is missing, it does not fit, or it is no number; [v] is the value stored then. *)
Inductive bad_int (e : text) (old : Z) : text -> Z -> Prop :=
| bad_missing : forall t, no_label e t -> bad_int e old t old
| bad_large : forall v t, ~ is_int v -> bad_int e old (place e (dec v) ++ t) (nearest_int v)
| bad_word : forall w, word w -> bad_int e old (e ++ w) 0.

Lemma no_stuck : forall e t, no_label e t -> stuck e (open_text t).
Proof. intros e t H. right. exact H. Qed.

(** One line with a size followed by the rest of the load *)
Lemma bad_step : forall {A : Type} e old t v (set : A -> Z -> A) (a : A) (k : M (A * istream) bool), letters e -> bad_int e old t v ->
  set a old = a -> (forall b s, broken s -> exists s', k (b, s) = OThrow (b, s') RuntimeError) ->
  exists s, (x <- on_snd (expect_int e) ;; upd_fst (fun a => set a x) ;; k)%st (a, open_text t) = OThrow (set a v, s) RuntimeError.
Proof.
  intros A e old t v set a k L B S K. destruct B as [t H|v t V|w W].
  - destruct (val_stuck _ get_int e (open_text t) L (no_stuck e t H)) as (s & Q). exists s. rewrite S. unfold bind at 1. unfold on_snd. unfold expect_int. rewrite Q. reflexivity.
  - destruct (int_large e v t V) as (s & Q & B). destruct (K (set a (nearest_int v)) s B) as (s' & K'). exists s'.
    erewrite bind_ok by (apply on_snd_ok; exact Q). erewrite bind_ok by apply upd_fst_ok. exact K'.
  - destruct (int_word e w W) as (s & Q & B). destruct (K (set a 0) s B) as (s' & K'). exists s'.
    erewrite bind_ok by (apply on_snd_ok; exact Q). erewrite bind_ok by apply upd_fst_ok. exact K'.
Qed.
Lemma bind_ub : forall {S A B : Type} (m : M S A) (k : A -> M S B) s, m s = OUB -> bind m k s = OUB.
Proof. intros S A B m k s Q. unfold bind. rewrite Q. reflexivity. Qed.
Lemma on_snd_ub : forall {A S B : Type} (m : M S B) (a : A) s, m s = OUB -> on_snd m (a, s) = OUB.
Proof. intros A S B m a s Q. unfold on_snd. rewrite Q. reflexivity. Qed.
Lemma snd_val_broken : forall {A B C : Type} (get : istream -> option B * istream) e (a : A) s (k : B -> M (A * istream) C), letters e -> broken s ->
  exists s', bind (on_snd (expect_val get e)) k (a, s) = OThrow (a, s') RuntimeError.
Proof. intros A B C get e a s k L H. destruct (val_stuck _ get e s L (or_introl H)) as (s' & Q). exists s'. unfold bind, on_snd. rewrite Q. reflexivity. Qed.
Lemma snd_void_stuck : forall {A C : Type} e (a : A) s (k : unit -> M (A * istream) C), letters e -> stuck e s ->
  exists s', bind (on_snd (expect_void e)) k (a, s) = OThrow (a, s') RuntimeError.
Proof. intros A C e a s k L H. destruct (void_stuck e s L H) as (s' & Q). exists s'. unfold bind, on_snd. rewrite Q. reflexivity. Qed.

Definition k_size (k : kernel T) (d : dim3) (n : Z) : kernel T := Kern (k_par k) d (k_stride k) n.
Lemma par_stuck : forall (p : @params T) s, stuck (lit "weights") s -> exists s', par_load rd (p, s) = OThrow (p, s') RuntimeError.
Proof. intros p s B. unfold par_load. apply snd_void_stuck; [exact letters_weights|exact B]. Qed.
Lemma k_par_stuck : forall (k : kernel T) s, stuck (lit "weights") s -> exists s', on_field k_par with_par (par_load rd) (k, s) = OThrow (k, s') RuntimeError.
Proof. intros k s B. destruct (par_stuck (k_par k) s B) as (s' & Q). exists s'. unfold on_field. rewrite Q. destruct k. reflexivity. Qed.

(** *** Kernels *)
Local Notation load_k k t := (k_load rd (k, open_text (lit "Kernel" ++ nl ++ t))).
Local Notation px x := (place (lit "x") (dec x)).
Local Notation py y := (place (lit "y") (dec y)).
Local Notation pz z := (place (lit "z") (dec z)).
Local Notation pn n := (place (lit "n") (dec n)).
Ltac next_int H := erewrite bind_ok by (apply on_snd_ok; apply expect_int_ok; exact H); erewrite bind_ok by apply upd_fst_ok; cbn [k_par k_dim k_stride k_n dx dy dz].

Theorem k_bad_x : forall k t v, bad_int (lit "x") (dx (k_dim k)) t v -> exists s, load_k k t = OThrow (k_size k (D3 v (dy (k_dim k)) (dz (k_dim k))) (k_n k), s) RuntimeError.
Proof.
  intros k t v B. unfold k_load. erewrite bind_ok by (apply on_snd_ok; apply expect_void_ok).
  apply (bad_step (lit "x") (dx (k_dim k)) t v (fun k x => Kern (k_par k) (D3 x (dy (k_dim k)) (dz (k_dim k))) (k_stride k) (k_n k)) k); [exact letters_x|exact B|destruct k as [p [a b c] st n]; reflexivity|].
  intros b s BR. apply snd_val_broken; [exact letters_y|exact BR].
Qed.
Theorem k_bad_y : forall k x t v, is_int x -> bad_int (lit "y") (dy (k_dim k)) t v -> exists s, load_k k (px x ++ t) = OThrow (k_size k (D3 x v (dz (k_dim k))) (k_n k), s) RuntimeError.
Proof.
  intros k x t v X B. unfold k_load. erewrite bind_ok by (apply on_snd_ok; apply expect_void_ok). next_int X.
  apply (bad_step (lit "y") (dy (k_dim k)) t v (fun k y => Kern (k_par k) (D3 (dx (k_dim k)) y (dz (k_dim k))) (k_stride k) (k_n k))
    (Kern (k_par k) (D3 x (dy (k_dim k)) (dz (k_dim k))) (k_stride k) (k_n k))); [exact letters_y|exact B|reflexivity|].
  intros b s BR. apply snd_val_broken; [exact letters_z|exact BR].
Qed.
Theorem k_bad_z : forall k x y t v, is_int x -> is_int y -> bad_int (lit "z") (dz (k_dim k)) t v -> exists s, load_k k (px x ++ py y ++ t) = OThrow (k_size k (D3 x y v) (k_n k), s) RuntimeError.
Proof.
  intros k x y t v X Y B. unfold k_load. erewrite bind_ok by (apply on_snd_ok; apply expect_void_ok). next_int X. next_int Y.
  apply (bad_step (lit "z") (dz (k_dim k)) t v (fun k z => Kern (k_par k) (D3 (dx (k_dim k)) (dy (k_dim k)) z) (k_stride k) (k_n k))
    (Kern (k_par k) (D3 x y (dz (k_dim k))) (k_stride k) (k_n k))); [exact letters_z|exact B|reflexivity|].
  intros b s BR. apply snd_val_broken; [exact letters_n|exact BR].
Qed.
Theorem k_bad_n : forall k x y z t, is_int x -> is_int y -> is_int z -> no_label (lit "n") t ->
  exists s, load_k k (px x ++ py y ++ pz z ++ t) = OThrow (k_size k (D3 x y z) (k_n k), s) RuntimeError.
Proof.
  intros k x y z t X Y Z1 B. unfold k_load. erewrite bind_ok by (apply on_snd_ok; apply expect_void_ok). next_int X. next_int Y. next_int Z1.
  destruct (val_stuck _ get_unsigned (lit "n") (open_text t) letters_n (no_stuck _ _ B)) as (s & Q). exists s. unfold bind at 1. unfold on_snd, expect_unsigned. rewrite Q. reflexivity.
Qed.
(** The number of filters is read as unsigned: up to 2^32 in absolute value it is taken modulo 2^32, beyond it is the largest value. *)
Theorem k_count : forall k x y z n t, is_int x -> is_int y -> is_int z ->
  (Z.abs n < two32 -> no_label (lit "weights") t -> exists s, load_k k (px x ++ py y ++ pz z ++ pn n ++ t) = OThrow (k_size k (D3 x y z) (n mod two32), s) RuntimeError) /\
  (two32 <= Z.abs n -> exists s, load_k k (px x ++ py y ++ pz z ++ pn n ++ t) = OThrow (k_size k (D3 x y z) (two32 - 1), s) RuntimeError).
Proof.
  intros k x y z n t X Y Z1. split; intros HN; [intros B|]; unfold k_load; (erewrite bind_ok by (apply on_snd_ok; apply expect_void_ok)); next_int X; next_int Y; next_int Z1.
  - erewrite bind_ok by (apply on_snd_ok; apply unsigned_any; exact HN). erewrite bind_ok by apply upd_fst_ok. apply (k_par_stuck (k_size k (D3 x y z) (n mod two32))). right. exact B.
  - destruct (unsigned_large (lit "n") n t HN) as (s & Q & BR). erewrite bind_ok by (apply on_snd_ok; exact Q). erewrite bind_ok by apply upd_fst_ok.
    apply (k_par_stuck (k_size k (D3 x y z) (two32 - 1))). left. exact BR.
Qed.

(** Something other than a number of filters is stored as 0 *)
Theorem k_word : forall k x y z w, is_int x -> is_int y -> is_int z -> word w ->
  exists s, load_k k (px x ++ py y ++ pz z ++ lit "n" ++ w) = OThrow (k_size k (D3 x y z) 0, s) RuntimeError.
Proof.
  intros k x y z w X Y Z1 W. unfold k_load. erewrite bind_ok by (apply on_snd_ok; apply expect_void_ok). next_int X. next_int Y. next_int Z1.
  destruct (unsigned_word (lit "n") w W) as (s & Q & BR). erewrite bind_ok by (apply on_snd_ok; exact Q). erewrite bind_ok by apply upd_fst_ok.
  apply (k_par_stuck (k_size k (D3 x y z) 0)). left. exact BR.
Qed.
(** The text ends after a label *)
Theorem k_end : forall k x y z w, is_int x -> is_int y -> is_int z -> white w ->
  load_k k (lit "x" ++ w) = OUB /\ load_k k (px x ++ lit "y" ++ w) = OUB /\ load_k k (px x ++ py y ++ lit "z" ++ w) = OUB /\
  load_k k (px x ++ py y ++ pz z ++ lit "n" ++ w) = OUB.
Proof.
  intros k x y z w X Y Z1 W. unfold k_load. repeat split; (erewrite bind_ok by (apply on_snd_ok; apply expect_void_ok)).
  - apply bind_ub, on_snd_ub, int_end. exact W.
  - next_int X. apply bind_ub, on_snd_ub, int_end. exact W.
  - next_int X. next_int Y. apply bind_ub, on_snd_ub, int_end. exact W.
  - next_int X. next_int Y. next_int Z1. apply bind_ub, on_snd_ub, unsigned_end. exact W.
Qed.

Theorem k_negative : forall k x y z n t p s b, is_int x -> is_int y -> is_int z -> - two32 < n < 0 -> par_load rd (k_par k, open_text t) = ORet (p, s) b ->
  load_k k (px x ++ py y ++ pz z ++ pn n ++ t) = ORet (Kern p (D3 x y z) (k_stride k) (n + two32), s) b.
Proof.
  intros k x y z n t p s b X Y Z1 HN Q. unfold k_load. erewrite bind_ok by (apply on_snd_ok; apply expect_void_ok). next_int X. next_int Y. next_int Z1.
  erewrite bind_ok by (apply on_snd_ok; apply unsigned_any; lia). erewrite bind_ok by apply upd_fst_ok. unfold on_field. cbn [k_par]. rewrite Q. cbn [map_out with_par k_dim k_stride k_n].
  replace (n mod two32) with (n + two32); [reflexivity|]. rewrite <- (Z.mod_small (n + two32) two32) by lia. rewrite <- (Z_mod_plus_full n 1 two32). f_equal.
Qed.
End Layers.

(** *** Pooling layers *)
Local Notation px x := (place (lit "x") (dec x)).
Local Notation py y := (place (lit "y") (dec y)).
(** The words for the types, Pooling.cpp 139-141 *)
Definition pool_word (y : pool_type) : text := match y with PMax => lit "MAX" | PMin => lit "MIN" | PAvg => lit "AVG" end.
Local Notation load_q q w t := (q_load (q, open_text (lit "Pooling" ++ nl ++ pool_word w ++ nl ++ t))).
Local Notation stride_line := (lit "stride" ++ nl).
Ltac next_q H := erewrite bind_ok by (apply on_snd_ok; apply expect_int_ok; exact H); erewrite bind_ok by apply upd_fst_ok; cbn [q_dim q_stride q_type q_idx dx dy dz].
Ltac start_q w := unfold q_load; (erewrite bind_ok by (apply on_snd_ok; apply expect_void_ok));
  erewrite bind_ok; [|apply on_snd_ok; unfold stm; rewrite getline_ok by (destruct w; reflexivity); reflexivity];
  erewrite bind_ok; [|unfold lift, pool_of; instantiate (1 := w); destruct w; reflexivity];
  (erewrite bind_ok by apply upd_fst_ok); cbn [q_dim q_stride q_type q_idx dx dy dz].

Theorem q_bad_x : forall q w t v, bad_int (lit "x") (dx (q_dim q)) t v -> exists s, load_q q w t = OThrow (Pool (D3 v (dy (q_dim q)) (dz (q_dim q))) (q_stride q) w (q_idx q), s) RuntimeError.
Proof.
  intros q w t v B. start_q w.
  apply (bad_step (lit "x") (dx (q_dim q)) t v (fun q x => Pool (D3 x (dy (q_dim q)) (dz (q_dim q))) (q_stride q) (q_type q) (q_idx q)) (Pool (q_dim q) (q_stride q) w (q_idx q)));
    [exact letters_x|exact B|destruct q as [[a b c] st n i]; reflexivity|].
  intros b s BR. apply snd_val_broken; [exact letters_y|exact BR].
Qed.
Theorem q_bad_y : forall q w x t v, is_int x -> bad_int (lit "y") (dy (q_dim q)) t v -> exists s, load_q q w (px x ++ t) = OThrow (Pool (D3 x v (dz (q_dim q))) (q_stride q) w (q_idx q), s) RuntimeError.
Proof.
  intros q w x t v X B. start_q w. next_q X.
  apply (bad_step (lit "y") (dy (q_dim q)) t v (fun q y => Pool (D3 (dx (q_dim q)) y (dz (q_dim q))) (q_stride q) (q_type q) (q_idx q)) (Pool (D3 x (dy (q_dim q)) (dz (q_dim q))) (q_stride q) w (q_idx q)));
    [exact letters_y|exact B|reflexivity|].
  intros b s BR. apply snd_void_stuck; [exact letters_stride|left; exact BR].
Qed.
Theorem q_bad_stride : forall q w x y t, is_int x -> is_int y -> no_label (lit "stride") t ->
  exists s, load_q q w (px x ++ py y ++ t) = OThrow (Pool (D3 x y (dz (q_dim q))) (q_stride q) w (q_idx q), s) RuntimeError.
Proof.
  intros q w x y t X Y B. start_q w. next_q X. next_q Y. apply snd_void_stuck; [exact letters_stride|right; exact B].
Qed.
Theorem q_bad_stride_x : forall q w x y t v, is_int x -> is_int y -> bad_int (lit "x") (dx (q_stride q)) t v ->
  exists s, load_q q w (px x ++ py y ++ stride_line ++ t) = OThrow (Pool (D3 x y (dz (q_dim q))) (D3 v (dy (q_stride q)) (dz (q_stride q))) w (q_idx q), s) RuntimeError.
Proof.
  intros q w x y t v X Y B. start_q w. next_q X. next_q Y. rewrite <- !app_assoc. erewrite bind_ok by (apply on_snd_ok; apply expect_void_ok).
  apply (bad_step (lit "x") (dx (q_stride q)) t v (fun q x => Pool (q_dim q) (D3 x (dy (q_stride q)) (dz (q_stride q))) (q_type q) (q_idx q)) (Pool (D3 x y (dz (q_dim q))) (q_stride q) w (q_idx q)));
    [exact letters_x|exact B|destruct q as [[a b c] [a' b' c'] n i]; reflexivity|].
  intros b s BR. apply snd_val_broken; [exact letters_y|exact BR].
Qed.
(** The last line: a missing label throws, but a number that does not fit is accepted as the nearest one. *)
Theorem q_bad_stride_y : forall q w x y x' t, is_int x -> is_int y -> is_int x' ->
  (no_label (lit "y") t -> exists s, load_q q w (px x ++ py y ++ stride_line ++ px x' ++ t) = OThrow (Pool (D3 x y (dz (q_dim q))) (D3 x' (dy (q_stride q)) (dz (q_stride q))) w (q_idx q), s) RuntimeError) /\
  forall y', ~ is_int y' -> exists s, load_q q w (px x ++ py y ++ stride_line ++ px x' ++ py y' ++ t) = ORet (Pool (D3 x y (dz (q_dim q))) (D3 x' (nearest_int y') (dz (q_stride q))) w (q_idx q), s) true.
Proof.
  intros q w x y x' t X Y X'. split; [intros B|intros y' Y']; start_q w; next_q X; next_q Y; rewrite <- !app_assoc; (erewrite bind_ok by (apply on_snd_ok; apply expect_void_ok)); next_q X'.
  - destruct (val_stuck _ get_int (lit "y") (open_text t) letters_y (no_stuck _ _ B)) as (s & Q). exists s. unfold bind at 1. unfold on_snd, expect_int. rewrite Q. reflexivity.
  - destruct (int_large (lit "y") y' t Y') as (s & Q & _). exists s. erewrite bind_ok by (apply on_snd_ok; exact Q). erewrite bind_ok by apply upd_fst_ok. reflexivity.
Qed.

Theorem q_word : forall q w x y x' u, is_int x -> is_int y -> is_int x' -> word u ->
  exists s, load_q q w (px x ++ py y ++ stride_line ++ px x' ++ lit "y" ++ u) = ORet (Pool (D3 x y (dz (q_dim q))) (D3 x' 0 (dz (q_stride q))) w (q_idx q), s) true.
Proof.
  intros q w x y x' u X Y X' U. start_q w. next_q X. next_q Y. rewrite <- !app_assoc. erewrite bind_ok by (apply on_snd_ok; apply expect_void_ok). next_q X'.
  destruct (int_word (lit "y") u U) as (s & Q & _). exists s. erewrite bind_ok by (apply on_snd_ok; exact Q). erewrite bind_ok by apply upd_fst_ok. reflexivity.
Qed.
Theorem q_end : forall q w x y x' u, is_int x -> is_int y -> is_int x' -> white u ->
  load_q q w (lit "x" ++ u) = OUB /\ load_q q w (px x ++ lit "y" ++ u) = OUB /\
  load_q q w (px x ++ py y ++ stride_line ++ lit "x" ++ u) = OUB /\ load_q q w (px x ++ py y ++ stride_line ++ px x' ++ lit "y" ++ u) = OUB.
Proof.
  intros q w x y x' u X Y X' U. split; [|split; [|split]]; start_q w.
  - apply bind_ub, on_snd_ub, int_end. exact U.
  - next_q X. apply bind_ub, on_snd_ub, int_end. exact U.
  - next_q X. next_q Y. rewrite <- !app_assoc. erewrite bind_ok by (apply on_snd_ok; apply expect_void_ok). apply bind_ub, on_snd_ub, int_end. exact U.
  - next_q X. next_q Y. rewrite <- !app_assoc. erewrite bind_ok by (apply on_snd_ok; apply expect_void_ok). next_q X'. apply bind_ub, on_snd_ub, int_end. exact U.
Qed.

(** *** Fully connected layers: the sizes are not stored. *)
Theorem c_bad : forall T (N : Num T) (rd : istream -> option T * istream) (c : connected T) t v,
  (forall old, bad_int (lit "x") old t v -> exists s, c_load rd (c, open_text (lit "Connected Layer" ++ nl ++ t)) = OThrow (c, s) RuntimeError) /\
  forall x old, is_int x -> bad_int (lit "y") old t v -> exists s, c_load rd (c, open_text (lit "Connected Layer" ++ nl ++ px x ++ t)) = OThrow (c, s) RuntimeError.
Proof.
  intros T N rd c t v. split; [intros old B|intros x old X B]; unfold c_load; (erewrite bind_ok by (apply on_snd_ok; apply expect_void_ok)).
  - destruct B as [t H|v t V|w W].
    + destruct (val_stuck _ get_int (lit "x") (open_text t) letters_x (no_stuck _ _ H)) as (s & Q). exists s. unfold bind at 1. unfold on_snd, expect_int. rewrite Q. reflexivity.
    + destruct (int_large (lit "x") v t V) as (s & Q & BR). erewrite bind_ok by (apply on_snd_ok; exact Q). apply snd_val_broken; [exact letters_y|exact BR].
    + destruct (int_word (lit "x") w W) as (s & Q & BR). erewrite bind_ok by (apply on_snd_ok; exact Q). apply snd_val_broken; [exact letters_y|exact BR].
  - erewrite bind_ok by (apply on_snd_ok; apply expect_int_ok; exact X). destruct B as [t H|v t V|w W].
    + destruct (val_stuck _ get_int (lit "y") (open_text t) letters_y (no_stuck _ _ H)) as (s & Q). exists s. unfold bind at 1. unfold on_snd, expect_int. rewrite Q. reflexivity.
    + destruct (int_large (lit "y") v t V) as (s & Q & BR). erewrite bind_ok by (apply on_snd_ok; exact Q).
      destruct (par_stuck rd (c_par c) s (or_introl BR)) as (s' & Q'). exists s'. unfold bind at 1. unfold on_field. rewrite Q'. destruct c. reflexivity.
    + destruct (int_word (lit "y") w W) as (s & Q & BR). erewrite bind_ok by (apply on_snd_ok; exact Q).
      destruct (par_stuck rd (c_par c) s (or_introl BR)) as (s' & Q'). exists s'. unfold bind at 1. unfold on_field. rewrite Q'. destruct c. reflexivity.
Qed.
Theorem c_end : forall T (N : Num T) (rd : istream -> option T * istream) (c : connected T) x w, is_int x -> white w ->
  c_load rd (c, open_text (lit "Connected Layer" ++ nl ++ lit "x" ++ w)) = OUB /\ c_load rd (c, open_text (lit "Connected Layer" ++ nl ++ px x ++ lit "y" ++ w)) = OUB.
Proof.
  intros T N rd c x w X W. split; unfold c_load; (erewrite bind_ok by (apply on_snd_ok; apply expect_void_ok)).
  - apply bind_ub, on_snd_ub, int_end. exact W.
  - erewrite bind_ok by (apply on_snd_ok; apply expect_int_ok; exact X). apply bind_ub, on_snd_ub, int_end. exact W.
Qed.
