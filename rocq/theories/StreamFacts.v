(** Facts about Stream.v: reading back what place and operator<< write. *)
From Coq Require Import String ZArith List Bool Ascii Lia.
From Flocq Require Import IEEE754.BinarySingleNaN.
From Verif Require Import Base Chars Double DoubleFacts Stream.
Import ListNotations.
Local Open Scope Z_scope.

(** The text starts (if it is not empty) with a character that does not have the property *)
Definition stops (p : ascii -> bool) (t : text) : Prop := match t with [] => True | c :: _ => p c = false end.
Definition spaces (t : text) : Prop := forallb is_space t = true.

Lemma span_app : forall p a t, forallb p a = true -> stops p t -> span p (a ++ t) = (a, t).
Proof.
  induction a; intros t A S.
  - destruct t; cbn in *; [reflexivity|]. rewrite S. reflexivity.
  - cbn in A. apply andb_prop in A. destruct A as [A1 A2]. cbn [app span]. rewrite A1, IHa by assumption. reflexivity.
Qed.
Lemma span_nil : forall p t, stops p t -> span p t = ([], t).
Proof. intros p t S. apply (span_app p [] t eq_refl S). Qed.
Lemma span_split : forall p t a b, span p t = (a, b) -> t = a ++ b /\ forallb p a = true /\ stops p b.
Proof.
  induction t; intros x y H; cbn in H.
  - injection H as <- <-. repeat split.
  - destruct (p a) eqn:Q.
    + destruct (span p t) as [u v]. injection H as <- <-. destruct (IHt u v eq_refl) as [E [F G]].
      subst. repeat split; [|assumption]. cbn. rewrite Q. assumption.
    + injection H as <- <-. repeat split. exact Q.
Qed.

Lemma spaces_app : forall a b, spaces a -> spaces b -> spaces (a ++ b).
Proof. intros a b A B. unfold spaces. rewrite forallb_app, A, B. reflexivity. Qed.
Lemma spaces_repeat : forall n, spaces (repeat " "%char n).
Proof. induction n; [reflexivity|exact IHn]. Qed.

Lemma sentry_skip : forall sp t, spaces sp -> stops is_space t -> t <> [] ->
  sentry true (open_text (sp ++ t)) = (true, open_text t).
Proof.
  intros sp t S P NE. unfold sentry, open_text. cbn [good eofb failb negb andb rest].
  rewrite span_app by assumption. cbn [snd]. destruct t; [congruence|reflexivity].
Qed.

Lemma is_digit_nospace : forall c, is_digit c = true -> is_space c = false.
Proof.
  intros c H. unfold is_digit, digit_val in H. unfold is_space. lia.
Qed.
Lemma is_digit_nosign : forall c, is_digit c = true -> Ascii.eqb c "-"%char = false /\ Ascii.eqb c "+"%char = false.
Proof.
  intros c H. split; apply Ascii.eqb_neq; intro; subst; vm_compute in H; discriminate.
Qed.

Lemma scan_sign_digits : forall ds t, ds <> [] -> forallb is_digit ds = true -> scan_sign (ds ++ t) = (false, ds ++ t).
Proof.
  intros ds t NE D. destruct ds; [congruence|]. cbn in D. apply andb_prop in D. destruct D as [D _].
  destruct (is_digit_nosign _ D) as [A B]. cbn [app scan_sign]. rewrite A, B. reflexivity.
Qed.

Lemma scan_dec : forall v t, stops is_digit t ->
  scan_int (dec v ++ t) = (v <? 0, dec_pos (Z.abs v), t).
Proof.
  intros v t S. unfold scan_int, dec. destruct (v <? 0) eqn:Q.
  - cbn [app scan_sign Ascii.eqb]. change (Ascii.eqb "-" "-") with true. cbn [Bool.eqb].
    rewrite span_app by (try apply dec_pos_digits; try lia; assumption).
    replace (Z.abs v) with (- v) by lia. reflexivity.
  - rewrite scan_sign_digits by (try apply dec_pos_nonempty; apply dec_pos_digits; lia).
    rewrite span_app by (try apply dec_pos_digits; try lia; assumption).
    replace (Z.abs v) with v by lia. reflexivity.
Qed.

Lemma dec_head : forall v t, stops is_space (dec v ++ t) /\ dec v ++ t <> [].
Proof.
  intros v t. unfold dec. destruct (v <? 0) eqn:Q.
  - split; [reflexivity|discriminate].
  - pose proof (dec_pos_nonempty v) as N. pose proof (dec_pos_digits v ltac:(lia)) as D.
    destruct (dec_pos v) as [|c l]; [congruence|]. cbn in D. apply andb_prop in D. destruct D as [D _].
    split; [apply is_digit_nospace; assumption|discriminate].
Qed.

Lemma space_nodigit : forall c t, is_space c = true -> stops is_digit (c :: t).
Proof. intros c t H. unfold stops. destruct (is_digit c) eqn:D; [|reflexivity]. apply is_digit_nospace in D. congruence. Qed.

Lemma is_nil_dec_pos : forall v, is_nil (dec_pos v) = false.
Proof. intros v. pose proof (dec_pos_nonempty v). destruct (dec_pos v); [congruence|reflexivity]. Qed.

Lemma get_int_dec : forall sp v t, spaces sp -> - two31 <= v < two31 -> stops is_digit t ->
  get_int (open_text (sp ++ dec v ++ t)) = (Some v, IS t (is_nil t) false).
Proof.
  intros sp v t S V D. unfold get_int.
  destruct (dec_head v t) as [H1 H2]. rewrite sentry_skip by assumption.
  cbn [rest open_text]. rewrite scan_dec by assumption. rewrite is_nil_dec_pos, dec_pos_num by lia.
  replace (if v <? 0 then - Z.abs v else Z.abs v) with v by (destruct (v <? 0) eqn:Q; lia).
  destruct (v <? - two31) eqn:Q1; [lia|]. destruct (two31 <=? v) eqn:Q2; [lia|]. reflexivity.
Qed.
Lemma get_unsigned_dec : forall sp v t, spaces sp -> 0 <= v < two32 -> stops is_digit t ->
  get_unsigned (open_text (sp ++ dec v ++ t)) = (Some v, IS t (is_nil t) false).
Proof.
  intros sp v t S V D. unfold get_unsigned.
  destruct (dec_head v t) as [H1 H2]. rewrite sentry_skip by assumption.
  cbn [rest open_text]. rewrite scan_dec by assumption. rewrite is_nil_dec_pos, dec_pos_num by lia.
  destruct (v <? 0) eqn:Q; [lia|]. destruct (two32 <=? Z.abs v) eqn:Q2; [lia|]. rewrite Z.abs_eq by lia. reflexivity.
Qed.

(** ** Lines *)
Lemma clear_line_ok : forall a t, forallb (fun c => negb (Ascii.eqb c newline)) a = true -> Z.of_nat (length a) < two31 - 1 ->
  clear_line (open_text (a ++ nl ++ t)) = open_text t.
Proof.
  intros a t A L. unfold clear_line, open_text, sentry. cbn [good eofb failb negb andb rest].
  assert (forall n, Z.of_nat (length a) < n -> ignore_nl n (a ++ nl ++ t) = (t, false)) as I.
  { induction a; intros n H.
    - cbn in *. destruct (n <=? 0) eqn:Q; [lia|]. change (Ascii.eqb newline newline) with true. reflexivity.
    - cbn [app ignore_nl]. cbn [length] in H. destruct (n <=? 0) eqn:Q; [lia|].
      cbn [forallb] in A. apply andb_prop in A. destruct A as [A1 A2]. destruct (Ascii.eqb a newline); [discriminate A1|].
      apply IHa; [assumption|cbn [length] in L; lia|lia]. }
  rewrite I by assumption. reflexivity.
Qed.
Lemma clear_line_nl : forall t, clear_line (open_text (nl ++ t)) = open_text t.
Proof. intros. apply (clear_line_ok [] t eq_refl). cbn. unfold two31. lia. Qed.
Lemma clear_line_sp : forall t, clear_line (open_text (lit " " ++ nl ++ t)) = open_text t.
Proof. intros. apply (clear_line_ok (lit " ") t eq_refl). cbn. unfold two31. lia. Qed.

Definition no_nl (t : text) : Prop := forallb (fun c => negb (Ascii.eqb c newline)) t = true.

Lemma getline_ok : forall a t, no_nl a -> getline (open_text (a ++ nl ++ t)) = (a, open_text t).
Proof.
  intros a t A. unfold getline, open_text, sentry. cbn [good eofb failb negb andb rest].
  rewrite span_app; [reflexivity|assumption|reflexivity].
Qed.
Lemma getline_end : forall a, no_nl a -> getline (open_text a) = (a, IS [] true (is_nil a)).
Proof.
  intros a A. unfold getline, open_text, sentry. cbn [good eofb failb negb andb rest].
  rewrite <- (app_nil_r a) at 1. rewrite span_app; [reflexivity|assumption|exact I].
Qed.
Lemma read_line_ok : forall a t, no_nl a -> read_line (open_text (a ++ nl ++ t)) = (a, open_text (a ++ nl ++ t)).
Proof.
  intros a t A. unfold read_line. unfold sentry at 1. cbn [good eofb failb open_text negb andb].
  change (IS (a ++ nl ++ t) false false) with (open_text (a ++ nl ++ t)). rewrite getline_ok by assumption. reflexivity.
Qed.

(** ** place and expect *)
Lemma firstn_app_len : forall {A} (a b : list A), firstn (length a) (a ++ b) = a.
Proof. intros. rewrite firstn_app, firstn_all, Nat.sub_diag. cbn. apply app_nil_r. Qed.
Lemma skipn_app_len : forall {A} (a b : list A), skipn (length a) (a ++ b) = b.
Proof. intros. rewrite skipn_app, skipn_all, Nat.sub_diag. reflexivity. Qed.

Lemma expect_label_ok : forall e t, expect_label e (open_text (e ++ t)) = ORet (open_text t) tt.
Proof.
  intros e t. unfold expect_label, bind, stm, read_n, sentry, open_text. cbn [good eofb failb negb andb rest].
  rewrite firstn_app_len, skipn_app_len, Nat.ltb_irrefl, Nat.sub_diag. cbn [repeat]. rewrite app_nil_r, text_eqb_refl. reflexivity.
Qed.

Lemma expect_void_ok : forall e t, expect_void e (open_text (e ++ nl ++ t)) = ORet (open_text t) tt.
Proof.
  intros e t. unfold expect_void, bind. rewrite expect_label_ok. unfold stm. rewrite clear_line_nl. reflexivity.
Qed.

Lemma expect_int_ok : forall e v t, - two31 <= v < two31 ->
  expect_int e (open_text (place e (dec v) ++ t)) = ORet (open_text t) v.
Proof.
  intros e v t V. unfold expect_int, expect_val, place. rewrite <- !app_assoc. unfold bind. rewrite expect_label_ok. unfold stm.
  rewrite (get_int_dec (lit " ") v (nl ++ t)); [|reflexivity|assumption|reflexivity].
  cbn [is_nil nl app]. change (IS (newline :: t) false false) with (open_text (nl ++ t)). rewrite clear_line_nl. reflexivity.
Qed.
Lemma expect_unsigned_ok : forall e v t, 0 <= v < two32 ->
  expect_unsigned e (open_text (place e (dec v) ++ t)) = ORet (open_text t) v.
Proof.
  intros e v t V. unfold expect_unsigned, expect_val, place. rewrite <- !app_assoc. unfold bind. rewrite expect_label_ok. unfold stm.
  rewrite (get_unsigned_dec (lit " ") v (nl ++ t)); [|reflexivity|assumption|reflexivity].
  cbn [is_nil nl app]. change (IS (newline :: t) false false) with (open_text (nl ++ t)). rewrite clear_line_nl. reflexivity.
Qed.

(** A label that does not end in a blank is only found if the text starts with it *)
Definition ends_blank (e : text) : Prop := exists a, e = a ++ lit " ".

Lemma expect_label_bad : forall e s, ~ ends_blank e -> e <> [] ->
  ~ (good s = true /\ exists t, rest s = e ++ t) -> exists s', expect_label e s = OThrow s' RuntimeError.
Proof.
  intros e s B NE H. unfold expect_label, bind, stm, read_n, sentry.
  destruct (good s) eqn:G; cbn [negb].
  - assert (X : forall r, r <> e -> (if text_eqb e r then @ret istream unit tt else mthrow RuntimeError)
       (IS (skipn (length e) (rest s)) (Nat.ltb (length (firstn (length e) (rest s))) (length e)) (Nat.ltb (length (firstn (length e) (rest s))) (length e))) =
       OThrow (IS (skipn (length e) (rest s)) (Nat.ltb (length (firstn (length e) (rest s))) (length e)) (Nat.ltb (length (firstn (length e) (rest s))) (length e))) RuntimeError).
    { intros r R. destruct (text_eqb e r) eqn:Q; [apply text_eqb_eq in Q; congruence|reflexivity]. }
    eexists. apply X. intro Q.
    destruct (length e - length (firstn (length e) (rest s)))%nat eqn:D.
    + cbn [repeat] in Q. rewrite app_nil_r in Q. apply H. split; [reflexivity|].
      exists (skipn (length e) (rest s)). rewrite <- Q at 1. symmetry. apply firstn_skipn.
    + apply B. exists (firstn (length e) (rest s) ++ repeat " "%char n). rewrite <- app_assoc.
      change (lit " ") with (repeat " "%char 1). rewrite <- repeat_app. replace (n + 1)%nat with (S n) by lia. symmetry. assumption.
  - eexists. destruct (text_eqb e (repeat " "%char (length e))) eqn:Q; [|reflexivity].
    exfalso. apply text_eqb_eq in Q. destruct e as [|c e]; [congruence|]. apply B. exists (repeat " "%char (length e)).
    rewrite Q at 1. change (lit " ") with (repeat " "%char 1). rewrite <- repeat_app. cbn [length repeat].
    replace (length e + 1)%nat with (S (length e)) by lia. reflexivity.
Qed.

(** ** Doubles *)
Lemma num_of_app_gen : forall a b, num_of (a ++ b) = num_of a * 10 ^ Z.of_nat (length b) + num_of b.
Proof.
  intros a b. induction b using rev_ind.
  - rewrite app_nil_r. cbn. lia.
  - rewrite app_assoc, 2 num_of_app, IHb, app_length. cbn [length].
    replace (Z.of_nat (length b + 1)) with (Z.of_nat (length b) + 1) by lia. rewrite Z.pow_add_r by lia. lia.
Qed.
Lemma last_digits_ok : forall n k, 0 <= k -> num_of (last_digits n k) = k mod 10 ^ Z.of_nat n
  /\ forallb is_digit (last_digits n k) = true /\ length (last_digits n k) = n.
Proof.
  induction n; intros k K.
  - cbn. rewrite Z.mod_1_r. auto.
  - cbn [last_digits]. destruct (IHn (k / 10) ltac:(apply Z.div_pos; lia)) as [I1 [I2 I3]].
    pose proof (Z.mod_pos_bound k 10 ltac:(lia)) as M.
    split; [|split].
    + rewrite num_of_app, I1, digit_val_digit by lia.
      replace (Z.of_nat (S n)) with (1 + Z.of_nat n) by lia. rewrite Z.pow_add_r by lia. change (10 ^ 1) with 10.
      rewrite Z.rem_mul_r; [lia|lia|]. apply Z.pow_pos_nonneg; lia.
    + rewrite forallb_app, I2. cbn [forallb]. rewrite is_digit_digit by lia. reflexivity.
    + rewrite app_length, I3. cbn. lia.
Qed.

Lemma get_double_put : forall sp x c t, is_finite x = true -> spaces sp -> is_space c = true ->
  get_double (open_text (sp ++ put_double x ++ c :: t)) = (Some (reread x), open_text (c :: t)).
Proof.
  intros sp x c t F S C. pose proof (micros_nonneg x) as K. rewrite put_double_fin by assumption. unfold fixed6.
  set (k := micros_of x) in *. set (w := dec_pos (k / million)).
  assert (KW : 0 <= k / million) by (apply Z.div_pos; unfold million; lia).
  pose proof (Z.mod_pos_bound k million eq_refl) as KM.
  assert (WN : w <> []) by apply dec_pos_nonempty.
  assert (WD : forallb is_digit w = true) by (apply dec_pos_digits; assumption).
  assert (WV : num_of w = k / million) by (apply dec_pos_num; assumption).
  destruct (last_digits_ok 6 (k mod million) ltac:(lia)) as [L1 [L2 L3]].
  set (f := last_digits 6 (k mod million)) in *. clearbody f. clearbody w.
  rewrite Z.mod_small in L1 by (unfold million in *; cbn; lia).
  unfold get_double. rewrite <- !app_assoc.
  rewrite sentry_skip; [|assumption| |].
  2: { destruct (Bsign x); [reflexivity|]. cbn [sign_text app]. destruct w; [congruence|]. cbn in WD. apply andb_prop in WD.
       apply is_digit_nospace. apply WD. }
  2: { destruct (Bsign x); [discriminate|]. destruct w; [congruence|discriminate]. }
  cbn [rest open_text]. unfold scan_float.
  assert (SS : scan_sign (sign_text (Bsign x) ++ w ++ lit "." ++ f ++ c :: t) = (Bsign x, w ++ lit "." ++ f ++ c :: t)).
  { destruct (Bsign x); [reflexivity|]. cbn [sign_text app]. apply scan_sign_digits; assumption. }
  rewrite SS. rewrite (span_app is_digit w (lit "." ++ f ++ c :: t)); [|assumption|reflexivity].
  change (lit "." ++ f ++ c :: t) with ("."%char :: f ++ c :: t). cbn iota.
  change (Ascii.eqb "." ".") with true. cbn iota.
  rewrite (span_app is_digit f (c :: t)); [|assumption|apply space_nodigit; assumption].
  cbn iota. assert (CE : Ascii.eqb c "e" || Ascii.eqb c "E" = false).
  { apply orb_false_intro; apply Ascii.eqb_neq; intro; subst; discriminate. }
  rewrite CE. cbn [andb]. cbn iota.
  assert (NN : is_nil (w ++ f) = false) by (destruct w; [congruence|reflexivity]).
  rewrite NN, L3, num_of_app_gen, WV, L1, L3.
  change (10 ^ Z.of_nat 6) with million. replace (k / million * million + k mod million) with k
    by (pose proof (Z.div_mod k million); unfold million in *; lia).
  change (0 - Z.of_nat 6) with (-6).
  fold (reread x). destruct (reread_same x F) as [R _]. subst k. fold (reread x). rewrite R. reflexivity.
Qed.
