(** Reading a matrix from a text that is not laid out like the text of SimpleMatrix::serialize. *)
From Coq Require Import String ZArith List Bool Ascii Reals Lia Lra.
From Flocq Require Import Core.Core IEEE754.BinarySingleNaN.
From Verif Require Import Base Dim Matrix View Num Expr Spec Iter MatFacts Batch Chars Double DoubleFacts Stream StreamFacts Text TextFacts.
Import ListNotations.
Local Open Scope Z_scope.

(** ** Numerals *)
Definition code (c : ascii) : Z := Z.of_nat (nat_of_ascii c).
(** Blank, tab, newline, vertical tab, form feed, carriage return *)
Definition white (t : text) : Prop := forall c, In c t -> In (code c) [32; 9; 10; 11; 12; 13].
Definition digits (t : text) : Prop := forall c, In c t -> 48 <= code c <= 57.
Fixpoint digits_val (acc : Z) (t : text) : Z := match t with [] => acc | c :: t' => digits_val (10 * acc + (code c - 48)) t' end.

(** A decimal numeral: sign, digits, point and digits, exponent *)
Record numeral := Numl { u_sign : text; u_int : text; u_frac : option text; u_exp : option (text * text * text) }.
Definition is_sign (t : text) : Prop := t = [] \/ t = lit "+" \/ t = lit "-".
Definition u_ok (u : numeral) : Prop := is_sign (u_sign u) /\ digits (u_int u) /\
  match u_frac u with Some f => digits f /\ (u_int u ++ f <> []) | None => u_int u <> [] end /\
  match u_exp u with Some (e, s, d) => (e = lit "e" \/ e = lit "E") /\ is_sign s /\ digits d /\ d <> [] | None => True end.
Definition u_text (u : numeral) : text := u_sign u ++ u_int u ++ match u_frac u with Some f => lit "." ++ f | None => [] end ++
  match u_exp u with Some (e, s, d) => e ++ s ++ d | None => [] end.
Definition minus (t : text) : bool := text_eqb t (lit "-").
Definition u_power (u : numeral) : Z := match u_exp u with Some (_, s, d) => (if minus s then - 1 else 1) * digits_val 0 d | None => 0 end.
(** Its value: (-1)^sign * digits * 10^(exponent - digits after the point) *)
Definition u_val (u : numeral) : R :=
  let f := match u_frac u with Some f => f | None => [] end in
  ((if minus (u_sign u) then -1 else 1) * (IZR (digits_val 0 (u_int u ++ f)) * bpow radix10 (u_power u - Z.of_nat (length f))))%R.

Lemma digits_is : forall t, digits t -> forallb is_digit t = true.
Proof.
  intros t D. apply forallb_forall. intros c I. specialize (D c I). unfold is_digit, digit_val, code in *. lia.
Qed.
Lemma digits_num : forall t, num_of t = digits_val 0 t.
Proof.
  intro t. unfold num_of. generalize 0. induction t as [|c t IH]; intro a; [reflexivity|]. cbn [fold_left digits_val]. exact (IH _).
Qed.
Lemma digits_val_pos : forall t a, digits t -> 0 <= a -> 0 <= digits_val a t.
Proof.
  induction t as [|c t IH]; intros a D A; [exact A|]. cbn [digits_val]. apply IH; [intros x X; apply D; right; exact X|].
  pose proof (D c (or_introl eq_refl)). lia.
Qed.
Lemma white_is : forall t, white t -> spaces t.
Proof.
  intros t D. apply forallb_forall. intros c I. specialize (D c I). unfold is_space. fold (code c). cbn in D. lia.
Qed.
Lemma is_white : forall t, spaces t -> white t.
Proof.
  intros t D c I. pose proof (proj1 (forallb_forall _ _) D c I) as S. unfold is_space in S. fold (code c) in S. cbn. lia.
Qed.
Lemma minus_cases : forall s, is_sign s -> forall d t, digits d ->
  (d ++ t = [] \/ exists c r, d ++ t = c :: r /\ c <> "-"%char /\ c <> "+"%char) -> scan_sign (s ++ d ++ t) = (minus s, d ++ t).
Proof.
  intros s [->|[->| ->]] d t D H; [|reflexivity|reflexivity]. cbn [app]. destruct H as [E|(c & r & E & A & B)].
  - rewrite E. reflexivity.
  - rewrite E. cbn [scan_sign]. apply Ascii.eqb_neq in A, B. rewrite A, B. reflexivity.
Qed.

(** The first character of [t] does not continue the digits *)
Definition no_digit (t : text) : Prop := match t with [] => True | c :: _ => ~ (48 <= code c <= 57) end.
Lemma no_digit_stops : forall t, no_digit t -> stops is_digit t.
Proof. intros [|c t] E; [exact I|]. cbn in *. unfold is_digit, digit_val, code in *. lia. Qed.
(** The character continues the numeral: a digit, the first point, or the first e after the digits *)
Definition continues (u : numeral) (c : ascii) : Prop := 48 <= code c <= 57 \/
  (u_exp u = None /\ (c = "e"%char \/ c = "E"%char)) \/ (u_exp u = None /\ u_frac u = None /\ c = "."%char).
Definition ended (u : numeral) (t : text) : Prop := match t with [] => True | c :: _ => ~ continues u c end.
Lemma ended_digit : forall u t, ended u t -> stops is_digit t.
Proof. intros u [|c t] E; [exact I|]. apply no_digit_stops. cbn in *. intro. apply E. left. assumption. Qed.
(** The character continues no numeral. *)
Definition foreign (c : ascii) : Prop := ~ (48 <= code c <= 57) /\ c <> "."%char /\ c <> "e"%char /\ c <> "E"%char.
Lemma foreign_ended : forall u c t, foreign c -> ended u (c :: t).
Proof. intros u c t (A & B & C & D) [K|[[_ [K|K]]|(_ & _ & K)]]; auto. Qed.
Lemma space_foreign : forall c, is_space c = true -> foreign c.
Proof.
  intros c S. unfold is_space in S. fold (code c) in S.
  split; [lia|]. split; [|split]; intros ->; discriminate S.
Qed.
Lemma digit_head : forall d t, digits d -> d <> [] -> exists c r, d ++ t = c :: r /\ c <> "-"%char /\ c <> "+"%char /\ is_space c = false.
Proof.
  intros [|c d] t D N; [congruence|]. exists c, (d ++ t). split; [reflexivity|]. pose proof (D c (or_introl eq_refl)) as C. unfold code in C.
  split; [intros ->; cbn in C; lia|]. split; [intros ->; cbn in C; lia|]. unfold is_space. lia.
Qed.

(** The characters that operator>>(double&) takes *)
Lemma scan_numeral : forall u t, u_ok u -> ended u t ->
  scan_float (u_text u ++ t) = (minus (u_sign u), u_int u, match u_frac u with Some f => f | None => [] end,
    match u_exp u with Some _ => Some (Some (u_power u)) | None => None end, t).
Proof.
  intros [s i f x] t (S & I & F & X) E. cbn [u_sign u_int u_frac u_exp] in *. unfold u_text. cbn [u_sign u_int u_frac u_exp].
  set (xt := match x with Some (e, s0, d) => e ++ s0 ++ d | None => [] end).
  unfold scan_float. rewrite <- !app_assoc.
  rewrite minus_cases; [|exact S|exact I|].
  2:{ destruct i as [|c i]; [|right; destruct (digit_head (c :: i) ((match f with Some f0 => lit "." ++ f0 | None => [] end) ++ xt ++ t) I ltac:(discriminate)) as (c' & r & Q & A & B & _); eauto].
      right. destruct f as [f|]; [|exfalso; destruct F; reflexivity]. exists "."%char, (f ++ xt ++ t). split; [reflexivity|]. split; discriminate. }
  assert (XS : stops is_digit (xt ++ t)).
  { destruct x as [[[e s0] d]|]; [|apply (ended_digit _ _ E)]. destruct X as ([->| ->] & _); reflexivity. }
  assert (TAIL : match xt ++ t with
    | c :: t4 => if (Ascii.eqb c "e"%char || Ascii.eqb c "E"%char) && negb (is_nil (i ++ match f with Some f0 => f0 | None => [] end)) then
        let '(eneg, ds, t5) := scan_int t4 in
        (minus s, i, match f with Some f0 => f0 | None => [] end, Some (if is_nil ds then None else Some (if eneg then - num_of ds else num_of ds)), t5)
      else (minus s, i, match f with Some f0 => f0 | None => [] end, None, xt ++ t)
    | [] => (minus s, i, match f with Some f0 => f0 | None => [] end, None, xt ++ t)
    end = (minus s, i, match f with Some f0 => f0 | None => [] end, match x with Some _ => Some (Some (u_power (Numl s i f x))) | None => None end, t)).
  { assert (NN : is_nil (i ++ match f with Some f0 => f0 | None => [] end) = false).
    { destruct f as [f|]; [destruct F as [_ F]|rewrite app_nil_r]; [destruct (i ++ f)|destruct i]; congruence || reflexivity. }
    rewrite NN. unfold u_power. cbn [u_exp]. destruct x as [[[e s0] d]|].
    - destruct X as (X1 & X2 & X3 & X4).
      assert (Q : scan_int (s0 ++ d ++ t) = (minus s0, d, t)).
      { unfold scan_int. rewrite minus_cases; [|exact X2|exact X3|].
        - rewrite span_app; [reflexivity|apply digits_is; exact X3|apply (ended_digit _ _ E)].
        - right. destruct (digit_head d t X3 X4) as (c & r & Q & A & B & _). eauto. }
      assert (ND : is_nil d = false) by (destruct d; [congruence|reflexivity]).
      assert (V : (if minus s0 then - num_of d else num_of d) = (if minus s0 then -1 else 1) * digits_val 0 d) by (rewrite digits_num; destruct (minus s0); lia).
      destruct X1 as [->| ->]; unfold xt; rewrite <- !app_assoc; cbn [lit list_ascii_of_string app]; cbn [Ascii.eqb Bool.eqb orb andb negb];
        rewrite Q, ND, V; reflexivity.
    - unfold xt. cbn [app]. destruct t as [|c t]; [reflexivity|]. cbn [ended] in E.
      assert (CE : Ascii.eqb c "e" || Ascii.eqb c "E" = false) by (apply orb_false_intro; apply Ascii.eqb_neq; intro; apply E; right; left; auto).
      rewrite CE. reflexivity. }
  destruct f as [f|].
  - destruct F as [F1 F2]. rewrite (span_app is_digit i); [|apply digits_is; exact I|reflexivity].
    rewrite <- !app_assoc. cbn [lit list_ascii_of_string app]. change (Ascii.eqb "." ".") with true. cbn iota.
    rewrite (span_app is_digit f); [|apply digits_is; exact F1|exact XS]. exact TAIL.
  - cbn [app]. rewrite (span_app is_digit i); [|apply digits_is; exact I|exact XS].
    assert (ND : match xt ++ t with c :: t2' => if Ascii.eqb c "."%char then span is_digit t2' else ([], xt ++ t) | [] => ([], xt ++ t) end = ([], xt ++ t)).
    { destruct x as [[[e s0] d]|].
      - destruct X as ([->| ->] & _); reflexivity.
      - unfold xt. cbn [app]. destruct t as [|c t]; [reflexivity|]. cbn [ended] in E.
        assert (CE : Ascii.eqb c "." = false) by (apply Ascii.eqb_neq; intro; apply E; right; right; auto). rewrite CE. reflexivity. }
    match goal with |- match ?m with _ => _ end = _ => assert (ND' : m = ([], xt ++ t)) by exact ND; rewrite ND' end. exact TAIL.
Qed.

(** The double nearest to [v] *)
Definition nearest (v : R) (neg : bool) (x : double) : Prop :=
  is_finite x = true /\ Bsign x = neg /\ B2R x = round radix2 (SpecFloat.fexp 53 1024) ZnearestE v.
Definition in_range (v : R) : Prop := (Rabs (round radix2 (SpecFloat.fexp 53 1024) ZnearestE v) < bpow radix2 1024)%R.

Lemma get_scanned : forall u sp t, u_ok u -> white sp -> ended u t -> exists m x, 0 <= m /\ u_val u = dec_val (minus (u_sign u)) m x /\
  get_double (open_text (sp ++ u_text u ++ t)) =
    (let v := double_of_dec (minus (u_sign u)) m x in if is_finite v then (Some v, IS t (is_nil t) false) else (Some (double_max (minus (u_sign u))), IS t (is_nil t) true)).
Proof.
  intros u sp t U W E. unfold get_double. rewrite sentry_skip; [|apply white_is; exact W| |].
  - cbn [rest open_text]. rewrite (scan_numeral u t U E).
    set (f := match u_frac u with Some f => f | None => [] end).
    assert (NN : is_nil (u_int u ++ f) = false).
    { destruct U as (_ & _ & F & _). unfold f. destruct (u_frac u) as [g|]; [destruct F as [_ F]|rewrite app_nil_r]; [destruct (u_int u ++ g)|destruct (u_int u)]; congruence || reflexivity. }
    rewrite NN. set (m := num_of (u_int u ++ f)).
    assert (M : 0 <= m).
    { unfold m. rewrite digits_num. apply digits_val_pos; [|lia]. destruct U as (_ & I & F & _). intros c C. apply in_app_or in C. destruct C as [C|C]; [apply I; exact C|].
      unfold f in C. destruct (u_frac u); [apply F; exact C|destruct C]. }
    assert (Q : exists x, match match u_exp u with Some _ => Some (Some (u_power u)) | None => None end with None => Some 0 | Some e => e end = Some x /\ x = u_power u).
    { unfold u_power. destruct (u_exp u) as [[[a b] c]|]; eauto. }
    destruct Q as (p & Q & ->). rewrite Q.
    exists m, (u_power u - Z.of_nat (length f)). split; [exact M|]. split; [|reflexivity].
    unfold u_val, dec_val, m. rewrite digits_num. reflexivity.
  - destruct U as (S & I & F & X). unfold u_text. destruct S as [->|[->| ->]]; [|reflexivity|reflexivity]. cbn [app].
    destruct (u_int u) as [|c i] eqn:EI.
    + cbn [app]. destruct (u_frac u) as [f|]; [reflexivity|destruct F; reflexivity].
    + cbn [app stops]. destruct (digit_head (c :: i) [] I ltac:(discriminate)) as (c' & r & Q & _ & _ & B). cbn [app] in Q. injection Q as <- <-. exact B.
  - destruct U as (S & I & F & X). unfold u_text. destruct S as [->|[->| ->]]; [|discriminate|discriminate]. cbn [app].
    destruct (u_int u) as [|c i] eqn:EI; [|discriminate]. cbn [app]. destruct (u_frac u) as [f|]; [discriminate|destruct F; reflexivity].
Qed.

Theorem get_numeral : forall u sp t, u_ok u -> white sp -> ended u t -> in_range (u_val u) ->
  exists x, get_double (open_text (sp ++ u_text u ++ t)) = (Some x, IS t (is_nil t) false) /\ nearest (u_val u) (minus (u_sign u)) x.
Proof.
  intros u sp t U W E R. destruct (get_scanned u sp t U W E) as (m & p & M & V & Q). rewrite Q. cbv zeta.
  set (x := double_of_dec (minus (u_sign u)) m p).
  assert (NX : nearest (u_val u) (minus (u_sign u)) x).
  { rewrite V in *. unfold x. destruct (Z.eq_dec m 0) as [->|M0].
    - unfold double_of_dec. cbn [Z.eqb]. split; [reflexivity|]. split; [reflexivity|]. unfold dec_val. rewrite Rmult_0_l, Rmult_0_r. rewrite round_0; [reflexivity|apply valid_rnd_N].
    - pose proof (double_of_dec_ok (minus (u_sign u)) m p ltac:(lia)) as D. cbv zeta in D.
      rewrite Rlt_bool_true in D by exact R. destruct D as (D1 & D2 & D3). split; [exact D2|]. split; [exact D3|exact D1]. }
  exists x. split; [|exact NX]. destruct NX as [NF _]. rewrite NF. reflexivity.
Qed.

(** A numeral that is too large gives the largest double and stops the stream. *)
Theorem get_too_large : forall u sp t, u_ok u -> white sp -> ended u t -> ~ in_range (u_val u) ->
  get_double (open_text (sp ++ u_text u ++ t)) = (Some (double_max (minus (u_sign u))), IS t (is_nil t) true).
Proof.
  intros u sp t U W E R. destruct (get_scanned u sp t U W E) as (m & p & M & V & Q). rewrite Q. cbv zeta. rewrite V in R.
  assert (NF : is_finite (double_of_dec (minus (u_sign u)) m p) = false).
  { destruct (Z.eq_dec m 0) as [->|M0].
    - exfalso. apply R. unfold in_range, dec_val. rewrite Rmult_0_l, Rmult_0_r. rewrite round_0 by apply valid_rnd_N. rewrite Rabs_R0. apply bpow_gt_0.
    - pose proof (double_of_dec_ok (minus (u_sign u)) m p ltac:(lia)) as D. cbv zeta in D.
      rewrite Rlt_bool_false in D; [|apply Rnot_lt_le; exact R]. destruct (double_of_dec (minus (u_sign u)) m p); cbn in D; try discriminate; reflexivity. }
  rewrite NF. reflexivity.
Qed.

(** Text that does not start like a number gives zero and stops the stream. *)
Definition not_number (c : ascii) : Prop := is_space c = false /\ is_digit c = false /\ c <> "+"%char /\ c <> "-"%char /\ c <> "."%char.
Theorem get_garbage : forall sp c t, white sp -> not_number c ->
  get_double (open_text (sp ++ c :: t)) = (Some (B754_zero false), IS (c :: t) false true).
Proof.
  intros sp c t W (S & D & P & M & O). unfold get_double. rewrite sentry_skip; [|apply white_is; exact W|exact S|discriminate].
  cbn [rest open_text]. unfold scan_float. apply Ascii.eqb_neq in P, M, O. cbn [scan_sign]. rewrite M, P. cbn [span]. rewrite D, O. cbn [app is_nil negb andb]. rewrite andb_false_r. reflexivity.
Qed.

(** An integer numeral, possibly with leading zeros *)
Definition int_text (v : Z) (t : text) : Prop := exists s d, is_sign s /\ digits d /\ d <> [] /\ t = s ++ d /\
  v = (if minus s then - 1 else 1) * digits_val 0 d.
Theorem get_int_numeral : forall v u sp t, int_text v u -> white sp -> no_digit t -> - two31 <= v < two31 ->
  get_int (open_text (sp ++ u ++ t)) = (Some v, IS t (is_nil t) false).
Proof.
  intros v u sp t (s & d & S & D & N & -> & V) W E R. unfold get_int. rewrite <- app_assoc. destruct (digit_head d t D N) as (c & r & Q & A & B & C).
  rewrite sentry_skip; [|apply white_is; exact W| |].
  - cbn [rest open_text].
    assert (SI : scan_int (s ++ d ++ t) = (minus s, d, t)).
    { unfold scan_int. rewrite minus_cases; [|exact S|exact D|right; eauto]. rewrite span_app; [reflexivity|apply digits_is; exact D|apply no_digit_stops; exact E]. }
    rewrite SI. assert (ND : is_nil d = false) by (destruct d; [congruence|reflexivity]). rewrite ND.
    replace (if minus s then - num_of d else num_of d) with v by (rewrite digits_num; destruct (minus s); lia).
    destruct (Z.ltb_spec v (- two31)); [lia|]. destruct (Z.leb_spec two31 v); [lia|]. reflexivity.
  - destruct S as [->|[->| ->]]; [|reflexivity|reflexivity]. cbn [app]. rewrite Q. exact C.
  - destruct S as [->|[->| ->]]; [|discriminate|discriminate]. cbn [app]. rewrite Q. discriminate.
Qed.

(** ** Matrices *)
Lemma bfor_n_free : forall {A} n (P : Z -> A -> Prop) body (g : Z -> text) (Q : text -> Prop) a,
  (forall i st pre t, a <= i < a + Z.of_nat n -> spaces pre -> Q t -> P i st ->
     exists st', body i (st, open_text (pre ++ g i ++ t)) = ORet (st', open_text t) true /\ P (i + 1) st') ->
  (forall i t, a < i < a + Z.of_nat n -> Q t -> Q (g i ++ t)) ->
  forall st pre t, spaces pre -> Q t -> P a st -> (n = O -> pre = []) ->
  exists st', bfor_n n a body (st, open_text (pre ++ cat_n n a g ++ t)) = ORet (st', open_text t) true /\ P (a + Z.of_nat n) st'.
Proof.
  intros A n. induction n as [|n IH]; intros P body g Q a H G st pre t SP QT PA E.
  - exists st. rewrite E by reflexivity. split; [reflexivity|]. replace (a + Z.of_nat 0) with a by lia. exact PA.
  - cbn [bfor_n cat_n]. rewrite <- (app_assoc (g a)).
    assert (Q1 : Q (cat_n n (a + 1) g ++ t)).
    { clear - G QT. revert a G. induction n as [|n IH]; intros a G; [exact QT|]. cbn [cat_n]. rewrite <- app_assoc. apply G; [lia|].
      apply IH. intros i t' I. apply G. lia. }
    destruct (H a st pre _ ltac:(lia) SP Q1 PA) as [s1 [E1 P1]]. unfold bind. rewrite E1.
    destruct (IH P body g Q (a + 1)) with (st := s1) (pre := @nil ascii) (t := t) as [s2 [E2 P2]]; [|intros; apply G; [lia|assumption]|reflexivity|exact QT|exact P1|reflexivity|].
    + intros. apply H; [lia|assumption|assumption|assumption].
    + exists s2. cbn [app] in E2. rewrite E2. split; [reflexivity|]. replace (a + Z.of_nat (S n)) with (a + 1 + Z.of_nat n) by lia. exact P2.
Qed.

Lemma bfor_n_stop : forall {A} k m (P : Z -> A -> Prop) (R : A * istream -> Prop) body (g : Z -> text) (Q : text -> Prop) w a,
  (forall i st pre t, a <= i < a + Z.of_nat k -> spaces pre -> Q t -> P i st ->
     exists st', body i (st, open_text (pre ++ g i ++ t)) = ORet (st', open_text t) true /\ P (i + 1) st') ->
  (forall i t, a < i < a + Z.of_nat k -> Q t -> Q (g i ++ t)) ->
  (forall st pre, spaces pre -> P (a + Z.of_nat k) st -> exists s', body (a + Z.of_nat k) (st, open_text (pre ++ w)) = ORet s' false /\ R s') ->
  ((1 <= k)%nat -> Q w) -> forall st pre, spaces pre -> P a st ->
  exists s', bfor_n (k + S m) a body (st, open_text (pre ++ cat_n k a g ++ w)) = ORet s' false /\ R s'.
Proof.
  intros A k m. induction k as [|k IH]; intros P R body g Q w a H G B QW st pre SP PA.
  - destruct (B st pre SP) as (s' & E & HR); [replace (a + Z.of_nat 0) with a by lia; exact PA|]. replace (a + Z.of_nat 0) with a in E by lia.
    exists s'. split; [|exact HR]. cbn [Nat.add bfor_n cat_n app]. unfold bind. rewrite E. reflexivity.
  - cbn [Nat.add bfor_n cat_n]. rewrite <- (app_assoc (g a)).
    assert (Q1 : Q (cat_n k (a + 1) g ++ w)).
    { specialize (QW ltac:(lia)). clear - G QW. revert a G. induction k as [|n IH]; intros a G; [exact QW|]. cbn [cat_n]. rewrite <- app_assoc. apply G; [lia|].
      apply IH. intros i t' I. apply G. lia. }
    destruct (H a st pre _ ltac:(lia) SP Q1 PA) as [s1 [E1 P1]]. unfold bind. rewrite E1.
    apply (IH P R body g Q w (a + 1)) with (st := s1) (pre := @nil ascii); [|intros; apply G; [lia|assumption]| |intros; apply QW; lia|reflexivity|exact P1].
    + intros. apply H; [lia|assumption|assumption|assumption].
    + replace (a + 1 + Z.of_nat k) with (a + Z.of_nat (S k)) by lia. exact B.
Qed.

(** The text of a matrix: before every number white space (not needed for the first number of a line nor before a sign), after
    the last number of a row anything up to the end of the line that does not continue the number, after the last row of a
    slice another line. *)
Record layout := Lay { y_head : text; y_sp : Z -> Z -> Z -> text; y_num : Z -> Z -> Z -> text; y_row : Z -> Z -> text; y_slice : Z -> text }.
Definition lay_row (y : layout) (d : dim3) (z x : Z) : text := cat (dy d) (fun j => y_sp y x j z ++ y_num y x j z) ++ y_row y x z ++ nl.
Definition lay_slice (y : layout) (d : dim3) (z : Z) : text := cat (dx d) (lay_row y d z) ++ y_slice y z ++ nl.
Definition lay_text (y : layout) (d : dim3) : text := y_head y ++ cat (dz d) (lay_slice y d).

(** A text that continues no number; [begun]: and is not empty *)
Definition plain (t : text) : Prop := match t with [] => True | c :: _ => foreign c end.
Definition begun (t : text) : Prop := match t with [] => False | c :: _ => foreign c end.
Definition short_line (t : text) : Prop := ~ In newline t /\ Z.of_nat (length t) < two31 - 1.
Definition lay_head (h : text) (d : dim3) : Prop := exists s0 a s1 b s2 c s3, h = s0 ++ a ++ s1 ++ b ++ s2 ++ c ++ s3 /\
  white s0 /\ white s1 /\ white s2 /\ white s3 /\ s1 <> [] /\ s2 <> [] /\ s3 <> [] /\
  int_text (dx d) a /\ int_text (dy d) b /\ int_text (dz d) c.
Definition lay_ok (y : layout) (d : dim3) : Prop := lay_head (y_head y) d /\
  (forall i j k, inb d i j k -> white (y_sp y i j k) /\ (0 < j -> begun (y_sp y i j k ++ y_num y i j k))) /\
  (forall i k, 0 <= i < dx d -> 0 <= k < dz d -> short_line (y_row y i k) /\ plain (y_row y i k)) /\
  (forall k, 0 <= k < dz d -> short_line (y_slice y k)).

Lemma short_clear : forall a t, short_line a -> clear_line (open_text (a ++ nl ++ t)) = open_text t.
Proof.
  intros a t [A L]. apply clear_line_ok; [|exact L]. apply forallb_forall. intros c C. apply negb_true_iff. apply Ascii.eqb_neq. intros ->. apply A. exact C.
Qed.

Section Free.
Context {T : Type} {N : Num T} (rd : istream -> option T * istream).
(** The text is read as [v], up to a following text that does not continue it. *)
Definition reads (u : text) (v : T) : Prop := forall sp c t, spaces sp -> foreign c ->
  rd (open_text (sp ++ u ++ c :: t)) = (Some v, open_text (c :: t)).

Lemma begun_app : forall a t, begun a -> begun (a ++ t).
Proof. intros [|c a] t H; [destruct H|exact H]. Qed.
Lemma begun_row : forall a t, plain a -> begun (a ++ nl ++ t).
Proof. intros [|c a] t E; [apply space_foreign; reflexivity|exact E]. Qed.

Lemma head_read : forall h d m0 t, lay_head h d -> fits d ->
  exists s3, spaces s3 /\ s3 <> [] /\ mat_load rd (m0, open_text (h ++ t)) =
    (on_fst (resize n0 d) ;;
     bfor (dz d) (fun z =>
       b <- bfor (dx d) (fun x => b <- bfor (dy d) (fun y => read_elem rd (D3 x y z)) ;; if b : bool then skip_line else ret false) ;;
       if b : bool then skip_line else ret false))%st (m0, open_text (s3 ++ t)).
Proof.
  intros h d m0 t (s0 & a & s1 & b & s2 & c & s3 & -> & W0 & W1 & W2 & W3 & N1 & N2 & N3 & A & B & C) F. pose proof (fits_dims d F) as [DX [DY DZ]].
  exists s3. split; [apply white_is; exact W3|]. split; [exact N3|]. unfold mat_load. rewrite <- !app_assoc.
  assert (G : forall v u sp s t, int_text v u -> white sp -> white s -> s <> [] -> 0 <= v < two31 -> get_int (open_text (sp ++ u ++ s ++ t)) = (Some v, open_text (s ++ t))).
  { intros v u sp s t' I WS WE NE R. rewrite (get_int_numeral v); [|exact I|exact WS| |lia].
    - destruct s; [congruence|reflexivity].
    - destruct s as [|e s]; [congruence|]. cbn. apply white_is in WE. cbn in WE. apply andb_prop in WE. apply (space_foreign e). apply WE. }
  erewrite bind_ok by (apply on_snd_ok; unfold stm; rewrite (G (dx d)) by (assumption || lia); reflexivity).
  erewrite bind_ok by (apply on_snd_ok; unfold stm; rewrite (G (dy d)) by (assumption || lia); reflexivity).
  erewrite bind_ok by (apply on_snd_ok; unfold stm; rewrite (G (dz d)) by (assumption || lia); reflexivity).
  erewrite (bind_ok (on_snd mget)) by (apply on_snd_ok; reflexivity). cbn [failb open_text]. destruct d. reflexivity.
Qed.

Lemma elem_read : forall d g u sp x y z m pre t, fits d -> inb d x y z -> reads u (g x y z) -> spaces pre -> spaces sp -> begun t -> done d g z x y m ->
  exists m', read_elem rd (D3 x y z) (m, open_text (pre ++ (sp ++ u) ++ t)) = ORet (m', open_text t) true /\ done d g z x (y + 1) m'.
Proof.
  intros d g u sp x y z m pre t F I R SP SS B [h [IM HD]].
  destruct (mwrite_is m d h x y z (g x y z) IM F I) as [m' [W IM']].
  exists m'. split.
  - unfold read_elem. erewrite (bind_ok mget) by reflexivity. cbn [fst].
    erewrite bind_ok by (unfold lift; rewrite (is_mat_read m d h x y z IM F I); reflexivity).
    rewrite <- !app_assoc, (app_assoc pre). destruct t as [|c t]; [destruct B|].
    erewrite bind_ok by (apply on_snd_ok; unfold stm; rewrite R; [reflexivity|apply spaces_app; assumption|exact B]).
    cbn beta iota. rewrite (bind_ok _ _ _ _ _ (on_fst_ok _ _ _ _ _ W)). reflexivity.
  - exists (fupd h x y z (g x y z)). split; [assumption|]. intros x' y' z' I' C.
    destruct (Z.eq_dec x' x) as [->|NX]; [destruct (Z.eq_dec y' y) as [->|NY]; [destruct (Z.eq_dec z' z) as [->|NZ]|]|].
    + rewrite fupd_eq. reflexivity.
    + rewrite fupd_neq by congruence. apply HD; [assumption|lia].
    + rewrite fupd_neq by congruence. apply HD; [assumption|lia].
    + rewrite fupd_neq by congruence. apply HD; [assumption|lia].
Qed.

Section One.
Context (y : layout) (d : dim3) (g : Z -> Z -> Z -> T) (F : fits d) (PD : pos d) (LO : lay_ok y d).
Context (RD : forall i j k, inb d i j k -> reads (y_num y i j k) (g i j k)).

Definition elems_loop (x z : Z) : M (mat T * istream) bool := bfor (dy d) (fun j => read_elem rd (D3 x j z)).
Definition row_loop (x z : Z) : M (mat T * istream) bool := (b <- elems_loop x z ;; if b : bool then skip_line else ret false)%st.
Definition slice_loop (z : Z) : M (mat T * istream) bool := (b <- bfor (dx d) (fun x => row_loop x z) ;; if b : bool then skip_line else ret false)%st.

Lemma elems_read : forall n, (1 <= n)%nat -> Z.of_nat n <= dy d -> forall x z m pre t, 0 <= x < dx d -> 0 <= z < dz d -> spaces pre -> begun t -> done d g z x 0 m ->
  exists m', bfor_n n 0 (fun j => read_elem rd (D3 x j z)) (m, open_text (pre ++ cat_n n 0 (fun j => y_sp y x j z ++ y_num y x j z) ++ t)) = ORet (m', open_text t) true
    /\ done d g z x (Z.of_nat n) m'.
Proof.
  intros n N1 N2 x z m pre t X Z0 SP B D. destruct LO as (_ & LS & _).
  destruct (bfor_n_free n (done d g z x) (fun j => read_elem rd (D3 x j z)) (fun j => y_sp y x j z ++ y_num y x j z) begun 0) with (st := m) (pre := pre) (t := t) as [m' [E D']].
  - intros i st pre' t' I SP' B' D'. assert (IN : inb d x i z) by (split; [|split]; lia). destruct (LS x i z IN) as [W _].
    apply (elem_read d g); [exact F|exact IN|apply RD; exact IN|exact SP'|apply white_is; exact W|exact B'|exact D'].
  - intros i t' I B'. assert (IN : inb d x i z) by (split; [|split]; lia). destruct (LS x i z IN) as [W NE]. apply begun_app. apply NE. lia.
  - exact SP.
  - exact B.
  - exact D.
  - lia.
  - exists m'. split; [exact E|exact D'].
Qed.

Lemma row_read : forall x z m pre t, 0 <= x < dx d -> 0 <= z < dz d -> spaces pre -> done d g z x 0 m ->
  exists m', row_loop x z (m, open_text (pre ++ lay_row y d z x ++ t)) = ORet (m', open_text t) true /\ done d g z (x + 1) 0 m'.
Proof.
  intros x z m pre t X Z0 SP D. destruct PD as (P1 & P2 & P3). destruct LO as (_ & _ & LR & _). destruct (LR x z X Z0) as [SL EN].
  destruct (elems_read (Z.to_nat (dy d)) ltac:(lia) ltac:(lia) x z m pre (y_row y x z ++ nl ++ t) X Z0 SP (begun_row _ _ EN) D) as (m' & E & D').
  exists m'. unfold row_loop, elems_loop, lay_row, cat, bfor. rewrite <- !app_assoc. rewrite (bind_ok _ _ _ _ _ E). cbn iota. unfold skip_line.
  erewrite on_snd_ok; [|unfold stm; rewrite (short_clear _ _ SL); reflexivity].
  split; [reflexivity|]. destruct D' as [h [IM HD]]. exists h. split; [assumption|].
  intros x' y' z' I' C. apply HD; [assumption|]. destruct I' as [I1' [I2' I3']]. lia.
Qed.

Lemma rows_read : forall n, (1 <= n)%nat -> Z.of_nat n <= dx d -> forall z m pre t, 0 <= z < dz d -> spaces pre -> done d g z 0 0 m ->
  exists m', bfor_n n 0 (fun x => row_loop x z) (m, open_text (pre ++ cat_n n 0 (lay_row y d z) ++ t)) = ORet (m', open_text t) true /\ done d g z (Z.of_nat n) 0 m'.
Proof.
  intros n N1 N2 z m pre t Z0 SP D.
  destruct (bfor_n_free n (fun x => done d g z x 0) (fun x => row_loop x z) (lay_row y d z) (fun _ => True) 0) with (st := m) (pre := pre) (t := t) as [m' [E D']]; auto; [|lia|].
  - intros. apply row_read; assumption || lia.
  - exists m'. split; [exact E|exact D'].
Qed.

Lemma slice_read : forall z m pre t, 0 <= z < dz d -> spaces pre -> done d g z 0 0 m ->
  exists m', slice_loop z (m, open_text (pre ++ lay_slice y d z ++ t)) = ORet (m', open_text t) true /\ done d g (z + 1) 0 0 m'.
Proof.
  intros z m pre t Z0 SP D. destruct PD as (P1 & P2 & P3). destruct LO as (_ & _ & _ & LR). pose proof (LR z Z0) as SL.
  destruct (rows_read (Z.to_nat (dx d)) ltac:(lia) ltac:(lia) z m pre (y_slice y z ++ nl ++ t) Z0 SP D) as (m' & E & D').
  exists m'. unfold slice_loop, lay_slice, cat, bfor. rewrite <- !app_assoc. rewrite (bind_ok _ _ _ _ _ E). cbn iota. unfold skip_line.
  erewrite on_snd_ok; [|unfold stm; rewrite (short_clear _ _ SL); reflexivity].
  split; [reflexivity|]. destruct D' as [h [IM HD]]. exists h. split; [assumption|].
  intros x' y' z' I' C. apply HD; [assumption|]. destruct I' as [I1' [I2' I3']]. lia.
Qed.

Lemma slices_read : forall n, (1 <= n)%nat -> Z.of_nat n <= dz d -> forall m pre t, spaces pre -> done d g 0 0 0 m ->
  exists m', bfor_n n 0 slice_loop (m, open_text (pre ++ cat_n n 0 (lay_slice y d) ++ t)) = ORet (m', open_text t) true /\ done d g (Z.of_nat n) 0 0 m'.
Proof.
  intros n N1 N2 m pre t SP D.
  destruct (bfor_n_free n (fun z => done d g z 0 0) slice_loop (lay_slice y d) (fun _ => True) 0) with (st := m) (pre := pre) (t := t) as [m' [E D']]; auto; [|lia|].
  - intros. apply slice_read; assumption || lia.
  - exists m'. split; [exact E|exact D'].
Qed.

Theorem free_load : forall m0 t, exists m, mat_load rd (m0, open_text (lay_text y d ++ t)) = ORet (m, open_text t) true /\ is_mat m d g.
Proof.
  intros m0 t. unfold lay_text. rewrite <- app_assoc. destruct PD as (P1 & P2 & P3). pose proof LO as (LH & _).
  destruct (head_read (y_head y) d m0 (cat (dz d) (lay_slice y d) ++ t) LH F) as (s3 & S3 & N3 & E). rewrite E.
  destruct (resize_ok m0 d F) as [m1 [h1 [R1 I1]]]. rewrite (bind_ok _ _ _ _ _ (on_fst_ok _ _ _ _ _ R1)).
  destruct (slices_read (Z.to_nat (dz d)) ltac:(lia) ltac:(lia) m1 s3 t S3) as (m' & E' & D').
  - exists h1. split; [assumption|]. intros x' y' z' [I2 [I3 I4]] C. lia.
  - exists m'. split; [exact E'|]. destruct D' as [h [IM HD]]. apply is_mat_ext with h; [assumption|].
    intros a b c I. apply HD; [assumption|]. left. destruct I as [_ [_ I]]. lia.
Qed.

(** The text goes as far as the number (x0, y0, z0), which cannot be read. *)
Definition unreadable (w : text) : Prop := forall pre, spaces pre -> failb (snd (rd (open_text (pre ++ w)))) = true.
Lemma elem_stop : forall x j z m pre w, inb d x j z -> spaces pre -> unreadable w -> done d g z x j m ->
  exists s', read_elem rd (D3 x j z) (m, open_text (pre ++ w)) = ORet s' false /\ done d g z x j (fst s').
Proof.
  intros x j z m pre w I SP B [h [IM HD]]. specialize (B pre SP). unfold read_elem. erewrite (bind_ok mget) by reflexivity. cbn [fst].
  erewrite bind_ok by (unfold lift; rewrite (is_mat_read m d h x j z IM F I); reflexivity).
  destruct (rd (open_text (pre ++ w))) as [v s] eqn:E. cbn [snd] in B.
  erewrite bind_ok by (apply on_snd_ok; unfold stm; rewrite E; reflexivity).
  destruct v as [a|].
  - destruct (mwrite_is m d h x j z a IM F I) as [m' [W IM']]. exists (m', s). rewrite (bind_ok _ _ _ _ _ (on_fst_ok _ _ _ _ _ W)).
    split; [unfold bind, on_snd, mget; cbn; rewrite B; reflexivity|].
    exists (fupd h x j z a). split; [exact IM'|]. intros x' y' z' I' C. rewrite fupd_neq; [apply HD; [assumption|lia]|]. intro Q. injection Q as -> -> ->. lia.
  - exists (m, s). split; [unfold bind, ret, on_snd, mget; cbn; rewrite B; reflexivity|]. exists h. auto.
Qed.

Theorem free_stop : forall x0 y0 z0 w m0, inb d x0 y0 z0 -> unreadable w -> (0 < y0 -> begun w) ->
  exists m' s' h, mat_load rd (m0, open_text (y_head y ++ cat z0 (lay_slice y d) ++ cat x0 (lay_row y d z0) ++ cat y0 (fun j => y_sp y x0 j z0 ++ y_num y x0 j z0) ++ w)) =
    ORet (m', s') false /\ is_mat m' d h /\
    forall i j k, inb d i j k -> k < z0 \/ (k = z0 /\ (i < x0 \/ (i = x0 /\ j < y0))) -> h i j k = g i j k.
Proof.
  intros x0 y0 z0 w m0 I U BW. pose proof I as (I1 & I2 & I3). pose proof LO as (LH & LS & _).
  assert (ES : forall pre m, spaces pre -> done d g z0 x0 0 m -> exists s',
    row_loop x0 z0 (m, open_text (pre ++ cat y0 (fun j => y_sp y x0 j z0 ++ y_num y x0 j z0) ++ w)) = ORet s' false /\ done d g z0 x0 y0 (fst s')).
  { intros pre m SP D. unfold row_loop, elems_loop, bfor, cat.
    replace (Z.to_nat (dy d)) with (Z.to_nat y0 + S (Z.to_nat (dy d - y0 - 1)))%nat by lia.
    destruct (bfor_n_stop (Z.to_nat y0) (Z.to_nat (dy d - y0 - 1)) (done d g z0 x0) (fun s' => done d g z0 x0 y0 (fst s'))
      (fun j => read_elem rd (D3 x0 j z0)) (fun j => y_sp y x0 j z0 ++ y_num y x0 j z0) begun w 0) with (st := m) (pre := pre) as (s' & E & D').
    - intros i st pre' t' J SP' B' D'. assert (IN : inb d x0 i z0) by (split; [|split]; lia). destruct (LS x0 i z0 IN) as [W _].
      apply (elem_read d g); [exact F|exact IN|apply RD; exact IN|exact SP'|apply white_is; exact W|exact B'|exact D'].
    - intros i t' J B'. assert (IN : inb d x0 i z0) by (split; [|split]; lia). destruct (LS x0 i z0 IN) as [W NE]. apply begun_app. apply NE. lia.
    - intros st pre' SP' D'. replace (0 + Z.of_nat (Z.to_nat y0)) with y0 in * by lia. apply elem_stop; assumption.
    - intro. apply BW. lia.
    - exact SP.
    - exact D.
    - exists s'. rewrite (bind_ok _ _ _ _ _ E). split; [destruct s'; reflexivity|exact D']. }
  assert (RS : forall pre m, spaces pre -> done d g z0 0 0 m -> exists s',
    slice_loop z0 (m, open_text (pre ++ cat x0 (lay_row y d z0) ++ cat y0 (fun j => y_sp y x0 j z0 ++ y_num y x0 j z0) ++ w)) = ORet s' false /\ done d g z0 x0 y0 (fst s')).
  { intros pre m SP D. unfold slice_loop, bfor. unfold cat at 1.
    replace (Z.to_nat (dx d)) with (Z.to_nat x0 + S (Z.to_nat (dx d - x0 - 1)))%nat by lia.
    destruct (bfor_n_stop (Z.to_nat x0) (Z.to_nat (dx d - x0 - 1)) (fun x => done d g z0 x 0) (fun s' => done d g z0 x0 y0 (fst s'))
      (fun x => row_loop x z0) (lay_row y d z0) (fun _ => True) (cat y0 (fun j => y_sp y x0 j z0 ++ y_num y x0 j z0) ++ w) 0) with (st := m) (pre := pre) as (s' & E & D'); auto.
    - intros i st pre' t' J SP' _ D'. apply row_read; assumption || lia.
    - intros st pre' SP' D'. replace (0 + Z.of_nat (Z.to_nat x0)) with x0 in * by lia. apply ES; assumption.
    - exists s'. rewrite (bind_ok _ _ _ _ _ E). split; [destruct s'; reflexivity|exact D']. }
  destruct (head_read (y_head y) d m0 (cat z0 (lay_slice y d) ++ cat x0 (lay_row y d z0) ++ cat y0 (fun j => y_sp y x0 j z0 ++ y_num y x0 j z0) ++ w) LH F) as (s3 & S3 & N3 & E). rewrite E.
  destruct (resize_ok m0 d F) as [m1 [h1 [R1 J1]]]. rewrite (bind_ok _ _ _ _ _ (on_fst_ok _ _ _ _ _ R1)).
  assert (SS : exists s', bfor (dz d) slice_loop (m1, open_text (s3 ++ cat z0 (lay_slice y d) ++ cat x0 (lay_row y d z0) ++ cat y0 (fun j => y_sp y x0 j z0 ++ y_num y x0 j z0) ++ w)) = ORet s' false /\ done d g z0 x0 y0 (fst s')).
  { unfold bfor. unfold cat at 1. replace (Z.to_nat (dz d)) with (Z.to_nat z0 + S (Z.to_nat (dz d - z0 - 1)))%nat by lia.
    apply (bfor_n_stop (Z.to_nat z0) (Z.to_nat (dz d - z0 - 1)) (fun z => done d g z 0 0) (fun s' => done d g z0 x0 y0 (fst s'))
      slice_loop (lay_slice y d) (fun _ => True)); auto.
    - intros i st pre' t' J SP' _ D'. apply slice_read; assumption || lia.
    - intros st pre' SP' D'. replace (0 + Z.of_nat (Z.to_nat z0)) with z0 in * by lia. apply RS; assumption.
    - exists h1. split; [assumption|]. intros x' y' z' [Q2 [Q3 Q4]] C. lia. }
  destruct SS as ([m' s'] & E' & h & IM & HD). exists m', s', h. split; [exact E'|]. split; [exact IM|exact HD].
Qed.
End One.
End Free.

Lemma numerals_read : forall y d (u : Z -> Z -> Z -> numeral),
  (forall i j k, inb d i j k -> u_ok (u i j k) /\ in_range (u_val (u i j k)) /\ y_num y i j k = u_text (u i j k)) ->
  exists g, forall i j k, inb d i j k -> nearest (u_val (u i j k)) (minus (u_sign (u i j k))) (g i j k) /\ reads get_double (y_num y i j k) (g i j k).
Proof.
  intros y d u H.
  exists (fun i j k => match fst (get_double (open_text (u_text (u i j k)))) with Some x => x | None => n0 end).
  intros i j k I. destruct (H i j k I) as (U & R & E).
  assert (NE : forall a b, nearest (u_val (u i j k)) (minus (u_sign (u i j k))) a -> nearest (u_val (u i j k)) (minus (u_sign (u i j k))) b -> a = b).
  { intros a b (A1 & A2 & A3) (B1 & B2 & B3). apply B2R_Bsign_inj; congruence. }
  destruct (get_numeral (u i j k) [] [] U ltac:(intros c []) Logic.I R) as (x & Q & NX). cbn [app] in Q. rewrite app_nil_r in Q. rewrite Q. cbn [fst]. split; [exact NX|].
  intros sp c tt S C. rewrite E. destruct (get_numeral (u i j k) sp (c :: tt) U (is_white sp S) (foreign_ended _ _ _ C) R) as (x' & Q' & NX'). rewrite Q'. rewrite (NE _ _ NX' NX). reflexivity.
Qed.

(** With numerals, the matrix holds the nearest doubles. *)
Theorem free_doubles : forall y d (u : Z -> Z -> Z -> numeral) m0 t, fits d -> pos d -> lay_ok y d ->
  (forall i j k, inb d i j k -> u_ok (u i j k) /\ in_range (u_val (u i j k)) /\ y_num y i j k = u_text (u i j k)) ->
  exists m g, mat_load get_double (m0, open_text (lay_text y d ++ t)) = ORet (m, open_text t) true /\ is_mat m d g /\
    forall i j k, inb d i j k -> nearest (u_val (u i j k)) (minus (u_sign (u i j k))) (g i j k).
Proof.
  intros y d u m0 t F PD LO H. destruct (numerals_read y d u H) as (g & G).
  destruct (free_load get_double y d g F PD LO (fun i j k I => proj2 (G i j k I)) m0 t) as (m & E & I). exists m, g. split; [exact E|]. split; [exact I|].
  intros i j k IN. apply G. exact IN.
Qed.

(** ** What cannot be read *)
Lemma scan_sign_bare : forall s p t, is_sign s -> p = [] \/ p = lit "." -> s ++ p <> [] -> scan_sign (s ++ p ++ t) = (minus s, p ++ t).
Proof. intros s p t [->|[->| ->]] P NE; [|reflexivity|reflexivity]. destruct P as [->| ->]; [destruct NE; reflexivity|reflexivity]. Qed.
(** A sign or a point without digits: zero, and the stream stops. *)
Theorem get_bare : forall sp s p t, white sp -> is_sign s -> p = [] \/ p = lit "." -> s ++ p <> [] -> no_digit t ->
  (p = [] -> forall r, t <> "."%char :: r) -> get_double (open_text (sp ++ s ++ p ++ t)) = (Some (B754_zero false), IS t (is_nil t) true).
Proof.
  intros sp s p t W S P NE D O. apply no_digit_stops in D. unfold get_double. rewrite sentry_skip; [|apply white_is; exact W| |].
  - cbn [rest open_text].
    assert (Q : scan_float (s ++ p ++ t) = (minus s, [], [], None, t)).
    { unfold scan_float. rewrite scan_sign_bare by assumption. destruct P as [->| ->]; cbn [app lit list_ascii_of_string].
      - destruct t as [|c t]; [reflexivity|]. cbn in D. cbn [span]. rewrite D.
        assert (C : Ascii.eqb c "." = false) by (apply Ascii.eqb_neq; intros ->; exact (O eq_refl t eq_refl)). rewrite C. cbn [app is_nil negb]. rewrite andb_false_r. reflexivity.
      - change (span is_digit ("."%char :: t)) with (@nil ascii, "."%char :: t). cbn iota. change (Ascii.eqb "." ".") with true. cbn iota.
        pose proof (span_app is_digit [] t eq_refl D) as SA. cbn [app] in SA. rewrite SA. destruct t as [|c t]; [reflexivity|]. cbn [app is_nil negb]. rewrite andb_false_r. reflexivity. }
    rewrite Q. reflexivity.
  - destruct S as [->|[->| ->]]; [|reflexivity|reflexivity]. destruct P as [->| ->]; [destruct NE; reflexivity|reflexivity].
  - destruct S as [->|[->| ->]]; [|discriminate|discriminate]. destruct P as [->| ->]; [destruct NE; reflexivity|discriminate].
Qed.

Lemma sign_cases : forall t, exists s r, t = s ++ r /\ is_sign s /\ scan_sign t = (minus s, r) /\ (s = [] -> forall c q, r = c :: q -> c <> "+"%char /\ c <> "-"%char).
Proof.
  intros [|c t]; [exists [], []; repeat split; [left; reflexivity|discriminate|discriminate]|].
  destruct (ascii_dec c "-") as [->|M]; [exists (lit "-"), t; repeat split; [right; right; reflexivity|discriminate|discriminate]|].
  destruct (ascii_dec c "+") as [->|P]; [exists (lit "+"), t; repeat split; [right; left; reflexivity|discriminate|discriminate]|].
  exists [], (c :: t). split; [reflexivity|]. split; [left; reflexivity|]. split.
  - cbn [scan_sign]. pose proof M as M'. pose proof P as P'. apply Ascii.eqb_neq in M', P'. rewrite M', P'. reflexivity.
  - intros _ c' q Q. injection Q as <- <-. auto.
Qed.
Lemma span_cases : forall p t, exists a b, t = a ++ b /\ span p t = (a, b) /\ forallb p a = true /\ stops p b.
Proof.
  induction t as [|c t (a & b & E & S & A & B)]; [exists [], []; repeat split|]. cbn [span]. destruct (p c) eqn:P.
  - exists (c :: a), b. rewrite S. cbn [app forallb]. rewrite P, A. rewrite <- E. auto.
  - exists [], (c :: t). repeat split. exact P.
Qed.

(** An exponent without digits: zero, and the stream stops. *)
Theorem get_bare_exp : forall sp u e s t, white sp -> u_ok u -> u_exp u = None -> e = lit "e" \/ e = lit "E" -> is_sign s -> no_digit t ->
  (s = [] -> forall c q, t = c :: q -> c <> "+"%char /\ c <> "-"%char) ->
  get_double (open_text (sp ++ u_text u ++ e ++ s ++ t)) = (Some (B754_zero false), IS t (is_nil t) true).
Proof.
  intros sp [s0 i f x] e s t W (S & I & F & X) X0 E SS D O. cbn [u_sign u_int u_frac u_exp] in *. subst x. apply no_digit_stops in D.
  assert (HD : stops is_digit (e ++ s ++ t) /\ forall c, c = "."%char -> forall q, e ++ s ++ t <> c :: q).
  { destruct E as [->| ->]; split; try reflexivity; intros c -> q Q; discriminate. }
  destruct HD as [HD HP].
  assert (NN : is_nil (i ++ match f with Some f0 => f0 | None => [] end) = false).
  { destruct f as [f|]; [destruct F as [_ F]|rewrite app_nil_r]; [destruct (i ++ f)|destruct i]; congruence || reflexivity. }
  assert (SI : scan_int (s ++ t) = (minus s, [], t)).
  { unfold scan_int. pose proof (minus_cases s SS [] t ltac:(intros c [])) as MC. cbn [app] in MC.
    destruct s as [|c s].
    - rewrite MC; [pose proof (span_app is_digit [] t eq_refl D) as SA; cbn [app] in SA; rewrite SA; reflexivity|].
      destruct t as [|c t]; [left; reflexivity|right; exists c, t; split; [reflexivity|]]. destruct (O eq_refl c t eq_refl); auto.
    - destruct SS as [Q|[Q|Q]]; [discriminate| |]; rewrite Q; change (span is_digit t) with (span is_digit ([] ++ t)) in *; cbn [lit list_ascii_of_string app scan_sign Ascii.eqb Bool.eqb];
        pose proof (span_app is_digit [] t eq_refl D) as SA; cbn [app] in SA; rewrite SA; reflexivity. }
  assert (Q : scan_float (u_text (Numl s0 i f None) ++ e ++ s ++ t) = (minus s0, i, match f with Some f0 => f0 | None => [] end, Some None, t)).
  { unfold u_text. cbn [u_sign u_int u_frac u_exp]. rewrite app_nil_r. unfold scan_float. rewrite <- !app_assoc. rewrite minus_cases; [|exact S|exact I|].
    2:{ destruct i as [|c i]; [|right; destruct (digit_head (c :: i) ((match f with Some f0 => lit "." ++ f0 | None => [] end) ++ e ++ s ++ t) I ltac:(discriminate)) as (c' & r & Q & A & B & _); eauto].
        right. destruct f as [f|]; [|exfalso; destruct F; reflexivity]. exists "."%char, (f ++ e ++ s ++ t). split; [reflexivity|]. split; discriminate. }
    assert (TAIL : match e ++ s ++ t with
      | c :: t4 => if (Ascii.eqb c "e"%char || Ascii.eqb c "E"%char) && negb (is_nil (i ++ match f with Some f0 => f0 | None => [] end)) then
          let '(eneg, ds, t5) := scan_int t4 in
          (minus s0, i, match f with Some f0 => f0 | None => [] end, Some (if is_nil ds then None else Some (if eneg then - num_of ds else num_of ds)), t5)
        else (minus s0, i, match f with Some f0 => f0 | None => [] end, None, e ++ s ++ t)
      | [] => (minus s0, i, match f with Some f0 => f0 | None => [] end, None, e ++ s ++ t)
      end = (minus s0, i, match f with Some f0 => f0 | None => [] end, Some None, t)).
    { rewrite NN. destruct E as [->| ->]; cbn [lit list_ascii_of_string app]; cbn [Ascii.eqb Bool.eqb orb andb negb]; rewrite SI; reflexivity. }
    destruct f as [f|].
    - destruct F as [F1 F2]. rewrite (span_app is_digit i); [|apply digits_is; exact I|reflexivity].
      rewrite <- !app_assoc. cbn [lit list_ascii_of_string app]. change (Ascii.eqb "." ".") with true. cbn iota.
      rewrite (span_app is_digit f); [|apply digits_is; exact F1|exact HD]. exact TAIL.
    - cbn [app]. rewrite (span_app is_digit i); [|apply digits_is; exact I|exact HD].
      assert (ND : match e ++ s ++ t with c :: t2' => if Ascii.eqb c "."%char then span is_digit t2' else ([], e ++ s ++ t) | [] => ([], e ++ s ++ t) end = ([], e ++ s ++ t)).
      { destruct E as [->| ->]; reflexivity. }
      match goal with |- match ?m with _ => _ end = _ => assert (ND' : m = ([], e ++ s ++ t)) by exact ND; rewrite ND' end. exact TAIL. }
  unfold get_double. rewrite sentry_skip; [|apply white_is; exact W| |].
  - cbn [rest open_text]. rewrite Q. cbv beta iota. match goal with |- context [if ?b then None else None] => destruct b end; reflexivity.
  - unfold u_text. cbn [u_sign u_int u_frac u_exp]. destruct S as [->|[->| ->]]; [|reflexivity|reflexivity]. cbn [app].
    destruct i as [|c i].
    + cbn [app]. destruct f as [f|]; [reflexivity|destruct F; reflexivity].
    + cbn [app stops]. destruct (digit_head (c :: i) [] I ltac:(discriminate)) as (c' & r & Q' & _ & _ & B). cbn [app] in Q'. injection Q' as <- <-. exact B.
  - unfold u_text. cbn [u_sign u_int u_frac u_exp]. destruct S as [->|[->| ->]]; [|discriminate|discriminate]. cbn [app].
    destruct i as [|c i]; [|discriminate]. cbn [app]. destruct f as [f|]; [discriminate|destruct F; reflexivity].
Qed.

(** The end of the text, something that is not a number, a sign or a point without digits, an exponent without digits, or a
    number that is too large *)
Inductive no_double : text -> Prop :=
| nd_end : forall sp, white sp -> no_double sp
| nd_other : forall sp c t, white sp -> not_number c -> no_double (sp ++ c :: t)
| nd_bare : forall sp s p t, white sp -> is_sign s -> p = [] \/ p = lit "." -> s ++ p <> [] -> no_digit t ->
    (p = [] -> forall r, t <> "."%char :: r) -> no_double (sp ++ s ++ p ++ t)
| nd_exp : forall sp u e s t, white sp -> u_ok u -> u_exp u = None -> e = lit "e" \/ e = lit "E" -> is_sign s -> no_digit t ->
    (s = [] -> forall c q, t = c :: q -> c <> "+"%char /\ c <> "-"%char) -> no_double (sp ++ u_text u ++ e ++ s ++ t)
| nd_large : forall sp u t, white sp -> u_ok u -> ended u t -> ~ in_range (u_val u) -> no_double (sp ++ u_text u ++ t).
Lemma no_double_fails : forall w, no_double w -> unreadable get_double w.
Proof.
  intros w H pre P. assert (WW : forall sp, white sp -> white (pre ++ sp)) by (intros sp W; apply is_white, spaces_app; [exact P|apply white_is; exact W]).
  destruct H as [sp W|sp c t W C|sp s p t W S PP NE D O|sp u e s t W U X E S D O|sp u t W U E R].
  - unfold get_double, sentry. cbn [good open_text eofb failb negb andb rest]. rewrite <- (app_nil_r (pre ++ sp)).
    rewrite span_app; [reflexivity|apply white_is, WW; exact W|exact I].
  - rewrite app_assoc. rewrite get_garbage; [reflexivity|apply WW; exact W|exact C].
  - rewrite app_assoc. rewrite get_bare; auto.
  - rewrite app_assoc. rewrite get_bare_exp; auto.
  - rewrite app_assoc. rewrite get_too_large; auto.
Qed.

(** Every text starts with a number in the range of the doubles, or else nothing can be read. *)
Definition has_double (w : text) (u : numeral) (t : text) : Prop := exists sp, w = sp ++ u_text u ++ t /\ white sp /\ u_ok u /\ ended u t /\ in_range (u_val u).
Lemma is_digits : forall t, forallb is_digit t = true -> digits t.
Proof. intros t H c I. pose proof (proj1 (forallb_forall _ _) H c I) as D. unfold is_digit, digit_val in D. fold (code c) in D. lia. Qed.
Lemma stops_no_digit : forall t, stops is_digit t -> no_digit t.
Proof. intros [|c t] S; [exact I|]. cbn in *. unfold is_digit, digit_val in S. fold (code c) in S. lia. Qed.
Theorem double_cases : forall w, no_double w \/ exists u t, has_double w u t.
Proof.
  intro w.
  assert (LAST : forall sp u t, w = sp ++ u_text u ++ t -> white sp -> u_ok u -> ended u t -> no_double w \/ exists u t, has_double w u t).
  { intros sp u t E W U EN. destruct (Rlt_dec (Rabs (round radix2 (SpecFloat.fexp 53 1024) ZnearestE (u_val u))) (bpow radix2 1024)) as [R|R].
    - right. exists u, t, sp. auto.
    - left. rewrite E. apply nd_large; auto. }
  destruct (span_cases is_space w) as (sp & r & E & _ & SP & SR). apply is_white in SP. destruct r as [|c0 r0]; [left; rewrite E, app_nil_r; apply nd_end; exact SP|].
  remember (c0 :: r0) as r eqn:ER.
  destruct (sign_cases r) as (s & r1 & E1 & S & _ & HS). destruct (span_cases is_digit r1) as (i & r2 & E2 & _ & I & SR2). apply is_digits in I.
  assert (MAN : forall f t, w = sp ++ u_text (Numl s i f None) ++ t -> u_ok (Numl s i f None) -> no_digit t -> (f = None -> forall q, t <> "."%char :: q) ->
    no_double w \/ exists u t, has_double w u t).
  { intros f t Ew U ND NP. destruct t as [|c t]; [apply (LAST sp (Numl s i f None) []); [exact Ew|exact SP|exact U|exact Logic.I]|].
    assert (CE : (exists e, (e = lit "e" \/ e = lit "E") /\ c :: t = e ++ t) \/ (c <> "e"%char /\ c <> "E"%char)).
    { destruct (ascii_dec c "e") as [->|N1]; [left; exists (lit "e"); auto|]. destruct (ascii_dec c "E") as [->|N2]; [left; exists (lit "E"); auto|right; auto]. }
    destruct CE as [(e & EE & ET)|[N1 N2]].
    - destruct (sign_cases t) as (s' & r5 & E5 & S' & _ & HS'). destruct (span_cases is_digit r5) as (d & r6 & E6 & _ & D & SR6). apply is_digits in D.
      rewrite ET, E5 in Ew. destruct d as [|d0 d].
      + left. rewrite Ew. cbn [app] in E6. subst r6. apply nd_exp; auto. apply stops_no_digit. exact SR6.
      + apply (LAST sp (Numl s i f (Some (e, s', d0 :: d))) r6).
        * rewrite Ew, E6. unfold u_text. cbn [u_sign u_int u_frac u_exp]. rewrite <- !app_assoc. reflexivity.
        * exact SP.
        * destruct U as (U1 & U2 & U3 & _). split; [exact U1|]. split; [exact U2|]. split; [exact U3|]. cbn [u_exp]. split; [exact EE|]. split; [exact S'|]. split; [exact D|discriminate].
        * destruct r6 as [|c6 r6]; [exact Logic.I|]. cbn. apply stops_no_digit in SR6. intros [K|[[K _]|[K _]]]; [exact (SR6 K)|discriminate|discriminate].
    - apply (LAST sp (Numl s i f None) (c :: t)); [exact Ew|exact SP|exact U|]. cbn. intros [K|[[_ [K|K]]|(_ & K & Kc)]]; [exact (ND K)|auto|auto|]. cbn [u_frac] in K. subst c. exact (NP K t eq_refl). }
  assert (PT : (exists r3, r2 = "."%char :: r3) \/ (forall q, r2 <> "."%char :: q)).
  { destruct r2 as [|c2 r2]; [right; discriminate|]. destruct (ascii_dec c2 ".") as [->|N]; [left; eauto|right; congruence]. }
  destruct PT as [[r3 ->]|NP].
  - destruct (span_cases is_digit r3) as (f & r4 & E4 & _ & F & SR4). apply is_digits in F. apply stops_no_digit in SR4.
    destruct (i ++ f) as [|x l] eqn:IF.
    + apply app_eq_nil in IF. destruct IF as [-> ->]. cbn [app] in *. left. rewrite E, E1, E2, E4. apply (nd_bare sp s (lit ".") r4); auto; [|discriminate].
      intro Q. apply app_eq_nil in Q. destruct Q. discriminate.
    + apply (MAN (Some f) r4); [|split; [exact S|split; [exact I|split; [split; [exact F|]|exact Logic.I]]]|exact SR4|discriminate].
      * rewrite E, E1, E2, E4. unfold u_text. cbn [u_sign u_int u_frac u_exp]. rewrite !app_nil_r. rewrite <- !app_assoc. reflexivity.
      * cbn [u_int]. rewrite IF. discriminate.
  - apply stops_no_digit in SR2. destruct i as [|i0 i].
    + cbn [app] in E2. subst r2. left. destruct s as [|s0 s].
      * cbn [app] in E1. subst r1. rewrite E, ER. apply nd_other; [exact SP|]. subst r. cbn in SR. split; [exact SR|]. destruct (HS eq_refl c0 r0 eq_refl) as [HP HM].
        split; [|split; [exact HP|split; [exact HM|intros ->; exact (NP r0 eq_refl)]]]. cbn in SR2. unfold is_digit, digit_val. fold (code c0). lia.
      * rewrite E, E1. apply (nd_bare sp (s0 :: s) [] r1); auto. discriminate.
    + apply (MAN None r2); [|split; [exact S|split; [exact I|split; [discriminate|exact Logic.I]]]|exact SR2|auto].
      rewrite E, E1, E2. unfold u_text. cbn [u_sign u_int u_frac u_exp]. rewrite !app_nil_r. rewrite <- !app_assoc. reflexivity.
Qed.
Theorem double_fails : forall w, failb (snd (get_double (open_text w))) = true <-> no_double w.
Proof.
  intro w. split; [|intro H; exact (no_double_fails w H [] eq_refl)].
  intro H. destruct (double_cases w) as [D|(u & t & sp & -> & W & U & E & R)]; [exact D|].
  destruct (get_numeral u sp t U W E R) as (x & Q & _). rewrite Q in H. discriminate.
Qed.

Theorem free_doubles_stop : forall y d (u : Z -> Z -> Z -> numeral) x0 y0 z0 w m0, fits d -> pos d -> lay_ok y d -> inb d x0 y0 z0 ->
  (forall i j k, inb d i j k -> u_ok (u i j k) /\ in_range (u_val (u i j k)) /\ y_num y i j k = u_text (u i j k)) ->
  no_double w -> (0 < y0 -> begun w) ->
  exists m' s' h, mat_load get_double (m0, open_text (y_head y ++ cat z0 (lay_slice y d) ++ cat x0 (lay_row y d z0) ++ cat y0 (fun j => y_sp y x0 j z0 ++ y_num y x0 j z0) ++ w)) =
    ORet (m', s') false /\ is_mat m' d h /\
    forall i j k, inb d i j k -> k < z0 \/ (k = z0 /\ (i < x0 \/ (i = x0 /\ j < y0))) -> nearest (u_val (u i j k)) (minus (u_sign (u i j k))) (h i j k).
Proof.
  intros y d u x0 y0 z0 w m0 F PD LO I H ND B. destruct (numerals_read y d u H) as (g & G).
  destruct (free_stop get_double y d g F PD LO (fun i j k I => proj2 (G i j k I)) x0 y0 z0 w m0 I (no_double_fails w ND) B) as (m & s & h & E & IM & HD).
  exists m, s, h. split; [exact E|]. split; [exact IM|]. intros i j k IN C. rewrite (HD i j k IN C). apply G. exact IN.
Qed.

(** ** Sizes that cannot be read *)
(** The end of the text, no digits (after an optional sign), or a number that does not fit int *)
Inductive no_int : text -> Prop :=
| ni_end : forall sp, white sp -> no_int sp
| ni_other : forall sp s t, white sp -> is_sign s -> s ++ t <> [] -> no_digit t ->
    (s = [] -> forall c q, t = c :: q -> c <> "+"%char /\ c <> "-"%char /\ is_space c = false) -> no_int (sp ++ s ++ t)
| ni_large : forall sp u v t, white sp -> int_text v u -> no_digit t -> ~ (- two31 <= v < two31) -> no_int (sp ++ u ++ t).

Lemma no_int_fails : forall w, no_int w -> failb (snd (get_int (open_text w))) = true.
Proof.
  intros w [sp W|sp s t W S NE D O|sp u v t W (s & d & S & D & N & -> & V) ND R].
  - unfold get_int, sentry. cbn [good open_text eofb failb negb andb rest]. rewrite <- (app_nil_r sp). rewrite span_app; [reflexivity|apply white_is; exact W|exact I].
  - unfold get_int. rewrite sentry_skip; [|apply white_is; exact W| |exact NE].
    + cbn [rest open_text]. apply no_digit_stops in D. pose proof (span_app is_digit [] t eq_refl D) as SA. cbn [app] in SA.
      assert (SI : scan_int (s ++ t) = (minus s, [], t)).
      { unfold scan_int. destruct S as [->|[->| ->]].
        - pose proof (minus_cases [] (or_introl eq_refl) [] t ltac:(intros c [])) as MC. cbn [app] in *. rewrite MC; [rewrite SA; reflexivity|].
          destruct t as [|c t]; [left; reflexivity|right; exists c, t; split; [reflexivity|]]. destruct (O eq_refl c t eq_refl) as (A & B & _); auto.
        - cbn [lit list_ascii_of_string app scan_sign Ascii.eqb Bool.eqb]. rewrite SA. reflexivity.
        - cbn [lit list_ascii_of_string app scan_sign Ascii.eqb Bool.eqb]. rewrite SA. reflexivity. }
      rewrite SI. reflexivity.
    + destruct S as [->|[->| ->]]; [|reflexivity|reflexivity]. cbn [app]. destruct t as [|c t]; [exact I|]. cbn. apply (O eq_refl c t eq_refl).
  - unfold get_int. rewrite <- app_assoc. destruct (digit_head d t D N) as (c & r & Q & A & B & C).
    rewrite sentry_skip; [|apply white_is; exact W| |].
    + cbn [rest open_text].
      assert (SI : scan_int (s ++ d ++ t) = (minus s, d, t)).
      { unfold scan_int. rewrite minus_cases; [|exact S|exact D|right; eauto]. rewrite span_app; [reflexivity|apply digits_is; exact D|apply no_digit_stops; exact ND]. }
      rewrite SI. assert (NN : is_nil d = false) by (destruct d; [congruence|reflexivity]). rewrite NN.
      replace (if minus s then - num_of d else num_of d) with v by (rewrite digits_num; destruct (minus s); lia).
      destruct (Z.ltb_spec v (- two31)); [reflexivity|]. destruct (Z.leb_spec two31 v); [reflexivity|]. lia.
    + destruct S as [->|[->| ->]]; [|reflexivity|reflexivity]. cbn [app]. rewrite Q. exact C.
    + destruct S as [->|[->| ->]]; [|discriminate|discriminate]. cbn [app]. rewrite Q. discriminate.
Qed.
Definition has_int (w : text) (v : Z) (t : text) : Prop := exists sp u, w = sp ++ u ++ t /\ white sp /\ int_text v u /\ no_digit t /\ - two31 <= v < two31.
Theorem int_cases : forall w, no_int w \/ exists v t, has_int w v t.
Proof.
  intro w. destruct (span_cases is_space w) as (sp & r & E & _ & SP & SR). apply is_white in SP. destruct r as [|c0 r0]; [left; rewrite E, app_nil_r; apply ni_end; exact SP|].
  remember (c0 :: r0) as r eqn:ER.
  destruct (sign_cases r) as (s & r1 & E1 & S & _ & HS). destruct (span_cases is_digit r1) as (d & r2 & E2 & _ & D & SR2). apply is_digits in D. apply stops_no_digit in SR2.
  destruct d as [|d0 d].
  - left. cbn [app] in E2. subst r2. rewrite E, E1. apply ni_other; [exact SP|exact S|rewrite <- E1, ER; discriminate|exact SR2|].
    intros Z0 c q Q. destruct (HS Z0 c q Q) as [A B]. split; [exact A|]. split; [exact B|]. subst s. cbn [app] in E1. rewrite E1, Q in SR. exact SR.
  - assert (IT : int_text ((if minus s then - 1 else 1) * digits_val 0 (d0 :: d)) (s ++ d0 :: d)).
    { exists s, (d0 :: d). split; [exact S|]. split; [exact D|]. split; [discriminate|]. split; reflexivity. }
    set (v := (if minus s then - 1 else 1) * digits_val 0 (d0 :: d)) in *. assert (E3 : w = sp ++ (s ++ d0 :: d) ++ r2) by (rewrite E, E1, E2, <- !app_assoc; reflexivity).
    destruct (Z_le_dec (- two31) v) as [L|L]; [destruct (Z_lt_dec v two31) as [U|U]|].
    + right. exists v, r2, sp, (s ++ d0 :: d). split; [exact E3|]. split; [exact SP|]. split; [exact IT|]. split; [exact SR2|]. split; assumption.
    + left. rewrite E3. apply (ni_large sp _ v); auto. lia.
    + left. rewrite E3. apply (ni_large sp _ v); auto. lia.
Qed.
Theorem int_fails : forall w, failb (snd (get_int (open_text w))) = true <-> no_int w.
Proof.
  intro w. split; [|apply no_int_fails]. intro H. destruct (int_cases w) as [D|(v & t & sp & u & -> & W & U & E & R)]; [exact D|].
  rewrite (get_int_numeral v u sp t U W E R) in H. discriminate.
Qed.

(** The text has less than [n] sizes before something that is not a size. *)
Inductive cut_sizes : nat -> text -> Prop :=
| cs_now : forall n w, no_int w -> cut_sizes (S n) w
| cs_more : forall n w v t, has_int w v t -> cut_sizes n t -> cut_sizes (S n) w.
Lemma stuck_int : forall s, failb s = true -> failb (snd (get_int s)) = true.
Proof.
  intros [r e f] F. cbn in F. subst f. destruct e; reflexivity.
Qed.
(** Then deserialize returns false and the matrix stays as it was. *)
Theorem size_stop : forall {T} {N : Num T} (rd : istream -> option T * istream) w (m0 : mat T), cut_sizes 3 w ->
  exists s, mat_load rd (m0, open_text w) = ORet (m0, s) false /\ failb s = true.
Proof.
  intros T N rd w m0 H.
  assert (G : forall n w, cut_sizes n w -> forall e, (e = true -> w = []) ->
    failb (Nat.iter n (fun s => snd (get_int s)) (IS w e false)) = true).
  { clear. assert (ITF : forall n s, failb s = true -> failb (Nat.iter n (fun s => snd (get_int s)) s) = true) by (induction n; intros s F; [exact F|apply stuck_int, IHn, F]).
    assert (ITS : forall n s, Nat.iter (S n) (fun s => snd (get_int s)) s = Nat.iter n (fun s => snd (get_int s)) (snd (get_int s))).
    { induction n; intro s; [reflexivity|]. change (snd (get_int (Nat.iter (S n) (fun s0 => snd (get_int s0)) s)) = snd (get_int (Nat.iter n (fun s0 => snd (get_int s0)) (snd (get_int s))))). rewrite IHn. reflexivity. }
    intros n w C. induction C as [n w H|n w v t (sp & u & -> & W & U & E & R) C IH]; intros e EE; rewrite ITS.
    - apply ITF. destruct e; [rewrite (EE eq_refl); reflexivity|]. apply no_int_fails. exact H.
    - destruct e.
      + specialize (EE eq_refl). apply app_eq_nil in EE. destruct EE as [_ EE]. apply app_eq_nil in EE. destruct EE as [-> _].
        destruct U as (s & d & _ & _ & ND & Q & _). symmetry in Q. apply app_eq_nil in Q. destruct Q. contradiction.
      + change (IS (sp ++ u ++ t) false false) with (open_text (sp ++ u ++ t)). rewrite (get_int_numeral v u sp t U W E R). cbn [snd]. apply IH.
        destruct t; [reflexivity|discriminate]. }
  specialize (G 3%nat w H false ltac:(discriminate)). change (failb (snd (get_int (snd (get_int (snd (get_int (open_text w))))))) = true) in G.
  unfold mat_load. unfold bind, on_snd, stm, mget, ret. cbn iota beta.
  destruct (get_int (open_text w)) as [ox s1]. cbn [fst snd] in *. destruct (get_int s1) as [oy s2]. cbn [fst snd] in *. destruct (get_int s2) as [oz s3]. cbn [fst snd] in *.
  rewrite G. exists s3. auto.
Qed.
Theorem size_cases : forall w, cut_sizes 3 w \/ exists x y z t1 t2 t3, has_int w x t1 /\ has_int t1 y t2 /\ has_int t2 z t3.
Proof.
  intro w. destruct (int_cases w) as [D|(x & t1 & X)]; [left; apply cs_now; exact D|].
  destruct (int_cases t1) as [D|(y & t2 & Y)]; [left; eapply cs_more; [exact X|apply cs_now; exact D]|].
  destruct (int_cases t2) as [D|(z & t3 & Z)]; [left; eapply cs_more; [exact X|eapply cs_more; [exact Y|apply cs_now; exact D]]|].
  right. exists x, y, z, t1, t2, t3. auto.
Qed.
