(** Text as lists of characters, and decimal numerals. *)
From Coq Require Import ZArith List Bool Lia Ascii String.
From Verif Require Import Base.
Import ListNotations.
Local Open Scope Z_scope.

Definition text := list ascii.
(** A string literal. *)
Definition lit (s : string) : text := list_ascii_of_string s.
Definition text_eqb (a b : text) : bool := if list_eq_dec ascii_dec a b then true else false.

Lemma text_eqb_eq : forall a b, text_eqb a b = true <-> a = b.
Proof. intros. unfold text_eqb. destruct (list_eq_dec ascii_dec a b); split; congruence. Qed.
Lemma text_eqb_refl : forall a, text_eqb a a = true.
Proof. intros. apply text_eqb_eq. reflexivity. Qed.

Definition digit (d : Z) : ascii := ascii_of_nat (48 + Z.to_nat d).
Definition digit_val (c : ascii) : Z := Z.of_nat (nat_of_ascii c) - 48.
Definition is_digit (c : ascii) : bool := (0 <=? digit_val c) && (digit_val c <=? 9).

Lemma digit_val_digit : forall d, 0 <= d <= 9 -> digit_val (digit d) = d.
Proof. intros d H. unfold digit_val, digit. rewrite nat_ascii_embedding by lia. lia. Qed.
Lemma is_digit_digit : forall d, 0 <= d <= 9 -> is_digit (digit d) = true.
Proof. intros d H. unfold is_digit. rewrite digit_val_digit by assumption. lia. Qed.
Lemma digit_of_val : forall c, is_digit c = true -> digit (digit_val c) = c.
Proof.
  intros c H. unfold is_digit in H. unfold digit. assert (E : (48 + Z.to_nat (digit_val c))%nat = nat_of_ascii c).
  { unfold digit_val in *. lia. }
  rewrite E. apply ascii_nat_embedding.
Qed.

(** Decimal digits of a non-negative number, most significant first: std::to_string and operator<< of an integer. *)
Fixpoint dec_fuel (fuel : nat) (n : Z) : text :=
  match fuel with
  | O => [digit (n mod 10)]
  | S f => if n <? 10 then [digit n] else dec_fuel f (n / 10) ++ [digit (n mod 10)]
  end.
Definition dec_pos (n : Z) : text := dec_fuel (Z.to_nat (Z.log2 n)) n.
Definition dec (n : Z) : text := if n <? 0 then "-"%char :: dec_pos (- n) else dec_pos n.

(** The number written by a list of digits. *)
Definition num_of (t : text) : Z := fold_left (fun a c => 10 * a + digit_val c) t 0.

Lemma num_of_app : forall a c, num_of (a ++ [c]) = 10 * num_of a + digit_val c.
Proof. intros. unfold num_of. rewrite fold_left_app. reflexivity. Qed.

Lemma dec_fuel_ok : forall f n, 0 <= n -> Z.log2 n <= Z.of_nat f ->
  num_of (dec_fuel f n) = n /\ forallb is_digit (dec_fuel f n) = true.
Proof.
  induction f; intros n H L.
  - assert (n < 2). { destruct (Z.lt_ge_cases n 2); [assumption|]. pose proof (Z.log2_le_mono 2 n ltac:(lia)). change (Z.log2 2) with 1 in *. lia. }
    cbn [dec_fuel]. rewrite Z.mod_small by lia. split; [unfold num_of; cbn [fold_left]; rewrite digit_val_digit by lia; lia|]. cbn [forallb]. rewrite is_digit_digit by lia. reflexivity.
  - cbn [dec_fuel]. destruct (n <? 10) eqn:Q.
    + split; [unfold num_of; cbn [fold_left]; rewrite digit_val_digit by lia; lia|]. cbn [forallb]. rewrite is_digit_digit by lia. reflexivity.
    + assert (M : 0 <= n mod 10 < 10) by (apply Z.mod_pos_bound; lia).
      pose proof (Z.div_mod n 10 ltac:(lia)) as E.
      assert (L2 : Z.log2 (n / 10) <= Z.of_nat f).
      { assert (A : Z.log2 (n / 10) < Z.log2 n); [|lia].
        assert (B : 2 * (n / 10) <= n) by lia. pose proof (Z.log2_le_mono _ _ B).
        rewrite Z.log2_double in H0 by lia. lia. }
      destruct (IHf (n / 10) ltac:(apply Z.div_pos; lia) L2) as [I1 I2].
      split.
      * rewrite num_of_app, I1, digit_val_digit by lia. lia.
      * rewrite forallb_app, I2. cbn [forallb andb]. rewrite is_digit_digit by lia. reflexivity.
Qed.

Lemma dec_pos_num : forall n, 0 <= n -> num_of (dec_pos n) = n.
Proof. intros. unfold dec_pos. apply dec_fuel_ok; [assumption|]. pose proof (Z.log2_nonneg n). lia. Qed.
Lemma dec_pos_digits : forall n, 0 <= n -> forallb is_digit (dec_pos n) = true.
Proof. intros. unfold dec_pos. apply dec_fuel_ok; [assumption|]. pose proof (Z.log2_nonneg n). lia. Qed.
Lemma dec_fuel_nonempty : forall f n, dec_fuel f n <> [].
Proof. destruct f; intros; cbn; [discriminate|]. destruct (n <? 10); [discriminate|]. intro E. apply app_eq_nil in E. destruct E. discriminate. Qed.
Lemma dec_pos_nonempty : forall n, dec_pos n <> [].
Proof. intros. apply dec_fuel_nonempty. Qed.
Lemma dec_pos_inj : forall a b, 0 <= a -> 0 <= b -> dec_pos a = dec_pos b -> a = b.
Proof. intros a b A B E. rewrite <- (dec_pos_num a A), <- (dec_pos_num b B), E. reflexivity. Qed.
Lemma dec_inj : forall a b, dec a = dec b -> a = b.
Proof.
  intros a b. unfold dec. destruct (a <? 0) eqn:QA; destruct (b <? 0) eqn:QB; intros E.
  - injection E as E. apply dec_pos_inj in E; lia.
  - pose proof (dec_pos_digits b ltac:(lia)) as D. rewrite <- E in D. discriminate.
  - pose proof (dec_pos_digits a ltac:(lia)) as D. rewrite E in D. discriminate.
  - apply dec_pos_inj in E; lia.
Qed.

Example dec_ex : dec 0 = lit "0" /\ dec 7 = lit "7" /\ dec 10 = lit "10" /\ dec (-2147483648) = lit "-2147483648" /\ dec 90210 = lit "90210".
Proof. vm_compute. auto. Qed.
