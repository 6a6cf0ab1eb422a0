(** The type double: IEEE-754 binary64 numbers (Flocq, without NaN payloads), their arithmetic, and the text that
    operator<< writes and operator>> reads for them. *)
From Coq Require Import ZArith List Bool String Ascii Reals Lia SpecFloat.
From Flocq Require Import Core.Core IEEE754.BinarySingleNaN.
From Verif Require Import Base Num Chars.
Import ListNotations.
Local Open Scope Z_scope.

Definition prec : Z := 53.
Definition emax : Z := 1024.
#[global] Instance prec_pos : Prec_gt_0 prec := eq_refl.
#[global] Instance prec_emax : Prec_lt_emax prec emax := eq_refl.
Definition double : Set := binary_float prec emax.

(** Arithmetic in the default rounding mode (to nearest, ties to even). *)
Definition d_of_Z (z : Z) : double := binary_normalize prec emax prec_pos prec_emax mode_NE z 0 false.
#[global] Instance NumD : Num double :=
  { n0 := B754_zero false; n1 := Bone; nadd := Bplus mode_NE; nsub := Bminus mode_NE; nmul := Bmult mode_NE;
    ndiv := Bdiv mode_NE; nltb := Bltb; nofZ := d_of_Z }.

(** Writing: operator<<(double) with std::fixed and the default precision 6 (SimpleMatrix.tpp 226 and 232). The C library rounds
    the exact value to the nearest multiple of 10^-6, ties to even. *)
Definition million : Z := 1000000.
(** a/b to the nearest integer, ties to even, for a >= 0 and b > 0 *)
Definition rne_div (a b : Z) : Z :=
  let q := a / b in
  match 2 * (a mod b) ?= b with Lt => q | Gt => q + 1 | Eq => if Z.even q then q else q + 1 end.
(** m*2^e in millionths *)
Definition micros (m : positive) (e : Z) : Z :=
  if 0 <=? e then Z.pos m * million * 2 ^ e else rne_div (Z.pos m * million) (2 ^ (- e)).
(** the last [n] decimal digits of [k], with leading zeros *)
Fixpoint last_digits (n : nat) (k : Z) : text :=
  match n with O => [] | S n' => last_digits n' (k / 10) ++ [digit (k mod 10)] end.
Definition sign_text (s : bool) : text := if s then lit "-" else [].
(** k millionths in fixed notation *)
Definition fixed6 (k : Z) : text := dec_pos (k / million) ++ lit "." ++ last_digits 6 (k mod million).
(** operator<<(double); a NaN is written "nan" (the sign that glibc writes for some NaNs is left out: neither text can be
    read back) *)
Definition put_double (x : double) : text :=
  match x with
  | B754_zero s => sign_text s ++ fixed6 0
  | B754_finite s m e _ => sign_text s ++ fixed6 (micros m e)
  | B754_infinity s => sign_text s ++ lit "inf"
  | B754_nan => lit "nan"
  end.

(** Reading: the value m*10^x rounded to the nearest double, ties to even (strtod); the scale 2^-1074 is the smallest
    spacing of doubles, so that the quotient and the position of the rest determine the rounded value. *)
Definition sf_double (s : spec_float) : double :=
  match s with
  | S754_zero b => B754_zero b
  | S754_infinity b => B754_infinity b
  | S754_nan => B754_nan
  | S754_finite b m e =>
      match bool_dec (SpecFloat.bounded prec emax m e) true with left H => B754_finite b m e H | right _ => B754_nan end
  end.
Definition place_in (r d : Z) : SpecFloat.location :=
  if r =? 0 then SpecFloat.loc_Exact else SpecFloat.loc_Inexact (2 * r ?= d).
Definition double_of_dec (neg : bool) (m x : Z) : double :=
  if m =? 0 then B754_zero neg
  else
    let a := (if 0 <=? x then m * 10 ^ x else m) * 2 ^ 1074 in
    let d := if 0 <=? x then 1 else 10 ^ (- x) in
    sf_double (binary_round_aux prec emax mode_NE neg (a / d) (-1074) (place_in (a mod d) d)).

(** std::numeric_limits<double>::max() *)
Definition double_max (neg : bool) : double := sf_double (S754_finite neg 9007199254740991 971).

Example put_ex : put_double (ndiv (d_of_Z (-5)) (d_of_Z 2)) = lit "-2.500000"
  /\ put_double (ndiv n1 (d_of_Z (2^21))) = lit "0.000000"
  /\ put_double (double_of_dec true 123456789 (-7)) = lit "-12.345679"
  /\ put_double (B754_zero true) = lit "-0.000000"
  /\ put_double (d_of_Z (2^60)) = lit "1152921504606846976.000000".
Proof. vm_compute. auto 6. Qed.
Example read_ex : B2SF (double_of_dec false 1 (-1)) = B2SF (nadd (double_of_dec false 5 (-2)) (double_of_dec false 5 (-2)))
  /\ B2SF (double_of_dec false 1 (-1)) = S754_finite false 7205759403792794 (-56)
  /\ B2SF (double_of_dec true 1 309) = S754_infinity true
  /\ B2SF (double_of_dec true 1 (-400)) = S754_zero true
  /\ B2SF (double_of_dec false 5 (-324)) = S754_finite false 1 (-1074).
Proof. vm_compute. auto 6. Qed.
