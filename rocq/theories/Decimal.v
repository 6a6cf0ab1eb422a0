(** Writing numbers with a given precision: operator<<(double) as libstdc++ and glibc do it ("C" locale, no showpoint,
    showpos or uppercase). A float is converted to double first. *)
From Coq Require Import String ZArith List Bool Ascii Lia.
From Flocq Require Import Core.Core IEEE754.BinarySingleNaN.
From Verif Require Import Base Num Chars Double Float32 Bar.
Import ListNotations.
Local Open Scope Z_scope.

(** The format of a stream: precision (not negative), and floatfield (hexadecimal left out). Used at SimpleMatrix.h 138-143,
    159-160 and SimpleMatrix.tpp 226, 238. *)
Inductive notation := General | Fixed | Scientific.
Record format := Format { f_prec : Z; f_note : notation }.
(** A new stream *)
Definition default_format : format := Format 6 General.

(** m*2^e*10^p to the nearest integer, ties to even *)
Definition over (m : positive) (e p : Z) : Z := Z.pos m * 2 ^ Z.max e 0 * 10 ^ Z.max p 0.
Definition under (e p : Z) : Z := 2 ^ Z.max (- e) 0 * 10 ^ Z.max (- p) 0.
Definition scaled (m : positive) (e p : Z) : Z := rne_div (over m e p) (under e p).
(** The number of decimal digits *)
Definition width (n : Z) : Z := Z.of_nat (length (dec_pos n)).
(** The largest x with 10^x <= m*2^e *)
Definition exponent10 (m : positive) (e : Z) : Z :=
  let a := over m e 0 in let b := under e 0 in
  if b <=? a then width (a / b) - 1 else - width ((b - 1) / a).
(** The first [n] digits k of m*2^e, rounded, and the exponent x of the first one: k*10^(x-n+1) *)
Definition leading (n : Z) (m : positive) (e : Z) : Z * Z :=
  let x := exponent10 m e in
  let k := scaled m e (n - 1 - x) in
  if k =? 10 ^ n then (10 ^ (n - 1), x + 1) else (k, x).
(** k*10^-p *)
Definition point_text (p : nat) (k : Z) : text :=
  dec_pos (k / 10 ^ Z.of_nat p) ++ match p with O => [] | _ => lit "." ++ last_digits p (k mod 10 ^ Z.of_nat p) end.
(** Zeros at the end of the fraction are left out *)
Fixpoint strip (p : nat) (k : Z) : nat * Z :=
  match p with
  | O => (O, k)
  | S p' => if k mod 10 =? 0 then strip p' (k / 10) else (p, k)
  end.
Definition exp_text (x : Z) : text :=
  (if x <? 0 then lit "e-" else lit "e+") ++ (if Z.abs x <? 10 then lit "0" else []) ++ dec_pos (Z.abs x).
(** %.{n}g *)
Definition general_text (n k x : Z) : text :=
  if (-4 <=? x) && (x <? n) then let '(p, k') := strip (Z.to_nat (n - 1 - x)) k in point_text p k'
  else let '(p, k') := strip (Z.to_nat (n - 1)) k in point_text p k' ++ exp_text x.
(** The absolute value of a number that is not zero *)
Definition pos_text (f : format) (m : positive) (e : Z) : text :=
  match f_note f with
  | Fixed => point_text (Z.to_nat (f_prec f)) (scaled m e (f_prec f))
  | Scientific => let '(k, x) := leading (f_prec f + 1) m e in point_text (Z.to_nat (f_prec f)) k ++ exp_text x
  | General => let n := Z.max 1 (f_prec f) in let '(k, x) := leading n m e in general_text n k x
  end.
Definition zero_text (f : format) : text :=
  match f_note f with
  | Fixed => point_text (Z.to_nat (f_prec f)) 0
  | Scientific => point_text (Z.to_nat (f_prec f)) 0 ++ exp_text 0
  | General => lit "0"
  end.
(** operator<<(double): %f, %e or %g. The sign of a NaN is left out ("-nan" is possible). *)
Definition put_num (f : format) (x : double) : text :=
  match x with
  | B754_zero s => sign_text s ++ zero_text f
  | B754_finite s m e _ => sign_text s ++ pos_text f m e
  | B754_infinity s => sign_text s ++ lit "inf"
  | B754_nan => lit "nan"
  end.
(** operator<<(float) *)
Definition put_f32 (f : format) (x : f32) : text := put_num f (d_of_f32 x).

Definition dx_num (a b : Z) : double := ndiv (d_of_Z a) (d_of_Z b).
Example put_num_ex :
  map (put_num default_format) [dx_num 1 3; dx_num 200 3; d_of_Z 100; d_of_Z 1000000; d_of_Z 999999; dx_num 19999995 20; dx_num 1 10000; dx_num 1 100000; dx_num (-5) 2; dx_num 9999995 10; d_of_Z 0]
  = map lit ["0.333333"; "66.6667"; "100"; "1e+06"; "999999"; "1e+06"; "0.0001"; "1e-05"; "-2.5"; "1e+06"; "0"]%string
  /\ map (put_num (Format 2 Fixed)) [dx_num 1 3; dx_num 200 3; dx_num 1 8; dx_num 3 8; dx_num (-1) 1000; d_of_Z 12345] = map lit ["0.33"; "66.67"; "0.12"; "0.38"; "-0.00"; "12345.00"]%string
  /\ map (put_num (Format 3 Scientific)) [dx_num 1 3; d_of_Z 0; d_of_Z (10 ^ 100); dx_num 19999 2] = map lit ["3.333e-01"; "0.000e+00"; "1.000e+100"; "1.000e+04"]%string
  /\ put_num (Format 0 Fixed) (dx_num 5 2) = lit "2" /\ put_num (Format 0 General) (dx_num 5 2) = lit "2".
Proof. vm_compute. auto. Qed.
