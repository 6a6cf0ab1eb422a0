(** Single-precision arithmetic used for sizes: ModelDescription.tpp 222 and 228, Pooling.cpp 38-39. IEEE binary32
    with round-to-nearest-even, from Flocq. *)
From Coq Require Import ZArith Bool.
From Flocq Require Import Core BinarySingleNaN.
From Verif Require Import Base.
Local Open Scope Z_scope.

Definition prec32 : Prec_gt_0 24 := eq_refl.
Definition emax32 : Prec_lt_emax 24 128 := eq_refl.
Definition f32 := binary_float 24 128.
(** Conversion of an int to float. *)
Definition f32_of_Z (z : Z) : f32 := binary_normalize 24 128 prec32 emax32 mode_NE z 0 false.
(** float addition and division *)
Definition f32_add (x y : f32) : f32 := Bplus (prec_gt_0_ := prec32) (prec_lt_emax_ := emax32) mode_NE x y.
Definition f32_div (x y : f32) : f32 := Bdiv (prec_gt_0_ := prec32) (prec_lt_emax_ := emax32) mode_NE x y.
(** std::ceil(float) followed by the conversion to int; not defined for NaN, infinities and results outside int. *)
Definition f32_ceil (x : f32) : res Z :=
  match x with
  | B754_zero _ => Ok 0
  | B754_finite s m e _ =>
      let n := if s then Z.neg m else Z.pos m in
      i32 (if 0 <=? e then n * 2 ^ e else - ((- n) / 2 ^ (- e)))
  | _ => UB
  end.

(** ModelDescription.tpp 222, 228: std::ceil((float)a / b) with ints a (or a size_t) and b *)
Definition ceil_div (a b : Z) : res Z := f32_ceil (f32_div (f32_of_Z a) (f32_of_Z b)).
(** Pooling.cpp 38-39: std::ceil((a + 1.0f) / b) with ints a and b *)
Definition ceil_div1 (a b : Z) : res Z := f32_ceil (f32_div (f32_add (f32_of_Z a) (f32_of_Z 1)) (f32_of_Z b)).
