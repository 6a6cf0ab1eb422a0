(** Scalar operations the library uses on matrix elements. The structural theorems hold for every instance;
    the instance over the reals is used for calculus, the instance over the integers for computed examples. *)
From Coq Require Import ZArith Reals.
From Verif Require Import Base.

Class Num (T : Type) := {
  n0 : T;                 (* T{} *)
  n1 : T;
  nadd : T -> T -> T;
  nsub : T -> T -> T;
  nmul : T -> T -> T;
  ndiv : T -> T -> T;     (* floating-point division: total *)
  nltb : T -> T -> bool;
  nofZ : Z -> T;          (* conversion from an integer *)
}.

(** Real numbers (idealised floats). *)
Definition Rltb (a b : R) : bool := if Rlt_dec a b then true else false.
#[global] Instance NumR : Num R :=
  { n0 := 0%R; n1 := 1%R; nadd := Rplus; nsub := Rminus; nmul := Rmult; ndiv := Rdiv; nltb := Rltb; nofZ := IZR }.

(** Integers, for computed examples only (the quotient truncates like C++). *)
#[global] Instance NumZ : Num Z :=
  { n0 := 0%Z; n1 := 1%Z; nadd := Z.add; nsub := Z.sub; nmul := Z.mul; ndiv := Z.quot; nltb := Z.ltb; nofZ := fun z => z }.
