(** include/cnn_from_scratch/LoadingBar.h: the progress bar written after each batch. *)
From Coq Require Import ZArith Bool String Ascii List.
From Flocq Require Import Core BinarySingleNaN.
From Verif Require Import Base Batch Num Float32 Chars Double.
Import ListNotations.
Local Open Scope Z_scope.

(** float multiplication *)
Definition f32_mul (x y : f32) : f32 := Bmult (prec_gt_0_ := prec32) (prec_lt_emax_ := emax32) mode_NE x y.
(** float to double, which is exact *)
Definition d_of_f32 (x : f32) : double :=
  match x with
  | B754_zero s => B754_zero s
  | B754_infinity s => B754_infinity s
  | B754_nan => B754_nan
  | B754_finite s m e _ => binary_normalize prec emax prec_pos prec_emax mode_NE (SpecFloat.cond_Zopp s (Z.pos m)) e s
  end.
(** A floating-point number without its fractional part; there is none for infinities and NaN. *)
Definition truncated {p em} (x : binary_float p em) : option Z :=
  match x with
  | B754_zero _ => Some 0
  | B754_finite s m e _ => Some (SpecFloat.cond_Zopp s (if 0 <=? e then Z.pos m * 2 ^ e else Z.pos m / 2 ^ (- e)))
  | _ => None
  end.
(** Conversions to size_t and int: undefined if the truncated value does not fit. *)
Definition to_size {p em} (x : binary_float p em) : res Z :=
  match truncated x with Some z => if (0 <=? z) && (z <? two64) then Ok z else UB | None => UB end.
Definition to_int {p em} (x : binary_float p em) : res Z := match truncated x with Some z => i32 z | None => UB end.

(** Output of a text with std::setw(n), filled on the left (std::right) or on the right (std::left) *)
Definition pad_left (c : ascii) (n : Z) (t : text) : text := repeat c (Z.to_nat n - length t) ++ t.
Definition pad_right (c : ascii) (n : Z) (t : text) : text := t ++ repeat c (Z.to_nat n - length t).

(** LoadingBar.h 7 *)
Definition bar_occupied (val total : f32) (width : Z) : res Z := to_size (f32_mul (f32_div val total) (f32_of_Z width)).
(** LoadingBar.h 12: (int)(100.0*val/total+1) *)
Definition bar_percent (val total : f32) : res Z :=
  to_int (nadd (ndiv (nmul (d_of_Z 100) (d_of_f32 val)) (d_of_f32 total)) (d_of_Z 1)).
(** LoadingBar.h 10-12 after the carriage return: the visible line. setw takes an int. *)
Definition bar_line (occ unocc pct : Z) : text :=
  pad_right "=" (s32 (u64 (occ + 1))) (lit "[") ++ pad_left " " (s32 unocc) (lit "]") ++
  lit " " ++ pad_left " " 3 (dec pct) ++ lit "%".
(** LoadingBar.h 6-14. printf and std::cout write to the same output in the order of the calls. *)
Definition loading_bar (val total : f32) (width : Z) : res text :=
  (occ <- bar_occupied val total width ;;
   let unocc := u64 (width - occ) in
   pct <- bar_percent val total ;;
   Ok (["027"%char] ++ lit "[?25l" ++ ["013"%char] ++ bar_line occ unocc pct ++ ["027"%char] ++ lit "[?25h"))%res.
(** ModelDescription.tpp 273: two ints, converted to float; the default width *)
Definition batch_bar (n num_batches : Z) : res text := loading_bar (f32_of_Z n) (f32_of_Z num_batches) 50.
