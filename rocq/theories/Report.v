(** src/main.cpp 39-51 and 93-105, imageUtil.h: what validate prints after the count. *)
From Coq Require Import String ZArith List Bool Ascii.
From Flocq Require Import Core BinarySingleNaN.
From Verif Require Import Base Dim Matrix View Num Expr Batch Kernel Connected Float32 Pooling Activation Softmax Chars Model Train TrainRest Stream Text Double Bar Mnist.
Import ListNotations.
Local Open Scope Z_scope.

(** float subtraction and comparison, and the operations of a matrix of floats *)
Definition f32_sub (x y : f32) : f32 := Bminus (prec_gt_0_ := prec32) (prec_lt_emax_ := emax32) mode_NE x y.
#[global] Instance NumF : Num f32 :=
  { n0 := B754_zero false; n1 := f32_of_Z 1; nadd := f32_add; nsub := f32_sub; nmul := f32_mul; ndiv := f32_div; nltb := Bltb; nofZ := f32_of_Z }.

(** main.cpp 94: 100.0f * correct_count/num_images *)
Definition accuracy (c n : Z) : f32 := f32_div (f32_mul (f32_of_Z 100) (f32_of_Z c)) (f32_of_Z n).
(** main.cpp 98: the number of a sample; [r] is what rand() returns, [rmax] is RAND_MAX *)
Definition sample_index (rmax r n : Z) : res Z := to_int (nmul (ndiv (d_of_Z r) (d_of_Z rmax)) (d_of_Z n)).

(** ** imageUtil.h for matrices of floats *)
(** Conversion of a double to unsigned char: undefined if the truncated value does not fit *)
Definition to_uchar (x : double) : res Z :=
  match truncated x with Some z => if (0 <=? z) && (z <? 256) then Ok z else UB | None => UB end.
(** std::min(x, 255.0), imageUtil.h 18 and 35: the first argument, unless the second is less *)
Definition min255 (x : double) : double := if Bltb (d_of_Z 255) x then d_of_Z 255 else x.
(** imageUtil.h 11 and 16-18: the brightness of an element with value [v] *)
Definition gray_code (maxv minv v : f32) : res Z :=
  let range := f32_sub maxv minv in
  let dist := f32_sub maxv v in
  let mapped := f32_mul maxv (f32_sub (f32_of_Z 1) (f32_div dist range)) in
  to_uchar (min255 (nmul (ndiv (d_of_f32 mapped) (d_of_f32 maxv)) (d_of_Z 255))).
(** imageUtil.h 35 *)
Definition color_code (maxv v : f32) : res Z := to_uchar (min255 (nmul (ndiv (d_of_f32 v) (d_of_f32 maxv)) (d_of_Z 255))).
(** The escape sequences of imageUtil.h 19, 21, 32, 38, 41 *)
Definition esc : text := ["027"%char].
Definition tab : text := ["009"%char].
Definition row_end : text := esc ++ lit "[0m" ++ nl.
Definition gray_cell (c : Z) : text := esc ++ lit "[48;2;" ++ dec c ++ lit ";" ++ dec c ++ lit ";" ++ dec c ++ lit "m  ".
(** imageUtil.h 7-23: printImageBWImpl; only the elements of the first layer (idx.z is 0) *)
Definition print_bw (m : mat f32) (maxv : f32) : M text unit :=
  (minv <- lift (mmin (l_val m) tt) ;;
   mfor (dx (mdim m)) (fun x =>
     mfor (dy (mdim m)) (fun y =>
       v <- lift (mread m (D3 x y 0)) ;;
       c <- lift (gray_code maxv minv v) ;;
       emit (gray_cell c)) ;;
     emit row_end))%st.
(** imageUtil.h 25-43: printImageColorImpl *)
Definition print_color (m : mat f32) (maxv : f32) : M text unit :=
  (mfor (dx (mdim m)) (fun x =>
     mfor (dy (mdim m)) (fun y =>
       emit (esc ++ lit "[48;2") ;;
       mfor 3 (fun z =>
         v <- lift (mread m (D3 x y z)) ;;
         c <- lift (color_code maxv v) ;;
         emit (lit ";" ++ dec c)) ;;
       emit (lit "m   ")) ;;
     emit row_end))%st.
(** imageUtil.h 45-55: printImage for floats *)
Definition print_image (m : mat f32) : M text unit :=
  (mx <- lift (mmax (l_val m) tt) ;;
   let maxv := if Bltb mx (f32_of_Z 1) then f32_of_Z 1 else mx in
   if dz (mdim m) =? 3 then print_color m maxv else print_bw m maxv)%st.

Section Samples.
Context {T : Type} {N : Num T} (E : env T) (cast : f32 -> T) (labels : list text).
(** The text that operator<< writes for a confidence (a float) *)
Context (show : T -> text).

(** main.cpp 39-51 for a result of forwardPropagation, which does not set true_label *)
Definition results_text (r : results T) : text :=
  lit "Layer Results:" ++ nl ++ tab ++ lit "Label Index: " ++ dec (r_label r) ++ nl ++
  tab ++ lit "Confidence:  " ++ show (r_conf r) ++ nl ++ nl.

Context (big : bool) (limit : Z).
(** main.cpp 98-104: one sample. The state: the layers, db, and the text printed. *)
Definition on_net {A} (c : M (list (layer T)) A) : M (list (layer T) * reader * text) A := on_fst (on_fst c).
Definition sample (rmax n r : Z) : M (list (layer T) * reader * text) unit :=
  (idx <- lift (sample_index rmax r n) ;;
   d <- on_fst (on_snd (get_image big limit (u64 idx))) ;;
   res <- on_net (forward_pass E cast (Z.of_nat (length labels)) (i_data d) 0) ;;
   l <- lift (vget labels (r_label res)) ;;
   on_snd (emit (lit "This image is a " ++ l ++ lit " (actual label " ++ dec (i_label d) ++ lit ")" ++ nl)) ;;
   on_snd (print_image (i_data d)) ;;
   on_snd (emit (results_text res ++ nl ++ nl)))%st.
(** main.cpp 97: the samples for the values of rand() in [rs] *)
Fixpoint samples (rmax n : Z) (rs : list Z) : M (list (layer T) * reader * text) unit :=
  match rs with [] => ret tt | r :: rs' => (sample rmax n r ;; samples rmax n rs')%st end.
End Samples.
