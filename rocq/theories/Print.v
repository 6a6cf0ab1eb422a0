(** Output to the console that the program does not use or that is not part of validate: SimpleMatrix.h 134-163,
    imageUtil.h for bytes and ints, src/main.cpp 24-34, ModelDescription.tpp 292. *)
From Coq Require Import String ZArith List Bool Ascii.
From Flocq Require Import Core.Core IEEE754.BinarySingleNaN.
From Verif Require Import Base Dim Matrix View Num Expr Batch Kernel Connected Float32 Pooling Activation Softmax Chars Double Bar Decimal Stream Text Model Report.
Import ListNotations.
Local Open Scope Z_scope.

(** ** SimpleMatrix.h 134-163: operator<< *)
(** The stream [os]: what was written to it, its format, and the format of std::cout if that is a different stream. (Fill
    character and alignment are the usual ones: spaces, right-aligned.) *)
Record streams := Streams { s_text : text; s_os : format; s_other : option format }.
Definition cout_format (s : streams) : format := match s_other s with None => s_os s | Some f => f end.
Definition set_cout (f : format) : M streams unit := fun s =>
  ORet (match s_other s with None => Streams (s_text s) f None | Some _ => Streams (s_text s) (s_os s) (Some f) end) tt.
Definition write (t : text) : M streams unit := fun s => ORet (Streams (s_text s ++ t) (s_os s) (s_other s)) tt.
(** std::setw(w) *)
Definition padded (w : nat) (t : text) : text := repeat " "%char (w - length t) ++ t.

(** A type of elements: whether it is a floating-point type, the comparison val < 0, and what is written for abs(val). The name
    abs is looked up in math.h, since MatrixMath.h is included later (line 168). *)
Record element (T : Type) := Element { el_float : bool; el_neg : T -> bool; el_abs : format -> T -> res text }.
Arguments Element {T}. Arguments el_float {T}. Arguments el_neg {T}. Arguments el_abs {T}.
Definition el_double : element double := Element true (fun v => Bltb v n0) (fun f v => Ok (put_num f (Babs v))).
Definition el_f32 : element f32 := Element true (fun v => Bltb v (f32_of_Z 0)) (fun f v => Ok (put_f32 f (Babs v))).
(** int: abs(INT_MIN) is undefined *)
Definition el_int : element Z := Element false (fun v => v <? 0) (fun _ v => (a <- i32 (Z.abs v) ;; Ok (dec a))%res).

(** The matrix may be any object of a class derived from MatrixBase *)
Definition mat_print {S T} (el : element T) (a : lz S T) (mem : S) : M streams unit :=
  (s0 <- mget ;;
   (if el_float el then set_cout (Format 2 Fixed) else ret tt) ;;
   let w := (if el_float el then 7 else 4)%nat in
   let d := ldim a mem in
   write nl ;;
   mfor (dx d) (fun i =>
     mfor (dz d) (fun k =>
       write (lit "[") ;;
       mfor (dy d) (fun j =>
         v <- lift (lget a mem (D3 i j k)) ;;
         s <- mget ;;
         t <- lift (el_abs el (s_os s) v) ;;
         write ((if el_neg el v then lit "-" else lit " ") ++ padded w t ++ (if j =? dy d - 1 then lit "]" else lit ","))) ;;
       write (lit "   ")) ;;
     write nl) ;;
   set_cout (Format (f_prec (cout_format s0)) General))%st.

(** ** imageUtil.h for elements of type unsigned char or int: the largest value is 255 (lines 48-49), differences are ints *)
(** imageUtil.h 11, 16-18. The two products and quotients of line 17 are floats, those of line 18 doubles. *)
Definition gray_code_int (minv v : Z) : res Z :=
  (range <- i32 (255 - minv) ;; dist <- i32 (255 - v) ;;
   let mapped := f32_mul (f32_of_Z 255) (f32_sub (f32_of_Z 1) (f32_div (f32_of_Z dist) (f32_of_Z range))) in
   to_uchar (min255 (nmul (ndiv (d_of_f32 mapped) (d_of_Z 255)) (d_of_Z 255))))%res.
(** imageUtil.h 35 *)
Definition color_code_int (v : Z) : res Z := to_uchar (min255 (nmul (ndiv (d_of_Z v) (d_of_Z 255)) (d_of_Z 255))).
(** imageUtil.h 7-23. Line 11 is evaluated even if there is no row. *)
Definition print_bw_int (m : mat Z) : M text unit :=
  (minv <- lift (mmin (l_val m) tt) ;;
   _ <- lift (i32 (255 - minv)) ;;
   mfor (dx (mdim m)) (fun x =>
     mfor (dy (mdim m)) (fun y =>
       v <- lift (mread m (D3 x y 0)) ;;
       c <- lift (gray_code_int minv v) ;;
       emit (gray_cell c)) ;;
     emit row_end))%st.
(** imageUtil.h 25-43 *)
Definition print_color_int (m : mat Z) : M text unit :=
  (mfor (dx (mdim m)) (fun x =>
     mfor (dy (mdim m)) (fun y =>
       emit (esc ++ lit "[48;2") ;;
       mfor 3 (fun z =>
         v <- lift (mread m (D3 x y z)) ;;
         c <- lift (color_code_int v) ;;
         emit (lit ";" ++ dec c)) ;;
       emit (lit "m   ")) ;;
     emit row_end))%st.
(** imageUtil.h 45-55 *)
Definition print_image_int (m : mat Z) : M text unit :=
  if dz (mdim m) =? 3 then print_color_int m else print_bw_int m.

(** ** main.cpp 24-34: debugLayerWeights, which is never called *)
Section Debug.
Context {T : Type} {N : Num T} (sqrtT : T -> T) (show : T -> text).
(** ModelLayer.h 11-12: the members weights and biases of a layer; only convolution and fully connected layers set them *)
Definition weights_of (l : layer T) : mat T :=
  match l with LKernel k => p_w (k_par k) | LConn c => p_w (c_par c) | _ => mat_empty end.
Definition biases_of (l : layer T) : mat T :=
  match l with LKernel k => p_b (k_par k) | LConn c => p_b (c_par c) | _ => mat_empty end.
Fixpoint debug_weights (i : Z) (ls : list (layer T)) : M text unit :=
  match ls with
  | [] => ret tt
  | l :: ls' =>
      (w <- lift (l2norm sqrtT (weights_of l)) ;;
       b <- lift (l2norm sqrtT (biases_of l)) ;;
       emit (lit "Layer " ++ dec i ++ lit " has weights of norm " ++ show w ++ nl) ;;
       emit (lit "Layer " ++ dec i ++ lit " has biases of norm " ++ show b ++ nl) ;;
       debug_weights (i + 1) ls')%st
  end.
End Debug.

(** ** ModelDescription.tpp 292: the line after an epoch. [c]: success_count, [n]: data_source.size() (a size_t) *)
Definition epoch_accuracy (c n : Z) : double := ndiv (nmul (d_of_Z 100) (d_of_Z c)) (d_of_Z n).
Definition epoch_text (e c n : Z) : text :=
  nl ++ lit "Epoch " ++ dec e ++ lit ": Accuracy was " ++ put_num default_format (epoch_accuracy c n) ++ lit "%" ++ nl.
