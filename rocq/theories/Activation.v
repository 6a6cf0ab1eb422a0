(** include/cnn_from_scratch/Layers/Activation.h and src/Layers/Activation.cpp. *)
From Coq Require Import ZArith List Bool String.
From Verif Require Import Base Dim Matrix View Num Expr Batch.
Import ListNotations.
Local Open Scope Z_scope.

(** Activation.h 10-16 *)
Inductive act := Relu | Sigmoid | Linear | Tangent | LeakyRelu.

Section Activation.
Context {T : Type} {N : Num T}.
(** std::exp, std::tanh; the constants 0.1f and 0.1. The negation of a number is a difference, which is -v except that
    -(0.0) would be -0.0; std::exp is 1 for both. *)
Context (expT tanhT : T -> T) (c01f c01 : T).

Definition nneg (v : T) : T := nsub n0 v.

(** Activation.cpp 6-10. [std::max(a, b)] is b if a < b, else a. *)
Definition relu_fcn (v : T) : T := if nltb n0 v then v else n0.
Definition sigmoid_fcn (v : T) : T := ndiv n1 (nadd n1 (expT (nneg v))).
Definition linear_fcn (v : T) : T := v.
Definition tangent_fcn (v : T) : T := tanhT v.
Definition leaky_fcn (v : T) : T := if nltb (nmul c01f v) v then v else nmul c01f v.

(** Activation.cpp 13-17 *)
Definition relu_grad (v : T) : T := if nltb n0 v then n1 else n0.
Definition sigmoid_grad (v : T) : T := nmul (sigmoid_fcn v) (nsub n1 (sigmoid_fcn v)).
Definition linear_grad (v : T) : T := n1.
Definition tangent_grad (v : T) : T := nsub n1 (nmul (tangent_fcn v) (tangent_fcn v)).
Definition leaky_grad (v : T) : T := if nltb n0 v then n1 else c01.

(** Activation.cpp 20-28 and 31-39: the tables *)
Definition act_fcn (a : act) : T -> T :=
  match a with Relu => relu_fcn | Sigmoid => sigmoid_fcn | Linear => linear_fcn | Tangent => tangent_fcn
             | LeakyRelu => leaky_fcn end.
Definition act_grad (a : act) : T -> T :=
  match a with Relu => relu_grad | Sigmoid => sigmoid_grad | Linear => linear_grad | Tangent => tangent_grad
             | LeakyRelu => leaky_grad end.

(** Activation.cpp 60-62: propagateForward with function pointer number [f] *)
Definition a_forward (f : act) (x : mat T) : res (mat T) :=
  mat_of_lz n0 (fun t => t) (mk_apply (fun v => Ok (act_fcn f v)) (l_val x) tt) tt.
(** Activation.cpp 67-69: activationGradient *)
Definition a_gradient (f : act) (z : mat T) : res (mat T) :=
  mat_of_lz n0 (fun t => t) (mk_apply (fun v => Ok (act_grad f v)) (l_val z) tt) tt.
(** Activation.cpp 74-79: propagateBackward *)
Definition a_backward (f : act) (z g : mat T) : res (mat T) :=
  (d <- a_gradient f z ;; e <- mk_elem op_mul (l_val g) (l_val d) tt ;; mat_of_lz n0 (fun t => t) e tt)%res.
End Activation.

(** Activation.h 101-105: the kind, and which table entries the two function pointers hold *)
Record activation := Act { a_kind : act; a_fun : act; a_der : act }.
(** Activation.cpp 44-48: constructor *)
Definition a_make (k : act) : activation := Act k k k.

(** Activation.h 19-33: toString. The enum value indexes an array; a value outside the enum throws runtime_error. *)
Definition act_number (k : act) : Z :=
  match k with Relu => 0 | Sigmoid => 1 | Linear => 2 | Tangent => 3 | LeakyRelu => 4 end.
Definition act_strings : list string :=
  ["RELU"%string; "SIGMOID"%string; "LINEAR"%string; "TANGENT"%string; "LEAKY_RELU"%string].
Definition to_string_num (n : Z) : res string :=
  if n <? 0 then Throw RuntimeError
  else match nth_error act_strings (Z.to_nat n) with Some s => Ok s | None => Throw RuntimeError end.
Definition to_string (k : act) : res string := to_string_num (act_number k).
(** Activation.h 36-44: fromString *)
Definition from_string (s : string) : res act :=
  if String.eqb s "RELU" then Ok Relu
  else if String.eqb s "SIGMOID" then Ok Sigmoid
  else if String.eqb s "LINEAR" then Ok Linear
  else if String.eqb s "TANGENT" then Ok Tangent
  else if String.eqb s "LEAKY_RELU" then Ok LeakyRelu
  else Throw RuntimeError.
