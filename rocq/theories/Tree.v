(** Composition of the lazy expressions of MatrixMath.h, for any nesting. *)
From Coq Require Import ZArith List Bool.
From Verif Require Import Base Dim Matrix View Num Expr.
Local Open Scope Z_scope.

Section Tree.
Context {S T : Type}.

(** A C++ expression. Operands are named matrices, temporaries (moved into the expression object,
    MatrixMath.h 36-41), views, named expression objects ([auto e = ...]) and sub-expressions. *)
Inductive tree :=
| TMat (p : S -> mat T)                           (* a named matrix found in the memory *)
| TTmp (m : mat T)                                (* a temporary matrix *)
| TView (p : S -> mat T) (v : view)               (* a view; its copy leaves it intact (SubMatrixView.h 87) *)
| TName (a : tree)                                (* a named expression object *)
| TElem (f : T -> T -> res T) (a b : tree)        (* MatrixMath.h 152-173 *)
| TScalR (f : T -> T -> res T) (a : tree) (c : T) (* MatrixMath.h 313-324 *)
| TScalL (f : T -> T -> res T) (c : T) (a : tree) (* MatrixMath.h 325-334 *)
| TApp (f : T -> res T) (a : tree)                (* MatrixMath.h 386-411 *)
| TTrans (a : tree).                              (* MatrixMath.h 413-422 *)

(** MatrixMath.h 36-41: what the operand is after it was handed over. *)
Definition cat_of (t : tree) : cat :=
  match t with TMat _ | TView _ _ | TName _ => Ref | _ => Tmp end.

(** The expression object, or the exception raised while it is built. *)
Fixpoint build (t : tree) (s : S) : res (lz S T) :=
  match t with
  | TMat p => Ok (l_ref p)
  | TTmp m => Ok (l_val m)
  | TView p v => Ok (l_view p v)
  | TName a => build a s
  | TElem f a b => (x <- build a s ;; y <- build b s ;; mk_elem f x y s)%res
  | TScalR f a c => (x <- build a s ;; Ok (mk_scal_r f x c s))%res
  | TScalL f c a => (x <- build a s ;; Ok (mk_scal_l f c x s))%res
  | TApp f a => (x <- build a s ;; Ok (mk_apply f x s))%res
  | TTrans a => (x <- build a s ;; Ok (mk_transpose (cat_of a) x s))%res
  end.

End Tree.
Arguments tree : clear implicits.
