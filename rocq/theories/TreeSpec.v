(** Meaning of an expression, independent of the expression objects. *)
From Coq Require Import ZArith List Bool.
From Verif Require Import Base Dim Matrix View Num Expr Tree Spec.
Local Open Scope Z_scope.

Section TreeSpec.
Context {S T : Type}.

(** Shape of an expression; none if two operands of an element-wise operator differ in shape. *)
Fixpoint shape (t : tree S T) (s : S) : option dim3 :=
  match t with
  | TMat p => Some (mdim (p s))
  | TTmp m => Some (mdim m)
  | TView _ v => Some (vdim v)
  | TName a | TScalR _ a _ | TScalL _ _ a | TApp _ a => shape a s
  | TElem _ a b => match shape a s, shape b s with
                   | Some (D3 x y z), Some (D3 x' y' z') =>
                       if Z.eq_dec x x' then if Z.eq_dec y y' then if Z.eq_dec z z' then Some (D3 x y z)
                       else None else None else None
                   | _, _ => None
                   end
  | TTrans a => match shape a s with Some (D3 x y z) => Some (D3 y x z) | None => None end
  end.

(** Element [(x,y,z)] of matrix [m]. *)
Definition element (m : mat T) (x y z : Z) (v : T) : Prop :=
  inb (mdim m) x y z /\ cell m (x + dx (mdim m) * y + dx (mdim m) * dy (mdim m) * z) = Some v.

(** Expression [t] has value [v] at index [(x,y,z)]. *)
Inductive evals (s : S) : tree S T -> Z -> Z -> Z -> T -> Prop :=
| ev_mat : forall p x y z v, element (p s) x y z v -> evals s (TMat p) x y z v
| ev_tmp : forall m x y z v, element m x y z v -> evals s (TTmp m) x y z v
| ev_view : forall p w x y z v, inb (vdim w) x y z ->
    element (p s) (dx (vstart w) + x) (dy (vstart w) + y) (dz (vstart w) + z) v -> evals s (TView p w) x y z v
| ev_name : forall a x y z v, evals s a x y z v -> evals s (TName a) x y z v
| ev_elem : forall f a b x y z u w v, evals s a x y z u -> evals s b x y z w -> f u w = Ok v ->
    evals s (TElem f a b) x y z v
| ev_scal_r : forall f a c x y z u v, evals s a x y z u -> f u c = Ok v -> evals s (TScalR f a c) x y z v
| ev_scal_l : forall f a c x y z u v, evals s a x y z u -> f c u = Ok v -> evals s (TScalL f c a) x y z v
| ev_app : forall f a x y z u v, evals s a x y z u -> f u = Ok v -> evals s (TApp f a) x y z v
| ev_trans : forall a x y z v, evals s a y x z v -> evals s (TTrans a) x y z v.

(** The matrices and views mentioned are well formed. *)
Fixpoint leaves_ok (t : tree S T) (s : S) : Prop :=
  match t with
  | TMat p => consistent (p s) /\ fits (mdim (p s))
  | TTmp m => consistent m /\ fits (mdim m)
  | TView p v => consistent (p s) /\ fits (mdim (p s)) /\ region_in v (mdim (p s))
  | TName a | TScalR _ a _ | TScalL _ _ a | TApp _ a | TTrans a => leaves_ok a s
  | TElem _ a b => leaves_ok a s /\ leaves_ok b s
  end.

(** Only named objects are transposed. *)
Fixpoint trans_named (t : tree S T) : Prop :=
  match t with
  | TMat _ | TTmp _ | TView _ _ => True
  | TName a | TScalR _ a _ | TScalL _ _ a | TApp _ a => trans_named a
  | TElem _ a b => trans_named a /\ trans_named b
  | TTrans a => match a with TMat _ | TView _ _ | TName _ => trans_named a | _ => False end
  end.

End TreeSpec.

(** Expressions without transposition whose operands are the assigned matrix itself or objects that do not
    change during the assignment. The memory is the assigned matrix. *)
Fixpoint pointwise {T} (t : tree (mat T) T) : Prop :=
  match t with
  | TMat p => (forall m, p m = m) \/ (exists c, forall m, p m = c)
  | TTmp _ => True
  | TView p _ => exists c, forall m, p m = c
  | TName a | TScalR _ a _ | TScalL _ _ a | TApp _ a => pointwise a
  | TElem _ a b => pointwise a /\ pointwise b
  | TTrans _ => False
  end.
