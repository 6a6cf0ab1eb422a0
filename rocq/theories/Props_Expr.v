(** Properties C11 (expressions), C14-C22: lazy expressions and reductions. *)
From Coq Require Import ZArith List Bool Lia Reals Lra.
From Verif Require Import Base Dim Matrix View Num Expr Tree Spec TreeSpec Iter Sums MatFacts TreeThms ExprThms.
Import ListNotations.
Local Open Scope Z_scope.

(** Two sample matrices: 2x3 and 3x2. *)
Definition exA : mat Z := Mat (D3 2 3 1) [1; 4; 2; 5; 3; 6].
Definition exB : mat Z := Mat (D3 3 2 1) [1; 0; 2; 0; 1; 3].
Definition plus_ (x y : Z) : res Z := Ok (x + y).

(** ** C14 *)
Theorem C14_expression_partial : forall S T (t : tree S T) s, leaves_ok t s -> trans_named t ->
  (shape t s = None -> build t s = Throw MatrixSize) /\
  (forall d, shape t s = Some d -> fits d /\ exists a, build t s = Ok a /\ ldim a s = d /\
     forall x y z v, inb d x y z -> (lget a s (D3 x y z) = Ok v <-> evals s t x y z v)).
Proof. exact @tree_build. Qed.
Print Assumptions C14_expression_partial.

Theorem C14_convert_partial : forall S T (t0 : T) (t : tree S T) s d f, leaves_ok t s -> trans_named t ->
  shape t s = Some d -> iterable d ->
  (forall x y z, inb d x y z -> evals s t x y z (f x y z)) ->
  exists a m, build t s = Ok a /\ mat_of_lz t0 (fun v => v) a s = Ok m /\ is_mat m d f.
Proof. exact @tree_convert. Qed.
Print Assumptions C14_convert_partial.

(** Values are unique. *)
Theorem C14_value_unique : forall S T s (t : tree S T) x y z v w, evals s t x y z v -> evals s t x y z w -> v = w.
Proof. exact @evals_det. Qed.
Print Assumptions C14_value_unique.

(** (A^T + B) + 1 with A 2x3 and B 3x2; and the ill-shaped A + B. *)
Example C14_ex :
  let t := TScalR plus_ (TElem plus_ (TTrans (TMat (fun _ : unit => exA))) (TMat (fun _ => exB))) 1 in
  leaves_ok t tt /\ trans_named t /\ shape t tt = Some (D3 3 2 1) /\ iterable (D3 3 2 1) /\ evals tt t 2 1 0 10 /\
  shape (TElem plus_ (TMat (fun _ : unit => exA)) (TMat (fun _ => exB))) tt = None /\
  (exists a, build t tt = Ok a /\ mat_of_lz 0 (fun v => v) a tt = Ok (Mat (D3 3 2 1) [3; 3; 6; 5; 7; 10])).
Proof.
  cbn [leaves_ok trans_named shape]. unfold consistent, vol, fits, two31. cbn. repeat split; try lia; try reflexivity.
  - left. cbn. lia.
  - eapply ev_scal_r with (u := 9); [|reflexivity]. eapply ev_elem with (u := 6) (w := 3); [| |reflexivity].
    + constructor. constructor. unfold element, inb. cbn. repeat split; lia || reflexivity.
    + constructor. unfold element, inb. cbn. repeat split; lia || reflexivity.
  - eexists. split; reflexivity.
Qed.

(** Missing in C14: transposing a temporary, see C16_temporary_refuted. *)

(** ** C11 for expressions *)
Theorem C11_pointwise_assign_partial : forall T (t0 : T) (t : tree (mat T) T) m0 d f,
  pointwise t -> leaves_ok t m0 -> consistent m0 -> shape t m0 = Some d ->
  (forall x y z, inb d x y z -> evals m0 t x y z (f x y z)) ->
  exists a m1, build t m0 = Ok a /\ assign_lz t0 a m0 = ORet m1 tt /\ is_mat m1 d f.
Proof. exact @pointwise_assign. Qed.
Print Assumptions C11_pointwise_assign_partial.

Theorem C11_pointwise_compound_partial : forall T (h : T -> T -> res T) (t : tree (mat T) T) m0 d f g r,
  pointwise t -> leaves_ok t m0 -> fits d -> iterable d -> is_mat m0 d f -> shape t m0 = Some d ->
  (forall x y z, inb d x y z -> evals m0 t x y z (g x y z)) ->
  (forall x y z, inb d x y z -> h (f x y z) (g x y z) = Ok (r x y z)) ->
  exists a m1, build t m0 = Ok a /\ compound_mat h a m0 = ORet m1 tt /\ is_mat m1 d r.
Proof. exact @pointwise_compound. Qed.
Print Assumptions C11_pointwise_compound_partial.

Example C11_pointwise_ex :
  let t := TElem plus_ (TMat (fun m => m)) (TElem plus_ (TTmp exA) (TMat (fun m => m))) in
  pointwise t /\ leaves_ok t exA /\ shape t exA = Some (D3 2 3 1) /\ evals exA t 1 2 0 18.
Proof.
  cbn [pointwise leaves_ok shape]. unfold consistent, vol, fits, two31. cbn. repeat split; try lia; try reflexivity; try (left; reflexivity).
  eapply ev_elem with (u := 6) (w := 12); [| |reflexivity].
  - constructor. unfold element, inb. cbn. repeat split; lia || reflexivity.
  - eapply ev_elem with (u := 6) (w := 6); [| |reflexivity]; constructor; unfold element, inb; cbn; repeat split; lia || reflexivity.
Qed.

(** ** C15 *)
Theorem C15_multiply_partial : forall S T (N : Num T) m1 m2 c1 c2 (a b : lz S T) s X K Y Z0 f g,
  is_lz a s (D3 X K Z0) f -> is_lz b s (D3 K Y Z0) g -> 0 <= K < two31 ->
  (m1 = false \/ c1 = Ref) -> (m2 = false \/ c2 = Ref) ->
  exists c, mk_mul m1 m2 c1 c2 a b s = Ok c /\
    is_lz c s (D3 X Y Z0) (fun x y z => nsum K (fun k => nmul (f x k z) (g k y z))).
Proof. exact @mul_ok. Qed.
Print Assumptions C15_multiply_partial.

Theorem C15_mismatch : forall S T (N : Num T) m1 m2 c1 c2 (a b : lz S T) s,
  dz (ldim a s) <> dz (ldim b s) \/ dy (ldim a s) <> dx (ldim b s) ->
  mk_mul m1 m2 c1 c2 a b s = Throw MatrixSize.
Proof. exact @mul_mismatch. Qed.
Print Assumptions C15_mismatch.

Theorem C15_associative : forall S m1 m2 m3 m4 m5 m6 m7 m8 (a b c : lz S R) s X K L Y Z0 f g h,
  is_lz a s (D3 X K Z0) f -> is_lz b s (D3 K L Z0) g -> is_lz c s (D3 L Y Z0) h -> 0 <= K < two31 -> 0 <= L < two31 ->
  exists ab bc l r e, mk_mul m1 m2 Ref Ref a b s = Ok ab /\ mk_mul m3 m4 Ref Ref ab c s = Ok l /\
    mk_mul m5 m6 Ref Ref b c s = Ok bc /\ mk_mul m7 m8 Ref Ref a bc s = Ok r /\
    is_lz l s (D3 X Y Z0) e /\ is_lz r s (D3 X Y Z0) e.
Proof. exact mul_assoc. Qed.
Print Assumptions C15_associative.

Theorem C15_transpose : forall S m1 m2 m3 m4 (a b : lz S R) s X K Y Z0 f g,
  is_lz a s (D3 X K Z0) f -> is_lz b s (D3 K Y Z0) g -> 0 <= K < two31 ->
  exists ab r e, mk_mul m1 m2 Ref Ref a b s = Ok ab /\
    mk_mul m3 m4 Ref Ref (mk_transpose Ref b s) (mk_transpose Ref a s) s = Ok r /\
    is_lz (mk_transpose Ref ab s) s (D3 Y X Z0) e /\ is_lz r s (D3 Y X Z0) e.
Proof. exact mul_transpose. Qed.
Print Assumptions C15_transpose.

Example C15_ex : exists c, mk_mul true true Ref Ref (l_val exA) (l_val exB) tt = Ok c /\
  is_lz (l_val exA) tt (D3 2 3 1) (fun x y _ => nth (Z.to_nat (x + 2 * y)) [1; 4; 2; 5; 3; 6] 0) /\
  mat_of_lz 0 (fun v => v) c tt = Ok (Mat (D3 2 2 1) [7; 16; 11; 23]).
Proof.
  eexists. split; [reflexivity|]. split; [|reflexivity]. split; [reflexivity|]. unfold inb. cbn [dx dy dz]. intros x y z (A & B & C).
  assert (z = 0) by lia. subst z.
  assert (x = 0 \/ x = 1) as [->| ->] by lia; assert (y = 0 \/ y = 1 \/ y = 2) as [->|[->| ->]] by lia; reflexivity.
Qed.

(** Missing in C15: with a temporary as operand an evaluation order the language allows gives a product without
    elements. *)
Theorem C15_temporary_refuted : exists (a b : mat Z) c m1 m2, consistent a /\ consistent b /\ pos (mdim a) /\ pos (mdim b) /\
  mk_mul m1 m2 Tmp Ref (l_val a) (l_val b) tt = Ok c /\ ldim c tt = D3 0 (dy (mdim b)) 0.
Proof.
  exists exA, exB. eexists. exists true, true. unfold consistent, vol, pos. cbn. repeat split; lia || reflexivity.
Qed.
Print Assumptions C15_temporary_refuted.

(** ** C16 *)
Theorem C16_transpose_partial : forall S T (a : lz S T) s X Y Z0 f, is_lz a s (D3 X Y Z0) f ->
  is_lz (mk_transpose Ref a s) s (D3 Y X Z0) (fun x y z => f y x z).
Proof. exact @transpose_ok. Qed.
Print Assumptions C16_transpose_partial.

(** Twice, with a named intermediate expression. *)
Theorem C16_involution_partial : forall S T (a : lz S T) s X Y Z0 f, is_lz a s (D3 X Y Z0) f ->
  is_lz (mk_transpose Ref (mk_transpose Ref a s) s) s (D3 X Y Z0) f.
Proof. exact (fun S T a s X Y Z0 f H => transpose_ok _ s Y X Z0 _ (transpose_ok a s X Y Z0 f H)). Qed.
Print Assumptions C16_involution_partial.

Example C16_ex : mat_of_lz 0 (fun v => v) (mk_transpose Ref (l_val exA) tt) tt = Ok (Mat (D3 3 2 1) [1; 2; 3; 4; 5; 6]).
Proof. reflexivity. Qed.

(** Missing in C16: the transpose of a temporary has dimensions 0 x 0, whatever the matrix. *)
Theorem C16_temporary_refuted : forall S T (a : lz S T) s, ldim (mk_transpose Tmp a s) s = D3 0 0 (dz (ldim a s)).
Proof. exact (fun _ _ _ _ => eq_refl). Qed.
Print Assumptions C16_temporary_refuted.

(** ** C17 *)
Theorem C17_rotate : forall S T k (a : lz S T) s n Z0 f, is_lz a s (D3 n n Z0) f -> 0 <= n < two31 -> 1 <= k <= 3 ->
  exists c, mk_rotate k a s = Ok c /\ is_lz c s (D3 n n Z0) (turns n (Z.to_nat k) f).
Proof. exact @rotate_ok. Qed.
Print Assumptions C17_rotate.

Theorem C17_not_square : forall S T k (a : lz S T) s, dx (ldim a s) <> dy (ldim a s) -> mk_rotate k a s = Throw MatrixTransform.
Proof. exact @rotate_not_square. Qed.
Print Assumptions C17_not_square.

(** Quarter turns add up and four of them are the identity. *)
Theorem C17_compose : forall T n i j (f : Z -> Z -> Z -> T), turns n i (turns n j f) = turns n (i + j) f.
Proof. exact @turns_add. Qed.
Print Assumptions C17_compose.
Theorem C17_full_turn : forall T n (f : Z -> Z -> Z -> T) x y z, turns n 4 f x y z = f x y z.
Proof. exact @turns_4. Qed.
Print Assumptions C17_full_turn.

(** [1 2; 3 4] turned once (rows of the result: 3 1 / 4 2). *)
Example C17_ex : exists c, mk_rotate 1 (l_val (Mat (D3 2 2 1) [1; 3; 2; 4])) tt = Ok c /\
  mat_of_lz 0 (fun v => v) c tt = Ok (Mat (D3 2 2 1) [3; 4; 1; 2]).
Proof. eexists. split; reflexivity. Qed.

(** ** C18 *)
Theorem C18_convolve : forall S T (N : Num T) (a b : lz S T) s X Y U V f g,
  is_lz a s (D3 X Y 1) f -> is_lz b s (D3 U V 1) g -> X < two31 -> Y < two31 -> 1 <= U <= X -> 1 <= V <= Y ->
  exists c, mk_convolve a b (D3 1 1 0) s = Ok c /\
    is_lz c s (D3 (X - U + 1) (Y - V + 1) 1)
      (fun x y _ => nsum2 U V (fun i j => nmul (f (i + x) (j + y) 0) (g i j 0))).
Proof. exact @convolve_ok. Qed.
Print Assumptions C18_convolve.

(** Over the reals the nested sum is the double sum. *)
Theorem C18_real_sum : forall U V h, nsum2 U V h = rsum U (fun x => rsum V (fun y => h x y)).
Proof. exact nsum2_R. Qed.
Print Assumptions C18_real_sum.

(** An operand with several layers, or with none, stops the program. *)
Theorem C18_flat : forall S T (N : Num T) (a b : lz S T) stride s, dz (ldim a s) <> 1 \/ dz (ldim b s) <> 1 ->
  mk_convolve a b stride s = Throw AssertFail.
Proof.
  intros S T N a b stride s H. unfold mk_convolve, is_flat.
  destruct (dz (ldim a s) =? 1) eqn:A; [|reflexivity]. destruct (dz (ldim b s) =? 1) eqn:B; [|reflexivity]. lia.
Qed.
Print Assumptions C18_flat.
Example C18_flat_ex : mk_convolve (l_val (Mat (D3 2 2 1) [1; 2; 3; 4])) (l_val (Mat (D3 1 1 2) [1; 2])) (D3 1 1 0) tt = Throw AssertFail.
Proof. reflexivity. Qed.

(** With a stride, the elements whose window lies in A are right. *)
Theorem C18_stride_partial : forall S T (N : Num T) (a b : lz S T) s X Y U V f g sx sy x y z,
  is_lz a s (D3 X Y 1) f -> is_lz b s (D3 U V 1) g -> 0 <= X < two31 -> 0 <= Y < two31 -> 0 <= U -> 0 <= V ->
  0 <= x * sx -> x * sx + U <= X -> 0 <= y * sy -> y * sy + V <= Y -> z = 0 ->
  conv_elem (D3 sx sy 0) a b s (D3 x y z) = Ok (nsum2 U V (fun i j => nmul (f (i + x * sx) (j + y * sy) 0) (g i j 0))).
Proof. exact @conv_elem_ok. Qed.
Print Assumptions C18_stride_partial.

Example C18_ex : exists c, mk_convolve (l_val (Mat (D3 3 2 1) [1; 2; 3; 4; 5; 6])) (l_val (Mat (D3 2 2 1) [1; 10; 100; 1000])) (D3 1 1 0) tt = Ok c /\
  mat_of_lz 0 (fun v => v) c tt = Ok (Mat (D3 2 1 1) [5421; 6532]).
Proof. eexists. split; reflexivity. Qed.

(** Missing in C18: the size of the result ignores the stride, so evaluating the last elements reads outside A. *)
Theorem C18_stride_refuted : exists (a b : mat Z) c x y, consistent a /\ consistent b /\ pos (mdim b) /\
  mk_convolve (l_val a) (l_val b) (D3 2 2 0) tt = Ok c /\ inb (ldim c tt) x y 0 /\ lget c tt (D3 x y 0) = UB.
Proof.
  exists (Mat (D3 2 2 1) [1; 2; 3; 4]), (Mat (D3 1 1 1) [1]). eexists. exists 1, 1.
  unfold consistent, vol, pos, inb. cbn. repeat split; lia || reflexivity.
Qed.
Print Assumptions C18_stride_refuted.

(** ** C19 *)
Theorem C19_dot_int_partial : forall S (a b : lz S Z) s d e f g,
  is_lz a s d f -> is_lz b s e g -> fits d -> fits e -> pos d -> pos e -> vector d -> vector e -> vol d = vol e ->
  (forall n, (Z.of_nat n <= vol d) -> - two31 <= zsum_n n (fun k => comp d f k * comp e g k) < two31) ->
  dot i32 a b s = Ok (zsum_n (Z.to_nat (vol d)) (fun k => comp d f k * comp e g k)).
Proof. exact dot_int. Qed.
Print Assumptions C19_dot_int_partial.

Theorem C19_dot_whole_partial : forall S (a b : lz S R) s d e f g,
  is_lz a s d (fun x y z => IZR (f x y z)) -> is_lz b s e (fun x y z => IZR (g x y z)) ->
  fits d -> fits e -> pos d -> pos e -> vector d -> vector e -> vol d = vol e ->
  (forall n, (Z.of_nat n <= vol d) -> - two31 <= zsum_n n (fun k => comp d f k * comp e g k) < two31) ->
  dot f2i a b s = Ok (zsum_n (Z.to_nat (vol d)) (fun k => comp d f k * comp e g k)).
Proof. exact dot_whole. Qed.
Print Assumptions C19_dot_whole_partial.

Theorem C19_mismatch : forall S T (N : Num T) conv (a b : lz S T) s, fits (ldim a s) -> fits (ldim b s) ->
  ~ (vector (ldim a s) /\ vector (ldim b s) /\ vol (ldim a s) = vol (ldim b s)) -> dot conv a b s = Throw MatrixSize.
Proof. exact @dot_mismatch. Qed.
Print Assumptions C19_mismatch.

Example C19_ex : dot i32 (l_val (Mat (D3 1 3 1) [1; 2; 3])) (l_val (Mat (D3 3 1 1) [4; 5; 6])) tt = Ok 32 /\
  dot i32 (l_val (Mat (D3 1 3 1) [1; 2; 3])) (l_val (Mat (D3 2 1 1) [4; 5])) tt = Throw MatrixSize.
Proof. split; reflexivity. Qed.

(** Missing in C19: for floating-point vectors the running sum is truncated to an int after every step:
    dot((0.5, 0.5), (1, 1)) = 0. *)
Theorem C19_float_refuted : exists a b : mat R, consistent a /\ consistent b /\ vector (mdim a) /\ vector (mdim b) /\
  dot f2i (l_val a) (l_val b) tt = Ok 0 /\ mvals a = [/2; /2]%R /\ mvals b = [1; 1]%R.
Proof.
  exists (Mat (D3 2 1 1) [/2; /2]%R), (Mat (D3 2 1 1) [1; 1]%R). split; [reflexivity|]. split; [reflexivity|].
  split; [unfold vector; cbn; lia|]. split; [unfold vector; cbn; lia|]. split; [|split; reflexivity].
  assert (H : f2i (IZR 0 + / 2 * 1)%R = Ok 0).
  { unfold f2i, trunc. destruct (Rlt_dec _ _); [lra|]. assert (Int_part (0 + / 2 * 1)%R = 0); [|rewrite H; reflexivity].
    unfold Int_part. assert (up (0 + / 2 * 1) = 1); [|lia]. symmetry. apply tech_up; lra. }
  apply (dot_general f2i (l_val (Mat (D3 2 1 1) [/ 2; / 2]%R)) (l_val (Mat (D3 2 1 1) [1; 1]%R)) tt (D3 2 1 1) (D3 2 1 1) (fun _ _ _ => / 2)%R (fun _ _ _ => 1)%R (fun _ => 0)).
  - split; [reflexivity|]. unfold inb. cbn [dx dy dz]. intros x y z (A & B & C).
    assert (y = 0) by lia. assert (z = 0) by lia. subst. assert (x = 0 \/ x = 1) as [->| ->] by lia; reflexivity.
  - split; [reflexivity|]. unfold inb. cbn [dx dy dz]. intros x y z (A & B & C).
    assert (y = 0) by lia. assert (z = 0) by lia. subst. assert (x = 0 \/ x = 1) as [->| ->] by lia; reflexivity.
  - unfold fits, two31; cbn; lia.
  - unfold fits, two31; cbn; lia.
  - unfold pos; cbn; lia.
  - unfold pos; cbn; lia.
  - unfold vector; cbn; lia.
  - unfold vector; cbn; lia.
  - reflexivity.
  - reflexivity.
  - intros k Hk. unfold comp. destruct (Z.eq_dec _ _); exact H.
Qed.
Print Assumptions C19_float_refuted.

(** ** C20 *)
Theorem C20_sum : forall S T (N : Num T) (a : lz S T) s d f, is_lz a s d f -> fits d -> iterable d ->
  sum a s = Ok (nsum (vol d) (elem_no d f)).
Proof. exact @sum_ok. Qed.
Print Assumptions C20_sum.

Theorem C20_mean : forall S T (N : Num T) (a : lz S T) s d f, is_lz a s d f -> fits d -> iterable d ->
  mean a s = Ok (ndiv (nsum (vol d) (elem_no d f)) (nofZ (vol d))).
Proof. exact @mean_ok. Qed.
Print Assumptions C20_mean.

(** Over the reals the sum in storage order is the sum over all layers, columns and rows. *)
Theorem C20_real_sum : forall d f, fits d -> nsum (vol d) (elem_no d f) = rsum3 d f.
Proof. exact rsum3_storage. Qed.
Print Assumptions C20_real_sum.

Theorem C20_mean_int_partial : forall S (a : lz S Z) s d f, is_lz a s d f -> fits d -> pos d ->
  (forall n, (Z.of_nat n <= vol d) -> - two31 <= zsum_n n (elem_no d f) < two31) ->
  0 <= zsum_n (Z.to_nat (vol d)) (elem_no d f) ->
  mean_int a s = Ok (zsum_n (Z.to_nat (vol d)) (elem_no d f) / vol d).
Proof. exact mean_int_ok. Qed.
Print Assumptions C20_mean_int_partial.

Example C20_ex : sum (l_val exA) tt = Ok 21 /\ mean_int (l_val exA) tt = Ok 3.
Proof. split; reflexivity. Qed.

(** Missing in C20: the mean of an int matrix with a negative sum is computed with unsigned numbers. *)
Theorem C20_negative_refuted : exists m : mat Z, consistent m /\ mvals m = [-1; -1] /\ mean_int (l_val m) tt = Ok 9223372036854775807.
Proof. exists (Mat (D3 2 1 1) [-1; -1]). repeat split; reflexivity. Qed.
Print Assumptions C20_negative_refuted.

(** ** C21 *)
Theorem C21_max : forall S (a : lz S R) s d f, is_lz a s d f -> fits d -> pos d ->
  exists x y z, inb d x y z /\ mmax a s = Ok (f x y z) /\ max_index3 a s = Ok (D3 x y z) /\
    (forall x' y' z', inb d x' y' z' -> (f x' y' z' <= f x y z)%R) /\
    (forall x' y' z', inb d x' y' z' -> lin d x' y' z' < lin d x y z -> (f x' y' z' < f x y z)%R).
Proof. exact max_ok. Qed.
Print Assumptions C21_max.

Theorem C21_min : forall S (a : lz S R) s d f, is_lz a s d f -> fits d -> pos d ->
  exists x y z, inb d x y z /\ mmin a s = Ok (f x y z) /\ min_index3 a s = Ok (D3 x y z) /\
    (forall x' y' z', inb d x' y' z' -> (f x y z <= f x' y' z')%R) /\
    (forall x' y' z', inb d x' y' z' -> lin d x' y' z' < lin d x y z -> (f x y z < f x' y' z')%R).
Proof. exact min_ok. Qed.
Print Assumptions C21_min.

(** Any element type with a strict weak order (all numbers except NaN). *)
Theorem C21_ordered : forall S T (N : Num T) better (a : lz S T) s d f, strict_weak better -> is_lz a s d f -> fits d -> pos d ->
  exists x y z, inb d x y z /\ extremum better a s = Ok (Some (lin d x y z, D3 x y z, f x y z)) /\
    (forall x' y' z', inb d x' y' z' -> better (f x' y' z') (f x y z) = false) /\
    (forall x' y' z', inb d x' y' z' -> lin d x' y' z' < lin d x y z -> better (f x y z) (f x' y' z') = true).
Proof. exact @extremum_ok. Qed.
Print Assumptions C21_ordered.

(** The member functions return the storage position of the same element. *)
Theorem C21_member : forall T (N : Num T) (m : mat T) d f, strict_weak (@lt_max T N) -> strict_weak (@lt_min T N) ->
  is_mat m d f -> fits d -> pos d ->
  (forall x y z, max_index3 (l_val m) tt = Ok (D3 x y z) -> inb d x y z /\ max_index m = Ok (lin d x y z)) /\
  (forall x y z, min_index3 (l_val m) tt = Ok (D3 x y z) -> inb d x y z /\ min_index m = Ok (lin d x y z)).
Proof. exact member_index. Qed.
Print Assumptions C21_member.

Example C21_ex : strict_weak (@lt_max R NumR) /\ strict_weak (@lt_max Z NumZ) /\ strict_weak (@lt_min Z NumZ) /\
  mmax (l_val (Mat (D3 2 2 1) [3; 7; 7; 1])) tt = Ok 7 /\ max_index (Mat (D3 2 2 1) [3; 7; 7; 1]) = Ok 1 /\
  max_index3 (l_val (Mat (D3 2 2 1) [3; 7; 7; 1])) tt = Ok (D3 1 0 0).
Proof. exact (conj strict_weak_R_max (conj strict_weak_Z_max (conj strict_weak_Z_min (conj eq_refl (conj eq_refl eq_refl))))). Qed.

(** ** C22 *)
Theorem C22_equal : forall S T cmp (a b : lz S T) s d e f g, is_lz a s d f -> is_lz b s e g -> fits d -> iterable d ->
  exists r, matrix_equal cmp a b s = Ok r /\
    (r = true <-> d = e /\ forall x y z, inb d x y z -> cmp (f x y z) (g x y z) = true).
Proof. exact @equal_ok. Qed.
Print Assumptions C22_equal.

Theorem C22_tolerant : forall S eps (a b : lz S R) s d e f g, is_lz a s d f -> is_lz b s e g -> fits d -> iterable d ->
  exists r, matrix_equal (close eps) a b s = Ok r /\
    (r = true <-> d = e /\ forall x y z, inb d x y z -> (Rabs (f x y z - g x y z) <= eps)%R).
Proof. exact equal_eps. Qed.
Print Assumptions C22_tolerant.

Theorem C22_symmetric : forall S T (cmp : T -> T -> bool) (a b : lz S T) s d e f g, is_lz a s d f -> is_lz b s e g ->
  fits d -> iterable d -> fits e -> iterable e -> (forall x y, cmp x y = cmp y x) ->
  matrix_equal cmp a b s = matrix_equal cmp b a s.
Proof. exact equal_sym. Qed.
Print Assumptions C22_symmetric.

Theorem C22_reflexive : forall S T (cmp : T -> T -> bool) (a : lz S T) s d f, is_lz a s d f -> fits d -> iterable d ->
  (forall x, cmp x x = true) -> matrix_equal cmp a a s = Ok true.
Proof. exact equal_refl. Qed.
Print Assumptions C22_reflexive.

Example C22_ex : matrix_equal Z.eqb (l_val exA) (l_val exA) tt = Ok true /\ matrix_equal Z.eqb (l_val exA) (l_val exB) tt = Ok false /\
  matrix_equal Z.eqb (l_val exA) (l_val (Mat (D3 2 3 1) [1; 4; 2; 5; 3; 7])) tt = Ok false /\ iterable (mdim exA) /\
  (forall eps x y, close eps x y = close eps y x).
Proof. split; [reflexivity|]. split; [reflexivity|]. split; [reflexivity|]. split; [left; cbn; lia|exact close_sym]. Qed.
