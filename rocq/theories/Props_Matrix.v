(** Properties C01-C07: storage, iteration and mutation of a matrix. *)
From Coq Require Import ZArith List Bool Lia.
From Verif Require Import Base Dim Matrix View Num Expr Spec MatFacts MatThms.
Import ListNotations.
Local Open Scope Z_scope.

(** ** C01 *)
Theorem C01_write_read : forall T (m : mat T) x y z v,
  consistent m -> fits (mdim m) -> inb (mdim m) x y z ->
  exists m', mwrite (D3 x y z) v m = ORet m' tt /\
    mdim m' = mdim m /\ length (mvals m') = length (mvals m) /\
    mread m' (D3 x y z) = Ok v /\
    forall x' y' z', inb (mdim m) x' y' z' -> (x', y', z') <> (x, y, z) ->
      exists w, mread m (D3 x' y' z') = Ok w /\ mread m' (D3 x' y' z') = Ok w.
Proof. exact write_read. Qed.
Print Assumptions C01_write_read.

(** Indices and storage positions correspond one-to-one. *)
Theorem C01_index_position : forall d, fits d ->
  (forall x y z, inb d x y z -> exists k, 0 <= k < vol d /\
     forall T (m : mat T), mdim m = d -> mread m (D3 x y z) = mread_flat m k) /\
  (forall k, 0 <= k < vol d -> exists x y z, inb d x y z /\
     (forall T (m : mat T), mdim m = d -> mread m (D3 x y z) = mread_flat m k) /\
     (forall x' y' z', inb d x' y' z' ->
        (forall m : mat Z, mdim m = d -> mread m (D3 x' y' z') = mread_flat m k) ->
        x' = x /\ y' = y /\ z' = z)).
Proof. exact index_position. Qed.
Print Assumptions C01_index_position.

(** Sample matrix used in the examples. *)
Definition ex_mat : mat Z := Mat (D3 2 3 2) [1; 2; 3; 4; 5; 6; 7; 8; 9; 10; 11; 12].
Example C01_ex : consistent ex_mat /\ fits (mdim ex_mat) /\ inb (mdim ex_mat) 1 2 1 /\
  mread ex_mat (D3 1 2 0) = Ok 6 /\
  mwrite (D3 1 2 0) 99 ex_mat = ORet (Mat (D3 2 3 2) [1; 2; 3; 4; 5; 99; 7; 8; 9; 10; 11; 12]) tt.
Proof. unfold consistent, fits, inb, two31, vol. cbn. repeat split; lia || reflexivity. Qed.

(** ** C02 *)
Theorem C02_set_entries : forall T (v : list T) (m : mat T),
  consistent m -> fits (mdim m) -> Z.of_nat (length v) = vol (mdim m) ->
  exists m', set_entries v m = ORet m' tt /\ mdim m' = mdim m /\ consistent m' /\
    forall r c l, inb (mdim m) r c l ->
      exists w, mread m' (D3 r c l) = Ok w /\
        nth_error v (Z.to_nat (l * (dx (mdim m) * dy (mdim m)) + r * dy (mdim m) + c)) = Some w.
Proof. exact set_entries_ok. Qed.
Print Assumptions C02_set_entries.

Theorem C02_set_entries_mismatch : forall T (v : list T) (m : mat T),
  length v <> length (mvals m) -> set_entries v m = OThrow m MatrixSize.
Proof. exact set_entries_throw. Qed.
Print Assumptions C02_set_entries_mismatch.

Theorem C02_construct : forall T (t0 : T) (v : list T) d,
  fits d -> Z.of_nat (length v) = vol d ->
  exists m, mat_of_list t0 d v = Ok m /\ mdim m = d /\ consistent m /\
    forall r c l, inb d r c l ->
      exists w, mread m (D3 r c l) = Ok w /\
        nth_error v (Z.to_nat (l * (dx d * dy d) + r * dy d + c)) = Some w.
Proof. exact mat_of_list_ok. Qed.
Print Assumptions C02_construct.

Theorem C02_construct_mismatch : forall T (t0 : T) (v : list T) d,
  fits d -> Z.of_nat (length v) <> vol d -> mat_of_list t0 d v = Throw MatrixSize.
Proof. exact mat_of_list_throw. Qed.
Print Assumptions C02_construct_mismatch.

Example C02_ex : mat_of_list 0 (D3 2 3 1) [1; 2; 3; 4; 5; 6] = Ok (Mat (D3 2 3 1) [1; 4; 2; 5; 3; 6]).
Proof. reflexivity. Qed.

(** ** C03 *)
Theorem C03_iteration_partial : forall d, fits d -> (1 <= dx d /\ 1 <= dy d) \/ dz d = 0 ->
  exists l : list (Z * dim3),
    (forall S (body : Z -> dim3 -> M S unit) s, it_loop d body s = run_over body l s) /\
    Z.of_nat (length l) = vol d /\
    NoDup (map snd l) /\
    (forall x y z, inb d x y z <-> In (D3 x y z) (map snd l)) /\
    (forall k p i, nth_error l k = Some (p, i) ->
       p = Z.of_nat k /\ it_diff d i it_begin = Ok p /\ p = dx i + dx d * dy i + dx d * dy d * dz i).
Proof. exact iteration_exact. Qed.
Print Assumptions C03_iteration_partial.

Example C03_ex : fits (D3 2 2 1) /\
  it_loop (D3 2 2 1) (fun k i s => ORet (s ++ [(k, i)]) tt) [] =
    ORet [(0, D3 0 0 0); (1, D3 1 0 0); (2, D3 0 1 0); (3, D3 1 1 0)] tt.
Proof. split; [unfold fits, two31; cbn; lia|]. reflexivity. Qed.

(** Missing in C03: the property fails for empty matrices with a non-zero depth. Such a matrix has no element,
    yet iteration visits a position, and summing it reads outside the storage. *)
Theorem C03_empty_refuted : exists (d : dim3) (m : mat Z),
  mdim m = d /\ consistent m /\ fits d /\ vol d = 0 /\
  it_loop d (fun k i s => ORet (s ++ [i]) tt) [] = ORet [D3 0 0 0] tt /\
  sum (l_val m) tt = UB.
Proof.
  exists (D3 0 1 1), (Mat (D3 0 1 1) []). repeat split; try reflexivity; cbn; unfold two31; lia.
Qed.
Print Assumptions C03_empty_refuted.

(** ** C04 *)
Theorem C04_reshape : forall T (m : mat T) d, fits (mdim m) -> fits d ->
  (vol d = vol (mdim m) -> reshape d m = ORet (Mat d (mvals m)) tt /\ reshape (mdim m) (Mat d (mvals m)) = ORet m tt) /\
  (vol d <> vol (mdim m) -> reshape d m = OThrow m MatrixTransform).
Proof. exact reshape_spec. Qed.
Print Assumptions C04_reshape.

Example C04_ex : reshape (D3 4 1 3) ex_mat = ORet (Mat (D3 4 1 3) (mvals ex_mat)) tt /\
  reshape (D3 5 1 1) ex_mat = OThrow ex_mat MatrixTransform /\ fits (D3 4 1 3).
Proof. repeat split; try reflexivity; cbn; unfold two31; lia. Qed.

(** ** C05 *)
Theorem C05_history_partial : forall T (t0 : T) os m m' es,
  consistent m -> Forall op_sane os -> mhistory t0 os m = Some (m', es) -> ~ In LengthError es -> consistent m'.
Proof. exact history_consistent. Qed.
Print Assumptions C05_history_partial.

Example C05_ex : mhistory 0 [OpResize (D3 2 2 1); OpAssignVec [1; 2; 3; 4]; OpSetEntries [1; 2]; OpReshape (D3 4 1 1);
      OpAssign (mk_transpose Ref (l_ref (fun m => m)) (Mat (D3 4 1 1) [])); OpMoveFrom; OpResize (D3 1 1 1)] ex_mat
  = Some (Mat (D3 1 1 1) [0], [MatrixSize]) /\
  Forall op_sane [OpResize (D3 2 2 1); OpMoveTo ex_mat].
Proof. split; [reflexivity|]. repeat constructor. Qed.

(** Missing in C05: a resize to a negative element count throws after the dimensions were changed. *)
Theorem C05_resize_refuted : exists (m m' : mat Z) d,
  consistent m /\ resize 0 d m = OThrow m' LengthError /\ ~ consistent m'.
Proof.
  exists (Mat (D3 1 1 1) [7]), (Mat (D3 (-1) 1 1) [7]), (D3 (-1) 1 1).
  repeat split; unfold consistent, vol; cbn; lia.
Qed.
Print Assumptions C05_resize_refuted.

(** ** C06 *)
Theorem C06_resize : forall T (t0 : T) (m : mat T) d, fits d -> consistent m ->
  exists m', resize t0 d m = ORet m' tt /\ mdim m' = d /\ consistent m' /\
    (forall k, 0 <= k < vol d -> k < vol (mdim m) -> cell m' k = cell m k) /\
    (forall k, 0 <= k < vol d -> vol (mdim m) <= k -> cell m' k = Some t0).
Proof. exact resize_ok. Qed.
Print Assumptions C06_resize.

Theorem C06_resize_depth : forall T (t0 : T) (m : mat T) X Y Z1 Z2 f,
  fits (D3 X Y Z1) -> fits (D3 X Y Z2) -> is_mat m (D3 X Y Z1) f ->
  exists m', resize t0 (D3 X Y Z2) m = ORet m' tt /\
    is_mat m' (D3 X Y Z2) (fun x y z => if z <? Z1 then f x y z else t0).
Proof. exact resize_depth. Qed.
Print Assumptions C06_resize_depth.

Example C06_ex : resize 0 (D3 2 2 2) (Mat (D3 2 2 1) [1; 2; 3; 4]) = ORet (Mat (D3 2 2 2) [1; 2; 3; 4; 0; 0; 0; 0]) tt /\
  resize 0 (D3 1 2 1) (Mat (D3 2 2 1) [1; 2; 3; 4]) = ORet (Mat (D3 1 2 1) [1; 2]) tt /\ fits (D3 2 2 2).
Proof. repeat split; try reflexivity; cbn; unfold two31; lia. Qed.

(** ** C07 *)
Theorem C07_move : forall T (m : mat T),
  fst (mat_move m) = m /\
  mdim (snd (mat_move m)) = D3 0 0 0 /\ consistent (snd (mat_move m)) /\
  (forall S (body : Z -> dim3 -> M S unit) s, it_loop (mdim (snd (mat_move m))) body s = ORet s tt) /\
  (forall (t0 : T) d, fits d -> exists m', resize t0 d (snd (mat_move m)) = ORet m' tt /\ is_mat m' d (fun _ _ _ => t0)).
Proof. exact move_ok. Qed.
Print Assumptions C07_move.

Example C07_ex : mat_move ex_mat = (ex_mat, Mat (D3 0 0 0) []) /\ fits (D3 2 2 1).
Proof. split; [reflexivity|]. unfold fits, two31; cbn; lia. Qed.
