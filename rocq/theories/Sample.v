(** The number of a sample with the RAND_MAX of the GNU C library, 2^31 - 1. *)
From Coq Require Import ZArith Znumtheory Reals Lia Lra.
From Flocq Require Import Core.Core IEEE754.BinarySingleNaN.
From Verif Require Import Base Double Report ReportFacts.
Local Open Scope Z_scope.

(** 2^31 - 1 has no divisor from 2 to 46341, which is more than its square root. *)
Fixpoint undivided (n : nat) (d : Z) : bool := match n with O => true | S n' => if 2147483647 mod d =? 0 then false else undivided n' (d + 2) end.
Lemma undivided_ok : forall n d, undivided n d = true -> forall k, 0 <= k < Z.of_nat n -> 2147483647 mod (d + 2 * k) <> 0.
Proof.
  induction n as [|n IH]; intros d H k K; [lia|]. cbn [undivided] in H. destruct (Z.eqb_spec (2147483647 mod d) 0) as [E|E]; [discriminate|].
  destruct (Z.eq_dec k 0) as [->|N]; [rewrite Z.mul_0_r, Z.add_0_r; exact E|].
  specialize (IH (d + 2) H (k - 1) ltac:(lia)). replace (d + 2 * k) with (d + 2 + 2 * (k - 1)) by lia. exact IH.
Qed.
Lemma no_divisor : forall d, 2 <= d <= 46341 -> 2147483647 mod d <> 0.
Proof.
  intros d D E. assert (DV : (d | 2147483647)) by (apply Z.mod_divide; [lia|exact E]).
  destruct (Z.Even_or_Odd d) as [[k K]|[k K]].
  - destruct DV as [q Q]. lia.
  - assert (U : undivided (Z.to_nat 23170) 3 = true) by (vm_compute; reflexivity).
    apply (undivided_ok _ 3 U (k - 1)); [lia|]. replace (3 + 2 * (k - 1)) with d by lia. exact E.
Qed.
Lemma no_integer : forall r n, 0 < r < 2147483647 -> 1 <= n <= 2 ^ 20 -> (r * n) mod 2147483647 <> 0.
Proof.
  intros r n R N E. assert (DV : (2147483647 | n * r)) by (apply Z.mod_divide; [lia|rewrite Z.mul_comm; exact E]).
  set (g := Z.gcd 2147483647 n). assert (G1 : (g | 2147483647)) by apply Z.gcd_divide_l. assert (G2 : (g | n)) by apply Z.gcd_divide_r.
  assert (G0 : 0 <= g) by apply Z.gcd_nonneg. pose proof (Z.divide_pos_le g n ltac:(lia) G2) as GN. change (2 ^ 20) with 1048576 in N.
  destruct (Z.eq_dec g 1) as [E1|N1].
  - assert (D : (2147483647 | r)) by (apply (Z.gauss _ n); [exact DV|exact E1]). apply Z.divide_pos_le in D; lia.
  - destruct G1 as [h H]. assert (g <> 0) by (intro Z0; rewrite Z0 in H; lia).
    destruct (Z_le_dec g 46341) as [L|L]; [apply (no_divisor g); [lia|rewrite H; apply Z.mod_mul; lia]|].
    apply (no_divisor h); [split; nia|]. rewrite H, Z.mul_comm. apply Z.mod_mul. nia.
Qed.

(** The integer part of r n / RAND_MAX, for all values of rand() but RAND_MAX *)
Theorem sample_gnu : forall r n, 0 <= r < 2147483647 -> 1 <= n <= 2 ^ 20 -> sample_index 2147483647 r n = Ok (r * n / 2147483647).
Proof.
  intros r n R N. pose proof N as N'. change (2 ^ 20) with 1048576 in N'. destruct (Z.eq_dec r 0) as [->|R0].
  - destruct (product_ok 2147483647 0 n ltac:(lia) ltac:(lia) ltac:(lia)) as (_ & SI & _). rewrite SI. f_equal.
    unfold Rdiv. rewrite Rmult_0_l, round_0 by typeclasses eauto. rewrite Rmult_0_l, round_0 by typeclasses eauto. rewrite Ztrunc_IZR. reflexivity.
  - apply sample_index_exact; [lia|lia|lia|lia|lia|]. apply no_integer; lia.
Qed.
