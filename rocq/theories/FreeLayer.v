(** Layers whose matrices are written in another layout. *)
From Coq Require Import String ZArith List Bool Ascii Reals Lia.
From Flocq Require Import Core.Core IEEE754.BinarySingleNaN.
From Verif Require Import Base Dim Matrix View Num Expr Spec Iter MatFacts Batch Kernel Connected Float32 Pooling Activation Softmax Chars Model
  Double Stream StreamFacts Text TextFacts LayerText FreeText.
Import ListNotations.
Local Open Scope Z_scope.

(** A text of a matrix of size [d] with the given numerals *)
Definition mat_numerals (y : layout) (d : dim3) (u : Z -> Z -> Z -> numeral) : Prop := fits d /\ pos d /\ lay_ok y d /\
  forall i j k, inb d i j k -> u_ok (u i j k) /\ in_range (u_val (u i j k)) /\ y_num y i j k = u_text (u i j k).
(** The matrix of the nearest doubles *)
Definition mat_nearest (m : mat double) (d : dim3) (u : Z -> Z -> Z -> numeral) : Prop :=
  exists g, is_mat m d g /\ forall i j k, inb d i j k -> nearest (u_val (u i j k)) (minus (u_sign (u i j k))) (g i j k).

Lemma numerals_load : forall y d u m0 t, mat_numerals y d u ->
  exists m, mat_load get_double (m0, open_text (lay_text y d ++ t)) = ORet (m, open_text t) true /\ mat_nearest m d u.
Proof.
  intros y d u m0 t (F & P & L & H). destruct (free_doubles y d u m0 t F P L H) as (m & g & E & I & G). exists m. split; [exact E|]. exists g. auto.
Qed.

Lemma par_free : forall yw dw uw yb db ub p0 t, mat_numerals yw dw uw -> mat_numerals yb db ub ->
  exists w b, par_load get_double (p0, open_text (lit "weights" ++ nl ++ lay_text yw dw ++ lit "biases" ++ nl ++ lay_text yb db ++ t)) =
    ORet (Par w b (p_wg p0) (p_bg p0), open_text t) true /\ mat_nearest w dw uw /\ mat_nearest b db ub.
Proof.
  intros yw dw uw yb db ub p0 t W B. unfold par_load.
  erewrite bind_ok by (apply on_snd_ok; apply expect_void_ok).
  destruct (numerals_load yw dw uw (p_w p0) (lit "biases" ++ nl ++ lay_text yb db ++ t) W) as (w & EW & NW).
  erewrite bind_ok by (unfold par_w, on_field; rewrite EW; reflexivity).
  cbn [negb]. erewrite bind_ok by (apply on_snd_ok; apply expect_void_ok).
  destruct (numerals_load yb db ub (p_b p0) t B) as (b & EB & NB).
  exists w, b. split; [|split; assumption]. unfold par_b, on_field. cbn [p_b p_w]. rewrite EB. reflexivity.
Qed.

Theorem k_free : forall x y z n yw dw uw yb db ub k0 t, is_int x -> is_int y -> is_int z -> 0 <= n < two32 ->
  mat_numerals yw dw uw -> mat_numerals yb db ub ->
  exists w b, k_load get_double (k0, open_text (lit "Kernel" ++ nl ++ place (lit "x") (dec x) ++ place (lit "y") (dec y) ++ place (lit "z") (dec z) ++ place (lit "n") (dec n) ++
      lit "weights" ++ nl ++ lay_text yw dw ++ lit "biases" ++ nl ++ lay_text yb db ++ t)) =
    ORet (Kern (Par w b (p_wg (k_par k0)) (p_bg (k_par k0))) (D3 x y z) (k_stride k0) n, open_text t) true /\ mat_nearest w dw uw /\ mat_nearest b db ub.
Proof.
  intros x y z n yw dw uw yb db ub k0 t X Y Z1 NN W B. destruct (par_free yw dw uw yb db ub (k_par k0) t W B) as (w & b & E & NW & NB).
  exists w, b. split; [|split; assumption]. unfold k_load.
  erewrite bind_ok by (apply on_snd_ok; apply expect_void_ok).
  erewrite bind_ok by (apply on_snd_ok; apply expect_int_ok; exact X).
  erewrite bind_ok by apply upd_fst_ok.
  erewrite bind_ok by (apply on_snd_ok; apply expect_int_ok; exact Y).
  erewrite bind_ok by apply upd_fst_ok.
  erewrite bind_ok by (apply on_snd_ok; apply expect_int_ok; exact Z1).
  erewrite bind_ok by apply upd_fst_ok.
  erewrite bind_ok by (apply on_snd_ok; apply expect_unsigned_ok; exact NN).
  erewrite bind_ok by apply upd_fst_ok.
  unfold on_field. cbn [k_par]. rewrite E. reflexivity.
Qed.

Theorem c_free : forall x y yw dw uw yb db ub c0 t, is_int x -> is_int y -> mat_numerals yw dw uw -> mat_numerals yb db ub ->
  exists w b, c_load get_double (c0, open_text (lit "Connected Layer" ++ nl ++ place (lit "x") (dec x) ++ place (lit "y") (dec y) ++
      lit "weights" ++ nl ++ lay_text yw dw ++ lit "biases" ++ nl ++ lay_text yb db ++ t)) =
    ORet (Conn (Par w b (p_wg (c_par c0)) (p_bg (c_par c0))) (c_in c0) true, open_text t) true /\ mat_nearest w dw uw /\ mat_nearest b db ub.
Proof.
  intros x y yw dw uw yb db ub c0 t X Y W B. destruct (par_free yw dw uw yb db ub (c_par c0) t W B) as (w & b & E & NW & NB).
  exists w, b. split; [|split; assumption]. unfold c_load.
  erewrite bind_ok by (apply on_snd_ok; apply expect_void_ok).
  erewrite bind_ok by (apply on_snd_ok; apply expect_int_ok; exact X).
  erewrite bind_ok by (apply on_snd_ok; apply expect_int_ok; exact Y).
  erewrite bind_ok by (unfold on_field; rewrite E; reflexivity). reflexivity.
Qed.

(** ** Layers whose matrices are damaged: the element (x0, y0, z0) cannot be read. *)
Definition cut_text (y : layout) (d : dim3) (x0 y0 z0 : Z) (w : text) : text :=
  y_head y ++ cat z0 (lay_slice y d) ++ cat x0 (lay_row y d z0) ++ cat y0 (fun j => y_sp y x0 j z0 ++ y_num y x0 j z0) ++ w.
Definition before (x0 y0 z0 i j k : Z) : Prop := k < z0 \/ (k = z0 /\ (i < x0 \/ (i = x0 /\ j < y0))).
(** The elements before that one hold the nearest doubles. *)
Definition mat_begun (m : mat double) (d : dim3) (u : Z -> Z -> Z -> numeral) (x0 y0 z0 : Z) : Prop :=
  exists h, is_mat m d h /\ forall i j k, inb d i j k -> before x0 y0 z0 i j k -> nearest (u_val (u i j k)) (minus (u_sign (u i j k))) (h i j k).
Lemma numerals_stop : forall y d u x0 y0 z0 w m0, mat_numerals y d u -> inb d x0 y0 z0 -> no_double w -> (0 < y0 -> begun w) ->
  exists m s, mat_load get_double (m0, open_text (cut_text y d x0 y0 z0 w)) = ORet (m, s) false /\ mat_begun m d u x0 y0 z0.
Proof.
  intros y d u x0 y0 z0 w m0 (F & P & L & H) I N B. destruct (free_doubles_stop y d u x0 y0 z0 w m0 F P L I H N B) as (m & s & h & E & M & Q).
  exists m, s. split; [exact E|]. exists h. auto.
Qed.

Lemma par_stop_w : forall y d u x0 y0 z0 w p0, mat_numerals y d u -> inb d x0 y0 z0 -> no_double w -> (0 < y0 -> begun w) ->
  exists m s, par_load get_double (p0, open_text (lit "weights" ++ nl ++ cut_text y d x0 y0 z0 w)) = ORet (Par m (p_b p0) (p_wg p0) (p_bg p0), s) false /\ mat_begun m d u x0 y0 z0.
Proof.
  intros y d u x0 y0 z0 w p0 H I N B. destruct (numerals_stop y d u x0 y0 z0 w (p_w p0) H I N B) as (m & s & E & Q). exists m, s. split; [|exact Q].
  unfold par_load. erewrite bind_ok by (apply on_snd_ok; apply expect_void_ok). erewrite bind_ok by (unfold par_w, on_field; rewrite E; reflexivity). reflexivity.
Qed.
Lemma par_stop_b : forall yw dw uw y d u x0 y0 z0 w p0, mat_numerals yw dw uw -> mat_numerals y d u -> inb d x0 y0 z0 -> no_double w -> (0 < y0 -> begun w) ->
  exists v m s, par_load get_double (p0, open_text (lit "weights" ++ nl ++ lay_text yw dw ++ lit "biases" ++ nl ++ cut_text y d x0 y0 z0 w)) = ORet (Par v m (p_wg p0) (p_bg p0), s) false /\
    mat_nearest v dw uw /\ mat_begun m d u x0 y0 z0.
Proof.
  intros yw dw uw y d u x0 y0 z0 w p0 W H I N B. destruct (numerals_stop y d u x0 y0 z0 w (p_b p0) H I N B) as (m & s & E & Q).
  destruct (numerals_load yw dw uw (p_w p0) (lit "biases" ++ nl ++ cut_text y d x0 y0 z0 w) W) as (v & EW & NW). exists v, m, s. split; [|split; assumption].
  unfold par_load. erewrite bind_ok by (apply on_snd_ok; apply expect_void_ok). erewrite bind_ok by (unfold par_w, on_field; rewrite EW; reflexivity).
  cbn [negb]. erewrite bind_ok by (apply on_snd_ok; apply expect_void_ok). unfold par_b, on_field. cbn [p_b p_w]. rewrite E. reflexivity.
Qed.
Lemma k_load_par : forall x y z n k0 t p s b, is_int x -> is_int y -> is_int z -> 0 <= n < two32 -> par_load get_double (k_par k0, open_text t) = ORet (p, s) b ->
  k_load get_double (k0, open_text (lit "Kernel" ++ nl ++ place (lit "x") (dec x) ++ place (lit "y") (dec y) ++ place (lit "z") (dec z) ++ place (lit "n") (dec n) ++ t)) =
    ORet (Kern p (D3 x y z) (k_stride k0) n, s) b.
Proof.
  intros x y z n k0 t p s b X Y Z1 NN E. unfold k_load.
  erewrite bind_ok by (apply on_snd_ok; apply expect_void_ok).
  erewrite bind_ok by (apply on_snd_ok; apply expect_int_ok; exact X).
  erewrite bind_ok by apply upd_fst_ok.
  erewrite bind_ok by (apply on_snd_ok; apply expect_int_ok; exact Y).
  erewrite bind_ok by apply upd_fst_ok.
  erewrite bind_ok by (apply on_snd_ok; apply expect_int_ok; exact Z1).
  erewrite bind_ok by apply upd_fst_ok.
  erewrite bind_ok by (apply on_snd_ok; apply expect_unsigned_ok; exact NN).
  erewrite bind_ok by apply upd_fst_ok.
  unfold on_field. cbn [k_par]. rewrite E. reflexivity.
Qed.
Lemma c_load_par : forall x y c0 t p s, is_int x -> is_int y -> par_load get_double (c_par c0, open_text t) = ORet (p, s) false ->
  c_load get_double (c0, open_text (lit "Connected Layer" ++ nl ++ place (lit "x") (dec x) ++ place (lit "y") (dec y) ++ t)) = ORet (Conn p (c_in c0) (c_ready c0), s) false.
Proof.
  intros x y c0 t p s X Y E. unfold c_load.
  erewrite bind_ok by (apply on_snd_ok; apply expect_void_ok).
  erewrite bind_ok by (apply on_snd_ok; apply expect_int_ok; exact X).
  erewrite bind_ok by (apply on_snd_ok; apply expect_int_ok; exact Y).
  erewrite bind_ok by (unfold on_field; rewrite E; reflexivity). reflexivity.
Qed.

(** Damaged weights: false, the biases are not changed, and a fully connected layer is not marked as initialised. *)
Theorem layer_stop_w : forall yw dw uw x0 y0 z0 w, mat_numerals yw dw uw -> inb dw x0 y0 z0 -> no_double w -> (0 < y0 -> begun w) ->
  (forall x y z n k0, is_int x -> is_int y -> is_int z -> 0 <= n < two32 ->
    exists m s, k_load get_double (k0, open_text (lit "Kernel" ++ nl ++ place (lit "x") (dec x) ++ place (lit "y") (dec y) ++ place (lit "z") (dec z) ++ place (lit "n") (dec n) ++
        lit "weights" ++ nl ++ cut_text yw dw x0 y0 z0 w)) =
      ORet (Kern (Par m (p_b (k_par k0)) (p_wg (k_par k0)) (p_bg (k_par k0))) (D3 x y z) (k_stride k0) n, s) false /\ mat_begun m dw uw x0 y0 z0) /\
  (forall x y c0, is_int x -> is_int y ->
    exists m s, c_load get_double (c0, open_text (lit "Connected Layer" ++ nl ++ place (lit "x") (dec x) ++ place (lit "y") (dec y) ++
        lit "weights" ++ nl ++ cut_text yw dw x0 y0 z0 w)) =
      ORet (Conn (Par m (p_b (c_par c0)) (p_wg (c_par c0)) (p_bg (c_par c0))) (c_in c0) (c_ready c0), s) false /\ mat_begun m dw uw x0 y0 z0).
Proof.
  intros yw dw uw x0 y0 z0 w H I N B. split.
  - intros x y z n k0 X Y Z1 NN. destruct (par_stop_w yw dw uw x0 y0 z0 w (k_par k0) H I N B) as (m & s & E & Q). exists m, s. split; [|exact Q].
    exact (k_load_par x y z n k0 _ _ _ _ X Y Z1 NN E).
  - intros x y c0 X Y. destruct (par_stop_w yw dw uw x0 y0 z0 w (c_par c0) H I N B) as (m & s & E & Q). exists m, s. split; [|exact Q].
    exact (c_load_par x y c0 _ _ _ X Y E).
Qed.
(** Damaged biases *)
Theorem layer_stop_b : forall yw dw uw yb db ub x0 y0 z0 w, mat_numerals yw dw uw -> mat_numerals yb db ub -> inb db x0 y0 z0 -> no_double w -> (0 < y0 -> begun w) ->
  (forall x y z n k0, is_int x -> is_int y -> is_int z -> 0 <= n < two32 ->
    exists v m s, k_load get_double (k0, open_text (lit "Kernel" ++ nl ++ place (lit "x") (dec x) ++ place (lit "y") (dec y) ++ place (lit "z") (dec z) ++ place (lit "n") (dec n) ++
        lit "weights" ++ nl ++ lay_text yw dw ++ lit "biases" ++ nl ++ cut_text yb db x0 y0 z0 w)) =
      ORet (Kern (Par v m (p_wg (k_par k0)) (p_bg (k_par k0))) (D3 x y z) (k_stride k0) n, s) false /\ mat_nearest v dw uw /\ mat_begun m db ub x0 y0 z0) /\
  (forall x y c0, is_int x -> is_int y ->
    exists v m s, c_load get_double (c0, open_text (lit "Connected Layer" ++ nl ++ place (lit "x") (dec x) ++ place (lit "y") (dec y) ++
        lit "weights" ++ nl ++ lay_text yw dw ++ lit "biases" ++ nl ++ cut_text yb db x0 y0 z0 w)) =
      ORet (Conn (Par v m (p_wg (c_par c0)) (p_bg (c_par c0))) (c_in c0) (c_ready c0), s) false /\ mat_nearest v dw uw /\ mat_begun m db ub x0 y0 z0).
Proof.
  intros yw dw uw yb db ub x0 y0 z0 w W H I N B. split.
  - intros x y z n k0 X Y Z1 NN. destruct (par_stop_b yw dw uw yb db ub x0 y0 z0 w (k_par k0) W H I N B) as (v & m & s & E & Q1 & Q). exists v, m, s. split; [|auto].
    exact (k_load_par x y z n k0 _ _ _ _ X Y Z1 NN E).
  - intros x y c0 X Y. destruct (par_stop_b yw dw uw yb db ub x0 y0 z0 w (c_par c0) W H I N B) as (v & m & s & E & Q1 & Q). exists v, m, s. split; [|auto].
    exact (c_load_par x y c0 _ _ _ X Y E).
Qed.

(** ** clearLine: the rest of the line is skipped. Without another line break everything is skipped and eofbit is set. *)
Lemma ignore_limit : forall a t, ~ In newline a -> ignore_nl (Z.of_nat (length a)) (a ++ t) = (t, false).
Proof.
  induction a as [|c a IH]; intros t H; [destruct t; reflexivity|]. cbn [app length ignore_nl]. destruct (Z.leb_spec (Z.of_nat (S (length a))) 0) as [Q|_]; [lia|].
  destruct (Ascii.eqb_spec c newline) as [->|N]; [exfalso; apply H; left; reflexivity|]. replace (Z.of_nat (S (length a)) - 1) with (Z.of_nat (length a)) by lia.
  apply IH. intros I. apply H. right. exact I.
Qed.
Lemma ignore_rest : forall a n, forallb (fun c => negb (Ascii.eqb c newline)) a = true -> Z.of_nat (length a) < n -> ignore_nl n a = ([], true).
Proof.
  induction a as [|c a IH]; intros n A L; cbn [ignore_nl]; destruct (n <=? 0) eqn:Q; try (cbn [length] in L; lia); [reflexivity|].
  cbn [forallb] in A. apply andb_true_iff in A. destruct A as (A1 & A2). apply negb_true_iff in A1. rewrite A1. apply IH; [exact A2|]. cbn [length] in L. lia.
Qed.
Theorem clear_line_spec : forall a t, ~ In newline a -> Z.of_nat (length a) < two31 - 1 ->
  clear_line (open_text (a ++ nl ++ t)) = open_text t /\ clear_line (open_text a) = IS [] true false.
Proof.
  intros a t A L. assert (A' : forallb (fun c => negb (Ascii.eqb c newline)) a = true).
  { apply forallb_forall. intros c C. apply negb_true_iff. apply Ascii.eqb_neq. intros ->. contradiction. }
  split; [apply clear_line_ok; assumption|]. unfold clear_line, open_text, sentry. cbn [good eofb failb negb andb rest]. rewrite ignore_rest by assumption. reflexivity.
Qed.
