(** The text of a matrix, and reading it back. *)
From Coq Require Import String ZArith List Bool Ascii Lia.
From Verif Require Import Base Dim Matrix View Num Expr Spec Iter MatFacts Batch Chars Double Stream StreamFacts Text.
Import ListNotations.
Local Open Scope Z_scope.

Lemma bind_ok : forall {S A B} (m : M S A) (k : A -> M S B) s s' a, m s = ORet s' a -> bind m k s = k a s'.
Proof. intros. unfold bind. rewrite H. reflexivity. Qed.
Lemma on_snd_ok : forall {A B C} (c : M B C) (a : A) b b' r, c b = ORet b' r -> on_snd c (a, b) = ORet (a, b') r.
Proof. intros. unfold on_snd. rewrite H. reflexivity. Qed.
Lemma on_fst_ok : forall {A B C} (c : M A C) a (b : B) a' r, c a = ORet a' r -> on_fst c (a, b) = ORet (a', b) r.
Proof. intros. unfold on_fst. rewrite H. reflexivity. Qed.

(** The texts g a, g (a+1), ..., one after the other *)
Fixpoint cat_n (n : nat) (a : Z) (g : Z -> text) : text :=
  match n with O => [] | S n' => g a ++ cat_n n' (a + 1) g end.
Definition cat (n : Z) (g : Z -> text) : text := cat_n (Z.to_nat n) 0 g.

Lemma mfor_n_emit : forall n a body (g : Z -> text) o,
  (forall i o, a <= i < a + Z.of_nat n -> body i o = ORet (o ++ g i) tt) ->
  mfor_n n a body o = ORet (o ++ cat_n n a g) tt.
Proof.
  induction n; intros a body g o H.
  - cbn. rewrite app_nil_r. reflexivity.
  - cbn [mfor_n cat_n]. rewrite (bind_ok _ _ _ (o ++ g a) tt) by (apply H; lia).
    rewrite (IHn (a + 1) body g) by (intros; apply H; lia). rewrite app_assoc. reflexivity.
Qed.
Lemma mfor_emit : forall n body (g : Z -> text) o,
  (forall i o, 0 <= i < n -> body i o = ORet (o ++ g i) tt) -> mfor n body o = ORet (o ++ cat n g) tt.
Proof. intros. unfold mfor, cat. apply mfor_n_emit. intros. apply H. lia. Qed.

(** A loop that reads texts one after the other; before each text there may be white space, after each [aft] is left. *)
Lemma bfor_n_read : forall {A} n (P : Z -> A -> Prop) body (g : Z -> text) aft, spaces aft ->
  forall a, (forall i st sp t, a <= i < a + Z.of_nat n -> spaces sp -> P i st ->
    exists st', body i (st, open_text (sp ++ g i ++ t)) = ORet (st', open_text (aft ++ t)) true /\ P (i + 1) st') ->
  forall st sp t, spaces sp -> P a st ->
  exists st', bfor_n n a body (st, open_text (sp ++ cat_n n a g ++ t)) =
              ORet (st', open_text ((match n with O => sp | _ => aft end) ++ t)) true /\ P (a + Z.of_nat n) st'.
Proof.
  induction n; intros P body g aft AFT a H st sp t SP PA.
  - exists st. split; [reflexivity|]. replace (a + Z.of_nat 0) with a by lia. assumption.
  - cbn [bfor_n cat_n]. rewrite <- (app_assoc (g a)).
    destruct (H a st sp (cat_n n (a + 1) g ++ t) ltac:(lia) SP PA) as [s1 [E1 P1]].
    unfold bind. rewrite E1.
    destruct (IHn P body g aft AFT (a + 1)) with (st := s1) (sp := aft) (t := t) as [s2 [E2 P2]]; [|assumption|assumption|].
    + intros. apply H; [lia|assumption|assumption].
    + exists s2. rewrite E2. split; [destruct n; reflexivity|]. replace (a + Z.of_nat (S n)) with (a + 1 + Z.of_nat n) by lia. assumption.
Qed.
Lemma bfor_read : forall {A} n (P : Z -> A -> Prop) body (g : Z -> text) aft, spaces aft -> 1 <= n ->
  (forall i st sp t, 0 <= i < n -> spaces sp -> P i st ->
    exists st', body i (st, open_text (sp ++ g i ++ t)) = ORet (st', open_text (aft ++ t)) true /\ P (i + 1) st') ->
  forall st sp t, spaces sp -> P 0 st ->
  exists st', bfor n body (st, open_text (sp ++ cat n g ++ t)) = ORet (st', open_text (aft ++ t)) true /\ P n st'.
Proof.
  intros A n P body g aft AFT N H st sp t SP P0. unfold bfor, cat.
  destruct (bfor_n_read (Z.to_nat n) P body g aft AFT 0) with (st := st) (sp := sp) (t := t) as [s' [E Q]]; [|assumption|assumption|].
  - intros. apply H; [lia|assumption|assumption].
  - exists s'. rewrite E. split; [destruct (Z.to_nat n) eqn:Z0; [lia|reflexivity]|]. replace (0 + Z.of_nat (Z.to_nat n)) with n in Q by lia. assumption.
Qed.

Section Matrices.
Context {T : Type} {N : Num T} (wr : T -> text) (rd : istream -> option T * istream).

(** The lines of a matrix with elements [f]: for every slice the rows and an empty line *)
Definition elem_text (v : T) : text := setw16 (wr v) ++ lit " ".
Definition row_text (d : dim3) (f : Z -> Z -> Z -> T) (z x : Z) : text := cat (dy d) (fun y => elem_text (f x y z)) ++ nl.
Definition slice_text (d : dim3) (f : Z -> Z -> Z -> T) (z : Z) : text := cat (dx d) (row_text d f z) ++ nl.
Definition rows_text (d : dim3) (f : Z -> Z -> Z -> T) : text := cat (dz d) (slice_text d f).
Definition head_text (d : dim3) : text := dec (dx d) ++ lit " " ++ dec (dy d) ++ lit " " ++ dec (dz d) ++ nl.

Lemma mat_text_ok : forall m d f, is_mat m d f -> fits d -> mat_text wr m = Ok (head_text d ++ rows_text d f).
Proof.
  intros m d f H F. unfold mat_text. destruct H as [E H]. pose proof (conj E H) as IM. change (is_mat m d f) in IM. rewrite E.
  rewrite (bind_ok _ _ _ (head_text d) tt) by reflexivity.
  rewrite (mfor_emit (dz d) _ (slice_text d f)).
  - cbn [run_state]. reflexivity.
  - intros z o Z1. unfold bind at 1. rewrite (mfor_emit (dx d) _ (row_text d f z)).
    + unfold emit, slice_text. rewrite app_assoc. reflexivity.
    + intros x o' X1. unfold bind at 1. rewrite (mfor_emit (dy d) _ (fun y => elem_text (f x y z))).
      * unfold emit, row_text. rewrite app_assoc. reflexivity.
      * intros y o2 Y1. unfold bind, lift. rewrite (is_mat_read m d f x y z IM F) by (split; [|split]; assumption). reflexivity.
Qed.

(** Elements that are read back as [back x] *)
Definition codec (P : T -> Prop) (back : T -> T) : Prop := forall x, P x -> forall sp c t, spaces sp -> is_space c = true ->
  rd (open_text (sp ++ wr x ++ c :: t)) = (Some (back x), open_text (c :: t)).

Lemma resize_ok : forall (m0 : mat T) d, fits d -> exists m h, resize n0 d m0 = ORet m tt /\ is_mat m d h.
Proof.
  intros m0 d F. unfold resize. rewrite int_prod_fits by assumption. pose proof (fits_vol d F) as V.
  unfold vec_resize. destruct (vol d <? 0) eqn:Q; [lia|].
  set (l := firstn _ _ ++ _). assert (L : Z.of_nat (length l) = vol d).
  { subst l. rewrite app_length, firstn_length, repeat_length. lia. }
  exists (Mat d l), (fun x y z => nth (Z.to_nat (lin d x y z)) l n0). split; [reflexivity|].
  split; [reflexivity|]. split; [assumption|]. intros x y z I. pose proof (lin_range d x y z I) as R. unfold cell. cbn [mvals].
  fold (lin d x y z). destruct (lin d x y z <? 0) eqn:Q2; [lia|]. apply nth_error_nth'. lia.
Qed.

(** Everything before (z, x, y) in the order of the text is already read *)
Definition done (d : dim3) (g : Z -> Z -> Z -> T) (z x y : Z) (m : mat T) : Prop :=
  exists h, is_mat m d h /\ forall x' y' z', inb d x' y' z' ->
    (z' < z \/ (z' = z /\ (x' < x \/ (x' = x /\ y' < y)))) -> h x' y' z' = g x' y' z'.

Lemma mat_load_ok : forall P back m0 d f sp t, codec P back -> fits d -> pos d ->
  (forall x y z, inb d x y z -> P (f x y z)) -> spaces sp ->
  exists m, mat_load rd (m0, open_text (sp ++ head_text d ++ rows_text d f ++ t)) = ORet (m, open_text t) true
    /\ is_mat m d (fun x y z => back (f x y z)).
Proof.
  intros P back m0 d f sp t CO F PD HP SP. pose proof (fits_dims d F) as [DX [DY DZ]].
  unfold mat_load, head_text. rewrite <- !app_assoc.
  erewrite bind_ok by (apply on_snd_ok; unfold stm; rewrite get_int_dec by (try assumption; try reflexivity; lia); reflexivity).
  cbn [is_nil lit app list_ascii_of_string]. erewrite bind_ok.
  2: { apply on_snd_ok. unfold stm.
       change (IS (" "%char :: ?u) false false) with (open_text (lit " " ++ u)).
       rewrite (get_int_dec (lit " ") (dy d)); [reflexivity|reflexivity|lia|reflexivity]. }
  cbn [is_nil]. erewrite bind_ok.
  2: { apply on_snd_ok. unfold stm.
       change (IS (" "%char :: ?u) false false) with (open_text (lit " " ++ u)).
       rewrite (get_int_dec (lit " ") (dz d)); [reflexivity|reflexivity|lia|reflexivity]. }
  cbn [nl app is_nil]. erewrite (bind_ok (on_snd mget)) by (apply on_snd_ok; reflexivity). cbn [failb].
  destruct d as [X Y Z0]. cbn [dx dy dz] in *. set (d := D3 X Y Z0) in *.
  destruct (resize_ok m0 d F) as [m1 [h1 [R1 I1]]].
  rewrite (bind_ok _ _ _ _ _ (on_fst_ok _ _ _ _ _ R1)).
  change (IS (newline :: rows_text d f ++ t) false false) with (open_text (nl ++ rows_text d f ++ t)).
  set (g := fun x y z => back (f x y z)).
  assert (ELEM : forall z x, 0 <= z < Z0 -> 0 <= x < X -> forall y m sp t, 0 <= y < Y -> spaces sp -> done d g z x y m ->
    exists m', read_elem rd (D3 x y z) (m, open_text (sp ++ elem_text (f x y z) ++ t)) = ORet (m', open_text (lit " " ++ t)) true
      /\ done d g z x (y + 1) m').
  { intros z x HZ HX y m sp' t' HY SP' [h [IM HD]].
    assert (I : inb d x y z) by (split; [|split]; assumption).
    destruct (mwrite_is m d h x y z (back (f x y z)) IM F I) as [m' [W IM']].
    exists m'. split.
    - unfold read_elem. erewrite (bind_ok mget) by reflexivity. cbn [fst].
      erewrite bind_ok by (unfold lift; rewrite (is_mat_read m d h x y z IM F I); reflexivity).
      unfold elem_text, setw16. rewrite <- !app_assoc. rewrite (app_assoc sp').
      erewrite bind_ok.
      2: { apply on_snd_ok. unfold stm. cbn [lit app list_ascii_of_string].
           rewrite (CO (f x y z) (HP x y z I)); [reflexivity|apply spaces_app; [assumption|apply spaces_repeat]|reflexivity]. }
      cbn beta iota. rewrite (bind_ok _ _ _ _ _ (on_fst_ok _ _ _ _ _ W)). reflexivity.
    - exists (fupd h x y z (back (f x y z))). split; [assumption|]. intros x' y' z' I' C.
      destruct (Z.eq_dec x' x) as [->|NX]; [destruct (Z.eq_dec y' y) as [->|NY]; [destruct (Z.eq_dec z' z) as [->|NZ]|]|].
      + rewrite fupd_eq. reflexivity.
      + rewrite fupd_neq by congruence. apply HD; [assumption|lia].
      + rewrite fupd_neq by congruence. apply HD; [assumption|lia].
      + rewrite fupd_neq by congruence. apply HD; [assumption|lia]. }
  assert (ROW : forall z, 0 <= z < Z0 -> forall x m sp t, 0 <= x < X -> spaces sp -> done d g z x 0 m ->
    exists m', (b <- bfor Y (fun y => read_elem rd (D3 x y z)) ;; if b : bool then skip_line else ret false)%st
                 (m, open_text (sp ++ row_text d f z x ++ t)) = ORet (m', open_text ([] ++ t)) true
      /\ done d g z (x + 1) 0 m').
  { intros z HZ x m sp' t' HX SP' D.
    destruct (bfor_read Y (done d g z x) (fun y => read_elem rd (D3 x y z)) (fun y => elem_text (f x y z)) (lit " ") eq_refl)
      with (st := m) (sp := sp') (t := nl ++ t') as [m' [E D']].
    - destruct PD. cbn in *. lia.
    - intros. apply ELEM; assumption.
    - assumption.
    - assumption.
    - exists m'. unfold row_text. rewrite <- app_assoc. cbn [dy d].
      rewrite (bind_ok _ _ _ _ _ E). cbn iota. unfold skip_line. erewrite on_snd_ok; [|unfold stm; rewrite clear_line_sp; reflexivity].
      split; [reflexivity|]. destruct D' as [h [IM HD]]. exists h. split; [assumption|].
      intros x' y' z' I' C. apply HD; [assumption|]. destruct I' as [I1' [I2' I3']]. cbn in *. lia. }
  assert (SLICE : forall z m sp t, 0 <= z < Z0 -> spaces sp -> done d g z 0 0 m ->
    exists m', (b <- bfor X (fun x => b <- bfor Y (fun y => read_elem rd (D3 x y z)) ;; if b : bool then skip_line else ret false) ;;
                if b : bool then skip_line else ret false)%st
                 (m, open_text (sp ++ slice_text d f z ++ t)) = ORet (m', open_text ([] ++ t)) true
      /\ done d g (z + 1) 0 0 m').
  { intros z m sp' t' HZ SP' D.
    destruct (bfor_read X (fun x => done d g z x 0)
                (fun x => b <- bfor Y (fun y => read_elem rd (D3 x y z)) ;; if b : bool then skip_line else ret false)%st
                (row_text d f z) [] eq_refl)
      with (st := m) (sp := sp') (t := nl ++ t') as [m' [E D']].
    - destruct PD. cbn in *. lia.
    - intros. apply ROW; assumption.
    - assumption.
    - assumption.
    - exists m'. unfold slice_text. rewrite <- app_assoc. cbn [dx d].
      rewrite (bind_ok _ _ _ _ _ E). cbn iota. unfold skip_line. erewrite on_snd_ok; [|unfold stm; cbn [app]; rewrite (clear_line_nl t'); reflexivity].
      split; [reflexivity|]. destruct D' as [h [IM HD]]. exists h. split; [assumption|].
      intros x' y' z' I' C. apply HD; [assumption|]. destruct I' as [I1' [I2' I3']]. cbn in *. lia. }
  destruct (bfor_read Z0 (fun z => done d g z 0 0)
              (fun z => b <- bfor X (fun x => b <- bfor Y (fun y => read_elem rd (D3 x y z)) ;; if b : bool then skip_line else ret false) ;;
                if b : bool then skip_line else ret false)%st (slice_text d f) [] eq_refl)
    with (st := m1) (sp := nl) (t := t) as [m' [E D']].
  - destruct PD as [_ [_ ?]]. assumption.
  - intros. apply SLICE; assumption.
  - reflexivity.
  - exists h1. split; [assumption|]. intros x' y' z' [I2 [I3 I4]] C. cbn in *. lia.
  - exists m'. split; [exact E|]. destruct D' as [h [IM HD]]. apply is_mat_ext with h; [assumption|].
    intros x y z I. apply HD; [assumption|]. left. destruct I as [_ [_ I]]. apply I.
Qed.
End Matrices.
