(** Property C98: matrices in texts of another layout. *)
From Coq Require Import String ZArith List Bool Ascii Reals Lia Lra.
From Flocq Require Import Core.Core IEEE754.BinarySingleNaN.
From Verif Require Import Base Dim Matrix View Num Expr Spec Chars Double Stream Text TextFacts Batch Kernel Connected StreamFacts LayerText FreeText FreeLayer.
Import ListNotations.
Local Open Scope Z_scope.

(** ** C98 *)
(** [lay_text y d]: the sizes; before each number white space, which is not needed before a sign; after the last number of a row and after the last row of a slice
    anything up to the end of the line. [u_text]: sign, digits, point, digits, exponent. [nearest]: the nearest double. *)
Theorem C98_load : forall y d (u : Z -> Z -> Z -> numeral) m0 t, fits d -> pos d -> lay_ok y d ->
  (forall i j k, inb d i j k -> u_ok (u i j k) /\ in_range (u_val (u i j k)) /\ y_num y i j k = u_text (u i j k)) ->
  exists m g, mat_load get_double (m0, open_text (lay_text y d ++ t)) = ORet (m, open_text t) true /\ is_mat m d g /\
    forall i j k, inb d i j k -> nearest (u_val (u i j k)) (minus (u_sign (u i j k))) (g i j k).
Proof. exact free_doubles. Qed.
Print Assumptions C98_load.

(** If the number at (x0, y0, z0) cannot be read ([no_double], see [C98_malformed]), loading fails; the numbers before it are stored. *)
Theorem C98_stop : forall y d (u : Z -> Z -> Z -> numeral) x0 y0 z0 w m0, fits d -> pos d -> lay_ok y d -> inb d x0 y0 z0 ->
  (forall i j k, inb d i j k -> u_ok (u i j k) /\ in_range (u_val (u i j k)) /\ y_num y i j k = u_text (u i j k)) ->
  no_double w -> (0 < y0 -> begun w) ->
  exists m' s' h, mat_load get_double (m0, open_text (y_head y ++ cat z0 (lay_slice y d) ++ cat x0 (lay_row y d z0) ++ cat y0 (fun j => y_sp y x0 j z0 ++ y_num y x0 j z0) ++ w)) =
    ORet (m', s') false /\ is_mat m' d h /\
    forall i j k, inb d i j k -> k < z0 \/ (k = z0 /\ (i < x0 \/ (i = x0 /\ j < y0))) -> nearest (u_val (u i j k)) (minus (u_sign (u i j k))) (h i j k).
Proof. exact free_doubles_stop. Qed.
Print Assumptions C98_stop.

(** One number. [ended u t]: [t] is empty or starts with a character that does not continue the number. *)
Theorem C98_number : forall u sp t, u_ok u -> white sp -> ended u t -> in_range (u_val u) ->
  exists x, get_double (open_text (sp ++ u_text u ++ t)) = (Some x, IS t (is_nil t) false) /\ nearest (u_val u) (minus (u_sign u)) x.
Proof. exact get_numeral. Qed.
Print Assumptions C98_number.
Theorem C98_too_large : forall u sp t, u_ok u -> white sp -> ended u t -> ~ in_range (u_val u) ->
  get_double (open_text (sp ++ u_text u ++ t)) = (Some (double_max (minus (u_sign u))), IS t (is_nil t) true).
Proof. exact get_too_large. Qed.
Print Assumptions C98_too_large.
Theorem C98_no_number : forall sp c t, white sp -> not_number c ->
  get_double (open_text (sp ++ c :: t)) = (Some (B754_zero false), IS (c :: t) false true).
Proof. exact get_garbage. Qed.
Print Assumptions C98_no_number.
(** A sign or a point without digits, an exponent without digits *)
Theorem C98_no_digits : forall sp s p t, white sp -> is_sign s -> p = [] \/ p = lit "." -> s ++ p <> [] -> no_digit t ->
  (p = [] -> forall r, t <> "."%char :: r) -> get_double (open_text (sp ++ s ++ p ++ t)) = (Some (B754_zero false), IS t (is_nil t) true).
Proof. exact get_bare. Qed.
Print Assumptions C98_no_digits.
Theorem C98_no_exponent : forall sp u e s t, white sp -> u_ok u -> u_exp u = None -> e = lit "e" \/ e = lit "E" -> is_sign s -> no_digit t ->
  (s = [] -> forall c q, t = c :: q -> c <> "+"%char /\ c <> "-"%char) ->
  get_double (open_text (sp ++ u_text u ++ e ++ s ++ t)) = (Some (B754_zero false), IS t (is_nil t) true).
Proof. exact get_bare_exp. Qed.
Print Assumptions C98_no_exponent.
(** Reading a number fails exactly for the texts in [no_double]: the end of the text, a character that starts no number, a sign
    or a point without digits, an exponent without digits, a number that is too large. In all others it is a number. *)
Theorem C98_malformed : forall w, failb (snd (get_double (open_text w))) = true <-> no_double w.
Proof. exact double_fails. Qed.
Print Assumptions C98_malformed.
Theorem C98_number_or_not : forall w, no_double w \/
  exists sp u t, w = sp ++ u_text u ++ t /\ white sp /\ u_ok u /\ ended u t /\ in_range (u_val u).
Proof. intro w. destruct (double_cases w) as [D|(u & t & sp & H)]; [left; exact D|right; exists sp, u, t; exact H]. Qed.
Print Assumptions C98_number_or_not.
(** Two numbers without white space between them, and a number with something behind it *)
Example C98_adjacent_ex :
  match mat_load get_double (mat_empty, open_text (lit "2 2 1" ++ nl ++ lit "1-2.5.5" ++ nl ++ lit "3e0+4e0e1" ++ nl ++ nl ++ lit "x")) with
  | ORet (m, s) b => b = true /\ rest s = lit "x" /\ map (fun x => Bcompare x (double_of_dec true 2 0)) (mvals m) = [Some Gt; Some Gt; Some Lt; Some Gt]
  | _ => False end /\
  snd (get_double (open_text (lit "1e x"))) = IS (lit " x") false true /\ snd (get_double (open_text (lit "-.e5"))) = IS (lit "e5") false true.
Proof. vm_compute. repeat split. Qed.
Theorem C98_size : forall v u sp t, int_text v u -> white sp -> no_digit t -> - two31 <= v < two31 ->
  get_int (open_text (sp ++ u ++ t)) = (Some v, IS t (is_nil t) false).
Proof. exact get_int_numeral. Qed.
Print Assumptions C98_size.
(** Reading a size fails exactly at the end of the text, without digits, and for numbers that do not fit int. *)
Theorem C98_size_malformed : forall w, failb (snd (get_int (open_text w))) = true <-> no_int w.
Proof. exact int_fails. Qed.
Print Assumptions C98_size_malformed.
(** If one of the three sizes cannot be read, deserialize returns false and the matrix keeps its size and elements. Every other
    text starts with three sizes. *)
Theorem C98_sizes : forall {T} {N : Num T} (rd : istream -> option T * istream) w (m0 : mat T), cut_sizes 3 w ->
  exists s, mat_load rd (m0, open_text w) = ORet (m0, s) false /\ failb s = true.
Proof. exact @size_stop. Qed.
Print Assumptions C98_sizes.
Theorem C98_sizes_or_not : forall w, cut_sizes 3 w \/ exists x y z t1 t2 t3, has_int w x t1 /\ has_int t1 y t2 /\ has_int t2 z t3.
Proof. exact size_cases. Qed.
Print Assumptions C98_sizes_or_not.
Example C98_sizes_ex : let m := Mat (D3 1 1 1) [B754_nan] in
  mat_load get_double (m, open_text (lit "2 -x 1")) = ORet (m, IS (lit "x 1") false true) false /\
  mat_load get_double (m, open_text (lit "1 1 2147483648 1")) = ORet (m, IS (lit " 1") false true) false /\
  mat_load get_double (m, open_text (lit "1 1")) = ORet (m, IS [] true true) false.
Proof. vm_compute. auto. Qed.

(** The layers with parameters. [mat_numerals y d u]: the hypotheses of [C98_load]; [mat_nearest m d u]: its conclusion. *)
Theorem C98_kernel : forall x y z n yw dw uw yb db ub k0 t, is_int x -> is_int y -> is_int z -> 0 <= n < two32 ->
  mat_numerals yw dw uw -> mat_numerals yb db ub ->
  exists w b, k_load get_double (k0, open_text (lit "Kernel" ++ nl ++ place (lit "x") (dec x) ++ place (lit "y") (dec y) ++ place (lit "z") (dec z) ++ place (lit "n") (dec n) ++
      lit "weights" ++ nl ++ lay_text yw dw ++ lit "biases" ++ nl ++ lay_text yb db ++ t)) =
    ORet (Kern (Par w b (p_wg (k_par k0)) (p_bg (k_par k0))) (D3 x y z) (k_stride k0) n, open_text t) true /\ mat_nearest w dw uw /\ mat_nearest b db ub.
Proof. exact k_free. Qed.
Print Assumptions C98_kernel.
Theorem C98_connected : forall x y yw dw uw yb db ub c0 t, is_int x -> is_int y -> mat_numerals yw dw uw -> mat_numerals yb db ub ->
  exists w b, c_load get_double (c0, open_text (lit "Connected Layer" ++ nl ++ place (lit "x") (dec x) ++ place (lit "y") (dec y) ++
      lit "weights" ++ nl ++ lay_text yw dw ++ lit "biases" ++ nl ++ lay_text yb db ++ t)) =
    ORet (Conn (Par w b (p_wg (c_par c0)) (p_bg (c_par c0))) (c_in c0) true, open_text t) true /\ mat_nearest w dw uw /\ mat_nearest b db ub.
Proof. exact c_free. Qed.
Print Assumptions C98_connected.

(** Damaged weights: false; the biases are not changed and a fully connected layer is not marked as initialised.
    [cut_text]: the text in [C98_stop]; [mat_begun]: its conclusion. *)
Theorem C98_layer_weights : forall yw dw uw x0 y0 z0 w, mat_numerals yw dw uw -> inb dw x0 y0 z0 -> no_double w -> (0 < y0 -> begun w) ->
  (forall x y z n k0, is_int x -> is_int y -> is_int z -> 0 <= n < two32 ->
    exists m s, k_load get_double (k0, open_text (lit "Kernel" ++ nl ++ place (lit "x") (dec x) ++ place (lit "y") (dec y) ++ place (lit "z") (dec z) ++ place (lit "n") (dec n) ++
        lit "weights" ++ nl ++ cut_text yw dw x0 y0 z0 w)) =
      ORet (Kern (Par m (p_b (k_par k0)) (p_wg (k_par k0)) (p_bg (k_par k0))) (D3 x y z) (k_stride k0) n, s) false /\ mat_begun m dw uw x0 y0 z0) /\
  (forall x y c0, is_int x -> is_int y ->
    exists m s, c_load get_double (c0, open_text (lit "Connected Layer" ++ nl ++ place (lit "x") (dec x) ++ place (lit "y") (dec y) ++
        lit "weights" ++ nl ++ cut_text yw dw x0 y0 z0 w)) =
      ORet (Conn (Par m (p_b (c_par c0)) (p_wg (c_par c0)) (p_bg (c_par c0))) (c_in c0) (c_ready c0), s) false /\ mat_begun m dw uw x0 y0 z0).
Proof. exact layer_stop_w. Qed.
Print Assumptions C98_layer_weights.
(** Damaged biases: false; the weights are read. *)
Theorem C98_layer_biases : forall yw dw uw yb db ub x0 y0 z0 w, mat_numerals yw dw uw -> mat_numerals yb db ub -> inb db x0 y0 z0 -> no_double w -> (0 < y0 -> begun w) ->
  (forall x y z n k0, is_int x -> is_int y -> is_int z -> 0 <= n < two32 ->
    exists v m s, k_load get_double (k0, open_text (lit "Kernel" ++ nl ++ place (lit "x") (dec x) ++ place (lit "y") (dec y) ++ place (lit "z") (dec z) ++ place (lit "n") (dec n) ++
        lit "weights" ++ nl ++ lay_text yw dw ++ lit "biases" ++ nl ++ cut_text yb db x0 y0 z0 w)) =
      ORet (Kern (Par v m (p_wg (k_par k0)) (p_bg (k_par k0))) (D3 x y z) (k_stride k0) n, s) false /\ mat_nearest v dw uw /\ mat_begun m db ub x0 y0 z0) /\
  (forall x y c0, is_int x -> is_int y ->
    exists v m s, c_load get_double (c0, open_text (lit "Connected Layer" ++ nl ++ place (lit "x") (dec x) ++ place (lit "y") (dec y) ++
        lit "weights" ++ nl ++ lay_text yw dw ++ lit "biases" ++ nl ++ cut_text yb db x0 y0 z0 w)) =
      ORet (Conn (Par v m (p_wg (c_par c0)) (p_bg (c_par c0))) (c_in c0) (c_ready c0), s) false /\ mat_nearest v dw uw /\ mat_begun m db ub x0 y0 z0).
Proof. exact layer_stop_b. Qed.
Print Assumptions C98_layer_biases.
(** clearLine skips the rest of the line; in the last line it sets eofbit but not failbit. *)
Theorem C98_line : forall a t, ~ In newline a -> Z.of_nat (length a) < two31 - 1 ->
  clear_line (open_text (a ++ nl ++ t)) = open_text t /\ clear_line (open_text a) = IS [] true false.
Proof. exact clear_line_spec. Qed.
Print Assumptions C98_line.
(** ignore stops after at most n characters, without asking whether there are more. *)
Theorem C98_line_limit : forall a t, ~ In newline a -> ignore_nl (Z.of_nat (length a)) (a ++ t) = (t, false).
Proof. exact ignore_limit. Qed.
Print Assumptions C98_line_limit.
Example C98_line_limit_ex : ignore_nl 2 (lit "abc" ++ nl ++ lit "d") = (lit "c" ++ nl ++ lit "d", false) /\ ignore_nl 2 (lit "ab") = ([], false) /\ ignore_nl 3 (lit "ab") = ([], true).
Proof. vm_compute. auto. Qed.

(** Carriage returns, tabs, exponents and a remark *)
Definition ex_crlf : text := [ascii_of_nat 13; ascii_of_nat 10].
Definition ex_free : text := lit "2 +1 001" ++ ex_crlf ++ [ascii_of_nat 9] ++ lit "25e-2" ++ ex_crlf ++ lit "+.5E1 # five" ++ ex_crlf ++ ex_crlf ++ lit "biases".
Example C98_ex : match mat_load get_double (mat_empty, open_text ex_free) with
  | ORet (m, s) b => b = true /\ mdim m = D3 2 1 1 /\ map B2SF (mvals m) = [SpecFloat.S754_finite false 4503599627370496 (-54); SpecFloat.S754_finite false 5629499534213120 (-50)] /\ rest s = lit "biases"
  | _ => False end.
Proof. vm_compute. auto. Qed.
Example C98_ex_stop : match mat_load get_double (mat_empty, open_text (lit "2 1 1" ++ ex_crlf ++ lit "25e-2" ++ ex_crlf ++ lit "x")) with
  | ORet (m, s) b => b = false /\ map B2SF (mvals m) = [SpecFloat.S754_finite false 4503599627370496 (-54); SpecFloat.S754_zero false]
  | _ => False end.
Proof. vm_compute. auto. Qed.
Example C98_ex_layer : match c_load get_double (Conn (Par mat_empty mat_empty [] []) (D3 0 0 0) false, open_text (lit "Connected Layer" ++ nl ++ lit "x 1" ++ nl ++ lit "y 1" ++ nl ++
    lit "weights" ++ nl ++ lit "1 1 1" ++ ex_crlf ++ lit "25e-2" ++ ex_crlf ++ ex_crlf ++ lit "biases" ++ nl ++ lit "1 1 1" ++ nl ++ lit "-5" ++ nl ++ nl ++ lit "done")) with
  | ORet (c, s) b => b = true /\ c_ready c = true /\ map B2SF (mvals (p_w (c_par c))) = [SpecFloat.S754_finite false 4503599627370496 (-54)] /\ rest s = lit "done"
  | _ => False end.
Proof. vm_compute. auto. Qed.
Example C98_ex_weights : match c_load get_double (Conn (Par mat_empty (Mat (D3 1 1 1) [B754_nan]) [] []) (D3 0 0 0) false, open_text (lit "Connected Layer" ++ nl ++ lit "x 1" ++ nl ++ lit "y 1" ++ nl ++
    lit "weights" ++ nl ++ lit "1 2 1" ++ nl ++ lit "25e-2 x" ++ nl)) with
  | ORet (c, s) b => b = false /\ c_ready c = false /\ map B2SF (mvals (p_w (c_par c))) = [SpecFloat.S754_finite false 4503599627370496 (-54); SpecFloat.S754_zero false] /\
      map B2SF (mvals (p_b (c_par c))) = [SpecFloat.S754_nan]
  | _ => False end.
Proof. vm_compute. auto. Qed.
Example C98_ex_line : clear_line (open_text (lit "ab" ++ nl ++ lit "c")) = open_text (lit "c") /\ clear_line (open_text (lit "ab")) = IS [] true false.
Proof. vm_compute. auto. Qed.
