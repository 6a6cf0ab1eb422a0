(** Input streams of the C++ library (libstdc++), as far as loading a model uses them: std::getline, istream::ignore, read,
    tellg, seekg and the operators >> for int, unsigned, double, char and std::string, with their error flags, and
    include/cnn_from_scratch/Serialization.h. The locale is "C" and no exception mask is set. *)
From Coq Require Import String ZArith List Bool Ascii.
From Flocq Require Import IEEE754.BinarySingleNaN.
From Verif Require Import Base Chars Double.
Import ListNotations.
Local Open Scope Z_scope.

(** The text that is left, eofbit and failbit. badbit is never set: the characters are in memory or in a readable file. *)
Record istream := IS { rest : text; eofb : bool; failb : bool }.
Definition good (s : istream) : bool := negb (eofb s) && negb (failb s).
Definition set_fail (s : istream) : istream := IS (rest s) (eofb s) true.
(** A stream just opened on the given text; a file that cannot be opened has failbit set. *)
Definition open_text (t : text) : istream := IS t false false.
Definition open_file (f : option text) : istream := match f with Some t => open_text t | None => IS [] false true end.

Definition newline : ascii := ascii_of_nat 10.
Definition nl : text := [newline].
(** isspace in the "C" locale *)
Definition is_space (c : ascii) : bool :=
  let n := Z.of_nat (nat_of_ascii c) in (n =? 32) || ((9 <=? n) && (n <=? 13)).

(** The longest prefix of characters with property [p], and what follows *)
Fixpoint span (p : ascii -> bool) (t : text) : text * text :=
  match t with
  | [] => ([], [])
  | c :: t' => if p c then let '(a, b) := span p t' in (c :: a, b) else ([], t)
  end.
Definition is_nil {A} (l : list A) : bool := match l with [] => true | _ => false end.

(** istream::sentry: a stream that is not good gets failbit. With [skip] white space is skipped, and at the end of the text
    eofbit and failbit are set. *)
Definition sentry (skip : bool) (s : istream) : bool * istream :=
  if negb (good s) then (false, set_fail s)
  else if skip then
    let r := snd (span is_space (rest s)) in
    if is_nil r then (false, IS [] true true) else (true, IS r false false)
  else (true, s).

(** std::getline(istream&, string&): the string read; empty if nothing was read *)
Definition getline (s : istream) : text * istream :=
  match sentry false s with
  | (false, s') => ([], s')
  | (true, s') =>
      let '(a, b) := span (fun c => negb (Ascii.eqb c newline)) (rest s') in
      match b with
      | _ :: b' => (a, IS b' false false)
      | [] => (a, IS [] true (is_nil a))
      end
  end.

(** istream::ignore(n, '\n') *)
Fixpoint ignore_nl (n : Z) (t : text) : text * bool :=
  if n <=? 0 then (t, false)
  else match t with
       | [] => ([], true)
       | c :: t' => if Ascii.eqb c newline then (t', false) else ignore_nl (n - 1) t'
       end.
(** Serialization.h 15-17: clearLine *)
Definition clear_line (s : istream) : istream :=
  match sentry false s with
  | (false, s') => s'
  | (true, s') => let '(r, e) := ignore_nl (two31 - 1) (rest s') in IS r e false
  end.

(** istream::read(p, n) into a string of n blanks *)
Definition read_n (n : nat) (s : istream) : text * istream :=
  match sentry false s with
  | (false, s') => (repeat " "%char n, s')
  | (true, s') =>
      let a := firstn n (rest s') in
      let short := Nat.ltb (length a) n in
      (a ++ repeat " "%char (n - length a), IS (skipn n (rest s')) short short)
  end.

(** Serialization.h 22-28: readLine: tellg, getline, seekg. seekg clears eofbit and does nothing if failbit is set. *)
Definition read_line (s : istream) : text * istream :=
  let '(_, s1) := sentry false s in           (* tellg *)
  let '(a, s2) := getline s1 in
  (a, if failb s2 then IS (rest s2) false true else IS (rest s1) false false).

(** The characters of a number: optional sign and digits (num_get in base 10) *)
Definition scan_sign (t : text) : bool * text :=
  match t with
  | c :: t' => if Ascii.eqb c "-"%char then (true, t') else if Ascii.eqb c "+"%char then (false, t') else (false, t)
  | [] => (false, t)
  end.
Definition scan_int (t : text) : bool * text * text :=
  let '(neg, t1) := scan_sign t in let '(ds, t2) := span is_digit t1 in (neg, ds, t2).

(** operator>>(int&): the new value of the variable (None: not changed). Without digits the value is 0, outside the range
    it is the nearest bound; both set failbit. *)
Definition get_int (s : istream) : option Z * istream :=
  match sentry true s with
  | (false, s') => (None, s')
  | (true, s') =>
      let '(neg, ds, t) := scan_int (rest s') in
      let v := if neg then - num_of ds else num_of ds in
      let st := IS t (is_nil t) in
      if is_nil ds then (Some 0, st true)
      else if v <? - two31 then (Some (- two31), st true)
      else if two31 <=? v then (Some (two31 - 1), st true)
      else (Some v, st false)
  end.
(** operator>>(unsigned&): a negative numeral is converted modulo 2^32 *)
Definition get_unsigned (s : istream) : option Z * istream :=
  match sentry true s with
  | (false, s') => (None, s')
  | (true, s') =>
      let '(neg, ds, t) := scan_int (rest s') in
      let v := num_of ds in
      let st := IS t (is_nil t) in
      if is_nil ds then (Some 0, st true)
      else if two32 <=? v then (Some (two32 - 1), st true)
      else (Some (if neg then u32 (- v) else v), st false)
  end.

(** The characters of a floating-point number: sign, digits, at most one point, and an exponent if there was a digit. The
    result is the sign, the digits before and after the point, the exponent (Some None: "e" without digits) and the rest. *)
Definition scan_float (t : text) : bool * text * text * option (option Z) * text :=
  let '(neg, t1) := scan_sign t in
  let '(d1, t2) := span is_digit t1 in
  let '(d2, t3) := match t2 with
                   | c :: t2' => if Ascii.eqb c "."%char then span is_digit t2' else ([], t2)
                   | [] => ([], t2)
                   end in
  match t3 with
  | c :: t4 =>
      if (Ascii.eqb c "e"%char || Ascii.eqb c "E"%char) && negb (is_nil (d1 ++ d2)) then
        let '(eneg, ds, t5) := scan_int t4 in
        (neg, d1, d2, Some (if is_nil ds then None else Some (if eneg then - num_of ds else num_of ds)), t5)
      else (neg, d1, d2, None, t3)
  | [] => (neg, d1, d2, None, t3)
  end.
(** operator>>(double&): strtod of the characters; if it does not use all of them the value is 0, above the range it is the
    largest double; both set failbit. *)
Definition get_double (s : istream) : option double * istream :=
  match sentry true s with
  | (false, s') => (None, s')
  | (true, s') =>
      let '(neg, d1, d2, ex, t) := scan_float (rest s') in
      let st := IS t (is_nil t) in
      let fr := Z.of_nat (length d2) in
      match (if is_nil (d1 ++ d2) then None else match ex with None => Some 0 | Some e => e end) with
      | None => (Some (B754_zero false), st true)
      | Some e =>
          let v := double_of_dec neg (num_of (d1 ++ d2)) (e - fr) in
          if is_finite v then (Some v, st false) else (Some (double_max neg), st true)
      end
  end.

(** operator>>(char&) (the same for unsigned char) *)
Definition get_char (s : istream) : option ascii * istream :=
  match sentry true s with
  | (false, s') => (None, s')
  | (true, s') => match rest s' with c :: t => (Some c, IS t false false) | [] => (None, s') end
  end.
(** operator>>(string&): a word *)
Definition get_word (s : istream) : option text * istream :=
  match sentry true s with
  | (false, s') => (None, s')
  | (true, s') => let '(a, b) := span (fun c => negb (is_space c)) (rest s') in (Some a, IS b (is_nil b) (is_nil a))
  end.

(** Serialization.h 35-38: place, for a value written as [v] *)
Definition place (label v : text) : text := label ++ lit " " ++ v ++ nl.

Definition stm {A} (f : istream -> A * istream) : M istream A := fun s => let '(a, s') := f s in ORet s' a.

(** Serialization.h 49-54: the label *)
Definition expect_label (e : text) : M istream unit :=
  (r <- stm (read_n (length e)) ;; if text_eqb e r then ret tt else mthrow RuntimeError)%st.
(** Serialization.h 49-65: expect<void> *)
Definition expect_void (e : text) : M istream unit :=
  (expect_label e ;; stm (fun s => (tt, clear_line s)))%st.
(** Serialization.h 49-65: expect<T>. The local variable has no initial value: returning it when nothing was stored is
    undefined. *)
Definition expect_val {A} (get : istream -> option A * istream) (e : text) : M istream A :=
  (expect_label e ;;
   v <- stm get ;;
   stm (fun s => (tt, clear_line s)) ;;
   match v with Some a => ret a | None => mub end)%st.
Definition expect_int : text -> M istream Z := expect_val get_int.
Definition expect_unsigned : text -> M istream Z := expect_val get_unsigned.

Example stream_ex :
  expect_int (lit "x") (open_text (lit "x -42 abc" ++ nl ++ lit "rest")) = ORet (open_text (lit "rest")) (-42)
  /\ expect_int (lit "y") (open_text (lit "x 1")) = OThrow (open_text (lit " 1")) RuntimeError
  /\ expect_int (lit "x") (open_text (lit "x")) = OUB
  /\ get_int (open_text (lit "99999999999 7")) = (Some 2147483647, IS (lit " 7") false true)
  /\ get_unsigned (open_text (lit " -1")) = (Some 4294967295, IS [] true false)
  /\ fst (read_line (open_text (lit "ab" ++ nl))) = lit "ab"
  /\ snd (read_line (open_text [])) = IS [] false true
  /\ B2SF (match fst (get_double (open_text (lit "  -1.25e1;"))) with Some d => d | None => B754_nan end) = B2SF (Bdiv mode_NE (d_of_Z (-25)) (d_of_Z 2))
  /\ failb (snd (get_double (open_text (lit "nan")))) = true.
Proof. vm_compute. repeat split. Qed.
