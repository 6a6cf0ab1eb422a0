(** Saving and loading: SimpleMatrix.tpp 224-270, the serialize and deserialize functions of the layers, and saveModel and
    loadModel of ModelDescription.tpp. Elements are written by [put] (with std::fixed) and read by [get]; for double these
    are put_double and get_double. *)
From Coq Require Import String ZArith List Bool Ascii.
From Verif Require Import Base Dim Matrix View Num Expr Batch Kernel Connected Float32 Pooling Activation Softmax Chars Model Stream.
Import ListNotations.
Local Open Scope Z_scope.

(** std::setw(16), right-aligned *)
Definition setw16 (t : text) : text := repeat " "%char (16 - length t) ++ t.

(** operator<< on the text written so far *)
Definition emit (t : text) : M text unit := fun o => ORet (o ++ t) tt.

(** A loop that stops when its body returns false *)
Fixpoint bfor_n {S} (n : nat) (a : Z) (body : Z -> M S bool) : M S bool :=
  match n with
  | O => ret true
  | Datatypes.S n' => (b <- body a ;; if b : bool then bfor_n n' (a + 1) body else ret false)%st
  end.
Definition bfor {S} (n : Z) (body : Z -> M S bool) : M S bool := bfor_n (Z.to_nat n) 0 body.

(** Change of the object in a pair *)
Definition upd_fst {A B} (f : A -> A) : M (A * B) unit := fun '(a, b) => ORet (f a, b) tt.
(** An operation on a member of the object in a pair *)
Definition on_field {A B F C} (g : A -> F) (s : A -> F -> A) (c : M (F * B) C) : M (A * B) C := fun '(a, b) =>
  map_out (fun '(f, b') => (s a f, b')) (c (g a, b)).

Section Text.
Context {T : Type} {N : Num T} (put : T -> text) (get : istream -> option T * istream).

(** SimpleMatrix.tpp 224-239: serialize; the value is the text *)
Definition mat_text (m : mat T) : res text :=
  let d := mdim m in
  run_state ((emit (dec (dx d) ++ lit " " ++ dec (dy d) ++ lit " " ++ dec (dz d) ++ nl) ;;
    mfor (dz d) (fun z =>
      mfor (dx d) (fun x =>
        mfor (dy d) (fun y => v <- lift (mread m (D3 x y z)) ;; emit (setw16 (put v) ++ lit " ")) ;;
        emit nl) ;;
      emit nl))%st []).

(** SimpleMatrix.tpp 257-258: one element; [operator()] is evaluated although the value may not be stored *)
Definition read_elem (i : dim3) : M (mat T * istream) bool :=
  (m <- mget ;;
   _ <- lift (mread (fst m) i) ;;
   v <- on_snd (stm get) ;;
   match v with Some a => on_fst (mwrite i a) | None => ret tt end ;;
   s <- on_snd mget ;;
   ret (negb (failb s)))%st.
Definition skip_line {A} : M (A * istream) bool := on_snd (stm (fun s => (true, clear_line s))).

(** SimpleMatrix.tpp 241-270: deserialize *)
Definition mat_load : M (mat T * istream) bool :=
  (ox <- on_snd (stm get_int) ;; oy <- on_snd (stm get_int) ;; oz <- on_snd (stm get_int) ;;
   s <- on_snd mget ;;
   if failb s then ret false
   else
     let val o := match o with Some v => v | None => 0 end in
     let d := D3 (val ox) (val oy) (val oz) in
     on_fst (resize n0 d) ;;
     bfor (dz d) (fun z =>
       b <- bfor (dx d) (fun x =>
              b <- bfor (dy d) (fun y => read_elem (D3 x y z)) ;;
              if b : bool then skip_line else ret false) ;;
       if b : bool then skip_line else ret false))%st.

(** ** The layers *)

(** Kernel.cpp 223-235 *)
Definition k_text (k : kernel T) : res text :=
  (w <- mat_text (k_w k) ;; b <- mat_text (k_b k) ;;
   Ok (lit "Kernel" ++ nl ++ place (lit "x") (dec (dx (k_dim k))) ++ place (lit "y") (dec (dy (k_dim k)))
       ++ place (lit "z") (dec (dz (k_dim k))) ++ place (lit "n") (dec (k_n k))
       ++ lit "weights" ++ nl ++ w ++ lit "biases" ++ nl ++ b))%res.

Definition par_w {B} : M (mat T * B) bool -> M (@params T * B) bool :=
  on_field p_w (fun p w => Par w (p_b p) (p_wg p) (p_bg p)).
Definition par_b {B} : M (mat T * B) bool -> M (@params T * B) bool :=
  on_field p_b (fun p b => Par (p_w p) b (p_wg p) (p_bg p)).
(** Kernel.cpp 253-259 and ConnectedLayer.cpp 160-163: both matrices *)
Definition par_load : M (@params T * istream) bool :=
  (on_snd (expect_void (lit "weights")) ;;
   b <- par_w mat_load ;;
   if negb b then ret false
   else
     on_snd (expect_void (lit "biases")) ;;
     par_b mat_load)%st.

(** Kernel.cpp 240-262 *)
Definition k_load : M (kernel T * istream) bool :=
  (on_snd (expect_void (lit "Kernel")) ;;
   x <- on_snd (expect_int (lit "x")) ;;
   upd_fst (fun k => Kern (k_par k) (D3 x (dy (k_dim k)) (dz (k_dim k))) (k_stride k) (k_n k)) ;;
   y <- on_snd (expect_int (lit "y")) ;;
   upd_fst (fun k => Kern (k_par k) (D3 (dx (k_dim k)) y (dz (k_dim k))) (k_stride k) (k_n k)) ;;
   z <- on_snd (expect_int (lit "z")) ;;
   upd_fst (fun k => Kern (k_par k) (D3 (dx (k_dim k)) (dy (k_dim k)) z) (k_stride k) (k_n k)) ;;
   n <- on_snd (expect_unsigned (lit "n")) ;;
   upd_fst (fun k => Kern (k_par k) (k_dim k) (k_stride k) n) ;;
   on_field k_par with_par par_load)%st.

(** ConnectedLayer.cpp 140-150 *)
Definition c_text (c : connected T) : res text :=
  (w <- mat_text (c_w c) ;; b <- mat_text (c_b c) ;;
   Ok (lit "Connected Layer" ++ nl ++ place (lit "x") (dec (dx (mdim (c_w c)))) ++ place (lit "y") (dec (dy (mdim (c_w c))))
       ++ lit "weights" ++ nl ++ w ++ lit "biases" ++ nl ++ b))%res.
(** ConnectedLayer.cpp 155-166; the two dimensions are read into a local variable and not used *)
Definition c_load : M (connected T * istream) bool :=
  (on_snd (expect_void (lit "Connected Layer")) ;;
   on_snd (expect_int (lit "x")) ;; on_snd (expect_int (lit "y")) ;;
   b <- on_field c_par (fun c p => Conn p (c_in c) (c_ready c)) par_load ;;
   if negb b then ret false
   else upd_fst (fun c => Conn (c_par c) (c_in c) true) ;; ret true)%st.

(** Pooling.cpp 134-153; the stride lines repeat the pool size *)
Definition q_text (q : pooling) : text :=
  lit "Pooling" ++ nl ++ (match q_type q with PMax => lit "MAX" | PMin => lit "MIN" | PAvg => lit "AVG" end) ++ nl
  ++ place (lit "x") (dec (dx (q_dim q))) ++ place (lit "y") (dec (dy (q_dim q)))
  ++ lit "stride" ++ nl
  ++ place (lit "x") (dec (dx (q_dim q))) ++ place (lit "y") (dec (dy (q_dim q))).
(** Pooling.cpp 165-169 *)
Definition pool_of (t : text) : res pool_type :=
  if text_eqb t (lit "MAX") then Ok PMax else if text_eqb t (lit "MIN") then Ok PMin
  else if text_eqb t (lit "AVG") then Ok PAvg else Throw RuntimeError.
(** Pooling.cpp 158-183 *)
Definition q_load : M (pooling * istream) bool :=
  (on_snd (expect_void (lit "Pooling")) ;;
   line <- on_snd (stm getline) ;;
   t <- lift (pool_of line) ;;
   upd_fst (fun q => Pool (q_dim q) (q_stride q) t (q_idx q)) ;;
   x <- on_snd (expect_int (lit "x")) ;;
   upd_fst (fun q => Pool (D3 x (dy (q_dim q)) (dz (q_dim q))) (q_stride q) (q_type q) (q_idx q)) ;;
   y <- on_snd (expect_int (lit "y")) ;;
   upd_fst (fun q => Pool (D3 (dx (q_dim q)) y (dz (q_dim q))) (q_stride q) (q_type q) (q_idx q)) ;;
   on_snd (expect_void (lit "stride")) ;;
   x <- on_snd (expect_int (lit "x")) ;;
   upd_fst (fun q => Pool (q_dim q) (D3 x (dy (q_stride q)) (dz (q_stride q))) (q_type q) (q_idx q)) ;;
   y <- on_snd (expect_int (lit "y")) ;;
   upd_fst (fun q => Pool (q_dim q) (D3 (dx (q_stride q)) y (dz (q_stride q))) (q_type q) (q_idx q)) ;;
   ret true)%st.

(** Activation.cpp 84-89 *)
Definition a_text (a : activation) : res text :=
  (s <- to_string (a_kind a) ;; Ok (lit "Activation" ++ nl ++ lit s ++ nl))%res.
(** Activation.cpp 94-101; the function pointers keep their value *)
Definition a_load : M (activation * istream) bool :=
  (on_snd (expect_void (lit "Activation")) ;;
   line <- on_snd (stm getline) ;;
   k <- lift (from_string (string_of_list_ascii line)) ;;
   upd_fst (fun a => Act k (a_fun a) (a_der a)) ;;
   ret true)%st.

(** Softmax.cpp 90-92 *)
Definition sm_text : text := lit "Softmax" ++ nl.
(** Softmax.cpp 97-100 *)
Definition sm_load : M (softmax * istream) bool := (on_snd (expect_void (lit "Softmax")) ;; ret true)%st.

(** The virtual function serialize *)
Definition l_text (l : layer T) : res text :=
  match l with
  | LKernel k => k_text k
  | LConn c => c_text c
  | LPool q => Ok (q_text q)
  | LAct a => a_text a
  | LSoft _ => Ok sm_text
  end.

Definition map_fst {A B C R} (f : A -> B) (o : out (A * C) R) : out (B * C) R :=
  match o with ORet (a, c) r => ORet (f a, c) r | OThrow (a, c) e => OThrow (f a, c) e | OUB => OUB end.

(** The virtual function deserialize *)
Definition l_load : M (layer T * istream) bool := fun '(l, s) =>
  match l with
  | LKernel k => map_fst LKernel (k_load (k, s))
  | LConn c => map_fst LConn (c_load (c, s))
  | LPool q => map_fst LPool (q_load (q, s))
  | LAct a => map_fst LAct (a_load (a, s))
  | LSoft sm => map_fst LSoft (sm_load (sm, s))
  end.

(** ** The model *)
Section Object.
Context (E : env T) {L : Type}.

(** How labels are written and read, the value of [OutputDataType()], and the value of a label that was declared without
    initial value (None if using it is undefined, as for int) *)
Record label_io := LabelIO {
  lb_put : L -> text; lb_get : istream -> option L * istream; lb_zero : L; lb_unset : option L }.
Context (io : label_io).

(** ModelDescription.tpp 68-71: the layers, from number [i] on *)
Fixpoint layers_text (i : Z) (ls : list (layer T)) : res text :=
  match ls with
  | [] => Ok []
  | l :: ls' =>
      (t <- l_text l ;; u <- layers_text (i + 1) ls' ;;
       Ok (lit "(" ++ dec i ++ lit ") ----------" ++ nl ++ t ++ u))%res
  end.
(** ModelDescription.tpp 77-81 *)
Definition labels_text (ls : list L) : text :=
  nl ++ lit "Output labels " ++ dec (Z.of_nat (length ls)) ++ nl ++ concat (map (fun l => lb_put io l ++ nl) ls) ++ nl.
(** ModelDescription.tpp 61-84: saveModel: the returned value and what the file contains afterwards, if it could be opened
    for writing and every write succeeds. Serialising a layer only throws if an enum value is out of range, which the
    types of the model exclude; UB means a matrix whose storage does not fit its dimensions. *)
Definition save_model (m : model T L) : res (bool * text) :=
  match layers_text 0 (map snd (m_layers m)) with
  | Ok t => Ok (true, t ++ labels_text (m_labels m))
  | Throw _ => Ok (false, [])
  | UB => UB
  end.

(** The layer that was just added: [deserialize] on it *)
Definition load_last : M (model T L * istream) bool := fun '(m, s) =>
  match rev (m_layers m) with
  | [] => OUB
  | (nm, l) :: r =>
      map_fst (fun l' => Model (rev r ++ [(nm, l')]) (m_labels m) (m_kc m) (m_pc m) (m_fc m) (m_ac m)) (l_load (l, s))
  end.

(** ModelDescription.tpp 121-126: element [i] of the labels *)
Definition read_label (i : Z) : M (list L * istream) unit :=
  (v <- on_snd (stm (lb_get io)) ;;
   on_snd (stm (fun s => (tt, clear_line s))) ;;
   a <- match (match v with Some a => Some a | None => lb_unset io end) with Some a => ret a | None => mub end ;;
   ls <- on_fst mget ;;
   ls' <- lift (vset ls i a) ;;
   on_fst (mput ls'))%st.
(** ModelDescription.tpp 113-130 *)
Definition load_labels : M (model T L * istream) bool :=
  (on_snd (stm (fun s => (tt, clear_line s))) ;;
   on_snd (stm (fun s => (tt, clear_line s))) ;;
   n <- on_snd (expect_int (lit "Output labels")) ;;
   ls <- lift (vec_resize (lb_zero io) [] n) ;;
   ls' <- (fun '(m, s) =>
             match mfor n read_label (ls, s) with
             | ORet (l, s') _ => ORet (m, s') l
             | OThrow (_, s') e => OThrow (m, s') e
             | OUB => OUB
             end) ;;
   on_fst (set_labels ls' true) ;;
   ret true)%st.

(** ModelDescription.tpp 97-131: the layer announced by the line [label]. (Line 99 passes three arguments to addKernel,
    which takes two: the template does not compile when it is instantiated. The model leaves the third one out.) *)
Definition load_branch (label : text) : M (model T L * istream) bool :=
  (if text_eqb label (lit "Kernel") then on_fst (add_kernel E (D3 0 0 0) 1) ;; load_last
   else if text_eqb label (lit "Pooling") then on_fst (add_pooling (D3 0 0 0) (D3 0 0 0) PMax) ;; load_last
   else if text_eqb label (lit "Connected Layer") then on_fst (add_connected 0) ;; load_last
   else if text_eqb label (lit "Softmax") then load_labels
   else ret true)%st.
(** ModelDescription.tpp 133-136 *)
Definition catch_runtime (c : M (model T L * istream) bool) : M (model T L * istream) bool := fun s =>
  match c s with OThrow s' RuntimeError => ORet s' false | o => o end.

(** ModelDescription.tpp 91-139: the loop; every round takes at least one character, so that a number of rounds above the
    length of the text is never used up (the last case is not reached) *)
Fixpoint load_loop (fuel : nat) : M (model T L * istream) bool :=
  match fuel with
  | O => mub
  | S f =>
      (on_snd (stm getline) ;;
       s <- on_snd mget ;;
       if failb s then ret true
       else
         label <- on_snd (stm read_line) ;;
         b <- catch_runtime (load_branch label) ;;
         if b : bool then load_loop f else ret false)%st
  end.
(** ModelDescription.tpp 86-140: loadModel on a file with the given content (None: the file cannot be opened) *)
Definition load_model (file : option text) : M (model T L) bool := fun m =>
  let s := open_file file in
  map_out fst (load_loop (S (length (rest s))) (m, s)).
End Object.
End Text.

(** Labels of type char or unsigned char; [c] is the unspecified value of an uninitialised variable *)
Definition char_io (c : ascii) : label_io (L := ascii) := LabelIO (fun a => [a]) get_char zero (Some c).
(** Labels of type int *)
Definition int_io : label_io (L := Z) := LabelIO dec get_int 0 None.
(** Labels of type std::string *)
Definition word_io : label_io (L := text) := LabelIO (fun t => t) get_word [] (Some []).
