(** include/cnn_from_scratch/MNISTReader.h, src/MNISTReader.cpp, and the data generator of src/main.cpp. *)
From Coq Require Import ZArith List Bool String Ascii.
From Verif Require Import Base Dim Matrix Float32 Batch Chars Train.
Import ListNotations.
Local Open Scope Z_scope.

(** ** Files and input streams (the part of std::fstream the reader uses). *)

(** The contents of a file; nobody changes it while it is open. *)
Record file := File { f_len : Z; f_byte : Z -> Z }.
(** What is found under a file name: nothing, something that cannot be opened for reading, or a file. *)
Inductive entry := Missing | Unreadable | Readable (f : file).

(** std::fstream: position, eofbit and failbit. badbit (an error of the device) is left out. *)
Record fstr := FStr { s_file : file; s_pos : Z; s_eof : bool; s_fail : bool }.
(** MNISTReader.cpp 15-16: open(); failbit is set when that does not succeed. *)
Definition fopen (e : entry) : fstr :=
  match e with Readable f => FStr f 0 false false | _ => FStr (File 0 (fun _ => 0)) 0 false true end.

(** [fread n]: stream.read(p, n). The bytes that were stored from p on. Nothing is stored if eofbit or failbit is set;
    if fewer than n bytes are left these are stored and both bits are set. *)
Definition bytes_at (f : file) (p : Z) (n : nat) : list Z := map (fun k => f_byte f (p + Z.of_nat k)) (seq 0 n).
Definition fread (n : nat) (s : fstr) : fstr * list Z :=
  if s_eof s || s_fail s then (FStr (s_file s) (s_pos s) (s_eof s) true, [])
  else if s_pos s + Z.of_nat n <=? f_len (s_file s)
  then (FStr (s_file s) (s_pos s + Z.of_nat n) false false, bytes_at (s_file s) (s_pos s) n)
  else let have := Z.to_nat (f_len (s_file s) - s_pos s) in
       (FStr (s_file s) (s_pos s + Z.of_nat have) true true, bytes_at (s_file s) (s_pos s) have).

(** size_t converted to the signed 64-bit type std::streamoff *)
Definition s64 (z : Z) : Z := (z + 9223372036854775808) mod two64 - 9223372036854775808.
(** stream.seekg(p): eofbit is cleared; a stream with failbit stays where it is. Negative offsets and those above [limit],
    the largest that the file system takes, are refused, which sets failbit. The end of the file is no limit. *)
Definition seekg (limit p : Z) (s : fstr) : fstr :=
  if s_fail s then FStr (s_file s) (s_pos s) false true
  else let o := s64 p in
       if (o <? 0) || (limit <? o) then FStr (s_file s) (s_pos s) false true
       else FStr (s_file s) o false false.

(** ** The byte order of the machine: [big] if it is big-endian. *)

(** The bytes of an unsigned number of [n] bytes in increasing significance, and their value *)
Fixpoint digits256 (n : nat) (v : Z) : list Z := match n with O => [] | S n' => v mod 256 :: digits256 n' (v / 256) end.
Fixpoint value256 (l : list Z) : Z := match l with [] => 0 | b :: l' => b + 256 * value256 l' end.
(** The object representation of a number, in the order of the addresses, and the number it represents *)
Definition memory (big : bool) (n : nat) (v : Z) : list Z := if big then rev (digits256 n v) else digits256 n v.
Definition number (big : bool) (m : list Z) : Z := value256 (if big then rev m else m).
(** MNISTReader.h 39-42: isBigendian *)
Definition is_bigendian (big : bool) : bool := hd 0 (memory big 4 16909060) =? 1.   (* 0x01020304 *)

(** MNISTReader.cpp 84-96: read<T> for sizeof(T) = n. The variable val is not initialised: its bytes start as [None]. *)
Fixpoint store (m : list (option Z)) (i : nat) (bs : list Z) : list (option Z) :=
  match bs with [] => m | b :: bs' => store (upd m i (Some b)) (S i) bs' end.
Fixpoint read_down (n : nat) (m : list (option Z)) (s : fstr) : fstr * list (option Z) :=
  match n with
  | O => (s, m)
  | S i => let (s', bs) := fread 1 s in read_down i (store m i bs) s'
  end.
Definition read_raw (big : bool) (n : nat) (s : fstr) : fstr * list (option Z) :=
  let m := repeat None n in
  if is_bigendian big then let (s', bs) := fread n s in (s', store m 0 bs) else read_down n m s.
Fixpoint all_set (m : list (option Z)) : option (list Z) :=
  match m with
  | [] => Some []
  | Some b :: m' => match all_set m' with Some l => Some (b :: l) | None => None end
  | None :: _ => None
  end.
(** Using a number of which a byte was never written is undefined behaviour; every number read here is used, except the
    label of an image that nobody looks at, for which the model is stricter than the language. *)
Definition read_num (big : bool) (n : nat) : M fstr Z := fun s =>
  let (s', m) := read_raw big n s in
  match all_set m with Some l => ORet s' (number big l) | None => OUB end.
(** read<int32_t> (two's complement) and read<unsigned char> *)
Definition read_i32 (big : bool) : M fstr Z := fun s =>
  match read_num big 4 s with ORet s' v => ORet s' (s32 v) | o => o end.
Definition read_u8 (big : bool) : M fstr Z := read_num big 1.

(** ** The reader. *)

(** MNISTReader.h 28-34: data members *)
Record reader := Reader { r_images : fstr; r_labels : fstr; r_num : Z; r_width : Z; r_height : Z; r_cur : Z }.
(** MNISTReader.h 9-12: Image *)
Record image := Image { i_data : mat f32; i_label : Z }.

Definition on_images {A} (c : M fstr A) : M reader A := fun r =>
  match c (r_images r) with
  | ORet s a => ORet (Reader s (r_labels r) (r_num r) (r_width r) (r_height r) (r_cur r)) a
  | OThrow s e => OThrow (Reader s (r_labels r) (r_num r) (r_width r) (r_height r) (r_cur r)) e
  | OUB => OUB
  end.
Definition on_labels {A} (c : M fstr A) : M reader A := fun r =>
  match c (r_labels r) with
  | ORet s a => ORet (Reader (r_images r) s (r_num r) (r_width r) (r_height r) (r_cur r)) a
  | OThrow s e => OThrow (Reader (r_images r) s (r_num r) (r_width r) (r_height r) (r_cur r)) e
  | OUB => OUB
  end.
Definition set_num (n : Z) : M reader unit := fun r =>
  ORet (Reader (r_images r) (r_labels r) n (r_width r) (r_height r) (r_cur r)) tt.
Definition set_width (w : Z) : M reader unit := fun r =>
  ORet (Reader (r_images r) (r_labels r) (r_num r) w (r_height r) (r_cur r)) tt.
Definition set_height (h : Z) : M reader unit := fun r =>
  ORet (Reader (r_images r) (r_labels r) (r_num r) (r_width r) h (r_cur r)) tt.
Definition set_cur (i : Z) : M reader unit := fun r =>
  ORet (Reader (r_images r) (r_labels r) (r_num r) (r_width r) (r_height r) i) tt.
Definition massert (b : bool) : M reader unit := if b then ret tt else mthrow AssertFail.

Definition exists_file (e : entry) : bool := match e with Missing => false | _ => true end.
(** MNISTReader.cpp 10-43: constructor. Files that cannot be opened are only reported (line 20); the messages are left
    out. *)
Definition reader_init (big : bool) : M reader unit :=
  (m <- on_images (read_i32 big) ;;
   massert (m =? 2051) ;;
   m <- on_labels (read_i32 big) ;;
   massert (m =? 2049) ;;
   a <- on_images (read_i32 big) ;;
   b <- on_labels (read_i32 big) ;;
   massert (a =? b) ;;
   set_num a ;;
   h <- on_images (read_i32 big) ;; set_height h ;;
   w <- on_images (read_i32 big) ;; set_width w)%st.
Definition reader_open (big : bool) (ei el : entry) : res reader :=
  if negb (exists_file ei) then Throw AssertFail
  else if negb (exists_file el) then Throw AssertFail
  else run_state (reader_init big (Reader (fopen ei) (fopen el) 0 0 0 0)).

(** MNISTReader.h 23: numImages converts int32_t to size_t; 25: imageIndex *)
Definition num_images (r : reader) : Z := u64 (r_num r).
Definition image_index (r : reader) : Z := r_cur r.

(** MNISTReader.cpp 79: one pixel of (out - 128)/255.0f: int minus int, then int converted to float divided by float *)
Definition normal (b : Z) : res f32 := (d <- i32 (b - 128) ;; Ok (f32_div (f32_of_Z d) (f32_of_Z 255)))%res.
Definition normalised {S} (out : mat Z) : lz S f32 := Lz (fun _ => mdim out) (fun _ i => (b <- mread out i ;; normal b)%res).

(** MNISTReader.cpp 72-76 *)
Definition read_pixels (big : bool) (h w : Z) : M (fstr * mat Z) unit :=
  mfor h (fun row => mfor w (fun col => fun '(s, m) =>
    match read_u8 big s with
    | ORet s' b => match mwrite (D3 row col 0) b m with
                   | ORet m' _ => ORet (s', m') tt
                   | OThrow m' e => OThrow (s', m') e
                   | OUB => OUB
                   end
    | OThrow s' e => OThrow (s', m) e
    | OUB => OUB
    end)).
(** MNISTReader.cpp 64-82: nextImage *)
Definition next_image (big : bool) : M reader image :=
  (r <- mget ;;
   if num_images r <=? r_cur r then mthrow RuntimeError else
   out <- lift (mat_fill (D3 (r_height r) (r_width r) 1) 0) ;;
   out <- on_images (fun s => match read_pixels big (r_height r) (r_width r) (s, out) with
                              | ORet (s', m) _ => ORet s' m
                              | OThrow (s', _) e => OThrow s' e
                              | OUB => OUB
                              end) ;;
   l <- on_labels (read_u8 big) ;;
   d <- lift (run_state (assign_lz (f32_of_Z 0) (normalised out) mat_empty)) ;;
   set_cur (u64 (r_cur r + 1)) ;;
   ret (Image d l))%st.
(** MNISTReader.cpp 50-62: getImage. All operands of the offsets are converted to size_t. *)
Definition get_image (big : bool) (limit i : Z) : M reader image :=
  (set_cur i ;;
   r <- mget ;;
   on_images (fun s => ORet (seekg limit (u64 (4 * 4 + i * r_height r * r_width r)) s) tt) ;;
   on_labels (fun s => ORet (seekg limit (u64 (2 * 4 + i)) s) tt) ;;
   next_image big)%st.

(** ** main.cpp 112-142: MNistGenerator, whose only member is the reader. *)

(** main.cpp 120-126: getNextDataPoint; the label is written in decimal *)
Definition gen_next (big : bool) : M reader (point f32 text) :=
  (i <- next_image big ;; ret (Point (i_data i) (dec (i_label i))))%st.
(** main.cpp 128-130 *)
Definition gen_size (r : reader) : Z := u64 (num_images r - 1).
(** main.cpp 132-134 *)
Definition gen_has (r : reader) : bool := image_index r <? num_images r.
(** main.cpp 136-138 *)
Definition gen_reset (big : bool) (limit : Z) : M reader unit := (_ <- get_image big limit 0 ;; ret tt)%st.
(** main.cpp 114-118: constructor *)
Definition gen_open (big : bool) (limit : Z) (ei el : entry) : res reader :=
  (r <- reader_open big ei el ;; run_state (gen_reset big limit r))%res.
