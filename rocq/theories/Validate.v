(** src/main.cpp 57-106: validate, with all interleavings of the worker threads. *)
From Coq Require Import ZArith List Bool.
From Verif Require Import Base Dim Matrix View Num Expr Batch Kernel Connected Float32 Pooling Activation Softmax Chars Model Train TrainRest Mnist.
Import ListNotations.
Local Open Scope Z_scope.

Section Validate.
Context {T : Type} {N : Num T} (E : env T) (cast : f32 -> T) (labels : list text).

(** ** forwardPropagation(Data.data) of one image in steps (line 84; ModelDescription.tpp 155-183, slot 0).
    All threads use the same slot. A step is one access of a layer; a pooling layer, which writes the indices of its
    windows to the shared slot, makes one step for each of its writes. *)
Inductive vwork :=
| VStart                                                      (* line 84: the call *)
| VFwd (j : nat) (x : mat T) (recs : list (mat T))            (* before layer number j, ModelDescription.tpp 169-175 *)
| VPool (j : nat) (x : mat T) (recs : list (mat T)) (o : mat T) (k : Z) (i : dim3)
                                  (* in Pooling.cpp 56: the output o, k elements are done, element i is next *)
| VEnd (r : results T).                                       (* the call has returned *)

(** Pooling.cpp 48-53: the start of propagateForward for slot 0 *)
Definition pool_begin (x : mat T) (q : pooling) : out pooling (mat T) :=
  match (d <- q_outdim q (mdim x) ;; o <- mat_fill d n0 ;; s <- vget (q_idx q) 0 ;; Ok (o, s))%res with
  | Ok (o, s) =>
      match resize (dim_fill 0) (mdim o) s with
      | ORet s1 _ => if dz (mdim o) <? 0 then OUB else ORet (with_slot q 0 s1) o
      | OThrow s1 e => OThrow (with_slot q 0 s1) e
      | OUB => OUB
      end
  | Throw e => OThrow q e
  | UB => OUB
  end.
(** Pooling.cpp 57-85: one element of the output *)
Definition pool_element (x o : mat T) (i : dim3) (q : pooling) : out pooling (mat T) :=
  match vget (q_idx q) 0 with
  | Ok s => match q_step q x i (o, s) with
            | ORet (o', s') _ => ORet (with_slot q 0 s') o'
            | OThrow (_, s') e => OThrow (with_slot q 0 s') e
            | OUB => OUB
            end
  | Throw e => OThrow q e
  | UB => OUB
  end.
Definition vstep (input : mat f32) (w : vwork) : M (list (layer T)) vwork :=
  match w with
  | VStart =>
      (x <- lift (mat_of_lz n0 cast (l_val input) tt) ;;
       r0 <- lift (float_copy E x) ;;
       ret (VFwd 0 x [r0]))%st
  | VFwd j x recs => fun ls =>
      match nth_error ls j with
      | Some (LPool q) => match pool_begin x q with
                          | ORet q' o => ORet (upd ls j (LPool q')) (VPool j x recs o 0 it_begin)
                          | OThrow q' e => OThrow (upd ls j (LPool q')) e
                          | OUB => OUB
                          end
      | Some _ => (y <- on_nth j (l_forward E x 0) ;; r <- lift (float_copy E y) ;; ret (VFwd (S j) y (recs ++ [r])))%st ls
      | None => (r <- finish E labels x recs ;; ret (VEnd r))%st ls
      end
  | VPool j x recs o k i => fun ls =>
      match nth_error ls j with
      | Some (LPool q) =>
          if dim_eqb i (it_end (mdim o)) then (r <- lift (float_copy E o) ;; ret (VFwd (S j) o (recs ++ [r])))%st ls
          else match pool_element x o i q with
               | ORet q' o' => ORet (upd ls j (LPool q')) (VPool j x recs o' (k + 1) (incr (mdim o) i))
               | OThrow q' e => OThrow (upd ls j (LPool q')) e
               | OUB => OUB
               end
      | _ => OUB
      end
  | VEnd r => ret (VEnd r)
  end.

(** ** The worker threads, main.cpp 76-87. [i] is the loop variable. *)
Inductive vpc :=
| QLoop (i : Z)                                  (* 77: the condition of the loop *)
| QLock (i : Z)                                  (* 79 *)
| QGet (i : Z)                                   (* 80, the mutex is held *)
| QFree (i : Z) (m : image)                      (* 81, the mutex is held *)
| QWork (i : Z) (m : image) (w : vwork)          (* 84 *)
| QCount (i : Z) (m : image) (r : results T)     (* 85 *)
| QDone.                                         (* the thread function has returned *)

(** What the threads share: the layers of the model, db, mtx, correct_count *)
Record vshared := VSh { v_layers : list (layer T); v_reader : reader; v_lock : option nat; v_count : Z; v_pcs : list vpc }.
Inductive vout := VNext (g : vshared) | VBlocked | VStop (e : exn) | VUndef.

Definition vset_pc (t : nat) (c : vpc) (g : vshared) : vshared :=
  VSh (v_layers g) (v_reader g) (v_lock g) (v_count g) (upd (v_pcs g) t c).
Definition vwith_lock (l : option nat) (g : vshared) : vshared := VSh (v_layers g) (v_reader g) l (v_count g) (v_pcs g).

Context (big : bool) (limit : Z).

(** One step of thread number [t]; [nt] is workers.size(), [n] is num_images. The argument of getImage is converted to
    size_t. The addition in line 77 is one of size_t numbers, its result is converted to int. The atomic counter wraps. An
    exception that leaves the thread function ends the program (std::terminate). *)
Definition vgstep (nt n : Z) (t : nat) (g : vshared) : vout :=
  match nth_error (v_pcs g) t with
  | None => VBlocked
  | Some c =>
      match c with
      | QLoop i => VNext (vset_pc t (if i <? n then QLock i else QDone) g)
      | QLock i => match v_lock g with None => VNext (vwith_lock (Some t) (vset_pc t (QGet i) g)) | Some _ => VBlocked end
      | QGet i => match get_image big limit (u64 i) (v_reader g) with
                  | ORet rd m => VNext (vset_pc t (QFree i m) (VSh (v_layers g) rd (v_lock g) (v_count g) (v_pcs g)))
                  | OThrow _ e => VStop e
                  | OUB => VUndef
                  end
      | QFree i m => VNext (vwith_lock None (vset_pc t (QWork i m VStart) g))
      | QWork i m (VEnd r) => VNext (vset_pc t (QCount i m r) g)
      | QWork i m w => match vstep (i_data m) w (v_layers g) with
                       | ORet ls w' => VNext (vset_pc t (QWork i m w') (VSh ls (v_reader g) (v_lock g) (v_count g) (v_pcs g)))
                       | OThrow _ e => VStop e
                       | OUB => VUndef
                       end
      | QCount i m r => match vget labels (r_label r) with
                        | Ok l => VNext (vset_pc t (QLoop (s32 (u64 (i + nt))))
                                    (VSh (v_layers g) (v_reader g) (v_lock g) (s32 (v_count g + if text_eqb l (dec (i_label m)) then 1 else 0)) (v_pcs g)))
                        | Throw e => VStop e
                        | UB => VUndef
                        end
      | QDone => VBlocked
      end
  end.

(** All interleavings *)
Inductive vexec (nt n : Z) : vshared -> vshared -> Prop :=
| vx_nil : forall g, vexec nt n g g
| vx_step : forall g t g' g'', vexec nt n g g' -> vgstep nt n t g' = VNext g'' -> vexec nt n g g''.

(** main.cpp 70-77: the start; int i = worker_idx. Starting a thread is a step of its own in the code: a thread that has
    not been started is one that has not made a step. *)
Definition vstart (nt : Z) (ls : list (layer T)) (rd : reader) : vshared :=
  VSh ls rd None 0 (map (fun t => QLoop (s32 (Z.of_nat t))) (seq 0 (Z.to_nat nt))).
Definition vfinished (g : vshared) : Prop := forall c, In c (v_pcs g) -> c = QDone.

(** A schedule, step by step *)
Fixpoint vrun (nt n : Z) (sched : list nat) (g : vshared) : vout :=
  match sched with
  | [] => VNext g
  | t :: s => match vgstep nt n t g with VNext g' => vrun nt n s g' | o => o end
  end.

(** main.cpp 61-91: the threads of one validation. The files are opened, num_images is the number of images converted to
    int. The validation ends with the count, or by an exception or undefined behaviour in a thread. *)
Inductive validation (ei el : entry) (nt : Z) (ls : list (layer T)) : out (list (layer T)) (Z * Z * reader) -> Prop :=
| val_done : forall rd g, 0 <= nt -> reader_open big ei el = Ok rd -> let n := s32 (num_images rd) in
    vexec nt n (vstart nt ls rd) g -> vfinished g -> validation ei el nt ls (ORet (v_layers g) (v_count g, n, v_reader g))
| val_stop : forall rd g t e, 0 <= nt -> reader_open big ei el = Ok rd -> let n := s32 (num_images rd) in
    vexec nt n (vstart nt ls rd) g -> vgstep nt n t g = VStop e -> validation ei el nt ls (OThrow (v_layers g) e)
| val_undef : forall rd g t, 0 <= nt -> reader_open big ei el = Ok rd -> let n := s32 (num_images rd) in
    vexec nt n (vstart nt ls rd) g -> vgstep nt n t g = VUndef -> validation ei el nt ls OUB
| val_open : forall e, reader_open big ei el = Throw e -> validation ei el nt ls (OThrow ls e)
| val_header : reader_open big ei el = UB -> validation ei el nt ls OUB
| val_length : forall rd, reader_open big ei el = Ok rd -> nt < 0 -> validation ei el nt ls (OThrow ls LengthError).
End Validate.
