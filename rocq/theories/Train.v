(** src/ModelDescription.tpp: runEpoch and train, with all interleavings of the worker threads; DataGenerator.h. *)
From Coq Require Import ZArith List Bool.
From Verif Require Import Base Dim Matrix View Num Expr Batch Kernel Connected Float32 Pooling Activation Softmax Chars Model.
Import ListNotations.
Local Open Scope Z_scope.

(** DataGenerator.h 8-12: LabeledInput. The label is passed on as an OutputDataType. *)
Record point (U L : Type) := Point { pt_data : mat U; pt_label : L }.
Arguments Point {U L}. Arguments pt_data {U L}. Arguments pt_label {U L}.

Section Train.
Context {T : Type} {N : Num T} (E : env T).
Context {U L : Type} (cast : U -> T) (eqL : L -> L -> bool) (labels : list L).

(** ** What a worker does with one data point, in steps.
    One step is one access of a layer: the operations of a thread on its own objects are part of the neighbouring step.
    Steps of different threads are interleaved in any order. This is the granularity of a sequentially consistent memory
    in which a whole layer operation is not interrupted; the C++ standard gives data races no meaning at all. Which
    operations of different threads touch the same object is what wstep_frame (TrainInv.v) is about: only the label of
    the output layer, if all fully connected layers are initialised. The initialisation itself is in LazyInit.v in finer
    steps. *)
Inductive work :=
| WStart                                                      (* 251: forwardPropagation is called *)
| WFwd (i : nat) (x : mat T) (recs : list (mat T))            (* before layer number i, 169-175 *)
| WBack (r : results T)                                       (* 252: backwardsPropagation is called *)
| WHand (r : results T)                                       (* before line 202 *)
| WBwd (n : nat) (g : mat T) (r : results T)                  (* 206: layer number n-1 is next *)
| WEnd (r : results T).                                       (* after 252 *)

(** ModelDescription.tpp 187 *)
Definition label_idx (p : point U L) : Z := find_pos eqL labels (pt_label p).

(** ModelDescription.tpp 155-213, one step *)
Definition wstep (slot : Z) (p : point U L) (w : work) : M (list (layer T)) work :=
  match w with
  | WStart =>
      (x <- lift (mat_of_lz n0 cast (l_val (pt_data p)) tt) ;;
       r0 <- lift (float_copy E x) ;;
       ret (WFwd 0 x [r0]))%st
  | WFwd i x recs => fun ls =>
      match nth_error ls i with
      | Some _ =>
          (y <- on_nth i (l_forward E x slot) ;;
           r <- lift (float_copy E y) ;;
           ret (WFwd (S i) y (recs ++ [r])))%st ls
      | None =>
          (n <- lift (base_size (mdim x)) ;;
           (if n =? Z.of_nat (length labels) then ret tt else mthrow AssertFail) ;;
           k <- lift (max_index x) ;;
           v <- lift (mread_flat x k) ;;
           ret (WBack (Results k 0 (nsub n0 n1) (e_rnd E v) recs)))%st ls
      end
  | WBack r => (r' <- lift (assign_loss E r (label_idx p)) ;; ret (WHand r'))%st
  | WHand r => (hand_over (r_true r) ;; ls <- mget ;; ret (WBwd (length ls) mat_empty r))%st
  | WBwd (S i) g r =>
      (x <- lift (vat (r_inputs r) i) ;; z <- lift (vat (r_inputs r) (S i)) ;;
       x <- lift (double_copy x) ;; z <- lift (double_copy z) ;;
       g' <- on_nth i (l_backward E x z g slot (Nat.eqb i 0)) ;;
       ret (WBwd i g' r))%st
  | WBwd O g r => ret (WEnd r)
  | WEnd r => ret (WEnd r)
  end.

(** ** The worker threads. [b] is batch_idx. *)
Inductive pc :=
| PLoop (b : Z)                       (* 242: the condition of the loop *)
| PLock (b : Z)                       (* 243 *)
| PHas (b : Z)                        (* 244, the mutex is held *)
| PNext (b : Z)                       (* 247, the mutex is held *)
| PFree (b : Z) (p : point U L)       (* 248, the mutex is held *)
| PWork (b : Z) (p : point U L) (w : work)  (* 250-252 *)
| PCount (b : Z)                      (* 254-255 *)
| PDone (b : Z).                      (* the thread function has returned *)

(** What the threads share. The data source is the list of the data points it will still deliver (DataGenerator.h
    15-20); batch_results is a vector, its elements start as default constructed objects ([None]). *)
Record shared := Shared {
  g_layers : list (layer T); g_source : list (point U L); g_lock : option nat;
  g_results : list (option (results T)); g_success : Z; g_pcs : list pc }.

Inductive gout := GNext (g : shared) | GBlocked | GStop (e : exn) | GUB.

Definition set_pc (t : nat) (c : pc) (g : shared) : shared :=
  Shared (g_layers g) (g_source g) (g_lock g) (g_results g) (g_success g) (upd (g_pcs g) t c).
Definition with_lock (l : option nat) (g : shared) : shared :=
  Shared (g_layers g) (g_source g) l (g_results g) (g_success g) (g_pcs g).

(** The assignments to the element of batch_results, lines 251 and 187-189 *)
Definition keep_result (b : Z) (w : work) (rs : list (option (results T))) : res (list (option (results T))) :=
  match w with WBack r | WHand r => vset rs b (Some r) | _ => Ok rs end.

(** ModelDescription.tpp 239 *)
Definition cutoff (wc bs : Z) (t : nat) : Z := Z.min ((Z.of_nat t + 1) * wc) bs.

(** ModelDescription.tpp 242-256: one step of thread number [t]. The comparison in line 242 is one of size_t numbers. An
    exception that leaves the thread function ends the program (std::terminate), as does a failed assertion. *)
Definition gstep (wc bs : Z) (t : nat) (g : shared) : gout :=
  match nth_error (g_pcs g) t with
  | None => GBlocked
  | Some c =>
      match c with
      | PLoop b => GNext (set_pc t (if u64 b <? u64 (cutoff wc bs t) then PLock b else PDone b) g)
      | PLock b => match g_lock g with None => GNext (with_lock (Some t) (set_pc t (PHas b) g)) | Some _ => GBlocked end
      | PHas b => match g_source g with
                  | [] => GNext (with_lock None (set_pc t (PDone b) g))
                  | _ => GNext (set_pc t (PNext b) g)
                  end
      | PNext b => match g_source g with
                   | [] => GUB
                   | p :: s => GNext (set_pc t (PFree b p)
                                 (Shared (g_layers g) s (g_lock g) (g_results g) (g_success g) (g_pcs g)))
                   end
      | PFree b p => GNext (with_lock None (set_pc t (PWork b p WStart) g))
      | PWork b p (WEnd _) => GNext (set_pc t (PCount b) g)
      | PWork b p w =>
          match wstep b p w (g_layers g) with
          | ORet ls w' =>
              match keep_result b w' (g_results g) with
              | Ok rs => GNext (set_pc t (PWork b p w') (Shared ls (g_source g) (g_lock g) rs (g_success g) (g_pcs g)))
              | Throw e => GStop e
              | UB => GUB
              end
          | OThrow _ e => GStop e
          | OUB => GUB
          end
      | PCount b =>
          match vget (g_results g) b with
          | Ok (Some r) =>
              GNext (set_pc t (PLoop (b + 1))
                (Shared (g_layers g) (g_source g) (g_lock g) (g_results g)
                   (g_success g + (if r_label r =? r_true r then 1 else 0)) (g_pcs g)))
          | _ => GUB
          end
      | PDone _ => GBlocked
      end
  end.

(** One batch: any sequence of steps through states with [P]; all interleavings are those with [P] always true. *)
Inductive exec (P : shared -> Prop) (wc bs : Z) : shared -> shared -> Prop :=
| exec_nil : forall g, exec P wc bs g g
| exec_step : forall g t g' g'', exec P wc bs g g' -> gstep wc bs t g' = GNext g'' -> P g'' -> exec P wc bs g g''.

(** The same, with the list of the data points taken (ModelDescription.tpp 247): by which thread, for which slot *)
Definition entry := (nat * Z * point U L)%type.
Definition took (t : nat) (g : shared) : list entry :=
  match nth_error (g_pcs g) t, g_source g with Some (PNext b), p :: _ => [(t, b, p)] | _, _ => [] end.
Inductive texec (P : shared -> Prop) (wc bs : Z) (g0 : shared) : shared -> list entry -> Prop :=
| tx_nil : texec P wc bs g0 g0 []
| tx_step : forall t g g' log, texec P wc bs g0 g log -> gstep wc bs t g = GNext g' -> P g' -> texec P wc bs g0 g' (log ++ took t g).

(** Thread [t] has handed over its label (ModelDescription.tpp 202) and not yet called the output layer (206-211). *)
Definition window (g : shared) (t : nat) (b : Z) (p : point U L) : Prop :=
  exists gr r, nth_error (g_pcs g) t = Some (PWork b p (WBwd (length (g_layers g)) gr r)).
(** No two label hand-overs overlap *)
Definition calm (g : shared) : Prop := forall t t' b b' p p', window g t b p -> window g t' b' p' -> t = t'.

Definition finished (g : shared) : Prop := forall c, In c (g_pcs g) -> exists b, c = PDone b.

(** ModelDescription.tpp 235-260: the threads are started; (thread_idx+1) * work_count must not overflow. Starting a
    thread is a step of its own in the code: a thread that has not been started is one that has not made a step. *)
Fixpoint spawn (n : nat) (t : nat) (wc : Z) : res (list pc) :=
  match n with
  | O => Ok []
  | S n' => (s <- i32 (Z.of_nat t * wc) ;; _ <- i32 ((Z.of_nat t + 1) * wc) ;;
             r <- spawn n' (S t) wc ;; Ok (PLoop s :: r))%res
  end.

(** What exists between the batches of an epoch *)
Record estate := Est { s_layers : list (layer T); s_source : list (point U L); s_results : list (option (results T)); s_success : Z }.
Definition start (e : estate) (pcs : list pc) : shared := Shared (s_layers e) (s_source e) None (s_results e) (s_success e) pcs.
Definition est_of (g : shared) : estate := Est (g_layers g) (g_source g) (g_results g) (g_success g).
Definition with_layers (e : estate) (ls : list (layer T)) : estate := Est ls (s_source e) (s_results e) (s_success e).

(** ModelDescription.tpp 233-270: one batch with its update. It ends normally, by an exception of the update, or within a thread. *)
Inductive batch (P : shared -> Prop) (wc bs : Z) (nt : nat) (lr : T) (e : estate) : out estate unit -> Prop :=
| batch_done : forall pcs g, spawn nt 0 wc = Ok pcs -> exec P wc bs (start e pcs) g -> finished g ->
    batch P wc bs nt lr e (map_out (with_layers (est_of g)) (apply_all lr (g_layers g)))
| batch_stop : forall pcs g t x, spawn nt 0 wc = Ok pcs -> exec P wc bs (start e pcs) g -> gstep wc bs t g = GStop x ->
    batch P wc bs nt lr e (OThrow (est_of g) x)
| batch_ub : forall pcs g t, spawn nt 0 wc = Ok pcs -> exec P wc bs (start e pcs) g -> gstep wc bs t g = GUB -> batch P wc bs nt lr e OUB
| batch_overflow : spawn nt 0 wc = UB -> batch P wc bs nt lr e OUB.

(** ModelDescription.tpp 229-274: the loop over the batches *)
Inductive batches (P : shared -> Prop) (wc bs : Z) (nt : nat) (lr : T) : nat -> estate -> out estate unit -> Prop :=
| batches_nil : forall e, batches P wc bs nt lr O e (ORet e tt)
| batches_cons : forall n e e' o, batch P wc bs nt lr e (ORet e' tt) -> batches P wc bs nt lr n e' o -> batches P wc bs nt lr (S n) e o
| batches_stop : forall n e o, batch P wc bs nt lr e o -> (forall e', o <> ORet e' tt) -> batches P wc bs nt lr (S n) e o.

(** ModelDescription.h 42-47 *)
Record hyper := Hyper { h_lr : T; h_bs : Z; h_nt : Z; h_epochs : Z }.

(** ModelDescription.tpp 215-278: runEpoch; [size] is the value of data_source.size(). A negative size of the vectors in
    lines 219 and 225 throws length_error. *)
Inductive epoch (P : shared -> Prop) (h : hyper) (size : Z) (ls : list (layer T)) (src : list (point U L)) : out estate unit -> Prop :=
| epoch_run : forall wc nb o, 0 <= h_nt h -> 0 <= h_bs h -> ceil_div (h_bs h) (h_nt h) = Ok wc -> ceil_div size (h_bs h) = Ok nb ->
    batches P wc (h_bs h) (Z.to_nat (h_nt h)) (h_lr h) (Z.to_nat nb) (Est ls src (repeat None (Z.to_nat (h_bs h))) 0) o ->
    epoch P h size ls src o
| epoch_threads : h_nt h < 0 -> epoch P h size ls src (OThrow (Est ls src [] 0) LengthError)
| epoch_len : forall wc, 0 <= h_nt h -> ceil_div (h_bs h) (h_nt h) = Ok wc -> h_bs h < 0 -> epoch P h size ls src (OThrow (Est ls src [] 0) LengthError)
| epoch_ub : 0 <= h_nt h -> ceil_div (h_bs h) (h_nt h) = UB \/ 0 <= h_bs h /\ ceil_div size (h_bs h) = UB -> epoch P h size ls src OUB.

(** ModelDescription.tpp 290-294: the epochs; reset() makes the source deliver [src] again. *)
Inductive epochs (P : shared -> Prop) (h : hyper) (size : Z) (src : list (point U L)) : nat -> list (layer T) -> list (point U L) -> out (list (layer T)) unit -> Prop :=
| epochs_nil : forall ls s, epochs P h size src O ls s (ORet ls tt)
| epochs_cons : forall n ls s e o, epoch P h size ls s (ORet e tt) -> epochs P h size src n (s_layers e) src o -> epochs P h size src (S n) ls s o
| epochs_throw : forall n ls s e x, epoch P h size ls s (OThrow e x) -> epochs P h size src (S n) ls s (OThrow (s_layers e) x)
| epochs_ub : forall n ls s, epoch P h size ls s OUB -> epochs P h size src (S n) ls s OUB.

(** ModelDescription.tpp 280-295: train *)
Inductive train (P : shared -> Prop) (h : hyper) (size : Z) (src : list (point U L)) (ls : list (layer T)) : list (point U L) -> out (list (layer T)) unit -> Prop :=
| train_run : forall ls' s o, set_batch_all (h_bs h) ls = ORet ls' tt -> epochs P h size src (Z.to_nat (h_epochs h)) ls' s o -> train P h size src ls s o
| train_throw : forall ls' s x, set_batch_all (h_bs h) ls = OThrow ls' x -> train P h size src ls s (OThrow ls' x)
| train_ub : forall s, set_batch_all (h_bs h) ls = OUB -> train P h size src ls s OUB.

(** ** Running a given schedule, for examples *)
Fixpoint run (wc bs : Z) (sched : list nat) (g : shared) : gout :=
  match sched with
  | [] => GNext g
  | t :: r => match gstep wc bs t g with GNext g' => run wc bs r g' | o => o end
  end.
End Train.
