(** src/main.cpp 147-195: the whole program. *)
From Coq Require Import String ZArith List Bool Lia.
From Verif Require Import Base Dim Matrix View Num Expr Batch Kernel Connected Float32 Pooling Activation Softmax Chars Model Train TrainRest
  Double Stream Text Mnist MnistFacts Main Validate Bar Report.
Import ListNotations.
Local Open Scope Z_scope.

Section Program.
Context {T : Type} {N : Num T} (E : env T) (cast : f32 -> T).
(** What operator<< writes for a float of the console output and for an element of a matrix in a file *)
Context (show : T -> text) (showf : f32 -> text) (wr : T -> text).
Context (big : bool) (limit rmax : Z).

(** How the program ends: it returns 0 from main, having counted [c] of [n] images, printed the text of validate, and
    perhaps saved the model; or an exception leaves main or a thread; or its behaviour is undefined. *)
Inductive ending := Done (c n : Z) (printed : text) (saved : option text) | Failed (e : exn) | Undefined.

(** main.cpp 65 and 93-94; [ms] is the measured time *)
Definition count_text (ms c n : Z) : text :=
  lit "Running model validation test..." ++ nl ++ nl ++ lit "Validation finished in " ++ dec ms ++ lit " milliseconds." ++ nl ++
  lit "Validation accuracy was " ++ showf (accuracy c n) ++ lit "%" ++ nl ++ nl.
(** The model with its layers as they are now *)
Definition with_layers (m : model T text) (ls : list (layer T)) : model T text :=
  Model (combine (map fst (m_layers m)) ls) (m_labels m) (m_kc m) (m_pc m) (m_fc m) (m_ac m).
(** main.cpp 93-105 and 182-188, after the threads have counted; [rs] are the results of rand(). The messages of lines
    183 and 186 are left out. With [save] there is an argument, and the file can be written. *)
Definition report (m : model T text) (ms : Z) (rs : list Z) (save : bool) (o : out (list (layer T)) (Z * Z * reader)) : ending :=
  match o with
  | ORet ls (c, n, rd) =>
      match samples E cast (m_labels m) show big limit rmax n rs (ls, rd, count_text ms c n) with
      | ORet (ls', _, t) _ =>
          if save then
            match save_model wr word_io (with_layers m ls') with
            | Ok (_, f) => Done c n t (Some f)
            | Throw e => Failed e
            | UB => Undefined
            end
          else Done c n t None
      | OThrow _ e => Failed e
      | OUB => Undefined
      end
  | OThrow _ e => Failed e
  | OUB => Undefined
  end.

(** The data points that the generator delivers from state [r] on, as long as hasAvailableData() is true (ModelDescription.tpp
    244-247). If reading one of them is undefined (a file that is too short), [damaged] stands for it: a matrix whose element
    is missing, so that the first use of it in a pass is undefined. *)
Definition damaged : point f32 text := Point (Mat (D3 1 1 1) []) [].
Fixpoint feed (r : reader) (ps : list (point f32 text)) : Prop :=
  match ps with
  | [] => gen_has r = false
  | p :: ps' => gen_has r = true /\
      match gen_next big r with ORet r' q => p = q /\ feed r' ps' | OThrow _ _ => False | OUB => p = damaged /\ ps' = [] end
  end.

(** main.cpp 147-195 for the files [ti], [tl] for training and [vi], [vl] for validation; [u]: uninitialised numbers, [lr]:
    the learning rate, [nt]: the number of threads, [rs]: the results of rand() in line 98, one for each of the five samples. The text of the progress bar is C70's. [P] restricts
    the states of the training threads that are looked at; (fun _ => True) for all executions. *)
Inductive main_run P (ti tl vi vl : entry) (u : nat -> Z) (lr : T) (nt : Z) (rs : list Z) (save : bool) : ending -> Prop :=
| run_open : forall e, gen_open big limit ti tl = Throw e -> main_run P ti tl vi vl u lr nt rs save (Failed e)
| run_open_ub : gen_open big limit ti tl = UB -> main_run P ti tl vi vl u lr nt rs save Undefined
| run_model : forall r e, gen_open big limit ti tl = Ok r -> main_model E u = Throw e -> main_run P ti tl vi vl u lr nt rs save (Failed e)
| run_model_ub : forall r, gen_open big limit ti tl = Ok r -> main_model E u = UB -> main_run P ti tl vi vl u lr nt rs save Undefined
| run_train : forall r m ps ls e, gen_open big limit ti tl = Ok r -> main_model E u = Ok m -> feed r ps ->
    train E cast text_eqb (m_labels m) P (main_params lr nt) (gen_size r) ps (map snd (m_layers m)) ps (OThrow ls e) ->
    main_run P ti tl vi vl u lr nt rs save (Failed e)
| run_train_ub : forall r m ps, gen_open big limit ti tl = Ok r -> main_model E u = Ok m -> feed r ps ->
    train E cast text_eqb (m_labels m) P (main_params lr nt) (gen_size r) ps (map snd (m_layers m)) ps OUB ->
    main_run P ti tl vi vl u lr nt rs save Undefined
| run_all : forall r m ps ls o ms, gen_open big limit ti tl = Ok r -> main_model E u = Ok m -> feed r ps ->
    train E cast text_eqb (m_labels m) P (main_params lr nt) (gen_size r) ps (map snd (m_layers m)) ps (ORet ls tt) ->
    validation E cast (m_labels m) big limit vi vl nt ls o -> length rs = 5%nat ->
    main_run P ti tl vi vl u lr nt rs save (report m ms rs save o).
End Program.
