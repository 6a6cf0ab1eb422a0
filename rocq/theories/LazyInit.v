(** Several threads in ConnectedLayer::propagateForward of one fully connected layer (src/Layers/ConnectedLayer.cpp 49-91),
    statement by statement. *)
From Coq Require Import ZArith List Bool Lia.
From Verif Require Import Base Dim Matrix View Num Expr Iter Batch Connected TrainInv.
Import ListNotations.
Local Open Scope Z_scope.

Section Lazy.
Context {T : Type} {N : Num T} (rmax : Z) (sqrtT : T -> T).

(** Where a thread is. [e] is its local variable expected_size. *)
Inductive ipc :=
| ITest                      (* 51-52 *)
| IFlag (e : dim3)           (* 53 *)
| IDim (e : dim3)            (* 54 *)
| IAlloc (e : dim3)          (* 57; srand in 55 is part of [rand] *)
| IFillW                     (* 58-60 *)
| IFillB (k : Z)             (* 61-63, [k] values were drawn before *)
| INormW                     (* 66 *)
| INormB                     (* 67 *)
| ICmp (e : dim3)            (* 73, 81-83 *)
| IUse                       (* 87-90 *)
| IDone (o : mat T).

Definition with_w (m : M (mat T) unit) : M (connected T) unit := fun c =>
  match m (c_w c) with
  | ORet w _ => ORet (Conn (Par w (c_b c) (p_wg (c_par c)) (p_bg (c_par c))) (c_in c) (c_ready c)) tt
  | OThrow w e => OThrow (Conn (Par w (c_b c) (p_wg (c_par c)) (p_bg (c_par c))) (c_in c) (c_ready c)) e
  | OUB => OUB
  end.
Definition with_b (m : M (mat T) unit) : M (connected T) unit := fun c =>
  match m (c_b c) with
  | ORet b _ => ORet (Conn (Par (c_w c) b (p_wg (c_par c)) (p_bg (c_par c))) (c_in c) (c_ready c)) tt
  | OThrow b e => OThrow (Conn (Par (c_w c) b (p_wg (c_par c)) (p_bg (c_par c))) (c_in c) (c_ready c)) e
  | OUB => OUB
  end.

(** ConnectedLayer.cpp 49-91: one statement of a thread with input [x]. [rand k] is the k-th value std::rand returns to
    this thread. *)
Definition istep (rand : Z -> Z) (x : mat T) (p : ipc) : M (connected T) ipc :=
  match p with
  | ITest => fun c =>
      match base_size (mdim (c_b c)), base_size (mdim x) with
      | Ok nb, Ok nx => let e := D3 (s32 nb) (s32 nx) 1 in ORet c (if c_ready c then ICmp e else IFlag e)
      | _, _ => OUB
      end
  | IFlag e => fun c => ORet (Conn (c_par c) (c_in c) true) (IDim e)
  | IDim e => fun c => ORet (Conn (c_par c) (mdim x) (c_ready c)) (IAlloc e)
  | IAlloc e => fun c =>
      match mat_fill e n0 with
      | Ok w => ORet (Conn (Par w (c_b c) (p_wg (c_par c)) (p_bg (c_par c))) (c_in c) (c_ready c)) IFillW
      | Throw y => OThrow c y
      | UB => OUB
      end
  | IFillW => (c <- mget ;; with_w (fill_random rand rmax 0) ;; ret (IFillB (Z.of_nat (it_fuel (mdim (c_w c))))))%st
  | IFillB k => (with_b (fill_random rand rmax k) ;; ret INormW)%st
  | INormW => (with_w (normalise sqrtT) ;; ret INormB)%st
  | INormB => (with_b (normalise sqrtT) ;; ret IUse)%st
  | ICmp e => fun c => if dim_eqb (mdim (c_w c)) e then ORet c IUse else OThrow c LayerExn
  | IUse => (c <- mget ;; o <- lift (c_apply (c_w c) (c_b c) x) ;; ret (IDone o))%st
  | IDone o => ret (IDone o)
  end.

(** One thread alone *)
Fixpoint alone (fuel : nat) (rand : Z -> Z) (x : mat T) (p : ipc) : M (connected T) (mat T) :=
  match p, fuel with
  | IDone o, _ => ret o
  | _, O => mub
  | _, S f => (p' <- istep rand x p ;; alone f rand x p')%st
  end.

(** All threads: the shared layer and for every thread its input and its place *)
Record ishared := ISh { i_layer : connected T; i_threads : list (mat T * ipc) }.
Inductive iout := INext (g : ishared) | IBlocked | IStop (e : exn) | IUB.
Definition igstep (rand : nat -> Z -> Z) (t : nat) (g : ishared) : iout :=
  match nth_error (i_threads g) t with
  | None | Some (_, IDone _) => IBlocked
  | Some (x, p) =>
      match istep (rand t) x p (i_layer g) with
      | ORet c p' => INext (ISh c (upd (i_threads g) t (x, p')))
      | OThrow _ e => IStop e
      | OUB => IUB
      end
  end.
Inductive iexec (rand : nat -> Z -> Z) (g0 : ishared) : ishared -> Prop :=
| ie_nil : iexec rand g0 g0
| ie_step : forall t g g', iexec rand g0 g -> igstep rand t g = INext g' -> iexec rand g0 g'.
(** A given schedule, for examples *)
Fixpoint irun (rand : nat -> Z -> Z) (sched : list nat) (g : ishared) : iout :=
  match sched with
  | [] => INext g
  | t :: r => match igstep rand t g with INext g' => irun rand r g' | o => o end
  end.
Definition istart (c : connected T) (xs : list (mat T)) : ishared := ISh c (map (fun x => (x, ITest)) xs).

(** *** One thread alone: propagateForward *)
Lemma alone_S : forall f rand x p, (forall o, p <> IDone o) -> alone (S f) rand x p = (p' <- istep rand x p ;; alone f rand x p')%st.
Proof. intros f rand x p H. destruct p; try reflexivity. exfalso. exact (H o eq_refl). Qed.
Lemma alone_done : forall f rand x o, alone f rand x (IDone o) = ret o.
Proof. destruct f; reflexivity. Qed.
Ltac next := rewrite alone_S by (intros; discriminate); cbn [istep]; unfold bind at 1.
Lemma alone_use : forall f rand x c, alone (S f) rand x IUse c = lift (c_apply (c_w c) (c_b c) x) c.
Proof.
  intros. next. unfold bind, mget, lift. destruct (c_apply (c_w c) (c_b c) x); try reflexivity. cbn [ret]. rewrite alone_done. reflexivity.
Qed.
Theorem alone_forward : forall rand x c, alone 10 rand x ITest c = c_forward rand rmax sqrtT x c.
Proof.
  intros rand x c. unfold c_forward, c_check, bind at 1. next.
  destruct (base_size (mdim (c_b c))) as [nb| |]; [|reflexivity|reflexivity].
  destruct (base_size (mdim x)) as [nx| |]; [|reflexivity|reflexivity]. cbv zeta. destruct (c_ready c) eqn:RD.
  - next. destruct (dim_eqb (mdim (c_w c)) (D3 (s32 nb) (s32 nx) 1)); cbn [negb]; [|reflexivity]. rewrite alone_use. reflexivity.
  - next. next. next. cbn [c_b c_par].
    destruct (mat_fill (D3 (s32 nb) (s32 nx) 1) n0) as [w| |]; [|reflexivity|reflexivity].
    next. unfold init_params, bind, mget, with_w, with_b, on_fst, on_snd, c_w, c_b, ret. cbn [c_par p_w p_b p_wg p_bg c_in c_ready fst snd].
    destruct (fill_random rand rmax 0 w) as [w1 []|w1 e|]; [|reflexivity|reflexivity]. next.
    unfold bind, mget, with_w, with_b, on_fst, on_snd, c_w, c_b, ret. cbn [c_par p_w p_b p_wg p_bg c_in c_ready fst snd].
    destruct (fill_random rand rmax _ (p_b (c_par c))) as [b1 []|b1 e|]; [|reflexivity|reflexivity]. next.
    unfold bind, with_w, with_b, on_fst, on_snd, c_w, c_b, ret. cbn [c_par p_w p_b p_wg p_bg c_in c_ready fst snd].
    destruct (normalise sqrtT w1) as [w2 []|w2 e|]; [|reflexivity|reflexivity]. next.
    unfold bind, with_w, with_b, on_fst, on_snd, c_w, c_b, ret. cbn [c_par p_w p_b p_wg p_bg c_in c_ready fst snd].
    destruct (normalise sqrtT b1) as [b2 []|b2 e|]; [|reflexivity|reflexivity]. rewrite alone_use. reflexivity.
Qed.

(** *** An initialised layer is never changed by a forward pass. *)
Definition iplace (c : connected T) (xp : mat T * ipc) : Prop :=
  match snd xp with
  | ITest | IUse => True
  | ICmp e => exists nb nx, base_size (mdim (c_b c)) = Ok nb /\ base_size (mdim (fst xp)) = Ok nx /\ e = D3 (s32 nb) (s32 nx) 1
  | IDone o => c_apply (c_w c) (c_b c) (fst xp) = Ok o
  | _ => False
  end.
Lemma Forall_upd' : forall {A} (P : A -> Prop) l t v, List.Forall P l -> P v -> List.Forall P (upd l t v).
Proof. induction l; intros t v H HV; destruct t; cbn; inversion H; subst; constructor; auto. Qed.
Theorem ready_exec : forall rand c xs g, c_ready c = true -> iexec rand (istart c xs) g ->
  i_layer g = c /\ map fst (i_threads g) = xs /\ List.Forall (iplace c) (i_threads g).
Proof.
  intros rand c xs g RD H. induction H as [|t g g' H IH ST].
  - cbn. split; [reflexivity|]. split; [rewrite map_map; apply map_id|]. apply Forall_forall. intros xp HI. apply in_map_iff in HI. destruct HI as (x & <- & _). exact I.
  - destruct IH as (IH1 & IH2 & IH3). unfold igstep in ST. destruct (nth_error (i_threads g) t) as [[x p]|] eqn:Q; [|discriminate].
    assert (PL : iplace c (x, p)) by (rewrite Forall_forall in IH3; apply IH3; eapply nth_error_In; exact Q).
    assert (K : exists p', istep (rand t) x p c = ORet c p' /\ iplace c (x, p') /\ g' = ISh c (upd (i_threads g) t (x, p'))).
    { rewrite IH1 in ST. destruct p; cbn [iplace snd fst] in PL; try contradiction; try discriminate; cbn [istep] in *.
      - destruct (base_size (mdim (c_b c))) as [nb| |] eqn:B1; try discriminate. destruct (base_size (mdim x)) as [nx| |] eqn:B2; try discriminate.
        rewrite RD in *. injection ST as <-. eexists. split; [reflexivity|]. split; [|reflexivity]. exists nb, nx. auto.
      - destruct (dim_eqb (mdim (c_w c)) e); try discriminate. injection ST as <-. eexists. split; [reflexivity|]. split; [exact I|reflexivity].
      - unfold bind, mget, lift in *. destruct (c_apply (c_w c) (c_b c) x) as [o| |] eqn:A; try discriminate. cbn in *. injection ST as <-.
        eexists. split; [reflexivity|]. split; [exact A|reflexivity]. }
    destruct K as (p' & _ & PL' & ->). cbn [i_layer i_threads]. split; [reflexivity|]. split; [|apply Forall_upd'; assumption].
    rewrite <- IH2. revert Q. clear. generalize (i_threads g) as l. intros l. revert t. induction l as [|a l IH]; intros t Q; destruct t; cbn in *; try discriminate; [injection Q as ->; reflexivity|].
    f_equal. apply IH. exact Q.
Qed.
(** Every thread that has finished has used these weights; a thread fails only if its input alone would fail. *)
Theorem ready_results : forall rand c xs g t x o, c_ready c = true -> iexec rand (istart c xs) g ->
  nth_error (i_threads g) t = Some (x, IDone o) -> nth_error xs t = Some x /\ c_apply (c_w c) (c_b c) x = Ok o.
Proof.
  intros rand c xs g t x o RD H Q. destruct (ready_exec rand c xs g RD H) as (_ & H2 & H3). split.
  - rewrite <- H2. rewrite nth_error_map, Q. reflexivity.
  - rewrite Forall_forall in H3. exact (H3 _ (nth_error_In _ _ Q)).
Qed.
Theorem ready_no_stop : forall rand c xs g t, c_ready c = true -> iexec rand (istart c xs) g ->
  (forall x, In x xs -> exists o, c_forward (rand t) rmax sqrtT x c = ORet c o) -> (forall e, igstep rand t g <> IStop e) /\ igstep rand t g <> IUB.
Proof.
  intros rand c xs g t RD H OKX. destruct (ready_exec rand c xs g RD H) as (H1 & H2 & H3).
  unfold igstep. destruct (nth_error (i_threads g) t) as [[x p]|] eqn:Q; [|split; [intros e|]; discriminate].
  assert (PL : iplace c (x, p)) by (rewrite Forall_forall in H3; apply H3; eapply nth_error_In; exact Q).
  assert (HX : In x xs). { rewrite <- H2. apply in_map_iff. exists (x, p). split; [reflexivity|]. eapply nth_error_In. exact Q. }
  destruct (OKX x HX) as [o FO]. unfold c_forward, c_check, bind in FO.
  destruct (base_size (mdim (c_b c))) as [nb| |] eqn:B1; try discriminate. destruct (base_size (mdim x)) as [nx| |] eqn:B2; try discriminate.
  rewrite RD in FO. destruct (dim_eqb (mdim (c_w c)) (D3 (s32 nb) (s32 nx) 1)) eqn:DE; cbn in FO; [|discriminate].
  unfold mget, lift in FO. destruct (c_apply (c_w c) (c_b c) x) as [o'| |] eqn:A; try discriminate.
  rewrite H1. destruct p; cbn [iplace snd fst] in PL; try contradiction; cbn [istep]; try (split; [intros e'|]; discriminate).
  - rewrite B1, B2. split; [intros e|]; discriminate.
  - destruct PL as (nb' & nx' & P1 & P2 & ->). rewrite B1 in P1. injection P1 as <-. rewrite B2 in P2. injection P2 as <-. rewrite DE. split; [intros e|]; discriminate.
  - unfold bind, mget, lift. rewrite A. split; [intros e|]; discriminate.
Qed.

(** A forward pass leaves an initialised layer and has used its weights. *)
Theorem first_forward : forall rand x c c' o, c_forward rand rmax sqrtT x c = ORet c' o -> c_ready c' = true /\ c_apply (c_w c') (c_b c') x = Ok o.
Proof.
  intros rand x c c' o H. unfold c_forward in H. apply bind_inv in H. destruct H as (c1 & ok & H1 & H2). destruct ok; cbn [negb] in H2; [|discriminate].
  unfold bind, mget, lift in H2. destruct (c_apply (c_w c1) (c_b c1) x) as [o1| |] eqn:A; try discriminate. injection H2 as <- <-. split; [|exact A].
  unfold c_check in H1. destruct (base_size (mdim (c_b c))); try discriminate. destruct (base_size (mdim x)); try discriminate.
  destruct (c_ready c) eqn:RD; [injection H1 as <- _; exact RD|]. destruct (mat_fill _ _); try discriminate.
  destruct (init_params _ _ _ _) as [[w b] ?|[w b] ?|]; try discriminate. injection H1 as <-. reflexivity.
Qed.
End Lazy.
Arguments ishared T : clear implicits.
Arguments ipc T : clear implicits.
