(** The accuracy of gradients for the network of main.cpp. *)
From Coq Require Import ZArith Bool Lia Reals Lra Psatz List.
From Coquelicot Require Import Coquelicot.
From Flocq Require Import Core BinarySingleNaN.
From Verif Require Import Base Dim Matrix View Num Expr Spec Iter Sums MatFacts MatThms ViewThms ExprThms Batch Kernel Connected Float32
  FloatFacts Pooling Activation Softmax LayerFacts KernelThms KernelGrad BatchThms ConnectedThms PoolingThms PoolGrad ActivationThms SoftmaxThms LayerTotal Calc Chars
  Double Bar BarFacts Model Net NetThms NetPass NetGrad ModelThms Train TrainLocal TrainRest TrainNet TrainSgd Shapes ShapeNet Main ReportFacts FiniteFacts FiniteSoft FiniteInit FiniteNet FiniteReal
  FiniteMain FiniteBack FiniteTrain Rounding RoundLayers RoundNet RoundPass RoundBack.
Import ListNotations.
Local Open Scope Z_scope.

Local Notation fexp64 := (SpecFloat.fexp prec emax).
Local Notation rnd64 := (round radix2 fexp64 ZnearestE).
#[local] Instance valid64 : Valid_exp fexp64 := fexp_correct prec emax prec_pos.
Local Notation fexp32 := (SpecFloat.fexp 24 128).
Local Notation rnd32 := (round radix2 fexp32 ZnearestE).
#[local] Instance valid32 : Valid_exp fexp32 := fexp_correct 24 128 eq_refl.
Local Notation pw := (bpow radix2).


(** ** The network of main.cpp with its initial parameters: the gradients of the fully connected layer *)
Theorem main_dense : forall E, acc_ok E -> B2R (e_c01 E) = d01 -> e_moved E = false -> forall u (cast : f32 -> double) (input : mat f32) J bs i y,
  is_mat input (D3 28 28 1) J -> (forall x y, 0 <= x < 28 -> 0 <= y < 28 -> within 1 8 (cast (J x y 0))) -> 0 <= i < bs -> 0 <= y < 10 ->
  exists m ls body r body2 r', main_model E u = Ok m /\ set_batch_all bs (map snd (m_layers m)) = ORet ls tt /\
    forward_pass E cast 10 input i ls = ORet (body ++ [LSoft (sm_make 10)]) r /\
    backward_pass E r y i (body ++ [LSoft (sm_make 10)]) = ORet (body2 ++ [LSoft (Soft true y 10)]) r' /\
    let rs := real_net main_shapes body in let F := fun x y z => B2R (cast (J x y z)) in
    exists s l gw gb fw fb, nth_error rs 6 = Some s /\ nth_error body2 6 = Some l /\ grads_in l i gw gb /\
      is_mat gw (D3 10 100 1) fw /\ is_mat gb (D3 10 1 1) fb /\
      (forall a b, 0 <= a < 10 -> 0 <= b < 100 -> is_finite (fw a b 0%Z) = true /\ exists D,
        is_derive (fun t => nll (D3 10 1 1) (net_sem (upd rs 6 (setw s (fupd (s_w s) a b 0 t))) (D3 28 28 1) F) y 0 0) (s_w s a b 0%Z) D /\ (Rabs (B2R (fw a b 0%Z) - D) <= pw (-6))%R) /\
      (forall a, 0 <= a < 10 -> is_finite (fb a 0%Z 0%Z) = true /\ exists D,
        is_derive (fun t => nll (D3 10 1 1) (net_sem (upd rs 6 (setb s (fupd (s_b s) a 0 0 t))) (D3 28 28 1) F) y 0 0) (s_b s a 0%Z 0%Z) D /\ (Rabs (B2R (fb a 0%Z 0%Z) - D) <= pw (-6))%R).
Proof.
  intros E AO CV1 ORD u cast input J bs i y HJ BJ Hi Hy. pose proof AO as ((EX & TH & LG & CF & CD & EP & SQ & RN & HR & OD & MX) & EA & TA & CV & EMo & EG).
  destruct (main_small E SQ HR OD MX u) as (m & body & EM & _ & LL & NF & _ & NS).
  destruct (main_model_ok E u) as (m' & body2 & EM' & _ & LL' & _ & ID & _). rewrite EM in EM'. injection EM' as <-. rewrite LL in LL'. apply app_inj_tail in LL'. destruct LL' as [<- _].
  destruct (set_batch_shapes bs body main_shapes (D3 28 28 1) ltac:(lia) NF ID) as (body1 & EB & N1 & N2 & N3 & N4).
  assert (EA1 : set_batch_all bs (body ++ [LSoft (sm_make 10)]) = ORet (body1 ++ [LSoft (sm_make 10)]) tt) by (unfold set_batch_all in *; apply each_app; [exact EB|reflexivity]).
  assert (NS1 : net_small 0 body1 main_shapes (D3 28 28 1)) by (eapply set_batch_small; eassumption).
  destruct (passes_derive_from E AO CV1 ORD 6 0 body1 (sm_make 10) main_shapes (D3 28 28 1) 10 i y 0 0 8 (-60) (-15) _ cast input J (fun x y z => B2R (cast (J x y z))) N1 eq_refl) as
    (body' & r & body2 & r' & A & B & LB & C).
  - apply N3. exact Hi.
  - exact main_fits.
  - repeat constructor.
  - exact HJ.
  - intros a b c (A & B & C). cbn [dx dy dz] in *. replace c with 0 by lia. apply BJ; lia.
  - intros a b c _. rewrite Rminus_diag_eq, Rabs_R0 by reflexivity. left. apply pw_pos.
  - exact NS1.
  - lia.
  - lia.
  - vm_compute. intuition congruence.
  - vm_compute. congruence.
  - vm_compute. congruence.
  - vm_compute. intuition congruence.
  - vm_compute. intuition congruence.
  - unfold prob_err. change (h_net_out main_shapes (D3 28 28 1)) with (D3 10 1 1).
    change (h_net_err 0 main_shapes (D3 28 28 1) 8 (-60)) with (-18). change (h_net_exp 0 main_shapes (D3 28 28 1) 8) with 12.
    change (-18 + 2) with (-16). change (12 - 50) with (-38). change (vol (D3 10 1 1) + 3) with 13.
    assert (A1 : (pw (-38) <= pw (-18))%R) by (apply bpow_le; lia). assert (A2 : (13 * pw (-51) <= pw (-18))%R).
    { apply Rle_trans with (16 * pw (-51))%R; [pose proof (pw_pos (-51)); lra|]. change 16%R with (pw 4). rewrite pw_mul. apply bpow_le. lia. }
    assert (A3 : (pw (-25) <= pw (-18))%R) by (apply bpow_le; lia). pose proof (pw_pos (-18)).
    assert (A4 : (pw (-16) = 4 * pw (-18))%R) by (change 4%R with (pw 2); rewrite pw_mul; reflexivity).
    assert (A5 : (pw (-15) = 8 * pw (-18))%R) by (change 8%R with (pw 3); rewrite pw_mul; reflexivity). lra.
  - unfold inb. change (h_net_out main_shapes (D3 28 28 1)) with (D3 10 1 1). cbn [dx dy dz]. lia.
  - intros b0 sm' r0 _. unfold main_shapes. do 7 (destruct b0 as [|? b0]; [exact Logic.I|]). cbn [real_net net_apart_from net_apart apart]. auto.
  - change (h_net_out main_shapes (D3 28 28 1)) with (D3 10 1 1) in *. assert (LY : lin (D3 10 1 1) y 0 0 = y) by (unfold lin; cbn [dx dy dz]; lia). rewrite LY in B.
    exists m, (body1 ++ [LSoft (sm_make 10)]), body', r, body2, r'. split; [exact EM|]. rewrite LL. split; [exact EA1|]. split; [exact A|]. split; [exact B|]. cbv zeta in C |- *.
    assert (NE : exists s, nth_error (real_net main_shapes body') 6 = Some s).
    { unfold main_shapes in *. do 7 (destruct body' as [|? body']; [discriminate LB|]). eexists. reflexivity. }
    destruct NE as (s & Hs). destruct (C 6%nat (HConn 10) s ltac:(lia) eq_refl eq_refl Hs) as (l & gw & gb & k & fw & fb & Hl & HG & K1 & K2 & K3 & K4 & K5).
    vm_compute in K1. injection K1 as <-.
    assert (DM : net_dim (real_net main_shapes body') (D3 28 28 1) 6 = D3 5 5 4) by (rewrite real_dim by exact LB; reflexivity). rewrite DM in *.
    destruct (real_net_nth _ _ _ _ Hs) as (s0 & l0 & M1 & M2 & ES). injection M1 as <-.
    destruct (real_wdim (HConn 10) l0 (D3 5 5 4)) as (WD & BD). rewrite <- ES in WD, BD. rewrite WD in K2, K4. rewrite BD in K3, K5. cbn [h_wdim h_bdim] in *. change (vol (D3 5 5 4)) with 100 in *.
    exists s, l, gw, gb, fw, fb. split; [exact Hs|]. split; [exact Hl|]. split; [exact HG|]. split; [exact K2|]. split; [exact K3|]. split.
    + intros a b Ha Hb. destruct (K4 a b 0) as (Q1 & D & Q2 & Q3); [unfold inb; cbn [dx dy dz]; lia|]. split; [exact Q1|]. exists D. split; [exact Q2|exact Q3].
    + intros a Ha. destruct (K5 a 0 0) as (Q1 & D & Q2 & Q3); [unfold inb; cbn [dx dy dz]; lia|]. split; [exact Q1|]. exists D. split; [exact Q2|exact Q3].
Qed.
