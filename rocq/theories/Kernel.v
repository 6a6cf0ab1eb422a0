(** include/cnn_from_scratch/Layers/Kernel.h and src/Layers/Kernel.cpp: the convolution layer (text input/output is
    in Text.v). *)
From Coq Require Import ZArith List Bool.
From Verif Require Import Base Dim Matrix View Num Expr Batch.
Import ListNotations.
Local Open Scope Z_scope.

Section Kernel.
Context {T : Type} {N : Num T}.

(** Kernel.h 104-115 *)
Record kernel := Kern { k_par : @params T; k_dim : dim3; k_stride : Z; k_n : Z }.
Definition k_w (k : kernel) : mat T := p_w (k_par k).
Definition k_b (k : kernel) : mat T := p_b (k_par k).

(** Kernel.cpp 8-26, ModelLayer.h 16-19: constructor. [filter_dim.z*num_filters_in] is an unsigned product stored
    into an int. *)
Definition k_make (rand : Z -> Z) (rmax : Z) (sqrtT : T -> T) (fd : dim3) (n stride : Z) : res kernel :=
  (b <- mat_fill (D3 (s32 n) 1 1) n0 ;;
   w <- mat_fill (D3 (dx fd) (dy fd) (s32 (u32 (dz fd) * n))) n0 ;;
   wb <- run_state (init_params rand rmax sqrtT (w, b)) ;;
   Ok (Kern (Par (fst wb) (snd wb) [] []) fd stride n))%res.

(** Kernel.cpp 87-89: checkSize: uint32_t compared with int *)
Definition k_check (k : kernel) (x : mat T) : bool := u32 (dz (mdim x)) =? u32 (dz (k_dim k)).

(** Kernel.cpp 94-100: outputSize: uint32_t arithmetic, stored into int *)
Definition k_outdim (k : kernel) (xd : dim3) : dim3 :=
  D3 (s32 (u32 (dx xd) - u32 (dx (k_dim k)) + 1)) (s32 (u32 (dy xd) - u32 (dy (k_dim k)) + 1)) (s32 (k_n k)).

(** Kernel.cpp 105-126: propagateForward. The layer itself is not changed. *)
Definition k_forward (k : kernel) (x : mat T) : res (mat T) :=
  if negb (k_check k x) then Throw LayerExn
  else
    let w := k_w k in
    (o <- mat_fill (k_outdim k (mdim x)) n0 ;;
     run_state (mfor (k_n k) (fun i =>
       filter <- lift (slices (mdim w) (s32 (i * dz (k_dim k))) (dz (k_dim k))) ;;
       mfor (u64 (dz (k_dim k))) (fun j =>
         W <- lift (view_slice (mdim w) filter (s32 j)) ;;
         I <- lift (slice (mdim x) (s32 j)) ;;
         o <- mget ;;
         c <- lift (mk_convolve (l_view (fun _ => x) I) (l_view (fun _ => w) W)
                                (D3 (s32 (k_stride k)) (s32 (k_stride k)) 0) o) ;;
         vo <- lift (slice (mdim o) (s32 i)) ;;
         view_compound_mat op_add vo c) ;;
       o <- mget ;;
       vo <- lift (slice (mdim o) (s32 i)) ;;
       b <- lift (mread_flat (k_b k) i) ;;
       view_compound_scalar op_add vo b)%st o))%res.

(** Kernel.cpp 131-155: getdLdW. [num_channels] is int, [filter_idx] int compared with unsigned; the product is int. *)
Definition k_dw (k : kernel) (x g : mat T) : res (mat T) :=
  let nc := dz (k_dim k) in
  (d <- mat_fill (mdim (k_w k)) n0 ;;
   run_state (mfor (k_n k) (fun f =>
     og <- lift (slice (mdim g) f) ;;
     fc <- lift (i32 (f * nc)) ;;
     d <- mget ;;
     wg <- lift (slices (mdim d) fc nc) ;;
     mfor nc (fun c =>
       I <- lift (slice (mdim x) c) ;;
       d <- mget ;;
       cv <- lift (mk_convolve (l_view (fun _ => x) I) (l_view (fun _ => g) og) (D3 1 1 0) d) ;;
       vo <- lift (view_slice (mdim d) wg c) ;;
       view_assign vo cv))%st d))%res.

(** Kernel.cpp 71-82: padInput *)
Definition pad_input (a : lz (mat T) T) (fd : dim3) : res (mat T) :=
  let d := ldim a mat_empty in
  (tx <- i32 (dx fd - 1) ;; tx <- i32 (2 * tx) ;; px <- i32 (dx d + tx) ;;
   ty <- i32 (dy fd - 1) ;; ty <- i32 (2 * ty) ;; py <- i32 (dy d + ty) ;;
   p <- mat_fill (D3 px py (dz d)) n0 ;;
   sx <- i32 (dx fd - 1) ;; sy <- i32 (dy fd - 1) ;;
   v <- mk_view (mdim p) (D3 sx sy 0) d ;;
   run_state (view_assign v a p))%res.

(** Kernel.cpp 160-189: getdLdX *)
Definition k_dx (k : kernel) (x g : mat T) : res (mat T) :=
  let nc := dz (k_dim k) in
  let w := k_w k in
  (d <- mat_fill (mdim x) n0 ;;
   run_state (mfor (k_n k) (fun f =>
     fc <- lift (i32 (f * nc)) ;;
     filter <- lift (slices (mdim w) fc nc) ;;
     og <- lift (slice (mdim g) f) ;;
     d <- mget ;;
     fg0 <- lift (mat_fill (mdim d) n0) ;;
     fg <- lift (run_state (mfor nc (fun c =>
       fch <- lift (view_slice (mdim w) filter c) ;;
       fg <- mget ;;
       rot <- lift (mk_rotate 2 (l_view (fun _ => g) og) fg) ;;
       pf <- lift (pad_input (l_view (fun _ => w) fch) (vdim og)) ;;
       cv <- lift (mk_convolve (l_val pf) rot (D3 1 1 0) fg) ;;
       vo <- lift (slice (mdim fg) c) ;;
       view_assign vo cv) fg0)) ;;
     e <- lift (mk_elem op_add (l_ref (fun m => m)) (l_val fg) d) ;;
     assign_lz n0 e)%st d))%res.

(** Kernel.cpp 194-203: getdLdB *)
Definition k_db (k : kernel) (g : mat T) : res (mat T) :=
  (d <- mat_fill (mdim (k_b k)) n0 ;;
   run_state (mfor (k_n k) (fun f =>
     og <- lift (slice (mdim g) f) ;;
     s <- lift (sum (l_view (fun _ => g) og) tt) ;;
     mwrite_flat f s)%st d))%res.

Definition with_par (k : kernel) (p : params) : kernel := Kern p (k_dim k) (k_stride k) (k_n k).
Definition on_par {A} (c : M params A) : M kernel A := fun k =>
  match c (k_par k) with
  | ORet p a => ORet (with_par k p) a
  | OThrow p e => OThrow (with_par k p) e
  | OUB => OUB
  end.

(** Kernel.cpp 208-218: propagateBackward *)
Definition k_backward (x g : mat T) (slot : Z) (last : bool) : M kernel (mat T) :=
  (k <- mget ;;
   dw <- lift (k_dw k x g) ;; on_par (store_wg slot dw) ;;
   db <- lift (k_db k g) ;; on_par (store_bg slot db) ;;
   if last then ret mat_empty else lift (k_dx k x g))%st.
End Kernel.
Arguments kernel T : clear implicits.
