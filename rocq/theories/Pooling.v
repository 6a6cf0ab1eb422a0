(** include/cnn_from_scratch/Layers/Pooling.h and src/Layers/Pooling.cpp (text input/output is in Text.v). *)
From Coq Require Import ZArith List Bool.
From Verif Require Import Base Dim Matrix View Num Expr Batch Float32.
Import ListNotations.
Local Open Scope Z_scope.

(** Pooling.h 10-14 *)
Inductive pool_type := PMax | PMin | PAvg.

(** Pooling.h 79-90; [q_dim] and [q_stride] are dim2, their third component is not used *)
Record pooling := Pool { q_dim : dim3; q_stride : dim3; q_type : pool_type; q_idx : list (mat dim3) }.

(** Pooling.cpp 5-11: constructor *)
Definition q_make (d st : dim3) (t : pool_type) : pooling := Pool d st t [mat_empty].

(** Pooling.cpp 30-32: setBatchSize *)
Definition q_batch (n : Z) (q : pooling) : res pooling :=
  (l <- vec_resize mat_empty (q_idx q) n ;; Ok (Pool (q_dim q) (q_stride q) (q_type q) l))%res.

(** Pooling.cpp 37-42: outputSize *)
Definition q_outdim (q : pooling) (d : dim3) : res dim3 :=
  (tx <- i32 (dx d - dx (q_dim q)) ;; x <- ceil_div1 tx (dx (q_stride q)) ;;
   ty <- i32 (dy d - dy (q_dim q)) ;; y <- ceil_div1 ty (dy (q_stride q)) ;;
   Ok (D3 x y (dz d)))%res.

(** Pooling.cpp 58-59, 111: the input index of the window of an output index *)
Definition q_corner (q : pooling) (i : dim3) : res dim3 :=
  (x <- i32 (dx i * dx (q_stride q)) ;; y <- i32 (dy i * dy (q_stride q)) ;; Ok (D3 x y (dz i)))%res.
(** Pooling.cpp 55, 108 *)
Definition q_size (q : pooling) : dim3 := D3 (dx (q_dim q)) (dy (q_dim q)) 1.

Section Pooling.
Context {T : Type} {N : Num T}.

(** Pooling.cpp 23-25: checkSize (not called by the forward pass): uint32_t compared with int *)
Definition q_check (q : pooling) (x : mat T) : bool :=
  (u32 (dx (q_dim q)) <=? u32 (dx (mdim x))) && (u32 (dy (q_dim q)) <=? u32 (dy (mdim x))).

(** Pooling.cpp 56-85: one step of the loop; the state is the output and the slot of selected indices *)
Definition q_step (q : pooling) (x : mat T) (i : dim3) : M (mat T * mat dim3) unit :=
  (c <- lift (q_corner q i) ;;
   v <- lift (mk_view (mdim x) c (q_size q)) ;;
   match q_type q with
   | PAvg => a <- lift (mean (l_view (fun _ => x) v) tt) ;; on_fst (mwrite i a)
   | t =>
       j <- lift (match t with PMin => min_index3 (l_view (fun _ => x) v) tt
                             | _ => max_index3 (l_view (fun _ => x) v) tt end) ;;
       p <- lift (dim_add c j) ;;
       on_snd (mwrite i p) ;;
       a <- lift (mread x p) ;;
       on_fst (mwrite i a)
   end)%st.

Definition with_slot (q : pooling) (k : Z) (m : mat dim3) : pooling :=
  Pool (q_dim q) (q_stride q) (q_type q) (upd (q_idx q) (Z.to_nat k) m).

(** Pooling.cpp 47-87: propagateForward *)
Definition q_forward (x : mat T) (slot : Z) : M pooling (mat T) := fun q =>
  match (d <- q_outdim q (mdim x) ;; o <- mat_fill d n0 ;; s <- vget (q_idx q) slot ;; Ok (o, s))%res with
  | Ok (o, s) =>
      match resize (dim_fill 0) (mdim o) s with
      | ORet s1 _ =>
          match it_loop (mdim o) (fun _ i => q_step q x i) (o, s1) with
          | ORet (o', s') _ => ORet (with_slot q slot s') o'
          | OThrow (_, s') e => OThrow (with_slot q slot s') e
          | OUB => OUB
          end
      | OThrow s1 e => OThrow (with_slot q slot s1) e
      | OUB => OUB
      end
  | Throw e => OThrow q e
  | UB => OUB
  end.

(** Pooling.cpp 92-119: getdLdX *)
Definition q_dx (q : pooling) (x g : mat T) (slot : Z) : res (mat T) :=
  (d <- mat_fill (mdim x) n0 ;;
   s <- vget (q_idx q) slot ;;
   run_state (match q_type q with
     | PAvg =>
         it_loop (mdim g) (fun k i =>
           c <- lift (q_corner q i) ;;
           d <- mget ;;
           v <- lift (mk_view (mdim d) c (q_size q)) ;;
           a <- lift (mread_flat g k) ;;
           view_compound_scalar op_add v (ndiv a (nofZ (u64 (dx (q_dim q) * dy (q_dim q))))))
     | _ =>
         it_loop (mdim s) (fun k i =>
           p <- lift (mread_flat s k) ;;
           a <- lift (mread g i) ;;
           d <- mget ;;
           b <- lift (mread d p) ;;
           mwrite p (nadd b a))
     end%st d))%res.

(** Pooling.cpp 124-129: propagateBackward *)
Definition q_backward (x g : mat T) (slot : Z) : M pooling (mat T) := (q <- mget ;; lift (q_dx q x g slot))%st.
End Pooling.
