(* SPECIFICATION.  What every array operation means, on tensors = shape + function from
   multi-indices to elements.  This file knows nothing about strides, offsets, buffers,
   fusion, kernels or schedules. *)
From Verif Require Import Base Util Lang.

Record tensor (V : Type) := mkT { t_shape : list Z; t_at : list Z -> res V }.
Arguments mkT {V} _ _.
Arguments t_shape {V} _.
Arguments t_at {V} _ _.

(* a normalised subscript: one integer, or start/stop/step with 0 <= start,stop <= n, 0 < step *)
Inductive nsub := NSInt (i : Z) | NSSlice (start stop step : Z).

Section Spec.
Context {V : Type}.

Definition t_map (f : V -> res V) (t : tensor V) : tensor V :=
  mkT (t_shape t) (fun idx => x <- t_at t idx ;; f x).

(* pointwise, operands of equal shape *)
Definition t_map2 (f : V -> V -> res V) (a b : tensor V) : tensor V :=
  mkT (t_shape a) (fun idx => x <- t_at a idx ;; y <- t_at b idx ;; f x y).

(* data in row-major order *)
Definition t_data (shape : list Z) (l : list V) : tensor V :=
  mkT shape (fun idx => or_fault (znth l (flat shape idx))).

(* result[idx] = t[j] with j[axes[k]] = idx[k] *)
Definition pos_in (axes : list Z) (a : Z) : Z :=      (* position of a in axes *)
  (fix go (l : list Z) (k : Z) := match l with [] => -1 | x :: r => if x =? a then k else go r (k + 1) end) axes 0.
Definition unpermute (axes idx : list Z) : list Z :=
  map (fun a => nth (Z.to_nat (pos_in axes a)) idx 0) (zrange (Z.of_nat (length axes))).
Definition t_transpose (axes : list Z) (t : tensor V) : tensor V :=
  mkT (map (fun a => nth (Z.to_nat a) (t_shape t) 0) axes) (fun idx => t_at t (unpermute axes idx)).

(* NumPy broadcasting: align on the right, index 0 on axes of extent 1 *)
Fixpoint squash (shape idx : list Z) : list Z :=
  match shape, idx with
  | d :: s, i :: r => (if d =? 1 then 0 else i) :: squash s r
  | _, _ => []
  end.
Definition t_broadcast (target : list Z) (t : tensor V) : tensor V :=
  mkT target (fun idx => t_at t (squash (t_shape t) (skipn (length target - length (t_shape t)) idx))).

(* indexing: integers drop their axis, slices select start, start+step, ... below stop *)
Fixpoint slice_shape (subs : list nsub) : list Z :=
  match subs with
  | [] => []
  | NSInt _ :: r => slice_shape r
  | NSSlice a b st :: r => (if a <? b then (b - a - 1) / st + 1 else 0) :: slice_shape r
  end.
Fixpoint slice_idx (subs : list nsub) (idx : list Z) : list Z :=
  match subs, idx with
  | NSInt i :: r, _ => i :: slice_idx r idx
  | NSSlice a _ st :: r, i :: idx' => (a + i * st) :: slice_idx r idx'
  | _, _ => []
  end.
Definition t_slice (subs : list nsub) (t : tensor V) : tensor V :=
  mkT (slice_shape subs) (fun idx => t_at t (slice_idx subs idx)).

(* same row-major sequence, new shape *)
Definition t_reshape (target : list Z) (t : tensor V) : tensor V :=
  mkT target (fun idx => t_at t (unflat (t_shape t) (flat target idx))).

(* keep the coordinates whose position is not in axes (k = position of the head) *)
Fixpoint drop_axes (axes : list Z) (k : Z) (l : list Z) : list Z :=
  match l with
  | [] => []
  | x :: r => if zmem k axes then drop_axes axes (k + 1) r else x :: drop_axes axes (k + 1) r
  end.
Fixpoint ones_axes (axes : list Z) (k : Z) (l : list Z) : list Z :=
  match l with
  | [] => []
  | x :: r => (if zmem k axes then 1 else x) :: ones_axes axes (k + 1) r
  end.
(* Sum: start from [zero] and add, in row-major order, every element whose remaining
   coordinates are those of idx. *)
Definition sum_positions (axes shape out : list Z) : list (list Z) :=
  filter (fun full => list_zeqb (drop_axes axes 0 full) out) (all_idx shape).
Fixpoint fold_res (f : V -> V -> res V) (acc : V) (xs : list (res V)) : res V :=
  match xs with
  | [] => Ok acc
  | x :: r => v <- x ;; acc' <- f acc v ;; fold_res f acc' r
  end.
Definition t_sum (add : V -> V -> res V) (zero : V) (axes : list Z) (keepdims : bool) (t : tensor V) : tensor V :=
  mkT (if keepdims then ones_axes axes 0 (t_shape t) else drop_axes axes 0 (t_shape t))
      (fun idx => fold_res add zero (map (t_at t)
         (sum_positions axes (t_shape t) (if keepdims then drop_axes axes 0 idx else idx)))).

(* zero padding on one axis *)
Definition t_pad (zero : V) (dim : nat) (before after : Z) (t : tensor V) : tensor V :=
  let n := nth dim (t_shape t) 0 in
  mkT (upd (t_shape t) dim (before + n + after))
      (fun idx => let i := nth dim idx 0 in
         if (before <=? i) && (i <? before + n) then t_at t (upd idx dim (i - before)) else Ok zero).

(* insert step-1 zeros between neighbours on one axis *)
Definition t_dilate (zero : V) (dim : nat) (step : Z) (t : tensor V) : tensor V :=
  let n := nth dim (t_shape t) 0 in
  mkT (upd (t_shape t) dim ((n - 1) * step + 1))
      (fun idx => let i := nth dim idx 0 in
         if i mod step =? 0 then t_at t (upd idx dim (i / step)) else Ok zero).

Definition dummy_tensor : tensor V := mkT [] (fun _ => Fault).

(* The nested list a user sees: shape [] is a bare element. *)
Fixpoint nested (shape : list Z) (f : list Z -> res V) : res (nest V) :=
  match shape with
  | [] => v <- f [] ;; Ok (Leaf v)
  | d :: s => l <- mapM (fun i => nested s (fun r => f (i :: r))) (zrange d) ;; Ok (Nest l)
  end.
Definition t_tolist (t : tensor V) : res (nest V) := nested (t_shape t) (t_at t).

End Spec.
