(* SPECIFICATION of gradients, over exact real arithmetic: what it means to vary the contents of one
   array, and at which points the expression is differentiable as written. *)
From Coq Require Import Reals Lra.
From Verif Require Import Base Util Lang Spec Graph Api Denote Reach BackSpec RealAlg.
Local Open Scope R_scope.

(* contents of every array of the program when array x holds tx instead of its own contents *)
Definition dens_with (x : nat) (tx : tensor R) (g : graph) : list (tensor R) :=
  fold_left (fun ts nd => ts ++ [if Nat.eqb (length ts) x then tx else den_node RA ts nd]) g [].
Definition den_with (x : nat) (tx : tensor R) (g : graph) (n : nat) : tensor R := nth n (dens_with x tx g) dummy_tensor.

(* x moved by t in direction e *)
Definition moved (g : graph) (x : nat) (e : list Z -> R) (t : R) : tensor R :=
  mkT (t_shape (den RA g x)) (fun idx => v <- t_at (den RA g x) idx ;; Ok (v + t * e idx)).
(* direction "element i" *)
Definition unit_at (i : list Z) : list Z -> R := fun j => if list_zeqb j i then 1 else 0.

(* sum of all elements *)
Definition total (s : list Z) (t : tensor R) : R := rsum (all_idx s) (fun idx => rv (t_at t idx)).

(* weighted sum of all elements *)
Definition weighted (s : list Z) (w : list Z -> R) (t : tensor R) : R := rsum (all_idx s) (fun idx => w idx * rv (t_at t idx)).

(* The point is inside the domain: every element that y is computed from is defined (no division by
   0, no log of a non-positive number, ...), and where the result depends on x,
   - the argument of sqrt is positive,
   - x ** y has a positive base, or an exponent that does not depend on x, is an integer n, and the base is
     not 0 or n >= 1. *)
Record smooth (g : graph) (y x : nat) : Prop := {
  sm_defined : forall n idx, depends g y n -> in_range (shape_of g n) idx -> exists v, t_at (den RA g n) idx = Ok v;
  sm_sqrt : forall n nd a idx v, depends g y n -> nth_error g n = Some nd -> n_op nd = OUn USqrt -> nth_error (n_in nd) 0 = Some a ->
    depends g a x -> in_range (shape_of g a) idx -> t_at (den RA g a) idx = Ok v -> 0 < v;
  sm_pow : forall n nd a b idx u w, depends g y n -> nth_error g n = Some nd -> n_op nd = OBin BPow ->
    nth_error (n_in nd) 0 = Some a -> nth_error (n_in nd) 1 = Some b -> depends g a x \/ depends g b x ->
    in_range (shape_of g a) idx -> t_at (den RA g a) idx = Ok u -> t_at (den RA g b) idx = Ok w ->
    0 < u \/ (~ depends g b x /\ exists n, w = IZR n /\ (u <> 0 \/ (1 <= n)%Z))
}.
