(* util.py, and row-major index arithmetic. *)
From Verif Require Import Base.

(* util.py:4  tuple([math.prod(shape[i + 1 :]) for i in range(len(shape))]) *)
Definition strides_from_shape (s : list Z) : list Z :=
  map (fun i => zprod (skipn (S i) s)) (seq 0 (length s)).

(* util.py:6  sorted(range(len(seq)), key=seq.__getitem__)  (stable sort) *)
Definition argkey (l : list Z) (i : Z) : Z := match znth l i with Some k => k | None => 0 end.
Fixpoint kinsert (key : Z -> Z) (x : Z) (l : list Z) : list Z :=
  match l with
  | [] => [x]
  | y :: r => if key x <=? key y then x :: l else y :: kinsert key x r
  end.
Definition argsort (l : list Z) : list Z :=
  fold_right (kinsert (argkey l)) [] (zrange (Z.of_nat (length l))).

(* position of an index in the row-major sequence of its shape *)
Definition flat (shape idx : list Z) : Z := dot idx (strides_from_shape shape).

(* the k-th index of a shape in row-major order *)
Fixpoint unflat (shape : list Z) (k : Z) : list Z :=
  match shape with
  | [] => []
  | _ :: r => (k / zprod r) :: unflat r (k mod zprod r)
  end.
