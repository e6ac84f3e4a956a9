(* Specification of nested-list input: when a nested list is a rectangular array of shape s. *)
From Verif Require Import Base Util Lang Spec.

Inductive rect {A} : list Z -> nest A -> Prop :=
| rect_leaf x : rect [] (Leaf x)
| rect_nest d s l : Z.of_nat (length l) = d -> (forall v, In v l -> rect s v) -> rect (d :: s) (Nest l).

Definition rectangular {A} (v : nest A) : Prop := exists s, rect s v.

(* all scalars, left to right *)
Fixpoint leaves {A} (v : nest A) : list A :=
  match v with Leaf x => [x] | Nest l => flat_map leaves l end.

(* the shape up to and including the first 0 (an empty axis hides the axes after it) *)
Fixpoint cut0 (s : list Z) : list Z :=
  match s with [] => [] | d :: r => if d =? 0 then [0] else d :: cut0 r end.

(* every scalar sits at depth d (lists and scalars are not mixed at one level) *)
Inductive depth {A} : nat -> nest A -> Prop :=
| depth_leaf x : depth 0 (Leaf x)
| depth_nest d l : (forall v, In v l -> depth d v) -> depth (S d) (Nest l).

Fixpoint nmap {A B} (f : A -> B) (v : nest A) : nest B :=
  match v with Leaf x => Leaf (f x) | Nest l => Nest (map (nmap f) l) end.
