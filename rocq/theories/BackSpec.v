(* SPECIFICATION for backward(): which arrays y is computed from; which graphs the gradient claims
   cover. *)
From Verif Require Import Base Util Lang Spec Graph Api Denote Reach.

(* y is computed from n (reflexive, transitive use as an operand) *)
Inductive depends (g : graph) : nat -> nat -> Prop :=
| dep_refl n : depends g n n
| dep_step y nd a n : nth_error g y = Some nd -> In a (n_in nd) -> depends g a n -> depends g y n.

(* n is the result of an operation (not a constant) *)
Definition is_op (g : graph) (n : nat) : Prop := exists nd, nth_error g n = Some nd /\ n_in nd <> [].

(* a is an operand of c *)
Definition operand (g : graph) (c a : nat) : Prop := exists nd, nth_error g c = Some nd /\ In a (n_in nd).

(* The operations whose rule is right.
   - broadcast_to must stretch or add an axis, or be applied to a scalar (broadcast_to(own shape) is
     summed over all axes by the rule: a bug, see C28/C30 refutations);
   - a slice with step > 1 must not be empty (the rule would dilate an empty axis). *)
Definition sub_regular (s : nsub) : Prop :=
  match s with NSInt _ => True | NSSlice a b st => st = 1 \/ a < b end.
Definition op_regular (op : nop) (inshape : list Z) : Prop :=
  match op with
  | OBin b => public_bop b = true
  | OBroadcast t => t = [] \/ length t <> length inshape \/ In 1 inshape
  | OSlice subs => Forall sub_regular subs
  | _ => True
  end.
Definition regular (g : graph) (y : nat) : Prop :=
  forall n nd a, depends g y n -> nth_error g n = Some nd -> nth_error (n_in nd) 0 = Some a ->
    op_regular (n_op nd) (shape_of g a).

(* The rules that turn the gradient into a scalar by a reshape: of sum without keepdims, of reshape and of
   broadcast_to (other than to ()), when the operand is a scalar. *)
Definition scalar_rule (op : nop) (s : list Z) : Prop :=
  s = [] /\ match op with OSum _ kd => kd = false | OReshape _ => True | OBroadcast t => t <> [] | _ => False end.

(* Between out and n there is such a step: some operand i of an operation in the expression of out is a scalar whose
   gradient the rule reshapes to (), and i was computed from n. *)
Definition scalar_on_path (g : graph) (out n : nat) : Prop :=
  exists f i nd, depends g out f /\ nth_error g f = Some nd /\ In i (n_in nd) /\ scalar_rule (n_op nd) (shape_of g i) /\ depends g i n.
