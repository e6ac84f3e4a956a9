(* Valid API calls and the graphs a program can build.  [call_ok] lists exactly the argument
   conditions that the code itself does not check (everything it does check may fail freely). *)
From Verif Require Import Base Util Lang Spec Graph Api Denote ArrayLit.

Definition shape_of (g : graph) (a : nat) : list Z :=
  match nth_error g a with Some nd => n_shape nd | None => [] end.
Definition valid (g : graph) (a : nat) : Prop := (a < length g)%nat.

Definition call_ok (g : graph) (c : call) : Prop :=
  match c with
  | CArray v => rectangular v
  | CArange _ => True
  | CFull s _ => nonneg s
  | CFullLike t _ | COnesLike t | CZerosLike t => valid g t
  | CUnary _ a => valid g a
  | CBinary _ l r => valid g l /\ valid g r
  | CBinaryScalar _ l _ => valid g l
  | CSum a _ _ => valid g a
  | CGetitem a _ => valid g a
  | CBroadcastTo a s => valid g a /\ nonneg s /\ bcast_ok (shape_of g a) s
  | CReshape a s => valid g a /\ nonneg s
  | CTranspose a _ => valid g a
  | CT a => valid g a
  | CContiguous a => valid g a
  | CPad a d b f => valid g a /\ 0 <= d /\ 0 <= b /\ 0 <= f
  | CDilate a d st => valid g a /\ 0 <= d /\ 1 <= st /\ 1 <= nth (Z.to_nat d) (shape_of g a) 0
  end.

(* every graph obtainable by a sequence of valid, successful calls (a call that raises leaves the
   graph as it was) *)
Inductive reach : graph -> Prop :=
| reach_nil : reach []
| reach_call g c g' r : reach g -> call_ok g c -> run_call g c = Done (g', r) -> reach g'.
