(* Small independent specifications used by the frontend properties (C15-C27, C33, C42). *)
From Verif Require Import Base Util Lang Spec Graph Api Denote Reach.

(* ---- Python slicing: the positions s[start:stop:step] visits in a sequence of length n.
   Language reference: None defaults to the ends, negative bounds count from the end, bounds are
   clamped to [0, n]; then lo, lo+step, ... below hi. *)
Definition py_bound (n x : Z) : Z := if x <? 0 then Z.max 0 (n + x) else Z.min n x.
Definition py_positions (n : Z) (start stop step : option Z) : list Z :=
  let lo := match start with None => 0 | Some x => py_bound n x end in
  let hi := match stop with None => n | Some x => py_bound n x end in
  let st := match step with None => 1 | Some x => x end in
  filter (fun p => (lo <=? p) && (p <? hi) && ((p - lo) mod st =? 0)) (zrange n).

(* [selects subs shape idx src]: element idx of a[subs] is element src of a *)
Inductive selects : list sub -> list Z -> list Z -> list Z -> Prop :=
| sel_done : selects [] [] [] []
| sel_rest n s i idx src : 0 <= i < n -> selects [] s idx src -> selects [] (n :: s) (i :: idx) (i :: src)
| sel_int i n subs s idx src p : p = (if i <? 0 then n + i else i) -> 0 <= p < n ->
    selects subs s idx src -> selects (SInt i :: subs) (n :: s) idx (p :: src)
| sel_slice a b st n subs s i idx src p :
    znth (py_positions n a b st) i = Some p ->
    selects subs s idx src -> selects (SSlice a b st :: subs) (n :: s) (i :: idx) (p :: src).

(* the shape of a[subs] *)
Fixpoint selected_shape (subs : list sub) (shape : list Z) : list Z :=
  match subs, shape with
  | [], s => s
  | SInt _ :: subs', _ :: s => selected_shape subs' s
  | SSlice a b st :: subs', n :: s => Z.of_nat (length (py_positions n a b st)) :: selected_shape subs' s
  | SOther :: _, _ | _, [] => []
  end.

(* which subscripts are legal on an axis of extent n *)
Definition sub_legal (s : sub) (n : Z) : Prop :=
  match s with
  | SInt i => - n <= i < n
  | SSlice _ _ st => match st with None => True | Some k => 0 < k end
  | SOther => False
  end.
Fixpoint subs_legal (subs : list sub) (shape : list Z) : Prop :=
  match subs, shape with
  | [], _ => True
  | s :: subs', n :: sh => sub_legal s n /\ subs_legal subs' sh
  | _ :: _, [] => False
  end.

(* ---- NumPy broadcasting, on shapes read from the right *)
Fixpoint np_rev (a b : list Z) : option (list Z) :=
  match a, b with
  | [], _ => Some b
  | _, [] => Some a
  | x :: a', y :: b' =>
      match np_rev a' b' with
      | None => None
      | Some r => if x =? y then Some (x :: r) else if x =? 1 then Some (y :: r)
                  else if y =? 1 then Some (x :: r) else None
      end
  end.
Definition np_broadcast (s t : list Z) : option (list Z) :=
  match np_rev (rev s) (rev t) with Some r => Some (rev r) | None => None end.
(* the element of an operand of shape s used at position idx of the result: coordinates read from
   the right, 0 where the operand has extent 1 *)
Fixpoint np_pick_rev (s idx : list Z) : list Z :=
  match s, idx with
  | n :: s', i :: r => (if n =? 1 then 0 else i) :: np_pick_rev s' r
  | _, _ => []
  end.
Definition np_pick (s idx : list Z) : list Z := rev (np_pick_rev (rev s) (rev idx)).

(* ---- sum: positions that agree with out on the axes that are kept *)
Definition agrees (axes : list Z) (out full : list Z) : Prop := drop_axes axes 0 full = out.
(* an axis argument in user notation *)
Definition user_axis (ndim a : Z) : Z := if a <? 0 then ndim + a else a.

(* lexicographic (row-major) order on positions *)
Fixpoint lex_lt (a b : list Z) : Prop :=
  match a, b with
  | x :: a', y :: b' => x < y \/ (x = y /\ lex_lt a' b')
  | [], _ :: _ => True
  | _, [] => False
  end.

(* ---- an integer index counted from the end when negative *)
Definition from_end (n i : Z) : Z := if i <? 0 then n + i else i.
Fixpoint from_ends (s is : list Z) : list Z :=
  match s, is with n :: s', i :: is' => from_end n i :: from_ends s' is' | _, _ => [] end.

(* ---- dtypes *)
Definition dtype_of (g : graph) (a : nat) : option dtype := option_map n_dtype (nth_error g a).
(* first array operand of a call *)
Definition first_operand (c : call) : option nat :=
  match c with
  | CUnary _ a | CBinary _ a _ | CBinaryScalar _ a _ | CSum a _ _ | CGetitem a _ | CBroadcastTo a _
  | CReshape a _ | CTranspose a _ | CT a | CContiguous a | CPad a _ _ _ | CDilate a _ _ => Some a
  | _ => None
  end.
(* the dtype rule for data: decided by the first number, float64 when there is none *)
Definition data_dtype (v : option num) : dtype := match v with Some (NInt _) => Int64 | _ => Float64 end.

(* ---- the leaf of a nested list reached by following idx *)
Fixpoint follow {X} (v : nest X) (idx : list Z) : option X :=
  match v, idx with
  | Leaf x, [] => Some x
  | Nest l, i :: r => if i <? 0 then None else
      (fix nthv (l : list (nest X)) (k : nat) : option X :=
         match l, k with w :: _, O => follow w r | _ :: l', S k' => nthv l' k' | [], _ => None end) l (Z.to_nat i)
  | _, _ => None
  end.
