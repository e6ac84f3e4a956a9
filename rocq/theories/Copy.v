(* When two arrays are "the same expression": the graphs below them are equal up to the identity of
   the arrays and the numbers stored in the constants.  Specification only. *)
From Verif Require Import Base Util Lang Spec Graph Api Algo Kernel CacheKey Runtime.

(* same operation with the same parameters; constants may hold different numbers *)
Definition same_op (o1 o2 : nop) : Prop :=
  match o1, o2 with OConst _, OConst _ => True | _, _ => o1 = o2 end.
Definition same_node (r : nat -> nat) (x y : node) : Prop :=
  n_dtype y = n_dtype x /\ n_shape y = n_shape x /\ n_strides y = n_strides x /\ n_offset y = n_offset x /\
  same_op (n_op x) (n_op y) /\ n_in y = map r (n_in x).
(* [r] maps the arrays [dom] of g1, one to one, to arrays of g2 with the same operation, parameters,
   dtype, shape, strides and offset, and corresponding inputs *)
Definition copies (dom : list nat) (r : nat -> nat) (g1 g2 : graph) : Prop :=
  (forall n m, In n dom -> In m dom -> r n = r m -> n = m) /\
  forall n, In n dom -> exists x y, nth_error g1 n = Some x /\ nth_error g2 (r n) = Some y /\ same_node r x y /\ incl (n_in x) dom.
Definition same_expr (g1 : graph) (a1 : nat) (g2 : graph) (a2 : nat) : Prop :=
  exists dom r, In a1 dom /\ r a1 = a2 /\ copies dom r g1 g2.

(* an API call with its operands renamed *)
Definition rename_call (f : nat -> nat) (c : call) : call :=
  match c with
  | CArray v => CArray v
  | CArange n => CArange n
  | CFull s v => CFull s v
  | CFullLike t v => CFullLike (f t) v
  | COnesLike t => COnesLike (f t)
  | CZerosLike t => CZerosLike (f t)
  | CUnary u a => CUnary u (f a)
  | CBinary b l r => CBinary b (f l) (f r)
  | CBinaryScalar b l v => CBinaryScalar b (f l) v
  | CSum a ax k => CSum (f a) ax k
  | CGetitem a s => CGetitem (f a) s
  | CBroadcastTo a s => CBroadcastTo (f a) s
  | CReshape a s => CReshape (f a) s
  | CTranspose a s => CTranspose (f a) s
  | CT a => CT (f a)
  | CContiguous a => CContiguous (f a)
  | CPad a d x y => CPad (f a) d x y
  | CDilate a d s => CDilate (f a) d s
  end.

(* the arrays a call works on *)
Definition call_args (c : call) : list nat :=
  match c with
  | CArray _ | CArange _ | CFull _ _ => []
  | CFullLike t _ | COnesLike t | CZerosLike t => [t]
  | CUnary _ a | CBinaryScalar _ a _ | CSum a _ _ | CGetitem a _ | CBroadcastTo a _ | CReshape a _ | CTranspose a _ | CT a
  | CContiguous a | CPad a _ _ _ | CDilate a _ _ => [a]
  | CBinary _ l r => [l; r]
  end.

(* the same call on other arrays and with other numbers in its literals: nested lists of the same
   form, with ints where there were ints *)
Definition same_num (x y : num) : Prop := num_is_int y = num_is_int x.
Inductive same_nest : nest num -> nest num -> Prop :=
| sn_leaf x y : same_num x y -> same_nest (Leaf x) (Leaf y)
| sn_nest l k : Forall2 same_nest l k -> same_nest (Nest l) (Nest k).
Definition same_call (f : nat -> nat) (c1 c2 : call) : Prop :=
  match c1, c2 with
  | CArray v, CArray w => same_nest v w
  | CFull s v, CFull t w => t = s /\ same_num v w
  | CFullLike a v, CFullLike b w => b = f a /\ same_num v w
  | CBinaryScalar o a v, CBinaryScalar o' b w => o' = o /\ b = f a /\ same_num v w
  | CArray _, _ | CFull _ _, _ | CFullLike _ _, _ | CBinaryScalar _ _ _, _ => False
  | _, _ => c2 = rename_call f c1
  end.

(* A program fragment (a loop body): API calls and materialize() calls.  Its operands are positions
   in the list of the arrays at hand: those it was given, then the results of its calls, in order. *)
Inductive bstep := DoCall (c : call) | DoMat (i : nat).
Section Body.
Context (B : cpu_backend).
Fixpoint run_body (l : list bstep) (env : list nat) (s : rt B) : rt B * outcome (list nat) :=
  match l with
  | [] => (s, Done env)
  | DoCall c :: l' =>
      if forallb (fun i => Nat.ltb i (length env)) (call_args c) then
        match api_call B s (rename_call (fun i => nth i env 0%nat) c) with
        | (s', Done n) => run_body l' (env ++ [n]) s'
        | (s', Throw e) => (s', Throw e)
        end
      else (s, Throw InternalErr)
  | DoMat i :: l' =>
      if Nat.ltb i (length env) then
        match materialize B s (nth i env 0%nat) with
        | (s', Done _) => run_body l' env s'
        | (s', Throw e) => (s', Throw e)
        end
      else (s, Throw InternalErr)
  end.
End Body.
Definition same_step (x y : bstep) : Prop :=
  match x, y with DoCall c, DoCall c' => same_call (fun i => i) c c' | DoMat i, DoMat j => j = i | _, _ => False end.
