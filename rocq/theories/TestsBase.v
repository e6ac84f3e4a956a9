(* A small test runner for Tests.v: the steps of a test method of /repo/test.py on the model. *)
From Verif Require Import Base Util Lang LangInst Spec Graph Api Algo Kernel CacheKey Tolist Runtime RtInst Backward.
From Coq Require Import Floats.SpecFloat.

(* math library given by a table; powers with a small non-negative integral exponent *)
Definition sf_eq (a b : sf) : bool := SFeqb a b.
Definition table_libm (t : list ((uop * sf) * sf)) : libm :=
  mkLibm (fun u x => match find (fun e => match fst e with (u', x') => (if uop_eq_dec u u' then true else false) && sf_eq x x' end) t with
                     | Some (_, y) => Some y
                     | None => None
                     end)
         (fun x y => match f64_trunc y with
                     | Some k => if (0 <=? k) && (k <? 64) && sf_eq (f64_of k 0) y
                                 then Some (Nat.iter (Z.to_nat k) (f64_mul x) (f64_of 1 0)) else None
                     | None => None
                     end).

(* arrays are referred to by the number of the call that produced them *)
Inductive tstep :=
| TCall (c : call)                       (* an API call; its result gets the next number *)
| TErr (c : call)                        (* must raise RuntimeError *)
| TGrad (r : nat)                        (* r.grad; its array gets the next number *)
| TMat (r : nat)
| TBackward (r : nat)
| TList (r : nat) (path : list nat) (v : nest num)       (* r.tolist()[..] == v *)
| TClose (r : nat) (path : list nat) (v : nest num)      (* equal up to 6 decimals *)
| TShape (r : nat) (s : list Z)
| TStrides (r : nat) (s : list Z)
| TOffset (r : nat) (o : Z)
| TNdim (r : nat) (n : Z)
| TDtype (r : nat) (d : dtype)
| TContig (r : nat) (b : bool)
| TSame (r r' : nat)
| TInvokes (n : nat)                     (* number of kernel launches so far *)
| THits (n : nat).                       (* launches served by the kernel cache *)

Definition rename (f : nat -> nat) (c : call) : call :=
  match c with
  | CArray v => CArray v
  | CArange n => CArange n
  | CFull s v => CFull s v
  | CFullLike t v => CFullLike (f t) v
  | COnesLike t => COnesLike (f t)
  | CZerosLike t => CZerosLike (f t)
  | CUnary u a => CUnary u (f a)
  | CBinary b l r => CBinary b (f l) (f r)
  | CBinaryScalar b l v => CBinaryScalar b (f l) v
  | CSum a ax k => CSum (f a) ax k
  | CGetitem a s => CGetitem (f a) s
  | CBroadcastTo a s => CBroadcastTo (f a) s
  | CReshape a s => CReshape (f a) s
  | CTranspose a s => CTranspose (f a) s
  | CT a => CT (f a)
  | CContiguous a => CContiguous (f a)
  | CPad a d x y => CPad (f a) d x y
  | CDilate a d s => CDilate (f a) d s
  end.

Fixpoint nest_eqb {A} (f : A -> num -> bool) (a : nest A) (b : nest num) : bool :=
  match a, b with
  | Leaf x, Leaf y => f x y
  | Nest l, Nest k => (fix go l k := match l, k with
                                     | [], [] => true
                                     | x :: l', y :: k' => nest_eqb f x y && go l' k'
                                     | _, _ => false
                                     end) l k
  | _, _ => false
  end.
Fixpoint nest_at {A} (a : nest A) (p : list nat) : option (nest A) :=
  match p with
  | [] => Some a
  | i :: q => match a with Nest l => match nth_error l i with Some b => nest_at b q | None => None end | _ => None end
  end.

Definition near (a b : sf) : bool := SFltb (SFabs (f64_sub a b)) (f64_of 1 (-21)).   (* < 4.8e-7 *)
Definition num_f (n : num) : sf := match n with NInt z => f64_of z 0 | NFlt m e => f64_of m e end.
Definition py_eq (v : pyval) (n : num) : bool :=
  match v, n with PI a, NInt b => a =? b | PI a, _ => sf_eq (f64_of a 0) (num_f n) | PF f, _ => sf_eq f (num_f n) end.
Definition py_close (v : pyval) (n : num) : bool :=
  match v with PI a => near (f64_of a 0) (num_f n) | PF f => near f (num_f n) end.
Definition c_eq (v : cval) (n : num) : bool :=
  match v, n with
  | (CI32 a | CI64 a), NInt b => a =? b
  | (CI32 a | CI64 a), _ => sf_eq (f64_of a 0) (num_f n)
  | CF f, _ => sf_eq f (num_f n)
  end.
Definition c_close (v : cval) (n : num) : bool := near (c_float v) (num_f n).

Section Run.
Context (B : cpu_backend) (eq close : val (b_lang B) -> num -> bool).
Record tst := mkT { t_rt : rt B; t_gs : grads; t_res : list nat }.
Definition at_ (t : tst) (r : nat) : nat := nth r (t_res t) 0%nat.
(* the state after array nodes were appended outside api_call (backward) *)
Definition grow (s : rt B) (g' : graph) : rt B :=
  mkRt B g' (fun n => if Nat.ltb n (length (r_graph B s)) then r_cpu B s n else
                match nth_error g' n with
                | Some nd => match n_op nd with OConst vals => Some (map (of_num (b_lang B)) vals) | _ => None end
                | None => None
                end) (r_cache B s) (r_tmp B s) (r_runs B s).
Definition same_list (t : tst) (f : val (b_lang B) -> num -> bool) (r : nat) (p : list nat) (v : nest num) : bool :=
  match tolist (r_graph B (t_rt t)) (r_cpu B (t_rt t)) (at_ t r) with
  | Done x => match nest_at x p with Some y => nest_eqb f y v | None => false end
  | Throw _ => false
  end.
Definition on_node (t : tst) (r : nat) (f : node -> bool) : bool :=
  match nth_error (r_graph B (t_rt t)) (at_ t r) with Some nd => f nd | None => false end.

Definition step (t : tst) (x : tstep) : option tst :=
  let check (b : bool) := if b then Some t else None in
  match x with
  | TCall c => match api_call B (t_rt t) (rename (at_ t) c) with
               | (s, Done r) => Some (mkT s (t_gs t) (t_res t ++ [r]))
               | _ => None
               end
  | TErr c => match api_call B (t_rt t) (rename (at_ t) c) with
              | (s, Throw RuntimeErr) => Some (mkT s (t_gs t) (t_res t))
              | _ => None
              end
  | TGrad r => match t_gs t (at_ t r) with
               | Some g => Some (mkT (t_rt t) (t_gs t) (t_res t ++ [g]))
               | None => None
               end
  | TMat r => match materialize B (t_rt t) (at_ t r) with
              | (s, Done _) => Some (mkT s (t_gs t) (t_res t))
              | _ => None
              end
  | TBackward r => match backward (r_graph B (t_rt t)) (t_gs t) (at_ t r) with
                   | Done (g', gs') => Some (mkT (grow (t_rt t) g') gs' (t_res t))
                   | Throw _ => None
                   end
  | TList r p v => check (same_list t eq r p v)
  | TClose r p v => check (same_list t close r p v)
  | TShape r s => check (on_node t r (fun nd => list_zeqb (n_shape nd) s))
  | TStrides r s => check (on_node t r (fun nd => list_zeqb (n_strides nd) s))
  | TOffset r o => check (on_node t r (fun nd => n_offset nd =? o))
  | TNdim r n => check (on_node t r (fun nd => Z.of_nat (length (n_shape nd)) =? n))
  | TDtype r d => check (on_node t r (fun nd => if dtype_eq_dec (n_dtype nd) d then true else false))
  | TContig r b => check (on_node t r (fun nd => Bool.eqb (is_contiguous nd) b))
  | TSame r r' => check (Nat.eqb (at_ t r) (at_ t r'))
  | TInvokes n => check (Nat.eqb (r_runs B (t_rt t)) n)
  | THits n => check (Nat.eqb (r_runs B (t_rt t)) (length (r_cache B (t_rt t)) + n))
  end.
Fixpoint run_test_from (t : tst) (l : list tstep) : bool :=
  match l with
  | [] => true
  | x :: r => match step t x with Some t' => run_test_from t' r | None => false end
  end.
Definition run_test (l : list tstep) : bool := run_test_from (mkT (rt0 B) no_grads []) l.
(* which step fails, for diagnosis *)
Fixpoint first_fail (t : tst) (l : list tstep) (k : nat) : option nat :=
  match l with
  | [] => None
  | x :: r => match step t x with Some t' => first_fail t' r (S k) | None => Some k end
  end.
End Run.
