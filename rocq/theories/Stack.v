(* Python's recursion limit.  The recursive functions of algo.py, ndarray.backward and materialize again, with the number L of
   frames that are left on Python's stack: a call needs one frame, its callees run with one less, and a call without a frame
   raises RecursionError.  Only the nesting of the recursive calls is counted, not helpers of fixed depth (e.inputs(),
   constructors, lambdas; comprehensions are inlined since Python 3.12). *)
From Verif Require Import Base BaseFacts Util UtilFacts Lang Spec Graph Api Denote SpecFacts DenoteFacts Reach ApiFacts Algo Runtime.
From Verif Require Backward.

(* None = RecursionError *)
Definition lim (A : Type) : Type := option (outcome A).
Definition lbind {A B} (x : lim A) (f : A -> lim B) : lim B :=
  match x with None => None | Some (Throw e) => Some (Throw e) | Some (Done v) => f v end.
Notation "x <! e ;; f" := (lbind e (fun x => f))
  (at level 61, e at next level, right associativity).
Notation "' p <! e ;; f" := (lbind e (fun p => f))
  (at level 61, p pattern, e at next level, right associativity).
Definition fold_lim {A S} (f : A -> S -> lim S) : list A -> S -> lim S :=
  fix go l s := match l with [] => Some (Done s) | x :: r => s' <! f x s ;; go r s' end.
Definition map_lim {A B} (f : A -> lim B) : list A -> lim (list B) :=
  fix go l := match l with [] => Some (Done []) | x :: r => y <! f x ;; ys <! go r ;; Some (Done (y :: ys)) end.

(* algo.py:149-287 *)
Fixpoint arr_to_func_l (L : nat) (g : graph) (a : nat) (E : fenv) : lim fenv :=
  match L with
  | O => None
  | S k =>
      match E a with
      | Some _ => Some (Done E)
      | None =>
          nd <! Some (get g a) ;;
          E1 <! fold_lim (fun i => arr_to_func_l k g i) (n_in nd) E ;;
          e <! Some (conv_expr g a nd) ;;
          Some (Done (fset E1 a (mkF (out_loops a (n_shape nd)) (n_shape nd) (n_dtype nd) e a)))
      end
  end.
(* algo.py:293-298 *)
Fixpoint has_reduce_l (L : nat) (e : expr) : lim bool :=
  match L with
  | O => None
  | S k =>
      match e with
      | ESum _ _ => Some (Done true)
      | EWhere c t f => b <! has_reduce_l k c ;; (if b then Some (Done true) else b <! has_reduce_l k t ;; (if b then Some (Done true) else has_reduce_l k f))
      | EBin _ x y => b <! has_reduce_l k x ;; (if b then Some (Done true) else has_reduce_l k y)
      | EUn _ x => has_reduce_l k x
      | _ => Some (Done false)
      end
  end.
(* algo.py:300-308 *)
Fixpoint replace_index_l (L : nat) (r : ireplace) (e : expr) : lim expr :=
  match L with
  | O => None
  | S k =>
      match e with
      | EIdx l => Some (throw_none KeyErr (ilookup r l))
      | EConst z => Some (Done e)
      | EBin b x y => x' <! replace_index_l k r x ;; y' <! replace_index_l k r y ;; Some (Done (EBin b x' y'))
      | EUn u x => x' <! replace_index_l k r x ;; Some (Done (EUn u x'))
      | EWhere c t f => c' <! replace_index_l k r c ;; t' <! replace_index_l k r t ;; f' <! replace_index_l k r f ;; Some (Done (EWhere c' t' f'))
      | ESum x red => x' <! replace_index_l k r x ;; Some (Done (ESum x' red))
      | EFunc f idx => idx' <! map_lim (replace_index_l k r) idx ;; Some (Done (EFunc f idx'))
      | EBuf n idx => idx' <! map_lim (replace_index_l k r) idx ;; Some (Done (EBuf n idx'))
      end
  end.
(* algo.py:310-317 *)
Fixpoint count_refs_l (L : nat) (E : fenv) (e : expr) (rc : refs) : lim refs :=
  match L with
  | O => None
  | S k =>
      match e with
      | EFunc f _ =>
          let rc1 := rinc rc f in
          if Nat.eqb (rc1 f) 1 then fd <! Some (throw_none InternalErr (E f)) ;; count_refs_l k E (f_expr fd) rc1
          else Some (Done rc1)
      | EIdx _ | EConst _ | EBuf _ _ => Some (Done rc)
      | EUn _ x => count_refs_l k E x rc
      | EBin _ x y => rc1 <! count_refs_l k E x rc ;; count_refs_l k E y rc1
      | EWhere c t f => rc1 <! count_refs_l k E c rc ;; rc2 <! count_refs_l k E t rc1 ;; count_refs_l k E f rc2
      | ESum x _ => count_refs_l k E x rc
      end
  end.
(* algo.py:322-351 *)
Fixpoint try_fuse_l (L : nat) (rc : refs) (e : expr) (E : fenv) : lim (expr * fenv) :=
  match L with
  | O => None
  | S k =>
      match e with
      | EConst _ | EIdx _ | EBuf _ _ => Some (Done (e, E))
      | EUn u x => '(x', E1) <! try_fuse_l k rc x E ;; Some (Done (EUn u x', E1))
      | EBin b x y => '(x', E1) <! try_fuse_l k rc x E ;; '(y', E2) <! try_fuse_l k rc y E1 ;; Some (Done (EBin b x' y', E2))
      | EWhere c t f => '(c', E1) <! try_fuse_l k rc c E ;; '(t', E2) <! try_fuse_l k rc t E1 ;; '(f', E3) <! try_fuse_l k rc f E2 ;; Some (Done (EWhere c' t' f', E3))
      | ESum x red => '(x', E1) <! try_fuse_l k rc x E ;; Some (Done (ESum x' red, E1))
      | EFunc f idx =>
          fd <! Some (throw_none InternalErr (E f)) ;;
          hr <! has_reduce_l k (f_expr fd) ;;
          if Nat.eqb (rc f) 0 then Some (Throw KeyErr)
          else if negb (is_buf (f_expr fd) || (negb hr && Nat.eqb (rc f) 1)) then
            '(e', E1) <! try_fuse_l k rc (f_expr fd) E ;; Some (Done (EFunc f idx, fset E1 f (set_expr fd e')))
          else
            fused <! replace_index_l k (combine (f_loops fd) idx) (f_expr fd) ;; try_fuse_l k rc fused E
      end
  end.
(* algo.py:95-107 *)
Fixpoint func_refs_l (L : nat) (e : expr) : lim (list nat) :=
  match L with
  | O => None
  | S k =>
      match e with
      | EFunc f _ => Some (Done [f])
      | EBin _ x y => a <! func_refs_l k x ;; b <! func_refs_l k y ;; Some (Done (a ++ b))
      | EUn _ x => func_refs_l k x
      | EWhere c t f => a <! func_refs_l k c ;; b <! func_refs_l k t ;; d <! func_refs_l k f ;; Some (Done (a ++ b ++ d))
      | ESum x _ => func_refs_l k x
      | EIdx _ | EConst _ | EBuf _ _ => Some (Done [])
      end
  end.
(* algo.py:355-362 *)
Fixpoint order_l (L : nat) (E : fenv) (f : nat) (st : list nat * list nat) : lim (list nat * list nat) :=
  match L with
  | O => None
  | S k =>
      let '(seen, out) := st in
      if nmem f seen then Some (Done st)
      else
        fd <! Some (throw_none InternalErr (E f)) ;;
        deps <! func_refs_l k (f_expr fd) ;;
        '(seen', out') <! fold_lim (fun d => order_l k E d) (dedup deps []) (f :: seen, out) ;;
        Some (Done (seen', out' ++ [f]))
  end.
(* algo.py:141-364; L frames are left below convert() *)
Definition convert_l (L : nat) (g : graph) (a : nat) : lim (fenv * list nat) :=
  E <! arr_to_func_l L g a (fun _ => None) ;;
  fd <! Some (throw_none InternalErr (E a)) ;;
  rc <! count_refs_l L E (f_expr fd) (fun _ => 0%nat) ;;
  '(e, E1) <! try_fuse_l L rc (f_expr fd) E ;;
  let E2 := fset E1 a (set_expr fd e) in
  '(_, fs) <! order_l L E2 a ([], []) ;;
  Some (Done (E2, fs)).

(* ndarray.py:337-343 the search of backward() *)
Fixpoint dfs_l (L : nat) (g : graph) (t : nat) (st : list nat * list nat) : lim (list nat * list nat) :=
  match L with
  | O => None
  | S k =>
      match nth_error g t with
      | None => Some (Done st)
      | Some nd =>
          match n_in nd with
          | [] => Some (Done st)
          | ins => if Backward.nmem t (fst st) then Some (Done st)
                   else st' <! fold_lim (fun i s => dfs_l k g i s) ins (t :: fst st, snd st) ;;
                        Some (Done (fst st', snd st' ++ [t]))
          end
      end
  end.
(* ndarray.py:330-352 backward(): the seed is set before the search *)
Definition backward_l (L : nat) (g : graph) (gs : Backward.grads) (y : nat) : graph * Backward.grads * lim unit :=
  match (match gs y with
         | Some _ => Done (g, gs)
         | None => '(g1, o) <~ api_ones_like g y ;; Done (g1, Backward.set_grad gs y o)
         end) with
  | Throw e => (g, gs, Some (Throw e))
  | Done (g1, gs1) =>
      match dfs_l L g1 y ([], []) with
      | None => (g1, gs1, None)
      | _ => match Backward.backward g gs y with
             | Throw e => (g1, gs1, Some (Throw e))
             | Done (g', gs') => (g', gs', Some (Done tt))
             end
      end
  end.

Section Mat.
Context (B : cpu_backend).
(* materialize.py:15-33: a view materializes what it views, one level deeper *)
Fixpoint mat_l (L : nat) (s : rt B) (a : nat) : rt B * lim unit :=
  match L with
  | O => (s, None)
  | S k =>
      match nth_error (r_graph B s) a with
      | None => (s, Some (Throw InternalErr))
      | Some nd =>
          if is_const (n_op nd) then (s, Some (Done tt))
          else if is_view (n_op nd) then match n_in nd with b :: _ => mat_l k s b | [] => (s, Some (Throw IndexErr)) end
          else match convert_l k (r_graph B s) a with
               | None => (s, None)
               | Some (Throw e) => (s, Some (Throw e))
               | Some (Done (E, fs)) =>
                   match mapOut (schedule_one B E) fs with
                   | Throw e => (s, Some (Throw e))
                   | Done l => let '(s', r) := run_funcs B E l s in (s', Some r)
                   end
               end
      end
  end.
End Mat.
