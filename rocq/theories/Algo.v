(* algo.py: from arrays to Funcs, reference counts, fusion, kernel order, kernel arguments.

   A Func object created by arr_to_func is identified by its array (memo keeps one Func per array);
   its mutable field .expr lives in [fenv].  A LoopIndex object is identified by its owner array,
   whether it is a reduction index, and its position (algo.py:142-145,154,238). *)
From Verif Require Import Base Util Lang Spec Graph Api.

(* algo.py:8-13 *)
Record lidx := mkL { l_own : nat; l_red : bool; l_pos : nat; l_ext : Z }.
Definition lidx_eqb (a b : lidx) : bool :=
  Nat.eqb (l_own a) (l_own b) && Bool.eqb (l_red a) (l_red b) && Nat.eqb (l_pos a) (l_pos b) && (l_ext a =? l_ext b).

(* algo.py:19-85.  TernaryExpr only ever carries Ops.Where, ReduceExpr only Ops.Sum. *)
Inductive expr :=
| EIdx (l : lidx)
| EConst (z : Z)
| EBin (b : bop) (l r : expr)
| EUn (u : uop) (e : expr)
| EWhere (c t f : expr)
| ESum (e : expr) (reduced : list lidx)
| EFunc (f : nat) (idx : list expr)
| EBuf (n : nat) (idx : list expr).

(* algo.py:87-93; f_out = the array whose buffer is written *)
Record func := mkF { f_loops : list lidx; f_shape : list Z; f_dtype : dtype; f_expr : expr; f_out : nat }.
Definition fenv := nat -> option func.
Definition fset (E : fenv) (a : nat) (f : func) : fenv := fun b => if Nat.eqb b a then Some f else E b.

Fixpoint mapi_from {A B} (k : nat) (f : nat -> A -> B) (l : list A) : list B :=
  match l with [] => [] | x :: r => f k x :: mapi_from (S k) f r end.
(* algo.py:154 *)
Definition out_loops (a : nat) (shape : list Z) : list lidx := mapi_from 0 (fun i s => mkL a false i s) shape.

Definition throw_none {A} (e : exn) (o : option A) : outcome A := match o with Some x => Done x | None => Throw e end.
Fixpoint mapOut {A B} (f : A -> outcome B) (l : list A) : outcome (list B) :=
  match l with [] => Done [] | x :: r => y <~ f x ;; ys <~ mapOut f r ;; Done (y :: ys) end.

(* algo.py:167-170 *)
Definition conv_transpose (loops : list lidx) (axes : list Z) : outcome (list expr) :=
  let inv := argsort axes in
  mapOut (fun k => p <~ throw_none IndexErr (znth inv k) ;; l <~ throw_none IndexErr (pynth loops p) ;; Done (EIdx l))
         (zrange (Z.of_nat (length axes))).

(* algo.py:172-177 *)
Definition conv_broadcast (loops : list lidx) (target inp : list Z) : outcome (list expr) :=
  let diff := Z.of_nat (length target) - Z.of_nat (length inp) in
  let padded := repeat 1 (Z.to_nat diff) ++ inp in
  mapOut (fun k0 => let k := k0 + diff in
            p <~ throw_none IndexErr (pynth padded k) ;;
            if p =? 1 then Done (EConst 0)
            else l <~ throw_none IndexErr (pynth loops k) ;; Done (EIdx l))
         (zrange (Z.of_nat (length target) - diff)).

(* algo.py:179-195; loops = the remaining out_loops[out_dim:] *)
Fixpoint conv_slice (loops : list lidx) (subs : list nsub) : outcome (list expr) :=
  match subs with
  | [] => Done []
  | NSInt s :: r => es <~ conv_slice loops r ;; Done (EConst s :: es)
  | NSSlice start _ step :: r =>
      match loops with
      | [] => Throw IndexErr
      | l :: loops' =>
          es <~ conv_slice loops' r ;;
          Done ((if (start =? 0) && (step =? 1) then EIdx l
                 else if start =? 0 then EBin BMul (EIdx l) (EConst step)
                 else if step =? 1 then EBin BAdd (EConst start) (EIdx l)
                 else EBin BAdd (EConst start) (EBin BMul (EIdx l) (EConst step))) :: es)
      end
  end.

(* functools.reduce without initial value *)
Definition reduce_add (l : list expr) : outcome expr :=
  match l with [] => Throw TypeErr | x :: r => Done (fold_left (fun a b => EBin BAdd a b) r x) end.
(* algo.py:197-209 *)
Fixpoint conv_reshape_split (remaining : expr) (inp_strides : list Z) : list expr :=
  match inp_strides with
  | [] => []
  | [_] => [remaining]
  | s :: r => EBin BFloordiv remaining (EConst s) :: conv_reshape_split (EBin BMod remaining (EConst s)) r
  end.
Definition conv_reshape (loops : list lidx) (shape inp_shape : list Z) : outcome (list expr) :=
  flat <~ reduce_add (map (fun '(l, s) => EBin BMul (EIdx l) (EConst s)) (combine loops (strides_from_shape shape))) ;;
  Done (conv_reshape_split flat (strides_from_shape inp_shape)).

(* Python dict: assignment keeps the position of an existing key *)
Fixpoint dict_set {V} (d : list (Z * V)) (k : Z) (v : V) : list (Z * V) :=
  match d with [] => [(k, v)] | (k', v') :: r => if k' =? k then (k, v) :: r else (k', v') :: dict_set r k v end.
Fixpoint dict_get {V} (d : list (Z * V)) (k : Z) : option V :=
  match d with [] => None | (k', v') :: r => if k' =? k then Some v' else dict_get r k end.
(* algo.py:238 *)
Definition reduced_dict (a : nat) (axis inp_shape : list Z) : outcome (list (Z * lidx)) :=
  let fix go (axs : list Z) (i : nat) (d : list (Z * lidx)) :=
    match axs with
    | [] => Done d
    | ax :: r => ext <~ throw_none IndexErr (pynth inp_shape ax) ;; go r (S i) (dict_set d ax (mkL a true i ext))
    end in go (zsort axis) 0%nat [].
(* algo.py:242-244: dims = remaining dimension numbers, spatial = the iterator *)
Fixpoint reduce_indices (axis : list Z) (red : list (Z * lidx)) (dims : list Z) (spatial : list lidx) : outcome (list expr) :=
  match dims with
  | [] => Done []
  | d :: r =>
      if zmem d axis then
        l <~ throw_none KeyErr (dict_get red d) ;; es <~ reduce_indices axis red r spatial ;; Done (EIdx l :: es)
      else match spatial with
           | [] => Throw RuntimeErr           (* StopIteration *)
           | l :: sp => es <~ reduce_indices axis red r sp ;; Done (EIdx l :: es)
           end
  end.
Definition conv_sum (a : nat) (loops : list lidx) (axis : list Z) (kd : bool) (inp : nat) (inp_shape : list Z) : outcome expr :=
  red <~ reduced_dict a axis inp_shape ;;
  let spatial := if kd then map snd (filter (fun '(i, _) => negb (zmem i axis)) (enum 0 loops)) else loops in
  idx <~ reduce_indices axis red (zrange (Z.of_nat (length inp_shape))) spatial ;;
  Done (ESum (EFunc inp idx) (map snd red)).

(* algo.py:255-280 Pad and Dilate: out_loops[dim] with Python's negative indices; the index at
   position d is rewritten when d == dim *)
Definition at_dim (loops : list lidx) (dim : Z) (f : lidx -> expr) : list expr :=
  map (fun '(d, l) => if d =? dim then f l else EIdx l) (enum 0 loops).
Definition conv_pad (loops : list lidx) (dim before : Z) (inp : nat) (inp_shape : list Z) : outcome expr :=
  l <~ throw_none IndexErr (pynth loops dim) ;;
  n <~ throw_none IndexErr (pynth inp_shape dim) ;;
  Done (EWhere (EBin BAnd (EBin BGe (EIdx l) (EConst before)) (EBin BLt (EIdx l) (EConst (before + n))))
               (EFunc inp (at_dim loops dim (fun l => EBin BSub (EIdx l) (EConst before)))) (EConst 0)).
Definition conv_dilate (loops : list lidx) (dim step : Z) (inp : nat) : outcome expr :=
  l <~ throw_none IndexErr (pynth loops dim) ;;
  Done (EWhere (EBin BEq (EBin BMod (EIdx l) (EConst step)) (EConst 0))
               (EFunc inp (at_dim loops dim (fun l => EBin BFloordiv (EIdx l) (EConst step)))) (EConst 0)).

(* algo.py:163-283: the expression of one array *)
Definition conv_expr (g : graph) (a : nat) (nd : node) : outcome expr :=
  let loops := out_loops a (n_shape nd) in
  let same := map EIdx loops in
  let inp k := throw_none IndexErr (nth_error (n_in nd) k) in
  let view (mk : list Z -> outcome (list expr)) :=
    i <~ inp 0%nat ;; x <~ get g i ;; idx <~ mk (n_shape x) ;; Done (EFunc i idx) in
  match n_op nd with
  | OConst _ => Done (EBuf a same)
  | OTranspose axes => view (fun _ => conv_transpose loops axes)
  | OBroadcast t => view (fun s => conv_broadcast loops t s)
  | OSlice subs => view (fun _ => conv_slice loops subs)
  | OReshape _ => view (fun s => conv_reshape loops (n_shape nd) s)
  | OBin b => i <~ inp 0%nat ;; j <~ inp 1%nat ;; Done (EBin b (EFunc i same) (EFunc j same))
  | OUn u => i <~ inp 0%nat ;; Done (EUn u (EFunc i same))
  | OSum axis kd => i <~ inp 0%nat ;; x <~ get g i ;; conv_sum a loops axis kd i (n_shape x)
  | OContiguous => i <~ inp 0%nat ;; Done (EFunc i same)
  | OPad d b _ => i <~ inp 0%nat ;; x <~ get g i ;; conv_pad loops d b i (n_shape x)
  | ODilate d st => i <~ inp 0%nat ;; conv_dilate loops d st i
  end.

(* algo.py:149-287 arr_to_func: DFS with memo *)
Definition fold_out {A S} (f : A -> S -> outcome S) : list A -> S -> outcome S :=
  fix go l s := match l with [] => Done s | x :: r => s' <~ f x s ;; go r s' end.
Fixpoint arr_to_func (fuel : nat) (g : graph) (a : nat) (E : fenv) : outcome fenv :=
  match fuel with
  | O => Throw InternalErr
  | S k =>
      match E a with
      | Some _ => Done E
      | None =>
          nd <~ get g a ;;
          E1 <~ fold_out (fun i => arr_to_func k g i) (n_in nd) E ;;
          e <~ conv_expr g a nd ;;
          Done (fset E1 a (mkF (out_loops a (n_shape nd)) (n_shape nd) (n_dtype nd) e a))
      end
  end.

(* algo.py:296-301 *)
Fixpoint has_reduce (e : expr) : bool :=
  match e with
  | ESum _ _ => true
  | EWhere c t f => has_reduce c || has_reduce t || has_reduce f
  | EBin _ l r => has_reduce l || has_reduce r
  | EUn _ x => has_reduce x
  | _ => false
  end.

(* algo.py:303-311; None = KeyError *)
Definition ireplace := list (lidx * expr).
(* dict built from zip: a later equal key overwrites (keys are distinct objects here) *)
Fixpoint ilookup (r : ireplace) (l : lidx) : option expr :=
  match r with [] => None | (k, e) :: r' => if lidx_eqb k l then Some e else ilookup r' l end.
Fixpoint replace_index (r : ireplace) (e : expr) : outcome expr :=
  let many := fix many (l : list expr) : outcome (list expr) :=
    match l with [] => Done [] | x :: l' => y <~ replace_index r x ;; ys <~ many l' ;; Done (y :: ys) end in
  match e with
  | EIdx l => throw_none KeyErr (ilookup r l)
  | EConst z => Done e
  | EBin b x y => x' <~ replace_index r x ;; y' <~ replace_index r y ;; Done (EBin b x' y')
  | EUn u x => x' <~ replace_index r x ;; Done (EUn u x')
  | EWhere c t f => c' <~ replace_index r c ;; t' <~ replace_index r t ;; f' <~ replace_index r f ;; Done (EWhere c' t' f')
  | ESum x red => x' <~ replace_index r x ;; Done (ESum x' red)
  | EFunc f idx => idx' <~ many idx ;; Done (EFunc f idx')
  | EBuf n idx => idx' <~ many idx ;; Done (EBuf n idx')
  end.

(* algo.py:314-322 reference counts *)
Definition refs := nat -> nat.
Definition rinc (rc : refs) (f : nat) : refs := fun x => if Nat.eqb x f then S (rc x) else rc x.
Fixpoint count_refs (fuel : nat) (E : fenv) : expr -> refs -> outcome refs :=
  fix go (e : expr) (rc : refs) : outcome refs :=
    match e with
    | EFunc f _ =>
        let rc1 := rinc rc f in
        if Nat.eqb (rc1 f) 1 then
          match fuel with
          | O => Throw InternalErr
          | S k => fd <~ throw_none InternalErr (E f) ;; count_refs k E (f_expr fd) rc1
          end
        else Done rc1
    | EIdx _ | EConst _ | EBuf _ _ => Done rc
    | EUn _ x => go x rc
    | EBin _ x y => rc1 <~ go x rc ;; go y rc1
    | EWhere c t f => rc1 <~ go c rc ;; rc2 <~ go t rc1 ;; go f rc2
    | ESum x _ => go x rc
    end.

(* algo.py:324-351 try_fuse; mutates E for producers that keep their own kernel *)
Definition is_buf (e : expr) : bool := match e with EBuf _ _ => true | _ => false end.
Definition fusable (rc : refs) (f : nat) (e : expr) : bool :=
  is_buf e || (negb (has_reduce e) && Nat.eqb (rc f) 1).
Definition set_expr (fd : func) (e : expr) : func := mkF (f_loops fd) (f_shape fd) (f_dtype fd) e (f_out fd).
Fixpoint try_fuse (fuel : nat) (rc : refs) : expr -> fenv -> outcome (expr * fenv) :=
  fix go (e : expr) (E : fenv) : outcome (expr * fenv) :=
    match e with
    | EConst _ | EIdx _ | EBuf _ _ => Done (e, E)
    | EUn u x => '(x', E1) <~ go x E ;; Done (EUn u x', E1)
    | EBin b x y => '(x', E1) <~ go x E ;; '(y', E2) <~ go y E1 ;; Done (EBin b x' y', E2)
    | EWhere c t f => '(c', E1) <~ go c E ;; '(t', E2) <~ go t E1 ;; '(f', E3) <~ go f E2 ;; Done (EWhere c' t' f', E3)
    | ESum x red => '(x', E1) <~ go x E ;; Done (ESum x' red, E1)
    | EFunc f idx =>
        match fuel with
        | O => Throw InternalErr
        | S k =>
            fd <~ throw_none InternalErr (E f) ;;
            if Nat.eqb (rc f) 0 then Throw KeyErr                       (* refcount[e.func] *)
            else if negb (fusable rc f (f_expr fd)) then
              '(e', E1) <~ try_fuse k rc (f_expr fd) E ;;
              Done (EFunc f idx, fset E1 f (set_expr fd e'))
            else
              fused <~ replace_index (combine (f_loops fd) idx) (f_expr fd) ;;
              try_fuse k rc fused E
        end
    end.

(* algo.py:95-107 dependent_funcs: distinct Funcs referenced by the expression, in order *)
Fixpoint func_refs (e : expr) : list nat :=
  match e with
  | EFunc f _ => [f]
  | EBin _ x y => func_refs x ++ func_refs y
  | EUn _ x => func_refs x
  | EWhere c t f => func_refs c ++ func_refs t ++ func_refs f
  | ESum x _ => func_refs x
  | EIdx _ | EConst _ | EBuf _ _ => []
  end.
Definition nmem (x : nat) (l : list nat) : bool := existsb (Nat.eqb x) l.
Fixpoint dedup (l seen : list nat) : list nat :=
  match l with
  | [] => []
  | x :: r => if nmem x seen then dedup r seen else x :: dedup r (x :: seen)
  end.
Definition dependent_funcs (e : expr) : list nat := dedup (func_refs e) [].

(* algo.py:355-362 dfs: state = (seen, funcs) *)
Fixpoint order (fuel : nat) (E : fenv) (f : nat) (st : list nat * list nat) : outcome (list nat * list nat) :=
  let '(seen, out) := st in
  if nmem f seen then Done st
  else match fuel with
       | O => Throw InternalErr
       | S k =>
           fd <~ throw_none InternalErr (E f) ;;
           '(seen', out') <~ fold_out (fun d => order k E d) (dependent_funcs (f_expr fd)) (f :: seen, out) ;;
           Done (seen', out' ++ [f])
       end.

(* algo.py:118-135 Func.args: buffers and producers read by the kernel, each once *)
Fixpoint buf_refs (e : expr) : list nat :=
  match e with
  | EBuf n _ => [n]
  | EBin _ x y => buf_refs x ++ buf_refs y
  | EUn _ x => buf_refs x
  | EWhere c t f => buf_refs c ++ buf_refs t ++ buf_refs f
  | ESum x _ => buf_refs x
  | EIdx _ | EConst _ | EFunc _ _ => []
  end.
Inductive arg := ABuf (n : nat) | AFnc (f : nat).
Definition func_args (e : expr) : list arg :=
  map ABuf (dedup (buf_refs e) []) ++ map AFnc (dedup (func_refs e) []).

(* algo.py:141-364 convert; the returned Funcs in execution order, with the final environment.
   The root is a new Func object whose out_buffer is arr.buffer (algo.py:353): since only arrays
   that are not views are converted (materialize.py:22-33), that is the array's own buffer. *)
Definition convert (g : graph) (a : nat) : outcome (fenv * list nat) :=
  E <~ arr_to_func (S (length g)) g a (fun _ => None) ;;
  fd <~ throw_none InternalErr (E a) ;;
  rc <~ count_refs (S (length g)) E (f_expr fd) (fun _ => 0%nat) ;;
  '(e, E1) <~ try_fuse (S (length g)) rc (f_expr fd) E ;;
  let E2 := fset E1 a (set_expr fd e) in
  '(_, fs) <~ order (S (length g)) E2 a ([], []) ;;
  Done (E2, fs).
