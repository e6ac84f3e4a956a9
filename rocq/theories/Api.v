(* The public API of ndarray.py as functions on the graph.  Every operation returns the new
   graph and the array it created (or returned), or the Python exception it raised. *)
From Verif Require Import Base Util Lang Spec Graph.

(* subscripts as the user writes them: ndarray.py:256-281 *)
Inductive sub := SInt (i : Z) | SSlice (start stop step : option Z) | SOther.

(* ndarray.py:388-391 _const *)
Definition num_is_int (x : num) : bool := match x with NInt _ => true | NFlt _ _ => false end.
Definition const_node (shape : list Z) (vals : list num) : node :=
  let dt := match vals with x :: _ => if num_is_int x then Int64 else Float64 | [] => Float64 end in
  mkNode dt shape (strides_from_shape shape) 0 (OConst vals) [] (Z.of_nat (length vals)).
Definition api_const (g : graph) (shape : list Z) (vals : list num) : outcome (graph * nat) :=
  Done (g ++ [const_node shape vals], length g).

(* ndarray.py:393-413 array: DFS that appends scalars and records/checks list lengths per depth.
   State: (flattened, shape).  Only ints, floats and lists are modelled as input. *)
Fixpoint array_dfs (v : nest num) (dim : nat) (flattened : list num) (shape : list Z)
  : outcome (list num * list Z) :=
  match v with
  | Leaf x => Done (flattened ++ [x], shape)
  | Nest l =>
      let len := Z.of_nat (length l) in
      shape' <~ (if Nat.eqb (length shape) dim then Done (shape ++ [len])
                 else match nth_error shape dim with
                      | Some s => if len =? s then Done shape else Throw ValueErr
                      | None => Throw IndexErr
                      end) ;;
      (fix each (l : list (nest num)) (fl : list num) (sh : list Z) : outcome (list num * list Z) :=
         match l with
         | [] => Done (fl, sh)
         | e :: r => '(fl', sh') <~ array_dfs e (S dim) fl sh ;; each r fl' sh'
         end) l flattened shape'
  end.
Definition api_array (g : graph) (v : nest num) : outcome (graph * nat) :=
  '(fl, sh) <~ array_dfs v 0 [] [] ;; api_const g sh fl.

(* ndarray.py:415-416 *)
Definition api_arange (g : graph) (stop : Z) : outcome (graph * nat) :=
  api_array g (Nest (map (fun i => Leaf (NInt i)) (zrange stop))).

(* ndarray.py:418-419 *)
Definition api_full (g : graph) (shape : list Z) (v : num) : outcome (graph * nat) :=
  api_const g shape (repeat v (Z.to_nat (zprod shape))).

(* ndarray.py:421-429 *)
Definition api_full_like (g : graph) (t : nat) (v : num) : outcome (graph * nat) :=
  nd <~ get g t ;; api_full g (n_shape nd) v.
Definition api_ones_like (g : graph) (t : nat) : outcome (graph * nat) :=
  nd <~ get g t ;; api_full_like g t (if is_int (n_dtype nd) then NInt 1 else NFlt 1 0).
Definition api_zeros_like (g : graph) (t : nat) : outcome (graph * nat) := api_full_like g t (NInt 0).

(* ndarray.py:223-230 *)
Definition api_unary (g : graph) (u : uop) (a : nat) : outcome (graph * nat) := forward g (OUn u) [a].

(* ndarray.py:285-286 *)
Definition api_broadcast_to (g : graph) (a : nat) (shape : list Z) : outcome (graph * nat) :=
  forward g (OBroadcast shape) [a].

(* ndarray.py:288-302: the common shape *)
Fixpoint bzip (l1 l2 : list Z) : outcome (list Z) :=
  match l1, l2 with
  | d1 :: r1, d2 :: r2 =>
      d <~ (if d1 =? d2 then Done d1 else if d1 =? 1 then Done d2 else if d2 =? 1 then Done d1
            else Throw RuntimeErr) ;;
      r <~ bzip r1 r2 ;; Done (d :: r)
  | _, _ => Done []
  end.
Definition bshape (s1 s2 : list Z) : outcome (list Z) :=
  let m := Nat.max (length s1) (length s2) in
  bzip (repeat 1 (m - length s1) ++ s1) (repeat 1 (m - length s2) ++ s2).

(* ndarray.py:303-306 *)
Definition api_broadcasted (g : graph) (l r : nat) : outcome (graph * nat * nat) :=
  nl <~ get g l ;; nr <~ get g r ;;
  ns <~ bshape (n_shape nl) (n_shape nr) ;;
  '(g1, l1) <~ (if list_zeqb (n_shape nl) ns then Done (g, l) else api_broadcast_to g l ns) ;;
  '(g2, r1) <~ (if list_zeqb (n_shape nr) ns then Done (g1, r) else api_broadcast_to g1 r ns) ;;
  Done (g2, l1, r1).

(* ndarray.py:234-242 (the right operand already wrapped: ndarray.py:200) *)
Definition api_binary (g : graph) (b : bop) (l r : nat) : outcome (graph * nat) :=
  '(g1, l1, r1) <~ api_broadcasted g l r ;; forward g1 (OBin b) [l1; r1].
(* x op scalar: ndarray.wrap(v) = array(v) first (ndarray.py:200, 235) *)
Definition api_binary_scalar (g : graph) (b : bop) (l : nat) (v : num) : outcome (graph * nat) :=
  '(g1, r) <~ api_array g (Leaf v) ;; api_binary g1 b l r.

(* ndarray.py:246-252; axis=None, an int (singleton) or a tuple; "if not axis" catches None and () *)
Definition norm_axis (ndim : Z) (axis : option (list Z)) : outcome (list Z) :=
  let ax := match axis with None | Some [] => zrange ndim | Some l => l end in
  match ax with
  | [] => Done []
  | _ => if ndim =? 0 then Throw ZeroDivErr else Done (map (fun a => a mod ndim) ax)
  end.
Definition api_sum (g : graph) (a : nat) (axis : option (list Z)) (keepdims : bool) : outcome (graph * nat) :=
  nd <~ get g a ;;
  ax <~ norm_axis (Z.of_nat (length (n_shape nd))) axis ;;
  forward g (OSum ax keepdims) [a].

(* ndarray.py:261-281: normalise one subscript against the size of its axis *)
Definition odflt (o : option Z) (d : Z) : Z := match o with Some x => x | None => d end.
Definition norm_sub (s : sub) (size : Z) : outcome nsub :=
  match s with
  | SInt i =>
      let ss := if i <? 0 then i + size else i in
      if (0 <=? ss) && (ss <? size) then Done (NSInt ss) else Throw RuntimeErr
  | SSlice start stop step =>
      let start := odflt start 0 in
      let stop := odflt stop size in
      let step := odflt step 1 in
      let start := if start <? 0 then start + size else start in
      let stop := if stop <? 0 then stop + size else stop in
      if step <=? 0 then Throw RuntimeErr
      else Done (NSSlice (Z.max 0 (Z.min start size)) (Z.max 0 (Z.min stop size)) step)
  | SOther => Throw RuntimeErr
  end.
Fixpoint norm_subs (subs : list sub) (shape : list Z) : outcome (list nsub) :=
  match subs, shape with
  | s :: r, d :: sh => x <~ norm_sub s d ;; xs <~ norm_subs r sh ;; Done (x :: xs)
  | _, _ => Done []
  end.
(* ndarray.py:256-283 *)
Definition full_slice : sub := SSlice None None None.
Definition api_getitem (g : graph) (a : nat) (subs : list sub) : outcome (graph * nat) :=
  nd <~ get g a ;;
  let ndim := length (n_shape nd) in
  if Nat.ltb ndim (length subs) then Throw RuntimeErr
  else ns <~ norm_subs (subs ++ repeat full_slice (ndim - length subs)) (n_shape nd) ;;
       forward g (OSlice ns) [a].

(* ndarray.py:323 *)
Definition is_contiguous (nd : node) : bool := list_zeqb (n_strides nd) (strides_from_shape (n_shape nd)).
(* ndarray.py:324 *)
Definition api_contiguous (g : graph) (a : nat) : outcome (graph * nat) :=
  nd <~ get g a ;; if is_contiguous nd then Done (g, a) else forward g OContiguous [a].

(* ndarray.py:308-310 *)
Definition api_reshape (g : graph) (a : nat) (shape : list Z) : outcome (graph * nat) :=
  nd <~ get g a ;;
  if negb (zprod shape =? zprod (n_shape nd)) then Throw RuntimeErr
  else '(g1, c) <~ api_contiguous g a ;; forward g1 (OReshape shape) [c].

(* ndarray.py:317-319 *)
Definition api_transpose (g : graph) (a : nat) (axes : list Z) : outcome (graph * nat) :=
  nd <~ get g a ;;
  if negb (list_zeqb (zsort axes) (zrange (Z.of_nat (length (n_shape nd))))) then Throw RuntimeErr
  else forward g (OTranspose axes) [a].

(* ndarray.py:312-315 *)
Definition api_T (g : graph) (a : nat) : outcome (graph * nat) :=
  nd <~ get g a ;;
  if Nat.leb (length (n_shape nd)) 1 then Done (g, a)
  else api_transpose g a (rev (zrange (Z.of_nat (length (n_shape nd))))).

(* ndarray.py:325-327 *)
Definition api_pad (g : graph) (a : nat) (dim before after : Z) : outcome (graph * nat) :=
  nd <~ get g a ;;
  if Z.of_nat (length (n_shape nd)) <=? dim then Throw RuntimeErr
  else if (before =? 0) && (after =? 0) then Done (g, a)
  else forward g (OPad dim before after) [a].

(* ndarray.py:328-330 *)
Definition api_dilate (g : graph) (a : nat) (dim step : Z) : outcome (graph * nat) :=
  nd <~ get g a ;;
  if Z.of_nat (length (n_shape nd)) <=? dim then Throw RuntimeErr
  else if step =? 1 then Done (g, a)
  else forward g (ODilate dim step) [a].

(* One call of the public API (everything that creates arrays), and what it does to the graph. *)
Inductive call :=
| CArray (v : nest num)
| CArange (stop : Z)
| CFull (shape : list Z) (v : num)
| CFullLike (t : nat) (v : num)
| COnesLike (t : nat)
| CZerosLike (t : nat)
| CUnary (u : uop) (a : nat)
| CBinary (b : bop) (l r : nat)
| CBinaryScalar (b : bop) (l : nat) (v : num)
| CSum (a : nat) (axis : option (list Z)) (keepdims : bool)
| CGetitem (a : nat) (subs : list sub)
| CBroadcastTo (a : nat) (shape : list Z)
| CReshape (a : nat) (shape : list Z)
| CTranspose (a : nat) (axes : list Z)
| CT (a : nat)
| CContiguous (a : nat)
| CPad (a : nat) (dim before after : Z)
| CDilate (a : nat) (dim step : Z).

Definition run_call (g : graph) (c : call) : outcome (graph * nat) :=
  match c with
  | CArray v => api_array g v
  | CArange n => api_arange g n
  | CFull s v => api_full g s v
  | CFullLike t v => api_full_like g t v
  | COnesLike t => api_ones_like g t
  | CZerosLike t => api_zeros_like g t
  | CUnary u a => api_unary g u a
  | CBinary b l r => api_binary g b l r
  | CBinaryScalar b l v => api_binary_scalar g b l v
  | CSum a ax kd => api_sum g a ax kd
  | CGetitem a subs => api_getitem g a subs
  | CBroadcastTo a s => api_broadcast_to g a s
  | CReshape a s => api_reshape g a s
  | CTranspose a axes => api_transpose g a axes
  | CT a => api_T g a
  | CContiguous a => api_contiguous g a
  | CPad a d b f => api_pad g a d b f
  | CDilate a d st => api_dilate g a d st
  end.

(* ndarray.py:231-242 the binary operators the API exposes *)
Definition public_bop (b : bop) : bool :=
  match b with BAdd | BSub | BMul | BTruediv | BPow => true | _ => false end.
