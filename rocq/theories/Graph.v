(* node.py and the forward rules of ndarray.py: the expression graph.

   An ndarray is modelled by its Node (ndarray.py:188-191 pairs them one to one); all nodes of a
   process form one append-only list, and an array is an index in that list (object identity).
   Simplifications: gradients are kept separately (Backward.v); a Node's Buffer contents are kept
   separately (Runtime.v), here only its length. *)
From Verif Require Import Base Util Lang Spec.

(* operation and attributes of a Func object; ops.py:3-50, ndarray.py:14-19 *)
Inductive nop :=
| OConst (vals : list num)
| OUn (u : uop)
| OBin (b : bop)
| OSum (axis : list Z) (keepdims : bool)
| OReshape (shape : list Z)
| OBroadcast (shape : list Z)
| OTranspose (axes : list Z)
| OSlice (subs : list nsub)
| OContiguous
| OPad (dim before after : Z)
| ODilate (dim step : Z).

(* node.py:6-20 *)
Record node := mkNode {
  n_dtype : dtype;
  n_shape : list Z;
  n_strides : list Z;
  n_offset : Z;
  n_op : nop;            (* ctx.op, ctx.attrs *)
  n_in : list nat;       (* ctx.inputs *)
  n_len : Z              (* buffer.length *)
}.
Definition graph := list node.

(* ops.py:57 *)
Definition is_view (o : nop) : bool :=
  match o with OReshape _ | OBroadcast _ | OTranspose _ | OSlice _ => true | _ => false end.
(* ops.py:52 *)
Definition is_const (o : nop) : bool := match o with OConst _ => true | _ => false end.

(* Node.__init__ without val: node.py:13-20 *)
Definition new_node (dt : dtype) (shape strides : list Z) (offset : Z) (op : nop) (ins : list nat) : node :=
  mkNode dt shape strides offset op ins (fold_left Z.mul shape 1).

(* ndarray.py:41-43 _elemwise_forward *)
Definition fwd_elemwise (op : nop) (ins : list nat) (i : node) : node :=
  new_node (n_dtype i) (n_shape i) (strides_from_shape (n_shape i)) 0 op ins.

(* ndarray.py:86-92 _reduce_forward: enumerate(inp.shape), membership of the position in axis *)
Fixpoint enum {A} (k : Z) (l : list A) : list (Z * A) :=
  match l with [] => [] | x :: r => (k, x) :: enum (k + 1) r end.
Definition reduce_shape (axis : list Z) (kd : bool) (shape : list Z) : list Z :=
  if kd then map (fun '(i, s) => if zmem i axis then 1 else s) (enum 0 shape)
  else map snd (filter (fun '(i, _) => negb (zmem i axis)) (enum 0 shape)).
Definition fwd_reduce (axis : list Z) (kd : bool) (ins : list nat) (i : node) : node :=
  let ns := reduce_shape axis kd (n_shape i) in
  new_node (n_dtype i) ns (strides_from_shape ns) 0 (OSum axis kd) ins.

(* ndarray.py:104-108 _reshape_forward (note: offset=0) *)
Definition fwd_reshape (shape : list Z) (ins : list nat) (i : node) : node :=
  new_node (n_dtype i) shape (strides_from_shape shape) 0 (OReshape shape) ins.

(* ndarray.py:111-119 _broadcast_forward; [0] * negative is [] in Python, as repeat on Z.to_nat *)
Definition fwd_broadcast (shape : list Z) (ins : list nat) (i : node) : node :=
  let diff := Z.of_nat (length shape) - Z.of_nat (length (n_shape i)) in
  let padded_strides := repeat 0 (Z.to_nat diff) ++ n_strides i in
  let padded_src := repeat 1 (Z.to_nat diff) ++ n_shape i in
  let ns := map (fun '(s, st) => if s =? 1 then 0 else st) (combine padded_src padded_strides) in
  new_node (n_dtype i) shape ns (n_offset i) (OBroadcast shape) ins.

(* ndarray.py:127-132 _transpose_forward (axes validated by the caller) *)
Definition fwd_transpose (axes : list Z) (ins : list nat) (i : node) : node :=
  new_node (n_dtype i) (map (fun a => nth (Z.to_nat a) (n_shape i) 0) axes)
           (map (fun a => nth (Z.to_nat a) (n_strides i) 0) axes) (n_offset i) (OTranspose axes) ins.

(* ndarray.py:136-146 _slice_forward *)
Fixpoint slice_loop (subs : list nsub) (strides : list Z) : Z * list Z * list Z :=
  match subs, strides with
  | NSInt s :: r, st :: sts =>
      let '(o, sh, ss) := slice_loop r sts in (s * st + o, sh, ss)
  | NSSlice a b step :: r, st :: sts =>
      let '(o, sh, ss) := slice_loop r sts in
      (a * st + o, Z.max 0 ((b - a + step - 1) / step) :: sh, (st * step) :: ss)
  | _, _ => (0, [], [])
  end.
Definition fwd_slice (subs : list nsub) (ins : list nat) (i : node) : node :=
  let '(o, sh, ss) := slice_loop subs (n_strides i) in
  new_node (n_dtype i) sh ss (n_offset i + o) (OSlice subs) ins.

(* ndarray.py:166 _contiguous_forward *)
Definition fwd_contiguous (ins : list nat) (i : node) : node :=
  new_node (n_dtype i) (n_shape i) (strides_from_shape (n_shape i)) 0 OContiguous ins.

(* l[i] = f(l[i]) with Python's negative indices; None = IndexError *)
Definition pyupdate (l : list Z) (i : Z) (f : Z -> Z) : option (list Z) :=
  let j := if i <? 0 then i + Z.of_nat (length l) else i in
  match znth l j with Some x => Some (upd l (Z.to_nat j) (f x)) | None => None end.

(* ndarray.py:169-172 _pad_forward *)
Definition fwd_pad (dim before after : Z) (ins : list nat) (i : node) : outcome node :=
  match pyupdate (n_shape i) dim (fun n => n + (before + after)) with
  | Some ns => Done (new_node (n_dtype i) ns (strides_from_shape ns) 0 (OPad dim before after) ins)
  | None => Throw IndexErr
  end.

(* ndarray.py:179-183 _dilate_forward *)
Definition fwd_dilate (dim step : Z) (ins : list nat) (i : node) : outcome node :=
  match pyupdate (n_shape i) dim (fun n => (n - 1) * step + 1) with
  | Some ns => Done (new_node (n_dtype i) ns (strides_from_shape ns) 0 (ODilate dim step) ins)
  | None => Throw IndexErr
  end.

(* ndarray.py:23-29 Func.forward: build the node of an operation from its first input *)
Definition forward_node (op : nop) (ins : list nat) (i : node) : outcome node :=
  match op with
  | OConst _ => Throw InternalErr
  | OUn _ | OBin _ => Done (fwd_elemwise op ins i)
  | OSum axis kd => Done (fwd_reduce axis kd ins i)
  | OReshape s => Done (fwd_reshape s ins i)
  | OBroadcast s => Done (fwd_broadcast s ins i)
  | OTranspose axes => Done (fwd_transpose axes ins i)
  | OSlice subs => Done (fwd_slice subs ins i)
  | OContiguous => Done (fwd_contiguous ins i)
  | OPad d b a => fwd_pad d b a ins i
  | ODilate d st => fwd_dilate d st ins i
  end.

Definition get (g : graph) (a : nat) : outcome node :=
  match nth_error g a with Some n => Done n | None => Throw InternalErr end.

Definition forward (g : graph) (op : nop) (ins : list nat) : outcome (graph * nat) :=
  match ins with
  | a :: _ => i <~ get g a ;; nd <~ forward_node op ins i ;; Done (g ++ [nd], length g)
  | [] => Throw IndexErr
  end.

(* ndarray.py:219 base(): follow views down to the array that owns the data *)
Fixpoint base_fuel (fuel : nat) (g : graph) (a : nat) : option nat :=
  match fuel with
  | O => None
  | S k => match nth_error g a with
           | None => None
           | Some nd => if is_view (n_op nd) then
                          match n_in nd with b :: _ => base_fuel k g b | [] => None end
                        else Some a
           end
  end.
Definition base (g : graph) (a : nat) : option nat := base_fuel (length g) g a.
