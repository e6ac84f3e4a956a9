(* The backward rules of ndarray.py (Func.*_backward) and ndarray.backward().
   Gradients are ordinary arrays: every rule builds new graph nodes through the public API.
   The attribute x.grad is modelled by a map from arrays to the array holding the gradient.
   Not modelled: Python's recursion limit in dfs (depth > 1000), the death of an array whose
   Func.output weak reference is still needed (every visited array is reachable from y, hence alive). *)
From Verif Require Import Base Util Lang Spec Graph Api.

Definition grads := nat -> option nat.
Definition no_grads : grads := fun _ => None.
Definition set_grad (gs : grads) (x r : nat) : grads := fun n => if Nat.eqb n x then Some r else gs n.

(* self.inputs[k] *)
Definition inp (nd : node) (k : nat) : outcome nat :=
  match nth_error (n_in nd) k with Some a => Done a | None => Throw IndexErr end.

(* ndarray.py:146-162 _slice_backward: the loop over the normalised subscripts.  gd = grad_dim,
   ishape = the extents of the input axes not yet processed. *)
Fixpoint bw_slice (g : graph) (gr : nat) (gd : nat) (subs : list nsub) (ishape : list Z) : outcome (graph * nat) :=
  match subs, ishape with
  | NSInt s :: subs', n :: ish =>
      nd <~ get g gr ;;
      let newshape := firstn gd (n_shape nd) ++ [1] ++ skipn gd (n_shape nd) in
      '(g1, r1) <~ api_reshape g gr newshape ;;
      '(g2, r2) <~ api_pad g1 r1 (Z.of_nat gd) s (n - s - 1) ;;
      bw_slice g2 r2 (S gd) subs' ish
  | NSSlice a _ st :: subs', n :: ish =>
      '(g1, r1) <~ (if st >? 1 then api_dilate g gr (Z.of_nat gd) st else Done (g, gr)) ;;
      nd <~ get g1 r1 ;;
      len <~ match nth_error (n_shape nd) gd with Some l => Done l | None => Throw IndexErr end ;;
      let before := a in
      let after := n - a - len in
      '(g2, r2) <~ (if (before >? 0) || (after >? 0) then api_pad g1 r1 (Z.of_nat gd) before after
                    else Done (g1, r1)) ;;
      bw_slice g2 r2 (S gd) subs' ish
  | _, _ => Done (g, gr)
  end.

(* for a in axis: newshape[a] = 1   (ndarray.py:98-99; axes are normalised by __reduce) *)
Definition set_ones (shape axis : list Z) : list Z := fold_left (fun s a => upd s (Z.to_nat a) 1) axis shape.

(* ndarray.py:122-124: the axes broadcasting added, and those it stretched *)
Definition bw_added (gshape orig : list Z) : list Z := zrange (Z.of_nat (length gshape) - Z.of_nat (length orig)).
Definition bw_expanded (added orig : list Z) : list Z :=
  map (fun '(i, _) => i + Z.of_nat (length added)) (filter (fun '(_, s) => s =? 1) (enum 0 orig)).

(* Func.backward (ndarray.py:31-34) and the rules (ndarray.py:45-186).  out = self.output(),
   gr = the gradient of the output; the result lists one gradient per input. *)
Definition bw_rule (g : graph) (nd : node) (out gr : nat) : outcome (graph * list nat) :=
  match n_op nd with
  | OConst _ => Throw AttrErr
  | OUn UNeg => '(g1, r) <~ api_unary g UNeg gr ;; Done (g1, [r])
  | OUn USin =>
      x <~ inp nd 0 ;; '(g1, c) <~ api_unary g UCos x ;; '(g2, r) <~ api_binary g1 BMul c gr ;; Done (g2, [r])
  | OUn UCos =>
      x <~ inp nd 0 ;; '(g1, s) <~ api_unary g USin x ;; '(g2, n) <~ api_unary g1 UNeg s ;;
      '(g3, r) <~ api_binary g2 BMul n gr ;; Done (g3, [r])
  | OUn UExp => '(g1, r) <~ api_binary g BMul out gr ;; Done (g1, [r])
  | OUn ULog => x <~ inp nd 0 ;; '(g1, r) <~ api_binary g BTruediv gr x ;; Done (g1, [r])
  | OUn USqrt =>
      '(g1, m) <~ api_binary_scalar g BMul out (NInt 2) ;; '(g2, r) <~ api_binary g1 BTruediv gr m ;; Done (g2, [r])
  | OBin BAdd => Done (g, [gr; gr])
  | OBin BSub => '(g1, r) <~ api_unary g UNeg gr ;; Done (g1, [gr; r])
  | OBin BMul =>
      x <~ inp nd 0 ;; y <~ inp nd 1 ;;
      '(g1, a) <~ api_binary g BMul gr y ;; '(g2, b) <~ api_binary g1 BMul gr x ;; Done (g2, [a; b])
  | OBin BTruediv =>
      x <~ inp nd 0 ;; y <~ inp nd 1 ;;
      '(g1, a) <~ api_binary g BTruediv gr y ;;
      '(g2, n) <~ api_unary g1 UNeg x ;; '(g3, p) <~ api_binary_scalar g2 BPow y (NInt 2) ;;
      '(g4, q) <~ api_binary g3 BTruediv n p ;;
      '(g5, b) <~ api_binary g4 BMul gr q ;; Done (g5, [a; b])
  | OBin BPow =>
      x <~ inp nd 0 ;; y <~ inp nd 1 ;;
      '(g1, m) <~ api_binary_scalar g BSub y (NInt 1) ;; '(g2, p) <~ api_binary g1 BPow x m ;;
      '(g3, q) <~ api_binary g2 BMul y p ;; '(g4, a) <~ api_binary g3 BMul q gr ;;
      '(g5, u) <~ api_binary g4 BPow x y ;; '(g6, l) <~ api_unary g5 ULog x ;;
      '(g7, v) <~ api_binary g6 BMul u l ;; '(g8, b) <~ api_binary g7 BMul v gr ;; Done (g8, [a; b])
  | OBin _ => Throw AttrErr              (* no such rule; these operators are not in the public API *)
  | OSum axis kd =>
      x <~ inp nd 0 ;; xn <~ get g x ;;
      '(g1, h) <~ (if kd then Done (g, gr) else api_reshape g gr (set_ones (n_shape xn) axis)) ;;
      '(g2, r) <~ api_broadcast_to g1 h (n_shape xn) ;; Done (g2, [r])
  | OReshape _ =>
      x <~ inp nd 0 ;; xn <~ get g x ;; '(g1, r) <~ api_reshape g gr (n_shape xn) ;; Done (g1, [r])
  | OBroadcast _ =>
      x <~ inp nd 0 ;; xn <~ get g x ;; gn <~ get g gr ;;
      let added := bw_added (n_shape gn) (n_shape xn) in
      '(g1, y) <~ api_sum g gr (Some (added ++ bw_expanded added (n_shape xn))) true ;;
      match added with
      | [] => Done (g1, [y])
      | _ => yn <~ get g1 y ;;
             '(g2, r) <~ api_reshape g1 y (map snd (filter (fun '(i, _) => negb (zmem i added)) (enum 0 (n_shape yn)))) ;;
             Done (g2, [r])
      end
  | OTranspose axes => '(g1, r) <~ api_transpose g gr (argsort axes) ;; Done (g1, [r])
  | OSlice subs =>
      x <~ inp nd 0 ;; xn <~ get g x ;; '(g1, r) <~ bw_slice g gr 0 subs (n_shape xn) ;; Done (g1, [r])
  | OContiguous => Done (g, [gr])
  | OPad dim before _ =>
      x <~ inp nd 0 ;; xn <~ get g x ;; gn <~ get g gr ;;
      size <~ match pynth (n_shape xn) dim with Some n => Done n | None => Throw IndexErr end ;;
      '(g1, r) <~ api_getitem g gr (map (fun d => if d =? dim then SSlice (Some before) (Some (before + size)) None else full_slice)
                                        (zrange (Z.of_nat (length (n_shape gn))))) ;;
      Done (g1, [r])
  | ODilate dim step =>
      gn <~ get g gr ;;
      '(g1, r) <~ api_getitem g gr (map (fun d => if d =? dim then SSlice None None (Some step) else full_slice)
                                        (zrange (Z.of_nat (length (n_shape gn))))) ;;
      Done (g1, [r])
  end.

(* ndarray.py:339-343 dfs; state = (seen, funcs); arrays stand for their Func *)
Definition nmem (n : nat) (l : list nat) : bool := existsb (Nat.eqb n) l.
Fixpoint dfs (fuel : nat) (g : graph) (t : nat) (st : list nat * list nat) : list nat * list nat :=
  match fuel with
  | O => st
  | S k =>
      match nth_error g t with
      | None => st
      | Some nd =>
          match n_in nd with
          | [] => st
          | ins => if nmem t (fst st) then st
                   else let st' := fold_left (fun s i => dfs k g i s) ins (t :: fst st, snd st) in
                        (fst st', snd st' ++ [t])
          end
      end
  end.
(* inputs are older than their consumer, so depth <= number of arrays: the fuel never runs out *)
Definition order (g : graph) (y : nat) : list nat := rev (snd (dfs (length g) g y ([], []))).

(* ndarray.py:351-352: x.grad = gx if x.grad is None else x.grad + gx *)
Definition add_grad (g : graph) (gs : grads) (x gx : nat) : outcome (graph * grads) :=
  match gs x with
  | None => Done (g, set_grad gs x gx)
  | Some old => '(g1, r) <~ api_binary g BAdd old gx ;; Done (g1, set_grad gs x r)
  end.
Fixpoint add_grads (g : graph) (gs : grads) (xs : list (nat * nat)) : outcome (graph * grads) :=
  match xs with
  | [] => Done (g, gs)
  | (x, gx) :: r => '(g1, gs1) <~ add_grad g gs x gx ;; add_grads g1 gs1 r
  end.

(* ndarray.py:348-352: the loop over funcs.  The third result is a ghost trace: which rule ran,
   on which gradient array, in order. *)
Fixpoint run_funcs (g : graph) (gs : grads) (fs : list nat) : outcome (graph * grads * list (nat * nat)) :=
  match fs with
  | [] => Done (g, gs, [])
  | f :: r =>
      nd <~ get g f ;;
      gr <~ match gs f with Some gr => Done gr | None => Throw TypeErr end ;;
      '(g1, gxs) <~ bw_rule g nd f gr ;;
      '(g2, gs2) <~ add_grads g1 gs (combine (n_in nd) gxs) ;;
      '(g3, gs3, tr) <~ run_funcs g2 gs2 r ;;
      Done (g3, gs3, (f, gr) :: tr)
  end.

(* ndarray.py:334-352 *)
Definition backward_trace (g : graph) (gs : grads) (y : nat) : outcome (graph * grads * list (nat * nat)) :=
  '(g1, gs1) <~ match gs y with
                | Some _ => Done (g, gs)
                | None => '(g1, o) <~ api_ones_like g y ;; Done (g1, set_grad gs y o)
                end ;;
  run_funcs g1 gs1 (order g1 y).
Definition backward (g : graph) (gs : grads) (y : nat) : outcome (graph * grads) :=
  '(g', gs', _) <~ backward_trace g gs y ;; Done (g', gs').
