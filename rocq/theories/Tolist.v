(* ndarray.tolist and the CPU side of buffers. *)
From Verif Require Import Base Util Lang Spec Graph Api.

Section Tolist.
Context {V : Type}.

(* [f(x) for x in l] where f may raise *)
Fixpoint mapO {A B} (f : A -> outcome B) (l : list A) : outcome (list B) :=
  match l with [] => Done [] | x :: r => y <~ f x ;; ys <~ mapO f r ;; Done (y :: ys) end.

(* ndarray.py:362-368 _to_ndlist; data[offset] with Python's negative indices *)
Fixpoint read_nd (data : list V) (shape strides : list Z) (offset : Z) : outcome (nest V) :=
  match shape with
  | [] => match pynth data offset with Some v => Done (Leaf v) | None => Throw IndexErr end
  | d :: s =>
      l <~ mapO (fun i => match strides with
                          | st :: sts => read_nd data s sts (offset + i * st)
                          | [] => Throw IndexErr
                          end) (zrange d) ;;
      Done (Nest l)
  end.

(* buffer.cpu of every array (None = CPUBuff not yet present); buffer.py:3-28 *)
Definition mem := nat -> option (list V).

(* ndarray.py:357-360 tolist on a CPU backend: the buffer is that of base(); without CPU data
   backend.to_cpu needs executor.memcpy_dtoh, which CPU executors do not have (AttributeError) *)
Definition tolist (g : graph) (m : mem) (a : nat) : outcome (nest V) :=
  match nth_error g a, base g a with
  | Some nd, Some b => match m b with
                       | Some data => read_nd data (n_shape nd) (n_strides nd) (n_offset nd)
                       | None => Throw AttrErr
                       end
  | _, _ => Throw InternalErr
  end.

(* a chain of views from a down to the array b that owns the buffer; [al] additionally asks that a
   reshape is only taken of an array that starts at offset 0 of its buffer *)
Inductive view_of (g : graph) (al : bool) : nat -> nat -> Prop :=
| vo_self b nd : nth_error g b = Some nd -> is_view (n_op nd) = false -> view_of g al b b
| vo_step a nd p pd b : nth_error g a = Some nd -> is_view (n_op nd) = true ->
    nth_error (n_in nd) 0 = Some p -> nth_error g p = Some pd ->
    (al = true -> (exists s, n_op nd = OReshape s) -> n_offset pd = 0) ->
    view_of g al p b -> view_of g al a b.

End Tolist.
Arguments mem : clear implicits.

(* the buffers right after creation: a constant owns the list of values it was given (node.py:8-11) *)
Definition const_mem (g : graph) : mem num :=
  fun a => match nth_error g a with Some nd => match n_op nd with OConst vals => Some vals | _ => None end | None => None end.

