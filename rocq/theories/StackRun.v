(* materialize() with a recursion limit in all its phases, CPU backends: Stack.v's conversion, StackGen.v's keys and generator, and the
   kernels of Runtime.v.  The process is that of Runtime.v and the indentation of the generator object. *)
From Coq Require Import String.
From Verif Require Import Base Util Lang Spec Graph Api Reach Algo AlgoSem Kernel Sched Codegen Backends CacheKey Runtime Stack Text TextPrint Generator StackGen.
Open Scope Z_scope.

Section Run.
Context (B : cpu_backend) (nm : kkey -> string).
(* materialize.py:45-68, with L frames left; nm: the name of the kernel, from its key.  A Python text whose first line is indented does not
   compile (IndentationError, here RuntimeErr; [shifted_unreadable] in PropGen.v); a C text is the same program (c_shift) *)
Definition run_func_l (L : nat) (E : fenv) (fd : func) (sc : schedule) (w : rt B * Z) : rt B * Z * lim unit :=
  let '(s, ind) := w in
  let args := func_args (f_expr fd) in
  match mapOut (arg_buffer E) args with
  | Throw e => (s, ind, Some (Throw e))
  | Done bufs =>
      match expr_key_l (r_graph B s) E L (f_expr fd) [] with
      | None => (s, ind, None)
      | Some _ =>
          match cache_key (r_graph B s) E fd sc with
          | Throw e => (s, ind, Some (Throw e))
          | Done key =>
              let params := f_out fd :: bufs in
              match cache_get (r_cache B s) key with
              | Some kern => let '(s', r) := invoke B s kern params in (s', ind, Some r)
              | None =>
                  match o_codegen_l (b_id B) (r_graph B s) E L (nm key) args fd sc (mkOb [] ind (r_tmp B s)) with
                  | (o, None) => (mkRt B (r_graph B s) (r_cpu B s) (r_cache B s) (ob_tmp o) (r_runs B s), ob_ind o, None)
                  | (o, Some (Throw e)) => (s, ob_ind o, Some (Throw e))
                  | (o, Some (Done _)) =>
                      if negb (b_copies B) && (0 <? ob_ind o) then (mkRt B (r_graph B s) (r_cpu B s) (r_cache B s) (ob_tmp o) (r_runs B s), ob_ind o, Some (Throw RuntimeErr)) else
                      match codegen (r_graph B s) E args fd sc (r_tmp B s) with
                      | Throw e => (s, ob_ind o, Some (Throw e))
                      | Done (kern, k') =>
                          let '(s', r) := invoke B (mkRt B (r_graph B s) (r_cpu B s) ((key, kern) :: r_cache B s) k' (r_runs B s)) kern params in (s', ob_ind o, Some r)
                      end
                  end
              end
          end
      end
  end.
(* materialize.py:44 *)
Fixpoint run_funcs_l (L : nat) (E : fenv) (l : list (func * schedule)) (w : rt B * Z) : rt B * Z * lim unit :=
  match l with
  | [] => (w, Some (Done tt))
  | (fd, sc) :: r => match run_func_l L E fd sc w with
                     | (w', Some (Done _)) => run_funcs_l L E r w'
                     | (w', x) => (w', x)
                     end
  end.
(* materialize.py:15-71 *)
Fixpoint mat_run_l (L : nat) (w : rt B * Z) (a : nat) : rt B * Z * lim unit :=
  match L with
  | O => (w, None)
  | S k =>
      let g := r_graph B (fst w) in
      match nth_error g a with
      | None => (w, Some (Throw InternalErr))
      | Some nd =>
          if is_const (n_op nd) then (w, Some (Done tt))
          else if is_view (n_op nd) then match n_in nd with b :: _ => mat_run_l k w b | [] => (w, Some (Throw IndexErr)) end
          else match convert_l k g a with
               | None => (w, None)
               | Some (Throw e) => (w, Some (Throw e))
               | Some (Done (E, fs)) =>
                   match mapOut (schedule_one B E) fs with
                   | Throw e => (w, Some (Throw e))
                   | Done l => run_funcs_l k E l w
                   end
               end
      end
  end.
End Run.
