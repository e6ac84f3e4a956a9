(* materialize.py, kernel.py, and the CPU side of backend*.py and buffer.py: buffers, the kernel
   cache, and what one materialize() call does to the process state. *)
From Verif Require Import Base Util Lang Spec Graph Api Denote Algo Kernel Sched Codegen Backends CacheKey KernelRun.

(* A CPU backend.  b_copies: the executor converts every argument list to a typed C array and copies
   the first one back (backend_clang.py:39-47); otherwise kernels work on the argument lists
   themselves (backend_python.py:54-56).  b_accept: ctypes accepts the value as an element. *)
Record cpu_backend := mkB {
  b_lang : lang;
  b_copies : bool;
  b_accept : dtype -> val b_lang -> bool
}.

Section Runtime.
Context (B : cpu_backend).
Notation L := (b_lang B).
Notation V := (val (b_lang B)).
Definition b_id : backend := if b_copies B then Clang else Python.

(* process state: the arrays, the CPU buffer of each (None: not allocated), the kernel cache, the
   code generator's temporary counter, and how many kernels were invoked (ghost) *)
Record rt := mkRt {
  r_graph : graph;
  r_cpu : store L;
  r_cache : list (kkey * kernel);
  r_tmp : nat;
  r_runs : nat
}.
Definition set_cpu (s : rt) (m : store L) : rt := mkRt (r_graph s) m (r_cache s) (r_tmp s) (r_runs s).

(* kernel.py:12-24 *)
Fixpoint cache_get (c : list (kkey * kernel)) (k : kkey) : option kernel :=
  match c with [] => None | (k', x) :: r => if kkey_eq_dec k' k then Some x else cache_get r k end.

(* backend.py:31-33: buffers without CPU data are filled with zeros *)
Fixpoint zero_fill (g : graph) (ps : list nat) (m : store L) : outcome (store L) :=
  match ps with
  | [] => Done m
  | p :: r =>
      nd <~ get g p ;;
      zero_fill g r (match m p with Some _ => m | None => sset m p (repeat (lit L 0) (Z.to_nat (n_len nd))) end)
  end.

(* backend_clang.py:45: one converted copy per parameter *)
Fixpoint copy_in (g : graph) (ps : list nat) (m : store L) : outcome (list (list V)) :=
  match ps with
  | [] => Done []
  | p :: r =>
      nd <~ get g p ;;
      vs <~ throw_none InternalErr (m p) ;;
      if forallb (b_accept B (n_dtype nd)) vs
      then cs <~ copy_in g r m ;; Done (map (coerce L (n_dtype nd)) vs :: cs)
      else Throw TypeErr
  end.

Definition no_gpu : bool -> axis -> Z := fun _ _ => 0.
(* backend.py:30-35 invoke_kernel.  A kernel called with the wrong number of arguments raises
   TypeError in Python (undefined behaviour in C). *)
Definition invoke (s0 : rt) (kern : kernel) (params : list nat) : rt * outcome unit :=
  let s := mkRt (r_graph s0) (r_cpu s0) (r_cache s0) (r_tmp s0) (S (r_runs s0)) in
  match zero_fill (r_graph s) params (r_cpu s) with
  | Throw e => (s, Throw e)
  | Done m =>
      let p := exec L (b_copies B) no_gpu (pty_of (k_params kern)) (k_body kern) [[]] in
      if negb (Nat.eqb (length params) (length (k_params kern))) then (set_cpu s m, Throw TypeErr)
      else if b_copies B then
        match copy_in (r_graph s) params m with
        | Throw e => (set_cpu s m, Throw e)
        | Done cs =>
            let '(m', oc) := run (bind_params (k_params kern) (seq 0 (length params))) p (fun i => nth_error cs i) in
            match oc, params, m' 0%nat with
            | OkO _, p0 :: _, Some out => (set_cpu s (sset m p0 out), Done tt)
            | OkO _, _, _ => (set_cpu s m, Throw InternalErr)
            | RaiseO, _, _ => (set_cpu s m, Throw ValueErr)
            | FaultO, _, _ => (set_cpu s m, Throw InternalErr)
            end
        end
      else
        let '(m', oc) := run (bind_params (k_params kern) params) p m in
        (set_cpu s m', match oc with OkO _ => Done tt | RaiseO => Throw ValueErr | FaultO => Throw InternalErr end)
  end.

(* algo.py:91,107-135 and materialize.py:46: the buffers bound to a kernel's arguments *)
Definition arg_buffer (E : fenv) (x : arg) : outcome nat :=
  match x with ABuf n => Done n | AFnc f => fd <~ throw_none InternalErr (E f) ;; Done (f_out fd) end.

(* materialize.py:44-71: one kernel *)
Definition run_func (E : fenv) (fd : func) (sc : schedule) (s : rt) : rt * outcome unit :=
  let args := func_args (f_expr fd) in
  match mapOut (arg_buffer E) args, cache_key (r_graph s) E fd sc with
  | Done bufs, Done key =>
      let params := f_out fd :: bufs in
      match cache_get (r_cache s) key with
      | Some kern => invoke s kern params
      | None =>
          match codegen (r_graph s) E args fd sc (r_tmp s) with
          | Throw e => (s, Throw e)
          | Done (kern, k') => invoke (mkRt (r_graph s) (r_cpu s) ((key, kern) :: r_cache s) k' (r_runs s)) kern params
          end
      end
  | Throw e, _ => (s, Throw e)
  | _, Throw e => (s, Throw e)
  end.
Fixpoint run_funcs (E : fenv) (l : list (func * schedule)) (s : rt) : rt * outcome unit :=
  match l with
  | [] => (s, Done tt)
  | (fd, sc) :: r => match run_func E fd sc s with
                     | (s', Done _) => run_funcs E r s'
                     | (s', Throw e) => (s', Throw e)
                     end
  end.

(* materialize.py:33-71; all schedules are made before any kernel runs *)
Definition schedule_one (E : fenv) (f : nat) : outcome (func * schedule) :=
  fd <~ throw_none InternalErr (E f) ;;
  sc <~ auto_schedule false fd ;;
  if forallb (fun l => handles b_id (ls_exec l)) (filter is_spatial (s_loops sc)) then Done (fd, sc) else Throw RuntimeErr.
Definition compute (s : rt) (a : nat) : rt * outcome unit :=
  match convert (r_graph s) a with
  | Throw e => (s, Throw e)
  | Done (E, fs) =>
      match mapOut (schedule_one E) fs with
      | Throw e => (s, Throw e)
      | Done l => run_funcs E l s
      end
  end.
(* materialize.py:15-33: constants need nothing, views materialize what they view *)
Fixpoint mat (fuel : nat) (s : rt) (a : nat) : rt * outcome unit :=
  match fuel with
  | O => (s, Throw InternalErr)
  | S k =>
      match nth_error (r_graph s) a with
      | None => (s, Throw InternalErr)
      | Some nd =>
          if is_const (n_op nd) then (s, Done tt)
          else if is_view (n_op nd) then match n_in nd with b :: _ => mat k s b | [] => (s, Throw IndexErr) end
          else compute s a
      end
  end.
Definition materialize (s : rt) (a : nat) : rt * outcome unit := mat (length (r_graph s)) s a.

(* An API call: constants own the list of numbers they were given (node.py:8-11) *)
Definition api_call (s : rt) (c : call) : rt * outcome nat :=
  match run_call (r_graph s) c with
  | Throw e => (s, Throw e)
  | Done (g', r) =>
      (mkRt g' (fun n => if Nat.ltb n (length (r_graph s)) then r_cpu s n else
                  match nth_error g' n with
                  | Some nd => match n_op nd with OConst vals => Some (map (of_num L) vals) | _ => None end
                  | None => None
                  end) (r_cache s) (r_tmp s) (r_runs s), Done r)
  end.
(* materialize.py:120-122 reset: forget compiled kernels *)
Definition reset_cache (s : rt) : rt := mkRt (r_graph s) (r_cpu s) [] (r_tmp s) (r_runs s).

Definition rt0 : rt := mkRt [] (fun _ => None) [] 0 0.
End Runtime.
