(* materialize() stopped by an exception that does not come from the kernel's arithmetic: the C compiler is missing or fails, memory
   runs out, the user presses Ctrl-C.  All states in which such an exception can leave the process (CPU backends).
   Not covered here: an exception raised inside codegen() of the Python backend (its generator object may then be unusable, C46, C54). *)
From Verif Require Import Base Util Lang Spec Graph Api Denote Reach Tolist Algo AlgoSem Kernel Sched Codegen Backends KernFacts KernelRun CacheKey Runtime RuntimeFacts RuntimeFacts2.

Section Stop.
Context (B : cpu_backend).
Notation L := (b_lang B).

(* a Python kernel (backend_python.py:54-57) interrupted between two memory accesses: the memory at that point *)
Inductive stopped_run {A} (loc : name -> option nat) : prog L A -> store L -> store L -> Prop :=
| sr_here p m : stopped_run loc p m m
| sr_read n i k m b l v m' : loc n = Some b -> m b = Some l -> znth l i = Some v -> stopped_run loc (k v) m m' -> stopped_run loc (PRd n i k) m m'
| sr_write n i v k m b l l' m' : loc n = Some b -> m b = Some l -> zupd l i v = Some l' -> stopped_run loc k (sset m b l') m' -> stopped_run loc (PWr n i v k) m m'.

(* backend.py:33-38 invoke_kernel, and the executors.  With copied arguments (backend_clang.py:40-48) the arrays change only by the
   last statement, one slice assignment; Python handlers do not run inside the C function. *)
Inductive stopped_invoke (s : rt B) (kern : kernel) (params : list nat) : rt B -> Prop :=
| si_fill ps1 ps2 m : params = ps1 ++ ps2 -> zero_fill B (r_graph B s) ps1 (r_cpu B s) = Done m -> stopped_invoke s kern params (set_cpu B s m)
| si_copied m : b_copies B = true -> zero_fill B (r_graph B s) params (r_cpu B s) = Done m ->
    stopped_invoke s kern params (mkRt B (r_graph B s) m (r_cache B s) (r_tmp B s) (S (r_runs B s)))
| si_running m m' : b_copies B = false -> zero_fill B (r_graph B s) params (r_cpu B s) = Done m -> length params = length (k_params kern) ->
    stopped_run (bind_params (k_params kern) params) (exec L false no_gpu (pty_of (k_params kern)) (k_body kern) [[]]) m m' ->
    stopped_invoke s kern params (mkRt B (r_graph B s) m' (r_cache B s) (r_tmp B s) (S (r_runs B s)))
| si_done s' : invoke B s kern params = (s', Done tt) -> stopped_invoke s kern params s'.

(* materialize.py:45-68: one kernel.  sf_compile: anything between codegen() and the end of compile().  sf_codegen: inside codegen(), C
   generator: the counter of temporaries has moved on, and the raised indentation has no effect on the C texts that follow (C46, C54) *)
Inductive stopped_func (E : fenv) (fd : func) (sc : schedule) (s : rt B) : rt B -> Prop :=
| sf_start : stopped_func E fd sc s s
| sf_compile bufs key kern k' : mapOut (arg_buffer E) (func_args (f_expr fd)) = Done bufs -> cache_key (r_graph B s) E fd sc = Done key -> cache_get (r_cache B s) key = None ->
    codegen (r_graph B s) E (func_args (f_expr fd)) fd sc (r_tmp B s) = Done (kern, k') ->
    stopped_func E fd sc s (mkRt B (r_graph B s) (r_cpu B s) (r_cache B s) k' (r_runs B s))
| sf_codegen bufs key k' : b_copies B = true -> mapOut (arg_buffer E) (func_args (f_expr fd)) = Done bufs -> cache_key (r_graph B s) E fd sc = Done key -> cache_get (r_cache B s) key = None ->
    (r_tmp B s <= k')%nat -> stopped_func E fd sc s (mkRt B (r_graph B s) (r_cpu B s) (r_cache B s) k' (r_runs B s))
| sf_new bufs key kern k' s' : mapOut (arg_buffer E) (func_args (f_expr fd)) = Done bufs -> cache_key (r_graph B s) E fd sc = Done key -> cache_get (r_cache B s) key = None ->
    codegen (r_graph B s) E (func_args (f_expr fd)) fd sc (r_tmp B s) = Done (kern, k') ->
    stopped_invoke (mkRt B (r_graph B s) (r_cpu B s) ((key, kern) :: r_cache B s) k' (r_runs B s)) kern (f_out fd :: bufs) s' -> stopped_func E fd sc s s'
| sf_cached bufs key kern s' : mapOut (arg_buffer E) (func_args (f_expr fd)) = Done bufs -> cache_key (r_graph B s) E fd sc = Done key -> cache_get (r_cache B s) key = Some kern ->
    stopped_invoke s kern (f_out fd :: bufs) s' -> stopped_func E fd sc s s'.
(* the loop of materialize.py:44 *)
Inductive stopped_funcs (E : fenv) : list (func * schedule) -> rt B -> rt B -> Prop :=
| ss_here l s : stopped_funcs E l s s
| ss_in fd sc l s s' : stopped_func E fd sc s s' -> stopped_funcs E ((fd, sc) :: l) s s'
| ss_next fd sc l s s1 s' : run_func B E fd sc s = (s1, Done tt) -> stopped_funcs E l s1 s' -> stopped_funcs E ((fd, sc) :: l) s s'.
(* materialize.py:15-43 *)
Inductive stopped (s : rt B) : nat -> rt B -> Prop :=
| sm_here a : stopped s a s
| sm_view a nd b r s' : nth_error (r_graph B s) a = Some nd -> is_view (n_op nd) = true -> n_in nd = b :: r -> stopped s b s' -> stopped s a s'
| sm_compute a nd E fs l s' : nth_error (r_graph B s) a = Some nd -> is_const (n_op nd) = false -> is_view (n_op nd) = false ->
    convert (r_graph B s) a = Done (E, fs) -> mapOut (schedule_one B E) fs = Done l -> stopped_funcs E l s s' -> stopped s a s'.

(* histories in which materialize() may be stopped at any point, any number of times; C as in [hist] *)
Inductive stop_hist (C : desc -> Prop) : rt B -> Prop :=
| th_init : stop_hist C (rt0 B)
| th_call s c : stop_hist C s -> call_ok (r_graph B s) c -> stop_hist C (fst (api_call B s c))
| th_mat s a : stop_hist C s -> valid (r_graph B s) a ->
    (forall b, base (r_graph B s) a = Some b -> mat_ok (b_lang B) (r_graph B s) b) -> (forall d, kernel_of (r_graph B s) a d -> C d) ->
    stop_hist C (fst (materialize B s a))
| th_stop s a s' : stop_hist C s -> valid (r_graph B s) a ->
    (forall b, base (r_graph B s) a = Some b -> mat_ok (b_lang B) (r_graph B s) b) -> (forall d, kernel_of (r_graph B s) a d -> C d) ->
    stopped s a s' -> stop_hist C s'
| th_reset s : stop_hist C s -> stop_hist C (reset_cache B s).
Inductive stop_later (C : desc -> Prop) (s : rt B) : rt B -> Prop :=
| tl_here : stop_later C s s
| tl_call t c : stop_later C s t -> call_ok (r_graph B t) c -> stop_later C s (fst (api_call B t c))
| tl_mat t a : stop_later C s t -> valid (r_graph B t) a ->
    (forall b, base (r_graph B t) a = Some b -> mat_ok (b_lang B) (r_graph B t) b) -> (forall d, kernel_of (r_graph B t) a d -> C d) ->
    stop_later C s (fst (materialize B t a))
| tl_stop t a t' : stop_later C s t -> valid (r_graph B t) a ->
    (forall b, base (r_graph B t) a = Some b -> mat_ok (b_lang B) (r_graph B t) b) -> (forall d, kernel_of (r_graph B t) a d -> C d) ->
    stopped t a t' -> stop_later C s t'
| tl_reset t : stop_later C s t -> stop_later C s (reset_cache B t).
(* the same without any side condition *)
Inductive stop_any : rt B -> Prop :=
| ta_init : stop_any (rt0 B)
| ta_call s c : stop_any s -> call_ok (r_graph B s) c -> stop_any (fst (api_call B s c))
| ta_mat s a : stop_any s -> valid (r_graph B s) a -> stop_any (fst (materialize B s a))
| ta_stop s a s' : stop_any s -> valid (r_graph B s) a -> stopped s a s' -> stop_any s'
| ta_reset s : stop_any s -> stop_any (reset_cache B s).
End Stop.

(* ------------------------------------------------------------------ temporary files *)
(* ClangCompiler.compile (backend_clang.py:31-38), CUDACompiler.compile (backend_cuda.py:52-63): the steps, and which temporary files exist
   afterwards.  [fails = Some st]: step st raises.  Names are never reused (tempfile). *)
Inductive cstep := MkTemp | Tool | Load | Remove | Symbol.
Definition cstep_eqb (a b : cstep) : bool :=
  match a, b with MkTemp, MkTemp | Tool, Tool | Load, Load | Remove, Remove | Symbol, Symbol => true | _, _ => false end.
Definition raises (fails : option cstep) (st : cstep) : bool := match fails with Some x => cstep_eqb x st | None => false end.
Definition compile (fails : option cstep) (new : nat) (files : list nat) : list nat * bool :=
  if raises fails MkTemp then (files, false) else
  let files1 := new :: files in
  if raises fails Tool then (files1, false) else
  if raises fails Load then (files1, false) else
  if raises fails Remove then (files1, false) else
  let files2 := remove Nat.eq_dec new files1 in
  if raises fails Symbol then (files2, false) else (files2, true).
(* a process compiling any number of kernels *)
Fixpoint compiles (fs : list (option cstep)) (new : nat) (files : list nat) : list nat :=
  match fs with [] => files | f :: r => compiles r (S new) (fst (compile f new files)) end.
