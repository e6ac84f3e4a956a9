(* The GPU side of materialize.py, backend.py, backend_cuda.py, buffer.py and ndarray.tolist: host lists,
   device pointers, device memory, and everything a program can do to them, in any order.  The
   relations are nondeterministic where the machine is: device addresses, the contents of freshly
   allocated memory, whether an allocation fails, and the interleaving of GPU threads. *)
From Verif Require Import Base Util Lang Spec Graph Api Denote Reach Tolist Algo AlgoSem Kernel Sched Codegen Backends CacheKey KernelRun
  Runtime RuntimeFacts RuntimeFacts2 Parallel ParGpu.

Section Device.
(* the language kernels are written in (CUDA C), and which Python values ctypes accepts *)
Context (B : cpu_backend).
Notation L := (b_lang B).
Notation V := (val (b_lang B)).

(* calls to the CUDA driver; arrays are named by their position in the program, p is a device address.
   A launch records the contents of its inputs (ghost) *)
Inductive event :=
| EvAlloc (n p : nat)
| EvFree (n p : nat)
| EvHtoD (n p : nat)
| EvDtoH (n p : nat)
| EvLaunch (n p : nat) (ins : list (nat * nat * list V)).

(* process state.  dv_host: buffer.cpu (buffer.py:24-28); dv_ptr: buffer.dev.ptr; dv_mem: allocated device
   memory; dv_alive: the array has not been garbage collected; dv_log: driver calls, newest first (ghost) *)
Record dev := mkDev {
  dv_graph : graph;
  dv_host : store L;
  dv_ptr : nat -> option nat;
  dv_mem : store L;
  dv_cache : list (kkey * kernel);
  dv_tmp : nat;
  dv_alive : nat -> bool;
  dv_log : list event
}.
Definition upd1 {A} (f : nat -> A) (n : nat) (x : A) : nat -> A := fun k => if Nat.eqb n k then x else f k.
Definition dev0 : dev := mkDev [] (fun _ => None) (fun _ => None) (fun _ => None) [] 0 (fun _ => false) [].

Definition set_mem (s : dev) (m : store L) (e : event) : dev :=
  mkDev (dv_graph s) (dv_host s) (dv_ptr s) m (dv_cache s) (dv_tmp s) (dv_alive s) (e :: dv_log s).
Definition set_ptr (s : dev) (n p : nat) (vs : list V) : dev :=
  mkDev (dv_graph s) (dv_host s) (upd1 (dv_ptr s) n (Some p)) (upd1 (dv_mem s) p (Some vs)) (dv_cache s) (dv_tmp s) (dv_alive s) (EvAlloc n p :: dv_log s).
Definition set_host (s : dev) (n p : nat) (vs : list V) : dev :=
  mkDev (dv_graph s) (upd1 (dv_host s) n (Some vs)) (dv_ptr s) (dv_mem s) (dv_cache s) (dv_tmp s) (dv_alive s) (EvDtoH n p :: dv_log s).

(* backend.py:46-48, backend_cuda.py:86-89: the pointer of a buffer, allocated if there is none.  cuMemAlloc
   returns an address that is not in use and memory with arbitrary contents; it may fail, and always
   fails for 0 bytes (CUDA_ERROR_INVALID_VALUE), which backend_cuda.py:33-36 turns into RuntimeError *)
Inductive pointer (s : dev) (n : nat) : dev -> outcome nat -> Prop :=
| pt_have p : dv_ptr s n = Some p -> pointer s n s (Done p)
| pt_alloc p nd garbage : dv_ptr s n = None -> nth_error (dv_graph s) n = Some nd -> 0 < n_len nd ->
    dv_mem s p = None -> Z.of_nat (length garbage) = n_len nd -> pointer s n (set_ptr s n p garbage) (Done p)
| pt_fail : dv_ptr s n = None -> pointer s n s (Throw RuntimeErr).
(* backend.py:50-51, backend_cuda.py:94-95: copy the host list of an input to the device; (ctype * length)( *src)
   converts every element, or raises TypeError; the driver refuses an address that is not allocated (a pointer
   of a destroyed context, see DevReset.v).  Memory that is allocated at p is taken to belong to an array of
   the same size *)
Definition copy_htod (s : dev) (n p : nat) : dev * outcome unit :=
  match dv_host s n, nth_error (dv_graph s) n with
  | Some vs, Some nd => if forallb (b_accept B (n_dtype nd)) vs
                        then match dv_mem s p with
                             | Some _ => (set_mem s (upd1 (dv_mem s) p (Some (map (coerce L (n_dtype nd)) vs))) (EvHtoD n p), Done tt)
                             | None => (s, Throw RuntimeErr)
                             end
                        else (s, Throw TypeErr)
  | _, _ => (s, Done tt)
  end.
(* backend.py:45-51: one parameter; i != 0 means it is not the output *)
Inductive prep1 (out : bool) (s : dev) (n : nat) : dev -> outcome nat -> Prop :=
| p1_fail s1 e : pointer s n s1 (Throw e) -> prep1 out s n s1 (Throw e)
| p1_out s1 p : out = true -> pointer s n s1 (Done p) -> prep1 out s n s1 (Done p)
| p1_in s1 p s2 : out = false -> pointer s n s1 (Done p) -> copy_htod s1 n p = (s2, Done tt) -> prep1 out s n s2 (Done p)
| p1_bad s1 p s2 e : out = false -> pointer s n s1 (Done p) -> copy_htod s1 n p = (s2, Throw e) -> prep1 out s n s2 (Throw e).
(* the loop over the parameters, ending with all device addresses *)
Inductive prep : bool -> dev -> list nat -> dev -> outcome (list nat) -> Prop :=
| pr_nil out s : prep out s [] s (Done [])
| pr_fail out s n r s1 e : prep1 out s n s1 (Throw e) -> prep out s (n :: r) s1 (Throw e)
| pr_cons out s n r s1 p s2 oc : prep1 out s n s1 (Done p) -> prep false s1 r s2 oc ->
    prep out s (n :: r) s2 (match oc with Done ps => Done (p :: ps) | Throw e => Throw e end).

(* backend.py:53-64, backend_cuda.py:69-84: launch and wait.  A launch the driver refuses raises RuntimeError;
   a launch with a data race, an access outside the allocated memory or undefined arithmetic may do
   anything to the device memory, here marked by InternalErr *)
Definition inputs_at (s : dev) (ns ps : list nat) : list (nat * nat * list V) :=
  map (fun np => (fst np, snd np, match dv_mem s (snd np) with Some vs => vs | None => [] end)) (combine ns ps).
Inductive glaunch (s : dev) (sc : schedule) (kern : kernel) (n : nat) (ns : list nat) (p : nat) (ps : list nat) : dev -> outcome unit -> Prop :=
| gl_refused : launchable (launch_dims sc) = false -> glaunch s sc kern n ns p ps s (Throw RuntimeErr)
| gl_run k ts m' : launchable (launch_dims sc) = true ->
    psteps L (bind_params (k_params kern) (p :: ps)) k (gpu_threads L true sc kern, dv_mem s) (ts, m') -> finished L ts ->
    glaunch s sc kern n ns p ps (set_mem s m' (EvLaunch n p (inputs_at s ns ps))) (Done tt)
| gl_undefined k ts m' m'' : launchable (launch_dims sc) = true ->
    psteps L (bind_params (k_params kern) (p :: ps)) k (gpu_threads L true sc kern, dv_mem s) (ts, m') ->
    race L (bind_params (k_params kern) (p :: ps)) ts \/ (~ finished L ts /\ forall st, ~ pstep L (bind_params (k_params kern) (p :: ps)) (ts, m') st) ->
    glaunch s sc kern n ns p ps (set_mem s m'' (EvLaunch n p (inputs_at s ns ps))) (Throw InternalErr).

(* backend.py:41-64 GPUBackend.invoke_kernel *)
Inductive ginvoke (s : dev) (sc : schedule) (kern : kernel) (n : nat) (ns : list nat) : dev -> outcome unit -> Prop :=
| gi_prep s1 e : prep true s (n :: ns) s1 (Throw e) -> ginvoke s sc kern n ns s1 (Throw e)
| gi_launch s1 p ps s2 oc : prep true s (n :: ns) s1 (Done (p :: ps)) -> glaunch s1 sc kern n ns p ps s2 oc -> ginvoke s sc kern n ns s2 oc.

Definition set_cache (s : dev) (c : list (kkey * kernel)) (k : nat) : dev :=
  mkDev (dv_graph s) (dv_host s) (dv_ptr s) (dv_mem s) c k (dv_alive s) (dv_log s).
(* materialize.py:44-71: one kernel, as in Runtime.run_func *)
Inductive grun_func (E : fenv) (fd : func) (sc : schedule) (s : dev) : dev -> outcome unit -> Prop :=
| gf_args e : mapOut (arg_buffer E) (func_args (f_expr fd)) = Throw e -> grun_func E fd sc s s (Throw e)
| gf_key bufs e : mapOut (arg_buffer E) (func_args (f_expr fd)) = Done bufs -> cache_key (dv_graph s) E fd sc = Throw e -> grun_func E fd sc s s (Throw e)
| gf_hit bufs key kern s' oc : mapOut (arg_buffer E) (func_args (f_expr fd)) = Done bufs -> cache_key (dv_graph s) E fd sc = Done key ->
    cache_get (dv_cache s) key = Some kern -> ginvoke s sc kern (f_out fd) bufs s' oc -> grun_func E fd sc s s' oc
| gf_nogen bufs key e : mapOut (arg_buffer E) (func_args (f_expr fd)) = Done bufs -> cache_key (dv_graph s) E fd sc = Done key ->
    cache_get (dv_cache s) key = None -> codegen (dv_graph s) E (func_args (f_expr fd)) fd sc (dv_tmp s) = Throw e -> grun_func E fd sc s s (Throw e)
| gf_miss bufs key kern k' s' oc : mapOut (arg_buffer E) (func_args (f_expr fd)) = Done bufs -> cache_key (dv_graph s) E fd sc = Done key ->
    cache_get (dv_cache s) key = None -> codegen (dv_graph s) E (func_args (f_expr fd)) fd sc (dv_tmp s) = Done (kern, k') ->
    ginvoke (set_cache s ((key, kern) :: dv_cache s) k') sc kern (f_out fd) bufs s' oc -> grun_func E fd sc s s' oc.
Inductive grun_funcs (E : fenv) : list (func * schedule) -> dev -> dev -> outcome unit -> Prop :=
| gr_nil s : grun_funcs E [] s s (Done tt)
| gr_fail fd sc r s s' e : grun_func E fd sc s s' (Throw e) -> grun_funcs E ((fd, sc) :: r) s s' (Throw e)
| gr_cons fd sc r s s1 s' oc : grun_func E fd sc s s1 (Done tt) -> grun_funcs E r s1 s' oc -> grun_funcs E ((fd, sc) :: r) s s' oc.
(* materialize.py:33-42; sched.py:173-184 with the GPU schedule *)
Definition gschedule_one (E : fenv) (f : nat) : outcome (func * schedule) :=
  fd <~ throw_none InternalErr (E f) ;;
  sc <~ auto_schedule true fd ;;
  if forallb (fun l => handles CUDA (ls_exec l)) (filter is_spatial (s_loops sc)) then Done (fd, sc) else Throw RuntimeErr.
Inductive gcompute (s : dev) (a : nat) : dev -> outcome unit -> Prop :=
| gc_conv e : convert (dv_graph s) a = Throw e -> gcompute s a s (Throw e)
| gc_sched E fs e : convert (dv_graph s) a = Done (E, fs) -> mapOut (gschedule_one E) fs = Throw e -> gcompute s a s (Throw e)
| gc_run E fs l s' oc : convert (dv_graph s) a = Done (E, fs) -> mapOut (gschedule_one E) fs = Done l -> grun_funcs E l s s' oc -> gcompute s a s' oc.
(* materialize.py:15-33 *)
Inductive gmat (s : dev) : nat -> dev -> outcome unit -> Prop :=
| gm_const a nd : nth_error (dv_graph s) a = Some nd -> is_const (n_op nd) = true -> gmat s a s (Done tt)
| gm_view a nd b r s' oc : nth_error (dv_graph s) a = Some nd -> is_view (n_op nd) = true -> n_in nd = b :: r -> gmat s b s' oc -> gmat s a s' oc
| gm_comp a nd s' oc : nth_error (dv_graph s) a = Some nd -> is_const (n_op nd) = false -> is_view (n_op nd) = false -> gcompute s a s' oc -> gmat s a s' oc.

(* ndarray.py:357-368 and backend.py:82-83: without a host copy the buffer is copied from the device and the
   copy is kept; without a device pointer cuMemcpyDtoH gets NULL and fails (RuntimeError) *)
Definition gtolist (s : dev) (a : nat) : dev * outcome (nest V) :=
  match nth_error (dv_graph s) a, base (dv_graph s) a with
  | Some nd, Some b =>
      match dv_host s b with
      | Some data => (s, read_nd data (n_shape nd) (n_strides nd) (n_offset nd))
      | None =>
          match dv_ptr s b with
          | None => (s, Throw RuntimeErr)
          | Some p => match dv_mem s p with
                      | Some data => (set_host s b p data, read_nd data (n_shape nd) (n_strides nd) (n_offset nd))
                      | None => (s, Throw RuntimeErr)
                      end
          end
      end
  | _, _ => (s, Throw InternalErr)
  end.

(* an API call, as in Runtime.api_call; new arrays are alive *)
Definition gcall (s : dev) (c : call) : dev * outcome nat :=
  match run_call (dv_graph s) c with
  | Throw e => (s, Throw e)
  | Done (g', r) =>
      (mkDev g' (fun n => if Nat.ltb n (length (dv_graph s)) then dv_host s n else
                  match nth_error g' n with
                  | Some nd => match n_op nd with OConst vals => Some (map (of_num L) vals) | _ => None end
                  | None => None
                  end) (dv_ptr s) (dv_mem s) (dv_cache s) (dv_tmp s)
              (fun n => if Nat.ltb n (length (dv_graph s)) then dv_alive s n else Nat.ltb n (length g')) (dv_log s), Done r)
  end.
(* the call uses only arrays the program still holds *)
Definition uses_alive (s : dev) (c : call) : Prop :=
  forall g' r n nd i, run_call (dv_graph s) c = Done (g', r) -> (length (dv_graph s) <= n)%nat -> nth_error g' n = Some nd ->
    In i (n_in nd) -> (i < length (dv_graph s))%nat -> dv_alive s i = true.

(* buffer.py:18-21: when an array dies its device memory, if any, is freed *)
Definition die1 (s : dev) (n : nat) : dev :=
  match dv_ptr s n with
  | Some p => mkDev (dv_graph s) (dv_host s) (upd1 (dv_ptr s) n None) (upd1 (dv_mem s) p None) (dv_cache s) (dv_tmp s) (upd1 (dv_alive s) n false) (EvFree n p :: dv_log s)
  | None => mkDev (dv_graph s) (dv_host s) (dv_ptr s) (dv_mem s) (dv_cache s) (dv_tmp s) (upd1 (dv_alive s) n false) (dv_log s)
  end.
Definition die (s : dev) (D : list nat) : dev := fold_left die1 D s.
(* arrays that can die together: everything still alive that was computed from them dies too
   (ndarray.py: an array holds its inputs through ctx) *)
Definition droppable (s : dev) (D : list nat) : Prop :=
  NoDup D /\ forall n, In n D -> dv_alive s n = true /\ forall m nd, dv_alive s m = true -> nth_error (dv_graph s) m = Some nd -> In n (n_in nd) -> In m D.
Definition reset_dev (s : dev) : dev := set_cache s [] (dv_tmp s).

(* ------------------------------------------------------------------ histories *)
(* a kernel that materializing a may need, with its GPU schedule *)
Definition gkernel_of (g : graph) (a : nat) (d : desc) : Prop :=
  exists b bd E fs f fd sc, base g a = Some b /\ nth_error g b = Some bd /\ is_const (n_op bd) = false /\
    convert g b = Done (E, fs) /\ In f fs /\ E f = Some fd /\ auto_schedule true fd = Done sc /\ d = mkD g E fd sc.
(* what a GPU computation needs: sizes and steps fit the index type, one dtype, every element of every
   array involved is defined (no division by zero, no overflow to an undefined conversion, ...) *)
Definition gmat_ok (g : graph) (b : nat) : Prop :=
  mat_ok L g b /\
  forall n nd, cone g b n -> nth_error g n = Some nd ->
    (n_shape nd <> [] -> ltB L (last (n_shape nd) 0 + 256)) /\
    forall idx, in_range (n_shape nd) idx -> exists v, t_at (den L g n) idx = Ok v.
(* the buffer a tolist() would copy has been computed (or there is none to copy) *)
Definition readable (s : dev) (a : nat) : Prop :=
  forall b, base (dv_graph s) a = Some b ->
    dv_host s b <> None \/ dv_ptr s b = None \/ exists p ins, In (EvLaunch b p ins) (dv_log s).

(* [safe = false] also allows tolist() on buffers that were allocated but never computed *)
Inductive ghist (safe : bool) (C : desc -> Prop) : dev -> Prop :=
| gh_init : ghist safe C dev0
| gh_call s c : ghist safe C s -> call_ok (dv_graph s) c -> uses_alive s c -> ghist safe C (fst (gcall s c))
| gh_mat s a s' oc : ghist safe C s -> dv_alive s a = true ->
    (forall b, base (dv_graph s) a = Some b -> gmat_ok (dv_graph s) b) ->
    (forall d, gkernel_of (dv_graph s) a d -> C d) ->
    gmat s a s' oc -> ghist safe C s'
| gh_tolist s a : ghist safe C s -> dv_alive s a = true -> (safe = true -> readable s a) -> ghist safe C (fst (gtolist s a))
| gh_die s D : ghist safe C s -> droppable s D -> ghist safe C (die s D)
| gh_reset s : ghist safe C s -> ghist safe C (reset_dev s).
(* what happens after s *)
Inductive glater (C : desc -> Prop) (s : dev) : dev -> Prop :=
| gla_here : glater C s s
| gla_call t c : glater C s t -> call_ok (dv_graph t) c -> uses_alive t c -> glater C s (fst (gcall t c))
| gla_mat t a t' oc : glater C s t -> dv_alive t a = true ->
    (forall b, base (dv_graph t) a = Some b -> gmat_ok (dv_graph t) b) ->
    (forall d, gkernel_of (dv_graph t) a d -> C d) ->
    gmat t a t' oc -> glater C s t'
| gla_tolist t a : glater C s t -> dv_alive t a = true -> readable t a -> glater C s (fst (gtolist t a))
| gla_die t D : glater C s t -> droppable t D -> glater C s (die t D)
| gla_reset t : glater C s t -> glater C s (reset_dev t).
End Device.
