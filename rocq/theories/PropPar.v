(* Properties C06, C07: threads. *)
From Coq Require Import Permutation.
From Verif Require Import Base Util Lang Spec Graph Api Denote ArrayLit Reach Algo AlgoSem Kernel Sched Codegen Backends LangInst Prog
  BaseFacts ApiFacts AlgoConv AlgoConv2 AlgoFuse2 AlgoConvert AlgoConvert2 RunFacts KernelRun BackendFacts AlgoTop AlgoMore Nest Parallel ParCpu ParTop ParGpu PropAlgo.

(* C06.  Take any kernel of any array a, generated for a CPU backend, and start it on any memory whose
   buffers have the right sizes.  If the sequential execution of the kernel ends normally in memory ms,
   then:
   - run the iterations of the outermost loop on any number of threads, in any shares and any order
     inside a share (chunks).  Every interleaving of the threads' memory accesses is finite, free of
     data races, never stuck, and ends in exactly ms. *)
Theorem C06_parallel_outer_loop : forall (L : lang) b g a E fs f fd k s kern k1 scoped gp lo ls (m ms : store L) fl chunks,
  lang_ok L -> b <> CUDA -> reach g -> valid g a -> fits L g a ->
  convert g a = Done (E, fs) -> In f fs -> E f = Some fd -> gen b g E fd k = Done (s, kern, k1) -> kernel_memory g f fd lo ls m ->
  shape_of g f <> [] -> Permutation (concat chunks) (zrange (hd 0 (shape_of g f))) ->
  let loc := bind_params (k_params kern) (lo :: ls) in let pty := pty_of (k_params kern) in
  run loc (exec L scoped gp pty (k_body kern) [[]]) m = (ms, OkO fl) ->
  exists ts, omp_threads L scoped gp pty (k_body kern) chunks = Some ts /\ settles L loc ts m (fun m' => forall x, m' x = ms x).
Proof. intros; eapply cpu_parallel_top; eauto using converted_ns. Qed.
Print Assumptions C06_parallel_outer_loop.
(* - the same for the single iterations of the whole loop nest, dealt to threads in any way (one thread:
     any permutation of the iterations) *)
Theorem C06_any_iteration_order : forall (L : lang) b g a E fs f fd k s kern k1 scoped gp lo ls (m ms : store L) fl parts,
  lang_ok L -> b <> CUDA -> reach g -> valid g a -> fits L g a ->
  convert g a = Done (E, fs) -> In f fs -> E f = Some fd -> gen b g E fd k = Done (s, kern, k1) -> kernel_memory g f fd lo ls m ->
  Permutation (concat parts) (all_idx (shape_of g f)) ->
  let loc := bind_params (k_params kern) (lo :: ls) in let pty := pty_of (k_params kern) in
  run loc (exec L scoped gp pty (k_body kern) [[]]) m = (ms, OkO fl) ->
  settles L loc (map (iter_thread L scoped gp pty (k_body kern)) parts) m (fun m' => forall x, m' x = ms x).
Proof. intros; eapply cpu_any_order_top; eauto using converted_ns. Qed.
Print Assumptions C06_any_iteration_order.

(* x = [[1,2,3],[4,5,6]]; (x.T * x.T) : 3x2 elements, reads shared by the threads *)
Definition exPar : graph := prog
  [CArray (Nest [Nest [Leaf (NInt 1); Leaf (NInt 2); Leaf (NInt 3)]; Nest [Leaf (NInt 4); Leaf (NInt 5); Leaf (NInt 6)]]);
   CT 0; CT 0; CBinary BMul 1 2].
Definition exMem : store (c_lang no_libm) := fun l => match l with
  | 0%nat => Some (map CI64 [0; 0; 0; 0; 0; 0]) | 1%nat => Some (map CI64 [1; 2; 3; 4; 5; 6]) | _ => None end.
Example C06_nonvacuous : reach exPar /\ valid exPar 3 /\ no_scalar_reshape exPar 3 /\ fits (c_lang no_libm) exPar 3 /\ shape_of exPar 3 = [3; 2] /\
  Permutation (concat [[2]; []; [1; 0]]) (zrange 3) /\
  exists E fd s kern k1, convert exPar 3 = Done (E, [3%nat]) /\ E 3%nat = Some fd /\ gen Clang exPar E fd 0 = Done (s, kern, k1) /\
    kernel_memory exPar 3 fd 0 [1%nat] exMem /\
    exists ms fl, run (bind_params (k_params kern) [0; 1]%nat) (exec (c_lang no_libm) true (fun _ _ => 0) (pty_of (k_params kern)) (k_body kern) [[]]) exMem = (ms, OkO fl) /\
      ms 0%nat = Some (map CI64 [1; 16; 4; 25; 9; 36]).
Proof.
  split; [apply prog_reach|]. split; [vm_compute; lia|]. split; [apply no_scalar_reshape_all; vm_compute; reflexivity|].
  split; [apply fits_all; vm_compute; reflexivity|]. split; [vm_compute; reflexivity|]. split.
  { change (Permutation [2; 1; 0] [0; 1; 2]). apply (Permutation_rev [2; 1; 0]). }
  eexists _, _, _, _, _. split; [vm_compute; reflexivity|]. split; [vm_compute; reflexivity|]. split; [vm_compute; reflexivity|]. split.
  - split; [vm_compute; reflexivity|]. split; [intros [H|[]]; discriminate|]. split; [eexists; split; [reflexivity|vm_compute; reflexivity]|].
    intros [|i] x l H1 H2; cbn in H2; [|destruct i; discriminate]. injection H2 as <-. vm_compute in H1. injection H1 as <-.
    eexists. split; [reflexivity|vm_compute; reflexivity].
  - eexists _, _. split; [vm_compute; reflexivity|]. vm_compute. reflexivity.
Qed.

(* C07.  The launch chosen for a CUDA kernel (grid and block extents as computed by the backend), on any
   memory whose buffers have the right sizes: if the CPU kernel of the same array ends normally in ms, then
   - every thread runs to its end; the positions written by all threads together are the positions of the
     output, each exactly once, and only the output is written;
   - every interleaving of the threads is finite, free of data races, never stuck and ends in ms.
   PARTIAL: assumes that the driver accepts the launch; see the theorems below for when it does. *)
Theorem C07_launch_covers_partial : forall (L : lang) b g a E fs f fd k0 sc kernc k01 k s kern k1 scoped gp lo ls (m ms : store L) fl,
  lang_ok L -> b <> CUDA -> reach g -> valid g a -> fits L g a ->
  convert g a = Done (E, fs) -> In f fs -> E f = Some fd ->
  gen b g E fd k0 = Done (sc, kernc, k01) -> gen CUDA g E fd k = Done (s, kern, k1) -> kernel_memory g f fd lo ls m ->
  (shape_of g f <> [] -> ltB L (last (shape_of g f) 0 + 256)) ->
  run (bind_params (k_params kernc) (lo :: ls)) (exec L scoped gp (pty_of (k_params kernc)) (k_body kernc) [[]]) m = (ms, OkO fl) ->
  let loc := bind_params (k_params kern) (lo :: ls) in
  let ts := gpu_threads L true s kern in
  (exists wss, Forall2 (does L (inp_of L loc m lo)) ts wss /\ Permutation (map (pos L) (concat wss)) (zrange (zprod (shape_of g f))) /\
     Forall (fun w => fst (fst w) = NOut) (concat wss)) /\
  settles L loc ts m (fun m' => forall x, m' x = ms x).
Proof. intros; eapply gpu_top; eauto using converted_ns. Qed.
Print Assumptions C07_launch_covers_partial.
Example C07_nonvacuous : exists E fd s kern k1, convert exPar 3 = Done (E, [3%nat]) /\ E 3%nat = Some fd /\ gen CUDA exPar E fd 0 = Done (s, kern, k1) /\
  launch_dims s = [3; 1; 1; 256; 1; 1] /\ ltB (c_lang no_libm) (2 + 256) /\ length (gpu_threads (c_lang no_libm) true s kern) = 768%nat.
Proof.
  eexists _, _, _, _, _. split; [vm_compute; reflexivity|]. split; [vm_compute; reflexivity|]. split; [vm_compute; reflexivity|].
  split; [vm_compute; reflexivity|]. split; [vm_compute; reflexivity|]. unfold gpu_threads. rewrite map_length. vm_compute. reflexivity.
Qed.
(* when the driver accepts the launch: every extent between 1 and 65535 is enough *)
Theorem C07_launch_accepted : forall g a E fs f fd k s kern k1, reach g -> valid g a -> 
  convert g a = Done (E, fs) -> In f fs -> E f = Some fd -> gen CUDA g E fd k = Done (s, kern, k1) ->
  Forall (fun d => 1 <= d <= 65535) (shape_of g f) -> launchable (launch_dims s) = true.
Proof.
  intros g a E fs f fd k s kern k1 Hr Ha Hcv Hf Hfd HG Hd. pose proof (converted_ns _ _ _ _ Hr Ha Hcv) as Hns.
  pose proof (convert_inv (py_lang no_libm) g a E fs (py_lang_ok _) Hr Ha Hns Hcv) as HSp.
  destruct (convert_kctx (py_lang no_libm) g a E fs f HSp Hf) as (fd' & nd & Hfd' & HK). assert (fd' = fd) by congruence. subst fd'.
  destruct (gen_inv _ _ _ _ _ _ _ _ HG) as (HS & _).
  assert (Hsh : shape_of g f = n_shape nd) by (unfold shape_of; now rewrite (kc_nd _ _ _ _ _ HK)). rewrite Hsh in Hd.
  assert (HS2 : schedule_gpu (sched_init fd) = Done s) by exact HS. rewrite (kc_fd g E f fd nd HK) in HS2. rewrite (launch_closed _ _ _ _ _ _ HS2).
  assert (Hc : forall d, 1 <= d <= 65535 -> 1 <= ceildiv d 256 <= 65535).
  { intros d H. pose proof (NestSched.ceildiv_bounds d 256 ltac:(lia)). lia. }
  destruct (n_shape nd) as [|d0 [|d1 [|d2 [|d3 r]]]]; [reflexivity| | | |].
  - apply Forall_inv in Hd. specialize (Hc d0 Hd). cbn [launchable]. repeat (apply andb_true_intro; split); lia.
  - pose proof (Forall_inv Hd). pose proof (Forall_inv (Forall_inv_tail Hd)) as H1. specialize (Hc d1 H1). cbn beta in *. cbn [launchable]. repeat (apply andb_true_intro; split); lia.
  - pose proof (Forall_inv Hd). pose proof (Forall_inv (Forall_inv_tail Hd)) as H1. pose proof (Forall_inv (Forall_inv_tail (Forall_inv_tail Hd))) as H2.
    specialize (Hc d2 H2). cbn beta in *. cbn [launchable]. repeat (apply andb_true_intro; split); lia.
  - assert (Hl : 1 <= last (d0 :: d1 :: d2 :: d3 :: r) 0 <= 65535).
    { rewrite Forall_forall in Hd. apply Hd. clear. assert (G : forall (x : Z) l, In (last (x :: l) 0) (x :: l)).
      { intros x l; revert x; induction l as [|y l IH]; intros x; [now left|]. right. apply IH. } apply G. }
    specialize (Hc _ Hl). cbn [launchable]. repeat (apply andb_true_intro; split); lia.
Qed.
Print Assumptions C07_launch_accepted.
Example C07_accepted_nonvacuous : Forall (fun d => 1 <= d <= 65535) (shape_of exPar 3).
Proof. vm_compute. repeat constructor; discriminate. Qed.
(* empty arrays of rank 1 to 3 are launched with a grid extent of 0 and so raise RuntimeError; on the CPU
   backends the same computation succeeds *)
Theorem C07_empty_array_refuted : forall g a E fs f fd k s kern k1, reach g -> valid g a -> 
  convert g a = Done (E, fs) -> In f fs -> E f = Some fd -> gen CUDA g E fd k = Done (s, kern, k1) ->
  In 0 (shape_of g f) -> (length (shape_of g f) <= 3)%nat -> launchable (launch_dims s) = false.
Proof.
  intros g a E fs f fd k s kern k1 Hr Ha Hcv Hf Hfd HG Hd Hlen. pose proof (converted_ns _ _ _ _ Hr Ha Hcv) as Hns.
  pose proof (convert_inv (py_lang no_libm) g a E fs (py_lang_ok _) Hr Ha Hns Hcv) as HSp.
  destruct (convert_kctx (py_lang no_libm) g a E fs f HSp Hf) as (fd' & nd & Hfd' & HK). assert (fd' = fd) by congruence. subst fd'.
  destruct (gen_inv _ _ _ _ _ _ _ _ HG) as (HS & _).
  assert (Hsh : shape_of g f = n_shape nd) by (unfold shape_of; now rewrite (kc_nd _ _ _ _ _ HK)). rewrite Hsh in *.
  assert (HS2 : schedule_gpu (sched_init fd) = Done s) by exact HS. rewrite (kc_fd g E f fd nd HK) in HS2. rewrite (launch_closed _ _ _ _ _ _ HS2).
  apply not_true_is_false. intros H.
  destruct (n_shape nd) as [|d0 [|d1 [|d2 [|d3 r]]]]; cbn in Hd, Hlen; try lia; cbn [launchable] in H; repeat (apply andb_prop in H as [H ?]);
    repeat (destruct Hd as [->|Hd]); try contradiction; change (ceildiv 0 256) with 0 in *; try discriminate.
Qed.
Print Assumptions C07_empty_array_refuted.
Example C07_empty_nonvacuous : let g := prog [CArray (Nest []); CUnary UNeg 0] in reach g /\ valid g 1 /\ In 0 (shape_of g 1) /\
  exists E fd s kern k1, convert g 1 = Done (E, [1%nat]) /\ E 1%nat = Some fd /\ gen CUDA g E fd 0 = Done (s, kern, k1) /\ launch_dims s = [0; 1; 1; 256; 1; 1].
Proof.
  split; [apply prog_reach|]. split; [vm_compute; lia|]. split; [vm_compute; auto|].
  eexists _, _, _, _, _. split; [vm_compute; reflexivity|]. split; [vm_compute; reflexivity|]. split; vm_compute; reflexivity.
Qed.
(* grid.y and grid.z are limited to 65535: the middle axis of a rank-3 array of shape (1,70000,1) is not *)
Theorem C07_grid_limit_refuted : exists g a E fd s kern k1, reach g /\ valid g a /\ shape_of g a = [1; 70000; 1] /\
  convert g a = Done (E, [a]) /\ E a = Some fd /\ gen CUDA g E fd 0 = Done (s, kern, k1) /\ launchable (launch_dims s) = false.
Proof.
  exists (prog [CFull [1; 70000; 1] (NInt 1); CUnary UNeg 0]), 1%nat. eexists _, _, _, _, _.
  split; [apply prog_reach|]. split; [vm_compute; lia|]. split; [vm_compute; reflexivity|].
  split; [vm_compute; reflexivity|]. split; [vm_compute; reflexivity|]. split; [vm_compute; reflexivity|vm_compute; reflexivity].
Qed.
Print Assumptions C07_grid_limit_refuted.
