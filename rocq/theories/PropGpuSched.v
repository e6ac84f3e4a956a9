(* Property C58: user schedules on a GPU. *)
From Coq Require Import Permutation.
From Verif Require Import Base Util Lang Spec Graph Api Denote ArrayLit Reach Algo AlgoSem Kernel Sched Codegen Backends LangInst Prog
  BaseFacts ApiFacts AlgoConv AlgoConv2 AlgoFuse2 AlgoConvert AlgoConvert2 RunFacts SchedFacts KernelRun BackendFacts AlgoTop AlgoMore Nest NestSched Parallel ParCpu ParTop ParGpu
  PropAlgo PropPar SchedUser SchedUser2 SchedUser3 SchedReach FloatDiv PropSched SchedGpuUser.

(* C58.  Take any kernel and any memory with buffers of the right sizes on which the automatically scheduled CPU kernel
   ends normally in ms.  Take any schedule made by legal calls - spatial loops split once, by any positive
   factors, loops reordered within their kind, any loops mapped to block and thread coordinates or unrolled - in which
   no coordinate is used twice, no reduction loop is mapped to a coordinate, and both halves of every split with a
   tail guard are.  Launch its kernel with the grid and block extents that the backend computes from the schedule:
   every thread runs to its end; the positions written by all threads together are the positions of the output, each
   exactly once, and only the output is written; every interleaving of the threads is finite, free of data races,
   never stuck and ends in ms.
   PARTIAL: the legal calls are those of C10, and the driver has to accept the launch (C07); each of the three
   conditions is refuted below. *)
Theorem C58_gpu_schedule_partial : forall (L : lang) b g a E fs f fd k0 sc kernc k01 scoped gp lo ls (m ms : store L) fl cs su k kern k1,
  lang_ok L -> b <> CUDA -> reach g -> valid g a -> fits L g a ->
  convert g a = Done (E, fs) -> In f fs -> E f = Some fd -> gen b g E fd k0 = Done (sc, kernc, k01) -> kernel_memory g f fd lo ls m ->
  run (bind_params (k_params kernc) (lo :: ls)) (exec L scoped gp (pty_of (k_params kernc)) (k_body kernc) [[]]) m = (ms, OkO fl) ->
  ulegals_x cuda_exec (sched_init fd) cs -> urun (sched_init fd) cs = Done su ->
  one_loop_per_coordinate su -> no_gpu_reduction su -> guards_on_gpu su -> split_fits L su ->
  codegen g E (func_args (f_expr fd)) fd su k = Done (kern, k1) ->
  let loc := bind_params (k_params kern) (lo :: ls) in
  let ts := gpu_threads L true su kern in
  (exists wss, Forall2 (does L (inp_of L loc m lo)) ts wss /\ Permutation (map (pos L) (concat wss)) (zrange (zprod (shape_of g f))) /\
     Forall (fun w => fst (fst w) = NOut) (concat wss)) /\
  settles L loc ts m (fun m' => forall x, m' x = ms x).
Proof. intros; eapply gpu_user; eauto using converted_ns. Qed.
Print Assumptions C58_gpu_schedule_partial.
(* and the calls and the code generation never fail, and every annotation has a CUDA text *)
Theorem C58_gpu_calls_succeed : forall g a E fs f fd cs k, reach g -> valid g a ->
  convert g a = Done (E, fs) -> In f fs -> E f = Some fd -> ulegals_x cuda_exec (sched_init fd) cs ->
  exists s kern k1, urun (sched_init fd) cs = Done s /\ Forall (fun l => handles CUDA (ls_exec l) = true) (s_loops s) /\
    codegen g E (func_args (f_expr fd)) fd s k = Done (kern, k1).
Proof.
  intros g a E fs f fd cs k Hr Ha Hcv Hf Hfd HU. pose proof (converted_ns _ _ _ _ Hr Ha Hcv) as Hns.
  exact (user_total_x (py_lang no_libm) (py_lang_ok _) g Hr a Ha Hns E fs Hcv f fd Hf Hfd cuda_exec eq_refl cs k HU).
Qed.
Print Assumptions C58_gpu_calls_succeed.

(* the threads of a launch one after the other: one of the interleavings *)
Fixpoint run_all {A} (L : lang) (loc : name -> option nat) (ts : list (Kernel.prog L A)) (m : store L) : option (store L) :=
  match ts with
  | [] => Some m
  | t :: r => match run loc t m with (m', OkO _) => run_all L loc r m' | _ => None end
  end.
(* the output buffer after the launch of a schedule made by the calls, and the launch extents *)
Definition try_launch (g : graph) (a : nat) (m : store (py_lang no_libm)) (cs : list ucall) : option (list Z * option (list (val (py_lang no_libm)))) :=
  match convert g a with
  | Done (E, _) => match E a with
    | Some fd => match urun (sched_init fd) cs with
      | Done su => match codegen g E (func_args (f_expr fd)) fd su 0 with
        | Done (kern, _) => match run_all _ (bind_params (k_params kern) [0; 1]%nat) (gpu_threads (py_lang no_libm) true su kern) m with
                            | Some m' => Some (launch_dims su, m' 0%nat) | None => None end
        | _ => None end
      | _ => None end
    | None => None end
  | _ => None end.
(* split(j, 2); reorder(j__o, j__i, i); gpu_blocks(j__o, "x"); gpu_threads(j__i, "y"): 2 x 2 threads, each with its own
   loop over i; one of the four column positions is outside *)
Definition exGpuCalls : list ucall := let o := mkLV (NLoop false 1 [true]) 2 in let i := mkLV (NLoop false 1 [false]) 2 in
  [USplit axJ 2; UReorder [o; i; axI]; UExec o (XBlock AX); UExec i (XThread AY)].
Example C58_nonvacuous : exists E fd s kern k1 su kern' k1',
  reach exNeg /\ valid exNeg 1 /\ fits (py_lang no_libm) exNeg 1 /\
  convert exNeg 1 = Done (E, [1%nat]) /\ E 1%nat = Some fd /\ gen Python exNeg E fd 0 = Done (s, kern, k1) /\ kernel_memory exNeg 1 fd 0 [1%nat] exNegMem /\
  ulegals_x cuda_exec (sched_init fd) exGpuCalls /\ urun (sched_init fd) exGpuCalls = Done su /\
  one_loop_per_coordinate su /\ no_gpu_reduction su /\ guards_on_gpu su /\ split_fits (py_lang no_libm) su /\ existsb sp_guard (s_splits su) = true /\
  codegen exNeg E (func_args (f_expr fd)) fd su 0 = Done (kern', k1') /\ length (gpu_threads (py_lang no_libm) true su kern') = 4%nat /\
  try_launch exNeg 1 exNegMem exGpuCalls = Some ([2; 1; 1; 1; 2; 1], Some (map PI [-1; -2; -3; -4; -5; -6])).
Proof.
  eexists _, _, _, _, _, _, _, _. split; [apply prog_reach|]. split; [vm_compute; lia|].
  split; [apply fits_all; vm_compute; reflexivity|]. split; [vm_compute; reflexivity|]. split; [vm_compute; reflexivity|]. split; [vm_compute; reflexivity|]. split.
  { split; [vm_compute; reflexivity|]. split; [intros [H|[]]; discriminate|]. split; [eexists; split; [reflexivity|vm_compute; reflexivity]|].
    intros [|i] x l H1 H2; cbn in H2; [|destruct i; discriminate]. injection H2 as <-. vm_compute in H1. injection H1 as <-.
    eexists. split; [reflexivity|vm_compute; reflexivity]. }
  split.
  { unfold exGpuCalls. cbv zeta. cbn [ulegals_x]. split; [split; [lia|split; [right; left; reflexivity|exists 1%nat; reflexivity]]|]. intros s1 H1. vm_compute in H1. injection H1 as <-.
    split; [split; [repeat constructor; cbn; intuition discriminate|left; apply Forall_forall; intros y Hy; cbn in Hy; destruct Hy as [<-|[<-|[<-|[]]]]; cbn; auto]|]. intros s2 H2. vm_compute in H2. injection H2 as <-.
    split; [split; [cbn; auto|reflexivity]|]. intros s3 H3. vm_compute in H3. injection H3 as <-.
    split; [split; [cbn; auto|reflexivity]|]. intros; exact I. }
  split; [vm_compute; reflexivity|]. split.
  { intros l l' H1 H2 He [ax Hx]. cbn in H1, H2. destruct H1 as [<-|[<-|[<-|[]]]], H2 as [<-|[<-|[<-|[]]]]; auto; cbn in *; try discriminate; destruct Hx; discriminate. }
  split. { intros l ax H1 H2. cbn in H1. destruct H1 as [<-|[<-|[<-|[]]]]; discriminate. }
  split. { intros x l H1 _ H2 H3. cbn in H1, H2. destruct H1 as [<-|[]], H2 as [<-|[<-|[<-|[]]]]; cbn in H3; try (destruct H3; discriminate); eexists; (left; reflexivity) || (right; reflexivity). }
  split; [intros x [<-|[]]; vm_compute; reflexivity|]. split; [reflexivity|].
  split; [vm_compute; reflexivity|]. split; [unfold gpu_threads; rewrite map_length; vm_compute; reflexivity|]. vm_compute. reflexivity.
Qed.

(* Two loops on one coordinate: the launch has one extent, that of the later loop, and both indices are equal in every
   thread.  gpu_threads(i, "x"); gpu_threads(j, "x") of shape (2,3): threads 0, 1, 2 write the positions (0,0), (1,1)
   and (2,2); the last is outside the array *)
Theorem C58_shared_coordinate_refuted : exists E fd su kern k1, convert exNeg 1 = Done (E, [1%nat]) /\ E 1%nat = Some fd /\
  let cs := [UExec axI (XThread AX); UExec axJ (XThread AX)] in
  ulegals_x cuda_exec (sched_init fd) cs /\ urun (sched_init fd) cs = Done su /\ no_gpu_reduction su /\ guards_on_gpu su /\ split_fits (py_lang no_libm) su /\
  codegen exNeg E (func_args (f_expr fd)) fd su 0 = Done (kern, k1) /\ launch_dims su = [1; 1; 1; 3; 1; 1] /\
  run_all _ (bind_params (k_params kern) [0; 1]%nat) (firstn 2 (gpu_threads (py_lang no_libm) true su kern)) exNegMem <> None /\
  run_all _ (bind_params (k_params kern) [0; 1]%nat) (gpu_threads (py_lang no_libm) true su kern) exNegMem = None /\
  (* with the loops swapped by reorder, the extent is 2, and four elements are missing *)
  try_launch exNeg 1 exNegMem [UReorder [axI; axJ]; UExec axJ (XThread AX); UExec axI (XThread AX)] = Some ([1; 1; 1; 2; 1; 1], Some (map PI [-1; 0; 0; 0; -5; 0])).
Proof.
  eexists _, _, _, _, _. split; [vm_compute; reflexivity|]. split; [vm_compute; reflexivity|]. cbv zeta. split.
  { cbn [ulegals_x]. split; [split; [cbn; auto|reflexivity]|]. intros s1 H1. vm_compute in H1. injection H1 as <-.
    split; [split; [cbn; auto|reflexivity]|]. intros; exact I. }
  split; [vm_compute; reflexivity|].
  split. { intros l ax H1 H2. cbn in H1. destruct H1 as [<-|[<-|[]]]; discriminate. }
  split; [intros x l []|]. split; [intros x []|]. split; [vm_compute; reflexivity|]. split; [vm_compute; reflexivity|].
  split; [vm_compute; discriminate|]. split; vm_compute; reflexivity.
Qed.
Print Assumptions C58_shared_coordinate_refuted.
(* A guarded split left sequential inside a thread: the guard ends the thread, and the rows after the first are lost *)
Theorem C58_sequential_guard_refuted : exists g a m cs, reach g /\ valid g a /\
  try_launch g a m [] = Some ([1; 1; 1; 1; 1; 1], Some (map PI [-1; -2; -3; -4; -5; -6])) /\
  cs = [USplit axJ 2; UExec (mkLV (NLoop false 1 [true]) 2) (XBlock AX)] /\
  try_launch g a m cs = Some ([2; 1; 1; 1; 1; 1], Some (map PI [-1; -2; -3; -4; -5; 0])).
Proof. exists exNeg, 1%nat, exNegMem. eexists. split; [apply prog_reach|]. split; [vm_compute; lia|]. split; [vm_compute; reflexivity|]. split; [reflexivity|]. vm_compute. reflexivity. Qed.
Print Assumptions C58_sequential_guard_refuted.
(* A reduction loop on a coordinate: the kernel text keeps its own loop over the reduction, so every thread computes
   the whole sum, and they all write the same element.  x.sum(), 2 elements, gpu_threads(r, "x"): after two reads of
   each thread, both are about to write out[0] *)
Definition exSum1 : graph := prog [CArray (Nest [Leaf (NInt 5); Leaf (NInt 7)]); CSum 0 None false].
Definition exSum1Mem : store (py_lang no_libm) := fun l => match l with 0%nat => Some (map PI [0]) | 1%nat => Some (map PI [5; 7]) | _ => None end.
Definition redR := mkLV (NLoop true 0 []) 2.
(* one read of thread t *)
Definition read_one {A} (L : lang) (loc : name -> option nat) (m : store L) (t : nat) (ts : list (Kernel.prog L A)) : option (list (Kernel.prog L A)) :=
  match nth_error ts t with
  | Some (PRd n i k) => match loc n with Some b => match m b with Some l => match znth l i with Some v => Some (upd ts t (k v)) | None => None end | None => None end | None => None end
  | _ => None
  end.
Lemma read_one_step {A} L loc m t (ts ts' : list (Kernel.prog L A)) : read_one L loc m t ts = Some ts' -> pstep L loc (ts, m) (ts', m).
Proof.
  unfold read_one. destruct (nth_error ts t) as [[| | |n i k|]|] eqn:Et; try discriminate. destruct (loc n) eqn:El; [|discriminate]. destruct (m n0) eqn:Em; [|discriminate].
  destruct (znth l i) eqn:Ez; [|discriminate]. intros H. injection H as <-. eapply ps_rd; eauto.
Qed.
Fixpoint reads_all {A} (L : lang) (loc : name -> option nat) (m : store L) (sch : list nat) (ts : list (Kernel.prog L A)) : option (list (Kernel.prog L A)) :=
  match sch with [] => Some ts | t :: r => match read_one L loc m t ts with Some ts' => reads_all L loc m r ts' | None => None end end.
Lemma reads_all_steps {A} L loc m sch : forall (ts ts' : list (Kernel.prog L A)), reads_all L loc m sch ts = Some ts' -> psteps L loc (length sch) (ts, m) (ts', m).
Proof.
  induction sch as [|t sch IH]; intros ts ts' H; cbn in H; [injection H as <-; constructor|].
  destruct (read_one L loc m t ts) as [ts1|] eqn:E1; [|discriminate]. cbn [length]. econstructor; [eapply read_one_step; eauto|eauto].
Qed.
(* threads 0 and 1 are about to write the same element of the same buffer *)
Definition clash {A} (L : lang) (loc : name -> option nat) (ts : list (Kernel.prog L A)) : bool :=
  match nth_error ts 0, nth_error ts 1 with
  | Some (PWr n i _ _), Some (PWr n' i' _ _) => match loc n, loc n' with Some b, Some b' => Nat.eqb b b' && (i =? i') | _, _ => false end
  | _, _ => false
  end.
Lemma clash_race {A} L loc m sch (ts : list (Kernel.prog L A)) : match reads_all L loc m sch ts with Some ts' => clash L loc ts' | None => false end = true ->
  exists ts', psteps L loc (length sch) (ts, m) (ts', m) /\ race L loc ts'.
Proof.
  destruct (reads_all L loc m sch ts) as [ts'|] eqn:ER; [|discriminate]. intros H. exists ts'. split; [now apply reads_all_steps|]. unfold clash in H.
  destruct (nth_error ts' 0) as [[| | | |n i v k]|] eqn:E0; try discriminate. destruct (nth_error ts' 1) as [[| | | |n' i' v' k']|] eqn:E1; try discriminate.
  destruct (loc n) as [b|] eqn:L0; [|discriminate]. destruct (loc n') as [b'|] eqn:L1; [|discriminate]. apply andb_prop in H as [H1 H2].
  apply Nat.eqb_eq in H1. apply Z.eqb_eq in H2. subst b' i'. exists 0%nat, 1%nat. eexists _, _, b, i. split; [lia|]. split; [exact E0|]. split; [exact E1|]. cbn. auto.
Qed.
Theorem C58_gpu_reduction_refuted : exists E fd su kern k1, reach exSum1 /\ valid exSum1 1 /\ convert exSum1 1 = Done (E, [1%nat]) /\ E 1%nat = Some fd /\
  let cs := [UExec redR (XThread AX)] in
  ulegals_x cuda_exec (sched_init fd) cs /\ urun (sched_init fd) cs = Done su /\ one_loop_per_coordinate su /\ guards_on_gpu su /\ split_fits (py_lang no_libm) su /\
  codegen exSum1 E (func_args (f_expr fd)) fd su 0 = Done (kern, k1) /\ launch_dims su = [1; 1; 1; 2; 1; 1] /\
  let loc := bind_params (k_params kern) [0; 1]%nat in
  exists ts', psteps (py_lang no_libm) loc 4 (gpu_threads (py_lang no_libm) true su kern, exSum1Mem) (ts', exSum1Mem) /\ race (py_lang no_libm) loc ts'.
Proof.
  eexists _, _, _, _, _. split; [apply prog_reach|]. split; [vm_compute; lia|]. split; [vm_compute; reflexivity|]. split; [vm_compute; reflexivity|]. cbv zeta. split.
  { cbn [ulegals_x]. split; [split; [cbn; auto|reflexivity]|]. intros; exact I. }
  split; [vm_compute; reflexivity|]. split.
  { intros l l' H1 H2 _ _. cbn in H1, H2. destruct H1 as [<-|[]], H2 as [<-|[]]; reflexivity. }
  split; [intros x l []|]. split; [intros x []|]. split; [vm_compute; reflexivity|]. split; [vm_compute; reflexivity|].
  apply (clash_race _ _ _ [0; 0; 1; 1]%nat). vm_compute. reflexivity.
Qed.
Print Assumptions C58_gpu_reduction_refuted.
