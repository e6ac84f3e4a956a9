(* Property C10, exactly: what any legal user schedule computes, tail guards in any place. *)
From Coq Require Import Permutation.
From Verif Require Import Base Util Lang Spec Graph Api Denote ArrayLit Reach Algo AlgoSem Kernel Sched Codegen Backends LangInst Prog
  BaseFacts ApiFacts AlgoConv AlgoConv2 AlgoFuse2 AlgoConvert AlgoConvert2 RunFacts SchedFacts KernelRun BackendFacts AlgoTop AlgoMore Nest NestSched NestBody Parallel ParKernel ParCpu ParTop ParGpu
  PropAlgo PropPar SchedUser SchedUser2 SchedUser3 SchedReach FloatDiv PropSched SchedPar SchedExact.

(* C10.  For any kernel, any memory with buffers of the right sizes on which the automatically scheduled kernel ends
   normally in ms, and any legal sequence of calls (no condition on tail guards): the scheduled kernel ends normally,
   changes only the output buffer, and - going through the iterations of its loop nest in loop order - computes the
   elements of the iterations before the first one that lies outside the array, with the values of ms; all other
   elements keep the content that the buffer had before.  If no iteration inside the array comes after one outside,
   the memory is ms. *)
Theorem C10_exact : forall (L : lang) b g a E fs f fd k s kern k1 scoped gp lo ls (m ms : store L) fl cs su k' kern' k1',
  lang_ok L -> b <> CUDA -> reach g -> valid g a -> fits L g a ->
  convert g a = Done (E, fs) -> In f fs -> E f = Some fd -> gen b g E fd k = Done (s, kern, k1) -> kernel_memory g f fd lo ls m ->
  run (bind_params (k_params kern) (lo :: ls)) (exec L scoped gp (pty_of (k_params kern)) (k_body kern) [[]]) m = (ms, OkO fl) ->
  ulegals (sched_init fd) cs -> urun (sched_init fd) cs = Done su -> split_fits L su ->
  codegen g E (func_args (f_expr fd)) fd su k' = Done (kern', k1') ->
  let shape := shape_of g f in
  exists mu fl' before right after, m lo = Some before /\ ms lo = Some right /\
    run (bind_params (k_params kern') (lo :: ls)) (exec L scoped gp (pty_of (k_params kern')) (k_body kern') [[]]) m = (mu, OkO fl') /\
    mu lo = Some after /\ (forall x, x <> lo -> mu x = ms x) /\ length after = length right /\
    (forall idx, in_range shape idx -> znth after (flat shape idx) =
      znth (if existsb (fun zs => list_zeqb (element su shape zs) idx) (executed su shape) then right else before) (flat shape idx)) /\
    (complete su shape -> after = right).
Proof. intros; eapply user_exact_top; eauto using converted_ns. Qed.
Print Assumptions C10_exact.
(* "complete" is exactly the condition that every element is computed: a legal schedule that is not complete leaves
   some element of the output as it was, whatever the kernel and the memory *)
Theorem C10_complete_iff : forall g a E fs f fd cs su, reach g -> valid g a -> convert g a = Done (E, fs) -> In f fs -> E f = Some fd ->
  ulegals (sched_init fd) cs -> urun (sched_init fd) cs = Done su ->
  complete su (shape_of g f) <->
  forall idx, in_range (shape_of g f) idx -> existsb (fun zs => list_zeqb (element su (shape_of g f) zs) idx) (executed su (shape_of g f)) = true.
Proof.
  intros g a E fs f fd cs su Hr Ha Hcv Hf Hfd HU Hu. pose proof (converted_ns _ _ _ _ Hr Ha Hcv) as Hns.
  destruct (user_nest (py_lang no_libm) (py_lang_ok _) g Hr a Ha Hns E fs Hcv f fd Hf Hfd cs su HU Hu) as (fac & HN).
  rewrite (complete_iff_nest _ fac su HN). split; intros H idx Hi.
  - destruct (H idx Hi) as (zs & H1 & H2). apply existsb_exists. exists zs. split; auto. now apply list_zeqb_eq.
  - specialize (H idx Hi). apply existsb_exists in H as (zs & H1 & H2). apply list_zeqb_eq in H2. eauto.
Qed.
Print Assumptions C10_complete_iff.
(* schedules without tail guards, and schedules whose only guarded split has its halves outermost, are complete *)
Theorem C10_tail_ok_complete : forall g a E fs f fd cs su, reach g -> valid g a -> convert g a = Done (E, fs) -> In f fs -> E f = Some fd ->
  ulegals (sched_init fd) cs -> urun (sched_init fd) cs = Done su -> tail_ok su -> complete su (shape_of g f).
Proof.
  intros g a E fs f fd cs su Hr Ha Hcv Hf Hfd HU Hu HT. pose proof (converted_ns _ _ _ _ Hr Ha Hcv) as Hns.
  pose proof (convert_inv (py_lang no_libm) g a E fs (py_lang_ok _) Hr Ha Hns Hcv) as HSp.
  destruct (convert_kctx (py_lang no_libm) g a E fs f HSp Hf) as (fd' & nd & Hfd' & HK). assert (fd' = fd) by congruence. subst fd'.
  assert (Hsh : shape_of g f = n_shape nd) by (unfold shape_of; now rewrite (kc_nd _ _ _ _ _ HK)). rewrite Hsh.
  destruct (urun_ok cpu_exec I _ cs _ _ (uinv_init g E f fd nd HK) HU) as (su' & fac & Ru & HI). rewrite Hu in Ru. injection Ru as <-.
  pose proof (ui_nest _ _ _ HI) as HN.
  assert (Hcpu : Forall (fun l => cpu_exec (ls_exec l)) (filter is_spatial (s_loops su))).
  { apply Forall_forall. intros l Hl. apply filter_In in Hl as [Hl _]. pose proof (ui_cpu _ _ _ HI) as H. rewrite Forall_forall in H. auto. }
  destruct (live_order (py_lang no_libm) (n_shape nd) (sh_nonneg g (reach_wf g Hr) E f fd nd HK) (fun _ => Ok (PI 0)) ltac:(eauto) (fun _ _ => 0) fac _ _ HN Hcpu) as (x & y & Hxy & Hx & Hy).
  { intros z Hz Hg. destruct (HT z Hz Hg) as (r & Hrr). exists r. exact Hrr. }
  rewrite (iter_tuples _ _ Hcpu) in Hxy. unfold complete, executed. rewrite Hxy.
  assert (Hin : forall t, inside su (n_shape nd) t = live (n_shape nd) fac (filter is_spatial (s_loops su)) t) by (intros; apply (inside_live (py_lang no_libm)); auto; exact (fun _ => Fault)).
  clear - Hx Hy Hin. rewrite filter_app, (SchedFacts.filter_all_false _ y), app_nil_r by (intros t Ht; rewrite Hin; auto).
  induction x as [|t x IH]; cbn.
  - destruct y as [|t y]; auto. cbn. now rewrite Hin, Hy by now left.
  - rewrite Hin, Hx by now left. f_equal. apply IH. intros; apply Hx; now right.
Qed.
Print Assumptions C10_tail_ok_complete.

(* split(j, 2) alone, on shape (2,3): the iterations (i, j__o, j__i); the fourth, (0,1,1), is outside.  The elements
   (0,0), (0,1), (0,2) are computed, (1,0), (1,1), (1,2) are not *)
Example C10_exact_nonvacuous : exists E fd su, convert exNeg 1 = Done (E, [1%nat]) /\ E 1%nat = Some fd /\
  ulegals (sched_init fd) [USplit axJ 2] /\ urun (sched_init fd) [USplit axJ 2] = Done su /\ split_fits (py_lang no_libm) su /\
  executed su [2; 3] = [[0; 0; 0]; [0; 0; 1]; [0; 1; 0]] /\ map (element su [2; 3]) (executed su [2; 3]) = [[0; 0]; [0; 1]; [0; 2]] /\ ~ complete su [2; 3].
Proof.
  eexists _, _, _. split; [vm_compute; reflexivity|]. split; [vm_compute; reflexivity|]. split.
  { cbn [ulegals_x]. split; [split; [lia|split; [right; left; reflexivity|exists 1%nat; reflexivity]]|]. intros; exact I. }
  split; [vm_compute; reflexivity|]. split; [intros x [<-|[]]; vm_compute; reflexivity|]. split; [vm_compute; reflexivity|]. split; [vm_compute; reflexivity|].
  intros H. vm_compute in H. discriminate.
Qed.
(* a complete schedule that is not tail_ok: inner half outermost.  Positions 0, 2, 1 of j are visited before 3 *)
Example C10_complete_nonvacuous : exists E fd su, let cs := [USplit axJ 2; UReorder [axI; mkLV (NLoop false 1 [true]) 2; mkLV (NLoop false 1 [false]) 2]] in
  convert exNeg 1 = Done (E, [1%nat]) /\ E 1%nat = Some fd /\
  ulegals (sched_init fd) cs /\ urun (sched_init fd) cs = Done su /\ ~ tail_ok su /\ complete su [2; 3] /\
  try_schedule exNeg 1 exNegMem cs = Some (Some (map PI [-1; -2; -3; -4; -5; -6])).
Proof.
  eexists _, _, _. cbv zeta. split; [vm_compute; reflexivity|]. split; [vm_compute; reflexivity|]. split.
  { cbn [ulegals_x]. split; [split; [lia|split; [right; left; reflexivity|exists 1%nat; reflexivity]]|]. intros s1 H1. vm_compute in H1. injection H1 as <-.
    split; [split; [repeat constructor; cbn; intuition discriminate|left; apply Forall_forall; intros y Hy; cbn in Hy; destruct Hy as [<-|[<-|[<-|[]]]]; cbn; auto]|]. intros; exact I. }
  split; [vm_compute; reflexivity|]. split.
  { intros H. destruct (H _ (or_introl eq_refl) eq_refl) as (r & Hr). discriminate. }
  split; vm_compute; reflexivity.
Qed.
