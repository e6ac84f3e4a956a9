From Verif Require Import Base BaseFacts Util UtilFacts Lang Spec Graph Api Denote SpecFacts DenoteFacts Reach
  Algo AlgoSem AlgoConv AlgoConv2 AlgoFuse AlgoFuse2 AlgoConvert AlgoConvert2
  Kernel Sched Codegen Backends KernFacts RenderFacts KernelOk RunFacts SchedFacts SchedGpu KernelRun KernelRun2.

Lemma gpu_handles shape red : forallb (fun l => handles CUDA (ls_exec l)) (filter is_spatial (gpu_spatial shape ++ red_loops red)) = true.
Proof.
  apply forallb_forall. intros l Hl. apply filter_In in Hl as [Hl _]. apply in_app_iff in Hl as [Hl|Hl].
  - destruct shape as [|d0 [|d1 [|d2 [|d3 s]]]]; cbn in Hl; repeat (destruct Hl as [<-|Hl]; [reflexivity|]); try contradiction.
    apply in_app_iff in Hl as [Hl|[<-|[<-|[]]]]; try reflexivity.
    assert (G : forall s k, In l (mapi_from k (fun i d => sp (lvar i d) XSeq) s) -> ls_exec l = XSeq).
    { clear. induction s as [|d s IH]; intros k H; cbn in H; [tauto|]. destruct H as [<-|H]; [reflexivity|eauto]. }
    change (d3 :: s) with ([d3] ++ s) in Hl. now rewrite (G _ _ Hl).
  - unfold red_loops in Hl. apply in_map_iff in Hl as (x & <- & _). reflexivity.
Qed.
Lemma cpu_handles b loops : b <> CUDA -> Forall (fun l => cpu_exec (ls_exec l)) loops ->
  forallb (fun l => handles b (ls_exec l)) (filter is_spatial loops) = true.
Proof.
  intros Hb H. apply forallb_forall. intros l Hl. apply filter_In in Hl as [Hl _]. rewrite Forall_forall in H. specialize (H l Hl).
  destruct b, (ls_exec l); cbn in *; try reflexivity; try contradiction; congruence.
Qed.

Section Gen.
Context (g : graph) (Hw : wf_graph g) (E : fenv) (f : nat) (fd : func) (nd : node) (HK : kctx g E f fd nd).
Lemma gen_ok b k : exists s kern k1, gen b g E fd k = Done (s, kern, k1) /\
   auto_schedule (is_gpu b) fd = Done s /\ codegen g E (func_args (f_expr fd)) fd s k = Done (kern, k1).
Proof using Hw HK.
  unfold gen. assert (HS : exists s, auto_schedule (is_gpu b) fd = Done s /\ forallb (fun l => handles b (ls_exec l)) (filter is_spatial (s_loops s)) = true).
  { destruct b; cbn [is_gpu]; unfold auto_schedule.
    - destruct (schedule_cpu_ok fd) as (s & E1 & _ & _ & H). exists s. split; auto. apply cpu_handles; auto; discriminate.
    - destruct (schedule_cpu_ok fd) as (s & E1 & _ & _ & H). exists s. split; auto. apply cpu_handles; auto; discriminate.
    - rewrite (kc_fd g E f fd nd HK). destruct (schedule_gpu_ok f (n_shape nd) (n_dtype nd) (f_expr fd) f) as (s & E1 & E2 & _).
      exists s. split; auto. rewrite E2. apply gpu_handles. }
  destruct HS as (s & -> & HH). cbn [obind]. rewrite HH.
  destruct (codegen_ok g Hw E f fd nd HK s k) as (ps & c & v & k1 & HC & _).
  rewrite HC. cbn [obind]. eexists _, _, _. split; [reflexivity|]. split; [reflexivity|]. exact HC.
Qed.
End Gen.
