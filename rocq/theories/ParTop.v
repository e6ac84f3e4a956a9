(* Kernels of a conversion on memory with arbitrary contents; threads on a CPU. *)
From Coq Require Import Permutation.
From Verif Require Import Base BaseFacts Util UtilFacts Lang Spec Graph Api Denote SpecFacts DenoteFacts Reach ApiFacts
  Algo AlgoSem AlgoConv AlgoConv2 AlgoFuse AlgoFuse2 AlgoConvert AlgoConvert2
  Kernel Sched Codegen Backends KernFacts RenderFacts KernelOk RunFacts SchedFacts SchedGpu KernelRun KernelRun2 BackendFacts AlgoTop AlgoMore Safety
  Nest NestSched NestBody Parallel ParKernel ParCpu.

(* Memory on which the kernel of array f may be started: the output buffer is at location lo, the
   i-th argument at the i-th location of ls; arguments may share locations, but not with the output;
   every buffer has as many elements as its array; any contents. *)
Definition kernel_memory {L : lang} (g : graph) (f : nat) (fd : func) (lo : nat) (ls : list nat) (m : store L) : Prop :=
  length ls = length (func_args (f_expr fd)) /\ ~ In lo ls /\
  (exists out, m lo = Some out /\ Z.of_nat (length out) = zprod (shape_of g f)) /\
  forall i x l, nth_error (func_args (f_expr fd)) i = Some x -> nth_error ls i = Some l ->
     exists vs, m l = Some vs /\ Z.of_nat (length vs) = zprod (shape_of g (arg_id x)).

Lemma gen_inv b g E fd k s kern k1 : gen b g E fd k = Done (s, kern, k1) ->
  auto_schedule (is_gpu b) fd = Done s /\ codegen g E (func_args (f_expr fd)) fd s k = Done (kern, k1).
Proof.
  unfold gen. destruct (auto_schedule (is_gpu b) fd) as [s0|] eqn:ES; cbn [obind]; [|discriminate].
  destruct (forallb _ _); [|discriminate]. destruct (codegen g E _ fd s0 k) as [[kern0 k0]|] eqn:EC; cbn [obind]; [|discriminate].
  intros H. injection H as <- <- <-. auto.
Qed.

Section Any.
Context (L : lang) (HL : lang_ok L) (g : graph) (Hr : reach g) (a : nat) (Ha : valid g a) (Hns : no_scalar_reshape g a) (Hfit : fits L g a)
  (E : fenv) (fs : list nat) (Hcv : convert g a = Done (E, fs)) (f : nat) (fd : func) (Hf : In f fs) (Hfd : E f = Some fd).
Let Hw : wf_graph g := reach_wf g Hr.

Lemma kernel_contents kern lo ls (m : store L) : kernel_memory g f fd lo ls m ->
  exists nd F out, kctx g E f fd nd /\ shape_of g f = n_shape nd /\ ltB L (zprod (n_shape nd)) /\ m lo = Some out /\
    placed L g fd nd F kern lo ls m out /\ forall idx, in_range (n_shape nd) idx -> kval L g f fd nd F idx <> Fault.
Proof using HL Hr Ha Hns Hfit Hcv Hf Hfd.
  intros (Hlen & Hlo & (out & Hm & Hout) & Hin).
  pose proof (convert_inv L g a E fs HL Hr Ha Hns Hcv) as HSp.
  destruct (convert_kctx L g a E fs f HSp Hf) as (fd' & nd & Hfd' & HK). assert (fd' = fd) by congruence. subst fd'.
  pose proof (kc_nd _ _ _ _ _ HK) as Hnd.
  assert (Hsh : shape_of g f = n_shape nd) by (unfold shape_of; now rewrite Hnd). rewrite Hsh in Hout.
  set (args := func_args (f_expr fd)) in *.
  set (F := fun n idx => match loc_of args ls n with
     | Some l => match m l with Some vs => match znth vs (flat (shape_of g n) idx) with Some v => Ok v | None => Raise end | None => Raise end
     | None => Raise end).
  pose proof (args_distinct L HL g Hr a Ha Hns E fs Hcv f fd Hf Hfd HSp) as HND. fold args in HND.
  assert (HF : forall n i, F n i <> Fault).
  { intros n i. unfold F. destruct (loc_of args ls n); [|discriminate]. destruct (m n0); [|discriminate]. destruct (znth l _); discriminate. }
  exists nd, F, out. split; auto. split; auto. split; [apply (Hfit f nd (cs_cone _ _ _ _ _ HSp f Hf) Hnd)|]. split; auto. split.
  - split; auto. split; auto. split; auto. split; auto. intros i x l H1 H2. fold args in H1.
    destruct (Hin i x l H1 H2) as (vs & V1 & V2). assert (Hx : In x args) by (eapply nth_error_In; eauto). split.
    + destruct (arg_node g Hw E f fd nd HK x Hx) as (xd & X1 & _ & X2). rewrite X2. apply (Hfit (arg_id x) xd); auto.
      eapply (arg_cone L HL g Hr a Ha Hns E fs Hcv f fd Hf Hfd); eauto.
    + exists vs. split; auto. intros idx Hi. unfold F. rewrite (loc_of_nth args ls i x l HND H1 H2), V1.
      destruct (znth vs (flat (shape_of g (arg_id x)) idx)) as [v|] eqn:Ev; eauto. exfalso.
      pose proof (flat_bounds (shape_of g (arg_id x)) idx Hi) as HFB. destruct (znth_in_range vs (flat (shape_of g (arg_id x)) idx)) as [v Hv]; [lia|congruence].
  - intros idx Hi. unfold kval.
    pose proof (kval_any L HL g Hr a Ha Hns Hfit E fs Hcv f fd Hf Hfd F nd (n_dtype nd) idx Hnd HF Hi) as HN. destruct (evalV _ _ _ _ _ _); cbn; congruence.
Qed.

(* a sequential run that ends normally computes every element *)
Lemma seq_all_ok scoped gp nd F sc k kern k1 lo ls (m : store L) out ms fl : kctx g E f fd nd -> ltB L (zprod (n_shape nd)) ->
  placed L g fd nd F kern lo ls m out -> (forall idx, in_range (n_shape nd) idx -> kval L g f fd nd F idx <> Fault) ->
  schedule_cpu (sched_init fd) = Done sc -> codegen g E (func_args (f_expr fd)) fd sc k = Done (kern, k1) ->
  run (bind_params (k_params kern) (lo :: ls)) (exec L scoped gp (pty_of (k_params kern)) (k_body kern) [[]]) m = (ms, OkO fl) ->
  forall idx, in_range (n_shape nd) idx -> exists v, kval L g f fd nd F idx = Ok v.
Proof using HL Hr.
  intros HK HB HP Hnf HS HC R idx Hi. destruct HP as (Hlen & Hlo & Hm & Hout & Hin).
  destruct (kernel_run L HL scoped gp g Hw E f fd nd HK HB F Hnf sc k kern k1 lo ls m out HS HC Hlen Hlo Hm Hout Hin) as (m' & oc & out' & R' & _ & _ & Hoc).
  rewrite R in R'. injection R' as <- <-. destruct (Hoc idx Hi) as (v & Hv & _). eauto.
Qed.

Theorem cpu_parallel_top b scoped gp k s kern k1 lo ls (m ms : store L) fl chunks : b <> CUDA -> gen b g E fd k = Done (s, kern, k1) ->
  kernel_memory g f fd lo ls m -> shape_of g f <> [] -> Permutation (concat chunks) (zrange (hd 0 (shape_of g f))) ->
  let loc := bind_params (k_params kern) (lo :: ls) in let pty := pty_of (k_params kern) in
  run loc (exec L scoped gp pty (k_body kern) [[]]) m = (ms, OkO fl) ->
  exists ts, omp_threads L scoped gp pty (k_body kern) chunks = Some ts /\ settles L loc ts m (fun m' => forall x, m' x = ms x).
Proof using HL Hr Ha Hns Hfit Hcv Hf Hfd.
  intros Hb HG HM Hsh HP loc pty R. destruct (gen_inv _ _ _ _ _ _ _ _ HG) as (HS & HC).
  assert (Hsc : schedule_cpu (sched_init fd) = Done s) by (destruct b; try congruence; exact HS).
  destruct (kernel_contents kern lo ls m HM) as (nd & F & out & HK & Hs & HB & Hm & HPl & Hnf). rewrite Hs in *.
  pose proof (seq_all_ok scoped gp nd F s k kern k1 lo ls m out ms fl HK HB HPl Hnf Hsc HC R) as Hok.
  destruct (cpu_outer_parallel L HL scoped g Hw E f fd nd HK HB F Hok gp s k kern k1 lo ls m out chunks Hsc HC HPl Hsh HP) as (ms' & fl' & ts & R' & HT & HSe).
  fold loc in R'. fold pty in R'. rewrite R in R'. injection R' as <- <-. eauto.
Qed.
Theorem cpu_any_order_top b scoped gp k s kern k1 lo ls (m ms : store L) fl parts : b <> CUDA -> gen b g E fd k = Done (s, kern, k1) ->
  kernel_memory g f fd lo ls m -> Permutation (concat parts) (all_idx (shape_of g f)) ->
  let loc := bind_params (k_params kern) (lo :: ls) in let pty := pty_of (k_params kern) in
  run loc (exec L scoped gp pty (k_body kern) [[]]) m = (ms, OkO fl) ->
  settles L loc (map (iter_thread L scoped gp pty (k_body kern)) parts) m (fun m' => forall x, m' x = ms x).
Proof using HL Hr Ha Hns Hfit Hcv Hf Hfd.
  intros Hb HG HM HP loc pty R. destruct (gen_inv _ _ _ _ _ _ _ _ HG) as (HS & HC).
  assert (Hsc : schedule_cpu (sched_init fd) = Done s) by (destruct b; try congruence; exact HS).
  destruct (kernel_contents kern lo ls m HM) as (nd & F & out & HK & Hs & HB & Hm & HPl & Hnf). rewrite Hs in *.
  pose proof (seq_all_ok scoped gp nd F s k kern k1 lo ls m out ms fl HK HB HPl Hnf Hsc HC R) as Hok.
  destruct (cpu_any_order L HL scoped g Hw E f fd nd HK HB F Hok gp s k kern k1 lo ls m out parts Hsc HC HPl HP) as (ms' & fl' & R' & HSe).
  fold loc in R'. fold pty in R'. rewrite R in R'. injection R' as <- <-. eauto.
Qed.
End Any.
