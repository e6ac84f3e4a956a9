(* User schedules on a GPU: splits, reorders, and loops mapped to block and thread coordinates. *)
From Coq Require Import Permutation.
From Verif Require Import Base BaseFacts Util UtilFacts Lang Spec Graph Api Denote SpecFacts DenoteFacts Reach ApiFacts FrontFacts
  Algo AlgoSem AlgoConv AlgoConv2 AlgoFuse AlgoFuse2 AlgoConvert AlgoConvert2
  Kernel Sched Codegen Backends KernFacts RenderFacts KernelOk RunFacts SchedFacts SchedGpu KernelRun KernelRun2 BackendFacts AlgoTop AlgoMore Safety
  Nest NestSched NestBody Parallel ParKernel ParCpu ParTop ParGpu SchedUser SchedUser2 SchedUser3.

(* backend_cuda.py:15-23: the annotations that CUDA text exists for *)
Definition cuda_exec (x : lexec) : Prop := handles CUDA x = true.
(* loops with the same coordinate are the same loop *)
Definition one_loop_per_coordinate (s : schedule) : Prop :=
  forall l l', In l (s_loops s) -> In l' (s_loops s) -> ls_exec l = ls_exec l' ->
    (exists ax, ls_exec l = XBlock ax \/ ls_exec l = XThread ax) -> l = l'.
(* no reduction loop is mapped to a coordinate *)
Definition no_gpu_reduction (s : schedule) : Prop :=
  forall l ax, In l (s_loops s) -> ls_kind l = Reduce -> ls_exec l <> XBlock ax /\ ls_exec l <> XThread ax.
(* both halves of every split with a tail guard are mapped to coordinates *)
Definition guards_on_gpu (s : schedule) : Prop :=
  forall x l, In x (s_splits s) -> sp_guard x = true -> In l (s_loops s) -> ls_lv l = sp_o x \/ ls_lv l = sp_i x ->
    exists ax, ls_exec l = XBlock ax \/ ls_exec l = XThread ax.

Lemma owner_exec l ax : ls_exec l = XBlock ax \/ ls_exec l = XThread ax -> exists b, owner l b ax.
Proof. intros [H|H]; [exists true|exists false]; exact H. Qed.

Section Top.
Context (L : lang) (HL : lang_ok L) (g : graph) (Hr : reach g) (a : nat) (Ha : valid g a) (Hns : no_scalar_reshape g a) (Hfit : fits L g a)
  (E : fenv) (fs : list nat) (Hcv : convert g a = Done (E, fs)) (f : nat) (fd : func) (Hf : In f fs) (Hfd : E f = Some fd).
Let Hw : wf_graph g := reach_wf g Hr.
Theorem gpu_user b scoped gp k0 sc kernc k01 cs su k kern k1 lo ls (m ms : store L) fl : b <> CUDA -> gen b g E fd k0 = Done (sc, kernc, k01) ->
  kernel_memory g f fd lo ls m ->
  run (bind_params (k_params kernc) (lo :: ls)) (exec L scoped gp (pty_of (k_params kernc)) (k_body kernc) [[]]) m = (ms, OkO fl) ->
  ulegals_x cuda_exec (sched_init fd) cs -> urun (sched_init fd) cs = Done su ->
  one_loop_per_coordinate su -> no_gpu_reduction su -> guards_on_gpu su -> split_fits L su ->
  codegen g E (func_args (f_expr fd)) fd su k = Done (kern, k1) ->
  let loc := bind_params (k_params kern) (lo :: ls) in
  let ts := gpu_threads L true su kern in
  (exists wss, Forall2 (does L (inp_of L loc m lo)) ts wss /\ Permutation (map (pos L) (concat wss)) (zrange (zprod (shape_of g f))) /\
     Forall (fun w => fst (fst w) = NOut) (concat wss)) /\
  settles L loc ts m (fun m' => forall x, m' x = ms x).
Proof using HL Hr Ha Hns Hfit Hcv Hf Hfd.
  intros Hb HG0 HM R HUl Hu H1 H2 H3 HF HC loc ts. destruct (gen_inv _ _ _ _ _ _ _ _ HG0) as (HS0 & HC0).
  assert (Hsc : schedule_cpu (sched_init fd) = Done sc) by (destruct b; try congruence; exact HS0).
  destruct (kernel_contents L HL g Hr a Ha Hns Hfit E fs Hcv f fd Hf Hfd kern lo ls m HM) as (nd & F & out & HK & Hs & HB & Hm & HPl & Hnf). rewrite Hs in *.
  pose proof (seq_all_ok L HL g Hr E f fd scoped gp nd F sc k0 kernc k01 lo ls m out ms fl HK HB HPl Hnf Hsc HC0 R) as Hok.
  destruct (urun_ok cuda_exec eq_refl _ cs _ _ (uinv_init_x cuda_exec eq_refl g E f fd nd HK) HUl) as (su' & fac & Ru & HI). rewrite Hu in Ru. injection Ru as <-.
  pose proof (ui_nest _ _ _ HI) as HN.
  destruct (gpu_launch_any L HL true g Hw E f fd nd HK HB F Hok su fac k kern k1 lo ls m out HN) as (HW & N & HSe); auto.
  - intros l l' b0 ax Hl Hl' Ho Ho'. apply H1; auto; [unfold owner in *; congruence|]. exists ax. unfold owner in Ho. destruct b0; auto.
  - intros l b0 ax Hl Ho. unfold is_spatial. destruct (ls_kind l) eqn:Ek; auto. exfalso. destruct (H2 l ax Hl Ek) as [A B]. unfold owner in Ho. destruct b0; auto.
  - intros l j d q Hl Hd Hq Hmd Hnm. pose proof (nk_sp _ _ _ _ HN j d q Hd Hq) as Hsp.
    assert (Hlv : ls_lv l = NestSched.lo j d q \/ ls_lv l = li j q).
    { destruct (nk_in _ _ _ _ HN l Hl) as (j' & d' & Hd' & Hlv). unfold lnm in Hnm.
      destruct (fac j') as [q'|] eqn:Eq'; [|rewrite Hlv in Hnm; destruct Hnm; discriminate].
      assert (j' = j) by (destruct Hlv as [Hlv|Hlv]; rewrite Hlv in Hnm; destruct Hnm as [Hnm|Hnm]; cbn in Hnm; congruence). subst j'. rewrite Hd in Hd'. rewrite Hq in Eq'. injection Hd' as <-. injection Eq' as <-. exact Hlv. }
    apply filter_In in Hl as [Hl _]. destruct (H3 (spl j d q) l Hsp) as (ax & Hx); auto.
    + cbn. destruct (Z.eqb_spec (d mod q) 0); [contradiction|reflexivity].
    + destruct (owner_exec l ax Hx) as (b0 & Ho). eauto.
  - intros j d q Hd Hq. exact (HF (spl j d q) (nk_sp _ _ _ _ HN j d q Hd Hq)).
  - split; [exact HW|]. exists N. intros n ts' m' Hst. destruct (HSe n ts' m' Hst) as (A1 & A2 & A3 & A4). split; auto. split; auto. split; auto.
    intros HFi x. destruct (A4 HFi) as (out' & O1 & O2 & O3 & O4).
    destruct (seq_run L HL scoped g Hw E f fd nd HK HB F Hok gp sc k0 kernc k01 lo ls m out Hsc HC0 HPl) as (ms' & fl' & outs & R' & Hms & Hmo & Hlo & Hfo).
    rewrite R in R'. injection R' as <- <-.
    destruct (Nat.eq_dec x lo) as [->|Hne]; [|rewrite O4, Hmo; auto]. rewrite O1, Hms. f_equal.
    assert (Hol : Z.of_nat (length out) = zprod (n_shape nd)) by (destruct HPl as (_ & _ & _ & Ho & _); exact Ho).
    eapply filled_unique; [exact (sh_nonneg g Hw E f fd nd HK)| | |exact O3|exact Hfo]; congruence.
Qed.
Lemma user_total_x (P : lexec -> Prop) (HP0 : P XSeq) cs k : ulegals_x P (sched_init fd) cs ->
  exists s kern k1, urun (sched_init fd) cs = Done s /\ Forall (fun l => P (ls_exec l)) (s_loops s) /\ codegen g E (func_args (f_expr fd)) fd s k = Done (kern, k1).
Proof using HL Hr Ha Hns Hcv Hf Hfd.
  intros HU. pose proof (convert_inv L g a E fs HL Hr Ha Hns Hcv) as HSp.
  destruct (convert_kctx L g a E fs f HSp Hf) as (fd' & nd & Hfd' & HK). rewrite Hfd in Hfd'. injection Hfd' as <-.
  destruct (urun_ok P HP0 _ cs _ _ (uinv_init_x P HP0 g E f fd nd HK) HU) as (s & fac & R & HI).
  destruct (codegen_ok g (reach_wf g Hr) E f fd nd HK s k) as (ps & c & v & k1 & HC & _). eexists _, _, _. split; [exact R|]. split; [exact (ui_cpu _ _ _ HI)|exact HC].
Qed.
End Top.
