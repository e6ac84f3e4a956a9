(* Kernels of legal user schedules without tail guards, on threads. *)
From Coq Require Import Permutation.
From Verif Require Import Base BaseFacts Util UtilFacts Lang Spec Graph Api Denote SpecFacts DenoteFacts Reach ApiFacts
  Algo AlgoSem AlgoConv AlgoConv2 AlgoFuse AlgoFuse2 AlgoConvert AlgoConvert2
  Kernel Sched Codegen Backends KernFacts RenderFacts KernelOk RunFacts SchedFacts SchedGpu KernelRun KernelRun2 BackendFacts AlgoTop AlgoMore Safety
  Nest NestSched NestBody Parallel ParKernel ParCpu ParTop SchedUser SchedUser2 SchedUser3.

(* the iterations of the loop nest of a schedule: one position per spatial loop, outermost first *)
Definition iterations (s : schedule) : list (list Z) := all_idx (map lv_ext (spatial_loops s)).
Definition no_tail (s : schedule) : Prop := forall x, In x (s_splits s) -> sp_guard x = false.

Lemma lrange_iter s zs : In zs (iterations s) <-> lrange (filter is_spatial (s_loops s)) zs.
Proof.
  unfold iterations, spatial_loops, lrange. rewrite in_all_idx, map_map. generalize (filter is_spatial (s_loops s)) as l. intros l. revert zs.
  induction l as [|x l IH]; intros zs; cbn; split; inversion 1; subst; constructor; auto; now apply IH.
Qed.

Section Kern.
Context (L : lang) (HL : lang_ok L) (scoped : bool).
Context (g : graph) (Hw : wf_graph g) (E : fenv) (f : nat) (fd : func) (nd : node) (HK : kctx g E f fd nd).
Context (HB : ltB L (zprod (n_shape nd))) (F : nat -> list Z -> res (val L)).
Notation sh := (n_shape nd).
Notation kval := (kval L g f fd nd F).
Context (Hok : forall idx, in_range sh idx -> exists v, kval idx = Ok v).

Theorem user_any_order gp s fac k kern k1 lo ls m out parts : uinv sh fac s -> no_tail s -> split_fits L s ->
  codegen g E (func_args (f_expr fd)) fd s k = Done (kern, k1) -> placed L g fd nd F kern lo ls m out ->
  Permutation (concat parts) (iterations s) ->
  let loc := bind_params (k_params kern) (lo :: ls) in let pty := pty_of (k_params kern) in
  settles L loc (map (iter_thread L scoped gp pty (k_body kern)) parts) m
    (fun m' => exists out', m' lo = Some out' /\ length out' = length out /\ filled L sh kval out' /\ forall b, b <> lo -> m' b = m b).
Proof using HL Hw HK HB Hok.
  intros [U1 U2 U3 U4] HTl HF HC HP Hperm loc pty.
  destruct (kern_parts L HL g Hw E f fd nd HK F s k kern k1 lo ls m out HC HP) as (c & v & Hbody & Hren & HNo & HI & Hpt & Hloc).
  fold loc in HI, Hloc. fold pty in Hpt.
  assert (Hs0 := sh_nonneg g Hw E f fd nd HK).
  assert (Hit : forall zs, In zs (iterations s) -> lrange (filter is_spatial (s_loops s)) zs) by (intros; now apply lrange_iter).
  assert (Hit2 : forall zs, lrange (filter is_spatial (s_loops s)) zs -> In zs (iterations s)) by (intros; now apply lrange_iter).
  set (loops := filter is_spatial (s_loops s)) in *.
  assert (Hcpu : Forall (fun l => cpu_exec (ls_exec l)) loops).
  { apply Forall_forall. intros l Hl. apply filter_In in Hl as [Hl _]. rewrite Forall_forall in U4. auto. }
  assert (Hsp : Forall (fun l => is_spatial l = true) loops) by (apply Forall_forall; intros l Hl; now apply filter_In in Hl).
  assert (Hval : forall idx, in_range sh idx -> (w <- evalV L (shape_of g) F (n_dtype nd) (f_expr fd) (lenv f sh idx) ;; Ok (coerce L (pty NOut) w)) = kval idx).
  { intros idx _. rewrite Hpt. reflexivity. }
  assert (HBk : forall k d q, nth_error sh k = Some d -> fac k = Some q -> ltB L (d + q)).
  { intros j d q Hd Hq. exact (HF (spl j d q) (nk_sp _ _ _ _ U2 j d q Hd Hq)). }
  assert (Hlrg : forall zs, In zs (concat parts) -> lrange loops zs) by (intros zs Hzs; apply Hit; eapply Permutation_in; eauto).
  assert (Hlive : forall zs, In zs (concat parts) -> live sh fac loops zs = true).
  { intros zs Hzs. apply (live_iff sh fac loops (s_splits s) U2 zs (Hlrg zs Hzs)). intros j d q Hd Hq Hm. exfalso.
    specialize (HTl (spl j d q) (nk_sp _ _ _ _ U2 j d q Hd Hq)). cbn in HTl. apply Hm. destruct (Z.eqb_spec (d mod q) 0); [assumption|discriminate]. }
  destruct (pool_fill L sh Hs0 kval Hok fac loops (s_splits s) U2 loc m lo out (map (iter_thread L scoped gp pty (k_body kern)) parts) parts) as (_ & N & HPF); auto.
  - destruct HP as (_ & _ & Hm & _); exact Hm.
  - destruct HP as (_ & _ & _ & Ho & _); exact Ho.
  - assert (G : forall ch, (forall zs, In zs (concat ch) -> In zs (concat parts)) -> Forall2 (fun p zss => does L (inp_of L loc m lo) p (map (wof L sh kval fac loops) (filter (live sh fac loops) zss)))
        (map (iter_thread L scoped gp pty (k_body kern)) ch) ch).
    { induction ch as [|zss ch IH]; intros Hinc; cbn [map]; constructor; [|apply IH; intros y Hy; apply Hinc; cbn; apply in_or_app; now right].
      assert (Hz : forall zs, In zs zss -> In zs (concat parts)) by (intros y Hy; apply Hinc; cbn; apply in_or_app; now left).
      clear IH Hinc. unfold does. exists FNorm. induction zss as [|zs zss IHz]; [reflexivity|]. cbn [iter_thread filter].
      pose proof (Hz zs ltac:(now left)) as Hzs. rewrite (Hlive zs Hzs). cbn [map].
      destruct (exec_at_behaves L HL scoped gp pty (inp_of L loc m lo) (map lnm loops) (iS sh fac) (iT k fac) (lrange loops)
        (ibeh L sh kval fac loops) (inner f sh c v (s_splits s))
        (fun n Hn => nms_T L HL scoped gp pty (inp_of L loc m lo) g E (func_args (f_expr fd)) (shape_of g) F HNo HI f sh HB (isc g) (f_expr fd) (n_dtype nd) k k1 c v kval (kc_wff g E f fd nd HK) (kc_cover g f fd) Hren Hval (kval_nf L g f fd nd F Hok) fac loops (s_splits s) U2 HBk n Hn)
        (nk_nodup _ _ _ _ U2)
        (fun zs r => inner_behaves L HL scoped gp pty (inp_of L loc m lo) g E (func_args (f_expr fd)) (shape_of g) F HNo HI f sh HB (isc g) (f_expr fd) (n_dtype nd) k k1 c v kval (kc_wff g E f fd nd HK) (kc_cover g f fd) Hren Hval (kval_nf L g f fd nd F Hok) fac loops (s_splits s) U2 HBk zs r)
        loops Hsp Hcpu [] [] zs [[]] eq_refl (eq_sym (Forall2_len _ _ _ (Hlrg zs Hzs))) (Hlrg zs Hzs) ltac:(discriminate) (Forall2_nil _) ltac:(intros n _ _; reflexivity)
        _ _ (ibeh_live L sh kval Hok fac loops zs (Hlive zs Hzs))) as (r' & Hev).
      rewrite Hbody. rewrite Hbody in IHz. rewrite ev_bind, Hev. cbn [ebind]. rewrite IHz by (intros; apply Hz; now right). reflexivity. }
    apply G. auto.
  - eapply Permutation_NoDup; [symmetry; exact Hperm|apply NoDup_all_idx].
  - apply Forall_forall. exact Hlrg.
  - intros idx Hi. eapply Permutation_in; [symmetry; exact Hperm|]. apply Hit2. now apply (slices_range sh fac loops (s_splits s) U2).
  - exists N. intros n ts' m' Hst. exact (HPF n ts' m' Hst).
Qed.
End Kern.

Section Top.
Context (L : lang) (HL : lang_ok L) (g : graph) (Hr : reach g) (a : nat) (Ha : valid g a) (Hns : no_scalar_reshape g a) (Hfit : fits L g a)
  (E : fenv) (fs : list nat) (Hcv : convert g a = Done (E, fs)) (f : nat) (fd : func) (Hf : In f fs) (Hfd : E f = Some fd).
Theorem user_threads b scoped gp k s kern k1 lo ls (m ms : store L) fl cs su k' kern' k1' parts : b <> CUDA -> gen b g E fd k = Done (s, kern, k1) ->
  kernel_memory g f fd lo ls m ->
  run (bind_params (k_params kern) (lo :: ls)) (exec L scoped gp (pty_of (k_params kern)) (k_body kern) [[]]) m = (ms, OkO fl) ->
  ulegals (sched_init fd) cs -> urun (sched_init fd) cs = Done su -> no_tail su -> split_fits L su ->
  codegen g E (func_args (f_expr fd)) fd su k' = Done (kern', k1') -> Permutation (concat parts) (iterations su) ->
  settles L (bind_params (k_params kern') (lo :: ls)) (map (iter_thread L scoped gp (pty_of (k_params kern')) (k_body kern')) parts) m (fun m' => forall x, m' x = ms x).
Proof using HL Hr Ha Hns Hfit Hcv Hf Hfd.
  intros Hb HG HM R HU Hu HTl HF HC' HP. destruct (gen_inv _ _ _ _ _ _ _ _ HG) as (HS & HC).
  assert (Hsc : schedule_cpu (sched_init fd) = Done s) by (destruct b; try congruence; exact HS).
  destruct (kernel_contents L HL g Hr a Ha Hns Hfit E fs Hcv f fd Hf Hfd kern lo ls m HM) as (nd & F & out & HK & Hs & HB & Hm & HPl & Hnf).
  pose proof (seq_all_ok L HL g Hr E f fd scoped gp nd F s k kern k1 lo ls m out ms fl HK HB HPl Hnf Hsc HC R) as Hok.
  destruct (seq_run L HL scoped g (reach_wf g Hr) E f fd nd HK HB F Hok gp s k kern k1 lo ls m out Hsc HC HPl) as (ms' & fl0 & outs & R' & H1 & H2 & H3 & H4).
  rewrite R in R'. injection R' as <- <-.
  destruct (urun_ok cpu_exec I _ cs _ _ (uinv_init g E f fd nd HK) HU) as (su' & fac & Ru & HI). rewrite Hu in Ru. injection Ru as <-.
  destruct (user_any_order L HL scoped g (reach_wf g Hr) E f fd nd HK HB F Hok gp su fac k' kern' k1' lo ls m out parts HI HTl HF HC' HPl HP) as (N & HN).
  exists N. intros n ts' m' Hst. destruct (HN n ts' m' Hst) as (A1 & A2 & A3 & A4). split; auto. split; auto. split; auto.
  intros HFi. destruct (A4 HFi) as (out' & O1 & O2 & O3 & O4). intros x. destruct (Nat.eq_dec x lo) as [->|Hx]; [|rewrite O4, H2; auto].
  rewrite O1, H1. f_equal. assert (Hol : Z.of_nat (length out) = zprod (n_shape nd)) by (destruct HPl as (_ & _ & _ & Ho & _); exact Ho).
  eapply filled_unique; [exact (sh_nonneg g (reach_wf g Hr) E f fd nd HK)| | |exact O3|exact H4]; congruence.
Qed.
End Top.
