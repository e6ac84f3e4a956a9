(* C54, CUDA: a RecursionError anywhere in materialize() of a GPU process, and what the process can do afterwards. *)
From Coq Require Import String.
From Verif Require Import Base BaseFacts Util UtilFacts Lang Spec Graph Api ApiFacts Denote DenoteFacts ArrayLit Reach Tolist TolistFacts Prog
  Algo AlgoSem AlgoConvert AlgoConvert2 Kernel Sched Codegen Backends CacheKey KernelRun KernelRun2 BackendFacts AlgoTop AlgoMore Runtime RuntimeFacts RuntimeFacts2 History HistFacts RtInst LangInst CacheFacts Frame HistFacts2 HistTools RuntimeTop Safety PropRuntime
  Text TextPrint Generator Stack StackFacts StackGen Parallel ParGpu Device DevFacts DevRun DevHist DevProg DevAny DevTools DevStale PropDevice DevReset DevStop PropDevStop DevStack.
Open Scope Z_scope.
Open Scope list_scope.
Notation cuda := c_backend.

(* The whole of materialize() with L frames ([gmat_l], DevStack.v), from any state of a GPU process with a reachable graph.
   1. An execution that is not stopped by RecursionError is an execution without a limit, and after a success the generator is as it was.
   2. Nothing else is lost: for every execution without a limit, the limited call has that execution or one that ends in RecursionError.
   3. A large enough limit, which depends on the array only - not on what the process did before, nor on the driver - never ends in
      RecursionError: its executions are exactly those without a limit. *)
Theorem C54_materialize_cuda : forall lm nm g a, reach g -> valid g a ->
  (forall L s ind s' ind' oc, dv_graph (cuda lm) s = g -> 0 <= ind -> gmat_l (cuda lm) nm s ind L a s' ind' (Some oc) ->
     gmat (cuda lm) s a s' oc /\ (oc = Done tt -> ind' = ind)) /\
  (forall L s ind s' oc, dv_graph (cuda lm) s = g -> 0 <= ind -> gmat (cuda lm) s a s' oc ->
     (exists ind', gmat_l (cuda lm) nm s ind L a s' ind' (Some oc)) \/ (exists s2 ind', gmat_l (cuda lm) nm s ind L a s2 ind' None)) /\
  (exists L0, forall L s ind, (L0 <= L)%nat -> dv_graph (cuda lm) s = g -> 0 <= ind ->
     (forall s' ind', ~ gmat_l (cuda lm) nm s ind L a s' ind' None) /\
     (forall s' oc, (exists ind', gmat_l (cuda lm) nm s ind L a s' ind' (Some oc)) <-> gmat (cuda lm) s a s' oc)).
Proof.
  intros lm nm g a Hr Ha. split; [|split].
  - intros L s ind s' ind' oc Hg Hi H. subst g. eapply gmat_l_some; eauto.
  - intros L s ind s' oc Hg Hi H. subst g. now apply gmat_l_total.
  - destruct (gmat_l_ev (cuda lm) nm (S a) a g ltac:(lia) Hr Ha) as (L0 & HL0). exists L0. intros L s ind HL Hg Hi.
    assert (HN : forall s' ind', ~ gmat_l (cuda lm) nm s ind L a s' ind' None) by (intros; now apply HL0). split; [exact HN|].
    intros s' oc. split.
    + intros [i' H]. subst g. eapply gmat_l_some in H as [H _]; eauto.
    + intros H. subst g. destruct (gmat_l_total (cuda lm) nm L a s ind s' oc Hr Ha Hi H) as [H1|(s2 & i' & H1)]; [exact H1|]. exfalso. eapply HN; eauto.
Qed.
Print Assumptions C54_materialize_cuda.

(* Wherever the RecursionError strikes - conversion, key, code generation, in the first kernel or a later one - it leaves a state that C59
   covers ([gstopped]): the same graph, host data, references and device pointers; the call can be made again, and when it succeeds the array
   has the right elements, for as long as it lives.
   PARTIAL: key_safe, gmat_ok and view_of as in C41_tolist_partial. *)
Theorem C54_cuda_recovers_partial : forall lm nm C s a b L ind s' ind' s2 t, key_safe C -> gstop_hist (cuda lm) C s -> dv_alive _ s a = true ->
  view_of (dv_graph _ s) true a b -> computed (dv_graph _ s) b -> gmat_ok (cuda lm) (dv_graph _ s) b -> (forall d, gkernel_of (dv_graph _ s) a d -> C d) ->
  0 <= ind -> gmat_l (cuda lm) nm s ind L a s' ind' None ->
  gstopped (cuda lm) s a s' /\ gstop_hist (cuda lm) C s' /\ dv_graph _ s' = dv_graph _ s /\ dv_host _ s' = dv_host _ s /\ dv_alive _ s' = dv_alive _ s /\
  (gmat (cuda lm) s' a s2 (Done tt) -> gstop_later (cuda lm) C s2 t -> dv_alive _ t a = true ->
   exists l, snd (gtolist (cuda lm) t a) = Done l /\ t_tolist (den (c_lang lm) (dv_graph _ s) a) = Ok l).
Proof.
  intros lm nm C s a b L ind s' ind' s2 t HC Hs Ha Hv Hcm Hm Hk Hi HN.
  pose proof (gstop_hist_inv (cuda lm) (c_backend_ok lm) C HC s Hs) as HI. pose proof (di_reach _ _ _ _ HI) as Hr. pose proof (di_alive _ _ _ _ HI _ Ha) as Hva.
  pose proof (view_of_base _ _ _ _ (reach_wf _ Hr) Hv) as Hb.
  assert (HST : gstopped (cuda lm) s a s') by (eapply gmat_l_none; eauto).
  assert (Hs' : gstop_hist (cuda lm) C s') by (eapply gth_stop; eauto; intros b' Hb'; assert (b' = b) by congruence; now subst).
  pose proof Hcm as (bd & Hbd & Hc). pose proof (gstopped_top (cuda lm) (c_backend_ok lm) C HC s a b bd s' HI Ha Hb Hbd Hm Hk HST) as (_ & Hg & Hal & Hh & _).
  split; [exact HST|]. split; [exact Hs'|]. split; [exact Hg|]. split; [exact Hh|]. split; [exact Hal|].
  intros HM Ht Hat. destruct (C59_cuda_retry_partial lm C s' a b s2 t HC Hs') as (l & H1 & H2); rewrite ?Hg, ?Hal; auto. exists l. rewrite Hg in H2. auto.
Qed.
Print Assumptions C54_cuda_recovers_partial.

(* It leaves no array whose tolist() would show what happened to be in device memory - an exception from outside can (C59_cuda_read_refuted).
   Every array c that can be read before ([readable]: its buffer is on the host, not on the device, or computed) can be read afterwards; what
   tolist() returns, if it returns, is the list of its elements. *)
Theorem C54_cuda_reads_partial : forall lm nm C s a b L ind s' ind' c, key_safe C -> gstop_hist (cuda lm) C s -> dv_alive _ s a = true ->
  base (dv_graph _ s) a = Some b -> gmat_ok (cuda lm) (dv_graph _ s) b -> (forall d, gkernel_of (dv_graph _ s) a d -> C d) ->
  0 <= ind -> gmat_l (cuda lm) nm s ind L a s' ind' None -> dv_alive _ s c = true -> readable (cuda lm) s c ->
  readable (cuda lm) s' c /\
  forall d l, view_of (dv_graph _ s) true c d -> computed (dv_graph _ s) d -> snd (gtolist (cuda lm) s' c) = Done l -> t_tolist (den (c_lang lm) (dv_graph _ s) c) = Ok l.
Proof.
  intros lm nm C s a b L ind s' ind' c HC Hs Ha Hb Hm Hk Hi HN Hca HRd.
  pose proof (gstop_hist_inv (cuda lm) (c_backend_ok lm) C HC s Hs) as HI. pose proof (di_reach _ _ _ _ HI) as Hr. pose proof (di_alive _ _ _ _ HI _ Ha) as Hva.
  assert (HST : gstopped (cuda lm) s a s') by (eapply gmat_l_none; eauto).
  assert (Hs' : gstop_hist (cuda lm) C s') by (apply (gth_stop (cuda lm) C s a s'); auto; intros b' Hb'; assert (b' = b) by congruence; now subst).
  destruct (base_some _ C s a HI Ha) as (b' & bd & Hb' & Hbd). assert (b' = b) by congruence. subst b'.
  pose proof (gstopped_top (cuda lm) (c_backend_ok lm) C HC s a b bd s' HI Ha Hb Hbd Hm Hk HST) as (_ & Hg & Hal & Hh & _).
  destruct (gmat_l_ptr (cuda lm) nm L a s ind s' ind' Hr Hva Hi HN) as [HL HP].
  assert (HR' : readable (cuda lm) s' c).
  { intros d Hd. rewrite Hg in Hd. rewrite Hh. destruct (HRd d Hd) as [H|[H|H]]; [now left| |right; right; now apply HL].
    destruct (dv_ptr (cuda lm) s' d) as [p|] eqn:Ep; [|auto]. destruct (HP d ltac:(congruence)) as [H1|[(nd & vals & H1 & H2)|H1]]; [congruence| |auto]. left.
    pose proof (di_const _ _ _ _ HI _ _ _ H1 H2). congruence. }
  split; [exact HR'|]. intros d l Hv (dd & Hdd & Hc) HT. pose proof (gstop_hist_inv (cuda lm) (c_backend_ok lm) C HC s' Hs') as HI'.
  pose proof (view_of_base _ _ _ _ (reach_wf _ Hr) Hv) as Hbd'. rewrite <- Hg in Hv, Hbd', Hdd. rewrite <- Hal in Hca. destruct (HR' d Hbd') as [H|[H|H]].
  - destruct (dv_host (cuda lm) s' d) as [data|] eqn:Eh; [|congruence]. assert (exists nd, nth_error (dv_graph (cuda lm) s') c = Some nd) as [nd Hnd] by (destruct Hv; eauto).
    unfold gtolist in HT. rewrite Hnd, Hbd', Eh in HT. cbn [snd] in HT.
    destruct (read_dfilled (cuda lm) (dv_graph _ s') c d data nd) as (l' & R1 & R2); eauto; [apply reach_wf, (di_reach _ _ _ _ HI')|eapply (di_host _ _ _ _ HI'); eauto|]. assert (l' = l) by congruence; subst l'; rewrite <- Hg; exact R2.
  - destruct (dv_host (cuda lm) s' d) as [data|] eqn:Eh.
    + assert (exists nd, nth_error (dv_graph (cuda lm) s') c = Some nd) as [nd Hnd] by (destruct Hv; eauto). unfold gtolist in HT. rewrite Hnd, Hbd', Eh in HT. cbn [snd] in HT.
      destruct (read_dfilled (cuda lm) (dv_graph _ s') c d data nd) as (l' & R1 & R2); eauto; [apply reach_wf, (di_reach _ _ _ _ HI')|eapply (di_host _ _ _ _ HI'); eauto|]. assert (l' = l) by congruence; subst l'; rewrite <- Hg; exact R2.
    + assert (exists nd, nth_error (dv_graph (cuda lm) s') c = Some nd) as [nd Hnd] by (destruct Hv; eauto). unfold gtolist in HT. rewrite Hnd, Hbd', Eh, H in HT. discriminate.
  - destruct (gtolist_value (cuda lm) C s' c d dd HI' Hca Hv Hdd Hc H) as (l' & L1 & L2). assert (l' = l) by congruence; subst l'; rewrite <- Hg; exact L2.
Qed.
Print Assumptions C54_cuda_reads_partial.

(* concrete: x = arange(2), three reshapes, a negation.  With 10 frames conversion and key succeed and the generator runs out, its
   indentation stays at 1 and nothing was allocated; a second attempt with enough frames gives -x *)
Definition exVc : list call := [CArange 2; CReshape 0 [2]; CReshape 1 [2]; CReshape 2 [2]; CUnary UNeg 3].
Definition exNmG : kkey -> string := fun _ => "kern_0a1b"%string.
Definition stage (g : graph) (L : nat) : option Z :=
  match convert_l L g 4 with
  | Some (Done (E, fs)) =>
      match mapOut (gschedule_one E) fs with
      | Done ((fd, sc) :: _) =>
          match mapOut (arg_buffer E) (func_args (f_expr fd)), expr_key_l g E L (f_expr fd) [], cache_key g E fd sc with
          | Done bufs, Some v, Done key => match o_codegen_l CUDA g E L (exNmG key) (func_args (f_expr fd)) fd sc (mkOb [] 0 0) with (o, None) => Some (ob_ind o) | _ => None end
          | _, _, _ => None
          end
      | _ => None
      end
  | _ => None
  end.
Lemma exV_stage g s k i nd : dv_graph cu s = g -> dv_cache cu s = [] -> dv_tmp cu s = 0%nat -> nth_error g 4 = Some nd -> is_const (n_op nd) = false -> is_view (n_op nd) = false ->
  stage g k = Some i -> exists s', gmat_l cu exNmG s 0 (S k) 4 s' i None /\ dv_log cu s' = dv_log cu s /\ dv_ptr cu s' = dv_ptr cu s.
Proof.
  intros Hg Hc Ht Hn H1 H2 HS. unfold stage in HS. destruct (convert_l k g 4) as [[[E fs]|]|] eqn:EC; try discriminate. destruct (mapOut (gschedule_one E) fs) as [[|[fd sc] r]|] eqn:EM; try discriminate.
  destruct (mapOut (arg_buffer E) (func_args (f_expr fd))) as [bufs|] eqn:EB; [|discriminate]. destruct (expr_key_l g E k (f_expr fd) []) as [v|] eqn:EK; [|discriminate]. destruct (cache_key g E fd sc) as [key|] eqn:EY; [|discriminate].
  destruct (o_codegen_l CUDA g E k (exNmG key) (func_args (f_expr fd)) fd sc (mkOb [] 0 0)) as [o [|]] eqn:EO; [discriminate|]. injection HS as <-. subst g.
  exists (set_cache cu s (dv_cache cu s) (ob_tmp o)). split; [|split; reflexivity]. eapply gml_run; eauto. apply gsl_deep. eapply gfl_gendeep; eauto; [rewrite Hc; reflexivity|]. now rewrite Ht.
Qed.
Lemma exV_any g s C : g = Prog.prog exVc -> dv_graph cu s = g -> C = gkernel_of g 4 -> gstop_hist cu C s -> dv_alive cu s 4 = true -> dv_cache cu s = [] -> dv_tmp cu s = 0%nat ->
  key_safe C /\ view_of g true 4 4 /\ computed g 4 /\ gmat_ok cu g 4 /\ (forall d, gkernel_of g 4 d -> C d) /\
  exists s1, gmat_l cu exNmG s 0 10 4 s1 1 None /\ dv_log cu s1 = dv_log cu s /\ dv_ptr cu s1 = dv_ptr cu s /\
  exists L s2, gmat_l cu exNmG s1 1 L 4 s2 1 (Some (Done tt)) /\ snd (gtolist cu s2 4) = Done (Nest [Leaf (CI64 0); Leaf (CI64 (-1))]).
Proof.
  intros Eg Hg EC HG Hal Hc Ht.
  assert (HC : key_safe C) by (rewrite EC, Eg; apply gown_safeb_ok; vm_compute; reflexivity). split; [exact HC|].
  assert (Hv : view_of g true 4 4) by (rewrite Eg; eapply vo_self; vm_compute; reflexivity). split; [exact Hv|].
  assert (Hcm : computed g 4) by (rewrite Eg; eexists; split; vm_compute; reflexivity). split; [exact Hcm|].
  assert (Hr : reach g) by (rewrite <- Hg; exact (di_reach _ _ _ _ (gstop_hist_inv cu (c_backend_ok _) C HC s HG))).
  assert (Hm : gmat_ok cu g 4) by (apply (gokb_ok cu g Int64); [now apply reach_wf|rewrite Eg; vm_compute; reflexivity]). split; [exact Hm|].
  assert (Hk : forall d, gkernel_of g 4 d -> C d) by (rewrite EC; auto). split; [exact Hk|].
  assert (Hb : base g 4 = Some 4%nat) by (rewrite Eg; vm_compute; reflexivity).
  assert (Hns : no_scalar_reshape g 4) by (apply no_scalar_reshape_all; rewrite Eg; vm_compute; reflexivity).
  assert (Hac : accb cu g = true) by (rewrite Eg; vm_compute; reflexivity). assert (Hex : extb g = true) by (rewrite Eg; vm_compute; reflexivity).
  assert (Hst : stage g 9 = Some 1) by (rewrite Eg; vm_compute; reflexivity).
  assert (Hd : t_tolist (den (c_lang no_libm) g 4) = Ok (Nest [Leaf (CI64 0); Leaf (CI64 (-1))])) by (rewrite Eg; vm_compute; reflexivity).
  assert (Hva : valid g 4) by (rewrite Eg; vm_compute; lia).
  assert (exists nd, nth_error g 4 = Some nd /\ is_const (n_op nd) = false /\ is_view (n_op nd) = false) as (nd & Hn & Hnc & Hnv).
  { rewrite Eg. eexists. split; [vm_compute; reflexivity|]. split; reflexivity. }
  clear Eg EC. destruct (exV_stage g s 9 1 nd Hg Hc Ht Hn Hnc Hnv Hst) as (s1 & HN & HL & HP). exists s1. split; [exact HN|]. split; [exact HL|]. split; [exact HP|]. subst g.
  destruct (C54_cuda_recovers_partial no_libm exNmG C s 4 4 10 0 s1 1 s s HC HG Hal Hv Hcm Hm Hk ltac:(lia) HN) as (_ & HG1 & Hg1 & _ & Ha1 & _).
  destruct (C59_cuda_retry_succeeds no_libm C s1 4 4 HC HG1) as [s2 HM2]; rewrite ?Hg1, ?Ha1; auto.
  { intros n md vals _. now apply (accb_ok cu). }
  { intros n md _. now apply extb_ok. }
  destruct (C54_materialize_cuda no_libm exNmG (dv_graph cu s) 4 Hr Hva) as (HT1 & _ & L0 & HT3).
  destruct (HT3 L0 s1 1 ltac:(lia) Hg1 ltac:(lia)) as (_ & HT4). apply HT4 in HM2 as HM3. destruct HM3 as (i2 & HM3). destruct (HT1 L0 s1 1 s2 i2 (Done tt) Hg1 ltac:(lia) HM3) as [_ Hi]. rewrite (Hi eq_refl) in HM3.
  exists L0, s2. split; [exact HM3|].
  assert (Hal2 : dv_alive cu s2 4 = true).
  { destruct (gmat_top cu (c_backend_ok _) C HC s1 4 4 nd s2 (Done tt)) as (_ & _ & H & _); rewrite ?Hg1, ?Ha1; auto; [now apply (gstop_hist_inv cu (c_backend_ok _) C HC)|]. now rewrite H, Ha1. }
  destruct (C54_cuda_recovers_partial no_libm exNmG C s 4 4 10 0 s1 1 s2 s2 HC HG Hal Hv Hcm Hm Hk ltac:(lia) HN) as (_ & _ & _ & _ & _ & HR).
  destruct (HR HM2 (gtl_here _ _ _) Hal2) as (l & R1 & R2). pose proof (eq_trans (eq_sym R2) Hd) as R3. injection R3 as ->. exact R1.
Qed.
Example C54_cuda_nonvacuous : exists s, let g := dv_graph cu s in let C := gkernel_of g 4 in
  gstop_hist cu C s /\ dv_alive cu s 4 = true /\ key_safe C /\ view_of g true 4 4 /\ computed g 4 /\ gmat_ok cu g 4 /\ (forall d, gkernel_of g 4 d -> C d) /\ readable cu s 4 /\
  exists s1, gmat_l cu exNmG s 0 10 4 s1 1 None /\ dv_log cu s1 = dv_log cu s /\ dv_ptr cu s1 = dv_ptr cu s /\
  exists L s2, gmat_l cu exNmG s1 1 L 4 s2 1 (Some (Done tt)) /\ snd (gtolist cu s2 4) = Done (Nest [Leaf (CI64 0); Leaf (CI64 (-1))]).
Proof.
  exists (gstate cu exVc). cbn zeta.
  destruct (gstate_hist cu true (gkernel_of (Prog.prog exVc) 4) exVc) as [HG HA]. pose proof (HA 4%nat) as Hal.
  assert (Hg : dv_graph cu (gstate cu exVc) = Prog.prog exVc) by (vm_compute; reflexivity).
  assert (Hal' : dv_alive cu (gstate cu exVc) 4 = true) by (rewrite Hal, Hg; vm_compute; reflexivity).
  assert (H4 : dv_cache cu (gstate cu exVc) = []) by (vm_compute; reflexivity). assert (H5 : dv_tmp cu (gstate cu exVc) = 0%nat) by (vm_compute; reflexivity).
  apply ghist_gstop in HG. rewrite Hg. split; [exact HG|]. split; [exact Hal'|].
  destruct (exV_any _ _ _ eq_refl Hg eq_refl HG Hal' H4 H5) as (A1 & A2 & A3 & A4 & A5 & A6). repeat (split; [assumption|]).
  split; [|exact A6]. intros b Hb. right. left. assert (Hb4 : base (dv_graph cu (gstate cu exVc)) 4 = Some 4%nat) by (rewrite Hg; vm_compute; reflexivity). assert (b = 4%nat) by congruence. subst b. vm_compute. reflexivity.
Qed.
