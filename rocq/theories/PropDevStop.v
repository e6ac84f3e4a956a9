(* Property C59, CUDA: what an exception from outside that stops materialize() leaves behind. *)
From Verif Require Import Base BaseFacts Util UtilFacts Lang Spec Graph Api ApiFacts Denote ArrayLit SpecFacts DenoteFacts Reach Tolist TolistFacts Prog
  Algo AlgoSem AlgoConvert AlgoConvert2 Kernel Sched Codegen Backends CacheKey KernelRun KernelRun2 BackendFacts AlgoTop AlgoMore Runtime RuntimeFacts RuntimeFacts2 History HistFacts RtInst LangInst CacheFacts Frame HistFacts2 HistTools RuntimeTop Safety PropRuntime
  Parallel ParGpu Device DevFacts DevRun DevHist DevProg DevAny DevTools DevStale PropDevice DevReset DevStop.

(* A history with any number of interrupted materialize() calls, each stopped anywhere ([gstopped], DevStop.v); then x.materialize()
   returns.  x.tolist() is the list of the elements of x, then and as long as x lives, further interruptions included.
   PARTIAL: key_safe, gmat_ok and view_of as in C41_tolist_partial; tolist() only on buffers that were computed (see below). *)
Theorem C59_cuda_retry_partial : forall lm C s a b s' t, key_safe C -> gstop_hist (cuda lm) C s -> dv_alive _ s a = true ->
  view_of (dv_graph _ s) true a b -> computed (dv_graph _ s) b -> gmat_ok (cuda lm) (dv_graph _ s) b -> (forall d, gkernel_of (dv_graph _ s) a d -> C d) ->
  gmat (cuda lm) s a s' (Done tt) -> gstop_later (cuda lm) C s' t -> dv_alive _ t a = true ->
  exists l, snd (gtolist (cuda lm) t a) = Done l /\ t_tolist (den (c_lang lm) (dv_graph _ s) a) = Ok l.
Proof.
  intros lm C s a b s' t HC Hs Ha Hv (bd & Hbd & Hc) Hm Hk HM Ht Hat.
  exact (gstop_value (cuda lm) (c_backend_ok lm) C HC s a b bd s' t (gstop_hist_inv _ (c_backend_ok lm) C HC s Hs) Ha Hv Hbd Hc Hm Hk HM Ht Hat).
Qed.
Print Assumptions C59_cuda_retry_partial.
(* the retry has an execution that succeeds, under the conditions of C41_succeeds *)
Theorem C59_cuda_retry_succeeds : forall lm C s a b, key_safe C -> gstop_hist (cuda lm) C s -> dv_alive _ s a = true -> base (dv_graph _ s) a = Some b ->
  gmat_ok (cuda lm) (dv_graph _ s) b -> (forall d, gkernel_of (dv_graph _ s) a d -> C d) -> no_scalar_reshape (dv_graph _ s) b ->
  (forall n nd vals, cone (dv_graph _ s) b n -> nth_error (dv_graph _ s) n = Some nd -> n_op nd = OConst vals ->
     forallb (c_accept (n_dtype nd)) (map (of_num (c_lang lm)) vals) = true) ->
  (forall n nd, cone (dv_graph _ s) b n -> nth_error (dv_graph _ s) n = Some nd -> Forall (fun d => 1 <= d <= 65535) (n_shape nd)) ->
  exists s', gmat (cuda lm) s a s' (Done tt).
Proof.
  intros lm C s a b HC Hs Ha Hb Hm Hk Hns Hacc Hext. apply (gmat_runs (cuda lm) (c_backend_ok lm) C HC s a b); auto.
  - exact (gstop_hist_inv (cuda lm) (c_backend_ok lm) C HC s Hs).
  - intros n Hn nd vals. now apply Hacc.
Qed.
Print Assumptions C59_cuda_retry_succeeds.
(* whatever such a history does, a materialize() that does not return reports out of memory, a refused launch or a refused value (as C41_failures);
   in particular no kernel ever runs into undefined behaviour *)
Theorem C59_cuda_failures : forall lm C s a b s' e, key_safe C -> gstop_hist (cuda lm) C s -> dv_alive _ s a = true -> base (dv_graph _ s) a = Some b ->
  gmat_ok (cuda lm) (dv_graph _ s) b -> (forall d, gkernel_of (dv_graph _ s) a d -> C d) -> gmat (cuda lm) s a s' (Throw e) -> e = RuntimeErr \/ e = TypeErr.
Proof.
  intros lm C s a b s' e HC Hs Ha Hb Hm Hk HM. pose proof (gstop_hist_inv (cuda lm) (c_backend_ok lm) C HC s Hs) as HI.
  destruct (base_some _ C s a HI Ha) as (b' & bd & Hb' & Hbd). assert (b' = b) by congruence. subst b'.
  destruct (gmat_top _ (c_backend_ok lm) C HC s a b bd s' (Throw e) HI Ha Hb Hbd Hm Hk HM) as (_ & _ & _ & _ & _ & _ & [[H|[H _]]|[H _]]); auto.
Qed.
Print Assumptions C59_cuda_failures.

(* ------------------------------------------------------------------ with no condition *)
(* the numbers the user gave are kept in the host lists; an interrupted call builds no arrays, kills none, and changes no host list *)
Theorem C59_cuda_user_data : forall lm s n nd vals, gstop_any (cuda lm) s -> nth_error (dv_graph _ s) n = Some nd -> n_op nd = OConst vals ->
  dv_host _ s n = Some (map (of_num (c_lang lm)) vals).
Proof. intros lm s n nd vals Hs. apply (hi_const _ _ (gstop_any_hinv (cuda lm) (c_lang_ok lm) s Hs)). Qed.
Print Assumptions C59_cuda_user_data.
Theorem C59_cuda_others_kept : forall lm s a s', gstop_any (cuda lm) s -> dv_alive _ s a = true -> gstopped (cuda lm) s a s' ->
  dv_graph _ s' = dv_graph _ s /\ dv_host _ s' = dv_host _ s /\ dv_alive _ s' = dv_alive _ s /\ (forall n p, dv_ptr _ s n = Some p -> dv_ptr _ s' n = Some p).
Proof.
  intros lm s a s' Hs Ha HS. destruct (hstop (cuda lm) s a s' HS (gstop_any_hinv (cuda lm) (c_lang_ok lm) s Hs)) as (_ & H1 & H2).
  destruct (ostop (cuda lm) (c_lang_ok lm) s a s' (gstop_any_inv (cuda lm) (c_lang_ok lm) s Hs) Ha HS) as (_ & [_ H3 H4]). auto.
Qed.
Print Assumptions C59_cuda_others_kept.
(* device memory, as in C41: allocated once, freed once, never used outside its life, never leaked (but see DevStop.v, [stopped_prep], for an
   exception between cuMemAlloc and the assignment of its result) *)
Theorem C59_cuda_buffers : forall lm s, gstop_any (cuda lm) s ->
  (forall t1 n p t2, trace s = t1 ++ EvAlloc _ n p :: t2 -> (forall q, ~ In (EvAlloc _ n q) (t1 ++ t2)) /\ forall m, In (EvAlloc _ m p) t1 -> In (EvFree _ m p) t1) /\
  (forall t1 n p t2, trace s = t1 ++ EvFree _ n p :: t2 -> In (EvAlloc _ n p) t1 /\ forall q, ~ In (EvFree _ n q) (t1 ++ t2)) /\
  (forall t1 e t2 n p, trace s = t1 ++ e :: t2 -> uses _ e n p -> In (EvAlloc _ n p) t1 /\ ~ In (EvFree _ n p) t1) /\
  (forall p vs, dv_mem _ s p = Some vs -> exists n, dv_alive _ s n = true /\ dv_ptr _ s n = Some p) /\
  (forall n p, dv_alive _ s n = false -> In (EvAlloc _ n p) (trace s) -> In (EvFree _ n p) (trace s)) /\
  (forall n p, In (EvFree _ n p) (trace s) -> dv_alive _ s n = false).
Proof.
  intros lm s Hs. pose proof (gstop_any_inv (cuda lm) (c_lang_ok lm) s Hs) as HI.
  assert (HO : forall t1 e t2, trace s = t1 ++ e :: t2 -> own_ok (cuda lm) (rev t1) e).
  { intros t1 e t2 Ht. eapply owned_at; [apply (oi_log _ _ _ HI)|]. apply trace_split in Ht. exact Ht. }
  split; [|split; [|split; [|split; [|split]]]].
  - intros t1 n p t2 Ht. split.
    + intros q Hin. apply in_app_iff in Hin as [Hin|Hin].
      * destruct (HO _ _ _ Ht) as [H _]. apply (H q). now rewrite in_rev'.
      * apply in_split in Hin as (u1 & u2 & ->). assert (Ht' : trace s = (t1 ++ EvAlloc (cuda lm) n p :: u1) ++ EvAlloc (cuda lm) n q :: u2) by (rewrite Ht, <- app_assoc; reflexivity).
        destruct (HO _ _ _ Ht') as [H _]. apply (H p). rewrite in_rev', in_app_iff. right. now left.
    + intros m Hm. destruct (HO _ _ _ Ht) as [_ H]. specialize (H m). rewrite !in_rev' in H. auto.
  - intros t1 n p t2 Ht. destruct (HO _ _ _ Ht) as [H1 H2]. split; [now rewrite in_rev' in H1|]. intros q Hin. apply in_app_iff in Hin as [Hin|Hin].
    + apply (H2 q). now rewrite in_rev'.
    + apply in_split in Hin as (u1 & u2 & ->). assert (Ht' : trace s = (t1 ++ EvFree (cuda lm) n p :: u1) ++ EvFree (cuda lm) n q :: u2) by (rewrite Ht, <- app_assoc; reflexivity).
      destruct (HO _ _ _ Ht') as [_ H]. apply (H p). rewrite in_rev', in_app_iff. right. now left.
  - intros t1 e t2 n p Ht Hu. pose proof (HO _ _ _ Ht) as H. unfold own_ok, held in H.
    destruct e; try destruct Hu; specialize (H n p); rewrite !in_rev' in H; apply H; cbn; auto.
  - intros p vs Hp. destruct (oi_own _ _ _ HI p) as (n & Hn); [congruence|]. exists n. split; auto. now apply (oi_ptr _ _ _ HI n p).
  - intros n p Hd Hin. unfold trace in *. rewrite in_rev' in *. destruct (oi_allocs _ _ _ HI n p Hin) as [_ [H|[_ H]]]; auto. destruct (oi_ptr _ _ _ HI n p H). congruence.
  - intros n p Hin. unfold trace in Hin. rewrite in_rev' in Hin. now apply (oi_frees _ _ _ HI n p).
Qed.
Print Assumptions C59_cuda_buffers.

(* ------------------------------------------------------------------ tolist() after an interruption *)
(* REFUTED without the condition on tolist().  x = -[5, 7]; x.materialize() is stopped after the memory of x was allocated; x.tolist() then
   returns what was in that memory and keeps it: after a successful x.materialize() it still returns that garbage. *)
Lemma exFs_any g s C : g = Prog.prog exFc -> dv_graph cu s = g -> C = gkernel_of g 1 -> gstop_hist cu C s -> dv_alive cu s 1%nat = true ->
  dv_ptr cu s 0%nat = None -> dv_ptr cu s 1%nat = None -> dv_mem cu s 9%nat = None -> dv_cache cu s = [] -> dv_tmp cu s = 0%nat -> dv_host cu s 1%nat = None ->
  exists s1 s2 s3, key_safe C /\ gmat_ok cu g 1 /\
  gstopped cu s 1 s1 /\
  gtolist cu s1 1 = (s2, Done (Nest [Leaf (CI64 98); Leaf (CI64 99)])) /\
  gmat cu s2 1 s3 (Done tt) /\
  snd (gtolist cu s3 1) = Done (Nest [Leaf (CI64 98); Leaf (CI64 99)]) /\
  t_tolist (den (c_alg no_libm) g 1) = Ok (Nest [Leaf (CI64 (-5)); Leaf (CI64 (-7))]).
Proof.
  intros Eg Hg EC HG Hal Hp0 Hp1 Hm0 Hc0 Ht0 Hh1.
  assert (HC : key_safe C) by (rewrite EC; apply gown_safeb_ok; rewrite Eg; vm_compute; reflexivity).
  assert (Hw : wf_graph g) by (rewrite Eg; apply reach_wf, prog_reach).
  assert (Hm : gmat_ok cu g 1) by (apply (gokb_ok cu _ Int64); [exact Hw|rewrite Eg; vm_compute; reflexivity]).
  assert (Hd : t_tolist (den (c_alg no_libm) g 1) = Ok (Nest [Leaf (CI64 (-5)); Leaf (CI64 (-7))])) by (rewrite Eg; vm_compute; reflexivity).
  assert (Hb1 : base g 1 = Some 1%nat) by (rewrite Eg; vm_compute; reflexivity).
  assert (Hk : forall d, gkernel_of g 1 d -> C d) by (rewrite EC; auto).
  assert (Hns : no_scalar_reshape g 1) by (apply no_scalar_reshape_all; rewrite Eg; vm_compute; reflexivity).
  assert (Hac : accb cu g = true) by (rewrite Eg; vm_compute; reflexivity). assert (Hex : extb g = true) by (rewrite Eg; vm_compute; reflexivity).
  assert (exists nd, nth_error g 1 = Some nd /\ is_view (n_op nd) = false /\ is_const (n_op nd) = false /\ n_len nd = 2 /\
    read_nd [CI64 98; CI64 99] (n_shape nd) (n_strides nd) (n_offset nd) = Done (Nest [Leaf (CI64 98); Leaf (CI64 99)])) as (nd & Hn & Hv & Hc & Hl & Hrd).
  { rewrite Eg. eexists. split; [vm_compute; reflexivity|]. split; [reflexivity|]. split; [reflexivity|]. split; reflexivity. }
  assert (exists E fd, convert g 1 = Done (E, [1%nat]) /\ E 1%nat = Some fd /\ mapOut (arg_buffer E) (func_args (f_expr fd)) = Done [0%nat] /\ f_out fd = 1%nat /\
    exists sc key kern k, gschedule_one E 1 = Done (fd, sc) /\ cache_key g E fd sc = Done key /\ codegen g E (func_args (f_expr fd)) fd sc 0 = Done (kern, k))
    as (E & fd & Hcv & Hfd & Hbufs & Hout & sc & key & kern & k & Hsc & Hkey & Hcg).
  { rewrite Eg. eexists _, _. split; [vm_compute; reflexivity|]. split; [vm_compute; reflexivity|]. split; [vm_compute; reflexivity|]. split; [vm_compute; reflexivity|].
    eexists _, _, _, _. split; [vm_compute; reflexivity|]. split; vm_compute; reflexivity. }
  clear Eg EC. subst g.
  set (s0 := set_cache cu s [(key, kern)] k). set (garbage := [CI64 98; CI64 99]).
  set (s1 := set_ptr cu s0 1 9 garbage).
  assert (HM1 : gstopped cu s 1 s1).
  { apply (gsm_compute cu s 1 nd E [1%nat] [(fd, sc)]); auto; [cbn [mapOut]; rewrite Hsc; cbn [obind]; reflexivity|]. apply gss_in.
    apply (gsf_new cu E fd sc s [0%nat] key kern k s1); auto; [now rewrite Hc0|now rewrite Ht0|]. rewrite Hout, Hc0. apply gsi_prep.
    apply (sp_ptr cu true _ 1 [0%nat] s1 9). apply (pt_alloc cu s0 1 9 nd garbage); auto. rewrite Hl. reflexivity. }
  assert (HG1 : gstop_hist cu C s1).
  { apply (gth_stop cu C s 1 s1); auto. intros b Hb. assert (b = 1%nat) by congruence. now subst. }
  destruct (C59_cuda_retry_succeeds no_libm C s1 1 1 HC HG1 Hal Hb1 Hm Hk Hns) as (s3' & Hs3').
  { intros n md vals _. now apply (accb_ok cu). }
  { intros n md _. now apply extb_ok. }
  set (h := upd1 (dv_host cu s1) 1 (Some garbage)).
  set (s2 := set_host cu s1 1 9 garbage).
  destruct (compute_seth cu h s1 1 s3' (Done tt) s2) as (s3 & Hs3 & (lg & Hlike) & _).
  { inversion Hs3' as [a nd' H1 H2|a nd' b r s' oc H1 H2|a nd' s' oc H1 H2 H3 H4]; auto; change (dv_graph cu s1) with (dv_graph cu s) in H1; assert (nd' = nd) by congruence; congruence. }
  { eexists. reflexivity. }
  { intros m (E' & fs & f & fd' & bufs & H1 & H2 & H3 & H4 & H5). change (dv_graph cu s1) with (dv_graph cu s) in H1. rewrite Hcv in H1. injection H1 as <- <-. destruct H2 as [<-|[]]. assert (fd' = fd) by congruence. subst fd'.
    rewrite Hbufs in H4. injection H4 as <-. destruct H5 as [<-|[]]. reflexivity. }
  assert (Hg3 : dv_graph _ s3 = dv_graph _ s).
  { rewrite Hlike. cbn [seth dv_graph].
    destruct (gmat_top cu (c_backend_ok _) C HC s1 1 1 nd s3' (Done tt) (gstop_hist_inv cu (c_backend_ok _) C HC s1 HG1) Hal Hb1 Hn Hm Hk Hs3') as (_ & Hgg & _). exact Hgg. }
  exists s1, s2, s3. split; [exact HC|]. split; [exact Hm|]. split; [exact HM1|]. split; [|split; [|split; [|exact Hd]]].
  - unfold gtolist. change (dv_graph cu s1) with (dv_graph cu s). rewrite Hn, Hb1. change (dv_host cu s1 1%nat) with (dv_host cu s 1%nat). rewrite Hh1.
    replace (dv_ptr cu s1 1%nat) with (Some 9%nat) by (symmetry; apply upd1_same). replace (dv_mem cu s1 9%nat) with (Some garbage) by (symmetry; apply upd1_same). exact (f_equal (pair s2) Hrd).
  - apply (gm_comp cu s2 1 nd); auto.
  - unfold gtolist. rewrite Hg3, Hn, Hb1. rewrite Hlike. cbn [seth dv_host]. unfold h. rewrite upd1_same. exact Hrd.
Qed.
Lemma ghist_gstop B C s : ghist B true C s -> gstop_hist B C s.
Proof. induction 1 as [| | | | |]; [apply gth_init|apply gth_call; auto|eapply gth_mat; eauto|apply gth_tolist; auto|apply gth_die; auto|apply gth_reset; auto]. Qed.
Theorem C59_cuda_read_refuted : exists C s s1 s2 s3, key_safe C /\ gstop_hist cu C s /\ dv_alive _ s 1 = true /\ gmat_ok cu (dv_graph _ s) 1 /\
  gstopped cu s 1 s1 /\
  gtolist cu s1 1 = (s2, Done (Nest [Leaf (CI64 98); Leaf (CI64 99)])) /\
  gmat cu s2 1 s3 (Done tt) /\
  snd (gtolist cu s3 1) = Done (Nest [Leaf (CI64 98); Leaf (CI64 99)]) /\
  t_tolist (den (c_alg no_libm) (dv_graph _ s) 1) = Ok (Nest [Leaf (CI64 (-5)); Leaf (CI64 (-7))]).
Proof.
  exists (gkernel_of (Prog.prog exFc) 1), (gstate cu exFc).
  destruct (gstate_hist cu true (gkernel_of (Prog.prog exFc) 1) exFc) as [HG HA]. pose proof (HA 1%nat) as Hal.
  assert (Hg : dv_graph cu (gstate cu exFc) = Prog.prog exFc) by (vm_compute; reflexivity).
  assert (Hal' : dv_alive cu (gstate cu exFc) 1 = true) by (rewrite Hal, Hg; vm_compute; reflexivity).
  assert (H1 : dv_ptr cu (gstate cu exFc) 0%nat = None) by (vm_compute; reflexivity). assert (H2 : dv_ptr cu (gstate cu exFc) 1%nat = None) by (vm_compute; reflexivity).
  assert (H3 : dv_mem cu (gstate cu exFc) 9%nat = None) by (vm_compute; reflexivity). assert (H4 : dv_cache cu (gstate cu exFc) = []) by (vm_compute; reflexivity).
  assert (H5 : dv_tmp cu (gstate cu exFc) = 0%nat) by (vm_compute; reflexivity). assert (H6 : dv_host cu (gstate cu exFc) 1%nat = None) by (vm_compute; reflexivity).
  apply ghist_gstop in HG.
  destruct (exFs_any _ _ _ eq_refl Hg eq_refl HG Hal' H1 H2 H3 H4 H5 H6) as (s1 & s2 & s3 & A1 & A2 & A3).
  exists s1, s2, s3. rewrite Hg. split; [exact A1|]. split; [exact HG|]. split; [exact Hal'|]. split; [exact A2|exact A3].
Qed.
Print Assumptions C59_cuda_read_refuted.

(* ------------------------------------------------------------------ a concrete case *)
(* The program of C41_nonvacuous (three kernels).  materialize() is stopped when the first kernel has run; the retry runs all three. *)
Lemma exDs_any g s C : g = Prog.prog exDc -> dv_graph cu s = g -> C = gkernel_of g 5 -> ghist cu true C s -> dv_alive cu s 5 = true ->
  key_safe C /\ (forall d, gkernel_of g 5 d -> C d) /\ view_of g true 5 5 /\ computed g 5 /\ gmat_ok cu g 5 /\
  exists s1 s2, gstopped cu s 5 s1 /\ gstop_hist cu C s1 /\ gstop_any cu s1 /\ dv_graph cu s1 = g /\ dv_alive cu s1 5 = true /\
    (exists n p ins, n <> 5%nat /\ In (EvLaunch _ n p ins) (trace s1)) /\
    gmat cu s1 5 s2 (Done tt) /\ snd (gtolist cu s2 5) = Done (Nest [Leaf (CI64 34); Leaf (CI64 58); Leaf (CI64 90)]).
Proof.
  intros Eg Hg EC HG Hal. destruct (exD_any g s C Eg Hg EC HG Hal) as (HC & HA & Hv & Hcm & Hm & Hd & s' & HM & _).
  assert (Hk : forall d, gkernel_of g 5 d -> C d) by (rewrite EC; auto). split; [exact HC|]. split; [exact Hk|]. split; [exact Hv|]. split; [exact Hcm|]. split; [exact Hm|].
  assert (Hb5 : base g 5 = Some 5%nat) by (rewrite Eg; vm_compute; reflexivity).
  assert (Hns : no_scalar_reshape g 5) by (apply no_scalar_reshape_all; rewrite Eg; vm_compute; reflexivity).
  assert (Hac : accb cu g = true) by (rewrite Eg; vm_compute; reflexivity). assert (Hex : extb g = true) by (rewrite Eg; vm_compute; reflexivity).
  assert (exists E, convert g 5 = Done (E, [2%nat; 4%nat; 5%nat])) as (E & Hcv) by (rewrite Eg; eexists; vm_compute; reflexivity).
  assert (exists nd, nth_error g 5 = Some nd /\ is_view (n_op nd) = false /\ is_const (n_op nd) = false) as (nd & Hn & Hnv & Hnc).
  { rewrite Eg. eexists. split; [vm_compute; reflexivity|]. split; reflexivity. }
  clear Eg EC. subst g.
  pose proof (ghist_inv cu (c_backend_ok _) C HC s HG) as HI.
  assert (exists l s1 fd sc, mapOut (gschedule_one E) [2%nat; 4%nat; 5%nat] = Done ((fd, sc) :: l) /\ grun_func cu E fd sc s s1 (Done tt) /\ E 2%nat = Some fd /\ auto_schedule true fd = Done sc) as (l & s1 & fd & sc & Hsch & Hrf & Hfd & Has).
  { inversion HM as [a nd' H1 H2|a nd' b r s0 oc H1 H2|a nd' s0 oc H1 H2 H3 H4]; try (assert (nd' = nd) by congruence; congruence).
    inversion H4 as [|E' fs' e K5 K6 E1 E2|E' fs' l s1 oc1 K5 K6 K7 E1 E2]. rewrite Hcv in K5. injection K5 as <- <-. pose proof K6 as K6'. cbn [mapOut] in K6. bd K6. bd K6. injection K6 as <-.
    inversion K7 as [|fd0 sc0 r s00 s01 e Hx|fd0 sc0 r s00 s01 s02 oc' Hx Hy]; subst. exists v0, s01, fd0, sc0. split; [exact K6'|]. split; [exact Hx|].
    unfold gschedule_one in D. destruct (E 2%nat) as [fd1|]; [|discriminate]. cbn [throw_none obind] in D. bd D. destruct (forallb _ _) in D; [|discriminate]. injection D as -> ->. auto. }
  assert (HS : gstopped cu s 5 s1).
  { apply (gsm_compute cu s 5 nd E [2%nat; 4%nat; 5%nat] ((fd, sc) :: l)); auto. eapply gss_next; [exact Hrf|]. apply gss_here. }
  assert (Hmb : forall b, base (dv_graph cu s) 5 = Some b -> gmat_ok cu (dv_graph cu s) b) by (intros b Hb; assert (b = 5%nat) by congruence; now subst).
  assert (HG1 : gstop_hist cu C s1) by (apply (gth_stop cu C s 5 s1); auto; now apply ghist_gstop).
  pose proof (gstopped_top cu (c_backend_ok _) C HC s 5 5 nd s1 HI Hal Hb5 Hn Hm Hk HS) as (_ & Hg1 & Ha1 & _).
  destruct (C59_cuda_retry_succeeds no_libm C s1 5 5 HC HG1) as [s2 HM2]; rewrite ?Hg1, ?Ha1; auto.
  { intros n md vals _. now apply (accb_ok cu). }
  { intros n md _. now apply extb_ok. }
  exists s1, s2. split; [exact HS|]. split; [exact HG1|]. split.
  { apply (gta_stop cu s 5 s1); auto. revert HA. clear. induction 1 as [| | | | |]; [apply gta_init|apply gta_call; auto|eapply gta_mat; eauto|apply gta_tolist; auto|apply gta_die; auto|apply gta_reset; auto]. }
  split; [exact Hg1|]. split; [now rewrite Ha1|]. split; [|split; [exact HM2|]].
  - assert (Hns5 : forall f fd sc, In f [2%nat; 4%nat; 5%nat] -> E f = Some fd -> auto_schedule true fd = Done sc -> C (mkD (dv_graph cu s) E fd sc)).
    { intros f fd0 sc0 H1 H2 H3. apply Hk. exists 5%nat, nd, E, [2%nat; 4%nat; 5%nat], f, fd0, sc0. auto 10. }
    destruct (grun_func_ok cu (c_backend_ok _) C HC (dv_graph cu s) 5 nd Hn Hnc Hns Hm E [2%nat; 4%nat; 5%nat] Hcv Hns5 s [] 2 [4%nat; 5%nat] fd sc s1 (Done tt) HI eq_refl Hal eq_refl) as (_ & _ & _ & _ & _ & _ & (p & ins & Hin)); auto.
    { intros d []. } exists 2%nat, p, ins. split; [lia|]. unfold trace. now rewrite in_rev'.
  - assert (Hal2 : dv_alive cu s2 5 = true).
    { destruct (gmat_top cu (c_backend_ok _) C HC s1 5 5 nd s2 (Done tt)) as (_ & _ & H & _); rewrite ?Hg1, ?Ha1; auto; [now apply (gstop_hist_inv cu (c_backend_ok _) C HC)|]. now rewrite H, Ha1. }
    destruct (C59_cuda_retry_partial no_libm C s1 5 5 s2 s2 HC HG1) as (r & R1 & R2); rewrite ?Hg1, ?Ha1; auto; [apply gtl_here|].
    rewrite Hg1 in R2. pose proof (eq_trans (eq_sym R2) Hd) as R3. injection R3 as ->. exact R1.
Qed.
Example C59_cuda_nonvacuous : exists s C, let g := dv_graph cu s in
  key_safe C /\ (forall d, gkernel_of g 5 d -> C d) /\ view_of g true 5 5 /\ computed g 5 /\ gmat_ok cu g 5 /\
  exists s1 s2, gstopped cu s 5 s1 /\ gstop_hist cu C s1 /\ gstop_any cu s1 /\ dv_graph cu s1 = g /\ dv_alive cu s1 5 = true /\
    (exists n p ins, n <> 5%nat /\ In (EvLaunch _ n p ins) (trace s1)) /\
    gmat cu s1 5 s2 (Done tt) /\ snd (gtolist cu s2 5) = Done (Nest [Leaf (CI64 34); Leaf (CI64 58); Leaf (CI64 90)]).
Proof.
  exists (gstate cu exDc), (gkernel_of (Prog.prog exDc) 5). cbn zeta.
  destruct (gstate_hist cu true (gkernel_of (Prog.prog exDc) 5) exDc) as [HG HA]. pose proof (HA 5%nat) as Hal.
  assert (Hg : dv_graph cu (gstate cu exDc) = Prog.prog exDc) by (vm_compute; reflexivity).
  assert (Hal' : dv_alive cu (gstate cu exDc) 5 = true) by (rewrite Hal, Hg; vm_compute; reflexivity).
  rewrite Hg. exact (exDs_any _ _ _ eq_refl Hg eq_refl HG Hal').
Qed.
