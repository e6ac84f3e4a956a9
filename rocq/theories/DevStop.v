(* materialize() on CUDA stopped by an exception that comes from outside (KeyboardInterrupt, a signal handler). *)
From Verif Require Import Base BaseFacts Util UtilFacts Lang Spec Graph Api ApiFacts Denote SpecFacts DenoteFacts Reach Tolist TolistFacts
  Algo AlgoSem AlgoConv AlgoConv2 AlgoFuse AlgoFuse2 AlgoConvert AlgoConvert2
  Kernel Sched Codegen Backends KernFacts RenderFacts KernelOk RunFacts SchedFacts SchedGpu KernelRun KernelRun2 BackendFacts AlgoTop
  AlgoMore CacheKey Runtime RuntimeFacts RuntimeFacts2 History HistFacts RtInst LangInst CacheFacts Frame HistFacts2 RuntimeTop Safety
  Nest NestSched NestBody Parallel ParKernel ParCpu ParTop ParGpu Device DevFacts DevRun DevHist DevAny DevReset.

(* ------------------------------------------------------------------ where it can stop *)
Section S.
Context (B : cpu_backend).
Notation L := (b_lang B).
Notation dev := (dev B).
(* backend.py:43-51: between two parameters, or after the allocation for one.  (If the exception comes after
   cuMemAlloc returned and before the assignment of p.dev.ptr, backend_cuda.py:86-89, the memory has no owner and is never freed.
   Such memory is not recorded here: the driver then may return its address again, which only adds behaviours) *)
Inductive stopped_prep : bool -> dev -> list nat -> dev -> Prop :=
| sp_here out s ns : stopped_prep out s ns s
| sp_ptr out s n r s1 p : pointer B s n s1 (Done p) -> stopped_prep out s (n :: r) s1
| sp_next out s n r s1 p s2 : prep1 B out s n s1 (Done p) -> stopped_prep false s1 r s2 -> stopped_prep out s (n :: r) s2.
(* backend.py:53-64, backend_cuda.py:69-84: a launched kernel is not stopped; if the exception comes before cuCtxSynchronize() the kernel
   runs on, and every later driver call on the same context waits for it (one stream) *)
Inductive gstopped_invoke (s : dev) (sc : schedule) (kern : kernel) (n : nat) (ns : list nat) : dev -> Prop :=
| gsi_prep s' : stopped_prep true s (n :: ns) s' -> gstopped_invoke s sc kern n ns s'
| gsi_done s' : ginvoke B s sc kern n ns s' (Done tt) -> gstopped_invoke s sc kern n ns s'.
(* materialize.py:45-68: one kernel.  gsf_codegen: inside codegen() (the counter of temporaries has moved on; the raised indentation has no effect on
   C texts, C46) or in the compiler *)
Inductive gstopped_func (E : fenv) (fd : func) (sc : schedule) (s : dev) : dev -> Prop :=
| gsf_start : gstopped_func E fd sc s s
| gsf_codegen k' : gstopped_func E fd sc s (set_cache B s (dv_cache B s) k')
| gsf_new bufs key kern k' s' : mapOut (arg_buffer E) (func_args (f_expr fd)) = Done bufs -> cache_key (dv_graph B s) E fd sc = Done key -> cache_get (dv_cache B s) key = None ->
    codegen (dv_graph B s) E (func_args (f_expr fd)) fd sc (dv_tmp B s) = Done (kern, k') ->
    gstopped_invoke (set_cache B s ((key, kern) :: dv_cache B s) k') sc kern (f_out fd) bufs s' -> gstopped_func E fd sc s s'
| gsf_cached bufs key kern s' : mapOut (arg_buffer E) (func_args (f_expr fd)) = Done bufs -> cache_key (dv_graph B s) E fd sc = Done key -> cache_get (dv_cache B s) key = Some kern ->
    gstopped_invoke s sc kern (f_out fd) bufs s' -> gstopped_func E fd sc s s'.
(* the loop of materialize.py:44 *)
Inductive gstopped_funcs (E : fenv) : list (func * schedule) -> dev -> dev -> Prop :=
| gss_here l s : gstopped_funcs E l s s
| gss_in fd sc l s s' : gstopped_func E fd sc s s' -> gstopped_funcs E ((fd, sc) :: l) s s'
| gss_next fd sc l s s1 s' : grun_func B E fd sc s s1 (Done tt) -> gstopped_funcs E l s1 s' -> gstopped_funcs E ((fd, sc) :: l) s s'.
(* materialize.py:15-43 *)
Inductive gstopped (s : dev) : nat -> dev -> Prop :=
| gsm_here a : gstopped s a s
| gsm_view a nd b r s' : nth_error (dv_graph B s) a = Some nd -> is_view (n_op nd) = true -> n_in nd = b :: r -> gstopped s b s' -> gstopped s a s'
| gsm_compute a nd E fs l s' : nth_error (dv_graph B s) a = Some nd -> is_const (n_op nd) = false -> is_view (n_op nd) = false ->
    convert (dv_graph B s) a = Done (E, fs) -> mapOut (gschedule_one E) fs = Done l -> gstopped_funcs E l s s' -> gstopped s a s'.

(* histories in which materialize() may be stopped at any point, any number of times; conditions as in [ghist] *)
Inductive gstop_hist (C : desc -> Prop) : dev -> Prop :=
| gth_init : gstop_hist C (dev0 B)
| gth_call s c : gstop_hist C s -> call_ok (dv_graph B s) c -> uses_alive B s c -> gstop_hist C (fst (gcall B s c))
| gth_mat s a s' oc : gstop_hist C s -> dv_alive B s a = true -> (forall b, base (dv_graph B s) a = Some b -> gmat_ok B (dv_graph B s) b) ->
    (forall d, gkernel_of (dv_graph B s) a d -> C d) -> gmat B s a s' oc -> gstop_hist C s'
| gth_stop s a s' : gstop_hist C s -> dv_alive B s a = true -> (forall b, base (dv_graph B s) a = Some b -> gmat_ok B (dv_graph B s) b) ->
    (forall d, gkernel_of (dv_graph B s) a d -> C d) -> gstopped s a s' -> gstop_hist C s'
| gth_tolist s a : gstop_hist C s -> dv_alive B s a = true -> readable B s a -> gstop_hist C (fst (gtolist B s a))
| gth_die s D : gstop_hist C s -> droppable B s D -> gstop_hist C (die B s D)
| gth_reset s : gstop_hist C s -> gstop_hist C (reset_dev B s).
Inductive gstop_later (C : desc -> Prop) (s : dev) : dev -> Prop :=
| gtl_here : gstop_later C s s
| gtl_call t c : gstop_later C s t -> call_ok (dv_graph B t) c -> uses_alive B t c -> gstop_later C s (fst (gcall B t c))
| gtl_mat t a t' oc : gstop_later C s t -> dv_alive B t a = true -> (forall b, base (dv_graph B t) a = Some b -> gmat_ok B (dv_graph B t) b) ->
    (forall d, gkernel_of (dv_graph B t) a d -> C d) -> gmat B t a t' oc -> gstop_later C s t'
| gtl_stop t a t' : gstop_later C s t -> dv_alive B t a = true -> (forall b, base (dv_graph B t) a = Some b -> gmat_ok B (dv_graph B t) b) ->
    (forall d, gkernel_of (dv_graph B t) a d -> C d) -> gstopped t a t' -> gstop_later C s t'
| gtl_tolist t a : gstop_later C s t -> dv_alive B t a = true -> readable B t a -> gstop_later C s (fst (gtolist B t a))
| gtl_die t D : gstop_later C s t -> droppable B t D -> gstop_later C s (die B t D)
| gtl_reset t : gstop_later C s t -> gstop_later C s (reset_dev B t).
(* the same without any side condition, as in [gany] *)
Inductive gstop_any : dev -> Prop :=
| gta_init : gstop_any (dev0 B)
| gta_call s c : gstop_any s -> call_ok (dv_graph B s) c -> uses_alive B s c -> gstop_any (fst (gcall B s c))
| gta_mat s a s' oc : gstop_any s -> dv_alive B s a = true -> gmat B s a s' oc -> oc <> Throw InternalErr -> gstop_any s'
| gta_stop s a s' : gstop_any s -> dv_alive B s a = true -> gstopped s a s' -> gstop_any s'
| gta_tolist s a : gstop_any s -> dv_alive B s a = true -> gstop_any (fst (gtolist B s a))
| gta_die s D : gstop_any s -> droppable B s D -> gstop_any (die B s D)
| gta_reset s : gstop_any s -> gstop_any (reset_dev B s).
End S.

(* ------------------------------------------------------------------ the invariant of C41 survives *)
Section D.
Context (B : cpu_backend) (HB : backend_ok B).
Let HL : lang_ok (b_lang B) := bo_lang _ HB.
Notation L := (b_lang B).
Notation V := (val (b_lang B)).
Notation dev := (dev B).
Context (C : desc -> Prop) (HC : key_safe C).
Notation nobody := (fun _ : nat => False).
Notation dinv := (DevFacts.dinv B C nobody).
Notation same := (DevFacts.same B).
Notation launched := (DevFacts.launched B).
Notation input := (DevFacts.input B).

Lemma sprep_in out s ns s' : stopped_prep B out s ns s' -> out = false -> dinv s -> (forall n, In n ns -> input s n) -> dinv s' /\ same s s' /\ (forall m, launched s' m -> launched s m).
Proof using HB.
  induction 1 as [out s ns|out s n r s1 p Hp|out s n r s1 p s2 H1 H2 IH]; intros -> HI Hin.
  - split; auto. split; [apply same_refl|auto].
  - destruct (pointer_ok B C nobody _ _ _ _ HI (proj1 (Hin n (or_introl eq_refl))) Hp) as (A1 & A2 & A3 & A4 & A5). auto.
  - destruct (prep1_in B HB C nobody _ _ _ _ HI (Hin n (or_introl eq_refl)) H1) as (A1 & A2 & A3 & A4 & A5).
    destruct (IH eq_refl A1) as (B1 & B2 & B3); [intros m Hm; eapply input_same; eauto; apply Hin; now right|]. split; auto. split; [eapply same_trans; eauto|auto].
Qed.
Lemma sprep_ok s n ns s' : dinv s -> dv_alive B s n = true -> (forall m, In m ns -> input s m) -> stopped_prep B true s (n :: ns) s' -> dinv s' /\ same s s' /\ (forall m, launched s' m -> launched s m).
Proof using HB.
  intros HI Ha Hin HP. inversion HP as [out s0 ns0 E1 E2 E3|out s0 n0 r s1 p Hp E1 E2 E3|out s0 n0 r s1 p s2 H1 H2 E1 E2 E3]; subst.
  - split; auto. split; [apply same_refl|auto].
  - destruct (pointer_ok B C nobody _ _ _ _ HI Ha Hp) as (A1 & A2 & A3 & A4 & A5). auto.
  - inversion H1 as [|? ? _ Hp| |]; subst; try discriminate. destruct (pointer_ok B C nobody _ _ _ _ HI Ha Hp) as (A1 & A2 & A3 & A4 & A5).
    destruct (sprep_in _ _ _ _ H2 eq_refl A1) as (B1 & B2 & B3); [intros m Hm; eapply input_same; eauto|]. split; auto. split; [eapply same_trans; eauto|auto].
Qed.

Lemma dinv_tmp s k : dinv s -> dinv (set_cache B s (dv_cache B s) k).
Proof using. intros [I1 I2 I3 I4 I5 I6 I7 I8 I9 I10 I11 I12 I13 I14 I15]. split; cbn; auto. Qed.

Definition kept s s' := dinv s' /\ dv_graph B s' = dv_graph B s /\ dv_alive B s' = dv_alive B s /\ dv_host B s' = dv_host B s /\ (forall e, In e (dv_log B s) -> In e (dv_log B s')).
Lemma kept_refl s : dinv s -> kept s s.
Proof using. intros H. repeat (split; auto). Qed.
Lemma kept_trans a b c : kept a b -> kept b c -> kept a c.
Proof using. intros (A1 & A2 & A3 & A4 & A5) (B1 & B2 & B3 & B4 & B5). repeat (split; [congruence || auto|]). auto. Qed.
Lemma kept_same s s' : dinv s' -> same s s' -> kept s s'.
Proof using. intros H HS. split; auto. split; [apply (sm_graph _ _ _ HS)|]. split; [apply (sm_alive _ _ _ HS)|]. split; [apply (sm_host _ _ _ HS)|apply (sm_log _ _ _ HS)]. Qed.

Section Run.
Context (g : graph) (a : nat) (nda : node) (Ha : nth_error g a = Some nda) (Hnc : is_const (n_op nda) = false)
  (Hns : no_scalar_reshape g a) (Hm : gmat_ok B g a) (E : fenv) (fs : list nat) (Hcv : convert g a = Done (E, fs))
  (HCg : forall f fd sc, In f fs -> E f = Some fd -> auto_schedule true fd = Done sc -> C (mkD g E fd sc)).

Lemma gstop_func_ok s l1 f l2 fd sc s' : dinv s -> dv_graph B s = g -> dv_alive B s a = true -> fs = l1 ++ f :: l2 -> (forall d, In d l1 -> launched s d) ->
  E f = Some fd -> auto_schedule true fd = Done sc -> gstopped_func B E fd sc s s' -> kept s s'.
Proof using HB HC Ha Hnc Hns Hm Hcv HCg.
  intros HI Hg Hal Hfs Hgood Hfd Hsc HRun. pose proof (di_reach _ _ _ _ HI) as Hr. rewrite Hg in Hr. pose proof (reach_wf _ Hr) as Hw.
  assert (Hva : valid g a) by (unfold valid; apply nth_error_Some; congruence).
  pose proof (convert_inv L g a E fs HL Hr Hva Hns Hcv) as HS.
  assert (Hf : In f fs) by (rewrite Hfs; apply in_or_app; right; now left).
  destruct (convert_kctx L g a E fs f HS Hf) as (fd' & nd & Hfd' & HK). assert (fd' = fd) by congruence. subst fd'.
  assert (Hcone : cone g a f) by (eapply cs_cone; eauto).
  assert (Hacone : forall x, In x (func_args (f_expr fd)) -> cone g a (arg_id x)).
  { intros x Hx. apply (in_args g f) in Hx. destruct x as [n|d]; cbn.
    - eapply convert_bufs; eauto.
    - eapply cs_cone; [exact HS|]. rewrite Hfs. apply in_or_app. left. exact (cs_topo _ _ _ _ _ HS l1 f l2 Hfs fd Hfd d Hx). }
  assert (Hready : forall t x, same s t -> In x (func_args (f_expr fd)) -> input t (arg_id x)).
  { intros t x HSm Hx. split; [rewrite (sm_alive _ _ _ HSm); apply (cone_alive B C s a); auto; rewrite Hg; auto|]. rewrite (sm_graph _ _ _ HSm), Hg.
    pose proof Hx as Hx'. apply (in_args g f) in Hx. destruct x as [n|d]; cbn [arg_id].
    - left. destruct (wff_bufs _ _ _ _ _ _ (kc_wff g E f fd nd HK) Hx) as (bd & H1 & H2). exists bd. destruct (n_op bd) eqn:Eop; try discriminate. exists vals. auto.
    - right. eapply launched_same; eauto. apply Hgood. exact (cs_topo _ _ _ _ _ HS l1 f l2 Hfs fd Hfd d Hx). }
  set (ns := map arg_id (func_args (f_expr fd))).
  assert (Hbufs : mapOut (arg_buffer E) (func_args (f_expr fd)) = Done ns).
  { assert (H : forall x, In x (func_args (f_expr fd)) -> arg_buffer E x = Done (arg_id x)).
    { intros x Hx. apply (in_args g f fd) in Hx. destruct x as [n|d]; cbn; auto.
      destruct (kc_deps _ _ _ _ _ HK d Hx) as (fd' & nd' & H1 & H2 & _). rewrite H1. cbn. f_equal. exact (kc_out _ _ _ _ _ HK d Hx fd' H1). }
    unfold ns. clear - H. revert H. generalize (func_args (f_expr fd)). intros l0. induction l0 as [|x l IH]; intros H; cbn; auto. rewrite (H x) by (now left). cbn. rewrite IH; auto. intros; apply H; now right. }
  assert (Hout : f_out fd = f) by (rewrite (kc_fd _ _ _ _ _ HK); reflexivity).
  assert (HP : forall s0, dinv s0 -> same s s0 -> stopped_prep B true s0 (f_out fd :: ns) s' -> kept s s').
  { intros s0 HI0 HS0 Hp. rewrite Hout in Hp. destruct (sprep_ok s0 f ns s' HI0) as (A1 & A2 & _); auto.
    - rewrite (sm_alive _ _ _ HS0). apply (cone_alive B C s a); auto. rewrite Hg. auto.
    - intros m Hin. apply in_map_iff in Hin as (x & <- & Hx). auto.
    - apply kept_same; auto. eapply same_trans; eauto. }
  assert (HD : forall u, grun_func B E fd sc s s' (Done u) -> kept s s').
  { intros u Hrf. destruct (grun_func_ok B HB C HC g a nda Ha Hnc Hns Hm E fs Hcv HCg s l1 f l2 fd sc s' (Done u) HI Hg Hal Hfs Hgood Hfd Hsc Hrf) as (A1 & A2 & A3 & A4 & A5 & _).
    split; auto. split; [congruence|auto]. }
  inversion HRun as [E1|k' E1|bufs key kern k' s2 H1 H2 H3 H4 H5 E1|bufs key kern s2 H1 H2 H3 H4 E1]; subst.
  - now apply kept_refl.
  - apply kept_same; [now apply dinv_tmp|split; auto].
  - rewrite Hbufs in H1. injection H1 as <-. destruct H5 as [s' Hp|s' Hi].
    + apply (HP (set_cache B s ((key, kern) :: dv_cache B s) k')); [|split; auto|exact Hp].
      destruct HI as [I1 I2 I3 I4 I5 I6 I7 I8 I9 I10 I11 I12 I13 I14 I15]. split; cbn; auto.
      intros key2 kern2. destruct (kkey_eq_dec key key2) as [->|]; [|apply I5].
      intros Hk. injection Hk as <-. exists (mkD (dv_graph B s) E fd sc), (dv_tmp B s), k'. split; [apply (HCg (f_out fd)); auto|]. split; auto.
    + eapply (HD tt). eapply gf_miss; eauto.
  - rewrite Hbufs in H1. injection H1 as <-. destruct H4 as [s' Hp|s' Hi].
    + eapply HP; eauto. apply same_refl.
    + eapply (HD tt). eapply gf_hit; eauto.
Qed.
Lemma gstop_funcs_ok l2 : forall l1 s l s', dinv s -> dv_graph B s = g -> dv_alive B s a = true -> fs = l1 ++ l2 -> (forall d, In d l1 -> launched s d) ->
  mapOut (gschedule_one E) l2 = Done l -> gstopped_funcs B E l s s' -> kept s s'.
Proof using HB HC Ha Hnc Hns Hm Hcv HCg.
  induction l2 as [|f l2 IH]; intros l1 s l s' HI Hg Hal Hfs Hgood HM HR.
  - injection HM as <-. clear Hfs. inversion HR; subst. now apply kept_refl.
  - cbn [mapOut] in HM. bd HM. destruct v as [fd sc]. bd HM. injection HM as <-.
    unfold gschedule_one in D. bd D. destruct (E f) as [fd'|] eqn:Ef; [|discriminate]. injection D1 as <-. bd D.
    destruct (forallb _ _) in D; [|discriminate]. injection D as <- <-.
    revert Hfs Hg. inversion HR as [l0 s0 E1 E2 E3|fd0 sc0 r s0 s1 Hrf|fd0 sc0 r s0 s1 s2 Hrf Hrr]; subst; intros Hfs Hg.
    + now apply kept_refl.
    + eapply gstop_func_ok; eauto.
    + destruct (grun_func_ok B HB C HC g a nda Ha Hnc Hns Hm E fs Hcv HCg s l1 f l2 fd' v0 s1 (Done tt) HI Hg Hal Hfs Hgood Ef D1 Hrf) as (A1 & A2 & A3 & A4 & A5 & A6 & A7).
      assert (K1 : kept s s1) by (split; auto; split; [congruence|auto]).
      eapply kept_trans; [exact K1|]. apply (IH (l1 ++ [f]) s1 v s' A1 A2); auto.
      { now rewrite A3. } { rewrite <- app_assoc. exact Hfs. }
      { intros d Hd. apply in_app_iff in Hd as [Hd|[<-|[]]]; auto. destruct (Hgood d Hd) as (p & ins & Hin). exists p, ins. auto. }
Qed.
End Run.

(* a stopped materialize() of a view stops in the array it is a view of, or has done nothing *)
Lemma gstopped_base s a b bd s' : view_of (dv_graph B s) false a b -> nth_error (dv_graph B s) b = Some bd -> gstopped B s a s' ->
  s' = s \/ exists E fs l, is_const (n_op bd) = false /\ convert (dv_graph B s) b = Done (E, fs) /\ mapOut (gschedule_one E) fs = Done l /\ gstopped_funcs B E l s s'.
Proof using.
  intros Hv Hbd. induction Hv as [b nd Hn Hnv|a nd p pd b Hn Hvw Hp Hpd _ Hv IH]; intros HM.
  - assert (bd = nd) by congruence. subst bd. inversion HM as [a0 E1 E2|a0 nd0 b0 r0 s0 H1 H2 H3 H4|a0 nd0 E fs l s0 H1 H2 H3 H4 H5 H6]; auto; assert (nd0 = nd) by congruence; subst nd0.
    + congruence.
    + right. exists E, fs, l. auto.
  - inversion HM as [a0 E1 E2|a0 nd0 b0 r0 s0 H1 H2 H3 H4|a0 nd0 E fs l s0 H1 H2 H3 H4 H5 H6]; auto; assert (nd0 = nd) by congruence; subst nd0.
    + rewrite H3 in Hp. cbn in Hp. injection Hp as Hp. subst b0 s0. apply IH; assumption.
    + congruence.
Qed.
Lemma gstopped_top s a b bd s' : dinv s -> dv_alive B s a = true -> base (dv_graph B s) a = Some b -> nth_error (dv_graph B s) b = Some bd ->
  gmat_ok B (dv_graph B s) b -> (forall d, gkernel_of (dv_graph B s) a d -> C d) -> gstopped B s a s' -> kept s s'.
Proof using HB HC.
  intros HI Hal Hb Hbd Hm HCd HM. pose proof (reach_wf _ (di_reach _ _ _ _ HI)) as Hw.
  pose proof (di_alive _ _ _ _ HI _ Hal) as Hlt. pose proof (base_view _ _ _ Hw Hb Hlt) as Hv.
  destruct (gstopped_base s a b bd s' Hv Hbd HM) as [->|(E & fs & l & Hnc & HCv & Hsch & Hrun)]; [now apply kept_refl|].
  assert (Halb : dv_alive B s b = true) by (apply (cone_alive B C s a); auto; now apply view_cone).
  assert (Hbl : (b < length (dv_graph B s))%nat) by (apply nth_error_Some; congruence).
  destruct (convert_cases L HL (dv_graph B s) Hw b Hbl) as [Hns|HT]; [|congruence].
  eapply (gstop_funcs_ok (dv_graph B s) b bd Hbd Hnc Hns Hm E fs HCv) with (l2 := fs) (l1 := @nil nat); eauto.
  - intros f fd sc Hf Hfd Hsc. apply HCd. exists b, bd, E, fs, f, fd, sc. auto 10.
  - intros d [].
Qed.
Theorem gstop_hist_inv s : gstop_hist B C s -> dinv s.
Proof using HB HC.
  induction 1 as [|s c Hs IH Hc Hu|s a s' oc Hs IH Ha Hm Hk HM|s a s' Hs IH Ha Hm Hk HM|s a Hs IH Ha HR|s D Hs IH HD|s Hs IH].
  - apply dinv_init.
  - now apply gcall_ok.
  - destruct (base_some B C s a IH Ha) as (b & bd & Hb & Hbd). eapply (gmat_top B HB C HC s a b bd s' oc); eauto.
  - destruct (base_some B C s a IH Ha) as (b & bd & Hb & Hbd). eapply (gstopped_top s a b bd s'); eauto.
  - apply gtolist_ok; auto.
  - now apply die_ok.
  - now apply reset_dev_ok.
Qed.
(* what the program does afterwards, stopped or not *)
Theorem gstop_later_grow s t : dinv s -> gstop_later B C s t -> dinv t /\ (exists e, dv_graph B t = dv_graph B s ++ e) /\
  (forall n, launched s n -> launched t n).
Proof using HB HC.
  assert (HK : forall u v, kept u v -> forall n, launched u n -> launched v n).
  { intros u v (_ & _ & _ & _ & Hl) n (p & ins & Hin). exists p, ins. auto. }
  intros Hs. induction 1 as [|t c Ht IH Hc Hu|t a t' oc Ht IH Ha Hm Hk HM|t a t' Ht IH Ha Hm Hk HM|t a Ht IH Ha HR|t D Ht IH HD|t Ht IH].
  - split; auto. split; [exists []; now rewrite app_nil_r|auto].
  - destruct IH as (HI & (e & He) & Hla). destruct (gcall_ok B C t c HI Hc Hu) as (H1 & (e2 & He2) & _ & Hlg). split; auto.
    split; [exists (e ++ e2); now rewrite He2, He, app_assoc|]. intros n Hn. destruct (Hla n Hn) as (p & ins & Hin). exists p, ins. now rewrite Hlg.
  - destruct IH as (HI & (e & He) & Hla). destruct (base_some B C t a HI Ha) as (b & bd & Hb & Hbd). destruct (gmat_top B HB C HC t a b bd t' oc HI Ha Hb Hbd (Hm b Hb) Hk HM) as (H1 & H2 & H3 & H4 & H5 & _).
    split; auto. split; [exists e; congruence|]. intros n Hn. destruct (Hla n Hn) as (p & ins & Hin). exists p, ins. auto.
  - destruct IH as (HI & (e & He) & Hla). destruct (base_some B C t a HI Ha) as (b & bd & Hb & Hbd). pose proof (gstopped_top t a b bd t' HI Ha Hb Hbd (Hm b Hb) Hk HM) as HKt.
    split; [apply HKt|]. split; [exists e; destruct HKt as (_ & H2 & _); congruence|]. intros n Hn. apply (HK t t'); auto.
  - destruct IH as (HI & (e & He) & Hla). destruct (gtolist_ok B C t a HI Ha HR) as (H1 & H2 & H3 & H4). split; auto. split; [exists e; congruence|auto].
  - destruct IH as (HI & (e & He) & Hla). split; [now apply die_ok|]. destruct (die_facts B D t) as (Hg & _ & _ & Hl). split; [exists e; congruence|].
    intros n Hn. destruct (Hla n Hn) as (p & ins & Hin). exists p, ins. auto.
  - destruct IH as (HI & (e & He) & Hla). split; [now apply reset_dev_ok|]. split; [exists e; exact He|auto].
Qed.
(* once a later materialize() returns, its elements are right and stay right, whatever is stopped afterwards *)
Theorem gstop_value s a b bd s' t : dinv s -> dv_alive B s a = true -> view_of (dv_graph B s) true a b -> nth_error (dv_graph B s) b = Some bd -> is_const (n_op bd) = false ->
  gmat_ok B (dv_graph B s) b -> (forall d, gkernel_of (dv_graph B s) a d -> C d) -> gmat B s a s' (Done tt) ->
  gstop_later B C s' t -> dv_alive B t a = true ->
  exists l, snd (gtolist B t a) = Done l /\ t_tolist (den L (dv_graph B s) a) = Ok l.
Proof using HB HC.
  intros HI Ha Hv Hbd Hc Hm Hk HM Hl Hat. pose proof (reach_wf _ (di_reach _ _ _ _ HI)) as Hw. pose proof (view_of_base _ _ _ _ Hw Hv) as Hb.
  destruct (gmat_top B HB C HC s a b bd s' (Done tt) HI Ha Hb Hbd Hm Hk HM) as (HI' & Hg & Hal & _ & _ & Hla). destruct Hla as [|Hla]; [congruence|].
  destruct (gstop_later_grow s' t HI' Hl) as (HIt & (e & He) & Hlt). rewrite Hg in He.
  assert (Hnb : nth_error (dv_graph B t) b = Some bd) by (rewrite He, nth_error_app1; auto; apply nth_error_Some; congruence).
  destruct (gtolist_value B C t a b bd HIt Hat) as (l & L1 & L2); auto; [rewrite He; now apply view_grow|].
  exists l. split; auto. rewrite <- L2, He. f_equal. symmetry. apply den_app; auto. now apply (di_alive _ _ _ _ HI).
Qed.
End D.

(* ------------------------------------------------------------------ ownership of device memory, with no side condition *)
Section O.
Context (B : cpu_backend) (HL : lang_ok (b_lang B)).
Notation L := (b_lang B).
Notation dev := (dev B).
Notation nobody := (fun _ : nat => False).
Lemma osprep out s ns s' : stopped_prep B out s ns s' -> oinv B nobody s -> (forall n, In n ns -> dv_alive B s n = true) -> oinv B nobody s' /\ osame B s s'.
Proof using.
  induction 1 as [out s ns|out s n r s1 p Hp|out s n r s1 p s2 H1 H2 IH]; intros HI Hal.
  - split; auto. apply osame_refl.
  - eapply opointer in Hp as (A1 & A2 & _); eauto. apply Hal. now left.
  - eapply oprep1 in H1 as (A1 & A2 & _); eauto; [|apply Hal; now left].
    destruct (IH A1) as (B1 & B2). { intros m Hm. rewrite (os_alive _ _ _ A2). apply Hal. now right. } split; auto. eapply osame_trans; eauto.
Qed.
Section Run.
Context (g : graph) (a : nat) (nda : node) (Ha : nth_error g a = Some nda) (E : fenv) (fs : list nat) (Hcv : convert g a = Done (E, fs)).
Lemma ostop_func s f fd sc s' : oinv B nobody s -> dv_graph B s = g -> dv_alive B s a = true -> In f fs -> E f = Some fd -> gstopped_func B E fd sc s s' -> oinv B nobody s' /\ osame B s s'.
Proof using Ha HL Hcv.
  intros HI Hg Hal Hf Hfd HR. pose proof (oi_reach _ _ _ HI) as Hr. rewrite Hg in Hr. pose proof (reach_wf _ Hr) as Hw.
  assert (Hva : (a < length g)%nat) by (apply nth_error_Some; congruence).
  destruct (convert_cases L HL g Hw a Hva) as [Hns|HT]; [|congruence].
  pose proof (convert_inv L g a E fs HL Hr Hva Hns Hcv) as HS.
  destruct (convert_kctx L g a E fs f HS Hf) as (fd' & nd & Hfd' & HK). assert (fd' = fd) by congruence. subst fd'.
  assert (Hcone : cone g a f) by (eapply cs_cone; eauto).
  assert (Hacone : forall x, In x (func_args (f_expr fd)) -> cone g a (arg_id x)).
  { intros x Hx. apply (in_args g f) in Hx. destruct x as [n|d]; cbn.
    - eapply convert_bufs; eauto.
    - apply in_split in Hf as (l1 & l2 & Hfs). eapply cs_cone; [exact HS|]. rewrite Hfs. apply in_or_app. left. exact (cs_topo _ _ _ _ _ HS l1 f l2 Hfs fd Hfd d Hx). }
  assert (Hout : f_out fd = f) by (rewrite (kc_fd _ _ _ _ _ HK); reflexivity).
  set (ns := map arg_id (func_args (f_expr fd))).
  assert (Hbufs : mapOut (arg_buffer E) (func_args (f_expr fd)) = Done ns).
  { assert (H : forall x, In x (func_args (f_expr fd)) -> arg_buffer E x = Done (arg_id x)).
    { intros x Hx. apply (in_args g f fd) in Hx. destruct x as [n|d]; cbn; auto.
      destruct (kc_deps _ _ _ _ _ HK d Hx) as (fd' & nd' & H1 & H2 & _). rewrite H1. cbn. f_equal. exact (kc_out _ _ _ _ _ HK d Hx fd' H1). }
    unfold ns. clear - H. revert H. generalize (func_args (f_expr fd)). intros l0. induction l0 as [|x l IH]; intros H; cbn; auto. rewrite (H x) by (now left). cbn. rewrite IH; auto. intros; apply H; now right. }
  assert (Hall : forall m, In m (f_out fd :: ns) -> dv_alive B s m = true).
  { intros m Hm. apply (ocone B g a nobody s m); auto. rewrite Hout in Hm. destruct Hm as [<-|Hm]; auto. apply in_map_iff in Hm as (x & <- & Hx). auto. }
  assert (HI2 : forall c k, oinv B nobody (set_cache B s c k) /\ osame B s (set_cache B s c k)) by (intros c k; split; [destruct HI; split; auto|split; auto]).
  assert (HP : forall s0 kern, oinv B nobody s0 -> osame B s s0 -> gstopped_invoke B s0 sc kern (f_out fd) ns s' -> oinv B nobody s' /\ osame B s s').
  { intros s0 kern HI0 HS0 HG. assert (Hal0 : forall m, In m (f_out fd :: ns) -> dv_alive B s0 m = true) by (intros m Hm; rewrite (os_alive _ _ _ HS0); auto).
    destruct HG as [s' Hp|s' Hi].
    - destruct (osprep _ _ _ _ Hp HI0 Hal0) as (A1 & A2). split; auto. eapply osame_trans; eauto.
    - destruct (oinvoke B nobody s0 sc kern (f_out fd) ns s' (Done tt) HI0 Hal0 Hi ltac:(discriminate)) as (A1 & A2). split; auto. eapply osame_trans; eauto. }
  inversion HR as [E1|k' E1|bufs key kern k' s2 H1 H2 H3 H4 H5 E1|bufs key kern s2 H1 H2 H3 H4 E1]; subst.
  - split; auto. apply osame_refl.
  - apply HI2.
  - rewrite Hbufs in H1. injection H1 as <-. destruct (HI2 ((key, kern) :: dv_cache B s) k') as (A1 & A2). eapply HP; eauto.
  - rewrite Hbufs in H1. injection H1 as <-. eapply HP; eauto. apply osame_refl.
Qed.
Lemma ostop_funcs l2 : forall s l s', incl l2 fs -> oinv B nobody s -> dv_graph B s = g -> dv_alive B s a = true -> mapOut (gschedule_one E) l2 = Done l -> gstopped_funcs B E l s s' ->
  oinv B nobody s' /\ osame B s s'.
Proof using Ha HL Hcv.
  induction l2 as [|f l2 IH]; intros s l s' Hi HI Hg Hal HM HR.
  - injection HM as <-. inversion HR; subst. split; auto. apply osame_refl.
  - cbn [mapOut] in HM. bd HM. destruct v as [fd sc]. bd HM. injection HM as <-.
    unfold gschedule_one in D. bd D. destruct (E f) as [fd'|] eqn:Ef; [|discriminate]. injection D1 as <-. bd D.
    destruct (forallb _ _) in D; [|discriminate]. injection D as <- <-.
    assert (Hf : In f fs) by (apply Hi; now left).
    inversion HR as [l0 s0 E1 E2 E3|fd0 sc0 r s0 s1 Hrf|fd0 sc0 r s0 s1 s2 Hrf Hrr]; clear HR.
    + subst s'. split; auto. apply osame_refl.
    + subst fd0 sc0 r s0 s1. apply (ostop_func s f fd' v0 s'); auto.
    + subst fd0 sc0 r s0 s2. destruct (orun_func B HL g a nda Ha E fs Hcv s f fd' v0 s1 (Done tt) HI Hg Hal Hf Ef Hrf ltac:(discriminate)) as (A1 & A2).
      destruct (IH s1 v s') as (B1 & B2); auto; [intros x Hx; apply Hi; now right|now rewrite (os_graph _ _ _ A2)|now rewrite (os_alive _ _ _ A2)|].
      split; auto. eapply osame_trans; eauto.
Qed.
End Run.
Lemma ostop s a s' : oinv B nobody s -> dv_alive B s a = true -> gstopped B s a s' -> oinv B nobody s' /\ osame B s s'.
Proof using HL.
  intros HI Hal HM. induction HM as [a|a nd b r s' Hn Hv Hin HM IH|a nd E fs l s' H1 H2 H3 H4 H5 H6].
  - split; auto. apply osame_refl.
  - apply IH; auto. eapply (oi_in _ _ _ HI); eauto. rewrite Hin. now left.
  - eapply (ostop_funcs (dv_graph B s) a nd H1 E fs H4 fs); eauto. apply incl_refl.
Qed.
Theorem gstop_any_inv s : gstop_any B s -> oinv B nobody s.
Proof using HL.
  induction 1 as [|s c Hs IH Hc Hu|s a s' oc Hs IH Ha HM Hoc|s a s' Hs IH Ha HM|s a Hs IH Ha|s D Hs IH HD|s Hs IH].
  - split; cbn; try discriminate; try contradiction; auto; try apply reach_nil; try apply ow_nil.
  - now apply ocall.
  - eapply omat; eauto.
  - eapply ostop; eauto.
  - now apply otolist.
  - now apply odie.
  - destruct IH. split; auto.
Qed.

(* ------------------------------------------------------------------ host lists *)
Lemma hsprep out s ns s' : stopped_prep B out s ns s' -> hinv B s -> hinv B s' /\ hsame B s s'.
Proof using.
  induction 1 as [out s ns|out s n r s1 p Hp|out s n r s1 p s2 H1 H2 IH]; intros HI.
  - split; auto. apply hsame_refl.
  - eapply hpointer in Hp as (A1 & A2 & _); eauto.
  - eapply hprep1 in H1 as (A1 & A2); eauto. destruct (IH A1) as (B1 & B2). split; auto. eapply hsame_trans; eauto.
Qed.
Lemma hstop_invoke s sc kern n ns s' : gstopped_invoke B s sc kern n ns s' -> hinv B s -> hinv B s' /\ hsame B s s'.
Proof using. intros [s1 Hp|s1 Hi] HI; [eapply hsprep; eauto|]. eapply hinvoke; eauto. discriminate. Qed.
Lemma hstop_func E fd sc s s' : gstopped_func B E fd sc s s' -> hinv B s -> hinv B s' /\ hsame B s s'.
Proof using.
  intros HR HI. destruct HR as [|k'|bufs key kern k' s2 H1 H2 H3 H4 H5|bufs key kern s2 H1 H2 H3 H4].
  - split; auto. apply hsame_refl.
  - split; [now apply hinv_cache|split; auto].
  - apply hstop_invoke in H5 as (A1 & A2); auto. now apply hinv_cache.
  - eapply hstop_invoke; eauto.
Qed.
Lemma hstop_funcs E l s s' : gstopped_funcs B E l s s' -> hinv B s -> hinv B s' /\ hsame B s s'.
Proof using.
  induction 1 as [l s|fd sc l s s' H|fd sc l s s1 s' H1 H2 IH]; intros HI.
  - split; auto. apply hsame_refl.
  - eapply hstop_func; eauto.
  - apply hrun_func in H1 as (A1 & A2); auto; [|discriminate]. destruct (IH A1) as (B1 & B2). split; auto. eapply hsame_trans; eauto.
Qed.
Lemma hstop s a s' : gstopped B s a s' -> hinv B s -> hinv B s' /\ hsame B s s'.
Proof using.
  induction 1 as [a|a nd b r s' Hn Hv Hin HM IH|a nd E fs l s' H1 H2 H3 H4 H5 H6]; intros HI; auto; [split; auto; apply hsame_refl|]. eapply hstop_funcs; eauto.
Qed.
Theorem gstop_any_hinv s : gstop_any B s -> hinv B s.
Proof using HL.
  induction 1 as [|s c Hs IH Hc Hu|s a s' oc Hs IH Ha HM Hoc|s a s' Hs IH Ha HM|s a Hs IH Ha|s D Hs IH HD|s Hs IH].
  - split; cbn; try discriminate; auto; [constructor|]. intros [|n] ? ? H; discriminate.
  - apply hcall; auto. intros n p Hp. pose proof (gstop_any_inv s Hs) as HO. apply (oi_alive _ _ _ HO). now apply (oi_ptr _ _ _ HO n p).
  - eapply hmat; eauto.
  - eapply hstop; eauto.
  - now apply htolist.
  - now apply hdie.
  - now apply hinv_cache.
Qed.
End O.
