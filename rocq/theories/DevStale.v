(* materialize() never looks at the host copies of the arrays it computes: they stay whatever they were. *)
From Verif Require Import Base BaseFacts Util Lang Spec Graph Api Denote Reach Tolist
  Algo AlgoSem Kernel Sched Codegen Backends CacheKey KernelRun Runtime RuntimeFacts RuntimeFacts2 Parallel ParGpu Device.

Section D.
Context (B : cpu_backend).
Notation L := (b_lang B).
Notation dev := (dev B).
Context (h : store L).

(* t is s with host copies h (and another log) *)
Definition seth (s : dev) (l : list (event B)) : dev := mkDev B (dv_graph B s) h (dv_ptr B s) (dv_mem B s) (dv_cache B s) (dv_tmp B s) (dv_alive B s) l.
Definition like (s t : dev) : Prop := exists l, t = seth s l.
Definition keeps (s s' : dev) : Prop := dv_host B s' = dv_host B s.
Lemma pointer_seth s n s1 oc t : pointer B s n s1 oc -> like s t -> exists t1, pointer B t n t1 oc /\ like s1 t1 /\ keeps s s1.
Proof.
  intros H (l & ->). destruct H as [p Hp|p nd garbage Hn Hnd Hlen Hfree Hg|Hn].
  - exists (seth s l). split; [now constructor|]. split; [exists l; reflexivity|reflexivity].
  - exists (set_ptr B (seth s l) n p garbage). split; [now apply (pt_alloc B (seth s l) n p nd garbage)|]. split; [eexists; reflexivity|reflexivity].
  - exists (seth s l). split; [now apply pt_fail|]. split; [exists l; reflexivity|reflexivity].
Qed.
Lemma copy_seth s n p t s1 oc : copy_htod B s n p = (s1, oc) -> like s t -> h n = dv_host B s n -> exists t1, copy_htod B t n p = (t1, oc) /\ like s1 t1 /\ keeps s s1.
Proof.
  intros H (l & ->) Hh. unfold copy_htod in *. cbn [seth dv_host dv_graph] in *. rewrite Hh. destruct (dv_host B s n) as [vs|]; [|injection H as <- <-; exists (seth s l); split; [reflexivity|split; [exists l; reflexivity|reflexivity]]].
  destruct (nth_error _ n); [|injection H as <- <-; exists (seth s l); split; [reflexivity|split; [exists l; reflexivity|reflexivity]]].
  cbn [seth dv_mem]. destruct (forallb _ vs); [destruct (dv_mem B s p)|]; injection H as <- <-; eexists; (split; [reflexivity|]); (split; [eexists; reflexivity|reflexivity]).
Qed.
Lemma prep1_seth out s n s1 oc t : prep1 B out s n s1 oc -> like s t -> (out = false -> h n = dv_host B s n) -> exists t1, prep1 B out t n t1 oc /\ like s1 t1 /\ keeps s s1.
Proof.
  intros H Ht Hh. destruct H as [s1 e Hp|s1 p Ho Hp|s1 p s2 Ho Hp Hc|s1 p s2 e Ho Hp Hc]; destruct (pointer_seth _ _ _ _ t Hp Ht) as (t1 & H1 & H2 & H3).
  - exists t1. split; [now apply p1_fail|auto].
  - exists t1. split; [now apply p1_out|auto].
  - destruct (copy_seth _ _ _ t1 _ _ Hc H2) as (t2 & H4 & H5 & H6); [rewrite H3; auto|]. exists t2. split; [eapply p1_in; eauto|]. split; auto. unfold keeps in *; congruence.
  - destruct (copy_seth _ _ _ t1 _ _ Hc H2) as (t2 & H4 & H5 & H6); [rewrite H3; auto|]. exists t2. split; [eapply p1_bad; eauto|]. split; auto. unfold keeps in *; congruence.
Qed.
Lemma prep_seth out s ns s1 oc : prep B out s ns s1 oc -> forall t, like s t -> (forall n, In n (if out then tl ns else ns) -> h n = dv_host B s n) -> exists t1, prep B out t ns t1 oc /\ like s1 t1 /\ keeps s s1.
Proof.
  induction 1 as [out s|out s n r s1 e H1|out s n r s1 p s2 oc H1 H2 IH]; intros t Ht Hh.
  - exists t. split; [constructor|]. split; [auto|reflexivity].
  - destruct (prep1_seth _ _ _ _ _ t H1 Ht) as (t1 & A1 & A2); [intros ->; apply Hh; now left|]. exists t1. split; auto. now apply pr_fail.
  - destruct (prep1_seth _ _ _ _ _ t H1 Ht) as (t1 & A1 & A2 & A3); [intros ->; apply Hh; now left|]. destruct (IH t1 A2) as (t2 & B1 & B2 & B3).
    { intros m Hm. rewrite A3. apply Hh. destruct out; [exact Hm|now right]. }
    exists t2. split; [eapply pr_cons; eauto|]. split; auto. unfold keeps in *; congruence.
Qed.
Lemma invoke_seth s sc kern n ns s1 oc t : ginvoke B s sc kern n ns s1 oc -> like s t -> (forall m, In m ns -> h m = dv_host B s m) -> exists t1, ginvoke B t sc kern n ns t1 oc /\ like s1 t1 /\ keeps s s1.
Proof.
  intros H Ht Hh. destruct H as [s1 e Hp|s1 p ps s2 oc Hp Hl]; destruct (prep_seth _ _ _ _ _ Hp t Ht Hh) as (t1 & A1 & A2 & A3).
  - exists t1. split; auto. now apply gi_prep.
  - destruct A2 as (l & ->). destruct Hl as [Hla|k ts m' Hla Hst Hf|k ts m' m'' Hla Hst Hbad].
    + exists (seth s1 l). split; [eapply gi_launch; eauto; now apply gl_refused|]. split; [eexists; reflexivity|auto].
    + eexists. split; [eapply gi_launch; eauto; exact (gl_run B (seth s1 l) sc kern n ns p ps k ts m' Hla Hst Hf)|]. split; [eexists; reflexivity|exact A3].
    + eexists. split; [eapply gi_launch; eauto; exact (gl_undefined B (seth s1 l) sc kern n ns p ps k ts m' m'' Hla Hst Hbad)|]. split; [eexists; reflexivity|exact A3].
Qed.
Lemma func_seth E fd sc s s1 oc t : grun_func B E fd sc s s1 oc -> like s t -> (forall bufs m, mapOut (arg_buffer E) (func_args (f_expr fd)) = Done bufs -> In m bufs -> h m = dv_host B s m) ->
  exists t1, grun_func B E fd sc t t1 oc /\ like s1 t1 /\ keeps s s1.
Proof.
  intros H Ht Hh. pose proof Ht as (l & ->). destruct H as [e H1|bufs e H1 H2|bufs key kern s' oc H1 H2 H3 H4|bufs key e H1 H2 H3 H4|bufs key kern k' s' oc H1 H2 H3 H4 H5].
  - eexists. split; [now apply gf_args|]. split; [eauto|reflexivity].
  - eexists. split; [eapply gf_key; eauto|]. split; [eauto|reflexivity].
  - destruct (invoke_seth _ _ _ _ _ _ _ _ H4 Ht) as (t1 & A1 & A2); eauto. exists t1. split; auto. eapply gf_hit; eauto.
  - eexists. split; [eapply gf_nogen; eauto|]. split; [eauto|reflexivity].
  - destruct (invoke_seth _ _ _ _ _ _ _ (set_cache B (seth s l) ((key, kern) :: dv_cache B s) k') H5) as (t1 & A1 & A2 & A3); eauto; [eexists; reflexivity|]. exists t1. split; auto. eapply gf_miss; eauto.
Qed.
Lemma funcs_seth E l s s1 oc : grun_funcs B E l s s1 oc -> forall t, like s t ->
  (forall fd sc bufs m, In (fd, sc) l -> mapOut (arg_buffer E) (func_args (f_expr fd)) = Done bufs -> In m bufs -> h m = dv_host B s m) ->
  exists t1, grun_funcs B E l t t1 oc /\ like s1 t1 /\ keeps s s1.
Proof.
  induction 1 as [s|fd sc r s s' e H|fd sc r s s1 s' oc H1 H2 IH]; intros t Ht Hh.
  - exists t. split; [constructor|]. split; [auto|reflexivity].
  - destruct (func_seth _ _ _ _ _ _ t H Ht) as (t1 & A1 & A2); [intros; eapply Hh; eauto; now left|]. exists t1. split; auto. now apply gr_fail.
  - destruct (func_seth _ _ _ _ _ _ t H1 Ht) as (t1 & A1 & A2 & A3); [intros; eapply Hh; eauto; now left|]. destruct (IH t1 A2) as (t2 & B1 & B2 & B3).
    { intros fd0 sc0 bufs m Hin Hb Hm. rewrite A3. apply (Hh fd0 sc0 bufs m); auto. now right. }
    exists t2. split; [eapply gr_cons; eauto|]. split; auto. unfold keeps in *; congruence.
Qed.
(* the arrays whose host copies the kernels of a read *)
Definition host_reads (g : graph) (a m : nat) : Prop :=
  exists E fs f fd bufs, convert g a = Done (E, fs) /\ In f fs /\ E f = Some fd /\ mapOut (arg_buffer E) (func_args (f_expr fd)) = Done bufs /\ In m bufs.
Lemma compute_seth s a s1 oc t : gcompute B s a s1 oc -> like s t -> (forall m, host_reads (dv_graph B s) a m -> h m = dv_host B s m) -> exists t1, gcompute B t a t1 oc /\ like s1 t1 /\ keeps s s1.
Proof.
  intros H Ht Hh. pose proof Ht as (lg & ->). destruct H as [e H1|E fs e H1 H2|E fs l s' oc H1 H2 H3].
  - eexists. split; [now apply gc_conv|]. split; [eauto|reflexivity].
  - eexists. split; [eapply gc_sched; eauto|]. split; [eauto|reflexivity].
  - destruct (funcs_seth _ _ _ _ _ H3 _ Ht) as (t1 & A1 & A2).
    + intros fd sc bufs m Hin Hb Hm. apply Hh. assert (exists f, In f fs /\ E f = Some fd) as (f & F1 & F2).
      { clear - H2 Hin. revert l H2 Hin. induction fs as [|f fs IH]; intros l H2 Hin; cbn in H2; [injection H2 as <-; destruct Hin|].
        destruct (gschedule_one E f) as [[fd' sc']|] eqn:Eg; cbn in H2; [|discriminate]. destruct (mapOut _ fs) as [r|] eqn:Em; cbn in H2; [|discriminate]. injection H2 as <-.
        destruct Hin as [Hin|Hin].
        - injection Hin as -> ->. exists f. split; [now left|]. unfold gschedule_one in Eg. destruct (E f) as [fd'|]; cbn [throw_none obind] in Eg; [|discriminate]. destruct (auto_schedule true fd') as [sc1|]; cbn [obind] in Eg; [|discriminate]. destruct (forallb _ _) in Eg; congruence.
        - destruct (IH r eq_refl Hin) as (f' & F1 & F2). exists f'. split; [now right|auto]. }
      exists E, fs, f, fd, bufs. auto.
    + exists t1. split; auto. eapply gc_run; eauto.
Qed.
End D.
