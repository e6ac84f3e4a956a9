(* backend.reset() to and from CUDA (backend.py:79-96, backend_cuda.py:31-50). *)
From Verif Require Import Base BaseFacts Util UtilFacts Lang Spec Graph Api ApiFacts Denote SpecFacts DenoteFacts Reach Tolist TolistFacts
  Algo AlgoSem AlgoConv AlgoConv2 AlgoFuse AlgoFuse2 AlgoConvert AlgoConvert2
  Kernel Sched Codegen Backends KernFacts RenderFacts KernelOk RunFacts SchedFacts SchedGpu KernelRun KernelRun2 BackendFacts AlgoTop
  AlgoMore CacheKey Runtime RuntimeFacts RuntimeFacts2 History HistFacts RtInst LangInst CacheFacts Frame HistFacts2 RuntimeTop Safety
  Nest NestSched NestBody Parallel ParKernel ParCpu ParTop ParGpu Device DevFacts DevRun DevHist DevAny Switch.

#[local] Arguments bk : simpl never.

(* ------------------------------------------------------------------ a context destroyed and a new one created *)
Section D.
Context (B : cpu_backend).
Notation L := (b_lang B).
Notation V := (val (b_lang B)).
Notation dev := (dev B).

(* backend.reset("CUDA") on CUDA, followed by materialize.reset().  CUDABackend() creates a context
   (backend_cuda.py:32-42); the assignment of backend.py:96 drops the last reference to the old backend, whose
   CUDA object destroys its context (backend_cuda.py:48-51): its memory is gone.  The Python objects stay, with
   their device pointers (buffer.py:13-16).  The new code generator counts its temporaries from 0.
   The log restarts: it lists the driver calls of the current context.
   Without materialize.reset() the cache would still hold functions of the destroyed context; what a launch
   of such a function does is not modelled. *)
Definition new_context (s : dev) : dev := mkDev B (dv_graph B s) (dv_host B s) (dv_ptr B s) (fun _ => None) [] 0 (dv_alive B s) [].

(* what tolist() shows of array a if its host list is [data] *)
Definition host_read (s : dev) (a : nat) : option (outcome (Base.nest V)) :=
  match nth_error (dv_graph B s) a, base (dv_graph B s) a with
  | Some nd, Some b => option_map (fun data => read_nd data (n_shape nd) (n_strides nd) (n_offset nd)) (dv_host B s b)
  | _, _ => None
  end.

(* host lists and device memory have the sizes of their arrays; constants keep their values *)
Record hinv (s : dev) : Prop := {
  hi_reach : reach (dv_graph B s);
  hi_const : forall n nd vals, nth_error (dv_graph B s) n = Some nd -> n_op nd = OConst vals -> dv_host B s n = Some (map (of_num L) vals);
  hi_host : forall n nd vs, nth_error (dv_graph B s) n = Some nd -> dv_host B s n = Some vs -> Z.of_nat (length vs) = zprod (n_shape nd);
  hi_new : forall n, nth_error (dv_graph B s) n = None -> dv_host B s n = None;
  hi_ptr : forall n p, dv_ptr B s n = Some p -> exists nd vs, nth_error (dv_graph B s) n = Some nd /\ dv_mem B s p = Some vs /\ Z.of_nat (length vs) = zprod (n_shape nd);
  hi_inj : forall n m p, dv_ptr B s n = Some p -> dv_ptr B s m = Some p -> n = m
}.
Definition hsame (s s' : dev) : Prop := dv_graph B s' = dv_graph B s /\ dv_host B s' = dv_host B s.
Lemma hsame_refl s : hsame s s. Proof. split; auto. Qed.
Lemma hsame_trans a b c : hsame a b -> hsame b c -> hsame a c.
Proof. intros [] []. split; congruence. Qed.

(* contents of device memory may change, sizes not *)
Lemma hinv_mem s m' e : hinv s -> (forall q, option_map (@length _) (m' q) = option_map (@length _) (dv_mem B s q)) -> hinv (set_mem B s m' e).
Proof.
  intros [H1 H2 H3 H4 H5 H6] Hm. split; cbn [set_mem dv_graph dv_host dv_ptr dv_mem]; auto.
  intros n p Hp. destruct (H5 n p Hp) as (nd & vs & A1 & A2 & A3). specialize (Hm p). rewrite A2 in Hm. destruct (m' p) as [ws|]; [|discriminate]. cbn in Hm. injection Hm as Hm.
  exists nd, ws. split; auto. split; auto. lia.
Qed.
Lemma hpointer s n s1 oc : hinv s -> pointer B s n s1 oc -> hinv s1 /\ hsame s s1 /\ match oc with Done p => dv_ptr B s1 n = Some p | Throw _ => True end.
Proof.
  intros HI HP. inversion HP as [p Hp E1 E2|p nd garbage Hn Hnd Hlen Hfree Hg E1 E2|Hn E1 E2]; subst.
  - split; auto. split; [apply hsame_refl|auto].
  - split; [|split; [split; auto|cbn; apply upd1_same]]. pose proof (reach_wf _ (hi_reach _ HI)) as Hw. destruct HI as [H1 H2 H3 H4 H5 H6].
    assert (Hnp : forall m, dv_ptr B s m <> Some p) by (intros m Hm; destruct (H5 _ _ Hm) as (? & ? & _ & ? & _); congruence).
    split; cbn [set_ptr dv_graph dv_host dv_ptr dv_mem]; auto.
    + intros m q Hm. unfold upd1 in Hm. destruct (Nat.eqb_spec n m) as [<-|Hne].
      * injection Hm as <-. exists nd, garbage. rewrite upd1_same. split; auto. split; auto.
        pose proof (wf_shape_facts L _ n nd Hw Hnd) as [_ Hnn _ Hl]. rewrite Hg. exact Hl.
      * destruct (H5 m q Hm) as (nd' & vs & A1 & A2 & A3). exists nd', vs. split; auto. split; auto. rewrite upd1_other; auto. intros <-. congruence.
    + intros m1 m2 q Q1 Q2. unfold upd1 in Q1, Q2. destruct (Nat.eqb_spec n m1) as [<-|], (Nat.eqb_spec n m2) as [<-|]; auto.
      * exfalso. injection Q1 as <-. now apply (Hnp m2).
      * exfalso. injection Q2 as <-. now apply (Hnp m1).
      * eauto.
  - split; auto. split; [apply hsame_refl|auto].
Qed.
Lemma hcopy s n p s' oc : hinv s -> dv_ptr B s n = Some p -> copy_htod B s n p = (s', oc) -> hinv s' /\ hsame s s'.
Proof.
  intros HI Hp HC. unfold copy_htod in HC. destruct (dv_host B s n) as [vs|] eqn:Eh; [|injection HC as <- _; split; auto; apply hsame_refl].
  destruct (nth_error _ n) as [nd|] eqn:En; [|injection HC as <- _; split; auto; apply hsame_refl].
  destruct (forallb _ vs); [destruct (dv_mem B s p) eqn:Em|]; injection HC as <- _; try (split; [auto|apply hsame_refl]). split; [|split; auto].
  apply hinv_mem; auto. intros q. unfold upd1. destruct (Nat.eqb_spec p q) as [<-|]; auto. rewrite Em. cbn. f_equal. rewrite map_length.
  pose proof (hi_host _ HI n nd vs En Eh) as Hl. destruct (hi_ptr _ HI n p Hp) as (nd' & ws & A1 & A2 & A3). assert (nd' = nd) by congruence. assert (ws = l) by congruence. subst. lia.
Qed.
Lemma hprep1 out s n s' oc : hinv s -> prep1 B out s n s' oc -> hinv s' /\ hsame s s'.
Proof.
  intros HI HP. inversion HP as [s1 e Hp E1 E2|s1 p Hf Hp E1 E2|s1 p s2 _ Hp Hcp E1 E2|s1 p s2 e _ Hp Hcp E1 E2]; subst.
  - eapply hpointer in Hp; eauto. tauto.
  - eapply hpointer in Hp; eauto. tauto.
  - eapply hpointer in Hp as (A1 & A2 & A3); eauto. eapply hcopy in Hcp as (B1 & B2); eauto. split; auto. eapply hsame_trans; eauto.
  - eapply hpointer in Hp as (A1 & A2 & A3); eauto. eapply hcopy in Hcp as (B1 & B2); eauto. split; auto. eapply hsame_trans; eauto.
Qed.
Lemma hprep out s ns s' oc : prep B out s ns s' oc -> hinv s -> hinv s' /\ hsame s s'.
Proof.
  induction 1 as [out s|out s n r s1 e H1|out s n r s1 p s2 oc H1 H2 IH]; intros HI.
  - split; auto. apply hsame_refl.
  - eapply hprep1; eauto.
  - eapply hprep1 in H1 as (A1 & A2); auto. destruct (IH A1) as (B1 & B2). split; auto. eapply hsame_trans; eauto.
Qed.
Lemma psteps_len A loc k (x y : list (prog L A) * store L) : psteps L loc k x y -> forall q, option_map (@length _) (snd y q) = option_map (@length _) (snd x q).
Proof.
  induction 1 as [|k x y z H _ IH]; intros q; [reflexivity|]. rewrite IH. clear IH. destruct H as [ts m t n i k' b l v H1 H2 H3 H4|ts m t n i v k' b l l' H1 H2 H3 H4]; cbn; [reflexivity|].
  unfold sset. destruct (Nat.eqb_spec b q) as [<-|Hne]; [|reflexivity]. rewrite H3. cbn. f_equal. unfold zupd in H4. destruct (_ && _); [|discriminate]. injection H4 as <-. apply upd_length.
Qed.
Lemma hinvoke s sc kern n ns s' oc : hinv s -> ginvoke B s sc kern n ns s' oc -> oc <> Throw InternalErr -> hinv s' /\ hsame s s'.
Proof.
  intros HI HG Hoc. inversion HG as [s1 e Hp E1 E2|s1 p ps s2 oc' Hp Hl E1 E2]; subst; [eapply hprep; eauto|].
  destruct (hprep _ _ _ _ _ Hp HI) as (A1 & A2). inversion Hl; subst.
  - auto.
  - split; [|eapply hsame_trans; [exact A2|split; auto]]. apply hinv_mem; auto. intros q. exact (psteps_len _ _ _ _ _ H0 q).
  - now elim Hoc.
Qed.
Lemma hinv_cache s c k : hinv s -> hinv (set_cache B s c k).
Proof. intros [H1 H2 H3 H4 H5 H6]. split; auto. Qed.
Lemma hrun_func E fd sc s s' oc : hinv s -> grun_func B E fd sc s s' oc -> oc <> Throw InternalErr -> hinv s' /\ hsame s s'.
Proof.
  intros HI HR Hoc. destruct HR as [e H1|bufs e H1 H2|bufs key kern s' oc H1 H2 H3 H4|bufs key e H1 H2 H3 H4|bufs key kern k' s' oc H1 H2 H3 H4 H5];
    try (split; [assumption|apply hsame_refl]).
  - eapply hinvoke; eauto.
  - apply hinvoke in H5 as (A1 & A2); auto. now apply hinv_cache.
Qed.
Lemma hrun_funcs E l s s' oc : grun_funcs B E l s s' oc -> oc <> Throw InternalErr -> hinv s -> hinv s' /\ hsame s s'.
Proof.
  induction 1 as [s|fd sc r s s' e H|fd sc r s s1 s' oc H1 H2 IH]; intros Hoc HI.
  - split; auto. apply hsame_refl.
  - eapply hrun_func; eauto.
  - apply hrun_func in H1 as (A1 & A2); auto; [|discriminate]. destruct (IH Hoc A1) as (B1 & B2). split; auto. eapply hsame_trans; eauto.
Qed.
Lemma hmat s a s' oc : gmat B s a s' oc -> oc <> Throw InternalErr -> hinv s -> hinv s' /\ hsame s s'.
Proof.
  induction 1 as [a nd H1 H2|a nd b r s' oc H1 H2 H3 H4 IH|a nd s' oc H1 H2 H3 H4]; intros Hoc HI; [split; [auto|apply hsame_refl]|auto|].
  inversion H4; subst; try (split; [assumption|apply hsame_refl]). eapply hrun_funcs; eauto.
Qed.
Lemma hcall s c : hinv s -> call_ok (dv_graph B s) c -> (forall n p, dv_ptr B s n = Some p -> (n < length (dv_graph B s))%nat) -> hinv (fst (gcall B s c)).
Proof.
  intros HI Hc Hpl. unfold gcall. destruct (run_call (dv_graph B s) c) as [[g' r]|e] eqn:ER; cbn [fst]; auto.
  destruct (run_call_appends _ _ _ _ ER) as (e & He & _).
  assert (Hr' : reach g') by (econstructor; eauto; apply (hi_reach _ HI)). pose proof (reach_wf _ Hr') as Hw'.
  destruct HI as [H1 H2 H3 H4 H5 H6].
  assert (Hold : forall n nd, (n < length (dv_graph B s))%nat -> nth_error g' n = Some nd -> nth_error (dv_graph B s) n = Some nd).
  { intros n nd Hn H. rewrite He, nth_error_app1 in H by assumption. exact H. }
  split; cbn [dv_graph dv_host dv_ptr dv_mem]; auto.
  - intros n nd vals Hn Hop. destruct (Nat.ltb_spec n (length (dv_graph B s))) as [Hl|Hl]; [eauto|]. now rewrite Hn, Hop.
  - intros n nd vs Hn Hvs. destruct (Nat.ltb_spec n (length (dv_graph B s))) as [Hl|Hl]; [eauto|]. rewrite Hn in Hvs. destruct (n_op nd) eqn:Eo; try discriminate. injection Hvs as <-. rewrite map_length.
    pose proof (Hw' _ _ Hn) as Hwn. unfold wf_node in Hwn. rewrite Eo in Hwn. destruct Hwn as (_ & _ & Hln & _ & _ & Hl2). congruence.
  - intros n Hn. destruct (Nat.ltb_spec n (length (dv_graph B s))) as [Hl|Hl]; [|now rewrite Hn].
    apply nth_error_None in Hn. rewrite He, app_length in Hn. lia.
  - intros n p Hp. destruct (H5 n p Hp) as (nd & vs & A1 & A2). exists nd, vs. split; auto. rewrite He, nth_error_app1; auto. eauto.
Qed.
Lemma htolist s a : hinv s -> hinv (fst (gtolist B s a)).
Proof.
  intros HI. unfold gtolist. destruct (nth_error (dv_graph B s) a) as [nd|] eqn:Hn; [|cbn; auto]. destruct (base (dv_graph B s) a) as [b|] eqn:Hb; [|cbn; auto].
  destruct (dv_host B s b) as [data|] eqn:Hh; [cbn; auto|]. destruct (dv_ptr B s b) as [p|] eqn:Hp; [|cbn; auto]. destruct (dv_mem B s p) as [data|] eqn:Hm; [|cbn; auto]. cbn [fst].
  destruct HI as [H1 H2 H3 H4 H5 H6]. destruct (H5 b p Hp) as (bd & vs & A1 & A2 & A3). split; cbn [set_host dv_graph dv_host dv_ptr dv_mem]; auto.
  - intros n nd' vals Hn' Ho. unfold upd1. destruct (Nat.eqb_spec b n) as [<-|]; [|eauto]. rewrite (H2 _ _ _ Hn' Ho) in Hh. discriminate.
  - intros n nd' ws Hn' Hw. unfold upd1 in Hw. destruct (Nat.eqb_spec b n) as [<-|]; [|eauto]. injection Hw as <-. congruence.
  - intros n Hn'. unfold upd1. destruct (Nat.eqb_spec b n) as [<-|]; [congruence|auto].
Qed.
Lemma hdie1 s n : hinv s -> hinv (die1 B s n).
Proof.
  intros [H1 H2 H3 H4 H5 H6]. unfold die1. destruct (dv_ptr B s n) as [p|] eqn:Hp; split; cbn [dv_graph dv_host dv_ptr dv_mem]; auto.
  - intros m q Hm. unfold upd1 in Hm. destruct (Nat.eqb_spec n m) as [|Hne]; [discriminate|]. destruct (H5 m q Hm) as (nd & vs & A1 & A2 & A3). exists nd, vs. split; auto. split; auto.
    rewrite upd1_other; auto. intros <-. apply Hne. eauto.
  - intros m k q Q1 Q2. unfold upd1 in Q1, Q2. destruct (Nat.eqb n m); [discriminate|]. destruct (Nat.eqb n k); [discriminate|]. eauto.
Qed.
Lemma hdie D : forall s, hinv s -> hinv (die B s D).
Proof. unfold die. induction D as [|n D IH]; intros s HI; cbn [fold_left]; auto. apply IH. now apply hdie1. Qed.
Theorem gany_hinv s : lang_ok L -> gany B s -> hinv s.
Proof.
  intros HL. induction 1 as [|s c Hs IH Hc Hu|s a s' oc Hs IH Ha HM Hoc|s a Hs IH Ha|s D Hs IH HD|s Hs IH].
  - split; cbn; try discriminate; auto; [constructor|]. intros [|n] ? ? H; discriminate.
  - apply hcall; auto. intros n p Hp. pose proof (gany_inv B HL s Hs) as HO. apply (oi_alive _ _ _ HO). now apply (oi_ptr _ _ _ HO n p).
  - eapply hmat; eauto.
  - now apply htolist.
  - now apply hdie.
  - now apply hinv_cache.
Qed.

(* tolist() reads the host list when there is one, whatever the device holds *)
Lemma gtolist_host s a v : host_read s a = Some v -> gtolist B s a = (s, v).
Proof.
  unfold host_read, gtolist. destruct (nth_error _ a) as [nd|]; [|discriminate]. destruct (base _ a) as [b|]; [|discriminate]. destruct (dv_host B s b); [|discriminate]. cbn. intros H. now injection H as <-.
Qed.

(* what the program does afterwards, with the invariant of C41 as the starting point *)
Context (HB : backend_ok B) (C : desc -> Prop) (HC : key_safe C).
Notation dinv := (dinv B C (fun _ : nat => False)).
Lemma glater_dinv s t : dinv s -> glater B C s t -> dinv t /\ exists e, dv_graph B t = dv_graph B s ++ e.
Proof using HB HC.
  intros Hs. induction 1 as [|t c Ht IH Hc Hu|t a t' oc Ht IH Ha Hm Hk HM|t a Ht IH Ha HR|t D Ht IH HD|t Ht IH].
  - split; auto. exists []. now rewrite app_nil_r.
  - destruct IH as (HI & e & He). destruct (gcall_ok B C t c HI Hc Hu) as (H1 & (e2 & He2) & _). split; auto. exists (e ++ e2). now rewrite He2, He, app_assoc.
  - destruct IH as (HI & e & He). destruct (base_some B C t a HI Ha) as (b & bd & Hb & Hbd). destruct (gmat_top B HB C HC t a b bd t' oc HI Ha Hb Hbd (Hm b Hb) Hk HM) as (H1 & H2 & _).
    split; auto. exists e. congruence.
  - destruct IH as (HI & e & He). destruct (gtolist_ok B C t a HI Ha HR) as (H1 & H2 & _). split; auto. exists e. congruence.
  - destruct IH as (HI & e & He). split; [now apply die_ok|]. destruct (die_facts B D t) as (Hg & _). exists e. congruence.
  - destruct IH as (HI & e & He). split; [now apply reset_dev_ok|]. exists e. exact He.
Qed.
(* in any state with the invariant, materialize() that returns makes tolist() right *)
Lemma dinv_value s a b s' : dinv s -> dv_alive B s a = true -> view_of (dv_graph B s) true a b -> computed (dv_graph B s) b -> gmat_ok B (dv_graph B s) b ->
  (forall d, gkernel_of (dv_graph B s) a d -> C d) -> gmat B s a s' (Done tt) ->
  exists l, snd (gtolist B s' a) = Done l /\ t_tolist (den L (dv_graph B s) a) = Ok l.
Proof using HB HC.
  intros HI Ha Hv (bd & Hbd & Hc) Hm Hk HM. pose proof (reach_wf _ (di_reach _ _ _ _ HI)) as Hw. pose proof (view_of_base _ _ _ _ Hw Hv) as Hb.
  destruct (gmat_top B HB C HC s a b bd s' (Done tt) HI Ha Hb Hbd Hm Hk HM) as (HI' & Hg & Hal & _ & _ & Hla). destruct Hla as [|Hla]; [congruence|].
  rewrite <- Hg. apply (gtolist_value B C s' a b bd); auto; try (now rewrite Hg). now rewrite Hal.
Qed.
End D.
