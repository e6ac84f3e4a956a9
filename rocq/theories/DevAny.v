(* Memory management on a GPU, in every history whatsoever: no condition on values, sizes, dtypes or
   cache keys; only what happens after undefined behaviour in a kernel is left open. *)
From Verif Require Import Base BaseFacts Util UtilFacts Lang Spec Graph Api ApiFacts Denote SpecFacts DenoteFacts Reach Tolist TolistFacts
  Algo AlgoSem AlgoConv AlgoConv2 AlgoFuse AlgoFuse2 AlgoConvert AlgoConvert2
  Kernel Sched Codegen Backends CacheKey KernFacts RenderFacts KernelOk RunFacts SchedFacts SchedGpu KernelRun KernelRun2 BackendFacts AlgoTop AlgoMore
  Runtime RuntimeFacts RuntimeFacts2 History HistFacts Safety Nest NestSched NestBody Parallel ParKernel ParCpu ParTop ParGpu Device DevFacts DevRun DevHist.

Section D.
Context (B : cpu_backend).
Notation L := (b_lang B).
Notation V := (val (b_lang B)).
Notation dev := (dev B).
Notation event := (event B).

(* the program does anything, in any order, until a kernel's behaviour is undefined *)
Inductive gany : dev -> Prop :=
| ga_init : gany (dev0 B)
| ga_call s c : gany s -> call_ok (dv_graph B s) c -> uses_alive B s c -> gany (fst (gcall B s c))
| ga_mat s a s' oc : gany s -> dv_alive B s a = true -> gmat B s a s' oc -> oc <> Throw InternalErr -> gany s'
| ga_tolist s a : gany s -> dv_alive B s a = true -> gany (fst (gtolist B s a))
| ga_die s D : gany s -> droppable B s D -> gany (die B s D)
| ga_reset s : gany s -> gany (reset_dev B s).

(* what must be true of a driver call, given the earlier ones: ownership only *)
Definition uses (e : event) (n p : nat) : Prop :=
  match e with
  | EvAlloc _ _ _ | EvFree _ _ _ => False
  | EvHtoD _ m q | EvDtoH _ m q => m = n /\ q = p
  | EvLaunch _ m q ins => (m = n /\ q = p) \/ exists vs, In (n, p, vs) ins
  end.
Definition own_ok (l : list event) (e : event) : Prop :=
  match e with
  | EvAlloc _ n p => (forall q, ~ In (EvAlloc B n q) l) /\ forall m, In (EvAlloc B m p) l -> In (EvFree B m p) l
  | EvFree _ n p => In (EvAlloc B n p) l /\ forall q, ~ In (EvFree B n q) l
  | _ => forall n p, uses e n p -> held B l n p
  end.
Inductive owned : list event -> Prop :=
| ow_nil : owned []
| ow_cons e l : own_ok l e -> owned l -> owned (e :: l).

Record oinv (X : nat -> Prop) (s : dev) : Prop := {
  oi_reach : reach (dv_graph B s);
  oi_alive : forall n, dv_alive B s n = true -> (n < length (dv_graph B s))%nat;
  oi_in : forall m nd n, dv_alive B s m = true -> nth_error (dv_graph B s) m = Some nd -> In n (n_in nd) -> ~ X n -> dv_alive B s n = true;
  oi_ptr : forall n p, dv_ptr B s n = Some p -> dv_alive B s n = true /\ dv_mem B s p <> None;
  oi_inj : forall n m p, dv_ptr B s n = Some p -> dv_ptr B s m = Some p -> n = m;
  oi_own : forall p, dv_mem B s p <> None -> exists n, dv_ptr B s n = Some p;
  oi_held : forall n p, dv_ptr B s n = Some p -> held B (dv_log B s) n p;
  oi_allocs : forall n p, In (EvAlloc B n p) (dv_log B s) -> (n < length (dv_graph B s))%nat /\ (dv_ptr B s n = Some p \/ dv_alive B s n = false /\ In (EvFree B n p) (dv_log B s));
  oi_frees : forall n p, In (EvFree B n p) (dv_log B s) -> (n < length (dv_graph B s))%nat /\ dv_alive B s n = false;
  oi_log : owned (dv_log B s)
}.
Notation nobody := (fun _ : nat => False).

(* a driver call that only touches contents *)
Lemma oinv_touch X s m' e : oinv X s -> (forall q, m' q = None <-> dv_mem B s q = None) ->
  (forall n p, e <> EvAlloc B n p /\ e <> EvFree B n p) -> own_ok (dv_log B s) e -> oinv X (set_mem B s m' e).
Proof.
  intros [I1 I2 I3 I4 I5 I6 I7 I8 I9 I10] Hm He Hok. split; cbn [set_mem dv_graph dv_host dv_cache dv_alive dv_ptr dv_mem dv_log]; auto.
  - intros n p Hp. destruct (I4 n p Hp) as [A1 A2]. split; auto. now rewrite Hm.
  - intros p Hp. apply I6. now rewrite <- Hm.
  - intros n p Hp. destruct (I7 n p Hp) as [A1 A2]. split; [now right|]. intros [Hx|Hx]; [now apply (proj2 (He n p))|auto].
  - intros n p [Hx|Hx]; [exfalso; now apply (proj1 (He n p))|]. destruct (I8 n p Hx) as [A1 [A2|[A2 A3]]]; split; auto. right. split; auto. now right.
  - intros n p [Hx|Hx]; [exfalso; now apply (proj2 (He n p))|]. eauto.
  - constructor; auto.
Qed.
Record osame (s s' : dev) : Prop := {
  os_graph : dv_graph B s' = dv_graph B s;
  os_alive : dv_alive B s' = dv_alive B s;
  os_ptr : forall n p, dv_ptr B s n = Some p -> dv_ptr B s' n = Some p
}.
Lemma osame_refl s : osame s s. Proof. split; auto. Qed.
Lemma osame_trans s1 s2 s3 : osame s1 s2 -> osame s2 s3 -> osame s1 s3.
Proof. intros [] []. split; intros; try congruence; auto. Qed.

Lemma opointer X s n s1 oc : oinv X s -> dv_alive B s n = true -> pointer B s n s1 oc -> oinv X s1 /\ osame s s1 /\ match oc with Done p => dv_ptr B s1 n = Some p | Throw e => True end.
Proof.
  intros HI Ha HP. inversion HP as [p Hp E1 E2|p nd garbage Hn Hnd Hlen Hfree Hg E1 E2|Hn E1 E2]; subst.
  - split; auto. split; [apply osame_refl|auto].
  - assert (Hnp : forall m, dv_ptr B s m <> Some p) by (intros m Hm; destruct (oi_ptr _ _ HI _ _ Hm); congruence).
    split; [|split; [|cbn; apply upd1_same]].
    + destruct HI as [I1 I2 I3 I4 I5 I6 I7 I8 I9 I10]. split; cbn [set_ptr dv_graph dv_host dv_cache dv_alive dv_ptr dv_mem dv_log]; auto.
      * intros m q Hm. unfold upd1 in Hm. destruct (Nat.eqb_spec n m) as [<-|Hne].
        -- injection Hm as <-. split; auto. rewrite upd1_same. discriminate.
        -- destruct (I4 m q Hm) as [A1 A2]. split; auto. unfold upd1. destruct (Nat.eqb p q); [discriminate|auto].
      * intros m1 m2 q H1 H2. unfold upd1 in H1, H2. destruct (Nat.eqb_spec n m1) as [<-|], (Nat.eqb_spec n m2) as [<-|]; auto.
        -- exfalso. injection H1 as <-. now apply (Hnp m2).
        -- exfalso. injection H2 as <-. now apply (Hnp m1).
        -- eauto.
      * intros q Hq. unfold upd1 in Hq. destruct (Nat.eqb_spec p q) as [Heq|Hne].
        -- exists n. rewrite upd1_same. now f_equal.
        -- destruct (I6 q Hq) as (m & Hm). exists m. rewrite upd1_other; auto. intros <-. congruence.
      * intros m q Hm. unfold upd1 in Hm. destruct (Nat.eqb_spec n m) as [<-|Hne].
        -- injection Hm as <-. split; [now left|]. intros [Hx|Hx]; [discriminate|]. destruct (I9 _ _ Hx). congruence.
        -- destruct (I7 m q Hm) as [A1 A2]. split; [now right|]. intros [Hx|Hx]; [discriminate|auto].
      * intros m q [Hx|Hx].
        -- injection Hx as <- <-. split; auto. left. apply upd1_same.
        -- destruct (I8 m q Hx) as [A1 A2]. split; auto. destruct A2 as [A2|[A2 A3]]; [left; rewrite upd1_other; auto; intros <-; congruence|right; split; auto; now right].
      * intros m q [Hx|Hx]; [discriminate|eauto].
      * constructor; auto. cbn. split.
        -- intros q Hx. destruct (I8 n q Hx) as [_ [A|[A _]]]; congruence.
        -- intros m Hx. destruct (I8 m p Hx) as [_ [A|[_ A]]]; auto. exfalso. now apply (Hnp m).
    + split; cbn; auto. intros m q Hm. rewrite upd1_other; auto. intros <-. congruence.
  - split; auto. split; [apply osame_refl|auto].
Qed.
Lemma ocopy X s n p s' oc : oinv X s -> dv_ptr B s n = Some p -> copy_htod B s n p = (s', oc) -> oinv X s' /\ osame s s'.
Proof.
  intros HI Hp HC. unfold copy_htod in HC. destruct (dv_host B s n) as [vs|]; [|injection HC as <- _; split; auto; apply osame_refl].
  destruct (nth_error _ n) as [nd|]; [|injection HC as <- _; split; auto; apply osame_refl].
  destruct (forallb _ vs); [destruct (dv_mem B s p)|]; injection HC as <- _; try (split; [auto|apply osame_refl]). split; [|split; auto].
  apply oinv_touch; auto.
  - intros q. unfold upd1. destruct (Nat.eqb_spec p q) as [<-|]; [|tauto]. split; [discriminate|]. intros H. now apply (oi_ptr _ _ HI _ _ Hp) in H.
  - intros; split; discriminate.
  - cbn. intros m q [<- <-]. now apply (oi_held _ _ HI).
Qed.
Lemma oprep1 X out s n s' oc : oinv X s -> dv_alive B s n = true -> prep1 B out s n s' oc -> oinv X s' /\ osame s s' /\ match oc with Done p => dv_ptr B s' n = Some p | Throw _ => True end.
Proof.
  intros HI Ha HP. inversion HP as [s1 e Hp E1 E2|s1 p Hf Hp E1 E2|s1 p s2 _ Hp Hcp E1 E2|s1 p s2 e _ Hp Hcp E1 E2]; subst.
  - eapply opointer in Hp; eauto.
  - eapply opointer in Hp; eauto.
  - eapply opointer in Hp as (A1 & A2 & A3); eauto. eapply ocopy in Hcp as (B1 & B2); eauto. split; auto. split; [eapply osame_trans; eauto|]. now apply (os_ptr _ _ B2).
  - eapply opointer in Hp as (A1 & A2 & A3); eauto. eapply ocopy in Hcp as (B1 & B2); eauto. split; auto. split; [eapply osame_trans; eauto|auto].
Qed.
Lemma oprep X out s ns s' oc : prep B out s ns s' oc -> oinv X s -> (forall n, In n ns -> dv_alive B s n = true) ->
  oinv X s' /\ osame s s' /\ match oc with Done ps => Forall2 (fun n p => dv_ptr B s' n = Some p) ns ps | Throw _ => True end.
Proof.
  induction 1 as [out s|out s n r s1 e H1|out s n r s1 p s2 oc H1 H2 IH]; intros HI Hal.
  - split; auto. split; [apply osame_refl|constructor].
  - eapply oprep1 in H1; eauto. apply Hal. now left.
  - eapply oprep1 in H1 as (A1 & A2 & A3); eauto; [|apply Hal; now left].
    destruct (IH A1) as (B1 & B2 & B3). { intros m Hm. rewrite (os_alive _ _ A2). apply Hal. now right. }
    split; auto. split; [eapply osame_trans; eauto|]. destruct oc as [ps|]; auto. constructor; auto. now apply (os_ptr _ _ B2).
Qed.
Lemma psteps_dom A loc k (x y : list (prog L A) * store L) : psteps L loc k x y -> forall q, snd y q = None <-> snd x q = None.
Proof.
  induction 1 as [|k x y z H _ IH]; intros q; [tauto|]. rewrite IH. clear IH. destruct H as [ts m t n i k' b l v H1 H2 H3 H4|ts m t n i v k' b l l' H1 H2 H3 H4]; cbn; [tauto|].
  unfold sset. destruct (Nat.eqb_spec b q) as [->|Hne]; [split; congruence|tauto].
Qed.
Lemma olaunch X s sc kern n ns p ps s' oc : oinv X s -> dv_ptr B s n = Some p -> Forall2 (fun n p => dv_ptr B s n = Some p) ns ps ->
  glaunch B s sc kern n ns p ps s' oc -> oc <> Throw InternalErr -> oinv X s' /\ osame s s'.
Proof.
  intros HI Hp Hps HG Hoc. inversion HG as [Hla E1 E2|k ts m' Hla Hst Hfin E1 E2|k ts m' m'' Hla Hst Hbad E1 E2]; subst; [split; auto; apply osame_refl| |congruence].
  split; [|split; auto]. apply oinv_touch; auto.
  - intros q. apply (psteps_dom _ _ _ _ _ Hst).
  - intros; split; discriminate.
  - cbn. intros m q [[<- <-]|(vs & Hin)]; [now apply (oi_held _ _ HI)|]. apply (oi_held _ _ HI). unfold inputs_at in Hin. apply in_map_iff in Hin as ([m9 q9] & Hx & Hin). cbn in Hx. injection Hx as -> -> _.
    clear - Hps Hin. induction Hps as [|a b ns ps H _ IH]; cbn in Hin; [destruct Hin|]. destruct Hin as [Hin|Hin]; [injection Hin as <- <-; auto|auto].
Qed.
Lemma oinvoke X s sc kern n ns s' oc : oinv X s -> (forall m, In m (n :: ns) -> dv_alive B s m = true) -> ginvoke B s sc kern n ns s' oc -> oc <> Throw InternalErr -> oinv X s' /\ osame s s'.
Proof.
  intros HI Hal HG Hoc. inversion HG as [s1 e Hp E1 E2|s1 p ps s2 oc' Hp Hl E1 E2]; subst.
  - eapply oprep in Hp as (A1 & A2 & _); eauto.
  - eapply oprep in Hp as (A1 & A2 & A3); eauto. inversion A3 as [|? ? ? ? H1 H2]; subst. destruct (olaunch X s1 sc kern n ns p ps s' oc A1 H1 H2 Hl Hoc) as (B1 & B2). split; auto. eapply osame_trans; eauto.
Qed.
Context (HL : lang_ok L).
Section Run.
Context (g : graph) (a : nat) (nda : node) (Ha : nth_error g a = Some nda) (E : fenv) (fs : list nat) (Hcv : convert g a = Done (E, fs)).
Lemma ocone X s n : (forall m, ~ X m) -> oinv X s -> dv_alive B s a = true -> dv_graph B s = g -> cone g a n -> dv_alive B s n = true.
Proof. intros HX HI Hal Hg. induction 1 as [|n nd b Hc IH Hn Hb]; auto. eapply (oi_in _ _ HI); eauto. now rewrite Hg. Qed.
Lemma orun_func s f fd sc s' oc : oinv nobody s -> dv_graph B s = g -> dv_alive B s a = true -> In f fs -> E f = Some fd -> grun_func B E fd sc s s' oc -> oc <> Throw InternalErr -> oinv nobody s' /\ osame s s'.
Proof using Ha HL Hcv.
  intros HI Hg Hal Hf Hfd HR Hoc. pose proof (oi_reach _ _ HI) as Hr. rewrite Hg in Hr. pose proof (reach_wf _ Hr) as Hw.
  assert (Hva : (a < length g)%nat) by (apply nth_error_Some; congruence).
  destruct (convert_cases L HL g Hw a Hva) as [Hns|HT]; [|congruence].
  pose proof (convert_inv L g a E fs HL Hr Hva Hns Hcv) as HS.
  destruct (convert_kctx L g a E fs f HS Hf) as (fd' & nd & Hfd' & HK). assert (fd' = fd) by congruence. subst fd'.
  assert (Hcone : cone g a f) by (eapply cs_cone; eauto).
  assert (Hacone : forall x, In x (func_args (f_expr fd)) -> cone g a (arg_id x)).
  { intros x Hx. apply (in_args g f) in Hx. destruct x as [n|d]; cbn.
    - eapply convert_bufs; eauto.
    - apply in_split in Hf as (l1 & l2 & Hfs). eapply cs_cone; [exact HS|]. rewrite Hfs. apply in_or_app. left. exact (cs_topo _ _ _ _ _ HS l1 f l2 Hfs fd Hfd d Hx). }
  assert (Hout : f_out fd = f) by (rewrite (kc_fd _ _ _ _ _ HK); reflexivity).
  set (ns := map arg_id (func_args (f_expr fd))).
  assert (Hbufs : mapOut (arg_buffer E) (func_args (f_expr fd)) = Done ns).
  { assert (H : forall x, In x (func_args (f_expr fd)) -> arg_buffer E x = Done (arg_id x)).
    { intros x Hx. apply (in_args g f fd) in Hx. destruct x as [n|d]; cbn; auto.
      destruct (kc_deps _ _ _ _ _ HK d Hx) as (fd' & nd' & H1 & H2 & _). rewrite H1. cbn. f_equal. exact (kc_out _ _ _ _ _ HK d Hx fd' H1). }
    unfold ns. clear - H. revert H. generalize (func_args (f_expr fd)). intros l0. induction l0 as [|x l IH]; intros H; cbn; auto. rewrite (H x) by (now left). cbn. rewrite IH; auto. intros; apply H; now right. }
  assert (Hall : forall m, In m (f_out fd :: ns) -> dv_alive B s m = true).
  { intros m Hm. apply (ocone nobody s m); auto. rewrite Hout in Hm. destruct Hm as [<-|Hm]; auto. apply in_map_iff in Hm as (x & <- & Hx). auto. }
  inversion HR as [e H1 E1 E2|bufs e H1 H2 E1 E2|bufs key' kern s2 oc' H1 H2 H3 H4 E1 E2|bufs key' e H1 H2 H3 H4 E1 E2|bufs key' kern k' s2 oc' H1 H2 H3 H4 H5 E1 E2];
    try (subst s'; split; [exact HI|apply osame_refl]).
  - subst s2 oc'. rewrite Hbufs in H1. injection H1 as <-. eapply oinvoke; eauto.
  - subst s2 oc'. rewrite Hbufs in H1. injection H1 as <-. destruct (oinvoke nobody (set_cache B s ((key', kern) :: dv_cache B s) k') sc kern (f_out fd) ns s' oc) as (A1 & A2); auto.
    + destruct HI. split; cbn; auto.
    + split; auto. eapply osame_trans; [|exact A2]. split; auto.
Qed.
Lemma orun_funcs l2 : forall s l s' oc, incl l2 fs -> oinv nobody s -> dv_graph B s = g -> dv_alive B s a = true -> mapOut (gschedule_one E) l2 = Done l -> grun_funcs B E l s s' oc -> oc <> Throw InternalErr ->
  oinv nobody s' /\ osame s s'.
Proof using Ha HL Hcv.
  induction l2 as [|f l2 IH]; intros s l s' oc Hi HI Hg Hal HM HR Hoc.
  - injection HM as <-. inversion HR as [s0 E1 E2 E3| |]. subst s'. split; auto. apply osame_refl.
  - cbn [mapOut] in HM. bd HM. destruct v as [fd sc]. bd HM. injection HM as <-.
    unfold gschedule_one in D. bd D. destruct (E f) as [fd'|] eqn:Ef; [|discriminate]. injection D1 as <-. bd D.
    destruct (forallb _ _) in D; [|discriminate]. injection D as <- <-.
    assert (Hf : In f fs) by (apply Hi; now left).
    inversion HR as [|fd0 sc0 r s0 s1 e Hrf|fd0 sc0 r s0 s1 s2 oc' Hrf Hrr]; clear HR; [subst s' oc|subst oc' s2]; subst fd0 sc0 r s0.
    + apply (orun_func s f fd' v0 s1 (Throw e)); auto.
    + destruct (orun_func s f fd' v0 s1 (Done tt) HI Hg Hal Hf Ef Hrf ltac:(discriminate)) as (A1 & A2).
      destruct (IH s1 v s' oc) as (B1 & B2); auto; [intros x Hx; apply Hi; now right|now rewrite (os_graph _ _ A2)|now rewrite (os_alive _ _ A2)|].
      split; auto. eapply osame_trans; eauto.
Qed.
End Run.
Lemma omat s a s' oc : oinv nobody s -> dv_alive B s a = true -> gmat B s a s' oc -> oc <> Throw InternalErr -> oinv nobody s' /\ osame s s'.
Proof using HL.
  intros HI Hal HM Hoc. induction HM as [a nd Hn Hc|a nd b r s' oc Hn Hv Hin HM IH|a nd s' oc Hn Hc Hv HG].
  - split; auto. apply osame_refl.
  - apply IH; auto. eapply (oi_in _ _ HI); eauto. rewrite Hin. now left.
  - inversion HG as [e H1 E1 E2|E fs e H1 H2 E1 E2|E fs l s1 oc1 H1 H2 H3 E1 E2]; subst; try (split; [exact HI|apply osame_refl]).
    eapply (orun_funcs (dv_graph B s) a nd Hn E fs H1 fs); eauto. apply incl_refl.
Qed.
Lemma ocall s c : oinv nobody s -> call_ok (dv_graph B s) c -> uses_alive B s c -> oinv nobody (fst (gcall B s c)).
Proof.
  intros HI Hc Hu. unfold gcall. unfold uses_alive in Hu. destruct (run_call (dv_graph B s) c) as [[g' r]|e] eqn:ER; cbn [fst]; auto.
  destruct (run_call_appends _ _ _ _ ER) as (e & He & _).
  assert (Hr' : reach g') by (econstructor; eauto; apply (oi_reach _ _ HI)). pose proof (reach_wf _ Hr') as Hw'.
  assert (Hlen : (length (dv_graph B s) <= length g')%nat) by (rewrite He, app_length; lia).
  specialize (Hu g' r). destruct HI as [I1 I2 I3 I4 I5 I6 I7 I8 I9 I10].
  split; cbn [dv_graph dv_host dv_cache dv_alive dv_ptr dv_mem dv_log]; auto.
  - intros n Hn. destruct (Nat.ltb_spec n (length (dv_graph B s))) as [Hl|Hl]; [lia|]. now apply Nat.ltb_lt.
  - intros m nd n Hm Hnd Hin HX. pose proof (wf_inputs_lt _ m nd Hw' Hnd) as HF. rewrite Forall_forall in HF. specialize (HF n Hin).
    destruct (Nat.ltb_spec m (length (dv_graph B s))) as [Hl|Hl].
    + destruct (Nat.ltb_spec n (length (dv_graph B s))); [|lia]. eapply I3; eauto. rewrite He, nth_error_app1 in Hnd; auto.
    + apply Nat.ltb_lt in Hm. destruct (Nat.ltb_spec n (length (dv_graph B s))) as [Hl'|Hl']; [eauto|]. apply Nat.ltb_lt. lia.
  - intros n p Hp. destruct (I4 n p Hp) as (A1 & A2). pose proof (I2 n A1) as Hl. apply Nat.ltb_lt in Hl. rewrite Hl. split; auto.
  - intros n p Hin. destruct (I8 n p Hin) as [A1 A2]. split; [lia|]. apply Nat.ltb_lt in A1. now rewrite A1.
  - intros n p Hin. destruct (I9 n p Hin) as [A1 A2]. split; [lia|]. apply Nat.ltb_lt in A1. now rewrite A1.
Qed.
Lemma otolist s a : oinv nobody s -> dv_alive B s a = true -> oinv nobody (fst (gtolist B s a)).
Proof.
  intros HI Ha. unfold gtolist. destruct (nth_error (dv_graph B s) a) as [nd|] eqn:Hn; [|auto].
  destruct (base (dv_graph B s) a) as [b|] eqn:Hb; [|auto]. destruct (dv_host B s b) as [data|] eqn:Hh; [auto|].
  destruct (dv_ptr B s b) as [p|] eqn:Hp; [|auto]. destruct (dv_mem B s p) as [data|] eqn:Hm; [|auto]. cbn [fst].
  assert (HH : oinv nobody (set_mem B s (dv_mem B s) (EvDtoH B b p))).
  { apply oinv_touch; auto; [tauto|intros; split; discriminate|]. cbn. intros m q [<- <-]. now apply (oi_held _ _ HI). }
  destruct HH as [I1 I2 I3 I4 I5 I6 I7 I8 I9 I10]. split; auto.
Qed.
Lemma odie1 X s n : oinv X s -> X n -> dv_alive B s n = true -> oinv X (die1 B s n).
Proof.
  intros [I1 I2 I3 I4 I5 I6 I7 I8 I9 I10] HX Ha. unfold die1.
  assert (Hal : forall m, upd1 (dv_alive B s) n false m = true -> m <> n /\ dv_alive B s m = true).
  { intros m Hm. unfold upd1 in Hm. destruct (Nat.eqb_spec n m); [discriminate|auto]. }
  pose proof (I2 n Ha) as Hlt. destruct (dv_ptr B s n) as [p|] eqn:Hp.
  - pose proof (I7 _ _ Hp) as Hheld.
    assert (Hpt : forall m q, upd1 (dv_ptr B s) n None m = Some q -> m <> n /\ q <> p /\ dv_ptr B s m = Some q).
    { intros m q Hm. unfold upd1 in Hm. destruct (Nat.eqb_spec n m) as [|Hne]; [discriminate|]. split; auto. split; auto. intros ->. apply Hne. eauto. }
    split; cbn [dv_graph dv_host dv_cache dv_alive dv_ptr dv_mem dv_log]; auto.
    + intros m Hm. apply I2. now apply Hal.
    + intros m nd k Hm Hnd Hin HnX. apply Hal in Hm as [_ Hm]. destruct (Nat.eq_dec n k) as [<-|]; [contradiction|]. rewrite upd1_other; eauto.
    + intros m q Hm. apply Hpt in Hm as (M1 & M2 & M3). destruct (I4 m q M3) as (A1 & A2). split; [rewrite upd1_other; auto|]. rewrite upd1_other; auto.
    + intros m k q H1 H2. apply Hpt in H1 as (_ & _ & H1). apply Hpt in H2 as (_ & _ & H2). eauto.
    + intros q Hq. unfold upd1 in Hq. destruct (Nat.eqb_spec p q) as [|Hne]; [congruence|]. destruct (I6 q Hq) as (m & Hm). exists m. rewrite upd1_other; auto. intros <-. congruence.
    + intros m q Hm. apply Hpt in Hm as (M1 & M2 & M3). destruct (I7 m q M3) as [A1 A2]. split; [now right|]. intros [Hx|Hx]; [congruence|auto].
    + intros m q [Hx|Hx]; [discriminate|]. destruct (I8 m q Hx) as [A1 A2]. split; auto. destruct (Nat.eq_dec n m) as [<-|Hne].
      * right. rewrite upd1_same. split; auto. destruct A2 as [A2|[_ A2]]; [left; congruence|now right].
      * rewrite !upd1_other by assumption. destruct A2 as [A2|[A2 A3]]; auto. right. split; auto. now right.
    + intros m q [Hx|Hx].
      * injection Hx as <- <-. split; auto. apply upd1_same.
      * destruct (I9 m q Hx) as [A1 A2]. split; auto. unfold upd1. destruct (Nat.eqb n m); auto.
    + constructor; auto. cbn. split; [apply Hheld|]. intros q Hq. destruct (I9 n q Hq). congruence.
  - split; cbn [dv_graph dv_host dv_cache dv_alive dv_ptr dv_mem dv_log]; auto.
    + intros m Hm. apply I2. now apply Hal.
    + intros m nd k Hm Hnd Hin HnX. apply Hal in Hm as [_ Hm]. destruct (Nat.eq_dec n k) as [<-|]; [contradiction|]. rewrite upd1_other; eauto.
    + intros m q Hm. destruct (I4 m q Hm) as (A1 & A2). split; auto. rewrite upd1_other; auto. intros <-. congruence.
    + intros m q Hx. destruct (I8 m q Hx) as [A1 A2]. split; auto. destruct A2 as [A2|[A2 A3]]; auto. right. split; auto. unfold upd1. destruct (Nat.eqb n m); auto.
    + intros m q Hx. destruct (I9 m q Hx) as [A1 A2]. split; auto. unfold upd1. destruct (Nat.eqb n m); auto.
Qed.
Lemma odie s D : oinv nobody s -> droppable B s D -> oinv nobody (die B s D).
Proof.
  intros HI (HND & HD). assert (HIX : oinv (fun n => In n D) s).
  { destruct HI as [I1 I2 I3 I4 I5 I6 I7 I8 I9 I10]. split; auto. intros m nd n H1 H2 H3 _. eapply I3; eauto. }
  assert (G : forall D' t, incl D' D -> NoDup D' -> (forall n, In n D' -> dv_alive B t n = true) -> oinv (fun n => In n D) t -> oinv (fun n => In n D) (die B t D')).
  { induction D' as [|n D' IH]; intros t Hinc Hnd Hal HIt; cbn [die fold_left]; auto. apply NoDup_cons_iff in Hnd as [Hn Hnd]. apply IH; auto.
    - intros x Hx. apply Hinc. now right.
    - intros m Hm. destruct (die1_facts B t n) as (_ & _ & -> & _). rewrite upd1_other by congruence. apply Hal. now right.
    - apply odie1; auto; [apply Hinc; now left|apply Hal; now left]. }
  specialize (G D s (incl_refl _) HND (fun n Hn => proj1 (HD n Hn)) HIX). destruct (die_facts B D s) as (Hg & _ & Hal & _).
  destruct G as [I1 I2 I3 I4 I5 I6 I7 I8 I9 I10]. split; auto.
  intros m nd n H1 H2 H3 _. apply Hal in H1 as [H1 Hm]. rewrite Hg in H2. apply Hal. split; [eapply (oi_in _ _ HI); eauto|].
  intros Hn. apply Hm. eapply HD; eauto.
Qed.
Theorem gany_inv s : gany s -> oinv nobody s.
Proof using HL.
  induction 1 as [|s c Hs IH Hc Hu|s a s' oc Hs IH Ha HM Hoc|s a Hs IH Ha|s D Hs IH HD|s Hs IH].
  - split; cbn; try discriminate; try contradiction; auto; try apply reach_nil; try apply ow_nil.
  - now apply ocall.
  - eapply omat; eauto.
  - now apply otolist.
  - now apply odie.
  - destruct IH. split; auto.
Qed.
(* chronological reading of the log *)
Lemma owned_at l : owned l -> forall l2 e l1, l = l2 ++ e :: l1 -> own_ok l1 e.
Proof.
  induction 1 as [|e l He _ IH]; intros l2 e' l1 Hl; [destruct l2; discriminate|]. destruct l2 as [|x l2]; cbn in Hl.
  - injection Hl as -> ->. exact He.
  - injection Hl as _ ->. eauto.
Qed.
End D.
