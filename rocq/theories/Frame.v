(* What holds in every history, whatever the kernel cache does: user data is never modified. *)
From Verif Require Import Base BaseFacts Util UtilFacts Lang Spec Graph Api ApiFacts Denote SpecFacts DenoteFacts Reach
  Algo AlgoSem AlgoConv AlgoConv2 AlgoFuse AlgoFuse2 AlgoConvert AlgoConvert2
  Kernel Sched Codegen Backends CacheKey KernFacts RenderFacts KernelOk RunFacts SchedFacts SchedGpu KernelRun KernelRun2 BackendFacts AlgoTop AlgoMore Runtime RuntimeFacts RuntimeFacts2 History HistFacts Tolist TolistFacts.

(* ------------------------------------------------------------------ kernels store to "out" only *)
Fixpoint only_out (c : code) : Prop :=
  match c with
  | CNil | CRet => True
  | CDecl _ _ _ k | CAssign _ _ k | CGpu _ _ _ k => only_out k
  | CStore a _ _ k => a = NOut /\ only_out k
  | CFor _ _ _ b k => only_out b /\ only_out k
  | CIf _ t f k => only_out t /\ only_out f /\ only_out k
  end.
Lemma only_out_app a b : only_out a -> only_out b -> only_out (capp a b).
Proof. induction a; cbn; tauto. Qed.
Lemma only_out_loops ls c : only_out c -> only_out (render_loops ls c).
Proof. intros H. induction ls as [|l ls IH]; cbn; auto. destruct (is_spatial l); auto. destruct (ls_exec l); cbn; auto. Qed.
Lemma only_out_splits sps : only_out (render_splits sps).
Proof. induction sps; cbn; auto. Qed.
Lemma only_out_guards sps : only_out (render_guards sps).
Proof. induction sps as [|s sps IH]; cbn; auto. destruct (sp_guard s); cbn; auto. Qed.
Lemma render_only_out g E args e : forall dt k c v k1, render g E args e dt k = Done (c, v, k1) -> only_out c.
Proof.
  assert (HM : forall es, Forall (fun x => forall dt k c v k1, render g E args x dt k = Done (c, v, k1) -> only_out c) es ->
    forall k c vs k1, renders g E args es k = Done (c, vs, k1) -> only_out c).
  { induction 1 as [|x es Hx _ IH]; intros k c vs k1 HR; cbn in HR; [injection HR as <- _ _; exact I|].
    bd HR. destruct v as [[c1 v1] k2]. bd HR. destruct v as [[c2 v2] k3]. injection HR as <- _ _. apply only_out_app; eauto. }
  induction e using expr_ind'; intros dt k c v k1 HR.
  - cbn in HR. injection HR as <- _ _. exact I.
  - cbn in HR. injection HR as <- _ _. exact I.
  - cbn in HR. bd HR. destruct v0 as [[c1 v1] k2]. bd HR. destruct v0 as [[c2 v2] k3]. injection HR as <- _ _.
    apply only_out_app; eauto. apply only_out_app; eauto. exact I.
  - cbn in HR. bd HR. destruct v0 as [[c1 v1] k2]. injection HR as <- _ _. apply only_out_app; eauto. exact I.
  - cbn in HR. bd HR. destruct v0 as [[c1 v1] k2]. bd HR. destruct v0 as [[c2 v2] k3]. bd HR. destruct v0 as [[c3 v3] k4]. injection HR as <- _ _.
    cbn. apply only_out_app; eauto. cbn. repeat split; try exact I; apply only_out_app; eauto; exact I.
  - cbn in HR. bd HR. destruct v0 as [[c1 v1] k2]. injection HR as <- _ _. cbn.
    assert (only_out (capp c1 (CAssign NAcc (KBin BAdd (KName NAcc) v1) CNil))) by (apply only_out_app; eauto; exact I).
    induction red; cbn; auto.
  - rewrite render_func in HR. bd HR. bd HR. bd HR. destruct v2 as [[c2 v2] k3]. injection HR as <- _ _. eauto.
  - rewrite render_buf in HR. bd HR. bd HR. bd HR. destruct v2 as [[c2 v2] k3]. injection HR as <- _ _. eauto.
Qed.
Definition out_kernel (kern : kernel) : Prop := only_out (k_body kern) /\ exists dt ps, k_params kern = (NOut, dt) :: ps.
Lemma codegen_out g E args fd sc k kern k1 : codegen g E args fd sc k = Done (kern, k1) -> out_kernel kern.
Proof.
  unfold codegen. intros HR. bd HR. bd HR. destruct v0 as [[c w] k2]. injection HR as <- _. split; cbn; [|eauto].
  apply only_out_loops. apply only_out_app; [apply only_out_splits|]. apply only_out_app; [apply only_out_guards|].
  apply only_out_app; [eapply render_only_out; eauto|]. cbn. auto.
Qed.

Section Writes.
Context (L : lang).
Fixpoint wr_out {A} (p : prog L A) : Prop :=
  match p with
  | PRet _ | PExc | PFlt => True
  | PRd _ _ k => forall v, wr_out (k v)
  | PWr n _ _ k => n = NOut /\ wr_out k
  end.
Lemma wr_out_bind {A B} (m : prog L A) (f : A -> prog L B) : wr_out m -> (forall a, wr_out (f a)) -> wr_out (pbind m f).
Proof. induction m; cbn; intros H1 H2; auto. tauto. Qed.
Lemma wr_out_flt {A} (o : option A) : wr_out (p_flt (L := L) o).
Proof. destruct o; exact I. Qed.
Lemma wr_out_exc {A} (o : option A) : wr_out (p_exc (L := L) o).
Proof. destruct o; exact I. Qed.
Lemma wr_out_eval r e : wr_out (eval L r e).
Proof.
  induction e; cbn; auto using wr_out_flt; repeat (apply wr_out_bind; intros); auto using wr_out_exc, wr_out_flt. cbn. intros v. exact I.
Qed.
Lemma wr_out_for sc body n zs : (forall r, wr_out (body r)) -> forall r, wr_out (for_loop L sc body n zs r).
Proof.
  intros Hb. induction zs as [|z zs IH]; intros r; cbn; auto. apply wr_out_bind; auto. intros [[] r1]; auto. exact I.
Qed.
Lemma wr_out_exec sc gp pty c : only_out c -> forall r, wr_out (exec L sc gp pty c r).
Proof.
  induction c; cbn [only_out exec]; intros HO r; try exact I; repeat (apply wr_out_bind; intros); auto using wr_out_eval, wr_out_flt.
  - cbn. split; [tauto|]. now apply IHc.
  - apply wr_out_for. intros. now apply IHc1.
  - destruct a as [[] r1]; [now apply IHc2|exact I].
  - destruct (truth L a); [apply IHc1|apply IHc2]; tauto.
  - destruct a0 as [[] r1]; [now apply IHc3|exact I].
Qed.
Lemma run_wr_out {A} loc (p : prog L A) : wr_out p -> forall m m' oc, run loc p m = (m', oc) ->
  (forall b, loc NOut <> Some b -> m' b = m b) /\ (forall b, option_map (@length _) (m' b) = option_map (@length _) (m b)).
Proof.
  induction p as [a| | |n i k IH|n i v k IH]; cbn [wr_out run]; intros HW m m' oc HR; try (injection HR as <- _; auto).
  - destruct (loc n); [|injection HR as <- _; auto]. destruct (m n0); [|injection HR as <- _; auto]. destruct (znth l i); [|injection HR as <- _; auto]. eapply IH; eauto.
  - destruct HW as [-> HW]. destruct (loc NOut) as [b0|] eqn:El; [|injection HR as <- _; auto]. destruct (m b0) as [l|] eqn:Em; [|injection HR as <- _; auto].
    destruct (zupd l i v) as [l'|] eqn:Eu; [|injection HR as <- _; auto].
    destruct (IH HW _ _ _ HR) as [I1 I2]. split.
    + intros b Hb. rewrite I1 by assumption. unfold sset. destruct (Nat.eqb_spec b0 b); congruence.
    + intros b. rewrite I2. unfold sset. destruct (Nat.eqb_spec b0 b) as [<-|]; auto. rewrite Em. cbn. f_equal. unfold zupd in Eu. destruct (_ && _); [|discriminate]. injection Eu as <-. apply upd_length.
Qed.
End Writes.

(* ------------------------------------------------------------------ every history *)
(* API calls, materialize() calls and cache resets in any order, with no side condition at all *)
Inductive any_hist (B : cpu_backend) : rt B -> Prop :=
| ah_init : any_hist B (rt0 B)
| ah_call s c : any_hist B s -> call_ok (r_graph B s) c -> any_hist B (fst (api_call B s c))
| ah_mat s a : any_hist B s -> valid (r_graph B s) a -> any_hist B (fst (materialize B s a))
| ah_reset s : any_hist B s -> any_hist B (reset_cache B s).
Inductive any_later (B : cpu_backend) (s : rt B) : rt B -> Prop :=
| al_here : any_later B s s
| al_call t c : any_later B s t -> call_ok (r_graph B t) c -> any_later B s (fst (api_call B t c))
| al_mat t a : any_later B s t -> valid (r_graph B t) a -> any_later B s (fst (materialize B t a))
| al_reset t : any_later B s t -> any_later B s (reset_cache B t).

Lemma cone_trans g a b n : cone g a b -> cone g b n -> cone g a n.
Proof. intros H1. induction 1; auto. eapply cone_step; eauto. Qed.
Lemma view_cone g al a b : view_of g al a b -> cone g a b.
Proof.
  induction 1 as [b nd Hb Hnv|a nd p pd b Hn Hvw Hp Hpd Hal Hv IH]; [apply cone_self|].
  eapply cone_trans; [|exact IH]. eapply cone_step; [apply cone_self|exact Hn|]. eapply nth_error_In; eauto.
Qed.

Section Any.
Context (B : cpu_backend) (HL : lang_ok (b_lang B)).
Notation L := (b_lang B).
Record inv0 (s : rt B) : Prop := {
  j_reach : reach (r_graph B s);
  j_const : forall n nd vals, nth_error (r_graph B s) n = Some nd -> n_op nd = OConst vals -> r_cpu B s n = Some (map (of_num L) vals);
  j_len : forall n nd vs, nth_error (r_graph B s) n = Some nd -> r_cpu B s n = Some vs -> Z.of_nat (length vs) = zprod (n_shape nd);
  j_new : forall n, nth_error (r_graph B s) n = None -> r_cpu B s n = None;
  j_cache : forall key kern, cache_get (r_cache B s) key = Some kern -> out_kernel kern
}.
(* memory may change only in buffers of computed arrays, keeping lengths *)
Definition frame_ok (g : graph) (m m' : store L) : Prop :=
  (forall n nd, nth_error g n = Some nd -> is_const (n_op nd) = true -> m' n = m n) /\
  (forall n nd vs, nth_error g n = Some nd -> m' n = Some vs -> Z.of_nat (length vs) = zprod (n_shape nd)) /\
  (forall n, nth_error g n = None -> m' n = m n).
Definition mem_ok (g : graph) (m : store L) : Prop :=
  (forall n nd vals, nth_error g n = Some nd -> n_op nd = OConst vals -> m n = Some (map (of_num L) vals)) /\
  (forall n nd vs, nth_error g n = Some nd -> m n = Some vs -> Z.of_nat (length vs) = zprod (n_shape nd)) /\
  (forall n, nth_error g n = None -> m n = None).
Lemma frame_mem g m m' : mem_ok g m -> frame_ok g m m' -> mem_ok g m'.
Proof.
  intros (M1 & M2 & M3) (F1 & F2 & F3). repeat split; auto.
  - intros n nd vals Hn Ho. rewrite (F1 n nd Hn) by (now rewrite Ho). eauto.
  - intros n Hn. rewrite F3 by assumption. auto.
Qed.
Lemma zero_fill_mem g ps : wf_graph g -> forall m m', mem_ok g m -> zero_fill B g ps m = Done m' -> mem_ok g m'.
Proof.
  intros Hw. induction ps as [|p ps IH]; intros m m' HM HZ; cbn in HZ; [injection HZ as <-; auto|].
  unfold get in HZ. destruct (nth_error g p) as [nd|] eqn:Ep; [|discriminate]. cbn in HZ. eapply IH; [|exact HZ].
  destruct (m p) eqn:Em; auto. destruct HM as (M1 & M2 & M3). unfold sset. repeat split.
  - intros n nd' vals Hn Ho. destruct (Nat.eqb_spec p n) as [<-|]; eauto. exfalso. rewrite (M1 _ _ _ Hn Ho) in Em. discriminate.
  - intros n nd' vs Hn Hv. destruct (Nat.eqb_spec p n) as [<-|]; eauto. injection Hv as <-. assert (nd' = nd) by congruence. subst.
    rewrite repeat_length. pose proof (wf_shape_facts L g p nd Hw Ep) as [_ Hnn _ Hlen]. rewrite Hlen. assert (0 <= zprod (n_shape nd)) by (now apply zprod_nonneg). lia.
  - intros n Hn. destruct (Nat.eqb_spec p n) as [<-|]; eauto. congruence.
Qed.
Lemma zero_fill_other g ps : forall m m', zero_fill B g ps m = Done m' -> forall n, ~ In n ps -> m' n = m n.
Proof.
  induction ps as [|p ps IH]; intros m m' HZ n Hn; cbn in HZ; [injection HZ as <-; auto|]. bd HZ. rewrite (IH _ _ HZ) by (cbn in Hn; tauto).
  destruct (m p); auto. unfold sset. destruct (Nat.eqb_spec p n) as [->|]; auto. cbn in Hn. tauto.
Qed.
Lemma invoke_any s kern p0 ps nd s' oc : inv0 s -> out_kernel kern -> nth_error (r_graph B s) p0 = Some nd -> is_const (n_op nd) = false ->
  invoke B s kern (p0 :: ps) = (s', oc) -> r_graph B s' = r_graph B s /\ r_cache B s' = r_cache B s /\ mem_ok (r_graph B s) (r_cpu B s') /\
  forall n, ~ In n (p0 :: ps) -> r_cpu B s' n = r_cpu B s n.
Proof.
  intros HI (HO & dt & pps & Hps) Hn Hc HV. pose proof (reach_wf _ (j_reach _ HI)) as Hw.
  assert (HM : mem_ok (r_graph B s) (r_cpu B s)) by (split; [|split]; intros; [eapply j_const|eapply j_len|eapply j_new]; eauto).
  unfold invoke in HV. cbn [r_graph r_cpu r_cache r_tmp r_runs] in HV.
  destruct (zero_fill B (r_graph B s) (p0 :: ps) (r_cpu B s)) as [m|e] eqn:EZ; [|injection HV as <- _; auto].
  pose proof (zero_fill_mem _ _ Hw _ _ HM EZ) as HM1. pose proof (zero_fill_other _ _ _ _ EZ) as HO1.
  destruct (negb _); [injection HV as <- _; auto|].
  assert (HWR : wr_out L (exec L (b_copies B) no_gpu (pty_of (k_params kern)) (k_body kern) [[]])) by (now apply wr_out_exec).
  destruct (b_copies B).
  - destruct (copy_in B (r_graph B s) (p0 :: ps) m) as [cs|e] eqn:EC; [|injection HV as <- _; auto].
    destruct (run _ _ _) as [m' oc'] eqn:ER. pose proof (run_wr_out L _ _ HWR _ _ _ ER) as [_ HLn].
    destruct oc'; [|injection HV as <- _; auto|injection HV as <- _; auto].
    destruct (m' 0%nat) as [out|] eqn:E0; [|injection HV as <- _; auto]. injection HV as <- _. cbn. repeat split; auto.
    + intros n nd' vals H1 H2. unfold sset. destruct (Nat.eqb_spec p0 n) as [<-|]; [|eapply HM1; eauto]. rewrite Hn in H1. injection H1 as <-. rewrite H2 in Hc. discriminate.
    + intros n nd' vs H1 H2. unfold sset in H2. destruct (Nat.eqb_spec p0 n) as [<-|]; [|eapply HM1; eauto]. injection H2 as <-.
      assert (nd' = nd) by congruence. subst. specialize (HLn 0%nat). rewrite E0 in HLn.
      cbn [copy_in] in EC. unfold get in EC. rewrite Hn in EC. cbn [obind] in EC. destruct (m p0) as [vs0|] eqn:Ep0; [|discriminate]. cbn in EC.
      destruct (forallb _ vs0); [|discriminate]. bd EC. injection EC as <-. cbn in HLn. rewrite map_length in HLn. injection HLn as HLn.
      rewrite HLn. eapply HM1; eauto.
    + intros n Hnn. unfold sset. destruct (Nat.eqb_spec p0 n) as [<-|]; [congruence|]. now apply HM1.
    + intros n Hnn. unfold sset. destruct (Nat.eqb_spec p0 n) as [<-|]; [exfalso; apply Hnn; now left|]. auto.
  - destruct (run _ _ _) as [m' oc'] eqn:ER. pose proof (run_wr_out L _ _ HWR _ _ _ ER) as [HFr HLn]. injection HV as <- _. cbn.
    assert (Hloc : forall b, b <> p0 -> m' b = m b).
    { intros b Hb. apply HFr. rewrite Hps. cbn. congruence. }
    repeat split; auto.
    + intros n nd' vals H1 H2. rewrite Hloc; [eapply HM1; eauto|]. intros ->. rewrite Hn in H1. injection H1 as <-. rewrite H2 in Hc. discriminate.
    + intros n nd' vs H1 H2. specialize (HLn n). rewrite H2 in HLn. destruct (m n) as [ws|] eqn:Em; [|discriminate]. injection HLn as HLn. rewrite HLn. eapply HM1; eauto.
    + intros n Hnn. rewrite Hloc; [now apply HM1|]. intros ->. congruence.
    + intros n Hnn. rewrite Hloc; [auto|]. intros ->. apply Hnn. now left.
Qed.
Lemma inv0_mem s s' : inv0 s -> r_graph B s' = r_graph B s -> (forall key kern, cache_get (r_cache B s') key = Some kern -> out_kernel kern) ->
  mem_ok (r_graph B s) (r_cpu B s') -> inv0 s'.
Proof. intros [H1 H2 H3 H4 H5] Hg Hc (M1 & M2 & M3). split; rewrite ?Hg; auto. Qed.
Lemma run_func_any E fd sc s s' oc nd : inv0 s -> nth_error (r_graph B s) (f_out fd) = Some nd -> is_const (n_op nd) = false ->
  run_func B E fd sc s = (s', oc) -> inv0 s' /\ r_graph B s' = r_graph B s /\
  forall n, n <> f_out fd -> (forall x, In x (func_args (f_expr fd)) -> arg_buffer E x <> Done n) -> r_cpu B s' n = r_cpu B s n.
Proof.
  intros HI Hn Hc HR. unfold run_func in HR.
  assert (HBU : forall bufs, mapOut (arg_buffer E) (func_args (f_expr fd)) = Done bufs -> forall n, n <> f_out fd -> (forall x, In x (func_args (f_expr fd)) -> arg_buffer E x <> Done n) -> ~ In n (f_out fd :: bufs)).
  { intros bufs HM n H1 H2 [H3|H3]; [congruence|]. clear HR. revert bufs HM H2 H3. generalize (func_args (f_expr fd)). induction l as [|x l IH]; intros bufs HM H2 H3; cbn in HM; [injection HM as <-; destruct H3|].
    bd HM. bd HM. injection HM as <-. destruct H3 as [->|H3]; [exact (H2 x (or_introl eq_refl) D)|]. apply (IH _ D0); auto. intros y Hy. apply H2. now right. }
  destruct (mapOut (arg_buffer E) (func_args (f_expr fd))) as [bufs|e]; [specialize (HBU bufs eq_refl)|injection HR as <- _; auto].
  destruct (cache_key _ _ _ _) as [key|e]; [|injection HR as <- _; auto].
  destruct (cache_get (r_cache B s) key) as [kern|] eqn:EC.
  - destruct (invoke_any _ _ _ _ _ _ _ HI (j_cache _ HI _ _ EC) Hn Hc HR) as (H1 & H2 & H3 & H4). split; [|split; auto].
    eapply inv0_mem; eauto. rewrite H2. apply HI.
  - destruct (codegen _ _ _ _ _ _) as [[kern k']|e] eqn:EG; [|injection HR as <- _; auto].
    pose proof (codegen_out _ _ _ _ _ _ _ _ EG) as HO.
    set (s1 := mkRt B (r_graph B s) (r_cpu B s) ((key, kern) :: r_cache B s) k' (r_runs B s)) in *.
    assert (HI1 : inv0 s1).
    { destruct HI as [H1 H2 H3 H4 H5]. split; cbn; auto. intros key' kern' Hg. destruct (kkey_eq_dec key key'); [injection Hg as <-; auto|eauto]. }
    destruct (invoke_any s1 kern (f_out fd) bufs nd s' oc HI1 HO Hn Hc HR) as (H1 & H2 & H3 & H4). split; [|split; [auto|intros n N1 N2; apply H4; auto]].
    eapply inv0_mem; [exact HI1|exact H1| |exact H3]. rewrite H2. apply HI1.
Qed.
Lemma run_funcs_any E l : forall s s' oc, inv0 s -> (forall fd sc, In (fd, sc) l -> exists nd, nth_error (r_graph B s) (f_out fd) = Some nd /\ is_const (n_op nd) = false) ->
  run_funcs B E l s = (s', oc) -> inv0 s' /\ r_graph B s' = r_graph B s /\
  forall n, (forall fd sc, In (fd, sc) l -> n <> f_out fd /\ forall x, In x (func_args (f_expr fd)) -> arg_buffer E x <> Done n) -> r_cpu B s' n = r_cpu B s n.
Proof.
  induction l as [|[fd sc] l IH]; intros s s' oc HI HF HR; cbn in HR; [injection HR as <- _; auto|].
  destruct (HF fd sc (or_introl eq_refl)) as (nd & Hn & Hc). destruct (run_func B E fd sc s) as [s1 oc1] eqn:E1.
  destruct (run_func_any _ _ _ _ _ _ _ HI Hn Hc E1) as (H1 & H2 & H2').
  destruct oc1; [|injection HR as <- _; split; [|split]; auto; intros n Hnn; destruct (Hnn fd sc (or_introl eq_refl)); auto].
  destruct (IH s1 s' oc H1) as (H3 & H4 & H5); auto; [|split; [auto|split; [congruence|intros n Hnn; rewrite H5 by (intros; apply (Hnn _ sc0); now right); destruct (Hnn fd sc (or_introl eq_refl)); auto]]]. intros fd' sc' Hin. rewrite H2. apply (HF fd' sc'). now right.
Qed.
Lemma materialize_any s a : inv0 s -> valid (r_graph B s) a -> inv0 (fst (materialize B s a)) /\ r_graph B (fst (materialize B s a)) = r_graph B s /\
  forall n, ~ cone (r_graph B s) a n -> r_cpu B (fst (materialize B s a)) n = r_cpu B s n.
Proof using HL.
  intros HI Ha. pose proof (reach_wf _ (j_reach _ HI)) as Hw.
  destruct (base_total _ a Hw Ha) as (b & Hb & Hle & Hvw).
  destruct (nth_error (r_graph B s) b) as [bd|] eqn:Hbd; [|apply nth_error_None in Hbd; unfold valid in Ha; lia].
  rewrite (mat_compute B s a b bd Hw Hb Ha Hbd). destruct (is_const (n_op bd)) eqn:Ec; [auto|].
  unfold compute. destruct (convert (r_graph B s) b) as [[E fs]|e] eqn:Ecv; [|auto].
  destruct (mapOut (schedule_one B E) fs) as [l|e] eqn:EM; [|auto].
  destruct (run_funcs B E l s) as [s' oc] eqn:ER.
  destruct (convert_cases L HL _ Hw b) as [Hns|HT]; [unfold valid in Ha; lia| |congruence].
  assert (Hvb : valid (r_graph B s) b) by (unfold valid in *; lia).
  pose proof (convert_inv L _ _ _ _ HL (j_reach _ HI) Hvb Hns Ecv) as HS.
  assert (HX : forall fd sc, In (fd, sc) l -> exists f, In f fs /\ E f = Some fd).
  { intros fd sc Hin. clear - EM Hin. revert l EM Hin. induction fs as [|f fs IH]; intros l EM Hin; cbn in EM; [injection EM as <-; destruct Hin|].
    bd EM. bd EM. injection EM as <-. destruct Hin as [->|Hin].
    - exists f. split; [now left|]. unfold schedule_one in D. destruct (E f); [|discriminate]. cbn in D. bd D. destruct (forallb _ _); [|discriminate]. injection D as -> _. reflexivity.
    - destruct (IH _ D0 Hin) as (f' & H1 & H2). exists f'. split; [now right|auto]. }
  destruct (run_funcs_any E l s s' oc HI) as (R1 & R2 & R3); auto.
  - intros fd sc Hin. destruct (HX fd sc Hin) as (f & Hf & HEf). destruct (cs_entry _ _ _ _ _ HS f Hf) as (fd' & Hfd' & (nd & Hnd & Heq & _)). assert (fd' = fd) by congruence. subst fd'.
    rewrite Heq. cbn. exists nd. split; auto. destruct (cs_keep _ _ _ _ _ HS f Hf) as [->|(nd' & Hnd' & Hk & _)]; congruence.
  - split; auto. split; auto. intros n Hnc. apply R3. intros fd sc Hin. destruct (HX fd sc Hin) as (f & Hf & HEf).
    assert (Hab : cone (r_graph B s) a b) by (eapply view_cone; eauto).
    destruct (convert_kctx L _ b E fs f HS Hf) as (fd' & nd & Hfd' & HK). assert (fd' = fd) by congruence. subst fd'.
    assert (Hfo : f_out fd = f) by (now rewrite (kc_fd _ _ _ _ _ HK)). rewrite Hfo. split.
    + intros ->. apply Hnc. eapply cone_trans; [exact Hab|]. eapply cs_cone; eauto.
    + intros x Hx Heq. apply Hnc. eapply cone_trans; [exact Hab|].
      assert (Heq' : n = arg_id x). { apply (in_args (r_graph B s) f fd) in Hx. destruct x as [m|d]; cbn in Heq |- *; [congruence|]. destruct (kc_deps _ _ _ _ _ HK d Hx) as (fd' & nd' & H1 & _). rewrite H1 in Heq. cbn in Heq.
        rewrite (kc_out _ _ _ _ _ HK d Hx fd' H1) in Heq. congruence. }
      subst n. apply (in_args (r_graph B s) f fd) in Hx. destruct x as [m|d]; cbn.
      * eapply convert_bufs; eauto.
      * apply in_split in Hf as (l1 & l2 & Hfs). eapply cs_cone; [exact HS|]. rewrite Hfs. apply in_or_app. left. exact (cs_topo _ _ _ _ _ HS l1 f l2 Hfs fd HEf d Hx).
Qed.
Lemma api_call_any s c : inv0 s -> call_ok (r_graph B s) c -> inv0 (fst (api_call B s c)) /\ (exists e, r_graph B (fst (api_call B s c)) = r_graph B s ++ e).
Proof.
  intros HI Hc. unfold api_call. destruct (run_call (r_graph B s) c) as [[g' r]|e] eqn:ER; cbn [fst].
  2:{ split; auto. exists []. now rewrite app_nil_r. }
  destruct (run_call_appends _ _ _ _ ER) as (e & He & _). cbn [r_graph]. split; [|eauto].
  assert (Hr' : reach g') by (econstructor; eauto using j_reach). pose proof (reach_wf _ Hr') as Hw'.
  split; cbn [r_graph r_cpu r_cache]; auto.
  - intros n nd vals Hn Ho. destruct (Nat.ltb_spec n (length (r_graph B s))) as [Hl|Hl].
    + rewrite He, nth_error_app1 in Hn by assumption. eapply j_const; eauto.
    + rewrite Hn, Ho. reflexivity.
  - intros n nd vs Hn Hv. destruct (Nat.ltb_spec n (length (r_graph B s))) as [Hl|Hl].
    + rewrite He, nth_error_app1 in Hn by assumption. eapply j_len; eauto.
    + rewrite Hn in Hv. destruct (n_op nd) eqn:Eo; try discriminate. injection Hv as <-. rewrite map_length.
      pose proof (Hw' _ _ Hn) as HW. unfold wf_node in HW. rewrite Eo in HW. tauto.
  - intros n Hn. destruct (Nat.ltb_spec n (length (r_graph B s))) as [Hl|Hl]; [|now rewrite Hn].
    exfalso. apply nth_error_None in Hn. rewrite He, app_length in Hn. lia.
  - apply HI.
Qed.
Lemma any_hist_inv s : any_hist B s -> inv0 s.
Proof using HL.
  induction 1 as [|s c Hs IH Hc|s a Hs IH Ha|s Hs IH].
  - split; cbn; try discriminate; auto; [constructor|intros [|n] ? ? ?; discriminate].
  - now apply api_call_any.
  - now apply materialize_any.
  - destruct IH as [H1 H2 H3 H4 H5]. split; cbn; auto. discriminate.
Qed.
Lemma any_hist_later s t : any_hist B s -> any_later B s t -> any_hist B t.
Proof. intros Hs. induction 1; auto; econstructor; eauto. Qed.
Lemma any_later_grow s t : any_hist B s -> any_later B s t -> exists e, r_graph B t = r_graph B s ++ e.
Proof using HL.
  intros Hs. induction 1 as [|t c Ht IH Hc|t a Ht IH Ha|t Ht IH].
  - exists []. now rewrite app_nil_r.
  - destruct IH as (e & He). destruct (api_call_any t c (any_hist_inv t (any_hist_later s t Hs Ht)) Hc) as (_ & e2 & He2). exists (e ++ e2). now rewrite He2, He, app_assoc.
  - destruct IH as (e & He). destruct (materialize_any t a (any_hist_inv t (any_hist_later s t Hs Ht)) Ha) as (_ & -> & _). eauto.
  - exact IH.
Qed.
(* user data: the list given to array(), and the buffer's elements for ever after *)
Lemma const_kept s t n nd vals : any_hist B s -> any_later B s t -> nth_error (r_graph B s) n = Some nd -> n_op nd = OConst vals ->
  r_cpu B s n = Some (map (of_num L) vals) /\ r_cpu B t n = Some (map (of_num L) vals) /\ nth_error (r_graph B t) n = Some nd.
Proof using HL.
  intros Hs Ht Hn Ho. destruct (any_later_grow s t Hs Ht) as (e & He).
  assert (Hn' : nth_error (r_graph B t) n = Some nd) by (rewrite He, nth_error_app1; auto; apply nth_error_Some; congruence).
  split; [eapply j_const; eauto; now apply any_hist_inv|]. split; auto. eapply j_const; eauto. apply any_hist_inv. eapply any_hist_later; eauto.
Qed.
End Any.
