(* Interrupted materialize() calls, with no side condition: user data and other arrays are kept. *)
From Verif Require Import Base BaseFacts Util UtilFacts Lang Spec Graph Api ApiFacts Denote SpecFacts DenoteFacts Reach Tolist TolistFacts
  Algo AlgoSem AlgoConv AlgoConv2 AlgoFuse AlgoFuse2 AlgoConvert AlgoConvert2
  Kernel Sched Codegen Backends KernFacts RenderFacts KernelOk RunFacts SchedFacts SchedGpu KernelRun KernelRun2 BackendFacts AlgoTop
  AlgoMore CacheKey Runtime RuntimeFacts RuntimeFacts2 History HistFacts Frame HistFacts2 Interrupt InterruptFacts.

Inductive stop_any_later (B : cpu_backend) (s : rt B) : rt B -> Prop :=
| sal_here : stop_any_later B s s
| sal_call t c : stop_any_later B s t -> call_ok (r_graph B t) c -> stop_any_later B s (fst (api_call B t c))
| sal_mat t a : stop_any_later B s t -> valid (r_graph B t) a -> stop_any_later B s (fst (materialize B t a))
| sal_stop t a t' : stop_any_later B s t -> valid (r_graph B t) a -> stopped B t a t' -> stop_any_later B s t'
| sal_reset t : stop_any_later B s t -> stop_any_later B s (reset_cache B t).

Section Any.
Context (B : cpu_backend) (HL : lang_ok (b_lang B)).
Notation L := (b_lang B).
Lemma sinvoke_any s kern p0 ps nd s' : inv0 B s -> out_kernel kern -> nth_error (r_graph B s) p0 = Some nd -> is_const (n_op nd) = false ->
  stopped_invoke B s kern (p0 :: ps) s' -> r_graph B s' = r_graph B s /\ r_cache B s' = r_cache B s /\ mem_ok B (r_graph B s) (r_cpu B s') /\
  forall n, ~ In n (p0 :: ps) -> r_cpu B s' n = r_cpu B s n.
Proof.
  intros HI HK Hn Hc HV. pose proof (reach_wf _ (j_reach _ _ HI)) as Hw.
  assert (HM : mem_ok B (r_graph B s) (r_cpu B s)) by (split; [|split]; intros; [eapply j_const|eapply j_len|eapply j_new]; eauto).
  destruct HV as [ps1 ps2 m Hps EZ|m Hcp EZ|m m' Hcp EZ Hlen HR|s' HV].
  - cbn. split; auto. split; auto. split; [eapply zero_fill_mem; eauto|]. intros n Hnn. eapply zero_fill_other; eauto. intros H. apply Hnn. change (In n (p0 :: ps)). rewrite Hps. apply in_or_app. now left.
  - cbn. split; auto. split; auto. split; [eapply zero_fill_mem; eauto|]. intros n Hnn. eapply zero_fill_other; eauto.
  - destruct HK as (HO & dt & pps & Hps).
    pose proof (zero_fill_mem B _ _ Hw _ _ HM EZ) as HM1. pose proof (zero_fill_other B _ _ _ _ EZ) as HO1.
    assert (HWR : wr_out L (exec L false no_gpu (pty_of (k_params kern)) (k_body kern) [[]])) by (now apply wr_out_exec).
    destruct (stopped_wr_out B _ _ _ _ HR HWR) as [HFr HLn]. cbn.
    assert (Hloc : forall b, b <> p0 -> m' b = m b) by (intros b Hb; apply HFr; rewrite Hps; cbn; congruence).
    repeat split; auto.
    + intros n nd' vals H1 H2. rewrite Hloc; [eapply HM1; eauto|]. intros ->. rewrite Hn in H1. injection H1 as <-. rewrite H2 in Hc. discriminate.
    + intros n nd' vs H1 H2. specialize (HLn n). rewrite H2 in HLn. destruct (m n) as [ws|] eqn:Em; [|discriminate]. injection HLn as HLn. rewrite HLn. eapply HM1; eauto.
    + intros n Hnn. rewrite Hloc; [now apply HM1|]. intros ->. congruence.
    + intros n Hnn. rewrite Hloc; [auto|]. intros ->. apply Hnn. now left.
  - eapply invoke_any; eauto.
Qed.
Lemma bufs_args E l bufs n : mapOut (arg_buffer E) l = Done bufs -> In n bufs -> exists x, In x l /\ arg_buffer E x = Done n.
Proof.
  revert bufs. induction l as [|x l IH]; intros bufs HM Hn; cbn in HM; [injection HM as <-; destruct Hn|].
  bd HM. bd HM. injection HM as <-. destruct Hn as [->|Hn]; [exists x; split; auto; now left|]. destruct (IH _ D0 Hn) as (y & H1 & H2). exists y. split; auto. now right.
Qed.
Lemma sfunc_any E fd sc s s' nd : inv0 B s -> nth_error (r_graph B s) (f_out fd) = Some nd -> is_const (n_op nd) = false ->
  stopped_func B E fd sc s s' -> inv0 B s' /\ r_graph B s' = r_graph B s /\
  forall n, n <> f_out fd -> (forall x, In x (func_args (f_expr fd)) -> arg_buffer E x <> Done n) -> r_cpu B s' n = r_cpu B s n.
Proof.
  intros HI Hn Hc HR.
  assert (HBU : forall bufs, mapOut (arg_buffer E) (func_args (f_expr fd)) = Done bufs -> forall n, n <> f_out fd -> (forall x, In x (func_args (f_expr fd)) -> arg_buffer E x <> Done n) -> ~ In n (f_out fd :: bufs)).
  { intros bufs HM n H1 H2 [H3|H3]; [congruence|]. destruct (bufs_args _ _ _ _ HM H3) as (x & H4 & H5). exact (H2 x H4 H5). }
  destruct HR as [|bufs key kern k' Hb Hkey Hmiss HCG|bufs key k' _ _ _ _ _|bufs key kern k' s' Hb Hkey Hmiss HCG HST|bufs key kern s' Hb Hkey Hhit HST].
  - auto.
  - split; [|split; auto]. destruct HI as [H1 H2 H3 H4 H5]. split; cbn; auto.
  - split; [|split; auto]. destruct HI as [H1 H2 H3 H4 H5]. split; cbn; auto.
  - pose proof (codegen_out _ _ _ _ _ _ _ _ HCG) as HO.
    set (s1 := mkRt B (r_graph B s) (r_cpu B s) ((key, kern) :: r_cache B s) k' (r_runs B s)) in *.
    assert (HI1 : inv0 B s1).
    { destruct HI as [H1 H2 H3 H4 H5]. split; cbn; auto. intros key' kern' Hg. destruct (kkey_eq_dec key key'); [injection Hg as <-; auto|eauto]. }
    destruct (sinvoke_any s1 kern (f_out fd) bufs nd s' HI1 HO Hn Hc HST) as (H1 & H2 & H3 & H4). split; [|split; [auto|intros n N1 N2; apply H4; eauto]].
    eapply inv0_mem; [exact HI1|exact H1| |exact H3]. rewrite H2. apply HI1.
  - destruct (sinvoke_any _ _ _ _ _ _ HI (j_cache _ _ HI _ _ Hhit) Hn Hc HST) as (H1 & H2 & H3 & H4). split; [|split; eauto].
    eapply inv0_mem; eauto. rewrite H2. apply HI.
Qed.
Lemma sfuncs_any E l : forall s s', inv0 B s -> (forall fd sc, In (fd, sc) l -> exists nd, nth_error (r_graph B s) (f_out fd) = Some nd /\ is_const (n_op nd) = false) ->
  stopped_funcs B E l s s' -> inv0 B s' /\ r_graph B s' = r_graph B s /\
  forall n, (forall fd sc, In (fd, sc) l -> n <> f_out fd /\ forall x, In x (func_args (f_expr fd)) -> arg_buffer E x <> Done n) -> r_cpu B s' n = r_cpu B s n.
Proof.
  induction l as [|[fd sc] l IH]; intros s s' HI HF HS; [apply sfuncs_nil in HS; subst; auto|].
  destruct (HF fd sc (or_introl eq_refl)) as (nd & Hn & Hc). destruct (sfuncs_inv _ _ _ _ _ _ _ HS) as [->|[HSF|(s1 & HR & HS')]]; auto.
  - destruct (sfunc_any E fd sc s s' nd HI Hn Hc HSF) as (H1 & H2 & H3). split; auto. split; auto. intros n Hnn. destruct (Hnn fd sc (or_introl eq_refl)). auto.
  - destruct (run_func_any _ _ _ _ _ _ _ _ HI Hn Hc HR) as (H1 & H2 & H3).
    destruct (IH s1 s' H1) as (I1 & I2 & I3); auto.
    { intros fd' sc' Hin. rewrite H2. apply (HF fd' sc'). now right. }
    split; auto. split; [congruence|]. intros n Hnn. rewrite I3 by (intros; apply (Hnn _ sc0); now right). destruct (Hnn fd sc (or_introl eq_refl)). auto.
Qed.
Lemma stopped_any s a s' : inv0 B s -> valid (r_graph B s) a -> stopped B s a s' -> inv0 B s' /\ r_graph B s' = r_graph B s /\
  forall n, ~ cone (r_graph B s) a n -> r_cpu B s' n = r_cpu B s n.
Proof using HL.
  intros HI Ha HS. pose proof (reach_wf _ (j_reach _ _ HI)) as Hw.
  destruct (base_total _ a Hw Ha) as (b & Hb & Hle & Hvw).
  destruct (nth_error (r_graph B s) b) as [bd|] eqn:Hbd; [|apply nth_error_None in Hbd; unfold valid in Ha; lia].
  destruct (stopped_base B s a b bd s' Hw Hb Ha Hbd HS) as [->|[Ec HSb]]; auto.
  inversion HSb as [a'|a' nd' q r s1 H1 H2 H3 H4|a' nd' E fs l s1 H1 H2 H3 Ecv EM H6]; subst; auto.
  { exfalso. clear - Hvw H1 H2. induction Hvw as [b nd Hn Hnv|]; [congruence|auto]. }
  destruct (convert_cases L HL _ Hw b) as [Hns|HT]; [unfold valid in Ha; lia| |congruence].
  assert (Hvb : valid (r_graph B s) b) by (unfold valid in *; lia).
  pose proof (convert_inv L _ _ _ _ HL (j_reach _ _ HI) Hvb Hns Ecv) as HC.
  assert (HX : forall fd sc, In (fd, sc) l -> exists f, In f fs /\ E f = Some fd).
  { intros fd sc Hin. clear - EM Hin. revert l EM Hin. induction fs as [|f fs IH]; intros l EM Hin; cbn in EM; [injection EM as <-; destruct Hin|].
    bd EM. bd EM. injection EM as <-. destruct Hin as [->|Hin].
    - exists f. split; [now left|]. unfold schedule_one in D. destruct (E f); [|discriminate]. cbn in D. bd D. destruct (forallb _ _); [|discriminate]. injection D as -> _. reflexivity.
    - destruct (IH _ D0 Hin) as (f' & H1 & H2). exists f'. split; [now right|auto]. }
  destruct (sfuncs_any E l s s' HI) as (R1 & R2 & R3); auto.
  - intros fd sc Hin. destruct (HX fd sc Hin) as (f & Hf & HEf). destruct (cs_entry _ _ _ _ _ HC f Hf) as (fd' & Hfd' & (nd & Hnd & Heq & _)). assert (fd' = fd) by congruence. subst fd'.
    rewrite Heq. cbn. exists nd. split; auto. destruct (cs_keep _ _ _ _ _ HC f Hf) as [->|(nd'' & Hnd' & Hk & _)]; congruence.
  - split; auto. split; auto. intros n Hnc. apply R3. intros fd sc Hin. destruct (HX fd sc Hin) as (f & Hf & HEf).
    assert (Hab : cone (r_graph B s) a b) by (eapply view_cone; eauto).
    destruct (convert_kctx L _ b E fs f HC Hf) as (fd' & nd & Hfd' & HK). assert (fd' = fd) by congruence. subst fd'.
    assert (Hfo : f_out fd = f) by (now rewrite (kc_fd _ _ _ _ _ HK)). rewrite Hfo. split.
    + intros ->. apply Hnc. eapply cone_trans; [exact Hab|]. eapply cs_cone; eauto.
    + intros x Hx Heq. apply Hnc. eapply cone_trans; [exact Hab|].
      assert (Heq' : n = arg_id x). { apply (in_args (r_graph B s) f fd) in Hx. destruct x as [m|d]; cbn in Heq |- *; [congruence|]. destruct (kc_deps _ _ _ _ _ HK d Hx) as (fd' & nd'' & K1 & _). rewrite K1 in Heq. cbn in Heq.
        rewrite (kc_out _ _ _ _ _ HK d Hx fd' K1) in Heq. congruence. }
      subst n. apply (in_args (r_graph B s) f fd) in Hx. destruct x as [m|d]; cbn.
      * eapply convert_bufs; eauto.
      * apply in_split in Hf as (l1 & l2 & Hfs). eapply cs_cone; [exact HC|]. rewrite Hfs. apply in_or_app. left. exact (cs_topo _ _ _ _ _ HC l1 f l2 Hfs fd HEf d Hx).
Qed.
Lemma stop_any_inv s : stop_any B s -> inv0 B s.
Proof using HL.
  induction 1 as [|s c Hs IH Hc|s a Hs IH Ha|s a s' Hs IH Ha HS|s Hs IH].
  - apply any_hist_inv; auto. apply ah_init.
  - now apply api_call_any.
  - now apply materialize_any.
  - eapply stopped_any; eauto.
  - destruct IH as [H1 H2 H3 H4 H5]. split; cbn; auto. discriminate.
Qed.
Lemma stop_any_cont s t : stop_any B s -> stop_any_later B s t -> stop_any B t.
Proof. intros Hs. induction 1; auto; [eapply ta_call|eapply ta_mat|eapply ta_stop|eapply ta_reset]; eauto. Qed.
Lemma stop_any_grow s t : stop_any B s -> stop_any_later B s t -> exists e, r_graph B t = r_graph B s ++ e.
Proof using HL.
  intros Hs. induction 1 as [|t c Ht IH Hc|t a Ht IH Ha|t a t' Ht IH Ha HS|t Ht IH].
  - exists []. now rewrite app_nil_r.
  - destruct IH as (e & He). destruct (api_call_any B t c (stop_any_inv t (stop_any_cont s t Hs Ht)) Hc) as (_ & e2 & He2). exists (e ++ e2). now rewrite He2, He, app_assoc.
  - destruct IH as (e & He). destruct (materialize_any B HL t a (stop_any_inv t (stop_any_cont s t Hs Ht)) Ha) as (_ & -> & _). eauto.
  - destruct IH as (e & He). destruct (stopped_any t a t' (stop_any_inv t (stop_any_cont s t Hs Ht)) Ha HS) as (_ & -> & _). eauto.
  - exact IH.
Qed.
Lemma stop_const_kept s t n nd vals : stop_any B s -> stop_any_later B s t -> nth_error (r_graph B s) n = Some nd -> n_op nd = OConst vals ->
  r_cpu B t n = Some (map (of_num L) vals) /\ nth_error (r_graph B t) n = Some nd.
Proof using HL.
  intros Hs Ht Hn Ho. destruct (stop_any_grow s t Hs Ht) as (e & He).
  assert (Hn' : nth_error (r_graph B t) n = Some nd) by (rewrite He, nth_error_app1; auto; apply nth_error_Some; congruence).
  split; auto. eapply j_const; eauto. apply stop_any_inv. eapply stop_any_cont; eauto.
Qed.
End Any.
