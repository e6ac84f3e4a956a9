(* More about histories: when materialize succeeds, failed kernels, cache resets. *)
From Verif Require Import Base BaseFacts Util UtilFacts Lang Spec Graph Api ApiFacts Denote SpecFacts DenoteFacts Reach Tolist TolistFacts
  Algo AlgoSem AlgoConv AlgoConv2 AlgoFuse AlgoFuse2 AlgoConvert AlgoConvert2
  Kernel Sched Codegen Backends KernFacts RenderFacts KernelOk RunFacts SchedFacts SchedGpu KernelRun KernelRun2 BackendFacts AlgoTop
  AlgoMore CacheKey Runtime RuntimeFacts RuntimeFacts2 History HistFacts RtInst LangInst CacheFacts Frame.

Section H.
Context (B : cpu_backend).
Notation L := (b_lang B).
Context (HB : backend_ok B) (C : desc -> Prop) (HC : key_safe C).
Let HL : lang_ok L := bo_lang _ HB.

(* success depends only on the array's expression *)
Lemma mat_succeeds s a b bd : inv B C s -> valid (r_graph B s) a -> base (r_graph B s) a = Some b -> nth_error (r_graph B s) b = Some bd ->
  mat_ok L (r_graph B s) b -> (forall d, kernel_of (r_graph B s) a d -> C d) ->
  no_scalar_reshape (r_graph B s) b -> (forall n, cone (r_graph B s) b n -> ~ refused B (r_graph B s) n) ->
  (forall n idx, cone (r_graph B s) b n -> in_range (shape_of (r_graph B s) n) idx -> t_at (den L (r_graph B s) n) idx <> Raise) ->
  exists s', materialize B s a = (s', Done tt).
Proof using HB HC.
  intros HI Ha Hb Hbd Hm Hk Hns Hrf Hra. destruct (materialize_ok B HB C HC s a b bd HI Ha Hb Hbd Hm Hk) as (s' & oc & HR & _ & _ & _ & _ & Hc & Hoc).
  destruct (is_const (n_op bd)) eqn:Ec; [destruct (Hc eq_refl) as [-> ->]; eauto|]. specialize (Hoc eq_refl).
  destruct oc as [[]|e]; [eauto|]. exfalso. destruct Hoc as [(_ & E & fs & n & idx & _ & _ & Q1 & _ & Q2 & Q3)|[(_ & E & fs & f & fd & x & _ & _ & _ & _ & Q1 & Q2)|(_ & _ & Q)]].
  - eapply Hra; eauto. - eapply Hrf; eauto.
  - destruct (convert_ok L HL (r_graph B s) (reach_wf _ (i_reach _ _ _ HI)) b bd Hbd Hns) as (E & fs & HCv & _). congruence.
Qed.

(* the same graph in two states: materialize succeeds in both or in neither *)
Lemma mat_same_outcome C2 s t a b bd : key_safe C2 -> inv B C s -> inv B C2 t -> r_graph B t = r_graph B s -> valid (r_graph B s) a -> base (r_graph B s) a = Some b -> nth_error (r_graph B s) b = Some bd ->
  mat_ok L (r_graph B s) b -> (forall d, kernel_of (r_graph B s) a d -> C d) -> (forall d, kernel_of (r_graph B s) a d -> C2 d) ->
  forall s', materialize B s a = (s', Done tt) -> exists t', materialize B t a = (t', Done tt).
Proof using HB HC.
  intros HC2 HI HJ Hg Ha Hb Hbd Hm Hk Hk2 s' HM.
  destruct (materialize_ok B HB C HC s a b bd HI Ha Hb Hbd Hm Hk) as (s1 & oc & HR & _ & Hg1 & _ & _ & _ & Hoc). rewrite HM in HR. injection HR as <- <-.
  destruct (materialize_ok B HB C2 HC2 t a b bd HJ) as (t' & oc & HR2 & _ & Hg2 & _ & _ & Hc2 & Hoc2); try (now rewrite Hg).
  destruct (is_const (n_op bd)) eqn:Ec; [destruct (Hc2 eq_refl) as [-> ->]; eauto|]. destruct (Hoc eq_refl) as (_ & E & fs & Hns & HCv & _ & Hall & _ & Href). specialize (Hoc2 eq_refl).
  destruct oc as [[]|e]; [eauto|]. exfalso. rewrite Hg in Hoc2. destruct Hoc2 as [(_ & E2 & fs2 & n & idx & Q0 & Q1 & Q4 & _ & Q2 & Q3)|[(_ & E2 & fs2 & f & fd & x & Q1 & Q2 & Q3 & Q4 & Q5 & Q6)|(_ & _ & Q)]]; try congruence.
  - rewrite HCv in Q0. injection Q0 as <- <-. destruct (Hall n Q1) as (nd & vs & N1 & _ & _ & N2). rewrite Hg1 in N1, N2.
    unfold shape_of in Q2. rewrite N1 in Q2. destruct (N2 idx Q2) as (v & N3 & _). congruence.
  - rewrite HCv in Q1. injection Q1 as <- <-. eapply Href; eauto.
Qed.

(* ------------------------------------------------------------------ histories without failing kernels *)
Inductive ok_hist : rt B -> Prop :=
| o_init : ok_hist (rt0 B)
| o_call s c : ok_hist s -> call_ok (r_graph B s) c -> ok_hist (fst (api_call B s c))
| o_mat s a s' : ok_hist s -> valid (r_graph B s) a ->
    (forall b, base (r_graph B s) a = Some b -> mat_ok (b_lang B) (r_graph B s) b) ->
    (forall d, kernel_of (r_graph B s) a d -> C d) ->
    materialize B s a = (s', Done tt) -> ok_hist s'
| o_reset s : ok_hist s -> ok_hist (reset_cache B s).
Lemma ok_hist_hist s : ok_hist s -> hist B C s.
Proof.
  induction 1 as [|s c Hs IH Hc|s a s' Hs IH Ha Hm Hk HM|s Hs IH].
  - apply h_init. - now apply h_call.
  - replace s' with (fst (materialize B s a)) by (now rewrite HM). now apply h_mat.
  - now apply h_reset.
Qed.
Lemma ok_hist_good s n nd vs : ok_hist s -> nth_error (r_graph B s) n = Some nd -> is_const (n_op nd) = false -> r_cpu B s n = Some vs -> good B s n.
Proof using HB HC.
  intros Hs. revert n nd vs. induction Hs as [|s c Hs IH Hc|s a s' Hs IH Ha Hm Hk HM|s Hs IH]; intros n nd vs Hn Hc' Hv.
  - destruct n; discriminate.
  - pose proof (hist_inv B HB C HC s (ok_hist_hist s Hs)) as HI.
    destruct (api_call_ok B C s c HI Hc) as (HI' & (e & He) & Hcpu).
    destruct (Nat.lt_ge_cases n (length (r_graph B s))) as [Hl|Hl].
    + apply (good_call B C s c n HI Hc). rewrite He, nth_error_app1 in Hn by assumption. rewrite Hcpu in Hv by assumption. eapply IH; eauto.
    + exfalso. clear Hcpu. unfold api_call in Hn, Hv. destruct (run_call (r_graph B s) c) as [[g' r]|er] eqn:ER; cbn [fst r_graph r_cpu] in *.
      * apply Nat.ltb_ge in Hl. rewrite Hl, Hn in Hv. destruct (n_op nd); discriminate.
      * apply nth_error_None in Hl. congruence.
  - pose proof (hist_inv B HB C HC s (ok_hist_hist s Hs)) as HI.
    destruct (base_total _ a (reach_wf _ (i_reach _ _ _ HI)) Ha) as (b & Hb & Hle & _).
    destruct (nth_error (r_graph B s) b) as [bd|] eqn:Hbd; [|apply nth_error_None in Hbd; unfold valid in Ha; lia].
    destruct (materialize_ok B HB C HC s a b bd HI Ha Hb Hbd (Hm b Hb) Hk) as (s1 & oc & HR & _ & Hg & _ & Hmono & Hc1 & Hoc). rewrite HM in HR. injection HR as <- <-.
    rewrite Hg in Hn. destruct (is_const (n_op bd)) eqn:Ec; [destruct (Hc1 eq_refl) as [-> _]; eapply IH; eauto|].
    destruct (Hoc eq_refl) as (_ & E & fs & _ & _ & _ & Hall & Hfr & _). destruct (in_dec Nat.eq_dec n fs) as [Hin|Hin]; [auto|].
    apply Hmono. rewrite Hfr in Hv by assumption. eapply IH; eauto.
  - destruct (IH n nd vs Hn Hc' Hv) as (nd' & vs' & G). exists nd', vs'. exact G.
Qed.
(* reading any array either raises or gives its elements *)
Lemma read_safe s a b bd l : ok_hist s -> view_of (r_graph B s) true a b -> nth_error (r_graph B s) b = Some bd -> is_const (n_op bd) = false ->
  tolist (r_graph B s) (r_cpu B s) a = Done l -> t_tolist (den L (r_graph B s) a) = Ok l.
Proof using HB HC.
  intros Hs Hv Hbd Hc HT. pose proof (hist_inv B HB C HC s (ok_hist_hist s Hs)) as HI. pose proof (reach_wf _ (i_reach _ _ _ HI)) as Hw.
  destruct (r_cpu B s b) as [vs|] eqn:Em.
  - pose proof (ok_hist_good s b bd vs Hs Hbd Hc Em) as Hg. destruct (read_good B C s a b HI Hv Hg) as (l' & H1 & H2). rewrite HT in H1. injection H1 as <-. exact H2.
  - exfalso. pose proof (view_of_base _ _ _ _ Hw Hv) as Hb. unfold tolist in HT. rewrite Hb, Em in HT.
    destruct (nth_error (r_graph B s) a); discriminate.
Qed.
End H.

(* ------------------------------------------------------------------ Python: any state, after a cache reset *)
Lemma py_any_inv lm C s : any_hist (py_backend lm) s -> inv (py_backend lm) C (reset_cache (py_backend lm) s).
Proof.
  intros Hs. destruct (any_hist_inv (py_backend lm) (py_lang_ok lm) s Hs) as [H1 H2 H3 H4 H5]. split; cbn; auto; [|discriminate].
  intros n nd vs Hn _ Hv. split; [eapply H3; eauto|]. clear. induction vs; auto.
Qed.
