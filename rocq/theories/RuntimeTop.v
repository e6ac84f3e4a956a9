(* The theorems of PropRuntime.v, in the form in which they are stated there. *)
From Verif Require Import Base BaseFacts Util UtilFacts Lang Spec Graph Api ApiFacts Denote SpecFacts DenoteFacts Reach Tolist TolistFacts
  Algo AlgoSem AlgoConv AlgoConv2 AlgoFuse AlgoFuse2 AlgoConvert AlgoConvert2
  Kernel Sched Codegen Backends KernFacts RenderFacts KernelOk RunFacts SchedFacts SchedGpu KernelRun KernelRun2 BackendFacts AlgoTop
  AlgoMore CacheKey Runtime RuntimeFacts RuntimeFacts2 History HistFacts RtInst LangInst CacheFacts Frame HistFacts2 Safety.

(* the two CPU backends *)
Definition is_cpu_backend (B : cpu_backend) : Prop := (exists lm, B = py_backend lm) \/ (exists lm, B = c_backend lm).
Lemma cpu_ok B : is_cpu_backend B -> backend_ok B.
Proof. intros [[lm ->]|[lm ->]]; [apply py_backend_ok|apply c_backend_ok]. Qed.

Lemma base_node B s a b : wf_graph (r_graph B s) -> valid (r_graph B s) a -> base (r_graph B s) a = Some b -> exists bd, nth_error (r_graph B s) b = Some bd.
Proof.
  intros Hw Ha Hb. destruct (base_total _ a Hw Ha) as (b' & Hb' & Hle & _). assert (b' = b) by congruence. subst.
  destruct (nth_error (r_graph B s) b) eqn:E; eauto. apply nth_error_None in E. unfold valid in Ha. lia.
Qed.
Definition computed (g : graph) (b : nat) : Prop := exists bd, nth_error g b = Some bd /\ is_const (n_op bd) = false.

Lemma value_correct : forall B C s a b s', is_cpu_backend B -> key_safe C -> hist B C s -> valid (r_graph B s) a ->
  view_of (r_graph B s) true a b -> computed (r_graph B s) b -> mat_ok (b_lang B) (r_graph B s) b ->
  (forall d, kernel_of (r_graph B s) a d -> C d) ->
  materialize B s a = (s', Done tt) ->
  exists l, tolist (r_graph B s') (r_cpu B s') a = Done l /\ t_tolist (den (b_lang B) (r_graph B s) a) = Ok l.
Proof.
  intros B C s a b s' HB HC Hs Ha Hv (bd & Hbd & Hc) Hm Hk HM. pose proof (cpu_ok B HB) as HO.
  pose proof (reach_wf _ (i_reach _ _ _ (hist_inv B HO C HC s Hs))) as Hw. pose proof (view_of_base _ _ _ _ Hw Hv) as Hb.
  destruct (mat_value B HO C HC s Hs a b bd Ha Hb Hbd Hm Hk s' Hc Hv HM) as (H1 & H2 & _). now rewrite H1.
Qed.
Lemma value_correct_python : forall lm C s a b s', key_safe C -> hist (py_backend lm) C s -> valid (r_graph _ s) a ->
  view_of (r_graph _ s) true a b -> computed (r_graph _ s) b ->
  (forall d, kernel_of (r_graph _ s) a d -> C d) ->
  materialize (py_backend lm) s a = (s', Done tt) ->
  exists l, tolist (r_graph _ s') (r_cpu _ s') a = Done l /\ t_tolist (den (py_alg lm) (r_graph _ s) a) = Ok l.
Proof. intros lm C s a b s' HC Hs Ha Hv Hc Hk HM. eapply (value_correct (py_backend lm) C s a b); eauto; [left; eauto|apply py_mat_ok]. Qed.
(* right after a cache reset, whatever happened before *)
Lemma value_correct_reset : forall lm s a b s', let B := py_backend lm in any_hist B s -> valid (r_graph B s) a ->
  view_of (r_graph B s) true a b -> computed (r_graph B s) b -> key_safe (kernel_of (r_graph B s) a) ->
  materialize B (reset_cache B s) a = (s', Done tt) ->
  exists l, tolist (r_graph B s') (r_cpu B s') a = Done l /\ t_tolist (den (py_alg lm) (r_graph B s) a) = Ok l.
Proof.
  intros lm s a b s' B Hs Ha Hv (bd & Hbd & Hc) HC HM. pose proof (py_any_inv lm (kernel_of (r_graph B s) a) s Hs) as HI.
  pose proof (reach_wf _ (i_reach _ _ _ HI)) as Hw. pose proof (view_of_base _ _ _ _ Hw Hv) as Hb.
  destruct (materialize_ok B (py_backend_ok lm) _ HC (reset_cache B s) a b bd HI Ha Hb Hbd (py_mat_ok lm _ b)) as (s1 & oc & HR & HI1 & Hg & _ & _ & _ & Hoc); auto.
  rewrite HM in HR. injection HR as <- <-. destruct (Hoc Hc) as [Hgood _].
  assert (Hg' : r_graph B s' = r_graph B s) by exact Hg.
  destruct (read_good B _ s' a b HI1) as (l & R1 & R2); [rewrite Hg'; exact Hv|exact Hgood|]. exists l. split; auto. now rewrite <- Hg'.
Qed.

(* success *)
Lemma materialize_succeeds : forall B C s a b, is_cpu_backend B -> key_safe C -> hist B C s -> valid (r_graph B s) a -> base (r_graph B s) a = Some b ->
  mat_ok (b_lang B) (r_graph B s) b -> (forall d, kernel_of (r_graph B s) a d -> C d) ->
  no_scalar_reshape (r_graph B s) b -> (forall n, cone (r_graph B s) b n -> ~ refused B (r_graph B s) n) ->
  (forall n idx, cone (r_graph B s) b n -> in_range (shape_of (r_graph B s) n) idx -> t_at (den (b_lang B) (r_graph B s) n) idx <> Raise) ->
  exists s', materialize B s a = (s', Done tt).
Proof.
  intros B C s a b HB HC Hs Ha Hb Hm Hk. pose proof (cpu_ok B HB) as HO. pose proof (hist_inv B HO C HC s Hs) as HI.
  destruct (base_node B s a b (reach_wf _ (i_reach _ _ _ HI)) Ha Hb) as (bd & Hbd). eapply mat_succeeds; eauto.
Qed.
(* failure: only for the reasons listed *)
Lemma materialize_failures : forall B C s a b s' e, is_cpu_backend B -> key_safe C -> hist B C s -> valid (r_graph B s) a -> base (r_graph B s) a = Some b ->
  mat_ok (b_lang B) (r_graph B s) b -> (forall d, kernel_of (r_graph B s) a d -> C d) ->
  materialize B s a = (s', Throw e) ->
  (e = ValueErr /\ exists n idx, cone (r_graph B s) b n /\ in_range (shape_of (r_graph B s) n) idx /\ t_at (den (b_lang B) (r_graph B s) n) idx = Raise) \/
  (e = TypeErr /\ exists n, cone (r_graph B s) b n /\ refused B (r_graph B s) n) \/
  (e = TypeErr /\ s' = s /\ ~ no_scalar_reshape (r_graph B s) b).
Proof.
  intros B C s a b s' e HB HC Hs Ha Hb Hm Hk HM. pose proof (cpu_ok B HB) as HO. pose proof (hist_inv B HO C HC s Hs) as HI. pose proof (reach_wf _ (i_reach _ _ _ HI)) as Hw.
  destruct (base_node B s a b Hw Ha Hb) as (bd & Hbd).
  destruct (materialize_ok B HO C HC s a b bd HI Ha Hb Hbd Hm Hk) as (s1 & oc & HR & _ & _ & _ & _ & Hc & Hoc). rewrite HM in HR. injection HR as <- <-.
  destruct (is_const (n_op bd)) eqn:Ec; [destruct (Hc eq_refl); discriminate|].
  destruct (Hoc eq_refl) as [(-> & E & fs & n & idx & _ & _ & Q1 & _ & Q2 & Q3)|[(-> & E & fs & f & fd & x & _ & _ & _ & _ & Q1 & Q2)|(-> & -> & Q)]].
  - left. split; auto. exists n, idx. auto.
  - right. left. split; auto. exists (arg_id x). auto.
  - right. right. split; auto. split; auto. intros Hns.
    destruct (convert_ok _ (bo_lang _ HO) (r_graph B s) Hw b bd Hbd Hns) as (E & fs & HCv & _). congruence.
Qed.

(* C12 *)
Lemma history_free : forall B C1 C2 s1 s2 g e1 e2 a b s1' s2' t1 t2, is_cpu_backend B -> key_safe C1 -> key_safe C2 ->
  hist B C1 s1 -> hist B C2 s2 -> r_graph B s1 = g ++ e1 -> r_graph B s2 = g ++ e2 -> valid g a -> reach g ->
  view_of g true a b -> computed g b -> mat_ok (b_lang B) (r_graph B s1) b -> mat_ok (b_lang B) (r_graph B s2) b ->
  (forall d, kernel_of (r_graph B s1) a d -> C1 d) -> (forall d, kernel_of (r_graph B s2) a d -> C2 d) ->
  materialize B s1 a = (s1', Done tt) -> materialize B s2 a = (s2', Done tt) -> later B C1 s1' t1 -> later B C2 s2' t2 ->
  exists l, tolist (r_graph B t1) (r_cpu B t1) a = Done l /\ tolist (r_graph B t2) (r_cpu B t2) a = Done l.
Proof.
  intros B C1 C2 s1 s2 g e1 e2 a b s1' s2' t1 t2 HB HC1 HC2 Hs1 Hs2 G1 G2 Ha Hrg Hv (bd & Hbd & Hc) Hm1 Hm2 Hk1 Hk2 M1 M2 L1 L2.
  pose proof (cpu_ok B HB) as HO.
  assert (HV : forall e, view_of (g ++ e) true a b).
  { intros e. clear - Hv. induction Hv as [b nd Hb Hnv|a nd p pd b Hn Hvw Hp Hpd Hal Hv IH].
    - eapply vo_self; eauto. rewrite nth_error_app1; auto. apply nth_error_Some. congruence.
    - eapply vo_step with (pd := pd); eauto; rewrite nth_error_app1; auto; apply nth_error_Some; congruence. }
  assert (HA : forall e, valid (g ++ e) a) by (intros e; unfold valid in *; rewrite app_length; lia).
  assert (HD : forall e, nth_error (g ++ e) b = Some bd) by (intros e; rewrite nth_error_app1; auto; apply nth_error_Some; congruence).
  assert (W1 : wf_graph (r_graph B s1)) by (apply reach_wf, (i_reach _ _ _ (hist_inv B HO C1 HC1 s1 Hs1))).
  assert (W2 : wf_graph (r_graph B s2)) by (apply reach_wf, (i_reach _ _ _ (hist_inv B HO C2 HC2 s2 Hs2))).
  assert (Va1 : valid (r_graph B s1) a) by (rewrite G1; apply HA). assert (Va2 : valid (r_graph B s2) a) by (rewrite G2; apply HA).
  assert (Vw1 : view_of (r_graph B s1) true a b) by (rewrite G1; apply HV). assert (Vw2 : view_of (r_graph B s2) true a b) by (rewrite G2; apply HV).
  assert (D1 : nth_error (r_graph B s1) b = Some bd) by (rewrite G1; apply HD). assert (D2 : nth_error (r_graph B s2) b = Some bd) by (rewrite G2; apply HD).
  destruct (mat_value B HO C1 HC1 s1 Hs1 a b bd Va1 (view_of_base _ _ _ _ W1 Vw1) D1 Hm1 Hk1 s1' Hc Vw1 M1) as (_ & _ & P1).
  destruct (mat_value B HO C2 HC2 s2 Hs2 a b bd Va2 (view_of_base _ _ _ _ W2 Vw2) D2 Hm2 Hk2 s2' Hc Vw2 M2) as (_ & _ & P2).
  destruct (P1 t1 L1) as (l1 & Q1 & Q2). destruct (P2 t2 L2) as (l2 & Q3 & Q4). rewrite G1, den_app in Q2 by exact Ha. rewrite G2, den_app in Q4 by exact Ha.
  assert (l1 = l2) by congruence. subst. eauto.
Qed.
Lemma same_outcome : forall B C1 C2 s1 s2 a b s1', is_cpu_backend B -> key_safe C1 -> key_safe C2 ->
  hist B C1 s1 -> hist B C2 s2 -> r_graph B s2 = r_graph B s1 -> valid (r_graph B s1) a -> base (r_graph B s1) a = Some b ->
  mat_ok (b_lang B) (r_graph B s1) b ->
  (forall d, kernel_of (r_graph B s1) a d -> C1 d) -> (forall d, kernel_of (r_graph B s1) a d -> C2 d) ->
  materialize B s1 a = (s1', Done tt) -> exists s2', materialize B s2 a = (s2', Done tt).
Proof.
  intros B C1 C2 s1 s2 a b s1' HB HC1 HC2 Hs1 Hs2 HG Ha Hb Hm Hk1 Hk2 M1. pose proof (cpu_ok B HB) as HO.
  pose proof (hist_inv B HO C1 HC1 s1 Hs1) as I1. pose proof (hist_inv B HO C2 HC2 s2 Hs2) as I2.
  destruct (base_node B s1 a b (reach_wf _ (i_reach _ _ _ I1)) Ha Hb) as (bd & Hbd).
  exact (mat_same_outcome B HO C1 HC1 C2 s1 s2 a b bd HC2 I1 I2 HG Ha Hb Hbd Hm Hk1 Hk2 s1' M1).
Qed.

(* C13 *)
Lemma user_data_kept : forall B s t n nd vals, is_cpu_backend B -> any_hist B s -> any_later B s t ->
  nth_error (r_graph B s) n = Some nd -> n_op nd = OConst vals ->
  r_cpu B s n = Some (map (of_num (b_lang B)) vals) /\ r_cpu B t n = Some (map (of_num (b_lang B)) vals) /\ nth_error (r_graph B t) n = Some nd.
Proof. intros B s t n nd vals HB. apply const_kept. exact (bo_lang _ (cpu_ok B HB)). Qed.
Lemma others_kept : forall B s a, is_cpu_backend B -> any_hist B s -> valid (r_graph B s) a ->
  r_graph B (fst (materialize B s a)) = r_graph B s /\
  forall n, ~ cone (r_graph B s) a n -> r_cpu B (fst (materialize B s a)) n = r_cpu B s n.
Proof. intros B s a HB Hs Ha. pose proof (bo_lang _ (cpu_ok B HB)) as HL. apply materialize_any; auto. now apply any_hist_inv. Qed.
(* C14 *)
Lemma idempotent : forall B C s a b s', is_cpu_backend B -> key_safe C -> hist B C s -> valid (r_graph B s) a -> base (r_graph B s) a = Some b ->
  mat_ok (b_lang B) (r_graph B s) b -> (forall d, kernel_of (r_graph B s) a d -> C d) ->
  materialize B s a = (s', Done tt) ->
  exists s'', materialize B s' a = (s'', Done tt) /\ r_graph B s'' = r_graph B s' /\ forall n, r_cpu B s'' n = r_cpu B s' n.
Proof.
  intros B C s a b s' HB HC Hs Ha Hb Hm Hk HM. pose proof (cpu_ok B HB) as HO.
  destruct (base_node B s a b (reach_wf _ (i_reach _ _ _ (hist_inv B HO C HC s Hs))) Ha Hb) as (bd & Hbd).
  exact (mat_idem B HO C HC s Hs a b bd Ha Hb Hbd Hm Hk s' HM).
Qed.
(* C34 *)
Lemma const_views : forall B s a b bd, is_cpu_backend B -> any_hist B s -> valid (r_graph B s) a -> base (r_graph B s) a = Some b ->
  nth_error (r_graph B s) b = Some bd -> is_const (n_op bd) = true -> materialize B s a = (s, Done tt).
Proof.
  intros B s a b bd HB Hs Ha Hb Hbd Hc. pose proof (any_hist_inv B (bo_lang _ (cpu_ok B HB)) s Hs) as HI.
  rewrite (mat_compute B s a b bd (reach_wf _ (j_reach _ _ HI)) Hb Ha Hbd). now rewrite Hc.
Qed.
Lemma const_views_read : forall lm s a b bd, let B := py_backend lm in any_hist B s -> view_of (r_graph B s) true a b ->
  nth_error (r_graph B s) b = Some bd -> is_const (n_op bd) = true ->
  exists l, tolist (r_graph B s) (r_cpu B s) a = Done l /\ t_tolist (den (py_alg lm) (r_graph B s) a) = Ok l.
Proof.
  intros lm s a b bd B Hs Hv Hbd Hc. pose proof (py_any_inv lm (fun _ => False) s Hs) as HI.
  destruct (n_op bd) eqn:Eo; try discriminate. assert (HH : holds (py_lang lm) (r_graph B s) (r_cpu B s) b).
  { exact (const_holds B (fun _ => False) (reset_cache B s) b bd vals HI Hbd Eo (fun _ _ => eq_refl)). }
  eapply (tolist_view (py_lang lm)); eauto. exact (reach_wf _ (i_reach _ _ _ HI)).
Qed.
(* C36 *)
Lemma read_computed_only : forall B C s a b bd l, is_cpu_backend B -> key_safe C -> ok_hist B C s ->
  view_of (r_graph B s) true a b -> nth_error (r_graph B s) b = Some bd -> is_const (n_op bd) = false ->
  tolist (r_graph B s) (r_cpu B s) a = Done l -> t_tolist (den (b_lang B) (r_graph B s) a) = Ok l.
Proof. intros B C s a b bd l HB HC. apply read_safe; auto. now apply cpu_ok. Qed.
Lemma read_never_run : forall B s a b, wf_graph (r_graph B s) -> base (r_graph B s) a = Some b -> valid (r_graph B s) a -> r_cpu B s b = None ->
  tolist (r_graph B s) (r_cpu B s) a = Throw AttrErr.
Proof. intros B s a b Hw Hb Ha Hn. eapply (tolist_absent (b_lang B)); eauto. Qed.
