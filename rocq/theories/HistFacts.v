(* Facts about histories. *)
From Verif Require Import Base BaseFacts Util UtilFacts Lang Spec Graph Api ApiFacts Denote SpecFacts DenoteFacts Reach Tolist TolistFacts
  Algo AlgoSem AlgoConv AlgoConv2 AlgoFuse AlgoFuse2 AlgoConvert AlgoConvert2
  Kernel Sched Codegen Backends KernFacts RenderFacts KernelOk RunFacts SchedFacts SchedGpu KernelRun KernelRun2 BackendFacts AlgoTop
  AlgoMore CacheKey Runtime RuntimeFacts RuntimeFacts2 History.

Section H.
Context (B : cpu_backend).
Notation L := (b_lang B).
Context (HB : backend_ok B) (C : desc -> Prop) (HC : key_safe C).
Let HL : lang_ok L := bo_lang _ HB.

(* ------------------------------------------------------------------ materialize of an array = compute of its base *)
Lemma mat_compute s a b bd : wf_graph (r_graph B s) -> base (r_graph B s) a = Some b -> (a < length (r_graph B s))%nat -> nth_error (r_graph B s) b = Some bd ->
  materialize B s a = if is_const (n_op bd) then (s, Done tt) else compute B s b.
Proof.
  intros Hw Hb Ha Hbd. destruct (base_total _ a Hw Ha) as (b' & Hb' & _ & Hv). assert (b' = b) by congruence. subst b'.
  unfold materialize. assert (HF : forall fuel, (a < fuel)%nat -> mat B fuel s a = if is_const (n_op bd) then (s, Done tt) else compute B s b).
  { clear Hb Hb' Ha. induction Hv as [b nd Hn Hnv|a nd p pd b Hn Hvw Hp Hpd _ Hv IH]; intros [|k] Hk; try lia; cbn [mat].
    - rewrite Hn. assert (bd = nd) by congruence. subst. rewrite Hnv. reflexivity.
    - rewrite Hn. destruct (is_const (n_op nd)) eqn:Ec; [destruct (n_op nd); discriminate|]. rewrite Hvw.
      destruct (n_in nd) as [|q r] eqn:Ei; [discriminate|]. cbn in Hp. injection Hp as ->.
      apply IH; auto. pose proof (wf_inputs_lt _ a nd Hw Hn) as HF. rewrite Ei in HF. inversion HF; subst. lia. }
  apply HF. exact Ha.
Qed.

Definition scalar_reshape_in (g : graph) (a : nat) : Prop := exists n nd, cone g a n /\ nth_error g n = Some nd /\ n_op nd = OReshape [].

(* what one materialize can do *)
Lemma materialize_ok s a b bd : inv B C s -> valid (r_graph B s) a -> base (r_graph B s) a = Some b -> nth_error (r_graph B s) b = Some bd ->
  mat_ok L (r_graph B s) b -> (forall d, kernel_of (r_graph B s) a d -> C d) ->
  exists s' oc, materialize B s a = (s', oc) /\ inv B C s' /\ r_graph B s' = r_graph B s /\
    (forall n, ~ cone (r_graph B s) b n -> r_cpu B s' n = r_cpu B s n) /\ (forall n, good B s n -> good B s' n) /\
    (is_const (n_op bd) = true -> s' = s /\ oc = Done tt) /\
    (is_const (n_op bd) = false ->
      match oc with
      | Done _ => good B s' b /\ exists E fs, no_scalar_reshape (r_graph B s) b /\ convert (r_graph B s) b = Done (E, fs) /\ r_runs B s' = (r_runs B s + length fs)%nat /\
                  (forall d, In d fs -> good B s' d) /\ (forall n, ~ In n fs -> r_cpu B s' n = r_cpu B s n) /\
                  forall f fd x, In f fs -> E f = Some fd -> In x (func_args (f_expr fd)) -> ~ refused B (r_graph B s) (arg_id x)
      | Throw e => (e = ValueErr /\ exists E fs n idx, convert (r_graph B s) b = Done (E, fs) /\ In n fs /\ cone (r_graph B s) b n /\ ~ good B s n /\ in_range (shape_of (r_graph B s) n) idx /\ t_at (den L (r_graph B s) n) idx = Raise) \/
                   (e = TypeErr /\ exists E fs f fd x, convert (r_graph B s) b = Done (E, fs) /\ In f fs /\ E f = Some fd /\ In x (func_args (f_expr fd)) /\ 
                       cone (r_graph B s) b (arg_id x) /\ refused B (r_graph B s) (arg_id x)) \/
                   (e = TypeErr /\ s' = s /\ convert (r_graph B s) b = Throw TypeErr)
      end).
Proof using HB HC.
  intros HI Hv Hb Hbd Hm HCd. pose proof (reach_wf _ (i_reach _ _ _ HI)) as Hw.
  rewrite (mat_compute s a b bd Hw Hb Hv Hbd). destruct (is_const (n_op bd)) eqn:Ec.
  { exists s, (Done tt). split; auto. split; auto. split; auto. split; auto. split; auto. split; auto. discriminate. }
  assert (Hlt : (b < length (r_graph B s))%nat) by (apply nth_error_Some; congruence).
  destruct (convert_cases L HL (r_graph B s) Hw b Hlt) as [Hns|HT].
  2:{ unfold compute. rewrite HT. exists s, (Throw TypeErr). split; auto. split; auto. split; auto. split; auto. split; auto. split; [discriminate|]. intros _. auto. }
  destruct (convert_ok L HL (r_graph B s) Hw b bd Hbd Hns) as (E & fs & HCv & HS).
  unfold compute. rewrite HCv.
  assert (Hsch : exists l, mapOut (schedule_one B E) fs = Done l).
  { assert (H1 : forall f, In f fs -> exists y, schedule_one B E f = Done y).
    { intros f Hf. destruct (convert_kctx L _ b E fs f HS Hf) as (fd & nd & Hfd & HK). unfold schedule_one. rewrite Hfd. cbn [throw_none obind].
      destruct (schedule_cpu_ok fd) as (sc & E1 & _ & _ & H). unfold auto_schedule. rewrite E1. cbn [obind]. rewrite cpu_handles; eauto.
      unfold b_id. destruct (b_copies B); discriminate. }
    clear - H1. induction fs as [|f fs IH]; cbn; [eauto|]. destruct (H1 f (or_introl eq_refl)) as (y & ->). cbn.
    destruct IH as (ys & ->); [intros; apply H1; now right|]. cbn. eauto. }
  destruct Hsch as (l & Hsch). rewrite Hsch.
  destruct (run_funcs_ok B HB C HC (r_graph B s) b bd Hbd Ec Hns Hm E fs HCv) with (l2 := fs) (l1 := @nil nat) (s := s) (l := l)
    as (s' & oc & HR & HI' & Hg & Hfr & Hmono & Hoc); auto.
  { intros f fd sc Hf Hfd Hsc. apply HCd. exists b, bd, E, fs, f, fd, sc. auto 10. }
  { intros d []. }
  exists s', oc. split; auto. split; auto. split; auto. split.
  { intros n Hn. apply Hfr. intros Hin. apply Hn. eapply cs_cone; eauto. }
  split; auto. split; [discriminate|]. intros _. destruct oc as [u|e].
  - destruct Hoc as (Q1 & Q2 & Q3). split; [apply Q2; destruct (cs_last _ _ _ _ _ HS) as [l' ->]; apply in_or_app; right; now left|].
    exists E, fs. auto 10.
  - destruct Hoc as [(-> & f & idx & Q1 & Q2 & Q3)|(-> & f & fd & x & Q1 & Q2 & Q3 & Q4 & Q5)].
    + left. split; auto. exists E, fs, f, idx. split; auto. split; auto. split; [eapply cs_cone; eauto|]. split; auto. intros (nd & vs & G1 & G2 & G3 & G4).
      unfold shape_of in Q2. rewrite G1 in Q2. destruct (G4 idx Q2) as (v & G5 & _). congruence.
    + right. left. split; auto. exists E, fs, f, fd, x. auto 10.
Qed.

(* ------------------------------------------------------------------ the invariant holds in every history *)
Lemma inv_init : inv B C (rt0 B).
Proof.
  split; cbn.
  - constructor.
  - intros [|n] nd vals H; discriminate.
  - intros [|n] nd vals H; discriminate.
  - reflexivity.
  - discriminate.
Qed.
Lemma den_grow g g' n : (exists e, g' = g ++ e) -> wf_graph g -> (n < length g)%nat -> den L g' n = den L g n.
Proof. intros [e ->] _ Hn. apply den_app; auto. Qed.

Lemma api_call_ok s c : inv B C s -> call_ok (r_graph B s) c ->
  inv B C (fst (api_call B s c)) /\ (exists e, r_graph B (fst (api_call B s c)) = r_graph B s ++ e) /\
  (forall n, (n < length (r_graph B s))%nat -> r_cpu B (fst (api_call B s c)) n = r_cpu B s n).
Proof.
  intros HI Hc. unfold api_call. destruct (run_call (r_graph B s) c) as [[g' r]|e] eqn:ER; cbn [fst].
  2:{ split; auto. split; [exists []; now rewrite app_nil_r|auto]. }
  destruct (run_call_appends _ _ _ _ ER) as (e & He & _). cbn [r_graph r_cpu].
  split; [|split; [eauto|]].
  2:{ intros n Hn. apply Nat.ltb_lt in Hn. now rewrite Hn. }
  assert (Hold : forall n nd, (n < length (r_graph B s))%nat -> nth_error g' n = Some nd -> nth_error (r_graph B s) n = Some nd).
  { intros n nd Hn H. rewrite He, nth_error_app1 in H by assumption. exact H. }
  split; cbn [r_graph r_cpu r_cache].
  - econstructor; eauto. apply (i_reach _ _ _ HI).
  - intros n nd vals Hn Hop. destruct (Nat.ltb_spec n (length (r_graph B s))) as [Hl|Hl].
    + eapply i_const; eauto.
    + now rewrite Hn, Hop.
  - intros n nd vs Hn Hcst Hvs. destruct (Nat.ltb_spec n (length (r_graph B s))) as [Hl|Hl].
    + eapply i_buf; eauto.
    + rewrite Hn in Hvs. destruct (n_op nd); discriminate.
  - intros n Hn. destruct (Nat.ltb_spec n (length (r_graph B s))) as [Hl|Hl].
    + apply nth_error_None in Hn. rewrite He, app_length in Hn. lia.
    + now rewrite Hn.
  - apply (i_cache _ _ _ HI).
Qed.
Lemma good_call s c n : inv B C s -> call_ok (r_graph B s) c -> good B s n -> good B (fst (api_call B s c)) n.
Proof.
  intros HI Hc (nd & vs & H1 & H2 & H3 & H4). destruct (api_call_ok s c HI Hc) as (HI' & (e & He) & Hcpu).
  assert (Hn : (n < length (r_graph B s))%nat) by (apply nth_error_Some; congruence).
  exists nd, vs. split; [rewrite He; now rewrite nth_error_app1|]. split; auto. split; [now rewrite Hcpu|].
  rewrite (den_grow (r_graph B s)); eauto. apply reach_wf, (i_reach _ _ _ HI).
Qed.
Lemma reset_ok s : inv B C s -> inv B C (reset_cache B s).
Proof. intros [H1 H2 H3 H4 H5]. split; cbn; auto. discriminate. Qed.

Lemma hist_inv s : hist B C s -> inv B C s.
Proof using HB HC.
  induction 1 as [|s c Hs IH Hc|s a Hs IH Ha Hm Hk|s Hs IH].
  - apply inv_init.
  - now apply api_call_ok.
  - destruct (base_total _ a (reach_wf _ (i_reach _ _ _ IH)) Ha) as (b & Hb & Hle & _).
    destruct (nth_error (r_graph B s) b) as [bd|] eqn:Hbd; [|apply nth_error_None in Hbd; unfold valid in Ha; lia].
    destruct (materialize_ok s a b bd IH Ha Hb Hbd (Hm b Hb) Hk) as (s' & oc & -> & HI & _). exact HI.
  - now apply reset_ok.
Qed.
Lemma hist_later s t : hist B C s -> later B C s t -> hist B C t.
Proof. intros Hs. induction 1; auto; econstructor; eauto. Qed.
Lemma later_grow s t : hist B C s -> later B C s t -> (exists e, r_graph B t = r_graph B s ++ e) /\ forall n, good B s n -> good B t n.
Proof using HB HC.
  intros Hs. induction 1 as [|t c Ht IH Hc|t a Ht IH Ha Hm Hk|t Ht IH].
  - split; auto. exists []. now rewrite app_nil_r.
  - destruct IH as [(e & He) IH]. pose proof (hist_inv t (hist_later s t Hs Ht)) as HI.
    destruct (api_call_ok t c HI Hc) as (_ & (e2 & He2) & _). split.
    + exists (e ++ e2). now rewrite He2, He, app_assoc.
    + intros n Hn. apply good_call; auto.
  - destruct IH as [(e & He) IH]. pose proof (hist_inv t (hist_later s t Hs Ht)) as HI.
    destruct (base_total _ a (reach_wf _ (i_reach _ _ _ HI)) Ha) as (b & Hb & Hle & _).
    destruct (nth_error (r_graph B t) b) as [bd|] eqn:Hbd; [|apply nth_error_None in Hbd; unfold valid in Ha; lia].
    destruct (materialize_ok t a b bd HI Ha Hb Hbd (Hm b Hb) Hk) as (s' & oc & -> & _ & Hg & _ & Hmono & _). cbn [fst]. split; [rewrite Hg; eauto|auto].
  - exact IH.
Qed.

(* ------------------------------------------------------------------ what the user reads *)
Lemma good_holds s b : inv B C s -> good B s b -> holds L (r_graph B s) (r_cpu B s) b.
Proof.
  intros HI (nd & vs & H1 & H2 & H3 & H4). exists vs, nd. split; auto. split; auto. split; [eapply i_buf; eauto|].
  intros idx Hi. destruct (H4 idx Hi) as (v & -> & ->). reflexivity.
Qed.
Lemma const_holds s b bd vals : inv B C s -> nth_error (r_graph B s) b = Some bd -> n_op bd = OConst vals ->
  (forall x, In x vals -> coerce L (n_dtype bd) (of_num L x) = of_num L x) -> holds L (r_graph B s) (r_cpu B s) b.
Proof.
  intros HI Hb Hop Hid. pose proof (reach_wf _ (i_reach _ _ _ HI)) as Hw.
  exists (map (of_num L) vals), bd. split; [eapply i_const; eauto|]. split; auto. split.
  - pose proof (Hw _ _ Hb) as HW. unfold wf_node in HW. rewrite Hop in HW. rewrite map_length. tauto.
  - intros idx Hi. destruct (const_filled B (r_graph B s) b bd vals Hw Hb Hop idx Hi) as (v & -> & Hv).
    rewrite map_map, (map_ext_in _ (of_num L)) in Hv by assumption. now rewrite Hv.
Qed.
Lemma read_good s a b : inv B C s -> view_of (r_graph B s) true a b -> good B s b ->
  exists l, tolist (r_graph B s) (r_cpu B s) a = Done l /\ t_tolist (den L (r_graph B s) a) = Ok l.
Proof. intros HI Hv Hg. eapply tolist_view; eauto; [apply reach_wf, (i_reach _ _ _ HI)|now apply good_holds]. Qed.

Lemma list_ext {X} (l m : list X) : (forall j, nth_error l j = nth_error m j) -> l = m.
Proof.
  revert m; induction l as [|x l IH]; intros [|y m] H; auto; try (specialize (H 0%nat); discriminate).
  pose proof (H 0%nat) as H0. injection H0 as ->. f_equal. apply IH. intros j. apply (H (S j)).
Qed.
(* two computed states agree on the buffer *)
Lemma good_eq s t n : inv B C s -> inv B C t -> good B s n -> good B t n -> r_graph B s = r_graph B t -> r_cpu B s n = r_cpu B t n.
Proof.
  intros HI HJ (nd & vs & H1 & H2 & H3 & H4) (nd' & vs' & K1 & K2 & K3 & K4) Hg.
  assert (nd' = nd) by congruence. subst nd'. rewrite H3, K3. f_equal.
  destruct (i_buf _ _ _ HI _ _ _ H1 H2 H3) as [L1 _]. destruct (i_buf _ _ _ HJ _ _ _ K1 K2 K3) as [L2 _].
  pose proof (wf_shape_facts L _ n nd (reach_wf _ (i_reach _ _ _ HI)) H1) as [_ Hnn _ _].
  apply list_ext. intros j. destruct (Nat.lt_ge_cases j (length vs)) as [Hj|Hj].
  - assert (Hr : 0 <= Z.of_nat j < zprod (n_shape nd)) by lia.
    pose proof (unflat_in_range _ _ Hnn Hr) as Hu. pose proof (flat_unflat _ _ Hnn Hr) as Hf.
    destruct (H4 _ Hu) as (v & V1 & V2). destruct (K4 _ Hu) as (w & W1 & W2). rewrite Hf in V2, W2. rewrite <- Hg in W1.
    unfold znth in V2, W2. destruct (Z.of_nat j <? 0) eqn:Ej; [lia|]. rewrite Nat2Z.id in V2, W2. congruence.
  - assert (length vs = length vs') by lia. rewrite (proj2 (nth_error_None vs j)), (proj2 (nth_error_None vs' j)) by lia. reflexivity.
Qed.

(* ------------------------------------------------------------------ the properties *)
Section Top.
Context (s : rt B) (Hs : hist B C s) (a b : nat) (bd : node) (Ha : valid (r_graph B s) a)
  (Hb : base (r_graph B s) a = Some b) (Hbd : nth_error (r_graph B s) b = Some bd)
  (Hm : mat_ok L (r_graph B s) b) (Hk : forall d, kernel_of (r_graph B s) a d -> C d).

Lemma mat_value s' : is_const (n_op bd) = false -> view_of (r_graph B s) true a b -> materialize B s a = (s', Done tt) ->
  r_graph B s' = r_graph B s /\
  (exists l, tolist (r_graph B s) (r_cpu B s') a = Done l /\ t_tolist (den L (r_graph B s) a) = Ok l) /\
  forall t, later B C s' t -> exists l, tolist (r_graph B t) (r_cpu B t) a = Done l /\ t_tolist (den L (r_graph B s) a) = Ok l.
Proof using HB HC Hs Ha Hb Hbd Hm Hk.
  intros Hnc Hv HM. destruct (materialize_ok s a b bd (hist_inv s Hs) Ha Hb Hbd Hm Hk) as (s1 & oc & HR & HI & Hg & _ & _ & _ & Hoc).
  rewrite HM in HR. injection HR as <- <-. destruct (Hoc Hnc) as [Hgood _]. split; auto. split.
  - rewrite <- Hg in Hv |- *. apply (read_good s' a b); auto.
  - intros t Ht. assert (Hs' : hist B C s') by (replace s' with (fst (materialize B s a)) by (now rewrite HM); econstructor; eauto; intros b' Hb'; assert (b' = b) by congruence; now subst).
    destruct (later_grow s' t Hs' Ht) as [(e & He) Hgr]. pose proof (hist_inv t (hist_later s' t Hs' Ht)) as HIt.
    assert (Hva : (a < length (r_graph B s))%nat) by exact Ha.
    assert (Hv' : view_of (r_graph B t) true a b).
    { rewrite He, Hg. clear - Hv. induction Hv as [b nd Hb Hnv|a nd p pd b Hn Hvw Hp Hpd Hal Hv IH].
      - eapply vo_self; eauto. rewrite nth_error_app1; auto. apply nth_error_Some. congruence.
      - eapply vo_step with (pd := pd); eauto; rewrite nth_error_app1; auto; apply nth_error_Some; congruence. }
    destruct (read_good t a b HIt Hv' (Hgr _ Hgood)) as (l & R1 & R2). exists l. split; auto.
    rewrite He, Hg, den_app in R2; auto.
Qed.
Lemma mat_idem s' : materialize B s a = (s', Done tt) ->
  exists s'', materialize B s' a = (s'', Done tt) /\ r_graph B s'' = r_graph B s' /\ forall n, r_cpu B s'' n = r_cpu B s' n.
Proof using HB HC Hs Ha Hb Hbd Hm Hk.
  intros HM. destruct (materialize_ok s a b bd (hist_inv s Hs) Ha Hb Hbd Hm Hk) as (s1 & oc & HR & HI & Hg & _ & _ & Hc & Hoc).
  rewrite HM in HR. injection HR as <- <-. destruct (is_const (n_op bd)) eqn:Ec.
  - destruct (Hc eq_refl) as [-> _]. exists s. rewrite HM. auto.
  - destruct (Hoc eq_refl) as [Hgood (E & fs & Hns & HCv & Hr & Hall & Hfr & Href)].
    destruct (materialize_ok s' a b bd HI) as (s2 & oc & HR2 & HI2 & Hg2 & _ & Hmono2 & _ & Hoc2).
    { now rewrite Hg. } { now rewrite Hg. } { now rewrite Hg. } { now rewrite Hg. } { now rewrite Hg. }
    specialize (Hoc2 Ec). destruct oc as [[]|e].
    + exists s2. split; auto. split; auto. destruct Hoc2 as (_ & E2 & fs2 & _ & HCv2 & _ & Hall2 & Hfr2 & _).
      rewrite Hg, HCv in HCv2. injection HCv2 as <- <-. intros n. destruct (in_dec Nat.eq_dec n fs) as [Hin|Hin]; [|auto].
      apply good_eq; auto.
    + exfalso. rewrite Hg in Hoc2. destruct Hoc2 as [(-> & E2 & fs2 & n & idx & Q0 & Q1 & _ & Q2 & _)|[(-> & E2 & fs2 & f & fd & x & Q1 & Q2 & Q3 & Q4 & Q5 & Q6)|(-> & _ & Q)]]; try congruence.
      * rewrite HCv in Q0. injection Q0 as <- <-. auto.
      * rewrite HCv in Q1. injection Q1 as <- <-. eapply Href; eauto.
Qed.
End Top.
End H.
