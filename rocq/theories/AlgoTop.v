(* Consequences of convert_ok for reachable graphs. *)
From Verif Require Import Base BaseFacts Util UtilFacts Lang Spec Graph Api ApiFacts Denote SpecFacts DenoteFacts Reach
  Algo AlgoSem AlgoConv AlgoConv2 AlgoFuse AlgoFuse2 AlgoConvert AlgoConvert2
  Kernel Sched Codegen Backends KernFacts RenderFacts KernelOk RunFacts SchedFacts SchedGpu KernelRun KernelRun2 LangInst BackendFacts.

Lemma valid_nth g a : valid g a -> exists nd, nth_error g a = Some nd.
Proof. intros H. destruct (nth_error g a) eqn:E; eauto. apply nth_error_None in E. unfold valid in H. lia. Qed.
Lemma convert_inv L g a E fs : lang_ok L -> reach g -> valid g a -> no_scalar_reshape g a -> convert g a = Done (E, fs) -> convert_spec L g a E fs.
Proof.
  intros HL Hr Hv Hns HC. destruct (valid_nth g a Hv) as [nd Hnd].
  destruct (convert_ok L HL g (reach_wf g Hr) a nd Hnd Hns) as (E' & fs' & HC' & HS). rewrite HC in HC'. now injection HC' as <- <-.
Qed.
Lemma any_lang_ok : lang_ok (py_lang no_libm).
Proof. apply py_lang_ok. Qed.

Lemma fusion_transparent : forall (L : lang) g a D E fs f fd idx,
  lang_ok L -> reach g -> valid g a -> no_scalar_reshape g a -> fits L g a -> one_dtype L g a D ->
  convert g a = Done (E, fs) -> In f fs -> E f = Some fd -> in_range (shape_of g f) idx ->
  evalV L (shape_of g) (fun n i => t_at (den L g n) i) D (f_expr fd) (lenv f (shape_of g f) idx) = t_at (den L g f) idx.
Proof.
  intros L g a D E fs f fd idx HL Hr Hv Hns Hfit Hone HC Hf HE Hi.
  pose proof (convert_inv L g a E fs HL Hr Hv Hns HC) as HS.
  destruct (convert_kctx L g a E fs f HS Hf) as (fd' & nd & H1 & HK). assert (Hnd := kc_nd _ _ _ _ _ HK).
  assert (Hsh : shape_of g f = n_shape nd) by (unfold shape_of; now rewrite Hnd). rewrite Hsh in *.
  now apply (cs_value L g a E fs HS D f fd nd idx).
Qed.
Lemma fits_py lm g a : fits (py_lang lm) g a.
Proof. intros n nd _ _. split; [exact I|]. apply Forall_forall. intros x _. exact I. Qed.
Lemma one_dtype_py lm g a D : one_dtype (py_alg lm) g a D.
Proof. intros n nd _ _ _ v. reflexivity. Qed.
Lemma fusion_transparent_python : forall lm g a E fs f fd idx,
  reach g -> valid g a -> no_scalar_reshape g a ->
  convert g a = Done (E, fs) -> In f fs -> E f = Some fd -> in_range (shape_of g f) idx ->
  evalV (py_lang lm) (shape_of g) (fun n i => t_at (den (py_alg lm) g n) i) (f_dtype fd) (f_expr fd) (lenv f (shape_of g f) idx)
    = t_at (den (py_alg lm) g f) idx.
Proof.
  intros. apply (fusion_transparent (py_lang lm) g a (f_dtype fd) E fs f fd idx); auto.
  - apply py_lang_ok. - apply fits_py. - apply one_dtype_py.
Qed.

(* checks over the whole graph, for examples *)
Definition nsrb (g : graph) : bool := forallb (fun nd => match n_op nd with OReshape [] => false | _ => true end) g.
Lemma no_scalar_reshape_all g a : nsrb g = true -> no_scalar_reshape g a.
Proof.
  intros H n nd _ Hn Heq. unfold nsrb in H. rewrite forallb_forall in H. specialize (H nd (nth_error_In _ _ Hn)). rewrite Heq in H. discriminate.
Qed.
Definition ltBb (L : lang) (z : Z) : bool := match ibound L with None => true | Some b => z <? b end.
Definition fitsb (L : lang) (g : graph) : bool := forallb (fun nd => ltBb L (zprod (n_shape nd)) && forallb (ltBb L) (op_steps (n_op nd))) g.
Lemma ltBb_ok L z : ltBb L z = true -> ltB L z.
Proof. unfold ltBb, ltB. destruct (ibound L); auto. apply Z.ltb_lt. Qed.
Lemma fits_all L g a : fitsb L g = true -> fits L g a.
Proof.
  intros H n nd _ Hn. unfold fitsb in H. rewrite forallb_forall in H. specialize (H nd (nth_error_In _ _ Hn)).
  apply andb_prop in H as [H1 H2]. split; [now apply ltBb_ok|]. rewrite forallb_forall in H2. apply Forall_forall. intros x Hx. apply ltBb_ok. auto.
Qed.

Lemma compilation_total : forall b g a, reach g -> valid g a -> no_scalar_reshape g a ->
  exists E fs, convert g a = Done (E, fs) /\
    forall f, In f fs -> exists fd, E f = Some fd /\ forall k, exists s kern k', gen b g E fd k = Done (s, kern, k').
Proof.
  intros b g a Hr Hv Hns. destruct (valid_nth g a Hv) as [nd Hnd].
  destruct (convert_ok _ any_lang_ok g (reach_wf g Hr) a nd Hnd Hns) as (E & fs & HC & HS). exists E, fs. split; auto.
  intros f Hf. destruct (convert_kctx _ g a E fs f HS Hf) as (fd & nd' & H1 & HK). exists fd. split; auto. intros k.
  destruct (gen_ok g (reach_wf g Hr) E f fd nd' HK b k) as (s & kern & k1 & HG & _). eauto.
Qed.

Lemma dependency_order : forall g a E fs, reach g -> valid g a -> no_scalar_reshape g a -> convert g a = Done (E, fs) ->
  NoDup fs /\ (exists l, fs = l ++ [a]) /\ (forall f, In f fs -> cone g a f) /\
  forall l1 f l2, fs = l1 ++ f :: l2 -> exists fd, E f = Some fd /\ f_out fd = f /\
    forall x, In x (func_args (f_expr fd)) ->
      match x with ABuf n => exists nd, nth_error g n = Some nd /\ is_const (n_op nd) = true | AFnc d => In d l1 end.
Proof.
  intros g a E fs Hr Hv Hns HC. pose proof (convert_inv _ g a E fs any_lang_ok Hr Hv Hns HC) as HS.
  split; [apply (cs_nodup _ _ _ _ _ HS)|]. split; [apply (cs_last _ _ _ _ _ HS)|]. split; [apply (cs_cone _ _ _ _ _ HS)|].
  intros l1 f l2 Hfs. assert (Hf : In f fs) by (rewrite Hfs; apply in_elt).
  destruct (convert_kctx _ g a E fs f HS Hf) as (fd & nd & H1 & HK). exists fd. split; auto.
  split; [rewrite (kc_fd g E f fd nd HK); reflexivity|]. intros x Hx. apply (in_args g f fd) in Hx. destruct x as [n|d].
  - apply (wff_bufs _ _ _ _ _ _ (kc_wff g E f fd nd HK)) in Hx. exact Hx.
  - eapply cs_topo; eauto.
Qed.

Lemma kernel_reasons : forall g a E fs, reach g -> valid g a -> no_scalar_reshape g a -> convert g a = Done (E, fs) ->
  NoDup fs /\ In a fs /\
  forall f, In f fs -> f <> a -> cone g a f /\ exists nd, nth_error g f = Some nd /\ is_const (n_op nd) = false /\
     ((exists ax kd, n_op nd = OSum ax kd) \/ used_twice g a f).
Proof.
  intros g a E fs Hr Hv Hns HC. pose proof (convert_inv _ g a E fs any_lang_ok Hr Hv Hns HC) as HS.
  split; [apply (cs_nodup _ _ _ _ _ HS)|]. split; [destruct (cs_last _ _ _ _ _ HS) as [l ->]; apply in_elt|].
  intros f Hf Hne. split; [now apply (cs_cone _ _ _ _ _ HS)|]. destruct (cs_keep _ _ _ _ _ HS f Hf) as [->|H]; [congruence|exact H].
Qed.
Lemma kernel_count : forall g a E fs shared, reach g -> valid g a -> no_scalar_reshape g a -> convert g a = Done (E, fs) ->
  (forall f nd, cone g a f -> f <> a -> nth_error g f = Some nd -> is_const (n_op nd) = false ->
     (exists ax kd, n_op nd = OSum ax kd) \/ used_twice g a f -> In f shared) ->
  (length fs <= 1 + length shared)%nat.
Proof.
  intros g a E fs shared Hr Hv Hns HC H. destruct (kernel_reasons g a E fs Hr Hv Hns HC) as (HN & _ & HR).
  change (1 + length shared)%nat with (length (a :: shared)). apply NoDup_incl_length; auto. intros f Hf.
  destruct (Nat.eq_dec f a) as [->|Hne]; [now left|]. right. destruct (HR f Hf Hne) as (Hc & nd & H1 & H2 & H3). eauto.
Qed.
Lemma one_kernel : forall g a E fs, reach g -> valid g a -> no_scalar_reshape g a -> convert g a = Done (E, fs) ->
  (forall f nd, cone g a f -> f <> a -> nth_error g f = Some nd -> is_const (n_op nd) = false ->
     (forall ax kd, n_op nd <> OSum ax kd) /\ ~ used_twice g a f) ->
  fs = [a].
Proof.
  intros g a E fs Hr Hv Hns HC H. destruct (kernel_reasons g a E fs Hr Hv Hns HC) as (HN & Ha & HR).
  assert (HA : forall f, In f fs -> f = a).
  { intros f Hf. destruct (Nat.eq_dec f a); auto. destruct (HR f Hf n) as (Hc & nd & H1 & H2 & H3).
    destruct (H f nd Hc n H1 H2) as [H4 H5]. destruct H3 as [(ax & kd & H3)|H3]; [now apply H4 in H3|contradiction]. }
  destruct fs as [|x [|y fs]]; [destruct Ha|rewrite (HA x) by (now left); reflexivity|].
  inversion HN as [|? ? Hx _]; subst. exfalso. apply Hx. rewrite (HA x), (HA y) by (cbn; auto). now left.
Qed.
