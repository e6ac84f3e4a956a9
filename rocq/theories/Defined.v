(* What tolist() can show after any history, failed materialize() calls included (C36): a kernel only
   depends on arrays in the expression of the array it computes, so uncomputed values can only be
   shown by an array one of whose own elements cannot be computed. *)
From Verif Require Import Base BaseFacts Util UtilFacts Lang Spec Graph Api ApiFacts Denote SpecFacts DenoteFacts Reach Tolist TolistFacts
  Algo AlgoSem AlgoConv AlgoConv2 AlgoFuse AlgoFuse2 AlgoConvert AlgoConvert2
  Kernel Sched Codegen Backends KernFacts RenderFacts KernelOk RunFacts SchedFacts SchedGpu KernelRun KernelRun2 BackendFacts AlgoTop
  AlgoMore CacheKey Runtime RuntimeFacts RuntimeFacts2 History HistFacts HistFacts2 RtInst LangInst CacheFacts Frame.

(* ------------------------------------------------------------------ arguments of a kernel belong to its own expression *)
Section Own.
Context (g : graph).
(* everything mentioned is in the expression of r *)
Fixpoint okC (r : nat) (e : expr) : Prop :=
  let many := fix many (l : list expr) : Prop := match l with [] => True | x :: q => okC r x /\ many q end in
  match e with
  | EIdx _ | EConst _ => True
  | EBin _ x y => okC r x /\ okC r y
  | EUn _ x => okC r x
  | EWhere c t f => okC r c /\ okC r t /\ okC r f
  | ESum x _ => okC r x
  | EFunc n idx => cone g r n /\ many idx
  | EBuf n idx => cone g r n /\ many idx
  end.
Definition okCs r := fix many (l : list expr) : Prop := match l with [] => True | x :: q => okC r x /\ many q end.
Lemma okCs_Forall r l : okCs r l <-> Forall (okC r) l.
Proof. induction l; cbn; split; intros H; auto; [constructor; tauto|]. inversion H; subst; tauto. Qed.
Definition envC (E : fenv) : Prop := forall f fd, E f = Some fd -> okC f (f_expr fd).

Lemma okC_bufs r e n : okC r e -> In n (buf_refs e) -> cone g r n.
Proof.
  induction e using expr_ind'; cbn; try tauto; intros Ho Hi.
  - apply in_app_iff in Hi. intuition.
  - rewrite !in_app_iff in Hi. intuition.
  - destruct Hi as [<-|[]]. tauto.
Qed.
Lemma okC_funcs r e n : okC r e -> In n (func_refs e) -> cone g r n.
Proof.
  induction e using expr_ind'; cbn; try tauto; intros Ho Hi.
  - apply in_app_iff in Hi. intuition.
  - rewrite !in_app_iff in Hi. intuition.
  - destruct Hi as [<-|[]]. tauto.
Qed.
Lemma okC_mono r f e : cone g r f -> okC f e -> okC r e.
Proof.
  intros Hc. induction e using expr_ind'; cbn; try tauto; intros Ho.
  - destruct Ho as [H1 H2]. split; [eapply cone_trans; eauto|]. apply okCs_Forall. apply okCs_Forall in H2. rewrite Forall_forall in *. auto.
  - destruct Ho as [H1 H2]. split; [eapply cone_trans; eauto|]. apply okCs_Forall. apply okCs_Forall in H2. rewrite Forall_forall in *. auto.
Qed.
Lemma ix_okC r Q e : is_ix Q e -> okC r e.
Proof. induction e using expr_ind'; cbn; try tauto. Qed.
Lemma wfe_okC r shp ic lim Q e : wfe shp ic lim Q e -> (forall n, In n (buf_refs e) -> cone g r n) -> (forall n, In n (func_refs e) -> cone g r n) -> okC r e.
Proof.
  induction e using expr_ind'; cbn [wfe okC buf_refs func_refs]; try tauto; intros HW Hb Hf.
  - split; [apply IHe1|apply IHe2]; try tauto; intros; first [apply Hb; apply in_or_app; auto; fail|apply Hf; apply in_or_app; auto; fail].
  - split; [|split]; [eapply ix_okC; apply HW|apply IHe2|apply IHe3]; try tauto; intros; first [apply Hb; rewrite !in_app_iff; auto; fail|apply Hf; rewrite !in_app_iff; auto].
  - split; [apply Hf; now left|]. apply okCs_Forall. eapply (@Forall_impl _ (is_ix Q)); [|apply HW]. intros x Hx. eapply ix_okC; eauto.
  - split; [apply Hb; now left|]. apply okCs_Forall. eapply (@Forall_impl _ (is_ix Q)); [|apply HW]. intros x Hx. eapply ix_okC; eauto.
Qed.
Lemma wff_okC r shp ic lim loops e : wff shp ic lim loops e -> (forall n, In n (buf_refs e) -> cone g r n) -> (forall n, In n (func_refs e) -> cone g r n) -> okC r e.
Proof.
  intros HW Hb Hf. destruct e; try (apply (wfe_okC _ _ _ _ _ _ HW Hb Hf)). destruct HW as [HW _]. cbn. apply (wfe_okC _ _ _ _ _ _ HW Hb Hf).
Qed.
Lemma ilookup_okC r q l e : Forall (okC r) (map snd q) -> ilookup q l = Some e -> okC r e.
Proof.
  induction q as [|[k x] q IH]; cbn; [discriminate|]. intros HF. inversion HF; subst. destruct (lidx_eqb k l); [|auto]. intros H. now injection H as <-.
Qed.
Lemma replace_okC r q e : Forall (okC r) (map snd q) -> forall e', okC r e -> replace_index q e = Done e' -> okC r e'.
Proof.
  intros HR. induction e using expr_ind'; intros e' Ho He; cbn [replace_index okC] in *.
  - destruct (ilookup q l) eqn:El; [|discriminate]. injection He as <-. eapply ilookup_okC; eauto.
  - now injection He as <-.
  - bd He. bd He. injection He as <-. cbn. split; [apply IHe1|apply IHe2]; tauto.
  - bd He. injection He as <-. cbn. auto.
  - bd He. bd He. bd He. injection He as <-. cbn. split; [|split]; [apply IHe1|apply IHe2|apply IHe3]; tauto.
  - bd He. injection He as <-. cbn. auto.
  - bd He. injection He as <-. cbn. destruct Ho as [Hn Ho]. split; auto. apply okCs_Forall. apply okCs_Forall in Ho. revert v D. induction H as [|x l Hx _ IH]; intros v D.
    + injection D as <-. constructor.
    + inversion Ho; subst. bd D. bd D. injection D as <-. constructor; eauto.
  - bd He. injection He as <-. cbn. destruct Ho as [Hn Ho]. split; auto. apply okCs_Forall. apply okCs_Forall in Ho. revert v D. induction H as [|x l Hx _ IH]; intros v D.
    + injection D as <-. constructor.
    + inversion Ho; subst. bd D. bd D. injection D as <-. constructor; eauto.
Qed.
Lemma combine_snd_okC {A} r (ls : list A) es : Forall (okC r) es -> Forall (okC r) (map snd (combine ls es)).
Proof. intros H. revert ls. induction H as [|x l Hx _ IH]; intros [|k ls]; cbn; auto. Qed.
Lemma fset_envC E f fd : envC E -> okC f (f_expr fd) -> envC (fset E f fd).
Proof. intros HE Ho k kd. unfold fset. destruct (Nat.eqb_spec k f) as [->|]; [intros H; now injection H as <-|apply HE]. Qed.

Lemma try_fuse_okC fuel rc : forall e E e' E' r, try_fuse fuel rc e E = Done (e', E') -> okC r e -> envC E -> okC r e' /\ envC E'.
Proof.
  induction fuel as [|k IHk].
  all: induction e using expr_ind'; intros E e' E' r HT Ho HE; cbn [try_fuse] in HT.
  all: try (injection HT as <- <-; auto; fail); try discriminate.
  all: try (bd HT; destruct v as [x' E1]; cbn in Ho;
     first [ bd HT; destruct v as [y' E2]; first [bd HT; destruct v as [z' E3]; injection HT as <- <-;
               destruct (IHe1 _ _ _ r D ltac:(tauto) HE) as [? ?]; destruct (IHe2 _ _ _ r D0 ltac:(tauto) ltac:(tauto)) as [? ?];
               destruct (IHe3 _ _ _ r D1 ltac:(tauto) ltac:(tauto)) as [? ?]; cbn; tauto
             | injection HT as <- <-; destruct (IHe1 _ _ _ r D ltac:(tauto) HE) as [? ?]; destruct (IHe2 _ _ _ r D0 ltac:(tauto) ltac:(tauto)) as [? ?]; cbn; tauto]
           | injection HT as <- <-; destruct (IHe _ _ _ r D ltac:(tauto) HE) as [? ?]; cbn; tauto]; fail).
  bd HT. destruct (E f) as [fd|] eqn:Ef; [|discriminate]. injection D as <-.
  destruct (Nat.eqb (rc f) 0); [discriminate|].
  destruct (negb (fusable rc f (f_expr fd))).
  - bd HT. destruct v as [e1 E1]. injection HT as <- <-. destruct (IHk _ _ _ _ f D (HE _ _ Ef) HE) as [H1 H2]. split; auto. apply fset_envC; auto.
  - bd HT. apply (IHk _ _ _ _ r HT); auto. destruct Ho as [Hf Ho]. eapply replace_okC; [|eapply okC_mono; [exact Hf|apply (HE _ _ Ef)]|exact D]. apply combine_snd_okC, okCs_Forall. exact Ho.
Qed.
End Own.

Lemma convert_own L (HL : lang_ok L) g (Hw : wf_graph g) root (Hroot : (root < length g)%nat) E fs : no_scalar_reshape g root -> convert g root = Done (E, fs) ->
  forall f fd x, E f = Some fd -> In x (func_args (f_expr fd)) -> cone g f (arg_id x).
Proof.
  intros Hns HC. unfold convert in HC.
  destruct (arr_to_func_ok L HL g Hw root Hns (S (length g)) root (fun _ => None)) as (E0 & EE & CEE & _ & HEa & _); auto.
  { apply cone_self. } { intros n fd Hn. discriminate. }
  rewrite EE in HC. cbn [obind] in HC. bd HC. bd HC. bd HC. destruct v1 as [e E1]. bd HC. destruct v1 as [x fs']. injection HC as <- <-.
  assert (HP : envC g E0).
  { intros f fd Hf. destruct (CEE _ _ Hf) as (Hcone & (nd & e0 & Hnd & Hce & ->) & _). cbn [f_expr].
    destruct (conv_expr_ok L HL g Hw f nd Hnd (Hns f nd Hcone Hnd)) as (e' & He' & W & Hrefs & _). assert (e' = e0) by congruence. subst.
    eapply wff_okC; eauto; intros n Hn.
    - apply (conv_expr_bufs _ _ _ _ Hce) in Hn. subst. apply cone_self.
    - rewrite Hrefs in Hn. eapply cone_step; [apply cone_self|exact Hnd|exact Hn]. }
  destruct (E0 root) as [fda|] eqn:Ea; [|congruence]. injection D as <-.
  destruct (try_fuse_okC g _ _ _ _ _ _ root D1 (HP _ _ Ea) HP) as [H1 H2].
  intros f fd y Hf Hy. pose proof (fset_envC g E1 root (mkF (f_loops fda) (f_shape fda) (f_dtype fda) e (f_out fda)) H2 H1 f fd Hf) as Ho.
  apply (in_args g f) in Hy. destruct y as [n|n]; cbn.
  - eapply okC_bufs; eauto. - eapply okC_funcs; eauto.
Qed.

(* ------------------------------------------------------------------ the invariant *)
Section Shown.
Context (B : cpu_backend).
Notation L := (b_lang B).
Context (HB : backend_ok B) (C : desc -> Prop) (HC : key_safe C).
Let HL : lang_ok L := bo_lang _ HB.
(* an element of n cannot be computed, or ctypes refuses a constant n is made of *)
Definition cannot (g : graph) (n : nat) : Prop :=
  (exists idx, in_range (shape_of g n) idx /\ t_at (den L g n) idx = Raise) \/ exists c, cone g n c /\ refused B g c.
Definition shown (s : rt B) : Prop := forall n nd vs, nth_error (r_graph B s) n = Some nd -> is_const (n_op nd) = false ->
  r_cpu B s n = Some vs -> good B s n \/ cannot (r_graph B s) n.

Section Run.
Context (g : graph) (a : nat) (nda : node) (Ha : nth_error g a = Some nda) (Hnc : is_const (n_op nda) = false)
  (Hns : no_scalar_reshape g a) (Hm : mat_ok L g a) (E : fenv) (fs : list nat) (Hcv : convert g a = Done (E, fs))
  (HCg : forall f fd sc, In f fs -> E f = Some fd -> auto_schedule false fd = Done sc -> C (mkD g E fd sc)).
Lemma run_funcs_shown l2 : forall l1 s l, inv B C s -> r_graph B s = g -> fs = l1 ++ l2 -> (forall d, In d l1 -> good B s d) -> shown s ->
  mapOut (schedule_one B E) l2 = Done l -> shown (fst (run_funcs B E l s)).
Proof using HB HC Ha Hnc Hns Hm Hcv HCg.
  induction l2 as [|f l2 IH]; intros l1 s l HI Hg Hfs Hgood Hsh HM.
  - injection HM as <-. exact Hsh.
  - cbn [mapOut] in HM. bd HM. destruct v as [fd sc]. bd HM. injection HM as <-. cbn [run_funcs].
    unfold schedule_one in D. bd D. destruct (E f) as [fd'|] eqn:Ef; [|discriminate]. injection D1 as <-. bd D.
    destruct (forallb _ _) in D; [|discriminate]. injection D as <- <-.
    destruct (run_func_ok B HB C HC g a nda Ha Hnc Hns Hm E fs Hcv HCg s l1 f l2 fd' v0 HI Hg Hfs Hgood Ef D1) as (s1 & oc & HR & HI1 & Hg1 & Hr1 & Hfr & Hmono & Hoc). rewrite HR.
    assert (Hsh1 : shown s1).
    { intros n nd vs Hn Hc Hv. rewrite Hg1 in *. destruct (Nat.eq_dec n f) as [->|Hne].
      - destruct oc as [u|e]; [left; tauto|]. right. destruct Hoc as [(_ & idx & Q1 & Q2)|(_ & x & Q1 & Q2 & Q3)].
        + left. eauto.
        + right. exists (arg_id x). split; auto.
          assert (Hw : wf_graph g) by (rewrite <- Hg; exact (reach_wf _ (i_reach _ _ _ HI))).
          eapply (convert_own L HL g Hw a); eauto. apply nth_error_Some. congruence.
      - rewrite Hfr in Hv by assumption. rewrite <- Hg in Hn. destruct (Hsh n nd vs Hn Hc Hv) as [H|H]; [left; auto|right; now rewrite <- Hg]. }
    destruct oc as [u|e]; [|exact Hsh1].
    apply (IH (l1 ++ [f]) s1 v); auto.
    { rewrite <- app_assoc. exact Hfs. }
    { intros d Hd. apply in_app_iff in Hd as [Hd|[<-|[]]]; [auto|tauto]. }
Qed.
End Run.

Lemma cannot_app g e n : reach g -> (n < length g)%nat -> cannot g n -> cannot (g ++ e) n.
Proof.
  intros Hr Hn. pose proof (reach_wf _ Hr) as Hw. intros [(idx & H1 & H2)|(c & H1 & H2)].
  - left. exists idx. unfold shape_of in *. rewrite nth_error_app1, den_app by assumption. auto.
  - right. exists c. split.
    + clear H2. induction H1 as [|m nd b Hc IH Hm Hb]; [apply cone_self|]. eapply cone_step; [exact IH| |exact Hb]. rewrite nth_error_app1; auto. apply nth_error_Some. congruence.
    + unfold refused in *. rewrite nth_error_app1; auto. eapply cone_lt_graph; eauto.
Qed.

Lemma mat_shown s a b bd : inv B C s -> valid (r_graph B s) a -> base (r_graph B s) a = Some b -> nth_error (r_graph B s) b = Some bd ->
  mat_ok L (r_graph B s) b -> (forall d, kernel_of (r_graph B s) a d -> C d) -> shown s -> shown (fst (materialize B s a)).
Proof using HB HC.
  intros HI Hv Hb Hbd Hm HCd Hsh. pose proof (reach_wf _ (i_reach _ _ _ HI)) as Hw.
  rewrite (mat_compute B s a b bd Hw Hb Hv Hbd). destruct (is_const (n_op bd)) eqn:Ec; [exact Hsh|].
  assert (Hlt : (b < length (r_graph B s))%nat) by (apply nth_error_Some; congruence).
  unfold compute. destruct (convert (r_graph B s) b) as [[E fs]|e] eqn:HCv; [|exact Hsh].
  destruct (mapOut (schedule_one B E) fs) as [l|e] eqn:HM; [|exact Hsh].
  destruct (convert_cases L HL (r_graph B s) Hw b Hlt) as [Hns|HT]; [|congruence].
  apply (run_funcs_shown (r_graph B s) b bd Hbd Ec Hns Hm E fs HCv) with (l2 := fs) (l1 := @nil nat); auto; [|intros d []].
  intros f fd sc Hf Hfd Hsc. apply HCd. exists b, bd, E, fs, f, fd, sc. auto 10.
Qed.

Lemma hist_shown s : hist B C s -> shown s.
Proof using HB HC.
  induction 1 as [|s c Hs IH Hc|s a Hs IH Ha Hm Hk|s Hs IH].
  - intros [|n] nd vs H; discriminate.
  - pose proof (hist_inv B HB C HC s Hs) as HI. destruct (api_call_ok B C s c HI Hc) as (HI' & (e & He) & Hcpu). intros n nd vs Hn Hnc Hv.
    destruct (Nat.lt_ge_cases n (length (r_graph B s))) as [Hl|Hl].
    + rewrite Hcpu in Hv by assumption. pose proof Hn as Hn'. rewrite He, nth_error_app1 in Hn' by assumption.
      destruct (IH n nd vs Hn' Hnc Hv) as [H|H]; [left; now apply (good_call B C)|right; rewrite He; apply cannot_app; auto; exact (i_reach _ _ _ HI)].
    + exfalso. clear Hcpu He. unfold api_call in Hn, Hv. destruct (run_call (r_graph B s) c) as [[g' r]|er] eqn:ER; cbn [fst r_graph r_cpu] in *.
      * apply Nat.ltb_ge in Hl. rewrite Hl, Hn in Hv. destruct (n_op nd); discriminate.
      * apply nth_error_None in Hl. congruence.
  - pose proof (hist_inv B HB C HC s Hs) as HI.
    destruct (base_total _ a (reach_wf _ (i_reach _ _ _ HI)) Ha) as (b & Hb & Hle & _).
    destruct (nth_error (r_graph B s) b) as [bd|] eqn:Hbd; [|apply nth_error_None in Hbd; unfold valid in Ha; lia].
    eapply mat_shown; eauto.
  - exact IH.
Qed.

Lemma read_defined s a b bd l : hist B C s -> view_of (r_graph B s) true a b -> nth_error (r_graph B s) b = Some bd -> is_const (n_op bd) = false ->
  (forall idx, in_range (n_shape bd) idx -> t_at (den L (r_graph B s) b) idx <> Raise) -> (forall c, cone (r_graph B s) b c -> ~ refused B (r_graph B s) c) ->
  tolist (r_graph B s) (r_cpu B s) a = Done l -> t_tolist (den L (r_graph B s) a) = Ok l.
Proof using HB HC.
  intros Hs Hv Hbd Hc Hd Hrf HT. pose proof (hist_inv B HB C HC s Hs) as HI. pose proof (reach_wf _ (i_reach _ _ _ HI)) as Hw.
  destruct (r_cpu B s b) as [vs|] eqn:Em.
  - destruct (hist_shown s Hs b bd vs Hbd Hc Em) as [Hg|[(idx & H1 & H2)|(c & H1 & H2)]].
    + destruct (read_good B C s a b HI Hv Hg) as (l' & H1 & H2). rewrite HT in H1. injection H1 as <-. exact H2.
    + exfalso. unfold shape_of in H1. rewrite Hbd in H1. eapply Hd; eauto.
    + exfalso. eapply Hrf; eauto.
  - exfalso. pose proof (view_of_base _ _ _ _ Hw Hv) as Hb. unfold tolist in HT. rewrite Hb, Em in HT.
    destruct (nth_error (r_graph B s) a); discriminate.
Qed.
End Shown.
