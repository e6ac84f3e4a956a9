(* Materializing on CUDA a copy of something already materialized compiles nothing. *)
From Verif Require Import Base BaseFacts Util UtilFacts Lang Spec Graph Api ApiFacts ApiFacts Algo Kernel Sched Codegen Backends CacheKey Runtime Device DevStop Copy CopyConv CopyKey CopyRun.
Open Scope list_scope.

Section Run.
Context (B : cpu_backend).
Notation dev := (dev B).
Notation graph_of := (dv_graph B).

Definition gcache_le (s t : dev) : Prop := forall k x, cache_get (dv_cache B s) k = Some x -> cache_get (dv_cache B t) k = Some x.
Lemma gcache_le_refl s : gcache_le s s. Proof. intros k x H. exact H. Qed.
Lemma gcache_le_trans s t u : gcache_le s t -> gcache_le t u -> gcache_le s u. Proof. intros H1 H2 k x H. auto. Qed.
Definition gsame_code (s t : dev) : Prop := dv_cache B t = dv_cache B s /\ dv_tmp B t = dv_tmp B s.
Definition gfix (s t : dev) : Prop := dv_graph B t = dv_graph B s /\ gsame_code s t.
Lemma gfix_refl s : gfix s s. Proof. repeat split. Qed.
Lemma gfix_trans s t u : gfix s t -> gfix t u -> gfix s u.
Proof. intros (A1 & A2 & A3) (B1 & B2 & B3). split; [congruence|]. split; congruence. Qed.

Lemma pointer_fix s n s' oc : pointer B s n s' oc -> gfix s s'.
Proof. intros H. inversion H; subst; try apply gfix_refl. repeat split. Qed.
Lemma htod_fix s n p s' oc : copy_htod B s n p = (s', oc) -> gfix s s'.
Proof.
  unfold copy_htod. destruct (dv_host B s n); [|intros H; injection H as <- _; apply gfix_refl]. destruct (nth_error _ _); [|intros H; injection H as <- _; apply gfix_refl].
  destruct (forallb _ _); [|intros H; injection H as <- _; apply gfix_refl]. destruct (dv_mem B s p); intros H; injection H as <- _; [repeat split|apply gfix_refl].
Qed.
Lemma prep1_fix out s n s' oc : prep1 B out s n s' oc -> gfix s s'.
Proof.
  intros H. inversion H; subst; try (eapply pointer_fix; eauto; fail);
  match goal with HP : pointer _ _ _ _ _, HC : copy_htod _ _ _ _ = _ |- _ => apply pointer_fix in HP; apply htod_fix in HC end; eapply gfix_trans; eauto.
Qed.
Lemma prep_fix out s ns s' oc : prep B out s ns s' oc -> gfix s s'.
Proof.
  induction 1 as [out s|out s n r s1 e H|out s n r s1 p s2 oc H1 H2 IH]; [apply gfix_refl|eapply prep1_fix; eauto|]. apply prep1_fix in H1. eapply gfix_trans; eauto.
Qed.
Lemma ginvoke_fix s sc kern n ns s' oc : ginvoke B s sc kern n ns s' oc -> gfix s s'.
Proof.
  intros H. inversion H as [s1 e HP|s1 p ps s2 oc0 HP HL]; subst; [eapply prep_fix; eauto|]. apply prep_fix in HP. eapply gfix_trans; [exact HP|]. inversion HL; subst; repeat split.
Qed.
Lemma sprep_fix out s ns s' : stopped_prep B out s ns s' -> gfix s s'.
Proof.
  induction 1 as [out s ns|out s n r s1 p Hp|out s n r s1 p s2 H1 H2 IH]; [apply gfix_refl|eapply pointer_fix; eauto|]. apply prep1_fix in H1. eapply gfix_trans; eauto.
Qed.
Lemma ginvoke_stop_fix s sc kern n ns s' : gstopped_invoke B s sc kern n ns s' -> gfix s s'.
Proof. intros H. inversion H; subst; [eapply sprep_fix; eauto|eapply ginvoke_fix; eauto]. Qed.

Lemma new_entry s key kern k' s' : cache_get (dv_cache B s) key = None -> gfix (set_cache B s ((key, kern) :: dv_cache B s) k') s' ->
  dv_graph B s' = dv_graph B s /\ gcache_le s s' /\ cache_get (dv_cache B s') key = Some kern.
Proof.
  intros EG (G & C & _). cbn in G, C. split; [exact G|]. unfold gcache_le. rewrite C. cbn [cache_get]. split.
  - intros k x Hk. destruct (kkey_eq_dec key k); [subst; congruence|auto].
  - destruct (kkey_eq_dec key key); congruence.
Qed.
Lemma old_entry s s' : gfix s s' -> dv_graph B s' = dv_graph B s /\ gcache_le s s'.
Proof. intros (G & C & _). split; [exact G|]. unfold gcache_le. rewrite C. auto. Qed.
Lemma gfunc_grow E fd sc s s' oc : grun_func B E fd sc s s' oc -> dv_graph B s' = dv_graph B s /\ gcache_le s s' /\
  (oc = Done tt -> exists key kern, cache_key (dv_graph B s) E fd sc = Done key /\ cache_get (dv_cache B s') key = Some kern).
Proof.
  intros H. inversion H; subst.
  - split; [reflexivity|]. split; [apply gcache_le_refl|discriminate].
  - split; [reflexivity|]. split; [apply gcache_le_refl|discriminate].
  - match goal with HI : ginvoke _ _ _ _ _ _ _ _ |- _ => apply ginvoke_fix in HI as HF end. destruct (old_entry _ _ HF) as [G L]. split; auto. split; auto. intros _. exists key, kern. auto.
  - split; [reflexivity|]. split; [apply gcache_le_refl|discriminate].
  - match goal with HI : ginvoke _ _ _ _ _ _ _ _ |- _ => apply ginvoke_fix in HI as HF end. destruct (new_entry s key kern k' s' ltac:(assumption) HF) as (G & L & K). split; auto. split; auto. intros _. exists key, kern. auto.
Qed.
Lemma gfunc_hit E fd sc s s' oc key kern : grun_func B E fd sc s s' oc -> cache_key (dv_graph B s) E fd sc = Done key -> cache_get (dv_cache B s) key = Some kern -> gfix s s'.
Proof.
  intros H K1 K2. inversion H; subst; try apply gfix_refl.
  - eapply ginvoke_fix; eauto.
  - congruence.
Qed.
Lemma gfuncs_grow E l : forall s s' oc, grun_funcs B E l s s' oc -> dv_graph B s' = dv_graph B s /\ gcache_le s s' /\
  (oc = Done tt -> forall fd sc, In (fd, sc) l -> exists key kern, cache_key (dv_graph B s) E fd sc = Done key /\ cache_get (dv_cache B s') key = Some kern).
Proof.
  intros s s' oc H. induction H as [s|fd sc r s s' e H1|fd sc r s s1 s' oc H1 H2 (G2 & L2 & K2)].
  - split; auto. split; [apply gcache_le_refl|]. intros _ ? ? [].
  - apply gfunc_grow in H1 as (G & L & _). split; auto. split; auto. discriminate.
  - apply gfunc_grow in H1 as (G1 & L1 & K1). split; [congruence|]. split; [eapply gcache_le_trans; eauto|]. intros Ho fd' sc' [Hin|Hin].
    + injection Hin as <- <-. destruct (K1 eq_refl) as (key & kern & Hk & Hg). exists key, kern. split; auto.
    + rewrite <- G1. auto.
Qed.
Lemma gfuncs_hit E l : forall s s' oc, grun_funcs B E l s s' oc ->
  (forall fd sc, In (fd, sc) l -> exists key kern, cache_key (dv_graph B s) E fd sc = Done key /\ cache_get (dv_cache B s) key = Some kern) -> gfix s s'.
Proof.
  intros s s' oc H. induction H as [s|fd sc r s s' e H1|fd sc r s s1 s' oc H1 H2 IH]; intros HK.
  - apply gfix_refl.
  - destruct (HK fd sc (or_introl eq_refl)) as (key & kern & K1 & K2). eapply gfunc_hit; eauto.
  - destruct (HK fd sc (or_introl eq_refl)) as (key & kern & K1 & K2). pose proof (gfunc_hit _ _ _ _ _ _ _ _ H1 K1 K2) as HF. eapply gfix_trans; [exact HF|]. destruct HF as (G & C & _).
    apply IH. intros fd' sc' Hin. rewrite G, C. apply HK. now right.
Qed.
Lemma gcompute_grow s a s' oc : gcompute B s a s' oc -> dv_graph B s' = dv_graph B s /\ gcache_le s s'.
Proof. intros H. inversion H; subst; try (split; [reflexivity|apply gcache_le_refl]). match goal with HR : grun_funcs _ _ _ _ _ _ |- _ => apply gfuncs_grow in HR as (G & L & _) end. auto. Qed.
Lemma gmat_grow s a s' oc : gmat B s a s' oc -> dv_graph B s' = dv_graph B s /\ gcache_le s s'.
Proof. induction 1; auto; [split; [reflexivity|apply gcache_le_refl]|eapply gcompute_grow; eauto]. Qed.

(* interrupted: the cache only grows too *)
Lemma gfunc_stop_grow E fd sc s s' : gstopped_func B E fd sc s s' -> dv_graph B s' = dv_graph B s /\ gcache_le s s'.
Proof.
  intros H. inversion H; subst; try (split; [reflexivity|intros kk xx HH; exact HH]);
  match goal with HI : gstopped_invoke _ _ _ _ _ _ _ |- _ => apply ginvoke_stop_fix in HI as HF end.
  - destruct (new_entry s key kern k' s' ltac:(assumption) HF) as (G & L & _). auto.
  - now apply old_entry.
Qed.
Lemma gfuncs_stop_grow E l s s' : gstopped_funcs B E l s s' -> dv_graph B s' = dv_graph B s /\ gcache_le s s'.
Proof.
  induction 1 as [l s|fd sc l s s' H|fd sc l s s1 s' H1 H2 [G L]]; [split; [reflexivity|apply gcache_le_refl]|eapply gfunc_stop_grow; eauto|].
  apply gfunc_grow in H1 as (G1 & L1 & _). split; [congruence|eapply gcache_le_trans; eauto].
Qed.
Lemma gmat_stop_grow s a s' : gstopped B s a s' -> dv_graph B s' = dv_graph B s /\ gcache_le s s'.
Proof. induction 1; auto; [split; [reflexivity|apply gcache_le_refl]|eapply gfuncs_stop_grow; eauto]. Qed.
Lemma gcall_grow s c : dv_cache B (fst (gcall B s c)) = dv_cache B s /\ exists e, dv_graph B (fst (gcall B s c)) = dv_graph B s ++ e.
Proof.
  unfold gcall. destruct (run_call (dv_graph B s) c) as [[g' n]|] eqn:E; cbn [fst dv_graph dv_cache].
  - split; auto. destruct (run_call_appends _ _ _ _ E) as (e2 & -> & _). eauto.
  - split; auto. exists []. now rewrite app_nil_r.
Qed.
Lemma gtolist_fix s a : gfix s (fst (gtolist B s a)).
Proof.
  unfold gtolist. destruct (nth_error _ _); [|apply gfix_refl]. destruct (base _ _); [|apply gfix_refl]. destruct (dv_host B s n0); [apply gfix_refl|].
  destruct (dv_ptr B s n0); [|apply gfix_refl]. destruct (dv_mem B s n1); [repeat split|apply gfix_refl].
Qed.
Lemma die_fix D : forall s, gfix s (die B s D).
Proof.
  induction D as [|n D IH]; intros s; [apply gfix_refl|]. unfold die. cbn [fold_left]. eapply gfix_trans; [|apply IH]. unfold die1. destruct (dv_ptr B s n); repeat split.
Qed.

(* ---- a copy *)
Section Copy.
Context (dom : list nat) (r0 : nat -> nat) (g1 g2 : graph) (HC : copies dom r0 g1 g2) (Hlen : (length g1 <= length g2)%nat).
Let r := ext_r dom r0.
Let D n := In n dom.
Let Hinj : forall n m, r n = r m -> n = m := proj1 (copies_ext dom r0 g1 g2 HC).
Let HD : forall n, D n -> exists x y, nth_error g1 n = Some x /\ nth_error g2 (r n) = Some y /\ same_node r x y /\ Forall D (n_in x) := proj2 (copies_ext dom r0 g1 g2 HC).
Lemma gschedule_copy E E' fs : Erel r D E E' -> Forall D fs -> forall l, mapOut (gschedule_one E) fs = Done l ->
  mapOut (gschedule_one E') (map r fs) = Done (map (fun p => (rnf r (fst p), snd p)) l).
Proof using HC.
  intros HE. induction 1 as [|f fs Hf Hfs IH]; intros l H; cbn [mapOut map] in *; [injection H as <-; reflexivity|].
  unfold gschedule_one at 1. unfold gschedule_one at 1 in H. rewrite (HE f Hf). destruct (E f) as [fd|]; cbn [option_map throw_none obind] in *; [|discriminate].
  rewrite auto_schedule_rn. destruct (auto_schedule true fd) as [sc|]; cbn [obind] in *; [|discriminate]. destruct (forallb _ _); cbn [obind] in *; [|discriminate].
  destruct (mapOut (gschedule_one E) fs) as [l'|]; cbn [obind] in *; [|discriminate]. rewrite (IH l' eq_refl). cbn [obind]. injection H as <-. reflexivity.
Qed.
Lemma gcompute_copy s1 a s1' s2 s2' o : dv_graph B s1 = g1 -> dv_graph B s2 = g2 -> In a dom ->
  gcompute B s1 a s1' (Done tt) -> gcache_le s1' s2 -> gcompute B s2 (r a) s2' o -> gfix s2 s2'.
Proof using HC Hlen.
  intros G1 G2 Ha H1 HL H2.
  assert (X1 : exists E fs l, convert g1 a = Done (E, fs) /\ mapOut (gschedule_one E) fs = Done l /\ grun_funcs B E l s1 s1' (Done tt)) by (rewrite <- G1; inversion H1; subst; eauto 6).
  assert (X2 : s2' = s2 \/ exists E fs l, convert g2 (r a) = Done (E, fs) /\ mapOut (gschedule_one E) fs = Done l /\ grun_funcs B E l s2 s2' o) by (rewrite <- G2; inversion H2; subst; eauto 8).
  destruct X1 as (E & fs & l & C1 & SCo & HR). rewrite convert_is in C1.
  destruct (convert_n_rn r Hinj g1 g2 D HD (S (length g1)) (S (length g2)) a E fs ltac:(lia) Ha C1) as (E' & C2 & HE & HDe & HF).
  rewrite <- convert_is in C2. pose proof (gschedule_copy E E' fs HE HF l SCo) as SC2.
  destruct (gfuncs_grow _ _ _ _ _ HR) as (_ & _ & K1). specialize (K1 eq_refl).
  destruct X2 as [->|(E3 & fs3 & l3 & C3 & S3 & HR2)]; [apply gfix_refl|].
  rewrite C2 in C3. injection C3 as <- <-. rewrite SC2 in S3. injection S3 as <-.
  eapply gfuncs_hit; [exact HR2|]. intros fd' sc' Hin. apply in_map_iff in Hin as ([fd sc] & Heq & Hin). cbn in Heq. injection Heq as <- <-.
  destruct (K1 fd sc Hin) as (key & kern & Hk & Hg). exists key, kern. split; [|auto]. rewrite G1 in Hk. rewrite G2. eapply cache_key_rn; eauto.
  apply mapOut_Forall2 in SCo. clear - SCo Hin HDe. induction SCo as [|f [fd0 sc0] fs l Hf Hl IH]; [destruct Hin|]. destruct Hin as [Hin|Hin]; [|auto].
  injection Hin as -> ->. unfold gschedule_one in Hf. destruct (E f) as [fd0|] eqn:Ef; cbn [throw_none obind] in Hf; [|discriminate].
  destruct (auto_schedule true fd0) as [sc1|]; cbn [obind] in Hf; [|discriminate]. destruct (forallb _ _); [|discriminate]. injection Hf as -> ->. eapply HDe; eauto.
Qed.
Lemma gmat_copy : forall s1 a s1' oc1, gmat B s1 a s1' oc1 -> oc1 = Done tt -> dv_graph B s1 = g1 -> In a dom ->
  forall s2 s2' o, dv_graph B s2 = g2 -> gcache_le s1' s2 -> gmat B s2 (r a) s2' o -> gfix s2 s2'.
Proof using HC Hlen.
  intros u1 u2 u3 u4 HG1; induction HG1 as [a nd Hn Hc|a nd b l s1' oc1 Hn Hv Hi HM IH|a nd s1' oc1 Hn Hc Hv HM]; intros HO G1 Ha s2 s2' o G2 HL H2;
  destruct (HD a Ha) as (x & y & N1 & N2 & (_ & _ & _ & _ & So & Si) & HF); rewrite G1, N1 in Hn; injection Hn as <-; destruct (same_op_view _ _ So) as [V1 V2];
  (assert (X : s2' = s2 \/ (is_view (n_op y) = true /\ exists b2 l2, n_in y = b2 :: l2 /\ gmat B s2 b2 s2' o) \/ (is_const (n_op y) = false /\ is_view (n_op y) = false /\ gcompute B s2 (r a) s2' o))
    by (rewrite <- G2 in N2; inversion H2; subst; eauto; match goal with HX : nth_error _ _ = Some ?z |- _ => rewrite N2 in HX; injection HX as <- end; [right; left; eauto|right; right; auto]));
  destruct X as [->|[(Wv & b2 & l2 & Wi & HM2)|(Wc & Wv & HM2)]]; try apply gfix_refl; try congruence.
  - destruct (n_op x); cbn in *; discriminate || congruence.
  - subst oc1. rewrite Si, Hi in Wi. cbn in Wi. injection Wi as <- <-. rewrite Hi in HF. inversion HF as [|? ? Db _]; subst. eapply IH; eauto.
  - subst oc1. eapply gcompute_copy; eauto.
Qed.
End Copy.

Lemma gmaterialize_copy s1 a s1' s2 a2 s2' o : same_expr (dv_graph B s1) a (dv_graph B s2) a2 -> (length (dv_graph B s1) <= length (dv_graph B s2))%nat ->
  gmat B s1 a s1' (Done tt) -> gcache_le s1' s2 -> gmat B s2 a2 s2' o -> gfix s2 s2'.
Proof.
  intros (dom & r & Ha & <- & HC) Hl H1 HL H2. rewrite <- (ext_in dom r a Ha) in H2. exact (gmat_copy dom r _ _ HC Hl s1 a s1' (Done tt) H1 eq_refl eq_refl Ha s2 s2' o eq_refl HL H2).
Qed.
End Run.
