(* The GPU process with the kernel cache as it is: kernels are stored under a digest of the text of their key (materialize.py:48-65, 113,
   kernel.py:8-24), as in KeyRun.v, but over the states and the nondeterministic driver of Device.v. *)
From Coq Require Import String.
From Verif Require Import Base BaseFacts Util Lang Spec Graph Api Denote Reach Tolist TolistFacts Algo AlgoSem Kernel Sched Codegen Backends CacheKey KernelRun Runtime RuntimeFacts RuntimeFacts2 History KeyText KeyRun
  Parallel ParGpu Device.
Open Scope Z_scope.
Open Scope list_scope.

Section GDigest.
Context {D : Type} (D_eqb : D -> D -> bool) (digest : string -> D).
Context (B : cpu_backend).
Notation dev := (dev B).
(* hd_dev: the process without its cache (that field of Device.v stays empty); hd_cache: digests and kernels *)
Record hdev := mkHD { hd_dev : dev; hd_cache : list (D * kernel) }.
Definition hd_graph (s : hdev) : graph := dv_graph B (hd_dev s).
(* materialize.py:44-71 *)
Inductive hgrun_func (E : fenv) (fd : func) (sc : schedule) (s : hdev) : hdev -> outcome unit -> Prop :=
| hf_args e : mapOut (arg_buffer E) (func_args (f_expr fd)) = Throw e -> hgrun_func E fd sc s s (Throw e)
| hf_key bufs e : mapOut (arg_buffer E) (func_args (f_expr fd)) = Done bufs -> cache_key (hd_graph s) E fd sc = Throw e -> hgrun_func E fd sc s s (Throw e)
| hf_hit bufs key kern s' oc : mapOut (arg_buffer E) (func_args (f_expr fd)) = Done bufs -> cache_key (hd_graph s) E fd sc = Done key ->
    digest_get D_eqb (hd_cache s) (digest (key_text key)) = Some kern -> ginvoke B (hd_dev s) sc kern (f_out fd) bufs s' oc ->
    hgrun_func E fd sc s (mkHD s' (hd_cache s)) oc
| hf_nogen bufs key e : mapOut (arg_buffer E) (func_args (f_expr fd)) = Done bufs -> cache_key (hd_graph s) E fd sc = Done key ->
    digest_get D_eqb (hd_cache s) (digest (key_text key)) = None ->
    codegen (hd_graph s) E (func_args (f_expr fd)) fd sc (dv_tmp B (hd_dev s)) = Throw e -> hgrun_func E fd sc s s (Throw e)
| hf_miss bufs key kern k' s' oc : mapOut (arg_buffer E) (func_args (f_expr fd)) = Done bufs -> cache_key (hd_graph s) E fd sc = Done key ->
    digest_get D_eqb (hd_cache s) (digest (key_text key)) = None ->
    codegen (hd_graph s) E (func_args (f_expr fd)) fd sc (dv_tmp B (hd_dev s)) = Done (kern, k') ->
    ginvoke B (set_cache B (hd_dev s) [] k') sc kern (f_out fd) bufs s' oc ->
    hgrun_func E fd sc s (mkHD s' ((digest (key_text key), kern) :: hd_cache s)) oc.
Inductive hgrun_funcs (E : fenv) : list (func * schedule) -> hdev -> hdev -> outcome unit -> Prop :=
| hr_nil s : hgrun_funcs E [] s s (Done tt)
| hr_fail fd sc r s s' e : hgrun_func E fd sc s s' (Throw e) -> hgrun_funcs E ((fd, sc) :: r) s s' (Throw e)
| hr_cons fd sc r s s1 s' oc : hgrun_func E fd sc s s1 (Done tt) -> hgrun_funcs E r s1 s' oc -> hgrun_funcs E ((fd, sc) :: r) s s' oc.
(* materialize.py:33-71 *)
Inductive hgcompute (s : hdev) (a : nat) : hdev -> outcome unit -> Prop :=
| hc_conv e : convert (hd_graph s) a = Throw e -> hgcompute s a s (Throw e)
| hc_sched E fs e : convert (hd_graph s) a = Done (E, fs) -> mapOut (gschedule_one E) fs = Throw e -> hgcompute s a s (Throw e)
| hc_run E fs l s' oc : convert (hd_graph s) a = Done (E, fs) -> mapOut (gschedule_one E) fs = Done l -> hgrun_funcs E l s s' oc -> hgcompute s a s' oc.
(* materialize.py:15-33 *)
Inductive hgmat (s : hdev) : nat -> hdev -> outcome unit -> Prop :=
| hm_const a nd : nth_error (hd_graph s) a = Some nd -> is_const (n_op nd) = true -> hgmat s a s (Done tt)
| hm_view a nd b r s' oc : nth_error (hd_graph s) a = Some nd -> is_view (n_op nd) = true -> n_in nd = b :: r -> hgmat s b s' oc -> hgmat s a s' oc
| hm_comp a nd s' oc : nth_error (hd_graph s) a = Some nd -> is_const (n_op nd) = false -> is_view (n_op nd) = false -> hgcompute s a s' oc -> hgmat s a s' oc.
(* histories, with the conditions of [ghist] (Device.v); only materialize() and reset() look at the cache *)
Inductive digest_ghist (safe : bool) (C : desc -> Prop) : hdev -> Prop :=
| dg_init : digest_ghist safe C (mkHD (dev0 B) [])
| dg_call s c : digest_ghist safe C s -> call_ok (hd_graph s) c -> uses_alive B (hd_dev s) c -> digest_ghist safe C (mkHD (fst (gcall B (hd_dev s) c)) (hd_cache s))
| dg_mat s a s' oc : digest_ghist safe C s -> dv_alive B (hd_dev s) a = true ->
    (forall b, base (hd_graph s) a = Some b -> gmat_ok B (hd_graph s) b) ->
    (forall d, gkernel_of (hd_graph s) a d -> C d) ->
    hgmat s a s' oc -> digest_ghist safe C s'
| dg_tolist s a : digest_ghist safe C s -> dv_alive B (hd_dev s) a = true -> (safe = true -> readable B (hd_dev s) a) -> digest_ghist safe C (mkHD (fst (gtolist B (hd_dev s) a)) (hd_cache s))
| dg_die s X : digest_ghist safe C s -> droppable B (hd_dev s) X -> digest_ghist safe C (mkHD (die B (hd_dev s) X) (hd_cache s))
| dg_reset s : digest_ghist safe C s -> digest_ghist safe C (mkHD (hd_dev s) []).

(* ------------------------------------------------------------------ the process of Device.v, seen with digests *)
Context (Deq : forall x y, D_eqb x y = true <-> x = y).
Definition gseen (s : dev) : hdev := mkHD (reset_dev B s) (digests digest (dv_cache B s)).
Definition gkeys_in (C : desc -> Prop) (s : dev) : Prop := forall k x, In (k, x) (dv_cache B s) -> exists d, C d /\ key_of d = Done k.

Lemma set_cache_self s : set_cache B s (dv_cache B s) (dv_tmp B s) = s. Proof using. destruct s; reflexivity. Qed.
Definition kept (s s' : dev) : Prop := dv_cache B s' = dv_cache B s /\ dv_tmp B s' = dv_tmp B s /\ dv_graph B s' = dv_graph B s.
Lemma kept_refl s : kept s s. Proof using. repeat split. Qed.
Lemma kept_trans a b c : kept a b -> kept b c -> kept a c. Proof using. unfold kept. intuition congruence. Qed.
(* kernels do not look at the cache *)
Lemma pointer_nocache s n s' oc c k : pointer B s n s' oc -> pointer B (set_cache B s c k) n (set_cache B s' c k) oc /\ kept s s'.
Proof using.
  intros H. inversion H; subst.
  - split; [now apply pt_have|apply kept_refl].
  - split; [|repeat split]. match goal with |- pointer _ _ _ (set_cache _ (set_ptr _ _ _ ?p ?g) _ _) _ => change (set_cache B (set_ptr B s n p g) c k) with (set_ptr B (set_cache B s c k) n p g) end.
    eapply pt_alloc; eassumption.
  - split; [now apply pt_fail|apply kept_refl].
Qed.
Lemma htod_nocache s n p s' oc c k : copy_htod B s n p = (s', oc) -> copy_htod B (set_cache B s c k) n p = (set_cache B s' c k, oc) /\ kept s s'.
Proof using.
  unfold copy_htod. cbn [set_cache dv_host dv_graph dv_mem]. destruct (dv_host B s n) as [vs|]; [|intros [= <- <-]; repeat split].
  destruct (nth_error (dv_graph B s) n) as [nd|]; [|intros [= <- <-]; repeat split]. destruct (forallb _ vs); [|intros [= <- <-]; repeat split].
  destruct (dv_mem B s p); intros [= <- <-]; repeat split.
Qed.
Lemma prep1_nocache out s n s' oc c k : prep1 B out s n s' oc -> prep1 B out (set_cache B s c k) n (set_cache B s' c k) oc /\ kept s s'.
Proof using.
  intros H. inversion H as [s1 e H1|s1 p Ho H1|s1 p s2 Ho H1 H2|s1 p s2 e Ho H1 H2]; subst; destruct (pointer_nocache _ _ _ _ c k H1) as (P1 & P2).
  - split; [now apply p1_fail|exact P2].
  - split; [now apply p1_out|exact P2].
  - destruct (htod_nocache _ _ _ _ _ c k H2) as (Q1 & Q2). split; [eapply p1_in; eauto|eapply kept_trans; eauto].
  - destruct (htod_nocache _ _ _ _ _ c k H2) as (Q1 & Q2). split; [eapply p1_bad; eauto|eapply kept_trans; eauto].
Qed.
Lemma prep_nocache out s ns s' oc c k : prep B out s ns s' oc -> prep B out (set_cache B s c k) ns (set_cache B s' c k) oc /\ kept s s'.
Proof using.
  induction 1 as [out s|out s n r s1 e H1|out s n r s1 p s2 oc H1 H2 (I1 & I2)].
  - split; [constructor|apply kept_refl].
  - destruct (prep1_nocache _ _ _ _ _ c k H1). split; [now constructor|assumption].
  - destruct (prep1_nocache _ _ _ _ _ c k H1). split; [econstructor; eauto|eapply kept_trans; eauto].
Qed.
Lemma glaunch_nocache s sc kern n ns p ps s' oc c k : glaunch B s sc kern n ns p ps s' oc -> glaunch B (set_cache B s c k) sc kern n ns p ps (set_cache B s' c k) oc /\ kept s s'.
Proof using.
  intros H. inversion H; subst.
  - split; [now apply gl_refused|apply kept_refl].
  - split; [|repeat split]. match goal with |- glaunch _ _ _ _ _ _ _ _ (set_cache _ (set_mem _ _ ?m ?e) _ _) _ => change (set_cache B (set_mem B s m e) c k) with (set_mem B (set_cache B s c k) m (EvLaunch B n p (inputs_at B (set_cache B s c k) ns ps))) end.
    eapply gl_run; eassumption.
  - split; [|repeat split]. match goal with |- glaunch _ _ _ _ _ _ _ _ (set_cache _ (set_mem _ _ ?m ?e) _ _) _ => change (set_cache B (set_mem B s m e) c k) with (set_mem B (set_cache B s c k) m (EvLaunch B n p (inputs_at B (set_cache B s c k) ns ps))) end.
    eapply gl_undefined; eassumption.
Qed.
Lemma ginvoke_nocache s sc kern n ns s' oc c k : ginvoke B s sc kern n ns s' oc -> ginvoke B (set_cache B s c k) sc kern n ns (set_cache B s' c k) oc /\ kept s s'.
Proof using.
  intros H. inversion H as [s1 e H1|s1 p ps s2 oc0 H1 H2]; subst; destruct (prep_nocache _ _ _ _ _ c k H1) as (P1 & P2).
  - split; [now apply gi_prep|exact P2].
  - destruct (glaunch_nocache _ _ _ _ _ _ _ _ _ c k H2) as (Q1 & Q2). split; [eapply gi_launch; eauto|eapply kept_trans; eauto].
Qed.
Lemma ginvoke_back s sc kern n ns x oc c k : ginvoke B (set_cache B s c k) sc kern n ns x oc -> exists s', ginvoke B s sc kern n ns s' oc /\ x = set_cache B s' c k /\ kept s s'.
Proof using.
  intros H. destruct (ginvoke_nocache _ _ _ _ _ _ _ (dv_cache B s) (dv_tmp B s) H) as (H1 & H2 & H3 & H4). cbn [set_cache dv_cache dv_tmp dv_graph] in H2, H3, H4.
  change (set_cache B (set_cache B s c k) (dv_cache B s) (dv_tmp B s)) with (set_cache B s (dv_cache B s) (dv_tmp B s)) in H1. rewrite set_cache_self in H1.
  exists (set_cache B x (dv_cache B s) (dv_tmp B s)). split; [exact H1|]. split; [|repeat split; exact H4]. rewrite <- H2, <- H3. destruct x; reflexivity.
Qed.

Section Safe.
Context (C : desc -> Prop) (HC : no_collision digest C).
(* running one kernel: the two processes make exactly the same moves *)
Lemma gfunc_seen E fd sc s : gkeys_in C s -> C (mkD (dv_graph B s) E fd sc) ->
  (forall h' oc, hgrun_func E fd sc (gseen s) h' oc -> exists s', grun_func B E fd sc s s' oc /\ h' = gseen s') /\
  (forall s' oc, grun_func B E fd sc s s' oc -> hgrun_func E fd sc (gseen s) (gseen s') oc /\ gkeys_in C s' /\ dv_graph B s' = dv_graph B s).
Proof using Deq HC.
  intros HK HD.
  assert (HL : forall key, cache_key (dv_graph B s) E fd sc = Done key -> digest_get D_eqb (digests digest (dv_cache B s)) (digest (key_text key)) = cache_get (dv_cache B s) key).
  { intros key EK. apply (digest_lookup D_eqb digest Deq). intros k x Hi Hd. destruct (HK k x Hi) as (d & Hc & Hk). apply key_text_inj. apply (HC d (mkD (dv_graph B s) E fd sc) k key); auto. }
  split.
  - intros h' oc H. inversion H as [e H1|bufs e H1 H2|bufs key kern x oc' H1 H2 H3 H4|bufs key e H1 H2 H3 H4|bufs key kern k' x oc' H1 H2 H3 H4 H5]; subst.
    + exists s. split; [now apply gf_args|reflexivity].
    + exists s. split; [eapply gf_key; eassumption|reflexivity].
    + cbn [gseen hd_cache hd_dev hd_graph] in *. change (hd_graph (gseen s)) with (dv_graph B s) in H2. rewrite (HL _ H2) in H3. destruct (ginvoke_back _ _ _ _ _ _ _ _ _ H4) as (s' & G1 & -> & G2 & G3 & G4).
      exists s'. split; [eapply gf_hit; eassumption|]. unfold gseen, reset_dev. now rewrite G2, G3.
    + change (hd_graph (gseen s)) with (dv_graph B s) in H2, H4. cbn [gseen hd_cache] in H3. rewrite (HL _ H2) in H3. exists s. split; [eapply gf_nogen; eassumption|reflexivity].
    + change (hd_graph (gseen s)) with (dv_graph B s) in H2, H4. cbn [gseen hd_cache] in H3. rewrite (HL _ H2) in H3. cbn [gseen hd_dev] in H5.
      change (set_cache B (reset_dev B s) [] k') with (set_cache B (set_cache B s ((key, kern) :: dv_cache B s) k') [] k') in H5.
      destruct (ginvoke_back _ _ _ _ _ _ _ _ _ H5) as (s' & G1 & -> & G2 & G3 & G4). cbn [set_cache dv_cache dv_tmp dv_graph] in G2, G3, G4.
      exists s'. split; [eapply gf_miss; eassumption|]. unfold gseen, reset_dev. rewrite G2, G3. reflexivity.
  - intros s' oc H. inversion H as [e H1|bufs e H1 H2|bufs key kern x oc' H1 H2 H3 H4|bufs key e H1 H2 H3 H4|bufs key kern k' x oc' H1 H2 H3 H4 H5]; subst.
    + split; [now apply hf_args|auto].
    + split; [eapply hf_key; eassumption|auto].
    + destruct (ginvoke_nocache _ _ _ _ _ _ _ [] (dv_tmp B s) H4) as (G1 & G2 & G3 & G4). split; [|split; [unfold gkeys_in; now rewrite G2|exact G4]].
      unfold gseen at 2. unfold reset_dev. rewrite G2, G3. rewrite <- (HL _ H2) in H3. exact (hf_hit E fd sc (gseen s) bufs key kern _ _ H1 H2 H3 G1).
    + split; [|auto]. rewrite <- (HL _ H2) in H3. eapply hf_nogen; eassumption.
    + destruct (ginvoke_nocache _ _ _ _ _ _ _ [] k' H5) as (G1 & G2 & G3 & G4). cbn [set_cache dv_cache dv_tmp dv_graph] in G2, G3, G4. split; [|split; [|exact G4]].
      * unfold gseen at 2. unfold reset_dev. rewrite G2, G3. rewrite <- (HL _ H2) in H3. exact (hf_miss E fd sc (gseen s) bufs key kern k' _ _ H1 H2 H3 H4 G1).
      * unfold gkeys_in. rewrite G2. intros k x [Hi|Hi]; [|eauto]. injection Hi as <- <-. exists (mkD (dv_graph B s) E fd sc). auto.
Qed.
Lemma gfuncs_seen E l : forall s, gkeys_in C s -> (forall fd sc, In (fd, sc) l -> C (mkD (dv_graph B s) E fd sc)) ->
  (forall h' oc, hgrun_funcs E l (gseen s) h' oc -> exists s', grun_funcs B E l s s' oc /\ h' = gseen s') /\
  (forall s' oc, grun_funcs B E l s s' oc -> hgrun_funcs E l (gseen s) (gseen s') oc /\ gkeys_in C s').
Proof using Deq HC.
  induction l as [|[fd sc] l IH]; intros s HK HD.
  - split; intros x oc H; inversion H; subst; [exists s; split; [constructor|reflexivity]|split; [constructor|assumption]].
  - destruct (gfunc_seen E fd sc s HK (HD _ _ (or_introl eq_refl))) as (F1 & F2). split; intros x oc H; inversion H as [|fd0 sc0 r0 s0 s1 e H1|fd0 sc0 r0 s0 s1 s2 oc0 H1 H2]; subst.
    + destruct (F1 _ _ H1) as (s' & G & ->). exists s'. split; [now apply gr_fail|reflexivity].
    + destruct (F1 _ _ H1) as (s' & G & ->). destruct (F2 _ _ G) as (_ & HK' & Hg').
      destruct (IH s' HK') as (I1 & _); [intros; rewrite Hg'; apply HD; now right|]. destruct (I1 _ _ H2) as (s'' & G2 & ->). exists s''. split; [eapply gr_cons; eauto|reflexivity].
    + destruct (F2 _ _ H1) as (G & HK' & _). split; [now apply hr_fail|exact HK'].
    + destruct (F2 _ _ H1) as (G & HK' & Hg'). destruct (IH s1 HK') as (_ & I2); [intros; rewrite Hg'; apply HD; now right|]. destruct (I2 _ _ H2) as (G2 & HK2). split; [eapply hr_cons; eauto|exact HK2].
Qed.
Lemma gschedule_in E fs : forall l, mapOut (gschedule_one E) fs = Done l -> forall fd sc, In (fd, sc) l -> exists f, In f fs /\ E f = Some fd /\ auto_schedule true fd = Done sc.
Proof using.
  induction fs as [|f fs IH]; intros l H fd sc Hi; cbn [mapOut] in H; [injection H as <-; contradiction|].
  apply obind_done in H as ([fd1 sc1] & H1 & H). apply obind_done in H as (l1 & H2 & H). injection H as <-. destruct Hi as [Hi|Hi].
  - injection Hi as <- <-. unfold gschedule_one in H1. apply obind_done in H1 as (fd' & Hf & H1). apply obind_done in H1 as (sc' & Hs & H1).
    destruct (forallb _ _); [|discriminate]. injection H1 as <- <-. exists f. split; [now left|]. split; [|exact Hs]. destruct (E f); [injection Hf as ->; reflexivity|discriminate].
  - destruct (IH l1 H2 fd sc Hi) as (f' & Hf & HE). exists f'. split; [now right|exact HE].
Qed.
Lemma gcompute_seen s a : gkeys_in C s ->
  (forall E fs f fd sc, convert (dv_graph B s) a = Done (E, fs) -> In f fs -> E f = Some fd -> auto_schedule true fd = Done sc -> C (mkD (dv_graph B s) E fd sc)) ->
  (forall h' oc, hgcompute (gseen s) a h' oc -> exists s', gcompute B s a s' oc /\ h' = gseen s') /\
  (forall s' oc, gcompute B s a s' oc -> hgcompute (gseen s) a (gseen s') oc /\ gkeys_in C s').
Proof using Deq HC.
  intros HK HD.
  assert (HF : forall E fs l, convert (dv_graph B s) a = Done (E, fs) -> mapOut (gschedule_one E) fs = Done l -> forall fd sc, In (fd, sc) l -> C (mkD (dv_graph B s) E fd sc)).
  { intros E fs l H1 H2 fd sc Hi. destruct (gschedule_in E fs l H2 fd sc Hi) as (f & Hf & HE & Hs). eapply HD; eauto. }
  split; intros x oc H; inversion H as [e H1|E fs e H1 H2|E fs l s2 oc0 H1 H2 H3]; subst.
  - exists s. split; [now apply gc_conv|reflexivity].
  - exists s. split; [eapply gc_sched; eassumption|reflexivity].
  - destruct (gfuncs_seen E l s HK (HF _ _ _ H1 H2)) as (F1 & _). destruct (F1 _ _ H3) as (s' & G & ->). exists s'. split; [eapply gc_run; eassumption|reflexivity].
  - split; [now apply hc_conv|assumption].
  - split; [eapply hc_sched; eassumption|assumption].
  - destruct (gfuncs_seen E l s HK (HF _ _ _ H1 H2)) as (_ & F2). destruct (F2 _ _ H3) as (G & HK'). split; [eapply hc_run; eassumption|exact HK'].
Qed.
(* one materialize() call of the real process is that of Device.v *)
Lemma gmat_seen s a : gkeys_in C s -> wf_graph (dv_graph B s) -> (a < length (dv_graph B s))%nat -> (forall d, gkernel_of (dv_graph B s) a d -> C d) ->
  (forall h' oc, hgmat (gseen s) a h' oc -> exists s', gmat B s a s' oc /\ h' = gseen s') /\
  (forall s' oc, gmat B s a s' oc -> hgmat (gseen s) a (gseen s') oc /\ gkeys_in C s').
Proof using Deq HC.
  intros HK Hw Ha HD. destruct (base_total _ a Hw Ha) as (b & Hb & _ & HV).
  assert (HD' : forall bd E fs f fd sc, nth_error (dv_graph B s) b = Some bd -> is_const (n_op bd) = false ->
    convert (dv_graph B s) b = Done (E, fs) -> In f fs -> E f = Some fd -> auto_schedule true fd = Done sc -> C (mkD (dv_graph B s) E fd sc)).
  { intros bd E fs f fd sc H1 H2 H3 H4 H5 H6. apply HD. exists b, bd, E, fs, f, fd, sc. repeat (split; [assumption|]). reflexivity. }
  clear HD Hb Ha. induction HV as [b nd Hn Hnv|a nd p pd b Hn Hvw Hp Hpd _ Hv IH].
  - split; intros x oc H; inversion H as [a0 nd0 H1 H2|a0 nd0 b0 r0 s0 oc0 H1 H2 H3 H4|a0 nd0 s0 oc0 H1 H2 H3 H4]; subst;
      try change (hd_graph (gseen s)) with (dv_graph B s) in H1; assert (nd0 = nd) by congruence; subst nd0; try congruence.
    + exists s. split; [eapply gm_const; eassumption|reflexivity].
    + destruct (gcompute_seen s b HK) as (F1 & _); [intros; eapply HD'; eauto|]. destruct (F1 _ _ H4) as (s' & G & ->). exists s'. split; [eapply gm_comp; eassumption|reflexivity].
    + split; [eapply hm_const; eassumption|assumption].
    + destruct (gcompute_seen s b HK) as (_ & F2); [intros; eapply HD'; eauto|]. destruct (F2 _ _ H4) as (G & HK'). split; [eapply hm_comp; eassumption|exact HK'].
  - destruct (IH HD') as (I1 & I2). split; intros x oc H; inversion H as [a0 nd0 H1 H2|a0 nd0 b0 r0 s0 oc0 H1 H2 H3 H4|a0 nd0 s0 oc0 H1 H2 H3 H4]; subst;
      try change (hd_graph (gseen s)) with (dv_graph B s) in H1; assert (nd0 = nd) by congruence; subst nd0; try congruence; try (destruct (n_op nd); discriminate).
    + rewrite H3 in Hp. injection Hp as ->. destruct (I1 _ _ H4) as (s' & G & ->). exists s'. split; [eapply gm_view; eassumption|reflexivity].
    + rewrite H3 in Hp. injection Hp as ->. destruct (I2 _ _ H4) as (G & HK'). split; [eapply hm_view; eassumption|exact HK'].
Qed.
Lemma gcall_seen s c : gseen (fst (gcall B s c)) = mkHD (fst (gcall B (hd_dev (gseen s)) c)) (hd_cache (gseen s)) /\ dv_cache B (fst (gcall B s c)) = dv_cache B s.
Proof using. unfold gseen, gcall. cbn [hd_dev hd_cache reset_dev set_cache dv_graph]. destruct (run_call (dv_graph B s) c) as [[g r]|e]; split; reflexivity. Qed.
Lemma gtolist_seen s a : gseen (fst (gtolist B s a)) = mkHD (fst (gtolist B (hd_dev (gseen s)) a)) (hd_cache (gseen s)) /\ dv_cache B (fst (gtolist B s a)) = dv_cache B s /\
  snd (gtolist B (hd_dev (gseen s)) a) = snd (gtolist B s a).
Proof using.
  unfold gseen, gtolist. cbn [hd_dev hd_cache reset_dev set_cache dv_graph dv_host dv_ptr dv_mem]. destruct (nth_error (dv_graph B s) a) as [nd|]; [|repeat split].
  destruct (base (dv_graph B s) a) as [b|]; [|repeat split]. destruct (dv_host B s b) as [l|]; [repeat split|]. destruct (dv_ptr B s b) as [p|]; [|repeat split].
  destruct (dv_mem B s p); repeat split.
Qed.
Lemma die_seen X : forall s, gseen (die B s X) = mkHD (die B (hd_dev (gseen s)) X) (hd_cache (gseen s)) /\ dv_cache B (die B s X) = dv_cache B s.
Proof using.
  induction X as [|n X IH]; intros s; [split; reflexivity|]. change (die B s (n :: X)) with (die B (die1 B s n) X). change (die B (hd_dev (gseen s)) (n :: X)) with (die B (die1 B (hd_dev (gseen s)) n) X).
  destruct (IH (die1 B s n)) as (I1 & I2).
  assert (H1 : die1 B (hd_dev (gseen s)) n = hd_dev (gseen (die1 B s n))) by (unfold die1; cbn [gseen hd_dev reset_dev set_cache dv_ptr]; destruct (dv_ptr B s n); reflexivity).
  assert (H2 : dv_cache B (die1 B s n) = dv_cache B s) by (unfold die1; destruct (dv_ptr B s n); reflexivity).
  rewrite I1, H1, I2, H2. split; [|reflexivity]. cbn [gseen hd_cache]. now rewrite H2.
Qed.
End Safe.
End GDigest.
