(* Property C44, CUDA: materializing the same expression again compiles nothing. *)
From Verif Require Import Base BaseFacts Util UtilFacts Lang Spec Graph Api ApiFacts Denote DenoteFacts Reach Tolist Prog Algo AlgoSem AlgoConv AlgoConvert AlgoConvert2 AlgoTop AlgoMore LangInst Kernel Sched Codegen Backends CacheKey KernelRun BackendFacts
  Runtime RuntimeFacts RuntimeFacts2 History HistFacts RtInst Frame RuntimeTop Parallel ParGpu Device DevFacts DevRun DevHist DevProg DevAny DevTools PropDevice DevReset DevStop Copy CopyConv CopyRun PropCache DevCopy.
Open Scope Z_scope.
Open Scope list_scope.
Notation cuda := c_backend.

(* whatever happens after s on the GPU process except a kernel cache reset: any calls, materialize() that returns, raises or is interrupted
   at any point, tolist, garbage collection *)
Inductive gunreset (B : cpu_backend) (s : dev B) : dev B -> Prop :=
| gur_here : gunreset B s s
| gur_call t c : gunreset B s t -> gunreset B s (fst (gcall B t c))
| gur_mat t a t' oc : gunreset B s t -> gmat B t a t' oc -> gunreset B s t'
| gur_stop t a t' : gunreset B s t -> gstopped B t a t' -> gunreset B s t'
| gur_tolist t a : gunreset B s t -> gunreset B s (fst (gtolist B t a))
| gur_die t D : gunreset B s t -> gunreset B s (die B t D).
Lemma gunreset_grow B s t : gunreset B s t -> gcache_le B s t /\ exists e, dv_graph B t = dv_graph B s ++ e.
Proof.
  assert (HX : forall t t', gcache_le B s t -> (exists e, dv_graph B t = dv_graph B s ++ e) -> dv_graph B t' = dv_graph B t /\ gcache_le B t t' -> gcache_le B s t' /\ exists e, dv_graph B t' = dv_graph B s ++ e).
  { intros u u' L (e & G) [G2 L2]. split; [eapply gcache_le_trans; eauto|]. exists e. congruence. }
  induction 1 as [|t c Ht [L (e & G)]|t a t' oc Ht [L G] HM|t a t' Ht [L G] HM|t a Ht [L G]|t D Ht [L G]].
  - split; [apply gcache_le_refl|]. exists []. now rewrite app_nil_r.
  - destruct (gcall_grow B t c) as [C (e2 & G2)]. split; [unfold gcache_le in *; rewrite C; exact L|]. exists (e ++ e2). rewrite G2, G, app_assoc. reflexivity.
  - eapply HX; eauto. eapply gmat_grow; eauto.
  - eapply HX; eauto. eapply gmat_stop_grow; eauto.
  - eapply HX; eauto. apply old_entry, gtolist_fix.
  - eapply HX; eauto. apply old_entry, die_fix.
Qed.

(* x.materialize() returned once; then, in any later state reached without a cache reset - in particular after the literals' numbers were
   changed, after arrays died, after other calls raised or were interrupted - materializing any array y that is the same expression compiles
   nothing: no kernel enters the cache and the code generator does not run.  Whether or not y's materialize() raises.  No side condition. *)
Theorem C44_no_recompile_cuda : forall lm s x s1 t y t' oc, gmat (cuda lm) s x s1 (Done tt) -> gunreset (cuda lm) s1 t ->
  same_expr (dv_graph (cuda lm) s) x (dv_graph (cuda lm) t) y -> gmat (cuda lm) t y t' oc ->
  dv_cache (cuda lm) t' = dv_cache (cuda lm) t /\ dv_tmp (cuda lm) t' = dv_tmp (cuda lm) t.
Proof.
  intros lm s x s1 t y t' oc H1 HU HS H2. destruct (gunreset_grow _ _ _ HU) as [HL (e & He)]. destruct (gmat_grow _ _ _ _ _ H1) as [G1 _].
  assert (Hl : (length (dv_graph (cuda lm) s) <= length (dv_graph (cuda lm) t))%nat) by (rewrite He, G1, app_length; lia).
  exact (proj2 (gmaterialize_copy (cuda lm) s x s1 t y t' oc HS Hl H1 HL H2)).
Qed.
Print Assumptions C44_no_recompile_cuda.

(* in particular x itself, any number of times: in any GPU process, whatever was interrupted or failed before *)
Theorem C44_same_array_cuda : forall lm s x s1 t t' oc, gstop_any (cuda lm) s -> valid (dv_graph (cuda lm) s) x -> gmat (cuda lm) s x s1 (Done tt) -> gunreset (cuda lm) s1 t ->
  gmat (cuda lm) t x t' oc -> dv_cache (cuda lm) t' = dv_cache (cuda lm) t /\ dv_tmp (cuda lm) t' = dv_tmp (cuda lm) t.
Proof.
  intros lm s x s1 t t' oc Hs Hx H1 HU H2. destruct (gstop_any_hinv (cuda lm) (c_lang_ok lm) s Hs) as [Hr _ _ _ _ _]. eapply C44_no_recompile_cuda; eauto.
  destruct (gunreset_grow _ _ _ HU) as [_ (e & He)]. destruct (gmat_grow _ _ _ _ _ H1) as [G1 _]. rewrite He, G1. apply same_expr_later; auto.
Qed.
Print Assumptions C44_same_array_cuda.

(* the cache never holds two kernels under one key, in any GPU process: a kernel is compiled again only after a reset *)
Theorem C44_one_entry_per_key_cuda : forall lm s, gstop_any (cuda lm) s -> NoDup (map fst (dv_cache (cuda lm) s)).
Proof.
  intros lm. set (B := cuda lm). assert (MEM : forall c k, cache_get c k = None -> ~ In k (map fst c)).
  { induction c as [|[k' x] c IH]; intros k H Hin; [destruct Hin|]. cbn in H, Hin. destruct (kkey_eq_dec k' k); [discriminate|]. destruct Hin as [|Hin]; [auto|]. exact (IH k H Hin). }
  set (P := fun s : dev B => NoDup (map fst (dv_cache B s))).
  assert (PF : forall s s', gfix B s s' -> P s -> P s') by (unfold P; intros s s' (_ & C & _) H; now rewrite C).
  assert (PN : forall s key kern k' s', cache_get (dv_cache B s) key = None -> gfix B (set_cache B s ((key, kern) :: dv_cache B s) k') s' -> P s -> P s').
  { intros s key kern k' s' HG HF HP. apply (PF _ _ HF). unfold P. cbn. constructor; auto. }
  assert (RF : forall E fd sc s s' o, grun_func B E fd sc s s' o -> P s -> P s').
  { intros E fd sc s s' o H HP. inversion H; subst; auto;
    match goal with HI : ginvoke _ _ _ _ _ _ _ _ |- _ => apply ginvoke_fix in HI as HF end; [eapply PF; eauto|eapply PN; eauto]. }
  assert (RS : forall E l s s' o, grun_funcs B E l s s' o -> P s -> P s') by (intros E l s s' o H; induction H; eauto).
  assert (MT : forall s a s' o, gmat B s a s' o -> P s -> P s').
  { intros s a s' o H. induction H as [| |a nd s' oc Hn Hc Hv HM]; auto. intros HP. inversion HM; subst; eauto. }
  assert (SF : forall E fd sc s s', gstopped_func B E fd sc s s' -> P s -> P s').
  { intros E fd sc s s' H HP. inversion H; subst; auto;
    match goal with HI : gstopped_invoke _ _ _ _ _ _ _ |- _ => apply ginvoke_stop_fix in HI as HF end; [eapply PN; eauto|eapply PF; eauto]. }
  assert (SS : forall E l s s', gstopped_funcs B E l s s' -> P s -> P s') by (intros E l s s' H; induction H; eauto).
  assert (ST : forall s a s', gstopped B s a s' -> P s -> P s') by (intros s a s' H; induction H; eauto).
  change (forall s, gstop_any B s -> P s). induction 1 as [|s c Hs IH Hc Hu|s a s' oc Hs IH Ha HM Ho|s a s' Hs IH Ha HM|s a Hs IH Ha|s D Hs IH HD|s Hs IH].
  - constructor.
  - unfold P. rewrite (proj1 (gcall_grow B s c)). exact IH.
  - eauto.
  - eauto.
  - eapply PF; [apply gtolist_fix|exact IH].
  - eapply PF; [apply die_fix|exact IH].
  - constructor.
Qed.
Print Assumptions C44_one_entry_per_key_cuda.

Lemma gtolist_alive_same B s a : dv_alive B (fst (gtolist B s a)) = dv_alive B s.
Proof.
  unfold gtolist. destruct (nth_error _ _); [|reflexivity]. destruct (base _ _) as [b|]; [|reflexivity]. destruct (dv_host B s b); [reflexivity|]. destruct (dv_ptr B s b) as [p|]; [|reflexivity].
  destruct (dv_mem B s p); reflexivity.
Qed.
(* concrete: the last array of the program of C41_nonvacuous, materialized, and again after another call *)
Example C44_cuda_nonvacuous : exists s s1 t', let g := dv_graph cu s in gstop_any cu s /\ valid g 5 /\ gmat cu s 5 s1 (Done tt) /\
  gunreset cu s1 (fst (gtolist cu s1 5)) /\ gmat cu (fst (gtolist cu s1 5)) 5 t' (Done tt).
Proof.
  destruct (gstate_hist cu true (gkernel_of (Prog.prog exDc) 5) exDc) as [HG HA]. pose proof (HA 5%nat) as Hal.
  assert (Hg : dv_graph cu (gstate cu exDc) = Prog.prog exDc) by (vm_compute; reflexivity).
  assert (Hal' : dv_alive cu (gstate cu exDc) 5 = true) by (rewrite Hal, Hg; vm_compute; reflexivity).
  destruct (exD_any _ _ _ eq_refl Hg eq_refl HG Hal') as (HC & _ & Hv & Hcm & Hm & _ & s1 & HM & _).
  assert (HS : gstop_any cu (gstate cu exDc)).
  { generalize (c_backend_ok no_libm). intros _. unfold gstate. generalize exDc. intros cs.
    assert (H0 : gstop_any cu (dev0 cu) /\ all_alive cu (dev0 cu)) by (split; [apply gta_init|intros n; reflexivity]). revert H0. generalize (dev0 cu). induction cs as [|c cs IH]; intros s0 [H1 H2]; cbn; auto.
    destruct (call_okb _ c) eqn:Ec; auto. apply IH. split; [|now apply gcall_alive]. apply gta_call; auto; [now apply call_okb_ok|]. intros g' r n nd i _ _ _ _ Hi. rewrite H2. now apply Nat.ltb_lt. }
  assert (Hb5 : base (Prog.prog exDc) 5 = Some 5%nat) by (vm_compute; reflexivity).
  pose proof Hcm as (bd & Hbd & Hbc). rewrite <- Hg in Hbd, Hb5, Hm, Hv, HC, HG.
  destruct (gmat_top cu (c_backend_ok _) _ HC (gstate cu exDc) 5 5 bd s1 (Done tt) (ghist_inv cu (c_backend_ok _) _ HC _ HG) Hal' Hb5 Hbd Hm ltac:(auto) HM) as (_ & Hgr & Hae & _ & _ & HLa).
  destruct (gmat_grow _ _ _ _ _ HM) as [G1 _].
  assert (HG1 : ghist cu true (gkernel_of (dv_graph cu (gstate cu exDc)) 5) s1) by (eapply gh_mat; [exact HG|exact Hal'|intros b Hb; rewrite Hb5 in Hb; injection Hb as <-; exact Hm|auto|exact HM]).
  assert (Hal1 : dv_alive cu s1 5 = true) by (now rewrite Hae).
  assert (HR : readable cu s1 5).
  { intros b Hb. rewrite Hgr, Hb5 in Hb. injection Hb as <-. destruct HLa as [H|H]; [congruence|]. right. right. exact H. }
  pose proof (gh_tolist cu true _ s1 5 HG1 Hal1 (fun _ => HR)) as HG2. set (t := fst (gtolist cu s1 5)) in *. destruct (gtolist_fix cu s1 5) as (G2 & _). fold t in G2.
  assert (Gt : dv_graph cu t = dv_graph cu (gstate cu exDc)) by congruence.
  assert (Hal2 : dv_alive cu t 5 = true) by (unfold t; rewrite gtolist_alive_same; exact Hal1).
  destruct (C41_succeeds no_libm _ t 5 5 HC HG2 Hal2) as (t' & HM2); rewrite ?Gt; auto.
  - apply no_scalar_reshape_all. rewrite Hg. vm_compute. reflexivity.
  - intros n nd vals _. apply (accb_ok cu). rewrite Hg. vm_compute. reflexivity.
  - intros n nd _. apply extb_ok. rewrite Hg. vm_compute. reflexivity.
  - exists (gstate cu exDc), s1, t'. cbn zeta. split; [exact HS|]. split; [rewrite Hg; vm_compute; lia|]. split; [exact HM|]. split; [apply gur_tolist, gur_here|exact HM2].
Qed.
