(* Properties C05 and C34, CUDA: the driver calls of one materialize(). *)
From Verif Require Import Base BaseFacts Util UtilFacts Lang Spec Graph Api ApiFacts Denote DenoteFacts ArrayLit Reach Tolist TolistFacts Prog Algo AlgoSem AlgoConv AlgoConvert AlgoConvert2 AlgoTop AlgoMore LangInst Kernel Sched Codegen Backends CacheKey KernelRun BackendFacts
  Runtime RuntimeFacts RuntimeFacts2 History HistFacts RtInst Frame RuntimeTop Parallel ParGpu Device DevFacts DevRun DevHist DevProg DevAny DevTools PropDevice DevReset DevStop DevStack DevOrder.
Open Scope Z_scope.
Open Scope list_scope.
Notation cuda := c_backend.

(* One materialize() in any GPU process - whatever was interrupted or failed before, whatever the driver returns - of an array a whose
   elements are computed in the buffer of b (b is a, or a is a view of it).  [new] are the driver calls it adds.
   Every kernel is launched at most once; only arrays that b is computed from are launched; every input of a launch is a literal of the user
   or was launched earlier in this same call; and a call that returns has launched b, last.  A call that raises stopped between launches.
   (InternalErr: a kernel ran into undefined behaviour, excluded under the conditions of C41.) *)
Theorem C05_launch_order_cuda : forall lm s a b s' oc, gstop_any (cuda lm) s -> valid (dv_graph _ s) a -> base (dv_graph _ s) a = Some b -> computed (dv_graph _ s) b ->
  gmat (cuda lm) s a s' oc -> oc <> Throw InternalErr ->
  exists new, trace s' = trace s ++ new /\ NoDup (launches _ new) /\ (forall f, In f (launches _ new) -> cone (dv_graph _ s) b f) /\
    (forall n1 f p ins n2, new = n1 ++ EvLaunch _ f p ins :: n2 -> forall m q vs, In (m, q, vs) ins ->
       (exists nd vals, nth_error (dv_graph _ s) m = Some nd /\ n_op nd = OConst vals) \/ In m (launches _ n1)) /\
    (oc = Done tt -> exists l, launches _ new = l ++ [b]).
Proof.
  intros lm s a b s' oc Hs Ha Hb (bd & Hbd & Hc) HM Ho. destruct (gstop_any_hinv (cuda lm) (c_lang_ok lm) s Hs) as [Hr _ _ _ _ _].
  pose proof (base_view _ _ _ (reach_wf _ Hr) Hb Ha) as Hv. pose proof (gmat_ev (cuda lm) _ a b Hv s s' oc bd eq_refl Hr Hbd HM) as HX. rewrite Hc in HX. destruct (HX Ho) as (new & N1 & N2 & N3 & N4 & N5 & _).
  exists new. split; [exact N1|]. split; [exact N3|]. split; [exact N4|]. split; [|exact N5]. intros n1 f p ins n2 E m q vs Hin. rewrite E in N2. exact (ordered_at (cuda lm) _ n1 [] f p ins n2 N2 m q vs Hin).
Qed.
Print Assumptions C05_launch_order_cuda.
(* and these launches are the kernels of the conversion, in its order: all of them if the call returns, a prefix if it raises.
   So the number of launches does not depend on the cache or on what was computed before: arrays already computed are computed again *)
Theorem C05_launches_cuda : forall lm s a b s' oc E fs, gstop_any (cuda lm) s -> valid (dv_graph _ s) a -> base (dv_graph _ s) a = Some b -> computed (dv_graph _ s) b ->
  gmat (cuda lm) s a s' oc -> oc <> Throw InternalErr -> convert (dv_graph _ s) b = Done (E, fs) ->
  exists new r, trace s' = trace s ++ new /\ fs = launches _ new ++ r /\ (oc = Done tt -> r = []).
Proof.
  intros lm s a b s' oc E fs Hs Ha Hb (bd & Hbd & Hc) HM Ho HE. destruct (gstop_any_hinv (cuda lm) (c_lang_ok lm) s Hs) as [Hr _ _ _ _ _].
  pose proof (base_view _ _ _ (reach_wf _ Hr) Hb Ha) as Hv. pose proof (gmat_ev (cuda lm) _ a b Hv s s' oc bd eq_refl Hr Hbd HM) as HX. rewrite Hc in HX. destruct (HX Ho) as (new & N1 & _ & _ & _ & _ & N6).
  destruct (N6 E fs HE) as (r & R1 & R2). exists new, r. auto.
Qed.
Print Assumptions C05_launches_cuda.

(* so which kernels a successful materialize() launches, and in which order, depends on the expression graph only: not on the cache, on
   earlier results or on failures before.  In particular (t = s') a second call launches everything again: results are not memoised *)
Theorem C05_history_free_cuda : forall lm s t a b s' t', gstop_any (cuda lm) s -> gstop_any (cuda lm) t -> dv_graph (cuda lm) t = dv_graph (cuda lm) s ->
  valid (dv_graph _ s) a -> base (dv_graph _ s) a = Some b -> computed (dv_graph _ s) b -> gmat (cuda lm) s a s' (Done tt) -> gmat (cuda lm) t a t' (Done tt) ->
  exists n1 n2, trace s' = trace s ++ n1 /\ trace t' = trace t ++ n2 /\ launches _ n1 = launches _ n2 /\ launches _ n1 <> [].
Proof.
  intros lm s t a b s' t' Hs Ht Hg Ha Hb Hc H1 H2. pose proof Hc as (bd & Hbd & Hcc).
  destruct (gstop_any_hinv (cuda lm) (c_lang_ok lm) s Hs) as [Hr _ _ _ _ _]. pose proof (base_view _ _ _ (reach_wf _ Hr) Hb Ha) as Hv.
  assert (exists E fs, convert (dv_graph (cuda lm) s) b = Done (E, fs)) as (E & fs & HE).
  { pose proof (gmat_base (cuda lm) s a b bd s' (Done tt) Hv Hbd H1) as HX. rewrite Hcc in HX. inversion HX; subst; eauto. }
  destruct (C05_launches_cuda lm s a b s' (Done tt) E fs Hs Ha Hb Hc H1 ltac:(discriminate) HE) as (n1 & r1 & A1 & A2 & A3).
  destruct (C05_launches_cuda lm t a b t' (Done tt) E fs Ht) as (n2 & r2 & B1 & B2 & B3); rewrite ?Hg; auto; [discriminate|].
  destruct (C05_launch_order_cuda lm s a b s' (Done tt) Hs Ha Hb Hc H1 ltac:(discriminate)) as (n1' & D1 & _ & _ & _ & D5).
  exists n1, n2. split; [exact A1|]. split; [exact B1|]. rewrite (A3 eq_refl), app_nil_r in A2. rewrite (B3 eq_refl), app_nil_r in B2. split; [congruence|].
  rewrite A1 in D1. apply app_inv_head in D1. subst n1'. destruct (D5 eq_refl) as (l & ->). destruct l; discriminate.
Qed.
Print Assumptions C05_history_free_cuda.

(* A literal or a view of one: materialize() returns at once and does nothing - no launch, no allocation, no copy. *)
Theorem C34_views_of_constants_cuda : forall lm s a b bd, gstop_any (cuda lm) s -> valid (dv_graph _ s) a -> base (dv_graph _ s) a = Some b ->
  nth_error (dv_graph _ s) b = Some bd -> is_const (n_op bd) = true -> forall s' oc, gmat (cuda lm) s a s' oc <-> s' = s /\ oc = Done tt.
Proof.
  intros lm s a b bd Hs Ha Hb Hbd Hc s' oc. destruct (gstop_any_hinv (cuda lm) (c_lang_ok lm) s Hs) as [Hr _ _ _ _ _]. pose proof (base_view _ _ _ (reach_wf _ Hr) Hb Ha) as Hv. split.
  - intros HM. pose proof (gmat_ev (cuda lm) _ a b Hv s s' oc bd eq_refl Hr Hbd HM) as HX. now rewrite Hc in HX.
  - intros [-> ->]. clear Hs Ha Hb. induction Hv as [a nd Hn H1|a nd c cd b Hn H1 Hi Hcd Hal Hv2 IH].
    + eapply gm_const; [exact Hn|]. congruence.
    + destruct (n_in nd) as [|c0 r] eqn:Ei; [discriminate|]. injection Hi as ->. eapply gm_view; eauto.
Qed.
Print Assumptions C34_views_of_constants_cuda.

(* concrete, the program of C41_nonvacuous: materialize() of the last array launches three kernels, the kernel of 5 last; its first input,
   a transposed literal, needs none *)
Example C05_cuda_nonvacuous : exists s s', let g := dv_graph cu s in gstop_any cu s /\ valid g 5 /\ base g 5 = Some 5%nat /\ computed g 5 /\
  gmat cu s 5 s' (Done tt) /\ (exists new, trace s' = trace s ++ new /\ launches cu new = [2; 4; 5]%nat) /\
  valid g 1 /\ base g 1 = Some 0%nat /\ (exists bd, nth_error g 0 = Some bd /\ is_const (n_op bd) = true).
Proof.
  destruct (gstate_hist cu true (gkernel_of (Prog.prog exDc) 5) exDc) as [HG HA]. pose proof (HA 5%nat) as Hal.
  assert (Hg : dv_graph cu (gstate cu exDc) = Prog.prog exDc) by (vm_compute; reflexivity).
  assert (Hal' : dv_alive cu (gstate cu exDc) 5 = true) by (rewrite Hal, Hg; vm_compute; reflexivity).
  destruct (exD_any _ _ _ eq_refl Hg eq_refl HG Hal') as (_ & _ & _ & Hcm & _ & _ & s' & HM & _).
  assert (HS : gstop_any cu (gstate cu exDc)).
  { generalize (c_backend_ok no_libm). intros _. unfold gstate. generalize exDc. intros cs.
    assert (H0 : gstop_any cu (dev0 cu) /\ all_alive cu (dev0 cu)) by (split; [apply gta_init|intros n; reflexivity]). revert H0. generalize (dev0 cu). induction cs as [|c cs IH]; intros s0 [H1 H2]; cbn; auto.
    destruct (call_okb _ c) eqn:Ec; auto. apply IH. split; [|now apply gcall_alive]. apply gta_call; auto; [now apply call_okb_ok|]. intros g' r n nd i _ _ _ _ Hi. rewrite H2. now apply Nat.ltb_lt. }
  assert (H5 : base (Prog.prog exDc) 5 = Some 5%nat) by (vm_compute; reflexivity). assert (exists E, convert (Prog.prog exDc) 5 = Done (E, [2%nat; 4%nat; 5%nat])) as (E & Hcv) by (eexists; vm_compute; reflexivity).
  assert (Hv5 : valid (Prog.prog exDc) 5) by (vm_compute; lia).
  exists (gstate cu exDc), s'. cbn zeta.
  destruct (C05_launches_cuda no_libm (gstate cu exDc) 5 5 s' (Done tt) E [2; 4; 5]%nat HS) as (new & r & N1 & N2 & N3); rewrite ?Hg; auto; [discriminate|].
  rewrite (N3 eq_refl), app_nil_r in N2. split; [exact HS|]. split; [exact Hv5|]. split; [exact H5|]. split; [exact Hcm|]. split; [exact HM|]. split; [exists new; split; [exact N1|congruence]|].
  split; [vm_compute; lia|]. split; [vm_compute; reflexivity|]. eexists. split; vm_compute; reflexivity.
Qed.
