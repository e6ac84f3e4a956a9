(* Properties C12 and C14, CUDA: the value shown does not depend on the history, and repeating materialize() does not change it. *)
From Verif Require Import Base BaseFacts Util UtilFacts Lang Spec Graph Api ApiFacts Denote ArrayLit SpecFacts DenoteFacts Reach Tolist TolistFacts Prog
  Algo AlgoSem AlgoConvert AlgoConvert2 Kernel Sched Codegen Backends CacheKey KernelRun KernelRun2 BackendFacts AlgoTop AlgoMore Runtime RuntimeFacts RuntimeFacts2 History HistFacts RtInst LangInst CacheFacts Frame HistFacts2 HistTools RuntimeTop Safety PropRuntime
  Parallel ParGpu Device DevFacts DevRun DevHist DevProg DevAny DevTools DevStale PropDevice DevReset DevStop PropDevStop DevCopy PropDevCopy DevAgain.
Open Scope Z_scope.
Open Scope list_scope.
Notation cuda := c_backend.

Lemma gstop_later_trans B C s t u : gstop_later B C s t -> gstop_later B C t u -> gstop_later B C s u.
Proof.
  intros H1 H2. induction H2 as [|t0 c H2 IH H3 H4|t0 a t' oc H2 IH H3 H4 H5 H6|t0 a t' H2 IH H3 H4 H5 H6|t0 a H2 IH H3 H4|t0 D H2 IH H3|t0 H2 IH]; auto.
  - now apply gtl_call.
  - eapply gtl_mat; eauto.
  - eapply gtl_stop; eauto.
  - now apply gtl_tolist.
  - now apply gtl_die.
  - now apply gtl_reset.
Qed.

Lemma view_app g e a b : view_of g true a b -> view_of (g ++ e) true a b.
Proof.
  intros Hv. induction Hv as [b nd Hb Hnv|a nd p pd b Hn Hvw Hp Hpd Hal Hv IH].
  - eapply vo_self; eauto. rewrite nth_error_app1; auto. apply nth_error_Some. congruence.
  - eapply vo_step with (pd := pd); eauto; rewrite nth_error_app1; auto; apply nth_error_Some; congruence.
Qed.
(* Two GPU processes with different histories (s1, s2; failed and interrupted calls, dead arrays and cache resets included), both
   containing the expression graph g as a prefix of what they built; in both x is materialized successfully and then anything else happens
   (t1, t2).  As long as x lives x.tolist() is the same list in both.  PARTIAL: key_safe and gmat_ok as in C41_tolist_partial. *)
Theorem C12_history_free_cuda_partial : forall lm C1 C2 s1 s2 g e1 e2 a b s1' s2' t1 t2, key_safe C1 -> key_safe C2 ->
  gstop_hist (cuda lm) C1 s1 -> gstop_hist (cuda lm) C2 s2 -> dv_graph _ s1 = g ++ e1 -> dv_graph _ s2 = g ++ e2 -> valid g a ->
  view_of g true a b -> computed g b -> gmat_ok (cuda lm) (dv_graph _ s1) b -> gmat_ok (cuda lm) (dv_graph _ s2) b ->
  (forall d, gkernel_of (dv_graph _ s1) a d -> C1 d) -> (forall d, gkernel_of (dv_graph _ s2) a d -> C2 d) ->
  dv_alive _ s1 a = true -> dv_alive _ s2 a = true -> gmat (cuda lm) s1 a s1' (Done tt) -> gmat (cuda lm) s2 a s2' (Done tt) ->
  gstop_later (cuda lm) C1 s1' t1 -> gstop_later (cuda lm) C2 s2' t2 -> dv_alive _ t1 a = true -> dv_alive _ t2 a = true ->
  exists l, snd (gtolist (cuda lm) t1 a) = Done l /\ snd (gtolist (cuda lm) t2 a) = Done l.
Proof.
  intros lm C1 C2 s1 s2 g e1 e2 a b s1' s2' t1 t2 HC1 HC2 Hs1 Hs2 G1 G2 Ha Hv (bd & Hbd & Hc) Hm1 Hm2 Hk1 Hk2 A1 A2 M1 M2 L1 L2 B1 B2.
  pose proof (fun e => view_app g e a b Hv) as HV.
  assert (HD : forall e, computed (g ++ e) b) by (intros e; exists bd; split; auto; rewrite nth_error_app1; auto; apply nth_error_Some; congruence).
  destruct (C59_cuda_retry_partial lm C1 s1 a b s1' t1 HC1 Hs1 A1) as (l1 & P1 & Q1); auto; try (rewrite G1; auto; fail).
  destruct (C59_cuda_retry_partial lm C2 s2 a b s2' t2 HC2 Hs2 A2) as (l2 & P2 & Q2); auto; try (rewrite G2; auto; fail).
  rewrite G1, den_app in Q1 by exact Ha. rewrite G2, den_app in Q2 by exact Ha. exists l1. split; auto. congruence.
Qed.
Print Assumptions C12_history_free_cuda_partial.

(* x.materialize() returned, anything happened (t), x.materialize() returned again, anything happened (u): x.tolist() is the same at t and at u.
   PARTIAL: conditions of C41_tolist_partial, for both calls. *)
Theorem C14_cuda_partial : forall lm C s a b s1 t t1 u, key_safe C -> gstop_hist (cuda lm) C s -> dv_alive _ s a = true ->
  view_of (dv_graph _ s) true a b -> computed (dv_graph _ s) b -> gmat_ok (cuda lm) (dv_graph _ s) b -> (forall d, gkernel_of (dv_graph _ s) a d -> C d) ->
  gmat (cuda lm) s a s1 (Done tt) -> gstop_later (cuda lm) C s1 t -> dv_alive _ t a = true ->
  gmat_ok (cuda lm) (dv_graph _ t) b -> (forall d, gkernel_of (dv_graph _ t) a d -> C d) -> gmat (cuda lm) t a t1 (Done tt) ->
  gstop_later (cuda lm) C t1 u -> dv_alive _ u a = true ->
  exists l, snd (gtolist (cuda lm) t a) = Done l /\ snd (gtolist (cuda lm) u a) = Done l.
Proof.
  intros lm C s a b s1 t t1 u HC Hs Ha Hv Hcm Hm Hk M1 L1 At Hm2 Hk2 M2 L2 Au.
  destruct (C59_cuda_retry_partial lm C s a b s1 t HC Hs Ha Hv Hcm Hm Hk M1 L1 At) as (l & P & Q).
  assert (L : gstop_later (cuda lm) C s1 u).
  { eapply gstop_later_trans; [|exact L2]. eapply gtl_mat; [exact L1|exact At| |exact Hk2|exact M2]. intros b' Hb'.
    pose proof (gstop_hist_inv (cuda lm) (c_backend_ok lm) C HC s Hs) as HI.
    pose proof Hcm as (bd & Hbd & _).
    assert (Hb : base (dv_graph (cuda lm) s) a = Some b) by (eapply view_of_base; eauto; apply reach_wf, (di_reach _ _ _ _ HI)).
    destruct (gmat_top (cuda lm) (c_backend_ok lm) C HC s a b bd s1 (Done tt) HI Ha Hb Hbd Hm Hk M1) as (HI1 & G & _).
    destruct (gstop_later_grow (cuda lm) (c_backend_ok lm) C HC s1 t HI1 L1) as (HIt & (e & E) & _). rewrite G in E.
    assert (Hvt : view_of (dv_graph (cuda lm) t) true a b) by (rewrite E; now apply view_app).
    pose proof (view_of_base _ _ _ _ (reach_wf _ (di_reach _ _ _ _ HIt)) Hvt) as Hbt. congruence. }
  destruct (C59_cuda_retry_partial lm C s a b s1 u HC Hs Ha Hv Hcm Hm Hk M1 L Au) as (l2 & P2 & Q2). exists l. split; auto. congruence.
Qed.
Print Assumptions C14_cuda_partial.

(* x.materialize() again, right after it returned, in any GPU process (whatever failed or was interrupted before; no condition on keys or sizes):
   the driver has nothing to refuse.  It allocates no memory, and it returns.  (InternalErr: a kernel ran into undefined behaviour, excluded
   under the conditions of C41, next theorem.) *)
Theorem C14_again_cuda : forall lm s a s1 s2 oc, gstop_any (cuda lm) s -> gmat (cuda lm) s a s1 (Done tt) -> gmat (cuda lm) s1 a s2 oc ->
  (oc = Done tt \/ oc = Throw InternalErr) /\ dv_ptr (cuda lm) s2 = dv_ptr (cuda lm) s1.
Proof.
  intros lm s a s1 s2 oc Hs H1 H2. destruct (gstop_any_hinv (cuda lm) (c_lang_ok lm) s Hs) as [_ _ _ _ HP _].
  refine (gmat_again (cuda lm) s a s1 (Done tt) H1 eq_refl _ s2 oc H2). intros n p Hp. destruct (HP n p Hp) as (nd & vs & _ & E & _). congruence.
Qed.
Print Assumptions C14_again_cuda.
Lemma ghist_owns lm C s : key_safe C -> gstop_hist (cuda lm) C s -> owns (cuda lm) s.
Proof.
  intros HC Hs n p Hp. destruct (di_ptr _ _ _ _ (gstop_hist_inv (cuda lm) (c_backend_ok lm) C HC s Hs) n p Hp) as (_ & nd & vs & _ & E & _). congruence.
Qed.
(* PARTIAL: key_safe and gmat_ok as in C41 *)
Theorem C14_again_returns_cuda_partial : forall lm C s a b s1 s2 oc, key_safe C -> gstop_hist (cuda lm) C s -> dv_alive _ s a = true -> base (dv_graph _ s) a = Some b ->
  gmat_ok (cuda lm) (dv_graph _ s) b -> (forall d, gkernel_of (dv_graph _ s) a d -> C d) -> gmat (cuda lm) s a s1 (Done tt) -> gmat (cuda lm) s1 a s2 oc ->
  oc = Done tt /\ dv_ptr (cuda lm) s2 = dv_ptr (cuda lm) s1.
Proof.
  intros lm C s a b s1 s2 oc HC Hs Ha Hb Hm Hk H1 H2. destruct (gmat_again (cuda lm) s a s1 (Done tt) H1 eq_refl (ghist_owns lm C s HC Hs) s2 oc H2) as [[->| ->] P]; auto. exfalso.
  pose proof (gstop_hist_inv (cuda lm) (c_backend_ok lm) C HC s Hs) as HI. destruct (base_some _ C s a HI Ha) as (b' & bd & Hb' & Hbd). assert (b' = b) by congruence. subst b'.
  destruct (gmat_top _ (c_backend_ok lm) C HC s a b bd s1 (Done tt) HI Ha Hb Hbd Hm Hk H1) as (_ & G & Al & _).
  assert (Hs1 : gstop_hist (cuda lm) C s1) by (eapply gth_mat; [exact Hs|exact Ha|intros b' E; rewrite Hb in E; injection E as <-; exact Hm|exact Hk|exact H1]).
  destruct (C59_cuda_failures lm C s1 a b s2 InternalErr HC Hs1) as [E|E]; rewrite ?G; auto; try discriminate. now rewrite Al.
Qed.
Print Assumptions C14_again_returns_cuda_partial.

(* concrete: the program of C41_nonvacuous, its last array materialized twice with a tolist() between; s and t are also two histories as C12 needs *)
Example C14_cuda_nonvacuous : exists s s1 t t1 C, let g := dv_graph cu s in key_safe C /\ gstop_hist cu C s /\ dv_alive cu s 5 = true /\ view_of g true 5 5 /\ computed g 5 /\ gmat_ok cu g 5 /\
  (forall d, gkernel_of g 5 d -> C d) /\ gmat cu s 5 s1 (Done tt) /\ gstop_later cu C s1 t /\ dv_graph cu t = g /\ dv_alive cu t 5 = true /\ gmat cu t 5 t1 (Done tt) /\
  exists s2, gmat cu s1 5 s2 (Done tt).
Proof.
  destruct (gstate_hist cu true (gkernel_of (Prog.prog exDc) 5) exDc) as [HG HA]. pose proof (HA 5%nat) as Hal.
  assert (Hg : dv_graph cu (gstate cu exDc) = Prog.prog exDc) by (vm_compute; reflexivity).
  assert (Hal' : dv_alive cu (gstate cu exDc) 5 = true) by (rewrite Hal, Hg; vm_compute; reflexivity).
  destruct (exD_any _ _ _ eq_refl Hg eq_refl HG Hal') as (HC & _ & Hv & Hcm & Hm & _ & s1 & HM & _).
  assert (Hb5 : base (Prog.prog exDc) 5 = Some 5%nat) by (vm_compute; reflexivity).
  rewrite <- Hg in Hb5, Hm, Hv, HC, HG, Hcm. pose proof Hcm as (bd & Hbd & Hbc).
  destruct (gmat_top cu (c_backend_ok _) _ HC (gstate cu exDc) 5 5 bd s1 (Done tt) (ghist_inv cu (c_backend_ok _) _ HC _ HG) Hal' Hb5 Hbd Hm ltac:(auto) HM) as (_ & Hgr & Hae & _ & _ & HLa).
  assert (HG1 : ghist cu true (gkernel_of (dv_graph cu (gstate cu exDc)) 5) s1) by (eapply gh_mat; [exact HG|exact Hal'|intros b Hb; rewrite Hb5 in Hb; injection Hb as <-; exact Hm|auto|exact HM]).
  assert (Hal1 : dv_alive cu s1 5 = true) by (now rewrite Hae).
  assert (HR : readable cu s1 5).
  { intros b Hb. rewrite Hgr, Hb5 in Hb. injection Hb as <-. destruct HLa as [H|H]; [congruence|]. right. right. exact H. }
  pose proof (gh_tolist cu true _ s1 5 HG1 Hal1 (fun _ => HR)) as HG2. set (t := fst (gtolist cu s1 5)) in *. destruct (gtolist_fix cu s1 5) as (G2 & _). fold t in G2.
  assert (Gt : dv_graph cu t = dv_graph cu (gstate cu exDc)) by congruence.
  assert (Hal2 : dv_alive cu t 5 = true) by (unfold t; rewrite gtolist_alive_same; exact Hal1).
  assert (H2 : exists s2, gmat cu s1 5 s2 (Done tt)).
  { apply (C41_succeeds no_libm _ s1 5 5 HC HG1 Hal1); rewrite ?Hgr; auto.
    - apply no_scalar_reshape_all. rewrite Hg. vm_compute. reflexivity.
    - intros n nd vals _. apply (accb_ok cu). rewrite Hg. vm_compute. reflexivity.
    - intros n nd _. apply extb_ok. rewrite Hg. vm_compute. reflexivity. }
  destruct (C41_succeeds no_libm _ t 5 5 HC HG2 Hal2) as (t' & HM2); rewrite ?Gt; auto.
  - apply no_scalar_reshape_all. rewrite Hg. vm_compute. reflexivity.
  - intros n nd vals _. apply (accb_ok cu). rewrite Hg. vm_compute. reflexivity.
  - intros n nd _. apply extb_ok. rewrite Hg. vm_compute. reflexivity.
  - exists (gstate cu exDc), s1, t, t', (gkernel_of (dv_graph cu (gstate cu exDc)) 5). cbn zeta. split; [exact HC|]. split; [now apply ghist_gstop|]. split; [exact Hal'|]. split; [exact Hv|].
    split; [exact Hcm|]. split; [exact Hm|]. split; [auto|]. split; [exact HM|]. split; [apply gtl_tolist; [apply gtl_here|exact Hal1|exact HR]|]. split; [exact Gt|]. split; [exact Hal2|]. split; [exact HM2|exact H2].
Qed.
