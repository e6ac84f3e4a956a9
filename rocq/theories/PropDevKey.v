(* Properties C11 and C41, CUDA: the kernel cache of the GPU process is indexed by a digest of the key text (materialize.py:48-65, 113). *)
From Coq Require Import String.
From Verif Require Import Base BaseFacts Util Lang Spec Graph Api Denote ArrayLit Reach Tolist TolistFacts Algo AlgoSem Kernel Sched Codegen Backends CacheKey KernelRun BackendFacts AlgoTop AlgoMore ApiFacts Runtime RuntimeFacts RuntimeFacts2 History HistFacts HistTools RuntimeTop LangInst RtInst Prog
  KeyText KeyRun Parallel ParGpu Device DevFacts DevRun DevHist DevProg DevAny DevTools PropDevice DevKey.
Open Scope Z_scope.
Open Scope list_scope.
Notation cuda := c_backend.

(* what happens after h in the process with digests: as [glater] (Device.v) *)
Inductive digest_glater {D} (eqb : D -> D -> bool) (digest : string -> D) B (C : desc -> Prop) (h : hdev B) : hdev B -> Prop :=
| dl_here : digest_glater eqb digest B C h h
| dl_call t c : digest_glater eqb digest B C h t -> call_ok (hd_graph B t) c -> uses_alive B (hd_dev B t) c -> digest_glater eqb digest B C h (mkHD B (fst (gcall B (hd_dev B t) c)) (hd_cache B t))
| dl_mat t a t' oc : digest_glater eqb digest B C h t -> dv_alive B (hd_dev B t) a = true ->
    (forall b, base (hd_graph B t) a = Some b -> gmat_ok B (hd_graph B t) b) -> (forall d, gkernel_of (hd_graph B t) a d -> C d) ->
    hgmat eqb digest B t a t' oc -> digest_glater eqb digest B C h t'
| dl_tolist t a : digest_glater eqb digest B C h t -> dv_alive B (hd_dev B t) a = true -> readable B (hd_dev B t) a -> digest_glater eqb digest B C h (mkHD B (fst (gtolist B (hd_dev B t) a)) (hd_cache B t))
| dl_die t X : digest_glater eqb digest B C h t -> droppable B (hd_dev B t) X -> digest_glater eqb digest B C h (mkHD B (die B (hd_dev B t) X) (hd_cache B t))
| dl_reset t : digest_glater eqb digest B C h t -> digest_glater eqb digest B C h (mkHD B (hd_dev B t) []).

(* equal in everything but the cache *)
Definition same_dev {B} (d s : dev B) : Prop :=
  dv_graph B d = dv_graph B s /\ dv_host B d = dv_host B s /\ dv_ptr B d = dv_ptr B s /\ dv_mem B d = dv_mem B s /\ dv_alive B d = dv_alive B s /\ trace d = trace s.

Section S.
Context {D : Type} (eqb : D -> D -> bool) (digest : string -> D) (lm : libm) (C : desc -> Prop).
Context (Deq : forall x y, eqb x y = true <-> x = y) (HN : no_collision digest C) (HC : key_safe C).
Notation B := (cuda lm).
Lemma mat_pre s a : ghist B true C s -> dv_alive B s a = true -> wf_graph (dv_graph B s) /\ (a < length (dv_graph B s))%nat.
Proof using HC. intros Hs Ha. pose proof (gany_inv B (c_lang_ok lm) s (ghist_any lm C s HC Hs)) as HO. split; [exact (reach_wf _ (oi_reach _ _ _ HO))|exact (oi_alive _ _ _ HO a Ha)]. Qed.
Lemma keys_same s s' : dv_cache B s' = dv_cache B s -> gkeys_in B C s -> gkeys_in B C s'.
Proof using. unfold gkeys_in. now intros ->. Qed.
Lemma digest_ghist_seen h : digest_ghist eqb digest B true C h -> exists s, ghist B true C s /\ h = gseen digest B s /\ gkeys_in B C s.
Proof using Deq HN HC.
  induction 1 as [|h c _ (s & IH & -> & HK) HO HU|h a h' oc _ (s & IH & -> & HK) HA HM HD HR|h a _ (s & IH & -> & HK) HA HR|h X _ (s & IH & -> & HK) HX|h _ (s & IH & -> & HK)].
  - exists (dev0 B). split; [constructor|]. split; [reflexivity|]. intros k x [].
  - destruct (gcall_seen digest B s c) as (H1 & H2). exists (fst (gcall B s c)). split; [now constructor|]. split; [now rewrite H1|exact (keys_same _ _ H2 HK)].
  - destruct (mat_pre s a IH HA) as (W & L). destruct (gmat_seen eqb digest B Deq C HN s a HK W L HD) as (F1 & F2). destruct (F1 _ _ HR) as (s' & G & ->).
    exists s'. split; [eapply gh_mat; eassumption|]. split; [reflexivity|]. now destruct (F2 _ _ G).
  - destruct (gtolist_seen digest B s a) as (H1 & H2 & _). exists (fst (gtolist B s a)). split; [now constructor|]. split; [now rewrite H1|exact (keys_same _ _ H2 HK)].
  - destruct (die_seen digest B X s) as (H1 & H2). exists (die B s X). split; [now constructor|]. split; [now rewrite H1|exact (keys_same _ _ H2 HK)].
  - exists (reset_dev B s). split; [now constructor|]. split; [reflexivity|]. intros k x [].
Qed.
Lemma digest_glater_seen s0 : ghist B true C s0 -> gkeys_in B C s0 -> forall h, digest_glater eqb digest B C (gseen digest B s0) h ->
  exists s, ghist B true C s /\ glater B C s0 s /\ h = gseen digest B s /\ gkeys_in B C s.
Proof using Deq HN HC.
  intros Hs0 HK0.
  induction 1 as [|h c _ (s & HS & IH & -> & HK) HO HU|h a h' oc _ (s & HS & IH & -> & HK) HA HM HD HR|h a _ (s & HS & IH & -> & HK) HA HR|h X _ (s & HS & IH & -> & HK) HX|h _ (s & HS & IH & -> & HK)].
  - exists s0. split; [assumption|]. split; [constructor|]. auto.
  - destruct (gcall_seen digest B s c) as (H1 & H2). exists (fst (gcall B s c)). split; [now constructor|]. split; [now constructor|]. split; [now rewrite H1|exact (keys_same _ _ H2 HK)].
  - destruct (mat_pre s a HS HA) as (W & L). destruct (gmat_seen eqb digest B Deq C HN s a HK W L HD) as (F1 & F2). destruct (F1 _ _ HR) as (s' & G & ->).
    exists s'. split; [eapply gh_mat; eassumption|]. split; [eapply gla_mat; eassumption|]. split; [reflexivity|]. now destruct (F2 _ _ G).
  - destruct (gtolist_seen digest B s a) as (H1 & H2 & _). exists (fst (gtolist B s a)). split; [constructor; auto; fail|]. split; [now constructor|]. split; [now rewrite H1|exact (keys_same _ _ H2 HK)].
  - destruct (die_seen digest B X s) as (H1 & H2). exists (die B s X). split; [now constructor|]. split; [now constructor|]. split; [now rewrite H1|exact (keys_same _ _ H2 HK)].
  - exists (reset_dev B s). split; [now constructor|]. split; [now constructor|]. split; [reflexivity|]. intros k x [].
Qed.
Lemma ghist_seen s : ghist B true C s -> digest_ghist eqb digest B true C (gseen digest B s) /\ gkeys_in B C s.
Proof using Deq HN HC.
  induction 1 as [|s c HS [IH HK] HO HU|s a s' oc HS [IH HK] HA HM HD HR|s a HS [IH HK] HA HR|s X HS [IH HK] HX|s HS [IH HK]].
  - split; [constructor|]. intros k x [].
  - destruct (gcall_seen digest B s c) as (H1 & H2). split; [rewrite H1; now constructor|exact (keys_same _ _ H2 HK)].
  - destruct (mat_pre s a HS HA) as (W & L). destruct (gmat_seen eqb digest B Deq C HN s a HK W L HD) as (_ & F2). destruct (F2 _ _ HR) as (G & HK'). split; [|exact HK'].
    eapply dg_mat; [exact IH|exact HA|exact HM|exact HD|exact G].
  - destruct (gtolist_seen digest B s a) as (H1 & H2 & _). split; [rewrite H1; now constructor|exact (keys_same _ _ H2 HK)].
  - destruct (die_seen digest B X s) as (H1 & H2). split; [rewrite H1; now constructor|exact (keys_same _ _ H2 HK)].
  - split; [|intros k x []]. change (gseen digest B (reset_dev B s)) with (mkHD (D:=D) B (hd_dev B (gseen digest B s)) []). now constructor.
Qed.
End S.

(* The GPU process whose cache is indexed by any digest function makes exactly the moves of the one indexed by the keys themselves, in every
   history and under every behaviour of the driver, as long as the digest does not collide on the texts of the kernels involved. *)
Theorem C11_digest_process_cuda : forall D (eqb : D -> D -> bool) (digest : string -> D) lm C h, (forall x y, eqb x y = true <-> x = y) -> no_collision digest C -> key_safe C ->
  digest_ghist eqb digest (cuda lm) true C h ->
  exists s, ghist (cuda lm) true C s /\ same_dev (hd_dev _ h) s /\
    forall a, dv_alive _ s a = true -> (forall d, gkernel_of (dv_graph _ s) a d -> C d) ->
      (forall h' oc, hgmat eqb digest (cuda lm) h a h' oc -> exists s', gmat (cuda lm) s a s' oc /\ same_dev (hd_dev _ h') s') /\
      (forall s' oc, gmat (cuda lm) s a s' oc -> exists h', hgmat eqb digest (cuda lm) h a h' oc /\ same_dev (hd_dev _ h') s').
Proof.
  intros D eqb digest lm C h Deq HN HC HH. destruct (digest_ghist_seen eqb digest lm C Deq HN HC h HH) as (s & HS & -> & HK). exists s. split; [exact HS|]. split; [repeat split|].
  intros a Ha HD. destruct (mat_pre lm C HC s a HS Ha) as (W & L). destruct (gmat_seen eqb digest (cuda lm) Deq C HN s a HK W L HD) as (F1 & F2). split.
  - intros h' oc H. destruct (F1 _ _ H) as (s' & G & ->). exists s'. split; [exact G|repeat split].
  - intros s' oc H. destruct (F2 _ _ H) as (G & _). eexists. split; [exact G|repeat split].
Qed.
Print Assumptions C11_digest_process_cuda.

(* C41_tolist_partial for the process with digests *)
Theorem C41_tolist_digest_partial : forall D (eqb : D -> D -> bool) (digest : string -> D) lm C h a b h' t, (forall x y, eqb x y = true <-> x = y) -> no_collision digest C -> key_safe C ->
  digest_ghist eqb digest (cuda lm) true C h -> let g := hd_graph _ h in dv_alive _ (hd_dev _ h) a = true ->
  view_of g true a b -> computed g b -> gmat_ok (cuda lm) g b -> (forall d, gkernel_of g a d -> C d) ->
  hgmat eqb digest (cuda lm) h a h' (Done tt) -> digest_glater eqb digest (cuda lm) C h' t -> dv_alive _ (hd_dev _ t) a = true ->
  exists l, snd (gtolist (cuda lm) (hd_dev _ t) a) = Done l /\ t_tolist (den (c_alg lm) g a) = Ok l.
Proof.
  intros D eqb digest lm C h a b h' t Deq HN HC HH g Ha Hv Hc Hm Hk HM HL Hat. destruct (digest_ghist_seen eqb digest lm C Deq HN HC h HH) as (s & HS & -> & HK).
  destruct (mat_pre lm C HC s a HS Ha) as (W & L). destruct (gmat_seen eqb digest (cuda lm) Deq C HN s a HK W L Hk) as (F1 & F2). destruct (F1 _ _ HM) as (s' & G & ->).
  pose proof (view_of_base _ _ _ _ W Hv) as Hb.
  assert (HS' : ghist (cuda lm) true C s').
  { eapply (gh_mat (cuda lm) true C s a s' (Done tt)); [exact HS|exact Ha| |exact Hk|exact G]. intros b' Hb'. assert (b' = b) by congruence. now subst b'. }
  destruct (F2 _ _ G) as (_ & HK'). destruct (digest_glater_seen eqb digest lm C Deq HN HC s' HS' HK' t HL) as (u & _ & HU & -> & _).
  destruct (gtolist_seen digest (cuda lm) u a) as (_ & _ & HT). rewrite HT.
  exact (C41_tolist_partial lm C s a b s' u HC HS Ha Hv Hc Hm Hk G HU Hat).
Qed.
Print Assumptions C41_tolist_digest_partial.

(* Without the condition on the digest the claim is false on the GPU as well: see C11_digest_collision_refuted.  The conditions are met
   by the history of C41_nonvacuous, with the text itself as its digest: the first materialize() computes and fills the cache with three digests *)
Example C41_digest_nonvacuous : exists h C a h', let g := hd_graph cu h in
  no_collision (fun t : string => t) C /\ key_safe C /\ digest_ghist String.eqb (fun t => t) cu true C h /\ dv_alive cu (hd_dev cu h) a = true /\
  view_of g true a a /\ computed g a /\ gmat_ok cu g a /\ (forall d, gkernel_of g a d -> C d) /\
  hgmat String.eqb (fun t => t) cu h a h' (Done tt) /\ dv_alive cu (hd_dev cu h') a = true /\
  snd (gtolist cu (hd_dev cu h') a) = Done (Nest [Leaf (CI64 34); Leaf (CI64 58); Leaf (CI64 90)]).
Proof.
  destruct (gstate_hist cu true (gkernel_of (Prog.prog exDc) 5) exDc) as [HG HA]. pose proof (HA 5%nat) as Hal.
  assert (Hg : dv_graph cu (gstate cu exDc) = Prog.prog exDc) by (vm_compute; reflexivity).
  assert (Hal' : dv_alive cu (gstate cu exDc) 5 = true) by (rewrite Hal, Hg; vm_compute; reflexivity).
  destruct (exD_any _ _ _ eq_refl Hg eq_refl HG Hal') as (A1 & A2 & A3 & A4 & A5 & A6 & s' & A7 & A8 & _).
  assert (HT : no_collision (fun t : string => t) (gkernel_of (Prog.prog exDc) 5)) by (intros d1 d2 k1 k2 _ _ _ _ H; exact H).
  destruct (ghist_seen String.eqb (fun t => t) no_libm _ String.eqb_eq HT A1 _ HG) as (HD & HK).
  destruct (mat_pre no_libm _ A1 _ 5%nat HG Hal') as (W & L).
  destruct (gmat_seen String.eqb (fun t => t) cu String.eqb_eq _ HT _ 5%nat HK W L ltac:(rewrite Hg; auto)) as (_ & F2). destruct (F2 _ _ A7) as (G & _).
  exists (gseen (fun t => t) cu (gstate cu exDc)), (gkernel_of (Prog.prog exDc) 5), 5%nat, (gseen (fun t => t) cu s'). cbn zeta.
  change (hd_graph cu (gseen (fun t => t) cu (gstate cu exDc))) with (dv_graph cu (gstate cu exDc)). rewrite Hg.
  split; [exact HT|]. split; [exact A1|]. split; [exact HD|]. split; [exact Hal'|]. split; [exact A3|]. split; [exact A4|]. split; [exact A5|]. split; [auto|]. split; [exact G|].
  destruct (A4) as (bd & Hbd & Hbc). rewrite <- Hg in A5, Hbd.
  destruct (gmat_top cu (c_backend_ok _) _ A1 (gstate cu exDc) 5 5 bd s' (Done tt) (ghist_inv cu (c_backend_ok _) _ A1 _ HG) Hal' ltac:(rewrite Hg; vm_compute; reflexivity) Hbd A5 ltac:(rewrite Hg; auto) A7) as (_ & _ & Hae & _).
  split; [change (dv_alive cu s' 5 = true); now rewrite Hae|]. destruct (gtolist_seen (fun t : string => t) cu s' 5) as (_ & _ & ->). exact A8.
Qed.
