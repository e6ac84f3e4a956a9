(* Property C41: device buffers (CUDA backend). *)
From Verif Require Import Base Util Lang Spec Graph Api Denote ArrayLit Reach ApiFacts Tolist Algo AlgoSem Kernel Sched Codegen Backends LangInst Prog
  BaseFacts AlgoConvert2 KernelRun BackendFacts AlgoTop AlgoMore CacheKey Runtime RuntimeFacts RuntimeFacts2 History HistFacts RtInst RuntimeTop Parallel ParGpu
  Device DevFacts DevRun DevHist DevProg DevAny DevTools DevStale.

(* CUDA kernels are C; ctypes accepts the same values as on the Clang backend *)
Notation cuda := c_backend.
(* the driver calls made so far, in order *)
Definition trace {B} (s : dev B) : list (event B) := rev (dv_log B s).
Lemma trace_split {B} (s : dev B) t1 e t2 : trace s = t1 ++ e :: t2 -> dv_log B s = rev t2 ++ e :: rev t1.
Proof. unfold trace. intros H. rewrite <- (rev_involutive (dv_log B s)), H, rev_app_distr. cbn. now rewrite <- app_assoc. Qed.
Lemma in_rev' {A} (l : list A) x : In x (rev l) <-> In x l. Proof. symmetry. apply in_rev. Qed.
Lemma owned_trace lm s t1 e t2 : gany (cuda lm) s -> trace s = t1 ++ e :: t2 -> own_ok (cuda lm) (rev t1) e.
Proof. intros Hs Ht. eapply owned_at; [apply (oi_log _ _ _ (gany_inv (cuda lm) (c_lang_ok lm) s Hs))|]. apply trace_split in Ht. exact Ht. Qed.

(* The first five theorems hold in every history: any API calls, materialize(), tolist() (also after
   failures), garbage collection and cache resets, any values, sizes and dtypes, any cache collisions;
   only kernels with undefined behaviour are excluded (that there are none under gmat_ok is C41_failures). *)
(* a buffer is allocated at most once *)
Theorem C41_alloc_once : forall lm s t1 n p t2, gany (cuda lm) s -> trace s = t1 ++ EvAlloc _ n p :: t2 ->
  forall q, ~ In (EvAlloc _ n q) (t1 ++ t2).
Proof.
  intros lm s t1 n p t2 Hs Ht q Hin. apply in_app_iff in Hin as [Hin|Hin].
  - destruct (owned_trace lm s _ _ _ Hs Ht) as [H _]. apply (H q). now rewrite in_rev'.
  - apply in_split in Hin as (u1 & u2 & ->). assert (Ht' : trace s = (t1 ++ EvAlloc (cuda lm) n p :: u1) ++ EvAlloc (cuda lm) n q :: u2) by (rewrite Ht, <- app_assoc; reflexivity).
    destruct (owned_trace lm s _ _ _ Hs Ht') as [H _]. apply (H p). rewrite in_rev', in_app_iff. right. now left.
Qed.
Print Assumptions C41_alloc_once.
(* freed at most once, and only the address it was given before *)
Theorem C41_free_once : forall lm s t1 n p t2, gany (cuda lm) s -> trace s = t1 ++ EvFree _ n p :: t2 ->
  In (EvAlloc _ n p) t1 /\ forall q, ~ In (EvFree _ n q) (t1 ++ t2).
Proof.
  intros lm s t1 n p t2 Hs Ht. destruct (owned_trace lm s _ _ _ Hs Ht) as [H1 H2]. split; [now rewrite in_rev' in H1|]. intros q Hin. apply in_app_iff in Hin as [Hin|Hin].
  - apply (H2 q). now rewrite in_rev'.
  - apply in_split in Hin as (u1 & u2 & ->). assert (Ht' : trace s = (t1 ++ EvFree (cuda lm) n p :: u1) ++ EvFree (cuda lm) n q :: u2) by (rewrite Ht, <- app_assoc; reflexivity).
    destruct (owned_trace lm s _ _ _ Hs Ht') as [_ H]. apply (H p). rewrite in_rev', in_app_iff. right. now left.
Qed.
Print Assumptions C41_free_once.
(* every copy and every launch touches only memory that was allocated for that array and not freed since *)
Theorem C41_no_use_after_free : forall lm s t1 e t2 n p, gany (cuda lm) s -> trace s = t1 ++ e :: t2 -> uses _ e n p ->
  In (EvAlloc _ n p) t1 /\ ~ In (EvFree _ n p) t1.
Proof.
  intros lm s t1 e t2 n p Hs Ht Hu. pose proof (owned_trace lm s _ _ _ Hs Ht) as H. unfold own_ok, held in H.
  destruct e; try destruct Hu; specialize (H n p); rewrite !in_rev' in H; apply H; cbn; auto.
Qed.
Print Assumptions C41_no_use_after_free.
(* an address is given to a second array only after the first one was freed *)
Theorem C41_addresses_exclusive : forall lm s t1 n p t2 m, gany (cuda lm) s -> trace s = t1 ++ EvAlloc _ n p :: t2 ->
  In (EvAlloc _ m p) t1 -> In (EvFree _ m p) t1.
Proof. intros lm s t1 n p t2 m Hs Ht Hm. destruct (owned_trace lm s _ _ _ Hs Ht) as [_ H]. specialize (H m). rewrite !in_rev' in H. auto. Qed.
Print Assumptions C41_addresses_exclusive.
(* nothing leaks and nothing dies early: all allocated memory belongs to arrays that are alive; a dead
   array's memory has been freed; only dead arrays' memory is freed *)
Theorem C41_no_leak : forall lm s, gany (cuda lm) s ->
  (forall p vs, dv_mem _ s p = Some vs -> exists n, dv_alive _ s n = true /\ dv_ptr _ s n = Some p) /\
  (forall n p, dv_alive _ s n = false -> In (EvAlloc _ n p) (trace s) -> In (EvFree _ n p) (trace s)) /\
  (forall n p, In (EvFree _ n p) (trace s) -> dv_alive _ s n = false).
Proof.
  intros lm s Hs. pose proof (gany_inv (cuda lm) (c_lang_ok lm) s Hs) as HI. split; [|split].
  - intros p vs Hp. destruct (oi_own _ _ _ HI p) as (n & Hn); [congruence|]. exists n. split; auto. now apply (oi_ptr _ _ _ HI n p).
  - unfold trace. intros n p Ha. rewrite !in_rev'. intros Hin. destruct (oi_allocs _ _ _ HI n p Hin) as [_ [H|[_ H]]]; auto. apply (oi_ptr _ _ _ HI) in H as [H _]. congruence.
  - unfold trace. intros n p. rewrite in_rev'. intros Hin. now destruct (oi_frees _ _ _ HI n p Hin).
Qed.
Print Assumptions C41_no_leak.

(* Values.  ghist true C: arrays whose materialize() failed half-way are not read with tolist(); the
   kernels ever compiled are in C and do not collide in the cache (C11); each materialize() satisfies
   gmat_ok (C kernels: sizes fit, one dtype, no undefined element). *)
Lemma ghist_any lm C s : key_safe C -> ghist (cuda lm) true C s -> gany (cuda lm) s.
Proof.
  intros HC. induction 1 as [|s c Hs IH Hc Hu|s a s' oc Hs IH Ha Hm Hk HM|s a Hs IH Ha HR|s D Hs IH HD|s Hs IH].
  - constructor.
  - now apply ga_call.
  - apply (ga_mat _ s a s' oc); auto. intros ->. pose proof (ghist_inv (cuda lm) (c_backend_ok lm) C HC s Hs) as HI.
    destruct (base_some _ C s a HI Ha) as (b & bd & Hb & Hbd).
    destruct (gmat_top _ (c_backend_ok lm) C HC s a b bd s' _ HI Ha Hb Hbd (Hm b Hb) Hk HM) as (_ & _ & _ & _ & _ & _ & [[H|[H _]]|[H _]]); discriminate.
  - now apply ga_tolist.
  - now apply ga_die.
  - now apply ga_reset.
Qed.
(* every input of every launch had been written (copied from the host or computed by an earlier launch),
   is disjoint from the output, and held exactly the elements of that array *)
Theorem C41_inputs_initialised_partial : forall lm C s t1 n p ins t2 m q vs, key_safe C -> ghist (cuda lm) true C s ->
  trace s = t1 ++ EvLaunch _ n p ins :: t2 -> In (m, q, vs) ins ->
  q <> p /\ (In (EvHtoD _ m q) t1 \/ exists ins', In (EvLaunch _ m q ins') t1) /\
  Z.of_nat (length vs) = zprod (shape_of (dv_graph _ s) m) /\
  forall idx, in_range (shape_of (dv_graph _ s) m) idx ->
    exists v, t_at (den (c_alg lm) (dv_graph _ s) m) idx = Ok v /\ znth vs (flat (shape_of (dv_graph _ s) m) idx) = Some v.
Proof.
  intros lm C s t1 n p ins t2 m q vs HC Hs Ht Hin. pose proof (ghist_inv (cuda lm) (c_backend_ok lm) C HC s Hs) as HI.
  pose proof (di_log _ _ _ _ HI) as HL. apply trace_split in Ht. rewrite Ht in HL.
  assert (He : event_ok (cuda lm) (dv_graph _ s) (rev t1) (EvLaunch _ n p ins)).
  { clear - HL. induction (rev t2) as [|x l IH]; cbn in HL; inversion HL; subst; auto. }
  cbn in He. destruct He as [_ He]. destruct (He m q vs Hin) as (A1 & _ & A3 & nd & D1 & D2 & D3). split; auto. split.
  { unfold written in A3. destruct A3 as [A3|(i & A3)]; rewrite in_rev' in A3; eauto. }
  unfold shape_of. rewrite D1. split; auto.
Qed.
Print Assumptions C41_inputs_initialised_partial.
(* after a successful materialize(), in every later state in which the array is still held, tolist()
   returns its value *)
Theorem C41_tolist_partial : forall lm C s a b s' t, key_safe C -> ghist (cuda lm) true C s -> dv_alive _ s a = true ->
  view_of (dv_graph _ s) true a b -> computed (dv_graph _ s) b -> gmat_ok (cuda lm) (dv_graph _ s) b ->
  (forall d, gkernel_of (dv_graph _ s) a d -> C d) ->
  gmat (cuda lm) s a s' (Done tt) -> glater (cuda lm) C s' t -> dv_alive _ t a = true ->
  exists l, snd (gtolist (cuda lm) t a) = Done l /\ t_tolist (den (c_alg lm) (dv_graph _ s) a) = Ok l.
Proof.
  intros lm C s a b s' t HC Hs Ha Hv (bd & Hbd & Hc) Hm Hk HM Hl Hat.
  exact (gtolist_later (cuda lm) (c_backend_ok lm) C HC s a b bd s' t Hs Ha Hv Hbd Hc Hm Hk HM Hl Hat).
Qed.
Print Assumptions C41_tolist_partial.
(* materialize() never runs a kernel with undefined behaviour; it fails only when the driver refuses
   (memory, launch configuration), when ctypes refuses a constant, and for a reshape to () *)
Theorem C41_failures : forall lm C s a b s' e, key_safe C -> ghist (cuda lm) true C s -> dv_alive _ s a = true -> base (dv_graph _ s) a = Some b ->
  gmat_ok (cuda lm) (dv_graph _ s) b -> (forall d, gkernel_of (dv_graph _ s) a d -> C d) -> gmat (cuda lm) s a s' (Throw e) ->
  e = RuntimeErr \/ (e = TypeErr /\ exists n nd vals, cone (dv_graph _ s) b n /\ nth_error (dv_graph _ s) n = Some nd /\ n_op nd = OConst vals /\
                       forallb (c_accept (n_dtype nd)) (map (of_num (c_lang lm)) vals) = false) \/
  (e = TypeErr /\ s' = s /\ ~ no_scalar_reshape (dv_graph _ s) b).
Proof.
  intros lm C s a b s' e HC Hs Ha Hb Hm Hk HM. pose proof (ghist_inv (cuda lm) (c_backend_ok lm) C HC s Hs) as HI.
  destruct (base_some _ C s a HI Ha) as (b' & bd & Hb' & Hbd). assert (b' = b) by congruence. subst b'.
  destruct (gmat_top _ (c_backend_ok lm) C HC s a b bd s' _ HI Ha Hb Hbd Hm Hk HM) as (_ & _ & _ & _ & _ & _ & [[H|H]|(H1 & H2 & H3)]); auto.
  right. right. split; auto. split; auto. intros Hns.
  destruct (convert_ok (c_lang lm) (c_lang_ok lm) _ (reach_wf _ (di_reach _ _ _ _ HI)) b bd Hbd Hns) as (E & fs & HCv & _). congruence.
Qed.
Print Assumptions C41_failures.
(* and it does succeed, if the driver has memory: from every history there is a successful run when all
   extents are between 1 and 65535 *)
Theorem C41_succeeds : forall lm C s a b, key_safe C -> ghist (cuda lm) true C s -> dv_alive _ s a = true -> base (dv_graph _ s) a = Some b ->
  gmat_ok (cuda lm) (dv_graph _ s) b -> (forall d, gkernel_of (dv_graph _ s) a d -> C d) -> no_scalar_reshape (dv_graph _ s) b ->
  (forall n nd vals, cone (dv_graph _ s) b n -> nth_error (dv_graph _ s) n = Some nd -> n_op nd = OConst vals ->
     forallb (c_accept (n_dtype nd)) (map (of_num (c_lang lm)) vals) = true) ->
  (forall n nd, cone (dv_graph _ s) b n -> nth_error (dv_graph _ s) n = Some nd -> Forall (fun d => 1 <= d <= 65535) (n_shape nd)) ->
  exists s', gmat (cuda lm) s a s' (Done tt).
Proof.
  intros lm C s a b HC Hs Ha Hb Hm Hk Hns Hacc Hext. apply (gmat_runs (cuda lm) (c_backend_ok lm) C HC s a b); auto.
  - exact (ghist_inv (cuda lm) (c_backend_ok lm) C HC s Hs).
  - intros n Hn nd vals. now apply Hacc.
Qed.
Print Assumptions C41_succeeds.

(* 0 = [[1,2,3],[4,5,6]]; 1 = 0.T; 2 = -1; 3 = 2 * 2; 4 = sum(3, axis 1); 5 = 4 + 4: three kernels *)
Notation cu := (cuda no_libm).
Definition exDc : list call := [CArray (Nest [Nest [Leaf (NInt 1); Leaf (NInt 2); Leaf (NInt 3)]; Nest [Leaf (NInt 4); Leaf (NInt 5); Leaf (NInt 6)]]);
  CT 0; CUnary UNeg 1; CBinary BMul 2 2; CSum 3 (Some [1]) false; CBinary BAdd 4 4].
Lemma exD_any g s C : g = Prog.prog exDc -> dv_graph cu s = g -> C = gkernel_of g 5 -> ghist cu true C s -> dv_alive cu s 5 = true ->
  key_safe C /\ gany cu s /\ view_of g true 5 5 /\ computed g 5 /\ gmat_ok cu g 5 /\
  t_tolist (den (c_alg no_libm) g 5) = Ok (Nest [Leaf (CI64 34); Leaf (CI64 58); Leaf (CI64 90)]) /\
  exists s', gmat cu s 5 s' (Done tt) /\ snd (gtolist cu s' 5) = Done (Nest [Leaf (CI64 34); Leaf (CI64 58); Leaf (CI64 90)]) /\
    exists t1 n p ins t2, trace s' = t1 ++ EvLaunch _ n p ins :: t2.
Proof.
  intros Eg Hg EC HG Hal.
  assert (HC : key_safe C) by (rewrite EC; apply gown_safeb_ok; rewrite Eg; vm_compute; reflexivity).
  assert (Hv : view_of g true 5 5) by (rewrite Eg; eapply vo_self; vm_compute; reflexivity).
  assert (Hcm : computed g 5) by (rewrite Eg; eexists; split; vm_compute; reflexivity).
  assert (Hw : wf_graph g) by (rewrite Eg; apply reach_wf, prog_reach).
  assert (Hm : gmat_ok cu g 5) by (apply (gokb_ok cu _ Int64); [exact Hw|rewrite Eg; vm_compute; reflexivity]).
  assert (Hd : t_tolist (den (c_alg no_libm) g 5) = Ok (Nest [Leaf (CI64 34); Leaf (CI64 58); Leaf (CI64 90)])) by (rewrite Eg; vm_compute; reflexivity).
  split; [exact HC|]. split; [exact (ghist_any no_libm C s HC HG)|]. split; [exact Hv|]. split; [exact Hcm|]. split; [exact Hm|]. split; [exact Hd|].
  assert (Hb5 : base g 5 = Some 5%nat) by (rewrite Eg; vm_compute; reflexivity).
  assert (Hk : forall d, gkernel_of g 5 d -> C d) by (rewrite EC; auto).
  assert (Hns : no_scalar_reshape g 5) by (apply no_scalar_reshape_all; rewrite Eg; vm_compute; reflexivity).
  assert (Hac : accb cu g = true) by (rewrite Eg; vm_compute; reflexivity). assert (Hex : extb g = true) by (rewrite Eg; vm_compute; reflexivity).
  clear Eg EC. subst g.
  destruct (C41_succeeds no_libm C s 5 5 HC HG Hal Hb5 Hm Hk Hns) as (s' & Hs').
  - intros n nd vals _. now apply (accb_ok cu).
  - intros n nd _. now apply extb_ok.
  - exists s'. split; [exact Hs'|].
    pose proof Hcm as (bd & Hbd & Hbc).
    destruct (gmat_top cu (c_backend_ok _) C HC s 5 5 bd s' (Done tt) (ghist_inv cu (c_backend_ok _) C HC s HG) Hal Hb5 Hbd Hm Hk Hs') as (_ & _ & Hae & _ & _ & HLa).
    assert (Hal' : dv_alive _ s' 5 = true) by (now rewrite Hae).
    split.
    + destruct (C41_tolist_partial no_libm C s 5 5 s' s' HC HG Hal Hv Hcm Hm Hk Hs' (gla_here _ _ _) Hal') as (l & H1 & H2).
      rewrite Hd in H2. injection H2 as <-. exact H1.
    + destruct HLa as [H|(p & ins & Hin)]; [congruence|].
      unfold trace. rewrite in_rev in Hin. apply in_split in Hin as (t1 & t2 & ->). eauto 7.
Qed.
Example C41_nonvacuous : exists s C, let g := dv_graph cu s in
  key_safe C /\ ghist cu true C s /\ gany cu s /\ dv_alive _ s 5 = true /\ (forall d, gkernel_of g 5 d -> C d) /\ view_of g true 5 5 /\ computed g 5 /\ gmat_ok cu g 5 /\
  t_tolist (den (c_alg no_libm) g 5) = Ok (Nest [Leaf (CI64 34); Leaf (CI64 58); Leaf (CI64 90)]) /\
  exists s', gmat cu s 5 s' (Done tt) /\ snd (gtolist cu s' 5) = Done (Nest [Leaf (CI64 34); Leaf (CI64 58); Leaf (CI64 90)]) /\
    exists t1 n p ins t2, trace s' = t1 ++ EvLaunch _ n p ins :: t2.
Proof.
  exists (gstate cu exDc), (gkernel_of (Prog.prog exDc) 5). cbn zeta.
  destruct (gstate_hist cu true (gkernel_of (Prog.prog exDc) 5) exDc) as [HG HA]. pose proof (HA 5%nat) as Hal.
  assert (Hg : dv_graph cu (gstate cu exDc) = Prog.prog exDc) by (vm_compute; reflexivity).
  assert (Hal' : dv_alive cu (gstate cu exDc) 5 = true) by (rewrite Hal, Hg; vm_compute; reflexivity).
  destruct (exD_any _ _ _ eq_refl Hg eq_refl HG Hal') as (A1 & A2 & A3 & A4 & A5 & A6 & A7). rewrite Hg.
  split; [exact A1|]. split; [exact HG|]. split; [exact A2|]. split; [exact Hal'|]. split; [auto|]. auto.
Qed.

(* The property as stated is false without the condition on tolist(): x.materialize() fails (the second
   cuMemAlloc finds no memory), x.tolist() then returns what happened to be in the memory allocated for
   x, keeps it as the host copy, and after a successful x.materialize() still returns that garbage. *)
Definition exFc : list call := [CArray (Nest [Leaf (NInt 5); Leaf (NInt 7)]); CUnary UNeg 0].
Lemma exF_any g s C : g = Prog.prog exFc -> dv_graph cu s = g -> C = gkernel_of g 1 -> ghist cu true C s -> dv_alive cu s 1%nat = true ->
  dv_ptr cu s 0%nat = None -> dv_ptr cu s 1%nat = None -> dv_mem cu s 9%nat = None -> dv_cache cu s = [] -> dv_tmp cu s = 0%nat -> dv_host cu s 1%nat = None ->
  exists s1 s2 s3, key_safe C /\ gmat_ok cu g 1 /\
  gmat cu s 1 s1 (Throw RuntimeErr) /\
  gtolist cu s1 1 = (s2, Done (Nest [Leaf (CI64 98); Leaf (CI64 99)])) /\
  gmat cu s2 1 s3 (Done tt) /\
  snd (gtolist cu s3 1) = Done (Nest [Leaf (CI64 98); Leaf (CI64 99)]) /\
  t_tolist (den (c_alg no_libm) g 1) = Ok (Nest [Leaf (CI64 (-5)); Leaf (CI64 (-7))]).
Proof.
  intros Eg Hg EC HG Hal Hp0 Hp1 Hm0 Hc0 Ht0 Hh1.
  assert (HC : key_safe C) by (rewrite EC; apply gown_safeb_ok; rewrite Eg; vm_compute; reflexivity).
  assert (Hw : wf_graph g) by (rewrite Eg; apply reach_wf, prog_reach).
  assert (Hm : gmat_ok cu g 1) by (apply (gokb_ok cu _ Int64); [exact Hw|rewrite Eg; vm_compute; reflexivity]).
  assert (Hd : t_tolist (den (c_alg no_libm) g 1) = Ok (Nest [Leaf (CI64 (-5)); Leaf (CI64 (-7))])) by (rewrite Eg; vm_compute; reflexivity).
  assert (Hb1 : base g 1 = Some 1%nat) by (rewrite Eg; vm_compute; reflexivity).
  assert (Hk : forall d, gkernel_of g 1 d -> C d) by (rewrite EC; auto).
  assert (Hns : no_scalar_reshape g 1) by (apply no_scalar_reshape_all; rewrite Eg; vm_compute; reflexivity).
  assert (Hac : accb cu g = true) by (rewrite Eg; vm_compute; reflexivity). assert (Hex : extb g = true) by (rewrite Eg; vm_compute; reflexivity).
  assert (exists nd, nth_error g 1 = Some nd /\ is_view (n_op nd) = false /\ is_const (n_op nd) = false /\ n_len nd = 2 /\
    read_nd [CI64 98; CI64 99] (n_shape nd) (n_strides nd) (n_offset nd) = Done (Nest [Leaf (CI64 98); Leaf (CI64 99)])) as (nd & Hn & Hv & Hc & Hl & Hrd).
  { rewrite Eg. eexists. split; [vm_compute; reflexivity|]. split; [reflexivity|]. split; [reflexivity|]. split; reflexivity. }
  assert (exists E fd, convert g 1 = Done (E, [1%nat]) /\ E 1%nat = Some fd /\ mapOut (arg_buffer E) (func_args (f_expr fd)) = Done [0%nat] /\ f_out fd = 1%nat /\
    exists sc key kern k, gschedule_one E 1 = Done (fd, sc) /\ cache_key g E fd sc = Done key /\ codegen g E (func_args (f_expr fd)) fd sc 0 = Done (kern, k))
    as (E & fd & Hcv & Hfd & Hbufs & Hout & sc & key & kern & k & Hsc & Hkey & Hcg).
  { rewrite Eg. eexists _, _. split; [vm_compute; reflexivity|]. split; [vm_compute; reflexivity|]. split; [vm_compute; reflexivity|]. split; [vm_compute; reflexivity|].
    eexists _, _, _, _. split; [vm_compute; reflexivity|]. split; vm_compute; reflexivity. }
  clear Eg EC. subst g.
  set (s0 := set_cache cu s [(key, kern)] k). set (garbage := [CI64 98; CI64 99]).
  set (s1 := set_ptr cu s0 1 9 garbage).
  assert (HM1 : gmat cu s 1 s1 (Throw RuntimeErr)).
  { apply (gm_comp cu s 1 nd); auto.
    eapply gc_run; [exact Hcv|cbn [mapOut]; rewrite Hsc; cbn [obind]; reflexivity|]. apply gr_fail.
    apply (gf_miss cu E fd sc s [0%nat] key kern k s1 (Throw RuntimeErr)); auto; [now rewrite Hc0|now rewrite Ht0|]. rewrite Hout, Hc0. apply gi_prep.
    apply (pr_cons cu true _ 1 [0%nat] s1 9 s1 (Throw RuntimeErr)).
    - apply p1_out; [reflexivity|]. apply (pt_alloc cu s0 1 9 nd garbage); auto. rewrite Hl. reflexivity.
    - apply pr_fail, p1_fail, pt_fail. exact Hp0. }
  assert (HG1 : ghist cu true C s1).
  { apply (gh_mat cu true C s 1 s1 (Throw RuntimeErr)); auto. intros b Hb. assert (b = 1%nat) by congruence. now subst. }
  destruct (C41_succeeds no_libm C s1 1 1 HC HG1 Hal Hb1 Hm Hk Hns) as (s3' & Hs3').
  { intros n md vals _. now apply (accb_ok cu). }
  { intros n md _. now apply extb_ok. }
  set (h := upd1 (dv_host cu s1) 1 (Some garbage)).
  set (s2 := set_host cu s1 1 9 garbage).
  destruct (compute_seth cu h s1 1 s3' (Done tt) s2) as (s3 & Hs3 & (lg & Hlike) & _).
  { inversion Hs3' as [a nd' H1 H2|a nd' b r s' oc H1 H2|a nd' s' oc H1 H2 H3 H4]; auto; change (dv_graph cu s1) with (dv_graph cu s) in H1; assert (nd' = nd) by congruence; congruence. }
  { eexists. reflexivity. }
  { intros m (E' & fs & f & fd' & bufs & H1 & H2 & H3 & H4 & H5). change (dv_graph cu s1) with (dv_graph cu s) in H1. rewrite Hcv in H1. injection H1 as <- <-. destruct H2 as [<-|[]]. assert (fd' = fd) by congruence. subst fd'.
    rewrite Hbufs in H4. injection H4 as <-. destruct H5 as [<-|[]]. reflexivity. }
  assert (Hg3 : dv_graph _ s3 = dv_graph _ s).
  { rewrite Hlike. cbn [seth dv_graph].
    destruct (gmat_top cu (c_backend_ok _) C HC s1 1 1 nd s3' (Done tt) (ghist_inv cu (c_backend_ok _) C HC s1 HG1) Hal Hb1 Hn Hm Hk Hs3') as (_ & Hgg & _). exact Hgg. }
  exists s1, s2, s3. split; [exact HC|]. split; [exact Hm|]. split; [exact HM1|]. split; [|split; [|split; [|exact Hd]]].
  - unfold gtolist. change (dv_graph cu s1) with (dv_graph cu s). rewrite Hn, Hb1. change (dv_host cu s1 1%nat) with (dv_host cu s 1%nat). rewrite Hh1.
    replace (dv_ptr cu s1 1%nat) with (Some 9%nat) by (symmetry; apply upd1_same). replace (dv_mem cu s1 9%nat) with (Some garbage) by (symmetry; apply upd1_same). exact (f_equal (pair s2) Hrd).
  - apply (gm_comp cu s2 1 nd); auto.
  - unfold gtolist. rewrite Hg3, Hn, Hb1. rewrite Hlike. cbn [seth dv_host]. unfold h. rewrite upd1_same. exact Hrd.
Qed.
Theorem C41_read_after_failure_refuted : exists C s s1 s2 s3, key_safe C /\ ghist cu true C s /\ dv_alive _ s 1 = true /\ gmat_ok cu (dv_graph _ s) 1 /\
  gmat cu s 1 s1 (Throw RuntimeErr) /\
  gtolist cu s1 1 = (s2, Done (Nest [Leaf (CI64 98); Leaf (CI64 99)])) /\
  gmat cu s2 1 s3 (Done tt) /\
  snd (gtolist cu s3 1) = Done (Nest [Leaf (CI64 98); Leaf (CI64 99)]) /\
  t_tolist (den (c_alg no_libm) (dv_graph _ s) 1) = Ok (Nest [Leaf (CI64 (-5)); Leaf (CI64 (-7))]).
Proof.
  exists (gkernel_of (Prog.prog exFc) 1), (gstate cu exFc).
  destruct (gstate_hist cu true (gkernel_of (Prog.prog exFc) 1) exFc) as [HG HA]. pose proof (HA 1%nat) as Hal.
  assert (Hg : dv_graph cu (gstate cu exFc) = Prog.prog exFc) by (vm_compute; reflexivity).
  assert (Hal' : dv_alive cu (gstate cu exFc) 1 = true) by (rewrite Hal, Hg; vm_compute; reflexivity).
  assert (H1 : dv_ptr cu (gstate cu exFc) 0%nat = None) by (vm_compute; reflexivity). assert (H2 : dv_ptr cu (gstate cu exFc) 1%nat = None) by (vm_compute; reflexivity).
  assert (H3 : dv_mem cu (gstate cu exFc) 9%nat = None) by (vm_compute; reflexivity). assert (H4 : dv_cache cu (gstate cu exFc) = []) by (vm_compute; reflexivity).
  assert (H5 : dv_tmp cu (gstate cu exFc) = 0%nat) by (vm_compute; reflexivity). assert (H6 : dv_host cu (gstate cu exFc) 1%nat = None) by (vm_compute; reflexivity).
  destruct (exF_any _ _ _ eq_refl Hg eq_refl HG Hal' H1 H2 H3 H4 H5 H6) as (s1 & s2 & s3 & A1 & A2 & A3).
  exists s1, s2, s3. rewrite Hg. split; [exact A1|]. split; [exact HG|]. split; [exact Hal'|]. split; [exact A2|exact A3].
Qed.
Print Assumptions C41_read_after_failure_refuted.
