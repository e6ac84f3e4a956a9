(* Properties C01, C11, C12, C14, C41 again: programs whose kernels read other kernels' results, without
   any hypothesis about cache keys. *)
From Verif Require Import Base Util Lang Spec Graph Api Denote ArrayLit Reach Tolist Algo AlgoSem Kernel Sched Codegen Backends LangInst Prog
  BaseFacts ApiFacts AlgoConvert2 KernelRun BackendFacts AlgoTop AlgoMore CacheKey Runtime RuntimeFacts RuntimeFacts2 History HistFacts RtInst CacheFacts Frame HistFacts2 HistTools Safety RuntimeTop
  Tidy TidyTools Device DevFacts DevRun DevHist DevProg DevAny DevTools PropRuntime PropDevice.

(* A kernel is tidy (Tidy.v) if its expression has no pad/dilate outside the producers it reads, no two
   different producers it reads are computed by the same expression from the same buffers, and for each
   producer every axis but the first has extent 1 or is mentioned in the producer's expression, whose
   leftmost operand is not hidden behind a pad/dilate.
   Two tidy kernels with the same cache key, from any two programs, are the same code. *)
Theorem C11_tidy_kernels_safe : forall gp, key_safe (tidy_kernel gp).
Proof. exact tidy_safe. Qed.
Print Assumptions C11_tidy_kernels_safe.
(* the class contains the kernels that read only constants (C11_plain_kernels_safe) *)
Theorem C11_plain_is_tidy : forall d, plain_kernel d -> tidy_kernel false d.
Proof. exact plain_tidy. Qed.
Print Assumptions C11_plain_is_tidy.
(* each of the three collisions of C11 involves a kernel that is not tidy *)
Example C11_collisions_untidy :
  tidyb (Prog.prog [CArray (Nest [Leaf (NInt 1); Leaf (NInt 2); Leaf (NInt 3)]); CPad 0 0 2 0]) 1 = false /\
  tidyb (r_graph pyB (sc_state pyB (exBr 5))) 9 = false /\
  tidyb (Prog.prog [CArange 4; CSum 0 None false; CSum 0 None false; CBinary BMul 1 1; CBinary BMul 1 2]) 4 = false.
Proof. vm_compute. auto. Qed.

(* Python: the whole history uses tidy kernels *)
Theorem C01_tidy_python : forall lm s a b s', let B := py_backend lm in hist B (tidy_kernel false) s -> valid (r_graph B s) a ->
  view_of (r_graph B s) true a b -> computed (r_graph B s) b -> (forall d, kernel_of (r_graph B s) a d -> tidy_kernel false d) ->
  materialize B s a = (s', Done tt) ->
  exists l, tolist (r_graph B s') (r_cpu B s') a = Done l /\ t_tolist (den (py_alg lm) (r_graph B s) a) = Ok l.
Proof. intros lm s a b s' B. apply value_correct_python. exact (tidy_safe false). Qed.
Print Assumptions C01_tidy_python.
(* both CPU backends; C: sizes below 2^31, one dtype per expression *)
Theorem C01_tidy_partial : forall B s a b s', is_cpu_backend B -> hist B (tidy_kernel false) s -> valid (r_graph B s) a ->
  view_of (r_graph B s) true a b -> computed (r_graph B s) b -> mat_ok (b_lang B) (r_graph B s) b ->
  (forall d, kernel_of (r_graph B s) a d -> tidy_kernel false d) ->
  materialize B s a = (s', Done tt) ->
  exists l, tolist (r_graph B s') (r_cpu B s') a = Done l /\ t_tolist (den (b_lang B) (r_graph B s) a) = Ok l.
Proof. intros B s a b s' HB. apply value_correct; auto. exact (tidy_safe false). Qed.
Print Assumptions C01_tidy_partial.
(* after a cache reset nothing needs to be known about the history *)
Theorem C01_tidy_fresh_cache : forall lm s a b s', let B := py_backend lm in any_hist B s -> valid (r_graph B s) a ->
  view_of (r_graph B s) true a b -> computed (r_graph B s) b -> (forall d, kernel_of (r_graph B s) a d -> tidy_kernel false d) ->
  materialize B (reset_cache B s) a = (s', Done tt) ->
  exists l, tolist (r_graph B s') (r_cpu B s') a = Done l /\ t_tolist (den (py_alg lm) (r_graph B s) a) = Ok l.
Proof.
  intros lm s a b s' B Hs Ha Hv Hc Hk. apply (value_correct_reset lm s a b s' Hs Ha Hv Hc). apply (key_safe_sub _ (tidy_kernel false) Hk). apply tidy_safe.
Qed.
Print Assumptions C01_tidy_fresh_cache.
Theorem C12_tidy_python : forall lm s1 s2 g e1 e2 a b s1' s2' t1 t2, let B := py_backend lm in
  hist B (tidy_kernel false) s1 -> hist B (tidy_kernel false) s2 -> r_graph B s1 = g ++ e1 -> r_graph B s2 = g ++ e2 -> valid g a -> reach g ->
  view_of g true a b -> computed g b ->
  (forall d, kernel_of (r_graph B s1) a d -> tidy_kernel false d) -> (forall d, kernel_of (r_graph B s2) a d -> tidy_kernel false d) ->
  materialize B s1 a = (s1', Done tt) -> materialize B s2 a = (s2', Done tt) -> later B (tidy_kernel false) s1' t1 -> later B (tidy_kernel false) s2' t2 ->
  exists l, tolist (r_graph B t1) (r_cpu B t1) a = Done l /\ tolist (r_graph B t2) (r_cpu B t2) a = Done l.
Proof.
  intros lm s1 s2 g e1 e2 a b s1' s2' t1 t2 B H1 H2 G1 G2 Ha Hr Hv Hc K1 K2.
  apply (history_free B (tidy_kernel false) (tidy_kernel false) s1 s2 g e1 e2 a b s1' s2' t1 t2); auto; try apply (tidy_safe false); try apply py_mat_ok; try (left; exists lm; reflexivity).
Qed.
Print Assumptions C12_tidy_python.
Theorem C14_tidy_python : forall lm s a b s', let B := py_backend lm in hist B (tidy_kernel false) s -> valid (r_graph B s) a -> base (r_graph B s) a = Some b ->
  (forall d, kernel_of (r_graph B s) a d -> tidy_kernel false d) -> materialize B s a = (s', Done tt) ->
  exists s'', materialize B s' a = (s'', Done tt) /\ r_graph B s'' = r_graph B s' /\ forall n, r_cpu B s'' n = r_cpu B s' n.
Proof. intros lm s a b s' B Hs Ha Hb Hk. apply (idempotent B (tidy_kernel false) s a b); auto; try apply (tidy_safe false); try apply py_mat_ok; try (left; exists lm; reflexivity). Qed.
Print Assumptions C14_tidy_python.

(* 0 = arange(6), 1 = 0.reshape(2,3), 2 = sum(1, axis=1, keepdims), 3 = broadcast of 2, 4 = 1 * 3: three
   kernels, two of which read other kernels' results; then the same on other data, from the cache *)
Definition exT : list ev :=
  [Call (CArange 6); Call (CReshape 0 [2; 3]); Call (CSum 1 (Some [1]) true); Call (CBinary BMul 1 2); Mat 4;
   Call (CArray (Nest (map (fun z => Leaf (NInt z)) [5; 4; 3; 2; 1; 0]))); Call (CReshape 5 [2; 3]); Call (CSum 6 (Some [1]) true); Call (CBinary BMul 6 7)].
Definition exTs : rt pyB := td_state no_libm exT.
Example C01_nonvacuous_tidy : let g := r_graph pyB exTs in
  hist pyB (tidy_kernel false) exTs /\ valid g 9 /\ view_of g true 9 9 /\ computed g 9 /\ (forall d, kernel_of g 9 d -> tidy_kernel false d) /\
  (exists E, match convert g 9 with Done (E', fs) => E = E' /\ length fs = 3%nat | _ => False end) /\
  exists s', materialize pyB exTs 9 = (s', Done tt) /\ length (r_cache pyB s') = 3%nat /\ r_runs pyB s' = 6%nat /\
     tolist (r_graph pyB s') (r_cpu pyB s') 9 = Done (Nest [Nest [Leaf (PI 60); Leaf (PI 48); Leaf (PI 36)]; Nest [Leaf (PI 6); Leaf (PI 3); Leaf (PI 0)]]).
Proof.
  cbn zeta. split; [apply td_state_hist|]. split; [vm_compute; lia|]. split; [eapply vo_self; vm_compute; reflexivity|].
  split; [eexists; split; vm_compute; reflexivity|].
  split. { apply (tidyb_ok false); [|vm_compute; reflexivity|vm_compute; reflexivity]. exact (i_reach _ _ _ (hist_inv pyB (py_backend_ok no_libm) _ (tidy_safe false) _ (td_state_hist no_libm _))). }
  split. { destruct (convert (r_graph pyB exTs) 9) as [[E fs]|] eqn:EC; [|vm_compute in EC; discriminate]. exists E. split; [reflexivity|]. vm_compute in EC. injection EC as _ <-. reflexivity. }
  eexists. split; [apply pair_snd; vm_compute; reflexivity|]. split; [vm_compute; reflexivity|]. split; vm_compute; reflexivity.
Qed.

(* C12 and C14 on it: s1 computed other things first (and their kernels are in the cache), s2 nothing *)
Definition exTu : list ev :=
  [Call (CArange 6); Call (CReshape 0 [2; 3]); Call (CSum 1 (Some [1]) true); Call (CBinary BMul 1 2)].
Example C12_nonvacuous_tidy : let s1 := td_state no_libm (exTu ++ [Call (CUnary UNeg 4); Mat 5]) in let s2 := td_state no_libm exTu in let g := r_graph pyB s2 in
  hist pyB (tidy_kernel false) s1 /\ hist pyB (tidy_kernel false) s2 /\ (exists e, r_graph pyB s1 = g ++ e /\ length e = 1%nat) /\ r_graph pyB s2 = g ++ [] /\
  valid g 4 /\ reach g /\ view_of g true 4 4 /\ computed g 4 /\
  tidyb (r_graph pyB s1) 4 = true /\ tidyb (r_graph pyB s2) 4 = true /\
  snd (materialize pyB s1 4) = Done tt /\ snd (materialize pyB s2 4) = Done tt /\
  length (r_cache pyB (fst (materialize pyB s1 4))) = 4%nat /\ length (r_cache pyB (fst (materialize pyB s2 4))) = 3%nat.
Proof.
  cbn zeta. split; [apply td_state_hist|]. split; [apply td_state_hist|].
  split; [eexists; split; [vm_compute; reflexivity|reflexivity]|]. split; [now rewrite app_nil_r|]. split; [vm_compute; lia|].
  split; [exact (i_reach _ _ _ (hist_inv pyB (py_backend_ok no_libm) _ (tidy_safe false) _ (td_state_hist no_libm _)))|].
  split; [eapply vo_self; vm_compute; reflexivity|]. split; [eexists; split; vm_compute; reflexivity|].
  repeat split; vm_compute; reflexivity.
Qed.
Example C14_nonvacuous_tidy : let g := r_graph pyB exTs in hist pyB (tidy_kernel false) exTs /\ valid g 9 /\ base g 9 = Some 9%nat /\ tidyb g 9 = true /\ snd (materialize pyB exTs 9) = Done tt /\ 
  r_runs pyB (fst (materialize pyB exTs 9)) = 6%nat /\ r_runs pyB (fst (materialize pyB (fst (materialize pyB exTs 9)) 9)) = 9%nat.
Proof. cbn zeta. split; [apply td_state_hist|]. split; [vm_compute; lia|]. repeat split; vm_compute; reflexivity. Qed.

(* ---------------------------------------------------------------- GPU *)
Theorem C41_tidy_inputs_partial : forall lm s t1 n p ins t2 m q vs, ghist (cuda lm) true (tidy_kernel true) s ->
  trace s = t1 ++ EvLaunch _ n p ins :: t2 -> In (m, q, vs) ins ->
  q <> p /\ (In (EvHtoD _ m q) t1 \/ exists ins', In (EvLaunch _ m q ins') t1) /\
  Z.of_nat (length vs) = zprod (shape_of (dv_graph _ s) m) /\
  forall idx, in_range (shape_of (dv_graph _ s) m) idx ->
    exists v, t_at (den (c_alg lm) (dv_graph _ s) m) idx = Ok v /\ znth vs (flat (shape_of (dv_graph _ s) m) idx) = Some v.
Proof. intros lm s t1 n p ins t2 m q vs. exact (C41_inputs_initialised_partial lm (tidy_kernel true) s t1 n p ins t2 m q vs (tidy_safe true)). Qed.
Print Assumptions C41_tidy_inputs_partial.
Theorem C41_tidy_tolist_partial : forall lm s a b s' t, ghist (cuda lm) true (tidy_kernel true) s -> dv_alive _ s a = true ->
  view_of (dv_graph _ s) true a b -> computed (dv_graph _ s) b -> gmat_ok (cuda lm) (dv_graph _ s) b ->
  (forall d, gkernel_of (dv_graph _ s) a d -> tidy_kernel true d) ->
  gmat (cuda lm) s a s' (Done tt) -> glater (cuda lm) (tidy_kernel true) s' t -> dv_alive _ t a = true ->
  exists l, snd (gtolist (cuda lm) t a) = Done l /\ t_tolist (den (c_alg lm) (dv_graph _ s) a) = Ok l.
Proof. intros lm s a b s' t. exact (C41_tolist_partial lm (tidy_kernel true) s a b s' t (tidy_safe true)). Qed.
Print Assumptions C41_tidy_tolist_partial.
(* the program of C41_nonvacuous: 5 = 4 + 4 reads the buffer of the reduction 4 *)
Lemma exD_tidy g s : g = Prog.prog exDc -> dv_graph cu s = g -> ghist cu true (tidy_kernel true) s -> dv_alive cu s 5 = true ->
  (forall d, gkernel_of g 5 d -> tidy_kernel true d) /\ view_of g true 5 5 /\ computed g 5 /\ gmat_ok cu g 5 /\
  exists s', gmat cu s 5 s' (Done tt) /\ snd (gtolist cu s' 5) = Done (Nest [Leaf (CI64 34); Leaf (CI64 58); Leaf (CI64 90)]).
Proof.
  intros Eg Hg HG Hal. set (C := tidy_kernel true) in *. assert (HC : key_safe C) by apply tidy_safe.
  assert (Hr : reach g) by (rewrite Eg; apply prog_reach).
  assert (Hk : forall d, gkernel_of g 5 d -> C d) by (intros d Hd; apply (tidyb_ok true g 5 Hr); [rewrite Eg; vm_compute; reflexivity|rewrite Eg; vm_compute; reflexivity|exact Hd]).
  assert (Hv : view_of g true 5 5) by (rewrite Eg; eapply vo_self; vm_compute; reflexivity).
  assert (Hcm : computed g 5) by (rewrite Eg; eexists; split; vm_compute; reflexivity).
  assert (Hw : wf_graph g) by (now apply reach_wf).
  assert (Hm : gmat_ok cu g 5) by (apply (gokb_ok cu _ Int64); [exact Hw|rewrite Eg; vm_compute; reflexivity]).
  assert (Hd : t_tolist (den (c_alg no_libm) g 5) = Ok (Nest [Leaf (CI64 34); Leaf (CI64 58); Leaf (CI64 90)])) by (rewrite Eg; vm_compute; reflexivity).
  split; [exact Hk|]. split; [exact Hv|]. split; [exact Hcm|]. split; [exact Hm|].
  assert (Hb5 : base g 5 = Some 5%nat) by (rewrite Eg; vm_compute; reflexivity).
  assert (Hns : no_scalar_reshape g 5) by (apply no_scalar_reshape_all; rewrite Eg; vm_compute; reflexivity).
  assert (Hac : accb cu g = true) by (rewrite Eg; vm_compute; reflexivity). assert (Hex : extb g = true) by (rewrite Eg; vm_compute; reflexivity).
  clear Eg. subst g.
  destruct (C41_succeeds no_libm C s 5 5 HC HG Hal Hb5 Hm Hk Hns) as (s' & Hs').
  - intros n nd vals _. now apply (accb_ok cu).
  - intros n nd _. now apply extb_ok.
  - exists s'. split; [exact Hs'|]. pose proof Hcm as (bd & Hbd & Hbc).
    destruct (gmat_top cu (c_backend_ok _) C HC s 5 5 bd s' (Done tt) (ghist_inv cu (c_backend_ok _) C HC s HG) Hal Hb5 Hbd Hm Hk Hs') as (_ & _ & Hae & _ & _ & HLa).
    assert (Hal' : dv_alive _ s' 5 = true) by (now rewrite Hae).
    destruct (C41_tidy_tolist_partial no_libm s 5 5 s' s' HG Hal Hv Hcm Hm Hk Hs' (gla_here _ _ _) Hal') as (l & H1 & H2).
    rewrite Hd in H2. injection H2 as <-. exact H1.
Qed.
Example C41_nonvacuous_tidy : exists s, let g := dv_graph cu s in
  ghist cu true (tidy_kernel true) s /\ dv_alive _ s 5 = true /\ (forall d, gkernel_of g 5 d -> tidy_kernel true d) /\ view_of g true 5 5 /\ computed g 5 /\ gmat_ok cu g 5 /\
  exists s', gmat cu s 5 s' (Done tt) /\ snd (gtolist cu s' 5) = Done (Nest [Leaf (CI64 34); Leaf (CI64 58); Leaf (CI64 90)]).
Proof.
  exists (gstate cu exDc). cbn zeta. destruct (gstate_hist cu true (tidy_kernel true) exDc) as [HG HA]. pose proof (HA 5%nat) as Hal.
  assert (Hg : dv_graph cu (gstate cu exDc) = Prog.prog exDc) by (vm_compute; reflexivity).
  assert (Hal' : dv_alive cu (gstate cu exDc) 5 = true) by (rewrite Hal, Hg; vm_compute; reflexivity).
  destruct (exD_tidy _ _ eq_refl Hg HG Hal') as (A1 & A2 & A3 & A4 & A5). rewrite Hg.
  split; [exact HG|]. split; [exact Hal'|]. auto.
Qed.
