(* The value properties C38 (all backends give the same numbers) and C49 (the numbers are the exact results up to
   rounding) for arrays read from CUDA buffers.  Combines C41_tolist_partial (a buffer read back holds the elements the
   C semantics of the expression gives) with the element-wise comparison of the languages (Agree.v, ErrFacts.v). *)
From Coq Require Import Reals Lra ZArith.
From Flocq Require Import Core.
From Verif Require Import Base BaseFacts Util Lang Spec Graph Api Denote DenoteFacts ArrayLit Reach ApiFacts Tolist Algo AlgoSem Kernel Sched Codegen Backends LangInst Prog
  AlgoConvert2 KernelRun BackendFacts AlgoTop AlgoMore CacheKey Runtime RuntimeFacts RuntimeFacts2 History HistFacts RtInst CacheFacts Frame HistTools RuntimeTop Parallel ParGpu
  Device DevFacts DevRun DevHist DevProg DevAny DevTools DevStale PropDevice Agree PropRuntime PropLang RealAlg IEEE ErrSpec ErrFacts PropErr.
Local Open Scope Z_scope.

(* array a of graph g is materialized in some process of the backend, and some time later read as the list l *)
Definition read_py (lm : libm) (g : graph) (a : nat) (l : nest pyval) : Prop := exists C s b s', let B := py_backend lm in
  key_safe C /\ hist B C s /\ r_graph B s = g /\ valid g a /\ view_of g true a b /\ computed g b /\ (forall d, kernel_of g a d -> C d) /\
  materialize B s a = (s', Done tt) /\ tolist (r_graph B s') (r_cpu B s') a = Done l.
Definition read_c (lm : libm) (g : graph) (a : nat) (l : nest cval) : Prop := exists C s b s', let B := c_backend lm in
  key_safe C /\ hist B C s /\ r_graph B s = g /\ valid g a /\ view_of g true a b /\ computed g b /\ mat_ok (c_lang lm) g b /\ (forall d, kernel_of g a d -> C d) /\
  materialize B s a = (s', Done tt) /\ tolist (r_graph B s') (r_cpu B s') a = Done l.
Definition read_cuda (lm : libm) (g : graph) (a : nat) (l : nest cval) : Prop := exists C s b s' t, let B := cuda lm in
  key_safe C /\ ghist B true C s /\ dv_graph B s = g /\ dv_alive B s a = true /\ view_of g true a b /\ computed g b /\ gmat_ok B g b /\ (forall d, gkernel_of g a d -> C d) /\
  gmat B s a s' (Done tt) /\ glater B C s' t /\ dv_alive B t a = true /\ snd (gtolist B t a) = Done l.

Lemma read_py_den lm g a l : read_py lm g a l -> reach g /\ valid g a /\ t_tolist (den (py_alg lm) g a) = Ok l.
Proof.
  intros (C & s & b & s' & HX). cbv zeta in HX. destruct HX as (HC & Hs & <- & Ha & Hv & Hc & Hk & HM & HL).
  split; [exact (i_reach _ _ _ (hist_inv _ (py_backend_ok lm) C HC s Hs))|]. split; [exact Ha|].
  destruct (value_correct_python lm C s a b s' HC Hs Ha Hv Hc Hk HM) as (l' & L1 & L2).
  assert (Hq : Done l' = Done l) by exact (eq_trans (eq_sym L1) HL). injection Hq as ->. exact L2.
Qed.
Lemma read_c_den lm g a l : read_c lm g a l -> reach g /\ valid g a /\ t_tolist (den (c_alg lm) g a) = Ok l.
Proof.
  intros (C & s & b & s' & HX). cbv zeta in HX. destruct HX as (HC & Hs & <- & Ha & Hv & Hc & Hm & Hk & HM & HL).
  split; [exact (i_reach _ _ _ (hist_inv _ (c_backend_ok lm) C HC s Hs))|]. split; [exact Ha|].
  destruct (value_correct _ C s a b s' (or_intror (ex_intro _ lm eq_refl)) HC Hs Ha Hv Hc Hm Hk HM) as (l' & L1 & L2).
  assert (Hq : Done l' = Done l) by exact (eq_trans (eq_sym L1) HL). injection Hq as ->. exact L2.
Qed.
Lemma read_cuda_den lm g a l : read_cuda lm g a l -> reach g /\ valid g a /\ t_tolist (den (c_alg lm) g a) = Ok l.
Proof.
  intros (C & s & b & s' & t & HX). cbv zeta in HX. destruct HX as (HC & Hs & <- & Ha & Hv & Hc & Hm & Hk & HM & Hl & Hat & HL).
  pose proof (ghist_inv (cuda lm) (c_backend_ok lm) C HC s Hs) as HI.
  split; [exact (di_reach _ _ _ _ HI)|]. split; [exact (di_alive _ _ _ _ HI _ Ha)|].
  destruct (C41_tolist_partial lm C s a b s' t HC Hs Ha Hv Hc Hm Hk HM Hl Hat) as (l' & L1 & L2).
  assert (Hq : Done l' = Done l) by exact (eq_trans (eq_sym L1) HL). injection Hq as ->. exact L2.
Qed.

(* C38: the C and CUDA backends, with the same math library, give exactly the same list *)
Theorem C38_c_cuda_partial : forall lm g a l1 l2, read_c lm g a l1 -> read_cuda lm g a l2 -> l1 = l2.
Proof.
  intros lm g a l1 l2 H1 H2. destruct (read_c_den _ _ _ _ H1) as (_ & _ & E1), (read_cuda_den _ _ _ _ H2) as (_ & _ & E2).
  assert (Hq : Ok l1 = Ok l2) by exact (eq_trans (eq_sym E1) E2). now injection Hq.
Qed.
Print Assumptions C38_c_cuda_partial.
(* C38: Python and CUDA *)
Theorem C38_python_cuda_float_partial : forall lm g a l1 l2, read_py lm g a l1 -> read_cuda lm g a l2 ->
  (forall n nd, cone g a n -> nth_error g n = Some nd -> float_node g nd) -> nest_rel same_float l1 l2.
Proof.
  intros lm g a l1 l2 H1 H2 HA. destruct (read_py_den _ _ _ _ H1) as (Hr & Ha & E1), (read_cuda_den _ _ _ _ H2) as (_ & _ & E2).
  destruct (valid_nth _ _ Ha) as [nd Hn].
  destruct (tolist_rel (py_alg lm) (c_alg lm) same_float g a nd l1 (reach_wf _ Hr) Hn) as (l & L & Rel); [intros n nd' Hc Hn'; apply float_agrees; eauto|exact E1|].
  assert (Hq : Ok l = Ok l2) by exact (eq_trans (eq_sym L) E2). injection Hq as ->. exact Rel.
Qed.
Print Assumptions C38_python_cuda_float_partial.
Theorem C38_python_cuda_padded_partial : forall lm g a l1 l2, read_py lm g a l1 -> read_cuda lm g a l2 ->
  (forall n nd, cone g a n -> nth_error g n = Some nd -> float_node0 nd) -> nest_rel same_float0 l1 l2.
Proof.
  intros lm g a l1 l2 H1 H2 HA. destruct (read_py_den _ _ _ _ H1) as (Hr & Ha & E1), (read_cuda_den _ _ _ _ H2) as (_ & _ & E2).
  destruct (valid_nth _ _ Ha) as [nd Hn].
  destruct (tolist_rel (py_alg lm) (c_alg lm) same_float0 g a nd l1 (reach_wf _ Hr) Hn) as (l & L & Rel); [intros n nd' Hc Hn'; apply float0_agrees; eauto|exact E1|].
  assert (Hq : Ok l = Ok l2) by exact (eq_trans (eq_sym L) E2). injection Hq as ->. exact Rel.
Qed.
Print Assumptions C38_python_cuda_padded_partial.
Theorem C38_python_cuda_int_partial : forall lp lc g a l1 l2, read_py lp g a l1 -> read_cuda lc g a l2 ->
  (forall n nd, cone g a n -> nth_error g n = Some nd -> int_node nd) -> nest_rel same_z l2 l1.
Proof.
  intros lp lc g a l1 l2 H1 H2 HA. destruct (read_py_den _ _ _ _ H1) as (Hr & Ha & E1), (read_cuda_den _ _ _ _ H2) as (_ & _ & E2).
  destruct (valid_nth _ _ Ha) as [nd Hn].
  destruct (tolist_rel (c_alg lc) (py_alg lp) same_z g a nd l2 (reach_wf _ Hr) Hn) as (l & L & Rel); [intros n nd' Hc Hn'; apply (int_agrees lp lc); eauto|exact E2|].
  assert (Hq : Ok l = Ok l1) by exact (eq_trans (eq_sym L) E1). injection Hq as ->. exact Rel.
Qed.
Print Assumptions C38_python_cuda_int_partial.

(* C49: what is read from a CUDA buffer is the exact result up to the computed rounding bound *)
Theorem C49_cuda_partial : forall lm k g a l le, libm_within lm k -> read_cuda lm g a l -> t_tolist (den (ebound true k) g a) = Ok le ->
  exists lr, t_tolist (den RA g a) = Ok lr /\ nest_rel exactly le lr /\ nest_rel shows_c le l.
Proof.
  intros lm k g a l le HL HR He. destruct (read_cuda_den _ _ _ _ HR) as (Hr & Ha & E).
  apply (bounds_read (c_alg lm) shows_c true k g a le l Hr Ha); auto. intros; now apply agrees_c.
Qed.
Print Assumptions C49_cuda_partial.
(* int64 expressions: exactly the integer results *)
Theorem C49_integers_cuda_partial : forall lm g a l, read_cuda lm g a l -> (forall n nd, cone g a n -> nth_error g n = Some nd -> int_node nd) ->
  exists lz, t_tolist (den ZA g a) = Ok lz /\ nest_rel (fun w z => w = CI64 z) l lz.
Proof.
  intros lm g a l HR HI. destruct (read_cuda_den _ _ _ _ HR) as (Hr & Ha & E). destruct (valid_nth _ _ Ha) as [nd Hn].
  destruct (tolist_rel (c_alg lm) ZA (fun w z => w = CI64 z) g a nd l (reach_wf _ Hr) Hn) as (lz & Z1 & Z2); [intros; apply za_c; eauto|exact E|]. eauto.
Qed.
Print Assumptions C49_integers_cuda_partial.

(* the example of C41: [[1,2,3],[4,5,6]] transposed, negated, squared, summed, doubled; read on all three backends *)
Lemma read_cuda_exD : read_cuda no_libm (Prog.prog exDc) 5 (Nest [Leaf (CI64 34); Leaf (CI64 58); Leaf (CI64 90)]).
Proof.
  exists (gkernel_of (Prog.prog exDc) 5), (gstate cu exDc), 5%nat.
  destruct (gstate_hist cu true (gkernel_of (Prog.prog exDc) 5) exDc) as [HG HA]. pose proof (HA 5%nat) as Hal.
  assert (Hg : dv_graph cu (gstate cu exDc) = Prog.prog exDc) by (vm_compute; reflexivity).
  assert (Hal' : dv_alive cu (gstate cu exDc) 5 = true) by (rewrite Hal, Hg; vm_compute; reflexivity).
  destruct (exD_any _ _ _ eq_refl Hg eq_refl HG Hal') as (A1 & A2 & A3 & A4 & A5 & A6 & s' & A7 & A8 & _).
  exists s', s'. cbv zeta. split; [exact A1|]. split; [exact HG|]. split; [exact Hg|]. split; [exact Hal'|]. split; [exact A3|]. split; [exact A4|]. split; [exact A5|].
  split; [auto|]. split; [exact A7|]. split; [constructor|]. split; [|exact A8].
  destruct (A4) as (bd & Hbd & Hbc). rewrite <- Hg in A5, Hbd.
  destruct (gmat_top cu (c_backend_ok _) _ A1 (gstate cu exDc) 5 5 bd s' (Done tt) (ghist_inv cu (c_backend_ok _) _ A1 _ HG) Hal' ltac:(rewrite Hg; vm_compute; reflexivity) Hbd A5 ltac:(rewrite Hg; auto) A7) as (_ & _ & Hae & _).
  now rewrite Hae.
Qed.
Example C38_cuda_nonvacuous : let g := Prog.prog exDc in
  read_py no_libm g 5 (Nest [Leaf (PI 34); Leaf (PI 58); Leaf (PI 90)]) /\ read_c no_libm g 5 (Nest [Leaf (CI64 34); Leaf (CI64 58); Leaf (CI64 90)]) /\
  read_cuda no_libm g 5 (Nest [Leaf (CI64 34); Leaf (CI64 58); Leaf (CI64 90)]) /\ (forall n nd, cone g 5 n -> nth_error g n = Some nd -> int_node nd).
Proof.
  cbv zeta. split; [|split; [|split; [exact read_cuda_exD|]]].
  - exists (kernel_of (Prog.prog exDc) 5), (prun exDc), 5%nat, (fst (materialize pyB (prun exDc) 5)). cbv zeta.
    split; [apply own_safeb_ok; vm_compute; reflexivity|]. split; [apply calls_state_hist|]. split; [vm_compute; reflexivity|]. split; [vm_compute; lia|].
    split; [eapply vo_self; vm_compute; reflexivity|]. split; [eexists; split; vm_compute; reflexivity|]. split; [auto|]. split; [apply pair_snd; vm_compute; reflexivity|vm_compute; reflexivity].
  - exists (kernel_of (Prog.prog exDc) 5), (crun exDc), 5%nat, (fst (materialize cB (crun exDc) 5)). cbv zeta.
    split; [apply own_safeb_ok; vm_compute; reflexivity|]. split; [apply calls_state_hist|]. split; [vm_compute; reflexivity|]. split; [vm_compute; lia|].
    split; [eapply vo_self; vm_compute; reflexivity|]. split; [eexists; split; vm_compute; reflexivity|].
    split. { assert (A5 : gmat_ok cu (Prog.prog exDc) 5) by (apply (gokb_ok cu _ Int64); [apply reach_wf, prog_reach|vm_compute; reflexivity]). apply A5. }
    split; [auto|]. split; [apply pair_snd; vm_compute; reflexivity|vm_compute; reflexivity].
  - intros n nd _ Hn. destruct n as [|[|[|[|[|[|[|n]]]]]]]; vm_compute in Hn; try discriminate; injection Hn as <-; unfold int_node; cbn [n_dtype n_op]; (split; [reflexivity|]); auto.
    all: repeat constructor; vm_compute; intuition discriminate.
Qed.
