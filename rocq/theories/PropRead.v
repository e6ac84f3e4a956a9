(* Property C36 again: what tolist() shows after any history, failed materialize() calls included. *)
From Verif Require Import Base Util Lang Spec Graph Api Denote ArrayLit Reach Tolist Algo AlgoSem Kernel Sched Codegen Backends LangInst Prog
  BaseFacts ApiFacts AlgoConvert2 KernelRun BackendFacts AlgoTop AlgoMore CacheKey Runtime RuntimeFacts RuntimeFacts2 History HistFacts RtInst CacheFacts Frame HistFacts2 HistTools Safety RuntimeTop
  Tidy TidyTools PropRuntime PropTidy Defined.

(* The history may contain any materialize() calls that raised.  What tolist() of an array (or of an
   offset-0 view of it) returns are its elements, unless one of the array's own elements cannot be
   computed (or, in C, ctypes refuses a constant of its own expression).  A failure elsewhere never
   makes uncomputed values visible. *)
Theorem C36_failed_histories : forall B C s a b bd l, is_cpu_backend B -> key_safe C -> hist B C s ->
  view_of (r_graph B s) true a b -> nth_error (r_graph B s) b = Some bd -> is_const (n_op bd) = false ->
  (forall idx, in_range (n_shape bd) idx -> t_at (den (b_lang B) (r_graph B s) b) idx <> Raise) ->
  (forall c, cone (r_graph B s) b c -> ~ refused B (r_graph B s) c) ->
  tolist (r_graph B s) (r_cpu B s) a = Done l -> t_tolist (den (b_lang B) (r_graph B s) a) = Ok l.
Proof. intros B C s a b bd l HB HC. apply read_defined; auto. now apply cpu_ok. Qed.
Print Assumptions C36_failed_histories.
(* Python, tidy kernels: no hypothesis about keys or constants *)
Theorem C36_failed_histories_python : forall lm s a b bd l, let B := py_backend lm in hist B (tidy_kernel false) s ->
  view_of (r_graph B s) true a b -> nth_error (r_graph B s) b = Some bd -> is_const (n_op bd) = false ->
  tolist (r_graph B s) (r_cpu B s) a = Done l ->
  t_tolist (den (py_alg lm) (r_graph B s) a) = Ok l \/ exists idx, in_range (n_shape bd) idx /\ t_at (den (py_alg lm) (r_graph B s) b) idx = Raise.
Proof.
  intros lm s a b bd l B Hs Hv Hb Hc HT. pose proof (py_backend_ok lm) as HB. pose proof (hist_inv B HB _ (tidy_safe false) s Hs) as HI.
  destruct (r_cpu B s b) as [vs|] eqn:Em.
  - destruct (hist_shown B HB _ (tidy_safe false) s Hs b bd vs Hb Hc Em) as [Hg|[(idx & H1 & H2)|(c & _ & nd & vals & _ & _ & H & _)]].
    + left. destruct (read_good B _ s a b HI Hv Hg) as (l' & H1 & H2). rewrite HT in H1. injection H1 as <-. exact H2.
    + right. exists idx. unfold shape_of in H1. rewrite Hb in H1. auto.
    + discriminate.
  - exfalso. pose proof (TolistFacts.view_of_base _ _ _ _ (reach_wf _ (i_reach _ _ _ HI)) Hv) as Hba. unfold tolist in HT. rewrite Hba, Em in HT.
    destruct (nth_error (r_graph B s) a); discriminate.
Qed.
Print Assumptions C36_failed_histories_python.
(* arange(4).sum() is computed on the way to arange(4).sum() / [1, 0, 2], which raises ZeroDivisionError:
   afterwards the sum is shown as it is, the quotient as [6.0, 0, 0] *)
Definition exR : list ev := [Call (CArange 4); Call (CSum 0 None false); Call (CArray (Nest [Leaf (NInt 1); Leaf (NInt 0); Leaf (NInt 2)])); Call (CBinary BTruediv 1 2)].
Definition exR1 : rt pyB := td_state no_libm (exR ++ [Mat 4]).
Example C36_nonvacuous_failed : let s := exR1 in snd (materialize pyB (td_state no_libm exR) 4) = Throw ValueErr /\ hist pyB (tidy_kernel false) s /\
  view_of (r_graph pyB s) true 1 1 /\ (exists bd, nth_error (r_graph pyB s) 1 = Some bd /\ is_const (n_op bd) = false /\
    forall idx, in_range (n_shape bd) idx -> t_at (den (py_alg no_libm) (r_graph pyB s) 1) idx <> Raise) /\
  tolist (r_graph pyB s) (r_cpu pyB s) 1 = Done (Leaf (PI 6)) /\
  tolist (r_graph pyB s) (r_cpu pyB s) 4 = Done (Nest [Leaf (PF (f64_of 6 0)); Leaf (PI 0); Leaf (PI 0)]).
Proof.
  cbn zeta. split; [vm_compute; reflexivity|]. split; [apply td_state_hist|]. split; [eapply vo_self; vm_compute; reflexivity|]. split.
  - eexists. split; [vm_compute; reflexivity|]. split; [vm_compute; reflexivity|]. intros [|i idx] Hi; [vm_compute; discriminate|inversion Hi].
  - split; vm_compute; reflexivity.
Qed.
