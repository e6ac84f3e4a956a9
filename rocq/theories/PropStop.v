(* Property C59: what an exception from outside (compiler missing, no memory, Ctrl-C) that stops materialize() leaves behind. *)
From Verif Require Import Base Util Lang Spec Graph Api Denote ArrayLit Reach Tolist Algo AlgoSem Kernel Sched Codegen Backends LangInst Prog
  BaseFacts ApiFacts DenoteFacts TolistFacts AlgoConvert2 KernelRun BackendFacts AlgoTop AlgoMore CacheKey Runtime RuntimeFacts RuntimeFacts2 History HistFacts RtInst CacheFacts Frame HistFacts2 HistTools Safety RuntimeTop PropRuntime
  Interrupt InterruptFacts InterruptAny.

Lemma view_app g e al a b : view_of g al a b -> view_of (g ++ e) al a b.
Proof.
  induction 1 as [b nd Hb Hnv|a nd p pd b Hn Hvw Hp Hpd Hal Hv IH].
  - eapply vo_self; eauto. rewrite nth_error_app1; auto. apply nth_error_Some. congruence.
  - eapply vo_step with (pd := pd); eauto; rewrite nth_error_app1; auto; apply nth_error_Some; congruence.
Qed.
(* A history with any number of interrupted materialize() calls, each stopped anywhere ([stopped], Interrupt.v); then x.materialize()
   succeeds.  x.tolist() is the list of the elements of x, and stays so whatever follows, further interruptions included.
   PARTIAL: key_safe, mat_ok and view_of as in C01. *)
Theorem C59_retry_partial : forall B C s a b s' t, is_cpu_backend B -> key_safe C -> stop_hist B C s -> valid (r_graph B s) a ->
  view_of (r_graph B s) true a b -> computed (r_graph B s) b -> mat_ok (b_lang B) (r_graph B s) b -> (forall d, kernel_of (r_graph B s) a d -> C d) ->
  materialize B s a = (s', Done tt) -> stop_later B C s' t ->
  exists l, t_tolist (den (b_lang B) (r_graph B s) a) = Ok l /\ tolist (r_graph B s') (r_cpu B s') a = Done l /\ tolist (r_graph B t) (r_cpu B t) a = Done l.
Proof.
  intros B C s a b s' t HB HC Hs Ha Hv (bd & Hbd & Hc) Hm Hk HM Ht. pose proof (cpu_ok B HB) as HO.
  pose proof (stop_hist_inv B HO C HC s Hs) as HI. pose proof (reach_wf _ (i_reach _ _ _ HI)) as Hw. pose proof (view_of_base _ _ _ _ Hw Hv) as Hb.
  destruct (materialize_ok B HO C HC s a b bd HI Ha Hb Hbd Hm Hk) as (s1 & oc & HR & HI1 & Hg & _ & _ & _ & Hoc). rewrite HM in HR. injection HR as <- <-.
  destruct (Hoc Hc) as [Hgood _].
  assert (Hs' : stop_hist B C s').
  { replace s' with (fst (materialize B s a)) by (now rewrite HM). apply th_mat; auto. intros b' Hb'. assert (b' = b) by congruence. now subst. }
  destruct (read_good B C s' a b HI1) as (l & R1 & R2); [rewrite Hg; exact Hv|exact Hgood|].
  destruct (stop_later_grow B HO C HC s' t Hs' Ht) as [(e & He) Hgr].
  pose proof (stop_hist_inv B HO C HC t (stop_hist_later B C s' t Hs' Ht)) as HIt.
  destruct (read_good B C t a b HIt) as (l2 & T1 & T2); [rewrite He, Hg; apply view_app; auto|auto|].
  exists l. rewrite Hg in R2. split; auto. split; auto. rewrite T1. f_equal.
  rewrite He, Hg, den_app in T2 by exact Ha. congruence.
Qed.
Print Assumptions C59_retry_partial.
(* Python, histories of kernels that read only constants and use no pad/dilate: no hypothesis on keys *)
Theorem C59_retry_plain_python : forall lm s a b s' t, let B := py_backend lm in stop_hist B plain_kernel s -> valid (r_graph B s) a ->
  view_of (r_graph B s) true a b -> computed (r_graph B s) b -> (forall d, kernel_of (r_graph B s) a d -> plain_kernel d) ->
  materialize B s a = (s', Done tt) -> stop_later B plain_kernel s' t ->
  exists l, t_tolist (den (py_alg lm) (r_graph B s) a) = Ok l /\ tolist (r_graph B s') (r_cpu B s') a = Done l /\ tolist (r_graph B t) (r_cpu B t) a = Done l.
Proof.
  intros lm s a b s' t B Hs Ha Hv Hc Hk HM Ht. apply (C59_retry_partial B plain_kernel s a b s' t); auto; [left; exists lm; reflexivity|apply plain_safe|apply py_mat_ok].
Qed.
Print Assumptions C59_retry_plain_python.
(* Python; interruptions and everything else without any condition; the cache is cleared; materialize() succeeds *)
Theorem C59_fresh_cache_partial : forall lm s a b s', let B := py_backend lm in stop_any B s -> valid (r_graph B s) a ->
  view_of (r_graph B s) true a b -> computed (r_graph B s) b -> key_safe (kernel_of (r_graph B s) a) ->
  materialize B (reset_cache B s) a = (s', Done tt) ->
  exists l, tolist (r_graph B s') (r_cpu B s') a = Done l /\ t_tolist (den (py_alg lm) (r_graph B s) a) = Ok l.
Proof.
  intros lm s a b s' B Hs Ha Hv (bd & Hbd & Hc) HC HM.
  assert (HI : inv B (kernel_of (r_graph B s) a) (reset_cache B s)).
  { destruct (stop_any_inv B (py_lang_ok lm) s Hs) as [H1 H2 H3 H4 H5]. split; cbn; auto; [|discriminate].
    intros n nd vs Hn _ Hvs. split; [eapply H3; eauto|]. clear. induction vs; auto. }
  pose proof (reach_wf _ (i_reach _ _ _ HI)) as Hw. pose proof (view_of_base _ _ _ _ Hw Hv) as Hb.
  destruct (materialize_ok B (py_backend_ok lm) _ HC (reset_cache B s) a b bd HI Ha Hb Hbd (py_mat_ok lm _ b)) as (s1 & oc & HR & HI1 & Hg & _ & _ & _ & Hoc); auto.
  rewrite HM in HR. injection HR as <- <-. destruct (Hoc Hc) as [Hgood _].
  assert (Hg' : r_graph B s' = r_graph B s) by exact Hg.
  destruct (read_good B _ s' a b HI1) as (l & R1 & R2); [rewrite Hg'; exact Hv|exact Hgood|]. exists l. split; auto. now rewrite <- Hg'.
Qed.
Print Assumptions C59_fresh_cache_partial.
(* the retry does succeed, under the conditions of C01_succeeds *)
Theorem C59_retry_succeeds : forall B C s a b, is_cpu_backend B -> key_safe C -> stop_hist B C s -> valid (r_graph B s) a -> base (r_graph B s) a = Some b ->
  mat_ok (b_lang B) (r_graph B s) b -> (forall d, kernel_of (r_graph B s) a d -> C d) ->
  no_scalar_reshape (r_graph B s) b -> (forall n, cone (r_graph B s) b n -> ~ refused B (r_graph B s) n) ->
  (forall n idx, cone (r_graph B s) b n -> in_range (shape_of (r_graph B s) n) idx -> t_at (den (b_lang B) (r_graph B s) n) idx <> Raise) ->
  exists s', materialize B s a = (s', Done tt).
Proof.
  intros B C s a b HB HC Hs Ha Hb Hm Hk. pose proof (cpu_ok B HB) as HO. pose proof (stop_hist_inv B HO C HC s Hs) as HI.
  destruct (base_node B s a b (reach_wf _ (i_reach _ _ _ HI)) Ha Hb) as (bd & Hbd). eapply mat_succeeds; eauto.
Qed.
Print Assumptions C59_retry_succeeds.
(* and exactly when it succeeds in a process with the same arrays that was never interrupted; the two then read the same *)
Theorem C59_as_uninterrupted_partial : forall B C1 C2 s1 s2 a b, is_cpu_backend B -> key_safe C1 -> key_safe C2 ->
  stop_hist B C1 s1 -> hist B C2 s2 -> r_graph B s2 = r_graph B s1 -> valid (r_graph B s1) a -> view_of (r_graph B s1) true a b -> computed (r_graph B s1) b ->
  mat_ok (b_lang B) (r_graph B s1) b -> (forall d, kernel_of (r_graph B s1) a d -> C1 d) -> (forall d, kernel_of (r_graph B s1) a d -> C2 d) ->
  ((exists s1', materialize B s1 a = (s1', Done tt)) <-> (exists s2', materialize B s2 a = (s2', Done tt))) /\
  forall s1' s2', materialize B s1 a = (s1', Done tt) -> materialize B s2 a = (s2', Done tt) ->
    exists l, tolist (r_graph B s1') (r_cpu B s1') a = Done l /\ tolist (r_graph B s2') (r_cpu B s2') a = Done l.
Proof.
  intros B C1 C2 s1 s2 a b HB HC1 HC2 Hs1 Hs2 Hg Ha Hv Hcm Hm Hk1 Hk2. pose proof Hcm as (bd & Hbd & Hc). pose proof (cpu_ok B HB) as HO.
  pose proof (stop_hist_inv B HO C1 HC1 s1 Hs1) as HI. pose proof (hist_inv B HO C2 HC2 s2 Hs2) as HJ. pose proof (reach_wf _ (i_reach _ _ _ HI)) as Hw. pose proof (view_of_base _ _ _ _ Hw Hv) as Hb. split.
  - split; intros (s' & HM).
    + eapply (mat_same_outcome B HO C1 HC1 C2 s1 s2 a b bd); eauto.
    + eapply (mat_same_outcome B HO C2 HC2 C1 s2 s1 a b bd); eauto; rewrite ?Hg; auto.
  - intros s1' s2' M1 M2. destruct (C59_retry_partial B C1 s1 a b s1' s1' HB HC1 Hs1 Ha Hv Hcm Hm Hk1 M1 (tl_here _ _ _)) as (l & D1 & R1 & _).
    destruct (value_correct B C2 s2 a b s2' HB HC2 Hs2) as (l2 & R2 & D2); auto; try (rewrite Hg; auto; fail).
    exists l. split; auto. rewrite R2. f_equal. rewrite Hg in D2. congruence.
Qed.
Print Assumptions C59_as_uninterrupted_partial.
(* with no condition: the numbers the user gave are kept; an interrupted call changes nothing outside its expression and builds no arrays *)
Theorem C59_user_data : forall B s t n nd vals, is_cpu_backend B -> stop_any B s -> stop_any_later B s t ->
  nth_error (r_graph B s) n = Some nd -> n_op nd = OConst vals -> r_cpu B t n = Some (map (of_num (b_lang B)) vals) /\ nth_error (r_graph B t) n = Some nd.
Proof. intros B s t n nd vals HB. apply stop_const_kept. apply (bo_lang _ (cpu_ok B HB)). Qed.
Print Assumptions C59_user_data.
Theorem C59_others_kept : forall B s a s', is_cpu_backend B -> stop_any B s -> valid (r_graph B s) a -> stopped B s a s' ->
  r_graph B s' = r_graph B s /\ forall n, ~ cone (r_graph B s) a n -> r_cpu B s' n = r_cpu B s n.
Proof. intros B s a s' HB Hs Ha HS. apply (stopped_any B (bo_lang _ (cpu_ok B HB)) s a s'); auto. apply stop_any_inv; auto. apply (bo_lang _ (cpu_ok B HB)). Qed.
Print Assumptions C59_others_kept.

(* ------------------------------------------------------------------ examples *)
(* stop the first kernel of a.materialize(): before it is compiled (None), or after n memory accesses of it (Some n; Python) *)
Fixpoint mem_steps {L : lang} {A} (loc : name -> option nat) (n : nat) (p : Kernel.prog L A) (m : store L) : option (store L) :=
  match n with
  | 0%nat => Some m
  | S n => match p with
    | PRd x i k => match loc x with Some b => match m b with Some l => match znth l i with Some v => mem_steps loc n (k v) m | None => None end | None => None end | None => None end
    | PWr x i v k => match loc x with Some b => match m b with Some l => match zupd l i v with Some l' => mem_steps loc n k (sset m b l') | None => None end | None => None end | None => None end
    | _ => None
    end
  end.
Lemma mem_steps_stopped B A loc n : forall (p : Kernel.prog (b_lang B) A) m m', mem_steps loc n p m = Some m' -> stopped_run B loc p m m'.
Proof.
  induction n as [|n IH]; intros p m m' H; cbn in H; [injection H as <-; constructor|]. destruct p as [x| | |x i k|x i v k]; try discriminate.
  - destruct (loc x) as [b|] eqn:E1; [|discriminate]. destruct (m b) as [l|] eqn:E2; [|discriminate]. destruct (znth l i) eqn:E3; [|discriminate]. eapply sr_read; eauto.
  - destruct (loc x) as [b|] eqn:E1; [|discriminate]. destruct (m b) as [l|] eqn:E2; [|discriminate]. destruct (zupd l i v) eqn:E3; [|discriminate]. eapply sr_write; eauto.
Qed.
Definition halt (B : cpu_backend) (w : option nat) (s : rt B) (a : nat) : outcome (rt B) :=
  nd <~ get (r_graph B s) a ;;
  if is_const (n_op nd) || is_view (n_op nd) then Throw InternalErr else
  c <~ convert (r_graph B s) a ;; let '(E, fs) := c in
  l <~ mapOut (schedule_one B E) fs ;;
  match l with
  | [] => Throw InternalErr
  | (fd, sc) :: _ =>
      bufs <~ mapOut (arg_buffer E) (func_args (f_expr fd)) ;;
      key <~ cache_key (r_graph B s) E fd sc ;;
      match cache_get (r_cache B s) key with
      | Some _ => Throw InternalErr
      | None =>
          c <~ codegen (r_graph B s) E (func_args (f_expr fd)) fd sc (r_tmp B s) ;; let '(kern, k') := c in
          match w with
          | None => Done (mkRt B (r_graph B s) (r_cpu B s) (r_cache B s) k' (r_runs B s))
          | Some n =>
              if b_copies B || negb (Nat.eqb (length (f_out fd :: bufs)) (length (k_params kern))) then Throw InternalErr else
              m <~ zero_fill B (r_graph B s) (f_out fd :: bufs) (r_cpu B s) ;;
              match mem_steps (bind_params (k_params kern) (f_out fd :: bufs)) n (exec (b_lang B) false no_gpu (pty_of (k_params kern)) (k_body kern) [[]]) m with
              | None => Throw InternalErr
              | Some m' => Done (mkRt B (r_graph B s) m' ((key, kern) :: r_cache B s) k' (S (r_runs B s)))
              end
          end
      end
  end.
Lemma halt_stopped B w s a s' : halt B w s a = Done s' -> stopped B s a s'.
Proof.
  unfold halt. intros H. bd H. unfold get in D. destruct (nth_error (r_graph B s) a) as [nd|] eqn:Hn; [|discriminate]. cbn in D. injection D as ->.
  destruct (is_const (n_op v)) eqn:Ec; [discriminate|]. destruct (is_view (n_op v)) eqn:Ev; [discriminate|]. cbn [orb] in H.
  bd H. destruct v0 as [E fs]. bd H. destruct v0 as [|[fd sc] l]; [discriminate|]. bd H. bd H. destruct (cache_get (r_cache B s) v1) eqn:EC; [discriminate|].
  bd H. destruct v2 as [kern k']. eapply sm_compute; eauto. apply ss_in. destruct w as [n|].
  - destruct (b_copies B) eqn:Ecp; [discriminate|]. cbn [orb] in H. destruct (Nat.eqb_spec (length (f_out fd :: v0)) (length (k_params kern))) as [El|]; [|discriminate]. cbn [negb] in H.
    bd H. destruct (mem_steps _ _ _ _) as [m'|] eqn:EM; [|discriminate]. injection H as <-. eapply sf_new; eauto.
    match goal with |- stopped_invoke B ?s1 _ _ _ => change (mkRt B (r_graph B s) m' ((v1, kern) :: r_cache B s) k' (S (r_runs B s))) with (mkRt B (r_graph B s1) m' (r_cache B s1) (r_tmp B s1) (S (r_runs B s1))) end.
    eapply si_running; eauto. eapply mem_steps_stopped; eauto.
  - injection H as <-. eapply sf_compile; eauto.
Qed.
Lemma hist_stop B C s : hist B C s -> stop_hist B C s.
Proof. induction 1; [apply th_init|apply th_call|apply th_mat|apply th_reset]; auto. Qed.
Lemma hist_any B C s : hist B C s -> any_hist B s.
Proof. induction 1; [apply ah_init|apply ah_call|apply ah_mat|apply ah_reset]; auto. Qed.
Lemma any_stop B s : any_hist B s -> stop_any B s.
Proof. induction 1; [apply ta_init|apply ta_call|apply ta_mat|apply ta_reset]; auto. Qed.
Definition is_done {A} (o : outcome A) : bool := match o with Done _ => true | Throw _ => false end.
Lemma halt_get B w s a d : is_done (halt B w s a) = true -> stopped B s a (match halt B w s a with Done s' => s' | Throw _ => d end).
Proof. intros H. destruct (halt B w s a) eqn:E; [exact (halt_stopped _ _ _ _ _ E)|discriminate]. Qed.
Definition get_st {B} (o : outcome (rt B)) (d : rt B) : rt B := match o with Done s => s | Throw _ => d end.
(* 0 = [0,1,2]; 1 = -0; 2 = 1 * 0.  materialize(2) is stopped after two elements were written (exSt1), once more while the compiler runs after
   a cache reset (exSt2) *)
Definition exSt0 : rt pyB := pl_state no_libm exP0.
Definition exSt1 : rt pyB := get_st (halt pyB (Some 6%nat) exSt0 2) exSt0.
Definition exSt2 : rt pyB := get_st (halt pyB None (reset_cache pyB exSt1) 2) exSt1.
Example C59_nonvacuous :
  stop_hist pyB plain_kernel exSt1 /\ stop_hist pyB plain_kernel exSt2 /\ stop_any pyB exSt2 /\ stopped pyB exSt0 2 exSt1 /\
  r_runs pyB exSt0 = 0%nat /\ r_runs pyB exSt1 = 1%nat /\ length (r_cache pyB exSt1) = 1%nat /\ length (r_cache pyB exSt2) = 0%nat /\
  valid (r_graph pyB exSt2) 2 /\ view_of (r_graph pyB exSt2) true 2 2 /\ computed (r_graph pyB exSt2) 2 /\ plainb (r_graph pyB exSt2) 2 = true /\
  snd (materialize pyB exSt2 2) = Done tt /\ tolist (r_graph pyB exSt2) (r_cpu pyB (fst (materialize pyB exSt2 2))) 2 = Done (Nest [Leaf (PI 0); Leaf (PI (-1)); Leaf (PI (-4))]).
Proof.
  assert (S1 : stopped pyB exSt0 2 exSt1) by (apply (halt_get pyB (Some 6%nat) exSt0 2 exSt0); vm_compute; reflexivity).
  assert (S2 : stopped pyB (reset_cache pyB exSt1) 2 exSt2) by (apply (halt_get pyB None (reset_cache pyB exSt1) 2 exSt1); vm_compute; reflexivity).
  assert (H0 : stop_hist pyB plain_kernel exSt0) by (apply hist_stop, pl_state_hist).
  assert (K0 : forall d, kernel_of (r_graph pyB exSt0) 2 d -> plain_kernel d).
  { apply plainb_ok; [exact (i_reach _ _ _ (stop_hist_inv pyB (py_backend_ok no_libm) _ plain_safe _ H0))|vm_compute; reflexivity|vm_compute; reflexivity]. }
  assert (V0 : valid (r_graph pyB exSt0) 2) by (vm_compute; lia).
  assert (H1 : stop_hist pyB plain_kernel exSt1) by (eapply th_stop; [exact H0|exact V0|intros b _; apply py_mat_ok|exact K0|exact S1]).
  assert (V1 : valid (r_graph pyB (reset_cache pyB exSt1)) 2) by (vm_compute; lia).
  assert (H2 : stop_hist pyB plain_kernel exSt2).
  { eapply th_stop; [apply th_reset; exact H1|exact V1|intros b _; apply py_mat_ok| |exact S2].
    apply plainb_ok; [exact (i_reach _ _ _ (stop_hist_inv pyB (py_backend_ok no_libm) _ plain_safe _ H1))|vm_compute; reflexivity|vm_compute; reflexivity]. }
  split; [exact H1|]. split; [exact H2|]. split.
  { eapply ta_stop; [apply ta_reset; eapply ta_stop; [|exact V0|exact S1]|exact V1|exact S2].
    apply any_stop. apply (hist_any _ plain_kernel). apply pl_state_hist. }
  split; [exact S1|]. split; [vm_compute; reflexivity|]. split; [vm_compute; reflexivity|]. split; [vm_compute; reflexivity|]. split; [vm_compute; reflexivity|].
  split; [vm_compute; lia|]. split; [eapply vo_self; vm_compute; reflexivity|]. split; [eexists; split; vm_compute; reflexivity|].
  split; [vm_compute; reflexivity|]. split; vm_compute; reflexivity.
Qed.
(* REFUTED: "an array whose materialize() did not finish cannot be read".  tolist() of the interrupted array returns a list, without error: some
   elements computed, the others 0 *)
Theorem C59_unfinished_is_unreadable_refuted : exists s a s' l l', any_hist pyB s /\ stopped pyB s a s' /\
  tolist (r_graph pyB s') (r_cpu pyB s') a = Done l /\ t_tolist (den (py_alg no_libm) (r_graph pyB s') a) = Ok l' /\ l <> l'.
Proof.
  exists exSt0, 2%nat, exSt1, (Nest [Leaf (PI 0); Leaf (PI (-1)); Leaf (PI 0)]), (Nest [Leaf (PI 0); Leaf (PI (-1)); Leaf (PI (-4))]).
  split; [apply (hist_any _ plain_kernel); apply pl_state_hist|].
  split; [apply C59_nonvacuous|]. split; [vm_compute; reflexivity|]. split; [vm_compute; reflexivity|discriminate].
Qed.
Print Assumptions C59_unfinished_is_unreadable_refuted.

(* ------------------------------------------------------------------ temporary files *)
(* A compilation that fails between the creation and the removal of its temporary file leaves it *)
Definition leaves_file (f : option cstep) : bool := match f with Some Tool | Some Load | Some Remove => true | _ => false end.
Lemma compile_files f new files : (forall x, In x files -> (x < new)%nat) ->
  fst (compile f new files) = (if leaves_file f then [new] else []) ++ files.
Proof.
  intros Hn. assert (HR : remove Nat.eq_dec new (new :: files) = files).
  { cbn. destruct (Nat.eq_dec new new); [|congruence]. apply notin_remove. intros H. specialize (Hn _ H). lia. }
  unfold compile. destruct f as [[]|]; cbn [raises cstep_eqb leaves_file fst app]; auto.
Qed.
(* any sequence of compilations, each succeeding or failing at any step: the files left are exactly those of the attempts that failed there *)
Theorem C59_files_left : forall fs new files, (forall x, In x files -> (x < new)%nat) ->
  (forall x, In x (compiles fs new files) <-> In x files \/ exists j f, nth_error fs j = Some f /\ leaves_file f = true /\ x = (new + j)%nat) /\
  length (compiles fs new files) = (length files + length (filter leaves_file fs))%nat.
Proof.
  induction fs as [|f fs IH]; intros new files Hn; cbn [compiles].
  - split; [|cbn; lia]. intros x. split; auto. intros [H|([|j] & f & H & _)]; auto; discriminate.
  - pose proof (compile_files f new files Hn) as HC. rewrite HC.
    assert (Hn' : forall x, In x ((if leaves_file f then [new] else []) ++ files) -> (x < S new)%nat).
    { intros x Hx. apply in_app_iff in Hx as [Hx|Hx]; [destruct (leaves_file f); [destruct Hx as [<-|[]]; lia|destruct Hx]|]. specialize (Hn _ Hx). lia. }
    destruct (IH (S new) _ Hn') as [I1 I2]. split.
    + intros x. rewrite I1, in_app_iff. split.
      * intros [[H|H]|(j & f' & H1 & H2 & H3)]; auto.
        { right. exists 0%nat, f. destruct (leaves_file f) eqn:Ef; [|destruct H]. destruct H as [<-|[]]. repeat split; auto; lia. }
        right. exists (S j), f'. repeat split; auto; lia.
      * intros [H|([|j] & f' & H1 & H2 & H3)]; auto.
        { left. left. cbn in H1. injection H1 as <-. rewrite H2. left. lia. }
        right. exists j, f'. repeat split; auto; lia.
    + rewrite I2, app_length. cbn [filter]. destruct (leaves_file f); cbn; lia.
Qed.
Print Assumptions C59_files_left.
(* corollary: none is left exactly when no attempt failed in the compiler, in loading or in the removal *)
Theorem C59_no_files_left : forall fs new, compiles fs new [] = [] <-> forall f, In f fs -> leaves_file f = false.
Proof.
  intros fs new. destruct (C59_files_left fs new [] ltac:(intros x [])) as [H1 H2]. split.
  - intros HE f Hf. destruct (leaves_file f) eqn:Ef; auto. exfalso. apply In_nth_error in Hf as (j & Hj).
    specialize (H1 (new + j)%nat). rewrite HE in H1. destruct H1 as [_ H1]. apply H1. right. eauto.
  - intros Hall. destruct (compiles fs new []) as [|x r] eqn:Ec; auto. exfalso. destruct (H1 x) as [H _].
    destruct (H (or_introl eq_refl)) as [[]|(j & f & Hj & Hl & _)]. rewrite (Hall f) in Hl; [discriminate|]. eapply nth_error_In; eauto.
Qed.
Print Assumptions C59_no_files_left.
(* REFUTED: "compiling leaves no temporary files".  A machine without clang (or nvcc): every attempt leaves one *)
Theorem C59_temporary_files_refuted : forall n, length (compiles (repeat (Some Tool) n) 0 []) = n.
Proof. intros n. destruct (C59_files_left (repeat (Some Tool) n) 0 [] ltac:(intros x [])) as [_ ->]. cbn. induction n; cbn; congruence. Qed.
Print Assumptions C59_temporary_files_refuted.
