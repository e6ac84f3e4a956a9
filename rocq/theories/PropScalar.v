(* Property C48: gradients can be computed and read. *)
From Coq Require Import Reals Lra.
From Coquelicot Require Import Coquelicot.
From Verif Require Import Base BaseFacts Util Lang Spec Graph Api Denote ArrayLit Reach Tolist TolistFacts Algo AlgoSem Kernel Sched Codegen Backends LangInst Prog
  KernelRun AlgoTop AlgoMore ApiFacts FrontFacts3 CacheKey Runtime RuntimeFacts RuntimeFacts2 History HistFacts RtInst CacheFacts Frame HistFacts2 HistTools RuntimeTop PropRuntime
  Backward BackSpec BackOrder BackSteps BackRun BackTop RealAlg GradSpec BackReal BackGrad PropBack BackScalar Grow.

Lemma hist_any B C s : hist B C s -> any_hist B s.
Proof. induction 1; [apply ah_init|now apply ah_call|now apply ah_mat|now apply ah_reset]. Qed.
Lemma hist_reach B C s : is_cpu_backend B -> hist B C s -> reach (r_graph B s).
Proof. intros HB H. exact (j_reach _ _ (any_hist_inv B (bo_lang _ (cpu_ok B HB)) s (hist_any B C s H))). Qed.

(* backward() is, for the running process, a sequence of API calls: it leaves buffers and the kernel cache alone and
   everything proved about histories applies to the gradients. *)
Theorem C48_backward_is_a_history : forall B C s gs y g' gs', hist B C s -> valid (r_graph B s) y -> grads_ok (r_graph B s) gs -> regular (r_graph B s) y ->
  is_cpu_backend B -> backward (r_graph B s) gs y = Done (g', gs') ->
  exists s', hist B C s' /\ later B C s s' /\ r_graph B s' = g' /\ r_cache B s' = r_cache B s /\
    forall n, valid (r_graph B s) n -> r_cpu B s' n = r_cpu B s n.
Proof.
  intros B C s gs y g' gs' Hs Hv Hg HR HB H.
  assert (Hr : reach (r_graph B s)) by (eapply hist_reach; eauto).
  destruct (backward_total unit_alg unit_co _ gs y Hr Hv Hg HR) as (g1 & gs1 & tr & E & R1 & (h & Eh) & _).
  unfold backward in H. rewrite E in H. cbn [obind] in H. injection H as <- <-. subst g1.
  destruct (later_extension B C s h R1) as (s' & L & G & K & M). exists s'. split; [exact (hist_later B C s s' Hs L)|auto].
Qed.
Print Assumptions C48_backward_is_a_history.

(* what backward() leaves at x *)
Lemma grad_at g y x : reach g -> valid g y -> regular g y -> depends g y x ->
  exists h gs' r, backward g no_grads y = Done (g ++ h, gs') /\ reach (g ++ h) /\ gs' x = Some r /\ valid (g ++ h) r /\ shape_of (g ++ h) r = shape_of g x.
Proof.
  intros Hr Hv HR Hd.
  assert (HG : grads_ok g no_grads) by (intros n r E; discriminate E).
  destruct (backward_total unit_alg unit_co g no_grads y Hr Hv HG HR) as (g' & gs' & tr & E & R & (h & ->) & Ho & Hs & _).
  specialize (Hs x Hd). destruct (gs' x) as [r|] eqn:Ex; [|congruence].
  exists h, gs', r. unfold backward. rewrite E. split; [reflexivity|]. split; [exact R|]. split; [exact Ex|].
  destruct (Ho x r Ex) as (_ & V & ->). split; [exact V|]. apply (ext_shape g (g ++ h)); [now exists h|]. exact (depends_valid _ _ _ Hr Hv Hd).
Qed.

(* The gradient of x compiles, on every backend, when no scalar lies between. *)
Theorem C48_gradient_compiles : forall g y x, reach g -> valid g y -> regular g y -> no_scalar_reshape g y -> depends g y x -> ~ scalar_on_path g y x ->
  exists g' gs' r, backward g no_grads y = Done (g', gs') /\ gs' x = Some r /\ shape_of g' r = shape_of g x /\
    forall b, exists E fs, convert g' r = Done (E, fs) /\
      forall f, In f fs -> exists fd, E f = Some fd /\ forall k, exists s kern k', gen b g' E fd k = Done (s, kern, k').
Proof.
  intros g y x Hr Hv HR Hc Hd Hn. destruct (grad_at g y x Hr Hv HR Hd) as (h & gs' & r & E & R & Ex & V & S).
  exists (g ++ h), gs', r. split; [exact E|]. split; [exact Ex|]. split; [exact S|]. intros b.
  apply compilation_total; auto. now apply (backward_clean g y (g ++ h) gs' x r Hr Hv HR Hc E Hd Ex).
Qed.
Print Assumptions C48_gradient_compiles.

(* Otherwise nothing that is computed from the gradient can be materialized any more: not in this process, whatever
   is called later, not on any backend.  (y itself can: no_scalar_reshape g y.) *)
Theorem C48_gradient_unusable : forall g y x, reach g -> valid g y -> regular g y -> no_scalar_reshape g y -> depends g y x -> scalar_on_path g y x ->
  exists g' gs' r, backward g no_grads y = Done (g', gs') /\ gs' x = Some r /\ shape_of g' r = shape_of g x /\
    forall h z, reach (g' ++ h) -> valid (g' ++ h) z -> depends (g' ++ h) z r ->
      convert (g' ++ h) z = Throw TypeErr /\
      forall B s a, is_cpu_backend B -> r_graph B s = g' ++ h -> valid (g' ++ h) a -> base (g' ++ h) a = Some z -> materialize B s a = (s, Throw TypeErr).
Proof.
  intros g y x Hr Hv HR Hc Hd Hn. destruct (grad_at g y x Hr Hv HR Hd) as (h0 & gs' & r & E & R & Ex & V & S).
  exists (g ++ h0), gs', r. split; [exact E|]. split; [exact Ex|]. split; [exact S|]. intros h z R2 Vz Dz.
  assert (HN : ~ no_scalar_reshape ((g ++ h0) ++ h) z).
  { intros H. pose proof (depends_cln _ _ _ H Dz) as H2. rewrite (cln_ext (g ++ h0) ((g ++ h0) ++ h) (ex_intro _ h eq_refl) (reach_inputs_lt _ R) r V) in H2.
    now apply (backward_clean g y (g ++ h0) gs' x r Hr Hv HR Hc E Hd Ex) in H2. }
  pose proof (not_converted _ z R2 Vz HN) as HT. split; [exact HT|].
  intros B s a HB Hg Va Hb. rewrite <- Hg in *. destruct (valid_nth _ z Vz) as (nd & Hnd).
  rewrite (mat_compute B s a z nd (reach_wf _ R2) Hb Va Hnd). destruct (is_const (n_op nd)) eqn:Ec.
  - exfalso. apply HN. intros n md Hcn Hmd Ho. assert (n = z).
    { clear - Hcn R2 Hnd Ec. induction Hcn as [|n md b Hc IH Hn Hb]; [reflexivity|]. subst n. assert (md = nd) by congruence. subst md.
      pose proof (reach_wf _ R2 z nd Hnd) as HI. unfold wf_node in HI. destruct (n_op nd); try discriminate. destruct HI as (HI & _). rewrite HI in Hb. destruct Hb. }
    subst n. assert (md = nd) by congruence. subst. rewrite Ho in Ec. discriminate.
  - unfold compute. now rewrite HT.
Qed.
Print Assumptions C48_gradient_unusable.

(* From the forward program to the printed gradient.  In a process (any history s) where y can be compiled, y.backward()
   succeeds and the gradient of x, if no scalar lies between, is then materialized and read back: the elements shown are
   those of the gradient expression in the backend's arithmetic (and that expression is the derivative: C28).
   Conditions on the gradient array r itself, as for any array: its kernels do not collide in the cache (C), it is a
   computed array or a view whose reshapes start at offset 0 (refuted below otherwise), no element operation raises. *)
Theorem C48_gradient_shown_partial : forall B C s y x, is_cpu_backend B -> key_safe C -> hist B C s -> let g := r_graph B s in
  valid g y -> regular g y -> no_scalar_reshape g y -> depends g y x -> ~ scalar_on_path g y x ->
  exists s' gs' r, let g' := r_graph B s' in
    backward g no_grads y = Done (g', gs') /\ hist B C s' /\ later B C s s' /\ gs' x = Some r /\ shape_of g' r = shape_of g x /\
    (forall b, view_of g' true r b -> computed g' b -> mat_ok (b_lang B) g' b -> (forall d, kernel_of g' r d -> C d) ->
       (forall n, cone g' b n -> ~ refused B g' n) ->
       (forall n idx, cone g' b n -> in_range (shape_of g' n) idx -> t_at (den (b_lang B) g' n) idx <> Raise) ->
       exists s2 l, materialize B s' r = (s2, Done tt) /\ tolist (r_graph B s2) (r_cpu B s2) r = Done l /\ t_tolist (den (b_lang B) g' r) = Ok l) /\
    (smooth g y x -> forall i, in_range (shape_of g x) i -> exists d, t_at (den RA g' r) i = Ok d /\
       is_derive (fun t => total (shape_of g y) (den_with x (moved g x (unit_at i) t) g y)) 0%R d).
Proof.
  intros B C s y x HB HC Hs g Hv HR Hc Hd Hn. pose proof (hist_reach B C s HB Hs) as Hr. fold g in Hr.
  destruct (grad_at g y x Hr Hv HR Hd) as (h & gs' & r & E & R & Ex & V & S).
  destruct (C48_backward_is_a_history B C s no_grads y (g ++ h) gs' Hs Hv ltac:(intros n q F; discriminate F) HR HB E) as (s' & Hs' & L & G & _).
  exists s', gs', r. cbn zeta. rewrite G. split; [exact E|]. split; [exact Hs'|]. split; [exact L|]. split; [exact Ex|]. split; [exact S|]. split.
  - intros b Hvw Hcp Hm Hk Hrf Hra. rewrite <- G in *. pose proof (view_of_base _ _ _ _ (reach_wf _ R) Hvw) as Hb.
    assert (Hcl : no_scalar_reshape (r_graph B s') b).
    { assert (H : no_scalar_reshape (r_graph B s') r) by now apply (backward_clean g y (r_graph B s') gs' x r Hr Hv HR Hc E Hd Ex).
      clear - H Hvw. induction Hvw as [|a nd p pd b Hnd _ Hp _ _ _ IH]; [exact H|]. apply IH. intros n md Hn'. apply H.
      eapply cone_trans; [|exact Hn']. eapply cone_step; [apply cone_self|exact Hnd|]. destruct (n_in nd); [discriminate|]. injection Hp as ->. now left. }
    destruct (materialize_succeeds B C s' r b HB HC Hs' V Hb Hm Hk Hcl Hrf Hra) as (s2 & E2).
    destruct (value_correct B C s' r b s2 HB HC Hs' V Hvw Hcp Hm Hk E2) as (l & T1 & T2). exists s2, l. auto.
  - intros Hsm i Hi. destruct (C28_gradient_partial g y x Hr Hv HR Hd Hsm) as (g2 & gs2 & r2 & E2 & Ex2 & _ & H2).
    rewrite E in E2. injection E2 as <- <-. assert (r2 = r) by congruence. subst r2. destruct (H2 i Hi) as (_ & d & Hd1 & Hd2). eauto.
Qed.
Print Assumptions C48_gradient_shown_partial.

(* ---- concrete cases ---- *)
Ltac dep1 := eapply dep_step; [vm_compute; reflexivity|cbn; tauto|].
(* x = array([1.5, 2.5]); y = sum(x * x): the hypotheses of C48_gradient_shown_partial hold, before and after backward(),
   and x.grad shows [3.0, 5.0]; on both backends *)
Definition exPc : list call := [CArray (Nest [Leaf (NFlt 3 (-1)); Leaf (NFlt 5 (-1))]); CBinary BMul 0 0; CSum 1 None false].
Definition exPg : list call := [COnesLike 2; CReshape 3 [1]; CBroadcastTo 4 [2]; CBinary BMul 5 0; CBinary BMul 5 0; CBinary BAdd 6 7].
Definition exPs (B : cpu_backend) : rt B := sc_state B (map Call exPc).
Definition exPs' (B : cpu_backend) : rt B := sc_state B (map Call (exPc ++ exPg)).
Definition exP : graph := Prog.prog exPc.
Example C48_nonvacuous : reach exP /\ valid exP 2 /\ regular exP 2 /\ no_scalar_reshape exP 2 /\ depends exP 2 0 /\ ~ scalar_on_path exP 2 0 /\ smooth exP 2 0.
Proof.
  assert (HN : forall n, depends exP 2 n -> (n <= 2)%nat) by (intros n H; apply (depends_le exP (reach_inputs_lt _ (prog_reach _)) _ _ H)).
  split; [apply prog_reach|]. split; [vm_compute; lia|]. split.
  { intros n nd a Hd Hn Ha. apply HN in Hd. do 3 (destruct n as [|n]; [vm_compute in Hn; injection Hn as <-; vm_compute in Ha; try discriminate Ha; injection Ha as <-; cbn; auto|]). lia. }
  split. { intros n nd _ Hn. do 3 (destruct n as [|n]; [vm_compute in Hn; injection Hn as <-; discriminate|]). vm_compute in Hn. destruct n; discriminate Hn. }
  split; [dep1; dep1; constructor|]. split.
  { intros (f & i & nd & Hd & Hn & Hi & (Hs & _) & _). apply HN in Hd.
    do 3 (destruct f as [|f]; [vm_compute in Hn; injection Hn as <-; cbn in Hi; repeat (destruct Hi as [<-|Hi]; [vm_compute in Hs; discriminate Hs|]); destruct Hi|]). lia. }
  constructor.
  - intros n idx Hd Hi. apply HN in Hd. apply in_all_idx in Hi.
    do 3 (destruct n as [|n]; [vm_compute in Hi; repeat (destruct Hi as [<-|Hi]; [eexists; lazy -[IZR powerRZ Rplus Rmult]; reflexivity|]); destruct Hi|]). lia.
  - intros n nd a idx v Hd Hn Ho. apply HN in Hd. exfalso. do 3 (destruct n as [|n]; [vm_compute in Hn; injection Hn as <-; discriminate Ho|]). lia.
  - intros n nd a b idx u w Hd Hn Ho. apply HN in Hd. exfalso. do 3 (destruct n as [|n]; [vm_compute in Hn; injection Hn as <-; discriminate Ho|]). lia.
Qed.
Example C48_nonvacuous_process : forall B, B = pyB \/ B = cB -> let g' := r_graph B (exPs' B) in let C := kernel_of g' 8 in
  is_cpu_backend B /\ key_safe C /\ hist B C (exPs B) /\ r_graph B (exPs B) = exP /\
  (exists gs', backward exP no_grads 2 = Done (g', gs') /\ gs' 0%nat = Some 8%nat) /\ hist B C (exPs' B) /\
  view_of g' true 8 8 /\ computed g' 8 /\ mat_ok (b_lang B) g' 8 /\ (forall n, cone g' 8 n -> ~ refused B g' n) /\
  (forall n idx, cone g' 8 n -> in_range (shape_of g' n) idx -> t_at (den (b_lang B) g' n) idx <> Raise).
Proof.
  assert (HN : forall B, B = pyB \/ B = cB -> forall n, cone (r_graph B (exPs' B)) 8 n -> (n <= 8)%nat).
  { intros B HB n Hc. assert (Hr : reach (r_graph B (exPs' B))) by (apply (hist_reach B (fun _ => False)); [destruct HB as [->| ->]; [left|right]; eauto|apply calls_state_hist]).
    induction Hc as [|n nd b Hc IH Hn Hb]; [lia|]. pose proof (reach_inputs_lt _ Hr n nd Hn) as HF. rewrite Forall_forall in HF. specialize (HF b Hb). lia. }
  intros B HB. cbn zeta. specialize (HN B HB). split; [destruct HB as [->| ->]; [left|right]; eauto|].
  split; [destruct HB as [->| ->]; apply own_safeb_ok; vm_compute; reflexivity|]. split; [apply calls_state_hist|]. split; [destruct HB as [->| ->]; vm_compute; reflexivity|].
  split. { destruct HB as [->| ->]; (eexists; split; [|shelve]; vm_compute; reflexivity). Unshelve. all: vm_compute; reflexivity. }
  split; [apply calls_state_hist|]. split; [destruct HB as [->| ->]; eapply vo_self; vm_compute; reflexivity|].
  split; [destruct HB as [->| ->]; eexists; split; vm_compute; reflexivity|]. split.
  { destruct HB as [->| ->]; [apply py_mat_ok|]. split; [apply fits_all; vm_compute; reflexivity|]. exists Float64. intros n nd Hc Hn _. apply HN in Hc.
    do 9 (destruct n as [|n]; [vm_compute in Hn; injection Hn as <-; reflexivity|]). lia. }
  split.
  { intros n Hc (nd & vals & Hn & Ho & Hb & Ha). apply HN in Hc. destruct HB as [->| ->]; [discriminate Hb|].
    do 9 (destruct n as [|n]; [vm_compute in Hn; injection Hn as <-; try discriminate Ho; injection Ho as <-; vm_compute in Ha; discriminate Ha|]). lia. }
  intros n idx Hc Hi. apply HN in Hc. apply in_all_idx in Hi.
  destruct HB as [->| ->]; do 9 (destruct n as [|n]; [vm_compute in Hi; repeat (destruct Hi as [<-|Hi]; [vm_compute; discriminate|]); destruct Hi|]); lia.
Qed.
(* x = array([1.0, 2.0]); y = x / x.sum(): y is computed, but x.grad raises TypeError when materialized *)
Definition exNc : list call := [CArray (Nest [Leaf (NFlt 1 0); Leaf (NFlt 1 1)]); CSum 0 None false; CBinary BTruediv 0 1].
Definition exN : graph := Prog.prog exNc.
Definition exNs (B : cpu_backend) : rt B := sc_state B (map Call exNc).
Lemma exN_facts : reach exN /\ valid exN 3 /\ regular exN 3 /\ no_scalar_reshape exN 3 /\ depends exN 3 0 /\ scalar_on_path exN 3 0.
Proof.
  assert (HN : forall n, depends exN 3 n -> (n <= 3)%nat) by (intros n H; apply (depends_le exN (reach_inputs_lt _ (prog_reach _)) _ _ H)).
  split; [apply prog_reach|]. split; [vm_compute; lia|]. split.
  { intros n nd a Hd Hn Ha. apply HN in Hd. do 4 (destruct n as [|n]; [vm_compute in Hn; injection Hn as <-; vm_compute in Ha; try discriminate Ha; injection Ha as <-; cbn; auto; try (vm_compute; discriminate); try (split; [vm_compute; discriminate|auto])|]). lia. }
  split. { intros n nd _ Hn. do 4 (destruct n as [|n]; [vm_compute in Hn; injection Hn as <-; discriminate|]). vm_compute in Hn. destruct n; discriminate Hn. }
  split; [dep1; constructor|].
  exists 2%nat, 1%nat. eexists. split; [eapply (dep_step exN 3%nat _ 2%nat); [vm_compute; reflexivity|cbn; tauto|constructor]|]. split; [vm_compute; reflexivity|].
  split; [cbn; tauto|]. split; [split; [vm_compute; reflexivity|cbn; discriminate]|]. eapply (dep_step exN 1%nat _ 0%nat); [vm_compute; reflexivity|cbn; tauto|constructor].
Qed.
Theorem C48_normalised_refuted : forall B, B = pyB \/ B = cB ->
  hist B (fun _ => False) (exNs B) /\ (exists s1, materialize B (exNs B) 3 = (s1, Done tt)) /\
  exists s' gs' r, backward (r_graph B (exNs B)) no_grads 3 = Done (r_graph B s', gs') /\ later B (fun _ => False) (exNs B) s' /\
    gs' 0%nat = Some r /\ materialize B s' r = (s', Throw TypeErr).
Proof.
  destruct exN_facts as (F1 & F2 & F3 & F4 & F5 & F6).
  assert (K : forall B, is_cpu_backend B -> r_graph B (exNs B) = exN -> exists s' gs' r, backward (r_graph B (exNs B)) no_grads 3 = Done (r_graph B s', gs') /\ later B (fun _ => False) (exNs B) s' /\
    gs' 0%nat = Some r /\ materialize B s' r = (s', Throw TypeErr)).
  { intros B HB EG. pose proof (calls_state_hist B (fun _ => False) exNc) as Hs. fold (exNs B) in Hs.
    destruct (C48_gradient_unusable exN 3 0 F1 F2 F3 F4 F5 F6) as (g' & gs' & r & E & Ex & _ & HU).
    destruct (C48_backward_is_a_history B (fun _ => False) (exNs B) no_grads 3 g' gs' Hs) as (s' & Hs' & L & G & _); try rewrite EG; auto.
    { intros n q F. discriminate F. }
    exists s', gs', r. rewrite G. split; [now rewrite E|]. split; [exact L|]. split; [exact Ex|].
    pose proof (hist_reach _ _ _ HB Hs') as R. rewrite G in R. specialize (HU [] r). rewrite app_nil_r in HU.
    assert (Hr : r = 16%nat /\ length g' = 17%nat /\ base g' 16 = Some 16%nat).
    { assert (EE : match backward exN no_grads 3 with Done (gg, ggs) => ggs 0%nat = Some 16%nat /\ length gg = 17%nat /\ base gg 16 = Some 16%nat | _ => False end) by (vm_compute; auto).
      rewrite E in EE. destruct EE as (E1 & E2 & E3). rewrite Ex in E1. injection E1 as ->. auto. }
    destruct Hr as (-> & El & Eb). apply HU; auto; [unfold valid; lia|constructor|unfold valid; lia]. }
  intros B [->| ->].
  - split; [apply calls_state_hist|]. split; [eexists; apply pair_snd; vm_compute; reflexivity|]. apply K; [left; eauto|vm_compute; reflexivity].
  - split; [apply calls_state_hist|]. split; [eexists; apply pair_snd; vm_compute; reflexivity|]. apply K; [right; eauto|vm_compute; reflexivity].
Qed.
Print Assumptions C48_normalised_refuted.

(* x = arange(4); y = x.reshape(2,2).pad(0,1,0) * [[1,2],[3,4],[5,6]]: x.grad is a reshape of rows 1-2 of an array; its
   elements are 3,4,5,6 and it shows 1,2,3,4 (C15's defect, reached through backward()) *)
Definition exOc : list call := [CArange 4; CReshape 0 [2; 2]; CPad 1 0 1 0;
  CArray (Nest [Nest [Leaf (NInt 1); Leaf (NInt 2)]; Nest [Leaf (NInt 3); Leaf (NInt 4)]; Nest [Leaf (NInt 5); Leaf (NInt 6)]]); CBinary BMul 2 3].
Definition exOg : list call := [COnesLike 4; CBinary BMul 5 3; CBinary BMul 5 2; CGetitem 6 [SSlice (Some 1) (Some 3) None; SSlice (Some 0) (Some 2) None]; CReshape 8 [4]].
Definition exOs : rt pyB := sc_state pyB (map Call exOc).
Definition exOs' : rt pyB := sc_state pyB (map Call (exOc ++ exOg)).
Theorem C48_offset_refuted : let g := r_graph pyB exOs in let g' := r_graph pyB exOs' in
  any_hist pyB exOs' /\ (exists gs', backward g no_grads 4 = Done (g', gs') /\ gs' 0%nat = Some 9%nat) /\
  exists s2, materialize pyB exOs' 9 = (s2, Done tt) /\
    tolist (r_graph pyB s2) (r_cpu pyB s2) 9 = Done (Nest [Leaf (PI 1); Leaf (PI 2); Leaf (PI 3); Leaf (PI 4)]) /\
    t_tolist (den (py_alg no_libm) g' 9) = Ok (Nest [Leaf (PI 3); Leaf (PI 4); Leaf (PI 5); Leaf (PI 6)]).
Proof.
  cbn zeta. split; [apply sc_state_any|]. split.
  { eexists. split; [|shelve]. vm_compute. reflexivity. Unshelve. vm_compute. reflexivity. }
  eexists. split; [apply pair_snd; vm_compute; reflexivity|]. split; vm_compute; reflexivity.
Qed.
Print Assumptions C48_offset_refuted.
