(* Properties C48 and C50, CUDA: gradients computed and read in a process on the GPU. *)
From Coq Require Import Reals Lra Floats.SpecFloat.
From Coquelicot Require Import Coquelicot.
From Flocq Require Import Core.
From Verif Require Import Base BaseFacts Util Lang Spec Graph Api Denote DenoteFacts ArrayLit Reach Tolist TolistFacts FrontSpec Algo AlgoSem Kernel Sched Codegen Backends LangInst Prog
  AlgoConvert AlgoConvert2 KernelRun BackendFacts AlgoTop AlgoMore ApiFacts FrontFacts3 CacheKey Runtime RuntimeFacts RuntimeFacts2 History HistFacts RtInst CacheFacts Frame HistFacts2 HistTools RuntimeTop PropRuntime
  Backward BackSpec BackOrder BackSteps BackRun BackTop RealAlg GradSpec BackReal BackGrad PropBack BackScalar Grow PropScalar Agree IEEE ErrSpec ErrFacts PropGrad
  Parallel ParGpu Device DevFacts DevRun DevHist DevProg DevAny DevTools PropDevice DevGrad.
Local Open Scope Z_scope.
Notation cuda := c_backend.

(* backward() on the GPU is a sequence of API calls on arrays that are alive: it launches nothing, allocates nothing,
   keeps the kernel cache, and every array it makes (the gradients among them) is alive afterwards. *)
Theorem C48_backward_is_a_history_cuda : forall lm C s gs y g' gs', key_safe C -> ghist (cuda lm) true C s -> let g := dv_graph _ s in
  dv_alive _ s y = true -> grads_ok g gs -> (forall n r, gs n = Some r -> dv_alive _ s r = true) -> regular g y -> backward g gs y = Done (g', gs') ->
  exists s', ghist (cuda lm) true C s' /\ glater (cuda lm) C s s' /\ dv_graph _ s' = g' /\ dv_cache _ s' = dv_cache _ s /\ dv_ptr _ s' = dv_ptr _ s /\ dv_mem _ s' = dv_mem _ s /\
    trace s' = trace s /\ (forall n, valid g n -> dv_host _ s' n = dv_host _ s n) /\
    (forall n, valid g n -> dv_alive _ s' n = dv_alive _ s n) /\ (forall n, ~ valid g n -> valid g' n -> dv_alive _ s' n = true) /\
    (forall n r, gs' n = Some r -> dv_alive _ s' r = true).
Proof.
  intros lm C s gs y g' gs' HC Hs g Ha Hg Hgs HR E.
  pose proof (gany_inv (cuda lm) (c_lang_ok lm) s (ghist_any lm C s HC Hs)) as HO. pose proof (oi_reach _ _ _ HO) as Hr. fold g in Hr.
  pose proof (oi_alive _ _ _ HO y Ha) as Hv.
  destruct (backward_total unit_alg unit_co g gs y Hr Hv Hg HR) as (g1 & gs1 & tr & E1 & R1 & (h & Eh) & Hok & _).
  unfold backward in E. rewrite E1 in E. cbn [obind] in E. injection E as <- <-.
  set (Al := fun n => dv_alive (cuda lm) s n = true).
  assert (HG : okg (length g) Al g).
  { split; [lia|]. intros n nd Hn Hnd. apply Forall_forall. intros i Hi _. apply (oi_in _ _ _ HO n nd i); auto. apply Hn. apply nth_error_Some. congruence. }
  assert (HB : backward g gs y = Done (g1, gs1)) by (unfold backward; now rewrite E1).
  destruct (u_backward (length g) Al g gs y g1 gs1 Hr Hv HG (fun n r Hn _ => Hgs n r Hn) (fun _ => Ha) HB) as (HG' & HS').
  assert (HT : steps1 g g1) by (rewrite Eh in *; now apply reach_extension).
  destruct (glater_steps (cuda lm) C s (length g) g1 HG' s (gla_here _ _ _) HT (le_n _)) as (s' & L & A1 & A2 & A3 & A4 & A5 & A6 & A7).
  { intros n. fold g. destruct (Nat.ltb_spec n (length g)) as [Hl|Hl]; [reflexivity|]. destruct (dv_alive _ s n) eqn:Ea; [|reflexivity]. apply (oi_alive _ _ _ HO) in Ea. fold g in Ea. lia. }
  exists s'. split; [exact (ghist_later _ _ _ _ _ Hs L eq_refl)|]. split; [exact L|]. split; [exact A1|]. split; [exact A2|]. split; [exact A3|]. split; [exact A4|].
  split; [unfold trace; now rewrite A5|]. split; [exact A6|].
  assert (HA : forall n, dv_alive _ s' n = if Nat.ltb n (length g) then dv_alive _ s n else Nat.ltb n (length g1)) by exact A7.
  split; [|split].
  - intros n Hn. rewrite HA. unfold valid in Hn. destruct (Nat.ltb_spec n (length g)); [reflexivity|lia].
  - intros n Hn Hn'. unfold valid in *. rewrite HA. destruct (Nat.ltb_spec n (length g)); [lia|]. now apply Nat.ltb_lt.
  - intros n r Hn. rewrite HA. destruct (Nat.ltb_spec r (length g)) as [Hl|Hl]; [exact (HS' n r Hn Hl)|]. apply Nat.ltb_lt. destruct (Hok n r Hn) as (_ & Hvr & _). exact Hvr.
Qed.
Print Assumptions C48_backward_is_a_history_cuda.

(* From the forward program to the gradient a user reads on the GPU.  In a process (any history s) where y is held and can
   be compiled, y.backward() succeeds.  If no scalar lies between, the gradient of x can then be materialized when the
   driver has memory (extents between 1 and 65535, constants that ctypes accepts); whenever materialize() returns
   normally, tolist() in any later state in which the gradient is still held shows the elements of the gradient
   expression, and that expression is the derivative.  materialize() of the gradient fails only as C41_failures says. *)
Theorem C48_gradient_shown_cuda_partial : forall lm C s y x, key_safe C -> ghist (cuda lm) true C s -> let g := dv_graph _ s in
  dv_alive _ s y = true -> regular g y -> no_scalar_reshape g y -> depends g y x -> ~ scalar_on_path g y x ->
  exists s' gs' r, let g' := dv_graph _ s' in
    backward g no_grads y = Done (g', gs') /\ ghist (cuda lm) true C s' /\ glater (cuda lm) C s s' /\ gs' x = Some r /\ shape_of g' r = shape_of g x /\ dv_alive _ s' r = true /\
    (forall b, view_of g' true r b -> computed g' b -> gmat_ok (cuda lm) g' b -> (forall d, gkernel_of g' r d -> C d) ->
       ((forall n nd vals, cone g' b n -> nth_error g' n = Some nd -> n_op nd = OConst vals -> forallb (c_accept (n_dtype nd)) (map (of_num (c_lang lm)) vals) = true) ->
        (forall n nd, cone g' b n -> nth_error g' n = Some nd -> Forall (fun d => 1 <= d <= 65535) (n_shape nd)) ->
        exists s2, gmat (cuda lm) s' r s2 (Done tt)) /\
       (forall s2 t, gmat (cuda lm) s' r s2 (Done tt) -> glater (cuda lm) C s2 t -> dv_alive _ t r = true ->
        exists l, snd (gtolist (cuda lm) t r) = Done l /\ t_tolist (den (c_alg lm) g' r) = Ok l)) /\
    (smooth g y x -> forall i, in_range (shape_of g x) i -> exists d, t_at (den RA g' r) i = Ok d /\
       is_derive (fun t => GradSpec.total (shape_of g y) (den_with x (moved g x (unit_at i) t) g y)) 0%R d).
Proof.
  intros lm C s y x HC Hs g Ha HR Hc Hd Hn.
  pose proof (gany_inv (cuda lm) (c_lang_ok lm) s (ghist_any lm C s HC Hs)) as HO. pose proof (oi_reach _ _ _ HO) as Hr. fold g in Hr.
  pose proof (oi_alive _ _ _ HO y Ha) as Hv.
  destruct (grad_at g y x Hr Hv HR Hd) as (h & gs' & r & E & R & Ex & V & S).
  destruct (C48_backward_is_a_history_cuda lm C s no_grads y (g ++ h) gs' HC Hs Ha ltac:(intros n q F; discriminate F) ltac:(intros n q F; discriminate F) HR E)
    as (s' & Hs' & L & G & _ & _ & _ & _ & _ & _ & _ & HAl). pose proof (HAl x r Ex) as Har.
  exists s', gs', r. cbn zeta. rewrite G. split; [exact E|]. split; [exact Hs'|]. split; [exact L|]. split; [exact Ex|]. split; [exact S|]. split; [exact Har|]. split.
  - intros b Hvw Hcp Hm Hk. rewrite <- G in *. pose proof (view_of_base _ _ _ _ (reach_wf _ R) Hvw) as Hb. split.
    + intros Hacc Hext.
      assert (Hcl : no_scalar_reshape (dv_graph _ s') b).
      { assert (H : no_scalar_reshape (dv_graph _ s') r) by now apply (backward_clean g y (dv_graph _ s') gs' x r Hr Hv HR Hc E Hd Ex).
        clear - H Hvw. induction Hvw as [|a nd p pd b Hnd _ Hp _ _ _ IH]; [exact H|]. apply IH. intros n md Hn'. apply H.
        eapply cone_trans; [|exact Hn']. eapply cone_step; [apply cone_self|exact Hnd|]. destruct (n_in nd); [discriminate|]. injection Hp as ->. now left. }
      exact (C41_succeeds lm C s' r b HC Hs' Har Hb Hm Hk Hcl Hacc Hext).
    + intros s2 t HM HL HAt. exact (C41_tolist_partial lm C s' r b s2 t HC Hs' Har Hvw Hcp Hm Hk HM HL HAt).
  - intros Hsm i Hi. destruct (C28_gradient_partial g y x Hr Hv HR Hd Hsm) as (g2 & gs2 & r2 & E2 & Ex2 & _ & H2).
    rewrite E in E2. injection E2 as <- <-. assert (r2 = r) by congruence. subst r2. destruct (H2 i Hi) as (_ & d & Hd1 & Hd2). eauto.
Qed.
Print Assumptions C48_gradient_shown_cuda_partial.

(* Otherwise (C48_gradient_unusable) whatever is computed from the gradient raises TypeError on the GPU too, in every state
   of the device and whatever the driver does; nothing is allocated or launched. *)
Theorem C48_gradient_unusable_cuda : forall g y x, reach g -> valid g y -> regular g y -> no_scalar_reshape g y -> depends g y x -> scalar_on_path g y x ->
  exists g' gs' r, backward g no_grads y = Done (g', gs') /\ gs' x = Some r /\ shape_of g' r = shape_of g x /\
    forall h z lm s a, reach (g' ++ h) -> valid (g' ++ h) z -> depends (g' ++ h) z r -> dv_graph (cuda lm) s = g' ++ h -> valid (g' ++ h) a -> base (g' ++ h) a = Some z ->
      forall s' oc, gmat (cuda lm) s a s' oc <-> s' = s /\ oc = Throw TypeErr.
Proof.
  intros g y x Hr Hv HR Hc Hd Hn. destruct (C48_gradient_unusable g y x Hr Hv HR Hc Hd Hn) as (g' & gs' & r & E & Ex & S & HU).
  exists g', gs', r. split; [exact E|]. split; [exact Ex|]. split; [exact S|]. intros h z lm s a R Hz Dz Hg Va Hb.
  destruct (HU h z R Hz Dz) as (HT & HM). pose proof (reach_wf _ R) as Hw.
  destruct (valid_nth _ z Hz) as (zd & Hzd).
  assert (Hnc : is_const (n_op zd) = false).
  { pose proof (HM pyB (mkRt pyB (g' ++ h) (fun _ => None) [] 0 0) a (or_introl (ex_intro _ no_libm eq_refl)) eq_refl Va Hb) as HX.
    rewrite (mat_compute pyB (mkRt pyB (g' ++ h) (fun _ => None) [] 0 0) a z zd Hw Hb Va Hzd) in HX. destruct (is_const (n_op zd)); [discriminate HX|reflexivity]. }
  pose proof (base_view _ a z Hw Hb Va) as HV.
  assert (Hnv : is_view (n_op zd) = false) by (clear - HV Hzd; induction HV; [congruence|auto]).
  clear HM E HU. rewrite <- Hg in *. intros s' oc. split.
  - intros HG. pose proof (gmat_base _ s a z zd s' oc HV Hzd HG) as HB. rewrite Hnc in HB. inversion HB; subst; try congruence. split; congruence.
  - intros (-> & ->). apply (gmat_run_base _ s a z s _ HV). eapply gm_comp; [exact Hzd|exact Hnc|exact Hnv|]. apply gc_conv. exact HT.
Qed.
Print Assumptions C48_gradient_unusable_cuda.

(* y.backward(), then x.grad.materialize() and, any time later, x.grad.tolist() on the GPU: the elements shown are the
   derivative up to the computed rounding bounds. *)
Theorem C50_cuda_partial : forall lm k C s y x, libm_within lm k -> key_safe C -> ghist (cuda lm) true C s -> let g := dv_graph _ s in
  dv_alive _ s y = true -> regular g y -> no_scalar_reshape g y -> depends g y x -> ~ scalar_on_path g y x -> smooth g y x ->
  exists s' gs' r, let g' := dv_graph _ s' in
    backward g no_grads y = Done (g', gs') /\ glater (cuda lm) C s s' /\ gs' x = Some r /\ dv_alive _ s' r = true /\
    forall b s2 t, view_of g' true r b -> computed g' b -> gmat_ok (cuda lm) g' b -> (forall d, gkernel_of g' r d -> C d) ->
      (forall n idx, cone g' r n -> in_range (shape_of g' n) idx -> exists v, t_at (den (ebound true k) g' n) idx = Ok v) ->
      gmat (cuda lm) s' r s2 (Done tt) -> glater (cuda lm) C s2 t -> dv_alive _ t r = true ->
      exists l, snd (gtolist (cuda lm) t r) = Done l /\
        forall i, in_range (shape_of g x) i -> exists v w d, t_at (den (ebound true k) g' r) i = Ok v /\ follow l i = Some w /\ shows_c v w /\
          is_derive (fun t => GradSpec.total (shape_of g y) (den_with x (moved g x (unit_at i) t) g y)) 0%R d /\ exactly v d.
Proof.
  intros lm k C s y x HL HC Hs g Ha HR Hc Hd Hn Hsm.
  destruct (C48_gradient_shown_cuda_partial lm C s y x HC Hs Ha HR Hc Hd Hn) as (s' & gs' & r & HX). cbv zeta in HX. destruct HX as (E & Hs' & L & Ex & S & Har & H1 & H2).
  exists s', gs', r. cbv zeta. split; [exact E|]. split; [exact L|]. split; [exact Ex|]. split; [exact Har|]. intros b s2 t Hvw Hcp Hm Hk HE HM HLt HAt.
  destruct (H1 b Hvw Hcp Hm Hk) as (_ & H3). destruct (H3 s2 t HM HLt HAt) as (l & T1 & T2). exists l. split; [exact T1|]. intros i Hi.
  pose proof (gany_inv (cuda lm) (c_lang_ok lm) s' (ghist_any lm C s' HC Hs')) as HO. pose proof (oi_reach _ _ _ HO) as Hr. pose proof (reach_wf _ Hr) as Hw.
  fold g in S, H2 |- *. set (g' := dv_graph _ s') in *.
  assert (Hi' : in_range (shape_of g' r) i) by now rewrite S.
  destruct (HE r i (cone_self _ _) Hi') as (v & Hv').
  destruct (nth_error g' r) as [nd|] eqn:En.
  2:{ apply nth_error_None in En. unfold den in Hv'. rewrite nth_overflow in Hv' by (rewrite dens_length; exact En). discriminate. }
  assert (Hin : in_range (n_shape nd) i) by (unfold shape_of in Hi'; now rewrite En in Hi').
  destruct (den_rel (ebound true k) (c_lang lm) shows_c g' r Hw ltac:(intros; now apply agrees_c) r nd i v (cone_self _ _) En Hin Hv') as (w & W1 & W2).
  destruct (den_rel (ebound true k) RA exactly g' r Hw ltac:(intros; now apply agrees_exact) r nd i v (cone_self _ _) En Hin Hv') as (d & D1 & D2).
  destruct (H2 Hsm i Hi) as (d' & D3 & D4). assert (Hq : Ok d = Ok d') by exact (eq_trans (eq_sym D1) D3). injection Hq as <-.
  unfold t_tolist in T2. pose proof (wf_shape_facts (c_lang lm) g' r nd Hw En) as [Ix _ _ _].
  assert (Ix' : t_shape (den (c_alg lm) g' r) = n_shape nd) by exact Ix.
  destruct (nested_follow _ _ _ i T2) as (w' & W3 & W4); [now rewrite Ix'|].
  assert (Hq : Ok w' = Ok w) by exact (eq_trans (eq_sym W3) W1). injection Hq as ->. exists v, w, d. auto.
Qed.
Print Assumptions C50_cuda_partial.

(* x = array([1.5, 2.5]); y = sum(x * x); y.backward(): the hypotheses hold in a running process, and x.grad shows [3.0, 5.0] *)
Definition exQ : dev cu := gstate cu exPc.
Definition exQg : graph := Prog.prog (exPc ++ exPg).
Definition exQl : nest cval := Nest [Leaf (CF (S754_finite false 6755399441055744 (-51))); Leaf (CF (S754_finite false 5629499534213120 (-50)))].
Lemma exQ_any s' C : dv_graph cu s' = exQg -> C = gkernel_of exQg 8 -> ghist cu true C s' -> dv_alive cu s' 8 = true -> let g' := dv_graph cu s' in
  key_safe C /\ view_of g' true 8 8 /\ computed g' 8 /\ gmat_ok cu g' 8 /\ (forall d, gkernel_of g' 8 d -> C d) /\
  exists s2, gmat cu s' 8 s2 (Done tt) /\ dv_alive cu s2 8 = true /\ snd (gtolist cu s2 8) = Done exQl.
Proof.
  intros Hg EC HG Hal. cbn zeta. rewrite Hg.
  assert (HC : key_safe C) by (rewrite EC; apply gown_safeb_ok; vm_compute; reflexivity).
  assert (Hv : view_of exQg true 8 8) by (eapply vo_self; vm_compute; reflexivity).
  assert (Hcm : computed exQg 8) by (eexists; split; vm_compute; reflexivity).
  assert (Hw : wf_graph exQg) by (apply reach_wf, prog_reach).
  assert (Hm : gmat_ok cu exQg 8) by (apply (gokb_ok cu _ Float64); [exact Hw|vm_compute; reflexivity]).
  assert (Hk : forall d, gkernel_of exQg 8 d -> C d) by (rewrite EC; auto).
  assert (Hd : t_tolist (den (c_alg no_libm) exQg 8) = Ok exQl) by (vm_compute; reflexivity).
  assert (Hb : base exQg 8 = Some 8%nat) by (vm_compute; reflexivity).
  assert (Hns : no_scalar_reshape exQg 8) by (apply no_scalar_reshape_all; vm_compute; reflexivity).
  assert (Hac : accb cu exQg = true) by (vm_compute; reflexivity). assert (Hex : extb exQg = true) by (vm_compute; reflexivity).
  repeat (split; [assumption|]). rewrite <- Hg in *. clear EC Hg.
  destruct (C41_succeeds no_libm C s' 8 8 HC HG Hal Hb Hm Hk Hns) as (s2 & H2); [intros n nd vals _; now apply (accb_ok cu)|intros n nd _; now apply extb_ok|].
  exists s2. split; [exact H2|]. pose proof Hcm as (bd & Hbd & Hbc).
  destruct (gmat_top cu (c_backend_ok _) C HC s' 8 8 bd s2 (Done tt) (ghist_inv cu (c_backend_ok _) C HC s' HG) Hal Hb Hbd Hm Hk H2) as (_ & _ & Hae & _).
  assert (Hal' : dv_alive _ s2 8 = true) by (now rewrite Hae). split; [exact Hal'|].
  destruct (C41_tolist_partial no_libm C s' 8 8 s2 s2 HC HG Hal Hv Hcm Hm Hk H2 (gla_here _ _ _) Hal') as (l & H3 & H4).
  assert (Hq : Ok l = Ok exQl) by exact (eq_trans (eq_sym H4) Hd). injection Hq as ->. exact H3.
Qed.
Example C48_cuda_nonvacuous : exists C s, let g := dv_graph cu s in key_safe C /\ ghist cu true C s /\ dv_alive cu s 2 = true /\
  regular g 2 /\ no_scalar_reshape g 2 /\ depends g 2 0 /\ ~ scalar_on_path g 2 0 /\ smooth g 2 0 /\
  exists s' gs', let g' := dv_graph cu s' in backward g no_grads 2 = Done (g', gs') /\ glater cu C s s' /\ gs' 0%nat = Some 8%nat /\ dv_alive cu s' 8 = true /\
    view_of g' true 8 8 /\ computed g' 8 /\ gmat_ok cu g' 8 /\ (forall d, gkernel_of g' 8 d -> C d) /\
    (forall n idx, cone g' 8 n -> in_range (shape_of g' n) idx -> exists v, t_at (den (ebound true None) g' n) idx = Ok v) /\
    exists s2, gmat cu s' 8 s2 (Done tt) /\ dv_alive cu s2 8 = true /\ snd (gtolist cu s2 8) = Done exQl.
Proof.
  exists (gkernel_of exQg 8), exQ. cbn zeta.
  destruct (gstate_hist cu true (gkernel_of exQg 8) exPc) as [HG HA]. pose proof (HA 2%nat) as Hal.
  assert (Hg : dv_graph cu exQ = exP) by (vm_compute; reflexivity). fold exQ in HG, HA, Hal.
  assert (Hal' : dv_alive cu exQ 2 = true) by (rewrite Hal, Hg; vm_compute; reflexivity).
  assert (HC : key_safe (gkernel_of exQg 8)) by (apply gown_safeb_ok; vm_compute; reflexivity).
  destruct C48_nonvacuous as (E1 & E2 & E3 & E4 & E5 & E6 & E7).
  split; [exact HC|]. split; [exact HG|]. split; [exact Hal'|]. rewrite Hg. repeat (split; [assumption|]).
  assert (HB : exists gs', backward exP no_grads 2 = Done (exQg, gs') /\ gs' 0%nat = Some 8%nat).
  { eexists; split; [|shelve]; vm_compute; reflexivity. Unshelve. vm_compute; reflexivity. }
  destruct HB as (gs' & HB & Hx). rewrite <- Hg in HB.
  destruct (C48_backward_is_a_history_cuda no_libm (gkernel_of exQg 8) exQ no_grads 2 exQg gs' HC HG Hal' ltac:(intros n q F; discriminate F) ltac:(intros n q F; discriminate F)
    ltac:(rewrite Hg; exact E3) HB) as (s' & Hs' & L & G & _ & _ & _ & _ & _ & _ & _ & HAl).
  pose proof (HAl 0%nat 8%nat Hx) as Har. destruct (exQ_any s' _ G eq_refl Hs' Har) as (_ & A2 & A3 & A4 & A5 & A6).
  exists s', gs'. split; [now rewrite G, <- Hg|]. repeat (split; [assumption|]). split; [|exact A6].
  rewrite G. change exQg with exPg'. exact (C50_nonvacuous true).
Qed.
