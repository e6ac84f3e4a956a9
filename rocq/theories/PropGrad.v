(* Property C50: the gradient a user reads is the mathematical derivative up to rounding. *)
From Coq Require Import Reals Lra Floats.SpecFloat.
From Coquelicot Require Import Coquelicot.
From Flocq Require Import Core.
From Verif Require Import Base BaseFacts Util Lang Spec Graph Api Denote DenoteFacts ArrayLit Reach Tolist TolistFacts FrontSpec Algo AlgoSem Kernel Sched Codegen Backends LangInst Prog
  KernelRun AlgoTop AlgoMore ApiFacts FrontFacts3 CacheKey Runtime RuntimeFacts RuntimeFacts2 History HistFacts RtInst CacheFacts Frame HistFacts2 HistTools RuntimeTop PropRuntime
  Backward BackSpec BackOrder BackSteps BackRun BackTop RealAlg GradSpec BackReal BackGrad PropBack BackScalar Grow PropScalar Agree IEEE ErrSpec ErrFacts.
From Verif Require PropErr.

(* the elements of a list that tolist() shows *)
Lemma forall2_nth {X Y} (P : X -> Y -> Prop) l l' : Forall2 P l l' -> forall k x, nth_error l k = Some x -> exists y, nth_error l' k = Some y /\ P x y.
Proof. induction 1; intros [|k] z Hz; cbn in *; try discriminate; [injection Hz as <-; eauto|eauto]. Qed.
Lemma nested_follow {X} s : forall (f : list Z -> res X) l idx, nested s f = Ok l -> in_range s idx -> exists w, f idx = Ok w /\ follow l idx = Some w.
Proof.
  induction s as [|d s IH]; intros f l idx; cbn [nested].
  - destruct (f []) as [v| |] eqn:E; try discriminate. cbn [rbind]. intros H Hi; injection H as <-. inversion Hi; subst. exists v. auto.
  - destruct (mapM (fun i => nested s (fun r => f (i :: r))) (zrange d)) as [ls| |] eqn:Em; try discriminate. cbn [rbind]. intros H Hi; injection H as <-.
    inversion Hi as [|i ? r ? Hi1 Hi2]; subst. rewrite follow_nest. apply mapM_ok in Em.
    pose proof (znth_zrange d i Hi1) as HZ. rewrite <- (Z2Nat.id i) in HZ at 1 by lia. rewrite znth_of_nat in HZ.
    destruct (forall2_nth _ _ _ Em _ _ HZ) as (w & W1 & W2). cbn in W2. replace (znth ls i) with (nth_error ls (Z.to_nat i)) by (rewrite <- znth_of_nat, Z2Nat.id by lia; reflexivity). rewrite W1. exact (IH (fun r => f (i :: r)) w r W2 Hi2).
Qed.

Lemma grad_bounds B c (P : approx -> val (b_lang B) -> Prop) k C s y x : let g := r_graph B s in
  is_cpu_backend B -> (forall g nd, node_agrees (ebound c k) (b_lang B) P g nd) -> key_safe C -> hist B C s ->
  valid g y -> regular g y -> no_scalar_reshape g y -> depends g y x -> ~ scalar_on_path g y x -> smooth g y x ->
  exists s' gs' r, let g' := r_graph B s' in
    backward g no_grads y = Done (g', gs') /\ later B C s s' /\ gs' x = Some r /\
    forall b, view_of g' true r b -> computed g' b -> mat_ok (b_lang B) g' b -> (forall d, kernel_of g' r d -> C d) -> (forall n, cone g' b n -> ~ refused B g' n) ->
      (forall n idx, cone g' r n -> in_range (shape_of g' n) idx -> exists v, t_at (den (ebound c k) g' n) idx = Ok v) ->
      exists s2 l, materialize B s' r = (s2, Done tt) /\ tolist (r_graph B s2) (r_cpu B s2) r = Done l /\
        forall i, in_range (shape_of g x) i -> exists v w d, t_at (den (ebound c k) g' r) i = Ok v /\ follow l i = Some w /\ P v w /\
          is_derive (fun t => total (shape_of g y) (den_with x (moved g x (unit_at i) t) g y)) 0%R d /\ exactly v d.
Proof.
  intros g HB HL HC Hs Hv HR Hc Hd Hn Hsm.
  destruct (C48_gradient_shown_partial B C s y x HB HC Hs Hv HR Hc Hd Hn) as (s' & gs' & r & HX). cbv zeta in HX. destruct HX as (E & Hs' & L & Ex & S & H1 & H2).
  exists s', gs', r. cbv zeta. split; [exact E|]. split; [exact L|]. split; [exact Ex|]. intros b Hvw Hcp Hm Hk Hrf HE.
  set (g' := r_graph B s') in *. pose proof (hist_reach B C s' HB Hs') as Hr. fold g' in Hr. pose proof (reach_wf _ Hr) as Hw.
  pose proof (view_cone _ _ _ _ Hvw) as Hrb.
  assert (HP : forall n nd idx v, cone g' r n -> nth_error g' n = Some nd -> in_range (n_shape nd) idx -> t_at (den (ebound c k) g' n) idx = Ok v ->
     exists w, t_at (den (b_lang B) g' n) idx = Ok w /\ P v w).
  { intros n nd idx v. apply (den_rel (ebound c k) (b_lang B) P g' r Hw); intros; now apply HL. }
  assert (HQ : forall n nd idx v, cone g' r n -> nth_error g' n = Some nd -> in_range (n_shape nd) idx -> t_at (den (ebound c k) g' n) idx = Ok v ->
     exists w, t_at (den RA g' n) idx = Ok w /\ exactly v w).
  { intros n nd idx v. apply (den_rel (ebound c k) RA exactly g' r Hw); intros; now apply agrees_exact. }
  destruct (H1 b Hvw Hcp Hm Hk Hrf) as (s2 & l & M1 & M2 & M3).
  - intros n idx Hn' Hi Hf. assert (Hn2 : cone g' r n) by (eapply cone_trans; eauto). destruct (HE n idx Hn2 Hi) as (v & Hv').
    destruct (nth_error g' n) as [nd|] eqn:En.
    + assert (Hi' : in_range (n_shape nd) idx) by (unfold shape_of in Hi; now rewrite En in Hi). destruct (HP n nd idx v Hn2 En Hi' Hv') as (w & W & _).
      rewrite W in Hf. discriminate.
    + apply nth_error_None in En. unfold den in Hv'. rewrite nth_overflow in Hv' by (rewrite dens_length; exact En). discriminate.
  - exists s2, l. split; [exact M1|]. split; [exact M2|]. intros i Hi.
    assert (Hi' : in_range (shape_of g' r) i) by now rewrite S.
    destruct (HE r i (cone_self _ _) Hi') as (v & Hv').
    destruct (nth_error g' r) as [nd|] eqn:En.
    2:{ apply nth_error_None in En. unfold den in Hv'. rewrite nth_overflow in Hv' by (rewrite dens_length; exact En). discriminate. }
    assert (Hin : in_range (n_shape nd) i) by (unfold shape_of in Hi'; now rewrite En in Hi').
    destruct (HP r nd i v (cone_self _ _) En Hin Hv') as (w & W1 & W2). destruct (HQ r nd i v (cone_self _ _) En Hin Hv') as (d & D1 & D2).
    destruct (H2 Hsm i Hi) as (d' & D3 & D4). assert (Hq : Ok d = Ok d') by exact (eq_trans (eq_sym D1) D3). injection Hq as <-.
    unfold t_tolist in M3. pose proof (wf_shape_facts (b_lang B) g' r nd Hw En) as [Ix _ _ _].
    destruct (nested_follow _ _ _ i M3) as (w' & W3 & W4); [now rewrite Ix|].
    assert (Hq : Ok w' = Ok w) by exact (eq_trans (eq_sym W3) W1). injection Hq as ->. exists v, w, d. auto.
Qed.
(* y.backward(), then x.grad.materialize(), then x.grad.tolist(): if the point is inside the domain (smooth) and the
   error bounds are defined for all intermediate results of the gradient, reading succeeds and element i of the list
   is a number w that the bound v shows, where v is centred at the partial derivative d of sum(y) with respect to
   element i of x. *)
Theorem C50_python_partial : forall lm k C s y x, let B := py_backend lm in let g := r_graph B s in libm_within lm k -> key_safe C -> hist B C s ->
  valid g y -> regular g y -> no_scalar_reshape g y -> depends g y x -> ~ scalar_on_path g y x -> smooth g y x ->
  exists s' gs' r, let g' := r_graph B s' in
    backward g no_grads y = Done (g', gs') /\ later B C s s' /\ gs' x = Some r /\
    forall b, view_of g' true r b -> computed g' b -> (forall d, kernel_of g' r d -> C d) ->
      (forall n idx, cone g' r n -> in_range (shape_of g' n) idx -> exists v, t_at (den (ebound false k) g' n) idx = Ok v) ->
      exists s2 l, materialize B s' r = (s2, Done tt) /\ tolist (r_graph B s2) (r_cpu B s2) r = Done l /\
        forall i, in_range (shape_of g x) i -> exists v w d, t_at (den (ebound false k) g' r) i = Ok v /\ follow l i = Some w /\ shows_py v w /\
          is_derive (fun t => total (shape_of g y) (den_with x (moved g x (unit_at i) t) g y)) 0%R d /\ exactly v d.
Proof.
  intros lm k C s y x B g HL HC Hs Hv HR Hc Hd Hn Hsm.
  destruct (grad_bounds B false shows_py k C s y x (or_introl (ex_intro _ lm eq_refl)) (fun g nd => agrees_py lm k g nd HL) HC Hs Hv HR Hc Hd Hn Hsm) as (s' & gs' & r & E & L & Ex & H).
  exists s', gs', r. cbv zeta. split; [exact E|]. split; [exact L|]. split; [exact Ex|]. intros b H1 H2 H3 H4. apply (H b H1 H2); auto; [apply py_mat_ok|].
  intros n _ (nd & vals & _ & _ & Hb & _). discriminate Hb.
Qed.
Print Assumptions C50_python_partial.
(* C, with the restrictions of C01 *)
Theorem C50_c_partial : forall lm k C s y x, let B := c_backend lm in let g := r_graph B s in libm_within lm k -> key_safe C -> hist B C s ->
  valid g y -> regular g y -> no_scalar_reshape g y -> depends g y x -> ~ scalar_on_path g y x -> smooth g y x ->
  exists s' gs' r, let g' := r_graph B s' in
    backward g no_grads y = Done (g', gs') /\ later B C s s' /\ gs' x = Some r /\
    forall b, view_of g' true r b -> computed g' b -> mat_ok (c_lang lm) g' b -> (forall d, kernel_of g' r d -> C d) -> (forall n, cone g' b n -> ~ refused B g' n) ->
      (forall n idx, cone g' r n -> in_range (shape_of g' n) idx -> exists v, t_at (den (ebound true k) g' n) idx = Ok v) ->
      exists s2 l, materialize B s' r = (s2, Done tt) /\ tolist (r_graph B s2) (r_cpu B s2) r = Done l /\
        forall i, in_range (shape_of g x) i -> exists v w d, t_at (den (ebound true k) g' r) i = Ok v /\ follow l i = Some w /\ shows_c v w /\
          is_derive (fun t => total (shape_of g y) (den_with x (moved g x (unit_at i) t) g y)) 0%R d /\ exactly v d.
Proof.
  intros lm k C s y x B g HL HC Hs Hv HR Hc Hd Hn Hsm.
  exact (grad_bounds B true shows_c k C s y x (or_intror (ex_intro _ lm eq_refl)) (fun g nd => agrees_c lm k g nd HL) HC Hs Hv HR Hc Hd Hn Hsm).
Qed.
Print Assumptions C50_c_partial.

(* x = array([1.5, 2.5]); y = sum(x * x) (C48_nonvacuous, C48_nonvacuous_process): the bounds of x.grad are defined *)
Local Open Scope R_scope.
Definition tame (M : R) (v : approx) : Prop := exists x e, v = VF x e /\ Rabs x <= M /\ 0 <= e <= M.
Lemma tame_mul c v w : tame 3 v -> tame 3 w -> exists r, e_bin c None BMul v w = Some r /\ tame 40 r.
Proof.
  intros (x & e & -> & X & E) (y & d & -> & Y & D). cbn [e_bin as_float].
  assert (HA1 : Rabs (x * y) <= 9) by (rewrite Rabs_mult; pose proof (Rabs_pos x); pose proof (Rabs_pos y); nra).
  unfold rounded. pose proof (PropErr.maxf_big). pose proof PropErr.uu_small. pose proof PropErr.eta_small. pose proof (Rabs_pos x). pose proof (Rabs_pos y). pose proof (Rabs_pos (x * y)).
  assert (HA2 : 0 <= Rabs x * d + Rabs y * e + e * d <= 27) by nra.
  destruct (Rle_dec _ _); [|lra]. eexists. split; [reflexivity|]. eexists _, _. split; [reflexivity|]. split; [lra|]. nra.
Qed.
Lemma tame_add c v w : tame 40 v -> tame 40 w -> exists r, e_bin c None BAdd v w = Some r /\ tame 100 r.
Proof.
  intros (x & e & -> & X & E) (y & d & -> & Y & D). cbn [e_bin as_float].
  assert (HA1 : Rabs (x + y) <= 80) by (eapply Rle_trans; [apply Rabs_triang|]; lra).
  unfold rounded. pose proof (PropErr.maxf_big). pose proof PropErr.uu_small. pose proof (Rabs_pos (x + y)).
  destruct (Rle_dec _ _); [|lra]. eexists. split; [reflexivity|]. eexists _, _. split; [reflexivity|]. split; [lra|]. nra.
Qed.
Lemma tame_lit c m e : Rabs (r_num (NFlt m e)) <= 3 -> tame 3 (e_coerce c Float64 (e_num (NFlt m e))).
Proof.
  intros H. destruct (PropErr.nearest_small (r_num (NFlt m e))) as (d & D1 & D2); [lra|]. exists (r_num (NFlt m e)), d.
  unfold e_num. rewrite D1. split; [destruct c; reflexivity|]. split; [exact H|]. lra.
Qed.
Lemma tame_coerce c M v : tame M v -> tame M (e_coerce c Float64 v).
Proof. intros (x & e & -> & H). exists x, e. split; [destruct c; reflexivity|exact H]. Qed.
Lemma r_bound m e : (match e with Z0 => m | Zneg 1 => (m / 2 + 1)%Z | _ => 4%Z end <=? 3)%Z && (0 <=? m)%Z = true -> Rabs (r_num (NFlt m e)) <= 3.
Proof.
  intros H. apply andb_true_iff in H as (H1 & H2). apply Z.leb_le in H1, H2. apply (IZR_le 0) in H2. unfold r_num.
  destruct e as [|e|[e|e|]]; try lia.
  - change (powerRZ 2 0) with 1. apply IZR_le in H1. rewrite Rabs_pos_eq; lra.
  - change (powerRZ 2 (-1)) with (/ (2 * 1)). assert (H3 : (m <= 5)%Z) by (pose proof (Z.div_mod m 2); pose proof (Z.mod_pos_bound m 2); lia). apply IZR_le in H3. rewrite Rabs_pos_eq; lra.
Qed.
Definition exPg' : graph := r_graph pyB (exPs' pyB).
Lemma exPg'_cone n : cone exPg' 8 n -> In n [0%nat; 3%nat; 4%nat; 5%nat; 6%nat; 7%nat; 8%nat].
Proof.
  induction 1 as [|n nd b Hc IH Hn Hb]; [cbn; tauto|].
  repeat (destruct IH as [<-|IH]; [vm_compute in Hn; injection Hn as <-; cbn in Hb; cbn; tauto|]). destruct IH.
Qed.
Example C50_nonvacuous : forall c n idx, cone exPg' 8 n -> in_range (shape_of exPg' n) idx -> exists v, t_at (den (ebound c None) exPg' n) idx = Ok v.
Proof.
  intros c n idx Hc Hi. apply exPg'_cone in Hc. apply in_all_idx in Hi. revert Hc Hi. let g := eval vm_compute in exPg' in change exPg' with g. intros Hc Hi.
  pose proof (tame_lit c 3 (-1) (r_bound 3 (-1) eq_refl)) as T1. pose proof (tame_lit c 5 (-1) (r_bound 5 (-1) eq_refl)) as T2.
  pose proof (tame_lit c 1 0 (r_bound 1 0 eq_refl)) as T3.
  destruct (tame_mul c _ _ T3 T1) as (p1 & P1 & Q1). destruct (tame_mul c _ _ T3 T2) as (p2 & P2 & Q2).
  destruct (tame_add c _ _ (tame_coerce c _ _ Q1) (tame_coerce c _ _ Q1)) as (r1 & R1 & _). destruct (tame_add c _ _ (tame_coerce c _ _ Q2) (tame_coerce c _ _ Q2)) as (r2 & R2 & _).
  repeat (destruct Hc as [<-|Hc]; [vm_compute in Hi; repeat (destruct Hi as [<-|Hi]; [lazy -[e_bin e_coerce e_num]; rewrite ?P1, ?P2; cbv beta iota; rewrite ?R1, ?R2; eexists; reflexivity|]); destruct Hi|]). destruct Hc.
Qed.
