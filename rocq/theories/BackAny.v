(* backward() when gradients are left over from earlier calls: the exact effect of one call, and of k calls in a row. *)
From Coq Require Import Reals Lra Permutation.
From Coquelicot Require Import Coquelicot.
From Verif Require Import Base BaseFacts Util UtilFacts Lang Spec SpecFacts Graph Api Denote DenoteFacts Reach ApiFacts
  FrontFacts2 FrontFacts3 Backward BackSpec BackOrder BackSteps BackIdx BackRules BackRun BackTop RealAlg GradSpec BackAdj BackReal BackGrad BackTimes.
Local Open Scope R_scope.

Lemma rsum_perm {X} (l m : list X) f : Permutation l m -> rsum l f = rsum m f.
Proof. induction 1; cbn; lra. Qed.
Lemma derive_rsum {X} (l : list X) (F : X -> R -> R) (D : X -> R) : (forall n, In n l -> is_derive (F n) 0 (D n)) -> is_derive (fun t => rsum l (fun n => F n t)) 0 (rsum l D).
Proof.
  induction l as [|n l IH]; intros H; cbn [rsum]; [apply (is_derive_const (K := R_AbsRing) (V := R_NormedModule))|].
  apply (is_derive_plus (K := R_AbsRing) (V := R_NormedModule) (F n) (fun t => rsum l (fun n => F n t)) 0 (D n) (rsum l D)); [apply H; now left|apply IH; intros; apply H; now right].
Qed.

(* the gradients before the call, None counting as 0, that of y as 1 *)
Definition weights (g : graph) (gs : grads) (y x : nat) (W : nat -> list Z -> R) : Prop :=
  forall n i, depends g y n -> depends g n x -> in_range (shape_of g n) i ->
    match gs n with Some r => t_at (den RA g r) i = Ok (W n i) | None => W n i = (if Nat.eqb n y then 1 else 0) end.
(* the arrays y is computed from, y included *)
Definition arrays_of (g : graph) (y : nat) (ds : list nat) : Prop := NoDup ds /\ forall n, In n ds <-> depends g y n.
(* sum over all of them of <weights, array>, when x holds tx *)
Definition potential (g : graph) (ds : list nat) (W : nat -> list Z -> R) (x : nat) (tx : tensor R) : R :=
  rsum ds (fun n => weighted (shape_of g n) (W n) (den_with x tx g n)).

Theorem backward_any g gs y x W ds : reach g -> valid g y -> grads_ok g gs -> regular g y -> depends g y x -> smooth g y x ->
  weights g gs y x W -> arrays_of g y ds ->
  exists g' gs' tr r, backward_trace g gs y = Done (g', gs', tr) /\ gs' x = Some r /\ shape_of g' r = shape_of g x /\
    forall i, in_range (shape_of g x) i ->
      exists d, is_derive (fun t => potential g ds W x (moved g x (unit_at i) t)) 0 d /\ t_at (den RA g' r) i = Ok d.
Proof.
  intros Hr Hv Hg HR Hyx Hsm HW (Hnd & Hds).
  pose proof (depends_valid _ _ _ Hr Hv Hyx) as Vx'.
  destruct (start_total RA RA_co g gs y Hr Hv Hg HR) as (g1 & gs1 & HS & HB & HE & HR1 & Hv1 & HD & Hgs).
  pose proof (bi_reach _ _ _ _ _ _ HB) as Hr1.
  assert (Hdep : forall n, depends g1 y n <-> depends g y n) by (intros n; now apply (depends_ext _ _ _ _ HE Hr Hv)).
  assert (Hyx1 : depends g1 y x) by (now apply Hdep).
  pose proof (smooth_ext _ _ _ _ HE Hr Hv Hyx Hsm) as Hsm1.
  assert (Vn : forall n, depends g y n -> valid g n) by (intros n; now apply depends_valid).
  assert (Hdx : forall n, depends g y n -> depends g1 n x <-> depends g n x) by (intros n Hn; apply (depends_ext _ _ _ _ HE Hr); auto).
  assert (Sn : forall n, depends g y n -> shape_of g1 n = shape_of g n) by (intros n Hn; apply ext_shape; auto).
  (* weights in terms of the gradients at the start of the loop *)
  assert (HW1 : forall n i, depends g y n -> depends g n x -> in_range (shape_of g n) i ->
     match gs1 n with Some r => t_at (den RA g1 r) i = Ok (W n i) | None => W n i = 0 end).
  { intros n i Hd Hnx Hi. specialize (HW n i Hd Hnx Hi). destruct (Nat.eq_dec n y) as [->|Hne].
    - unfold started in HS. destruct (gs y) as [s|] eqn:Ey.
      + destruct HS as (-> & ->). now rewrite Ey.
      + destruct HS as (o & z & -> & Vo & So & Hz & Ho). rewrite set_grad_same, Ho by assumption. rewrite Nat.eqb_refl in HW. rewrite HW.
        destruct Hz as [->| ->]; cbn; f_equal; unfold r_num; cbn; try ring; lra.
    - rewrite (Hgs n Hne). destruct (gs n) as [r|] eqn:En.
      + destruct (Hg n r En) as (_ & Vr & _). now rewrite (ext_den RA _ _ _ HE Vr).
      + destruct (Nat.eqb_spec n y); [contradiction|exact HW]. }
  assert (Hact : act_ok g1 x y g1 gs1).
  { intros n r (Hd & Hnx) Hn i Hi. apply Hdep in Hd. apply (Hdx n Hd) in Hnx. rewrite (Sn n Hd) in Hi. specialize (HW1 n i Hd Hnx Hi). rewrite Hn in HW1. now rewrite HW1. }
  assert (Vx1 : valid g1 x) by exact (depends_valid _ _ _ Hr1 Hv1 Hyx1).
  assert (HC : forall e, Wsum g1 Hr1 x y e (fun _ => false) g1 gs1 = rsum ds (fun n => rsum (all_idx (shape_of g n)) (fun j => W n j * Tx g1 x e n j))).
  { intros e. unfold Wsum. assert (HGn : forall n, In n (gnodes g1 Hr1 y) <-> depends g1 y n) by (intros n; eapply in_gnodes; eassumption).
    rewrite (rsum_perm _ ds).
    2:{ apply NoDup_Permutation; [apply nodup_gnodes|assumption|]. intros n. now rewrite HGn, Hds, Hdep. }
    apply rsum_ext. intros n Hn. apply Hds in Hn. unfold pair. destruct (dep_dec g x (reach_inputs_lt _ Hr) n) as [Hnx|Hnx].
    - destruct (gs1 n) as [r|] eqn:En.
      + rewrite (Sn n Hn). apply rsum_ext. intros j Hj. apply in_all_idx in Hj. specialize (HW1 n j Hn Hnx Hj). rewrite En in HW1. now rewrite HW1.
      + symmetry. apply rsum_zero. intros j Hj. apply in_all_idx in Hj. specialize (HW1 n j Hn Hnx Hj). rewrite En in HW1. rewrite HW1. ring.
    - assert (HT : forall j, in_range (shape_of g n) j -> Tx g1 x e n j = 0).
      { intros j Hj. refine (T_indep g1 Hr1 x y Vx1 Hv1 e Hsm1 n j _ _ _ _); [now apply Hdep|now rewrite (Sn n Hn)|exact (depends_valid _ _ _ Hr1 Hv1 (proj2 (Hdep n) Hn))|now rewrite (Hdx n Hn)]. }
      replace (rsum (all_idx (shape_of g n)) (fun j => W n j * Tx g1 x e n j)) with 0.
      + destruct (gs1 n); auto. apply bra_zero. intros j Hj. rewrite (Sn n Hn) in Hj. auto.
      + symmetry. apply rsum_zero. intros j Hj. apply in_all_idx in Hj. rewrite HT by assumption. ring. }
  destruct (run_grad g1 Hr1 x y Hv1 HR1 Hyx1 (fun _ => 0) Hsm1 gs gs1 _ HB Hact eq_refl) as (g' & gs' & tr & r & D & R' & E' & O' & Gx & Q1 & _).
  exists g', gs', tr, r. split; [now rewrite HD|]. split; [assumption|].
  destruct (O' x r Gx) as (_ & _ & Sr). rewrite (ext_shape _ _ _ E' Vx1), (Sn x Hyx) in Sr. split; [assumption|].
  intros i Hi. exists (rsum ds (fun n => rsum (all_idx (shape_of g n)) (fun j => W n j * Tx g1 x (unit_at i) n j))). split.
  - unfold potential. apply (derive_rsum ds (fun n t => weighted (shape_of g n) (W n) (den_with x (moved g x (unit_at i) t) g n))). intros n Hn. apply Hds in Hn. unfold weighted.
    apply (derive_rsum (all_idx (shape_of g n)) (fun j t => W n j * rv (t_at (den_with x (moved g x (unit_at i) t) g n) j))). intros j Hj. apply in_all_idx in Hj.
    assert (HT : dOk (fun t => t_at (Fx g1 x (unit_at i) t n) j) (Tx g1 x (unit_at i) n j)).
    { apply (tangents g1 Hr1 x y Vx1 Hv1 (unit_at i) Hsm1 n); [now apply Hdep|now rewrite (Sn n Hn)]. }
    apply (is_derive_scal (fun t => rv (t_at (den_with x (moved g x (unit_at i) t) g n) j)) 0 (W n j)).
    eapply is_derive_ext; [|exact (dOk_rv _ _ HT)]. intros t. cbn beta. unfold Fx. rewrite (moved_ext _ _ _ _ _ HE Vx'). now rewrite (dw_ext _ _ _ _ _ HE (Vn n Hn)).
  - destruct (run_grad g1 Hr1 x y Hv1 HR1 Hyx1 (unit_at i) Hsm1 gs gs1 _ HB Hact (HC (unit_at i))) as (g2 & gs2 & tr2 & r2 & D2 & _ & _ & _ & Gx2 & P1 & P2).
    rewrite D in D2. injection D2 as <- <- <-. rewrite Gx in Gx2. injection Gx2 as <-.
    rewrite (Sn x Hyx) in P1, P2. rewrite bra_unit in P2 by assumption. rewrite (P1 i Hi), P2. reflexivity.
Qed.

(* k calls in a row, nothing in between *)
Fixpoint backward_calls (k : nat) (g : graph) (gs : grads) (y : nat) : outcome (graph * grads) :=
  match k with
  | O => Done (g, gs)
  | S k' => '(g1, gs1) <~ backward g gs y ;; backward_calls k' g1 gs1 y
  end.
(* what they leave in the gradients: each call replaces the weights by the derivatives of the potential *)
Fixpoint weights_after (g : graph) (ds : list nat) (k : nat) (W : nat -> list Z -> R) : nat -> list Z -> R :=
  match k with
  | O => W
  | S k' => weights_after g ds k' (fun x i => Derive (fun t => potential g ds W x (moved g x (unit_at i) t)) 0)
  end.
Lemma weights_after_ext g g' ds k : (forall n, In n ds -> valid g n) -> extends g g' -> forall W W', (forall n i, In n ds -> in_range (shape_of g n) i -> W n i = W' n i) ->
  forall n i, In n ds -> in_range (shape_of g n) i -> weights_after g ds k W n i = weights_after g' ds k W' n i.
Proof.
  intros Hv He. induction k as [|k IH]; intros W W' HW n i Hn Hi; cbn [weights_after]; [auto|]. apply IH; auto. clear n i Hn Hi. intros x i Hx Hi.
  apply Derive_ext. intros t. unfold potential. apply rsum_ext. intros n Hn. unfold weighted. rewrite (ext_shape _ _ _ He (Hv n Hn)). apply rsum_ext.
  intros j Hj. apply in_all_idx in Hj. rewrite (HW n j Hn Hj). f_equal. rewrite (moved_ext _ _ _ _ _ He (Hv x Hx)), (dw_ext _ _ _ _ _ He (Hv n Hn)). reflexivity.
Qed.
Theorem backward_k g gs y W ds k : reach g -> valid g y -> grads_ok g gs -> regular g y -> (forall x, depends g y x -> smooth g y x) ->
  (forall x, depends g y x -> weights g gs y x W) -> arrays_of g y ds ->
  exists g' gs', backward_calls (S k) g gs y = Done (g', gs') /\
    forall x, depends g y x -> exists r, gs' x = Some r /\ shape_of g' r = shape_of g x /\
      forall i, in_range (shape_of g x) i -> t_at (den RA g' r) i = Ok (weights_after g ds (S k) W x i).
Proof.
  revert g gs W. induction k as [|k IH]; intros g gs W Hr Hv Hg HR Hsm HW Hds.
  - destruct (backward_total RA RA_co g gs y Hr Hv Hg HR) as (g1 & gs1 & tr & ET & _). exists g1, gs1. cbn [backward_calls]. unfold backward. rewrite ET. cbn [obind]. split; [reflexivity|].
    intros x Hx. destruct (backward_any g gs y x W ds Hr Hv Hg HR Hx (Hsm x Hx) (HW x Hx) Hds) as (g2 & gs2 & tr2 & r & ET2 & EX & ES & EV). rewrite ET in ET2. injection ET2 as <- <- <-.
    exists r. split; auto. split; auto. intros i Hi. destruct (EV i Hi) as (d & Hd & ->). cbn [weights_after]. f_equal. symmetry. apply is_derive_unique. exact Hd.
  - destruct (backward_total RA RA_co g gs y Hr Hv Hg HR) as (g1 & gs1 & tr & ET & Hr1 & HE & Hg1 & _).
    set (W1 := fun x i => Derive (fun t => potential g ds W x (moved g x (unit_at i) t)) 0).
    assert (HX : forall x, depends g y x -> exists r, gs1 x = Some r /\ shape_of g1 r = shape_of g x /\ forall i, in_range (shape_of g x) i -> t_at (den RA g1 r) i = Ok (W1 x i)).
    { intros x Hx. destruct (backward_any g gs y x W ds Hr Hv Hg HR Hx (Hsm x Hx) (HW x Hx) Hds) as (g2 & gs2 & tr2 & r & ET2 & EX & ES & EV). rewrite ET in ET2. injection ET2 as <- <- <-.
      exists r. split; auto. split; auto. intros i Hi. destruct (EV i Hi) as (d & Hd & ->). f_equal. symmetry. apply is_derive_unique. exact Hd. }
    assert (Vn : forall n, depends g y n -> valid g n) by (intros n; now apply depends_valid).
    assert (Hdep : forall n, depends g1 y n <-> depends g y n) by (intros n; now apply (depends_ext _ _ _ _ HE Hr Hv)).
    destruct (IH g1 gs1 W1) as (g' & gs' & E & Q).
    + assumption.
    + eapply ext_valid; eauto.
    + assumption.
    + eapply regular_ext; eauto.
    + intros x Hx. apply Hdep in Hx. eapply smooth_ext; eauto.
    + intros x Hx n i Hn Hnx Hi. apply Hdep in Hn. destruct (HX n Hn) as (r & -> & _ & Hval). apply Hval. now rewrite <- (ext_shape _ _ _ HE (Vn n Hn)).
    + destruct Hds as (Hnd & Hds). split; auto. intros n. now rewrite Hds, Hdep.
    + exists g', gs'. split.
      { remember (S k) as k1. cbn [backward_calls]. unfold backward. rewrite ET. cbn [obind]. exact E. }
      intros x Hx. destruct (Q x) as (r & Er & Sr & Vr); [now apply Hdep|]. exists r. split; auto. rewrite (ext_shape _ _ _ HE (Vn x Hx)) in Sr, Vr. split; auto.
      intros i Hi. rewrite (Vr i Hi). f_equal. symmetry. change (weights_after g ds (S (S k)) W x i) with (weights_after g ds (S k) W1 x i).
      apply weights_after_ext; auto; [intros n Hn; apply Vn; now apply Hds|now apply Hds].
Qed.
