(* Repeating backward(): gradients of the constants accumulate when the gradients of operation results
   are dropped in between. *)
From Coq Require Import Reals Lra.
From Coquelicot Require Import Coquelicot.
From Verif Require Import Base BaseFacts Util UtilFacts Lang Spec SpecFacts Graph Api Denote DenoteFacts Reach ApiFacts
  FrontFacts2 FrontFacts3 Backward BackSpec BackOrder BackSteps BackIdx BackRules BackRun BackTop RealAlg GradSpec BackAdj BackReal BackGrad.
Local Open Scope R_scope.

(* for n in results of operations: n.grad = None *)
Definition clear_results (g : graph) (gs : grads) : grads := fun n =>
  match nth_error g n with Some nd => match n_in nd with [] => gs n | _ => None end | None => gs n end.
(* k times: y.backward(), then drop the gradients of operation results *)
Fixpoint backward_rounds (k : nat) (g : graph) (gs : grads) (y : nat) : outcome (graph * grads) :=
  match k with
  | O => Done (g, gs)
  | S k' => '(g1, gs1) <~ backward g gs y ;; backward_rounds k' g1 (clear_results g1 gs1) y
  end.
(* element i of x.grad, None counting as 0 *)
Definition grad_is (g : graph) (gs : grads) (x : nat) (i : list Z) (v : R) : Prop :=
  match gs x with None => v = 0 | Some r => t_at (den RA g r) i = Ok v end.

Lemma rounds g gs y x D k : reach g -> valid g y -> grads_ok g gs -> regular g y -> depends g y x -> smooth g y x ->
  is_op g y -> ~ is_op g x -> (forall n, is_op g n -> gs n = None) ->
  (forall i, in_range (shape_of g x) i -> is_derive (fun t => total (shape_of g y) (den_with x (moved g x (unit_at i) t) g y)) 0 (D i)) ->
  forall V, (forall i, in_range (shape_of g x) i -> grad_is g gs x i (V i)) ->
  exists g' gs', backward_rounds k g gs y = Done (g', gs') /\
    forall i, in_range (shape_of g x) i -> grad_is g' gs' x i (V i + INR k * D i).
Proof.
  revert g gs. induction k as [|k IH]; intros g gs Hr Hv Hg HR Hyx Hsm Hyo Hxo Hops HD V HV.
  { exists g, gs. split; [reflexivity|]. intros i Hi. cbn [INR]. rewrite Rmult_0_l, Rplus_0_r. now apply HV. }
  pose proof (depends_valid _ _ _ Hr Hv Hyx) as Vx'.
  destruct (gradient_main g gs y x (fun _ => 1) Hr Hv Hg HR Hyx Hsm) as (g1 & gs1 & tr & r & ET & EX & ES & EV).
  { intros n _ Hn _. now apply Hops. }
  { intros s i Es. rewrite (Hops y Hyo) in Es. discriminate. }
  { reflexivity. }
  { intros r i Er Hi. specialize (HV i Hi). unfold grad_is in HV. rewrite Er in HV. eauto. }
  destruct (backward_total RA RA_co g gs y Hr Hv Hg HR) as (g1' & gs1' & tr' & ET' & Hr1 & HE & Hg1 & _).
  rewrite ET in ET'. injection ET' as <- <- <-.
  cbn [backward_rounds]. unfold backward. rewrite ET. cbn [obind].
  assert (Hop : forall n, valid g n -> is_op g1 n <-> is_op g n).
  { intros n Vn. destruct (valid_node _ _ Vn) as [nd Hn]. pose proof (ext_node _ _ _ _ HE Hn) as Hn1. unfold is_op. rewrite Hn, Hn1. tauto. }
  assert (Hcl : forall n, is_op g1 n -> clear_results g1 gs1 n = None).
  { intros n (nd & En & Hne). unfold clear_results. rewrite En. destruct (n_in nd); [contradiction|reflexivity]. }
  assert (Hkeep : clear_results g1 gs1 x = Some r).
  { unfold clear_results. rewrite EX. destruct (nth_error g1 x) as [nd|] eqn:En; [|reflexivity]. destruct (n_in nd) eqn:Ei; [reflexivity|].
    exfalso. apply Hxo, (Hop x Vx'). exists nd. rewrite Ei. split; [assumption|discriminate]. }
  assert (Sx : shape_of g1 x = shape_of g x) by (now apply ext_shape).
  assert (Sy : shape_of g1 y = shape_of g y) by (now apply ext_shape).
  assert (Hxy : Nat.eqb x y = false) by (apply Nat.eqb_neq; intros ->; contradiction).
  destruct (IH g1 (clear_results g1 gs1)) with (V := fun i => V i + D i) as (g' & gs' & E & Q).
  - assumption.
  - eapply ext_valid; eauto.
  - intros n q Hn. apply Hg1. unfold clear_results in Hn. destruct (nth_error g1 n) as [nd|]; [destruct (n_in nd)|]; congruence.
  - eapply regular_ext; eauto.
  - now apply (depends_ext _ _ _ _ HE Hr Hv).
  - eapply smooth_ext; eauto.
  - now apply (Hop y Hv).
  - intros H. apply Hxo. now apply (Hop x Vx').
  - exact Hcl.
  - intros i Hi. rewrite Sx in Hi. rewrite Sy. eapply is_derive_ext; [|exact (HD i Hi)]. intros t. cbn beta.
    now rewrite (moved_ext _ _ _ _ _ HE Vx'), (dw_ext _ _ _ _ _ HE Hv).
  - intros i Hi. rewrite Sx in Hi. unfold grad_is. rewrite Hkeep. destruct (EV i Hi) as (d & Hd & _ & Hval). rewrite Hval. f_equal.
    assert (Ed : d = D i).
    { assert (Hd' : is_derive (fun t => total (shape_of g y) (den_with x (moved g x (unit_at i) t) g y)) 0 d).
      { eapply is_derive_ext; [|exact Hd]. intros t. unfold weighted, total. apply rsum_ext. intros j _. ring. }
      rewrite <- (is_derive_unique _ _ _ Hd'). apply is_derive_unique. now apply HD. }
    rewrite Ed. f_equal. specialize (HV i Hi). unfold grad_is in HV. rewrite Hxy. destruct (gs x); [rewrite HV; reflexivity|auto].
  - exists g', gs'. split; [exact E|]. intros i Hi. rewrite <- Sx in Hi. specialize (Q i Hi). replace (V i + INR (S k) * D i) with (V i + D i + INR k * D i) by (rewrite S_INR; ring).
    exact Q.
Qed.
