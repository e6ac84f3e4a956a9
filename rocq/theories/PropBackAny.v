(* Property C31, exactly: what backward() does when gradients are left over, and what k calls in a row give. *)
From Coq Require Import Reals Lra.
From Coquelicot Require Import Coquelicot.
From Verif Require Import Base BaseFacts Util UtilFacts Lang Spec SpecFacts Graph Api Denote DenoteFacts ArrayLit Reach ApiFacts Prog LangInst
  FrontFacts2 FrontFacts3 Backward BackSpec BackOrder BackSteps BackIdx BackRun BackTop RealAlg GradSpec BackReal BackGrad BackTimes BackAny PropBack.
Local Open Scope R_scope.

(* One call, with ANY gradients W already stored (by earlier calls or by the user) in x, y and every array in between
   (None counts as 0, except y.grad = None, which counts as 1): afterwards x.grad is the derivative, with respect to x, of
       sum over all arrays n that y is computed from (y and x included) of  sum_j n.grad[j] * n[j].
   ([regular], [smooth]: as in C28.) *)
Theorem C31_one_call_partial : forall g gs y x W ds, reach g -> valid g y -> grads_ok g gs -> regular g y -> depends g y x -> smooth g y x ->
  weights g gs y x W -> arrays_of g y ds ->
  exists g' gs' r, backward g gs y = Done (g', gs') /\ gs' x = Some r /\ shape_of g' r = shape_of g x /\
    forall i, in_range (shape_of g x) i ->
      exists d, is_derive (fun t => rsum ds (fun n => weighted (shape_of g n) (W n) (den_with x (moved g x (unit_at i) t) g n))) 0 d /\ t_at (den RA g' r) i = Ok d.
Proof.
  intros g gs y x W ds Hr Hv Hg HR Hyx Hsm HW Hds. destruct (backward_any g gs y x W ds Hr Hv Hg HR Hyx Hsm HW Hds) as (g' & gs' & tr & r & E & H).
  exists g', gs', r. unfold backward. rewrite E. split; [reflexivity|exact H].
Qed.
Print Assumptions C31_one_call_partial.

(* k+1 calls in a row with nothing in between: the gradients of all arrays y is computed from *)
Theorem C31_exact_partial : forall g gs y W ds k, reach g -> valid g y -> grads_ok g gs -> regular g y -> (forall x, depends g y x -> smooth g y x) ->
  (forall x, depends g y x -> weights g gs y x W) -> arrays_of g y ds ->
  exists g' gs', backward_calls (S k) g gs y = Done (g', gs') /\
    forall x, depends g y x -> exists r, gs' x = Some r /\ shape_of g' r = shape_of g x /\
      forall i, in_range (shape_of g x) i -> t_at (den RA g' r) i = Ok (weights_after g ds (S k) W x i).
Proof. exact backward_k. Qed.
Print Assumptions C31_exact_partial.

(* the same, split: old gradient + derivative of y + what the leftover gradients of the arrays strictly between y and x contribute.  A call adds
   the right amount iff the last term is 0 *)
Lemma arrays_between g y x ds' : NoDup (x :: y :: ds') -> (forall n, In n (x :: y :: ds') <-> depends g y n) -> arrays_of g y (x :: y :: ds').
Proof. intros H1 H2. split; assumption. Qed.
Theorem C31_leftovers_partial : forall g gs y x W ds', reach g -> valid g y -> grads_ok g gs -> regular g y -> depends g y x -> smooth g y x ->
  weights g gs y x W -> NoDup (x :: y :: ds') -> (forall n, In n (x :: y :: ds') <-> depends g y n) ->
  exists g' gs' r, backward g gs y = Done (g', gs') /\ gs' x = Some r /\
    forall i, in_range (shape_of g x) i -> exists D E,
      is_derive (fun t => weighted (shape_of g y) (W y) (den_with x (moved g x (unit_at i) t) g y)) 0 D /\
      is_derive (fun t => rsum ds' (fun n => weighted (shape_of g n) (W n) (den_with x (moved g x (unit_at i) t) g n))) 0 E /\
      t_at (den RA g' r) i = Ok (W x i + D + E) /\ (t_at (den RA g' r) i = Ok (W x i + D) <-> E = 0).
Proof.
  intros g gs y x W ds' Hr Hv Hg HR Hyx Hsm HW Hnd Hds. pose proof (depends_valid _ _ _ Hr Hv Hyx) as Vx'.
  destruct (C31_one_call_partial g gs y x W (x :: y :: ds') Hr Hv Hg HR Hyx Hsm HW (arrays_between _ _ _ _ Hnd Hds)) as (g' & gs' & r & E & Ex & _ & HV).
  exists g', gs', r. split; auto. split; auto. intros i Hi. destruct (HV i Hi) as (d & Hd & Hval).
  assert (HP : forall n, depends g y n -> exists l, is_derive (fun t => weighted (shape_of g n) (W n) (den_with x (moved g x (unit_at i) t) g n)) 0 l).
  { intros n Hn. eexists. unfold weighted. apply (derive_rsum (all_idx (shape_of g n)) (fun j t => W n j * rv (t_at (den_with x (moved g x (unit_at i) t) g n) j)) (fun j => W n j * Tx g x (unit_at i) n j)). intros j Hj. apply in_all_idx in Hj.
    apply (is_derive_scal (fun t => rv (t_at (den_with x (moved g x (unit_at i) t) g n) j)) 0 (W n j)).
    exact (dOk_rv _ _ (tangents g Hr x y Vx' Hv (unit_at i) Hsm n Hn j Hj)). }
  destruct (HP y (dep_refl g y)) as (D & HD).
  assert (HE : exists E0, is_derive (fun t => rsum ds' (fun n => weighted (shape_of g n) (W n) (den_with x (moved g x (unit_at i) t) g n))) 0 E0).
  { assert (Hall : forall n, In n ds' -> depends g y n) by (intros n Hn; apply Hds; right; now right). clear Hnd Hds Hd HV. induction ds' as [|n l IH]; cbn [rsum].
    - exists 0. apply (is_derive_const (K := R_AbsRing) (V := R_NormedModule)).
    - destruct (IH ltac:(intros; apply Hall; now right)) as (E1 & H1). destruct (HP n (Hall n (or_introl eq_refl))) as (E2 & H2). exists (E2 + E1). exact (is_derive_plus (K := R_AbsRing) (V := R_NormedModule) _ _ 0 _ _ H2 H1). }
  destruct HE as (E0 & HE). exists D, E0. split; auto. split; auto.
  assert (HX : is_derive (fun t => weighted (shape_of g x) (W x) (den_with x (moved g x (unit_at i) t) g x)) 0 (W x i)).
  { replace (W x i) with (rsum (all_idx (shape_of g x)) (fun j => W x j * unit_at i j)).
    - unfold weighted. apply (derive_rsum (all_idx (shape_of g x)) (fun j t => W x j * rv (t_at (den_with x (moved g x (unit_at i) t) g x) j))). intros j Hj. apply in_all_idx in Hj.
      apply (is_derive_scal (fun t => rv (t_at (den_with x (moved g x (unit_at i) t) g x) j)) 0 (W x j)).
      pose proof (tangents g Hr x y Vx' Hv (unit_at i) Hsm x Hyx j Hj) as HT. rewrite (T_x g Hr x y Vx' (unit_at i) Hsm j Hyx Hj) in HT. exact (dOk_rv _ _ HT).
    - rewrite (rsum_single _ i); [|apply NoDup_all_idx|now apply in_all_idx|].
      + unfold unit_at. replace (list_zeqb i i) with true by (symmetry; now apply list_zeqb_eq). ring.
      + intros j _ Hj. unfold unit_at. destruct (list_zeqb j i) eqn:Ej; [apply list_zeqb_eq in Ej; contradiction|]. ring. }
  assert (Hd' : d = W x i + D + E0).
  { rewrite <- (is_derive_unique _ _ _ Hd). apply is_derive_unique. cbn [rsum]. rewrite Rplus_assoc.
    exact (is_derive_plus (K := R_AbsRing) (V := R_NormedModule) _ _ 0 _ _ HX (is_derive_plus (K := R_AbsRing) (V := R_NormedModule) _ _ 0 _ _ HD HE)). }
  rewrite Hval, Hd'. split; auto. split; [intros H; injection H as H; lra|]. intros ->. f_equal. lra.
Qed.
Print Assumptions C31_leftovers_partial.

(* Positive case: y is computed from x directly (no other array in between).  Then k calls add k times the derivative, without dropping anything. *)
Definition ones_or_none (g : graph) (gs : grads) (y : nat) : Prop :=
  match gs y with None => True | Some r => forall i, in_range (shape_of g y) i -> t_at (den RA g r) i = Ok 1 end.
Lemma const_part g x tx0 (ds : list nat) W i : reach g -> valid g x -> (forall n, In n ds -> valid g n /\ ~ depends g n x) ->
  is_derive (fun t => rsum ds (fun n => weighted (shape_of g n) (W n) (den_with x (moved g x (unit_at i) t) g n))) tx0 0.
Proof.
  intros Hr Vx' H. eapply is_derive_ext; [|apply (is_derive_const (K := R_AbsRing) (V := R_NormedModule) (rsum ds (fun n => weighted (shape_of g n) (W n) (den RA g n))) tx0)].
  intros t. cbn beta. apply rsum_ext. intros n Hn. destruct (H n Hn) as (Vn & Hd). unfold weighted. apply rsum_ext. intros j _. f_equal. f_equal. symmetry. eapply (F_indep g); eauto.
Qed.
Lemma smooth_self g y x : reach g -> smooth g y x -> smooth g y y.
Proof.
  intros Hr [S1 S2 S3]. assert (HN : forall n nd a, depends g y n -> nth_error g n = Some nd -> In a (n_in nd) -> ~ depends g a y).
  { intros n nd a Hd Hn Ha Hay. pose proof (reach_inputs_lt _ Hr n nd Hn) as HF. rewrite Forall_forall in HF. specialize (HF a Ha).
    pose proof (depends_le g (reach_inputs_lt _ Hr) _ _ Hd). pose proof (depends_le g (reach_inputs_lt _ Hr) _ _ Hay). lia. }
  constructor; auto.
  - intros n nd a idx v Hd Hn Ho Ha Hax. exfalso. exact (HN n nd a Hd Hn (nth_error_In _ _ Ha) Hax).
  - intros n nd a b idx u w Hd Hn Ho Ha Hb [Hax|Hbx]; exfalso; [exact (HN n nd a Hd Hn (nth_error_In _ _ Ha) Hax)|exact (HN n nd b Hd Hn (nth_error_In _ _ Hb) Hbx)].
Qed.
Lemma deps_list g y : reach g -> valid g y -> exists ds, arrays_of g y ds.
Proof. intros Hr Hv. exists (gnodes g Hr y). split; [apply nodup_gnodes|]. intros n. exact (in_gnodes g Hr y y Hv (dep_refl g y) (fun _ => 0) n). Qed.
Lemma arrays_without g y ds x : arrays_of g y ds -> depends g y x -> exists l, NoDup (x :: l) /\ forall n, In n (x :: l) <-> depends g y n.
Proof.
  intros (H1 & H2) Hx. exists (filter (fun n => negb (Nat.eqb n x)) ds). split.
  - constructor; [|now apply NoDup_filter]. rewrite filter_In. intros (_ & H). now rewrite Nat.eqb_refl in H.
  - intros n. cbn [In]. rewrite filter_In, H2. destruct (Nat.eqb_spec n x) as [->|]; cbn; intuition congruence.
Qed.
Theorem C31_direct_partial : forall g gs y x D k, reach g -> valid g y -> grads_ok g gs -> regular g y -> depends g y x -> smooth g y x -> x <> y ->
  (forall n, depends g y n -> depends g n x -> n = y \/ n = x) -> ones_or_none g gs y ->
  (forall i, in_range (shape_of g x) i -> is_derive (fun t => total (shape_of g y) (den_with x (moved g x (unit_at i) t) g y)) 0 (D i)) ->
  forall V, (forall i, in_range (shape_of g x) i -> grad_is g gs x i (V i)) ->
  exists g' gs', backward_calls k g gs y = Done (g', gs') /\
    forall i, in_range (shape_of g x) i -> grad_is g' gs' x i (V i + INR k * D i).
Proof.
  intros g gs y x D k. revert g gs. induction k as [|k IH]; intros g gs Hr Hv Hg HR Hyx Hsm Hxy Hbt Hone HD V HV.
  { exists g, gs. split; [reflexivity|]. intros i Hi. cbn [INR]. rewrite Rmult_0_l, Rplus_0_r. now apply HV. }
  pose proof (depends_valid _ _ _ Hr Hv Hyx) as Vx'. set (W := fun n i => if Nat.eqb n y then 1 else V i).
  assert (HW : weights g gs y x W).
  { intros n i Hn Hnx Hi. unfold W. destruct (Hbt n Hn Hnx) as [->| ->].
    - rewrite Nat.eqb_refl. unfold ones_or_none in Hone. destruct (gs y); auto.
    - destruct (Nat.eqb_spec x y); [contradiction|]. specialize (HV i Hi). unfold grad_is in HV. destruct (gs x); auto. }
  assert (HWy : weights g gs y y W).
  { intros n i Hn Hny Hi. assert (n = y).
    { pose proof (depends_le g (reach_inputs_lt _ Hr) _ _ Hn). pose proof (depends_le g (reach_inputs_lt _ Hr) _ _ Hny). lia. }
    subst n. unfold W. rewrite Nat.eqb_refl. unfold ones_or_none in Hone. destruct (gs y); auto. }
  destruct (deps_list g y Hr Hv) as (ds & Hds).
  destruct (backward_total RA RA_co g gs y Hr Hv Hg HR) as (g1 & gs1 & tr & ET & Hr1 & HE & Hg1 & _).
  assert (EB : backward g gs y = Done (g1, gs1)) by (unfold backward; now rewrite ET).
  assert (Hval : forall i, in_range (shape_of g x) i -> grad_is g1 gs1 x i (V i + D i)).
  { intros i Hi. destruct (arrays_without g y ds x Hds Hyx) as (l & L1 & L2).
    assert (Hdy : arrays_of g y (x :: y :: filter (fun n => negb (Nat.eqb n y)) l)).
    { inversion L1 as [|? ? Hxl Hl]; subst. split.
      - constructor; [|constructor; [|now apply NoDup_filter]].
        + intros [Hc|Hc]; [congruence|]. apply filter_In in Hc. tauto.
        + rewrite filter_In. intros (_ & Hc). now rewrite Nat.eqb_refl in Hc.
      - intros n. rewrite <- L2. cbn [In]. rewrite filter_In. destruct (Nat.eqb_spec n y) as [->|]; cbn; [|intuition congruence].
        pose proof (proj2 (L2 y) (dep_refl g y)) as [?|?]; [contradiction|]. intuition congruence. }
    destruct (C31_leftovers_partial g gs y x W (filter (fun n => negb (Nat.eqb n y)) l) Hr Hv Hg HR Hyx Hsm HW (proj1 Hdy) (proj2 Hdy)) as (g2 & gs2 & r & EB2 & Ex & HV2).
    rewrite EB in EB2. injection EB2 as <- <-. destruct (HV2 i Hi) as (D' & E' & H1 & H2 & H3 & _). unfold grad_is. rewrite Ex, H3. f_equal.
    assert (E' = 0).
    { rewrite <- (is_derive_unique _ _ _ H2). apply is_derive_unique. apply const_part; auto. intros n Hn. apply filter_In in Hn as (Hn & Hny).
      assert (Hd : depends g y n) by (apply L2; now right). split; [exact (depends_valid _ _ _ Hr Hv Hd)|]. intros Hnx. destruct (Hbt n Hd Hnx) as [->| ->]; [now rewrite Nat.eqb_refl in Hny|].
      inversion L1; subst; contradiction. }
    assert (D' = D i).
    { rewrite <- (is_derive_unique _ _ _ H1). apply is_derive_unique. eapply is_derive_ext; [|exact (HD i Hi)]. intros t. cbn beta. unfold total, weighted. apply rsum_ext. intros j _. unfold W. rewrite Nat.eqb_refl. ring. }
    subst. unfold W. destruct (Nat.eqb_spec x y); [contradiction|]. ring. }
  assert (Hones : ones_or_none g1 gs1 y).
  { destruct (arrays_without g y ds y Hds (dep_refl g y)) as (l & L1 & L2).
    destruct (C31_one_call_partial g gs y y W (y :: l) Hr Hv Hg HR (dep_refl g y) (smooth_self _ _ _ Hr Hsm) HWy (conj L1 L2)) as (g2 & gs2 & r & EB2 & Ey & _ & HV2).
    rewrite EB in EB2. injection EB2 as <- <-. unfold ones_or_none. rewrite Ey. intros i Hi. rewrite (ext_shape _ _ _ HE Hv) in Hi. destruct (HV2 i Hi) as (d & Hd & ->). f_equal.
    rewrite <- (is_derive_unique _ _ _ Hd). apply is_derive_unique. cbn [rsum].
    assert (HC : is_derive (fun t => rsum l (fun n => weighted (shape_of g n) (W n) (den_with y (moved g y (unit_at i) t) g n))) 0 0).
    { apply const_part; auto. intros n Hn. assert (Hdn : depends g y n) by (apply L2; now right). split; [exact (depends_valid _ _ _ Hr Hv Hdn)|]. intros Hny.
      assert (n = y) by (pose proof (depends_le g (reach_inputs_lt _ Hr) _ _ Hdn); pose proof (depends_le g (reach_inputs_lt _ Hr) _ _ Hny); lia). subst. inversion L1; contradiction. }
    assert (HX : is_derive (fun t => weighted (shape_of g y) (W y) (den_with y (moved g y (unit_at i) t) g y)) 0 1).
    { replace 1 with (rsum (all_idx (shape_of g y)) (fun j => W y j * unit_at i j)).
      - unfold weighted. apply (derive_rsum (all_idx (shape_of g y)) (fun j t => W y j * rv (t_at (den_with y (moved g y (unit_at i) t) g y) j))). intros j Hj. apply in_all_idx in Hj.
        apply (is_derive_scal (fun t => rv (t_at (den_with y (moved g y (unit_at i) t) g y) j)) 0 (W y j)).
        pose proof (tangents g Hr y y Hv Hv (unit_at i) (smooth_self _ _ _ Hr Hsm) y (dep_refl g y) j Hj) as HT. rewrite (T_x g Hr y y Hv (unit_at i) (smooth_self _ _ _ Hr Hsm) j (dep_refl g y) Hj) in HT. exact (dOk_rv _ _ HT).
      - rewrite (rsum_single _ i); [|apply NoDup_all_idx|now apply in_all_idx|].
        + unfold unit_at, W. rewrite Nat.eqb_refl. replace (list_zeqb i i) with true by (symmetry; now apply list_zeqb_eq). ring.
        + intros j _ Hj. unfold unit_at. destruct (list_zeqb j i) eqn:Ej; [apply list_zeqb_eq in Ej; contradiction|]. ring. }
    replace 1 with (1 + 0) by ring. exact (is_derive_plus (K := R_AbsRing) (V := R_NormedModule) _ _ 0 _ _ HX HC). }
  assert (Hdep : forall n, depends g1 y n <-> depends g y n) by (intros n; now apply (depends_ext _ _ _ _ HE Hr Hv)).
  assert (Sx : shape_of g1 x = shape_of g x) by (now apply ext_shape). assert (Sy : shape_of g1 y = shape_of g y) by (now apply ext_shape).
  destruct (IH g1 gs1) with (V := fun i => V i + D i) as (g' & gs' & E & Q); auto.
  - eapply ext_valid; eauto.
  - eapply regular_ext; eauto.
  - now apply Hdep.
  - eapply smooth_ext; eauto.
  - intros n Hn Hnx. apply Hdep in Hn. apply Hbt; auto. apply (depends_ext _ _ _ _ HE Hr); auto. exact (depends_valid _ _ _ Hr Hv Hn).
  - intros i Hi. rewrite Sx in Hi. rewrite Sy. eapply is_derive_ext; [|exact (HD i Hi)]. intros t. cbn beta. now rewrite (moved_ext _ _ _ _ _ HE Vx'), (dw_ext _ _ _ _ _ HE Hv).
  - intros i Hi. rewrite Sx in Hi. auto.
  - exists g', gs'. split; [cbn [backward_calls]; rewrite EB; exact E|]. intros i Hi. rewrite <- Sx in Hi. specialize (Q i Hi).
    replace (V i + INR (S k) * D i) with (V i + D i + INR k * D i) by (rewrite S_INR; ring). exact Q.
Qed.
Print Assumptions C31_direct_partial.

(* y = -(-x), the program of C31_twice_refuted: the hypotheses of C31_exact_partial hold, and its formula gives 1 after one call, 3 after two *)
Definition exTW : nat -> list Z -> R := fun n _ => if Nat.eqb n 2 then 1 else 0.
Lemma exT_smooth x : smooth exT 2 x.
Proof.
  assert (HN : forall n, depends exT 2 n -> (n <= 2)%nat).
  { intros n H. apply (depends_le exT (reach_inputs_lt _ (prog_reach _)) _ _ H). }
  constructor.
  - intros n idx Hd Hi. apply HN in Hd. apply in_all_idx in Hi.
    do 3 (destruct n as [|n]; [vm_compute in Hi; repeat (destruct Hi as [<-|Hi]; [eexists; lazy -[IZR Rplus Rmult Ropp]; reflexivity|]); destruct Hi|]). lia.
  - intros n nd a idx v Hd Hn Ho. apply HN in Hd. exfalso. do 3 (destruct n as [|n]; [vm_compute in Hn; injection Hn as <-; discriminate Ho|]). lia.
  - intros n nd a b idx u w Hd Hn Ho. apply HN in Hd. exfalso. do 3 (destruct n as [|n]; [vm_compute in Hn; injection Hn as <-; discriminate Ho|]). lia.
Qed.
Example C31_exact_nonvacuous : reach exT /\ valid exT 2 /\ regular exT 2 /\ (forall x, depends exT 2 x -> smooth exT 2 x) /\
  (forall x, depends exT 2 x -> weights exT no_grads 2 x exTW) /\ arrays_of exT 2 [0%nat; 1%nat; 2%nat] /\ grads_ok exT no_grads /\
  weights_after exT [0%nat; 1%nat; 2%nat] 1 exTW 0 [0%Z] = 1 /\ weights_after exT [0%nat; 1%nat; 2%nat] 2 exTW 0 [0%Z] = 3.
Proof.
  assert (HN : forall n, depends exT 2 n -> (n <= 2)%nat).
  { intros n H. apply (depends_le exT (reach_inputs_lt _ (prog_reach _)) _ _ H). }
  split; [apply prog_reach|]. split; [vm_compute; lia|]. split.
  { intros n nd a Hd Hn Ha. apply HN in Hd. do 3 (destruct n as [|n]; [vm_compute in Hn; injection Hn as <-; vm_compute in Ha; try discriminate; vm_compute; auto|]). lia. }
  split; [intros x _; apply exT_smooth|]. split; [intros x _ n i _ _ _; cbn; unfold exTW; destruct (Nat.eqb_spec n 2); reflexivity|]. split.
  { split; [repeat constructor; cbn; intuition discriminate|]. intros n. split.
    - assert (D1 : depends exT 2 1) by (eapply dep_step; [vm_compute; reflexivity|left; reflexivity|constructor]).
      assert (D0 : depends exT 2 0) by (eapply dep_step; [vm_compute; reflexivity|left; reflexivity|]; eapply dep_step; [vm_compute; reflexivity|left; reflexivity|constructor]).
      intros [<-|[<-|[<-|[]]]]; auto. constructor.
    - intros H. apply HN in H. cbn. lia. }
  split; [intros n r E; discriminate E|].
  assert (HP : forall W x i, (x <= 2)%nat -> i = [0%Z] -> Derive (fun t => potential exT [0%nat; 1%nat; 2%nat] W x (moved exT x (unit_at i) t)) 0 =
     match x with 0%nat => W 0%nat [0%Z] - W 1%nat [0%Z] + W 2%nat [0%Z] | 1%nat => W 1%nat [0%Z] - W 2%nat [0%Z] | _ => W 2%nat [0%Z] end).
  { intros W x i Hx ->. apply is_derive_unique. destruct x as [|[|[|x]]]; [| | |lia];
    lazy -[IZR Rplus Rmult Ropp Rminus is_derive]; auto_derive; auto; ring. }
  assert (H1 : forall W, weights_after exT [0%nat; 1%nat; 2%nat] 1 W 0 [0%Z] = W 0%nat [0%Z] - W 1%nat [0%Z] + W 2%nat [0%Z]).
  { intros W. cbn [weights_after]. now rewrite HP by lia || auto. }
  split; [rewrite H1; unfold exTW; cbn; ring|].
  change (weights_after exT [0%nat; 1%nat; 2%nat] 2 exTW 0 [0%Z]) with (weights_after exT [0%nat; 1%nat; 2%nat] 1 (fun x i => Derive (fun t => potential exT [0%nat; 1%nat; 2%nat] exTW x (moved exT x (unit_at i) t)) 0) 0 [0%Z]).
  rewrite H1, !HP by (lia || auto). unfold exTW. cbn. ring.
Qed.
(* C31_direct_partial: y = x * x, x = [2,3] *)
Definition exSq : graph := prog [CArray (Nest [Leaf (NInt 2); Leaf (NInt 3)]); CBinary BMul 0 0].
Example C31_direct_nonvacuous : reach exSq /\ valid exSq 1 /\ regular exSq 1 /\ depends exSq 1 0 /\ smooth exSq 1 0 /\
  (forall n, depends exSq 1 n -> depends exSq n 0 -> n = 1%nat \/ n = 0%nat) /\ ones_or_none exSq no_grads 1 /\ grads_ok exSq no_grads /\
  (forall i, in_range (shape_of exSq 0) i -> grad_is exSq no_grads 0 i 0).
Proof.
  assert (HN : forall n, depends exSq 1 n -> (n <= 1)%nat).
  { intros n H. apply (depends_le exSq (reach_inputs_lt _ (prog_reach _)) _ _ H). }
  split; [apply prog_reach|]. split; [vm_compute; lia|]. split.
  { intros n nd a Hd Hn Ha. apply HN in Hd. do 2 (destruct n as [|n]; [vm_compute in Hn; injection Hn as <-; vm_compute in Ha; try discriminate; vm_compute; auto|]). lia. }
  split; [eapply dep_step; [vm_compute; reflexivity|left; reflexivity|constructor]|]. split.
  { constructor.
    - intros n idx Hd Hi. apply HN in Hd. apply in_all_idx in Hi.
      do 2 (destruct n as [|n]; [vm_compute in Hi; repeat (destruct Hi as [<-|Hi]; [eexists; lazy -[IZR Rplus Rmult]; reflexivity|]); destruct Hi|]). lia.
    - intros n nd a idx v Hd Hn Ho. apply HN in Hd. exfalso. do 2 (destruct n as [|n]; [vm_compute in Hn; injection Hn as <-; discriminate Ho|]). lia.
    - intros n nd a b idx u w Hd Hn Ho. apply HN in Hd. exfalso. do 2 (destruct n as [|n]; [vm_compute in Hn; injection Hn as <-; discriminate Ho|]). lia. }
  split; [intros n Hn _; apply HN in Hn; lia|]. split; [exact I|]. split; [intros n r E; discriminate E|]. intros i _. reflexivity.
Qed.
