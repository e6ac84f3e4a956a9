(* Exact versions of C15 and C22: what tolist() of ANY chain of views reads, and what array() makes of ANY nested list. *)
From Verif Require Import Base BaseFacts Util UtilFacts Lang Spec SpecFacts Graph Api Denote DenoteFacts ArrayLit ArrayFacts Reach Tolist FrontSpec LangInst Prog
  ApiFacts TolistFacts FrontFacts4 PropViews PropCreate PropArgs ArrayExact ViewExact.
From Coq Require Import ZifyBool ZifyNat.

(* C15, every chain of views, no restriction.  Specification (ViewExact.v): [source g b a idx bi] - element idx of the view
   is element bi of the array that owns the buffer (by the meaning of the views); [lost g a k] - k adds up the offsets of
   all arrays of which the chain takes a reshape.  tolist never raises, and reads every element k places too early. *)
Theorem C15_exact : forall V g (m : mem V) a b nd bd data, reach g -> view_of g false a b ->
  nth_error g a = Some nd -> nth_error g b = Some bd -> m b = Some data -> Z.of_nat (length data) = zprod (n_shape bd) ->
  exists k l, lost g a k /\ tolist g m a = Done l /\ (0 < zprod (n_shape nd) -> 0 <= k) /\
    forall idx, in_range (n_shape nd) idx -> exists bi, in_range (n_shape bd) bi /\ source g b a idx bi /\
      (forall A : valg, t_at (den A g a) idx = t_at (den A g b) bi) /\
      0 <= flat (n_shape bd) bi - k /\ follow l idx = znth data (flat (n_shape bd) bi - k).
Proof.
  intros V g m a b nd bd data Hr Hv Hnd Hbd Hm HL. pose proof (reach_wf _ Hr) as Hw. destruct (view_lost g a b Hv) as (k & Hk).
  destruct (tolist_exact g m a b k data nd bd Hw Hv Hk Hnd Hbd Hm HL) as (l & Hl & HF). exists k, l. split; [exact Hk|]. split; [exact Hl|]. split; [|exact HF].
  intros HP. eapply lost_nonneg; eauto.
Qed.
Print Assumptions C15_exact.

(* tolist of the view a is right whatever the buffer of b holds *)
Definition reads_right (g : graph) (a b : nat) : Prop :=
  forall V (m : mem V) bd data, nth_error g b = Some bd -> m b = Some data -> Z.of_nat (length data) = zprod (n_shape bd) ->
    exists l, tolist g m a = Done l /\ forall idx bi, source g b a idx bi -> follow l idx = znth data (flat (n_shape bd) bi).

(* A view with elements is read right exactly if, in the chain, a reshape is only taken of arrays that start at offset 0
   of their buffer (view_of g true). *)
Theorem C15_right_iff : forall g a b nd, reach g -> view_of g false a b -> nth_error g a = Some nd -> 0 < zprod (n_shape nd) ->
  (reads_right g a b <-> exists b', view_of g true a b').
Proof.
  intros g a b nd Hr Hv Hnd HP. pose proof (reach_wf _ Hr) as Hw. destruct (view_lost g a b Hv) as (k & Hk).
  rewrite <- (lost_zero g a k Hw Hk nd Hnd HP). split.
  - intros HR. destruct (Z.eq_dec k 0) as [|NE]; [assumption|]. exfalso.
    assert (exists bd, nth_error g b = Some bd) as [bd Hbd] by (clear - Hv; induction Hv; eauto).
    assert (HZ : forall z, 0 <= z < zprod (n_shape bd) -> znth (zrange (zprod (n_shape bd))) z = Some z).
    { intros z Hz. unfold znth. replace (z <? 0) with false by lia. rewrite nth_error_zrange by lia. f_equal. lia. }
    pose proof (lost_nonneg g a k Hw Hk nd Hnd HP) as Hk0.
    set (data := zrange (zprod (n_shape bd))). set (m := fun x : nat => if Nat.eqb x b then Some data else None).
    assert (Hm : m b = Some data) by (unfold m; now rewrite Nat.eqb_refl).
    pose proof (zprod_nonneg _ (wf_nonneg unit_valg g b bd Hw Hbd)) as HNN.
    assert (HL : Z.of_nat (length data) = zprod (n_shape bd)) by (unfold data; rewrite zrange_length; lia).
    destruct (HR Z m bd data Hbd Hm HL) as (l & Hl & HF).
    destruct (tolist_exact g m a b k data nd bd Hw Hv Hk Hnd Hbd Hm HL) as (l' & Hl' & HF'). rewrite Hl in Hl'. injection Hl' as <-.
    destruct (HF' _ (zeros_in_range _ (zprod_pos_all _ (wf_nonneg unit_valg g a nd Hw Hnd) HP))) as (bi & B1 & BS & _ & B3 & B4).
    rewrite (HF _ _ BS) in B4. pose proof (flat_bounds _ _ B1). unfold data in B4. rewrite !HZ in B4 by lia. injection B4 as B4. lia.
  - intros -> V m bd data Hbd Hm HL. destruct (tolist_exact g m a b 0 data nd bd Hw Hv Hk Hnd Hbd Hm HL) as (l & Hl & HF). exists l. split; [exact Hl|].
    intros idx bi HS. assert (Hi : in_range (n_shape nd) idx).
    { inversion HS; subst; match goal with H : nth_error g a = Some ?x |- _ => rewrite Hnd in H; injection H as <- end; auto.
      all: pose proof (Hw _ _ Hnd) as W; unfold wf_node in W.
      - rewrite H0 in W. destruct W as (? & ? & _ & _ & _ & Hf & _). cbn in Hf. injection Hf as <-. exact H3.
      - rewrite H0 in W. destruct W as (? & ? & _ & _ & _ & Hf & _). cbn in Hf. injection Hf as <-. exact H3. }
    destruct (HF idx Hi) as (bj & _ & BS & _ & _ & B4). rewrite Z.sub_0_r in B4. now rewrite (source_fun _ _ _ _ _ HS _ BS).
Qed.
Print Assumptions C15_right_iff.
(* arange(6)[3:].reshape(3): 3 places lost; element 1 of the view is element 4 of arange(6), tolist gives 1 there *)
Example C15_exact_nonvacuous : reach ex /\ lost ex 6 3 /\ view_of ex false 6 0 /\ source ex 0 6 [1] [4] /\
  tolist ex ex_mem 6 = Done (Nest [Leaf (PI 0); Leaf (PI 1); Leaf (PI 2)]) /\ follow (Nest [Leaf (PI 0); Leaf (PI 1); Leaf (PI 2)]) [1] = Some (PI 1) /\ lost ex 4 0.
Proof.
  split; [apply prog_reach|]. split.
  { refine (eq_ind _ (lost ex 6) (lost_reshape ex 6 _ [3] 5 _ 0 _ _ _ _ _) 3 _); [vm_compute; reflexivity|reflexivity|reflexivity|vm_compute; reflexivity| |reflexivity].
    eapply lost_keep; [vm_compute; reflexivity|reflexivity|discriminate|reflexivity|]. eapply lost_own; [vm_compute; reflexivity|reflexivity]. }
  split.
  { repeat (eapply vo_step; [vm_compute; reflexivity|reflexivity|vm_compute; reflexivity|vm_compute; reflexivity|discriminate|]).
    eapply vo_self; [vm_compute; reflexivity|reflexivity]. }
  split.
  { eapply src_reshape; [vm_compute; reflexivity|reflexivity|reflexivity|vm_compute; reflexivity|repeat (constructor; [cbn; lia|]); constructor|].
    eapply src_slice; [vm_compute; reflexivity|reflexivity|reflexivity|repeat (constructor; [cbn; lia|]); constructor|]. vm_compute.
    eapply src_own; [vm_compute; reflexivity|reflexivity|repeat (constructor; [cbn; lia|]); constructor]. }
  split; [vm_compute; reflexivity|]. split; [reflexivity|].
  eapply lost_keep; [vm_compute; reflexivity|reflexivity|discriminate|reflexivity|].
  eapply lost_keep; [vm_compute; reflexivity|reflexivity|discriminate|reflexivity|].
  eapply lost_keep; [vm_compute; reflexivity|reflexivity|discriminate|reflexivity|].
  refine (eq_ind _ (lost ex 1) (lost_reshape ex 1 _ [2; 3] 0 _ 0 _ _ _ _ _) 0 _); [vm_compute; reflexivity|reflexivity|reflexivity|vm_compute; reflexivity| |reflexivity].
  eapply lost_own; [vm_compute; reflexivity|reflexivity].
Qed.

(* C22 for every nested list.  [lens v k] = the lengths of the lists k levels deep, [nums v k] = the numbers k levels deep,
   [levelled v] = lists on the same level have the same length (ArrayExact.v).  array(v) is accepted exactly if v is levelled
   (numbers may be mixed with lists); then the extent of axis k is the common length of the lists k levels deep and the
   data are the numbers from left to right; otherwise ValueError.  Rectangular = levelled and nothing mixed. *)
Theorem C22_exact : forall g v,
  (levelled v -> exists sh, api_array g v = Done (g ++ [const_node sh (leaves v)], length g) /\ (forall k d, nth_error sh k = Some d <-> In d (lens v k))) /\
  (~ levelled v -> api_array g v = Throw ValueErr).
Proof.
  intros g v. destruct (array_exact g v) as [H1 H2]. split; [exact H1|]. intros HN. specialize (H2 HN).
  unfold api_array in *. destruct (array_dfs v 0 [] []) as [[fl sh]|e] eqn:E; cbn [obind] in *.
  - exfalso. unfold api_const in *. eapply H2. reflexivity.
  - f_equal. eapply array_dfs_throws; [|exact E]. cbn. lia.
Qed.
Print Assumptions C22_exact.
Theorem C22_rectangular_iff : forall v : nest num, rectangular v <-> levelled v /\ forall k, nums v k = [] \/ lens v k = [].
Proof. exact rectangular_levels. Qed.
Print Assumptions C22_rectangular_iff.
(* hence: array() takes exactly the rectangular lists and those that mix numbers and lists on a level *)
Theorem C22_accepts_iff : forall g v, (exists g' r, api_array g v = Done (g', r)) <-> levelled v.
Proof.
  intros g v. split.
  - intros (g' & r & H). intros k x y Hx Hy. destruct (Z.eq_dec x y) as [|NE]; [assumption|]. exfalso.
    rewrite (proj2 (C22_exact g v)) in H; [discriminate|]. intros HL. apply NE. exact (HL k x y Hx Hy).
  - intros HL. destruct (proj1 (C22_exact g v) HL) as (sh & -> & _). eauto.
Qed.
Print Assumptions C22_accepts_iff.
Example C22_exact_nonvacuous :
  levelled (Nest [row [1; 2]; i_ 3]) /\ lens (Nest [row [1; 2]; i_ 3]) 1 = [2] /\ nums (Nest [row [1; 2]; i_ 3]) 1 = [NInt 3] /\
  ~ levelled (Nest [row [1; 2]; row [3]]) /\ levelled (Nest [row [1; 2]; row [3; 4]]) /\ leaves (Nest [row [1; 2]; i_ 3]) = [NInt 1; NInt 2; NInt 3].
Proof.
  repeat split.
  - intros [|[|[|k]]] x y; cbn; intros; intuition congruence.
  - intros H. specialize (H 1%nat 2 1). cbn in H. intuition discriminate.
  - intros [|[|[|k]]] x y; cbn; intros; intuition congruence.
Qed.
