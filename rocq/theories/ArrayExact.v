(* Which nested lists array() accepts, and what it makes of them. *)
From Verif Require Import Base BaseFacts Util UtilFacts Lang Spec SpecFacts Graph Api Denote ArrayLit ArrayFacts.
From Coq Require Import ZifyBool ZifyNat.

(* lengths of the lists that sit k levels deep *)
Fixpoint lens {A} (v : nest A) (k : nat) : list Z :=
  match v with
  | Leaf _ => []
  | Nest l => match k with O => [Z.of_nat (length l)] | S k' => flat_map (fun w => lens w k') l end
  end.

Lemma fits_lens v : forall sh dim, fits sh dim v <-> forall k d, In d (lens v k) -> nth_error sh (dim + k) = Some d.
Proof.
  induction v as [x|l IH] using nest_ind'; intros sh dim; split.
  - intros _ k d []. 
  - intros _. constructor.
  - intros H k d Hd. inversion H as [|? ? Hn Hc]; subst. destruct k as [|k]; cbn in Hd.
    + destruct Hd as [<-|[]]. now rewrite Nat.add_0_r.
    + apply in_flat_map in Hd as (w & Hw & Hd). rewrite <- Nat.add_succ_comm. apply (proj1 (IH w Hw sh (S dim)) (Hc w Hw) k d Hd).
  - intros H. constructor.
    + specialize (H 0%nat (Z.of_nat (length l))). rewrite Nat.add_0_r in H. apply H. now left.
    + intros w Hw. apply (IH w Hw). intros k d Hd. rewrite Nat.add_succ_comm. apply H. cbn. apply in_flat_map. eauto.
Qed.

Lemma array_dfs_run (S0 : nat -> Z) v : forall dim fl sh, (forall k d, In d (lens v k) -> d = S0 (dim + k)%nat) ->
  (dim <= length sh)%nat -> (forall k d, nth_error sh k = Some d -> d = S0 k) ->
  exists ext, array_dfs v dim fl sh = Done (fl ++ leaves v, sh ++ ext) /\
    (forall k d, nth_error (sh ++ ext) k = Some d -> nth_error sh k = Some d \/ (dim <= k)%nat /\ In d (lens v (k - dim))).
Proof.
  induction v as [x|l IH] using nest_ind'; intros dim fl sh Hl Hd HS; [exists []; rewrite app_nil_r; cbn; auto|].
  rewrite array_dfs_nest.
  assert (H0 : Z.of_nat (length l) = S0 dim) by (rewrite (Hl 0%nat (Z.of_nat (length l))) by (now left); f_equal; lia).
  assert (H1 : exists ext, array_len dim (Z.of_nat (length l)) sh = Done (sh ++ ext) /\ (dim < length (sh ++ ext))%nat /\
    (forall k d, nth_error (sh ++ ext) k = Some d -> nth_error sh k = Some d \/ k = dim /\ d = Z.of_nat (length l))).
  { unfold array_len. destruct (Nat.eqb_spec (length sh) dim) as [<-|E].
    - exists [Z.of_nat (length l)]. split; [reflexivity|]. rewrite app_length. cbn. split; [lia|].
      intros k d Hk. destruct (Nat.lt_ge_cases k (length sh)); [rewrite nth_error_app1 in Hk by assumption; auto|].
      rewrite nth_error_app2 in Hk by assumption. destruct (k - length sh)%nat as [|[|j]] eqn:Ek; try discriminate. injection Hk as <-. right. split; [lia|reflexivity].
    - destruct (nth_error sh dim) as [s|] eqn:En; [|apply nth_error_None in En; lia].
      rewrite (HS _ _ En), <- H0, Z.eqb_refl. exists []. rewrite app_nil_r. split; [reflexivity|]. split; [lia|]. auto. }
  destruct H1 as (ext1 & -> & HL1 & HO1). cbn [obind].
  assert (HS1 : forall k d, nth_error (sh ++ ext1) k = Some d -> d = S0 k).
  { intros k d Hk. destruct (HO1 k d Hk) as [?|[-> ->]]; auto. }
  assert (HE : forall l' fl sh, (forall v, In v l' -> In v l) -> (dim < length sh)%nat -> (forall k d, nth_error sh k = Some d -> d = S0 k) ->
    exists ext, array_each dim l' fl sh = Done (fl ++ flat_map leaves l', sh ++ ext) /\
      (forall k d, nth_error (sh ++ ext) k = Some d -> nth_error sh k = Some d \/ (S dim <= k)%nat /\ In d (flat_map (fun w => lens w (k - S dim)) l'))).
  { clear H0 HO1 HS1 HL1 HS Hd sh. induction l' as [|e l' IHl]; intros fl0 sh0 Hin Hs HS0; cbn [array_each flat_map].
    - exists []. rewrite !app_nil_r. auto.
    - assert (Hle : forall k d, In d (lens e k) -> d = S0 (S dim + k)%nat).
      { intros k d Hk. rewrite Nat.add_succ_comm. apply Hl. cbn. apply in_flat_map. exists e. split; [apply Hin; now left|assumption]. }
      destruct (IH e (Hin e (or_introl eq_refl)) (S dim) fl0 sh0 Hle) as (ext2 & -> & HO2); [lia|assumption|]. cbn [obind].
      destruct (IHl (fl0 ++ leaves e) (sh0 ++ ext2)) as (ext3 & H3 & HO3); [intros; apply Hin; now right|rewrite app_length; lia| |].
      { intros k d Hk. destruct (HO2 k d Hk) as [?|[H1 H2]]; auto. rewrite (Hle _ _ H2). f_equal. lia. }
      exists (ext2 ++ ext3). split.
      + change (array_each dim l' (fl0 ++ leaves e) (sh0 ++ ext2) = Done (fl0 ++ leaves e ++ flat_map leaves l', sh0 ++ ext2 ++ ext3)). rewrite H3. now rewrite !app_assoc.
      + intros k d Hk. rewrite app_assoc in Hk. destruct (HO3 k d Hk) as [Hk'|[H1 H2]].
        * destruct (HO2 k d Hk') as [?|[H1 H2]]; auto. right. split; auto. apply in_or_app. now left.
        * right. split; auto. apply in_or_app. now right. }
  destruct (HE l fl (sh ++ ext1) (fun v h => h) HL1 HS1) as (ext & -> & HO). exists (ext1 ++ ext). rewrite app_assoc. split; [reflexivity|].
  intros k d Hk. destruct (HO k d Hk) as [Hk'|[H1 H2]].
  - destruct (HO1 k d Hk') as [?|[-> ->]]; auto. right. split; [lia|]. rewrite Nat.sub_diag. now left.
  - right. split; [lia|]. replace (k - dim)%nat with (S (k - S dim)) by lia. exact H2.
Qed.

Definition levelled {A} (v : nest A) : Prop := forall k x y, In x (lens v k) -> In y (lens v k) -> x = y.

Lemma array_dfs_leaves v : forall dim fl sh fl' sh', array_dfs v dim fl sh = Done (fl', sh') -> fl' = fl ++ leaves v.
Proof.
  induction v as [x|l IH] using nest_ind'; intros dim fl sh fl' sh' H; [now injection H as <- <-|].
  rewrite array_dfs_nest in H. apply obind_done in H as (sh1 & _ & H). cbn [leaves]. revert fl sh1 H.
  induction l as [|e l IHl]; intros fl sh1 H; cbn in H; [injection H as <- <-; now rewrite app_nil_r|].
  apply obind_done in H as ([fl1 sh2] & Ha & Hb). apply (IH e (or_introl eq_refl)) in Ha. subst fl1.
  cbn [flat_map]. rewrite app_assoc. eapply IHl; [|exact Hb]. intros w Hw. apply IH. now right.
Qed.

(* everything array() does, for every nested list *)
Theorem array_exact g v :
  (levelled v -> exists sh, api_array g v = Done (g ++ [const_node sh (leaves v)], length g) /\ (forall k d, nth_error sh k = Some d <-> In d (lens v k))) /\
  (~ levelled v -> forall g' r, api_array g v <> Done (g', r)).
Proof.
  split.
  - intros HL. set (S0 := fun k => hd 0 (lens v k)).
    destruct (array_dfs_run S0 v 0 [] []) as (ext & HA & HO).
    + intros k d Hd. unfold S0. cbn [Nat.add]. destruct (lens v k) as [|x r] eqn:E; [destruct Hd|]. apply (HL k); rewrite E; [exact Hd|now left].
    + cbn. lia.
    + intros [|k] d Hk; discriminate.
    + cbn [app] in *. exists ext. unfold api_array. rewrite HA. cbn [obind api_const]. split; [reflexivity|]. intros k d. split.
      * intros Hk. destruct (HO k d Hk) as [Hn|[_ H]]; [destruct k; discriminate|]. now rewrite Nat.sub_0_r in H.
      * intros Hk. destruct (array_dfs_fits _ _ _ _ _ _ HA) as [Hf _]. apply (proj1 (fits_lens v ext 0) Hf). exact Hk.
  - intros HN g' r H. apply HN. unfold api_array in H. apply obind_done in H as ([fl sh] & HA & _).
    destruct (array_dfs_fits _ _ _ _ _ _ HA) as [Hf _]. intros k x y Hx Hy.
    pose proof (proj1 (fits_lens v sh 0) Hf k x Hx). pose proof (proj1 (fits_lens v sh 0) Hf k y Hy). cbn [Nat.add] in *. congruence.
Qed.

(* numbers that sit k levels deep *)
Fixpoint nums {A} (v : nest A) (k : nat) : list A :=
  match v with
  | Leaf x => match k with O => [x] | S _ => [] end
  | Nest l => match k with O => [] | S k' => flat_map (fun w => nums w k') l end
  end.
Lemma depth_levels {A} (v : nest A) : forall d, depth d v <-> (forall k x, In x (nums v k) -> k = d) /\ (forall k x, In x (lens v k) -> (k < d)%nat).
Proof.
  induction v as [x|l IH] using nest_ind'; intros d; split.
  - intros H. inversion H; subst. split; intros [|k] y; cbn; try tauto.
  - intros [H _]. specialize (H 0%nat x (or_introl eq_refl)). subst d. constructor.
  - intros H. inversion H as [|d0 l0 Hl]; subst. split; intros [|k] y Hy; cbn in Hy; try tauto; try lia.
    + apply in_flat_map in Hy as (w & Hw & Hy). f_equal. exact (proj1 (proj1 (IH w Hw d0) (Hl w Hw)) k y Hy).
    + apply in_flat_map in Hy as (w & Hw & Hy). pose proof (proj2 (proj1 (IH w Hw d0) (Hl w Hw)) k y Hy). lia.
  - intros [H1 H2]. pose proof (H2 0%nat _ (or_introl eq_refl)). destruct d as [|d]; [lia|]. constructor. intros w Hw. apply (IH w Hw). split; intros k y Hy.
    + enough (S k = S d) by lia. apply (H1 (S k) y). cbn. apply in_flat_map. eauto.
    + enough (S k < S d)%nat by lia. apply (H2 (S k) y). cbn. apply in_flat_map. eauto.
Qed.
(* above a number or a list, there are lists on every level *)
Lemma above {A} (v : nest A) : forall k, nums v k <> [] \/ lens v k <> [] -> forall j, (j < k)%nat -> lens v j <> [].
Proof.
  induction v as [x|l IH] using nest_ind'; intros k Hk j Hj.
  - destruct k; [lia|]. destruct Hk as [Hk|Hk]; cbn in Hk; congruence.
  - destruct k as [|k]; [lia|]. destruct j as [|j]; [discriminate|]. cbn [nums lens] in *.
    assert (Hw : exists w, In w l /\ (nums w k <> [] \/ lens w k <> [])).
    { destruct Hk as [Hk|Hk].
      - destruct (flat_map (fun w => nums w k) l) as [|x r] eqn:E; [congruence|]. assert (Hx : In x (flat_map (fun w => nums w k) l)) by (rewrite E; now left).
        apply in_flat_map in Hx as (w & Hw & Hx). exists w. split; auto. left. intros E0. rewrite E0 in Hx. destruct Hx.
      - destruct (flat_map (fun w => lens w k) l) as [|x r] eqn:E; [congruence|]. assert (Hx : In x (flat_map (fun w => lens w k) l)) by (rewrite E; now left).
        apply in_flat_map in Hx as (w & Hw & Hx). exists w. split; auto. right. intros E0. rewrite E0 in Hx. destruct Hx. }
    destruct Hw as (w & Hw & Hn). assert (HL : lens w j <> []) by (apply (IH w Hw k Hn); lia).
    destruct (lens w j) as [|x r] eqn:E; [congruence|]. intros E0. assert (Hx : In x (flat_map (fun w => lens w j) l)) by (apply in_flat_map; exists w; rewrite E; cbn; auto).
    rewrite E0 in Hx. destruct Hx.
Qed.
Fixpoint height {A} (v : nest A) : nat := match v with Leaf _ => 0 | Nest l => S (fold_right (fun w m => Nat.max (height w) m) 0%nat l) end.
Lemma lens_height {A} (v : nest A) : forall k x, In x (lens v k) -> (k < height v)%nat.
Proof.
  induction v as [x|l IH] using nest_ind'; intros k y Hy; cbn in *; [destruct Hy|]. destruct k as [|k]; [lia|].
  apply in_flat_map in Hy as (w & Hw & Hy). apply (IH w Hw) in Hy. enough (height w <= fold_right (fun w m => Nat.max (height w) m) 0%nat l)%nat by lia.
  clear - Hw. induction l as [|u l IHl]; [destruct Hw|]. cbn. destruct Hw as [->|Hw]; [lia|]. specialize (IHl Hw). lia.
Qed.

(* rectangular = on every level all lists have the same length, and numbers and lists are not mixed *)
Theorem rectangular_levels (v : nest num) : rectangular v <-> levelled v /\ forall k, nums v k = [] \/ lens v k = [].
Proof.
  split.
  - intros (s & H). assert (G : (forall k x, In x (lens v k) -> nth_error s k = Some x) /\ (forall k, nums v k <> [] -> k = length s)).
    { induction H as [x|d s l HL Hl IH]; split.
      - intros [|k] y [].
      - intros [|k]; cbn; congruence.
      - intros [|k] y Hy; cbn in Hy; [destruct Hy as [<-|[]]; cbn; congruence|]. apply in_flat_map in Hy as (w & Hw & Hy). cbn. now apply (IH w Hw).
      - intros [|k] Hk; cbn in Hk; [congruence|]. cbn. f_equal.
        destruct (flat_map (fun w => nums w k) l) as [|x r] eqn:E; [congruence|]. assert (Hx : In x (flat_map (fun w => nums w k) l)) by (rewrite E; now left).
        apply in_flat_map in Hx as (w & Hw & Hx). apply (IH w Hw). intros E0. rewrite E0 in Hx. destruct Hx. }
    destruct G as [G1 G2]. split.
    + intros k x y Hx Hy. apply G1 in Hx, Hy. congruence.
    + intros k. destruct (nums v k) as [|n r] eqn:En; auto. right. assert (k = length s) by (apply G2; rewrite En; discriminate). subst k.
      destruct (lens v (length s)) as [|x q] eqn:El; auto. exfalso. assert (Hx : In x (lens v (length s))) by (rewrite El; now left).
      apply G1 in Hx. assert (length s < length s)%nat by (apply nth_error_Some; congruence). lia.
  - intros [HL HM].
    assert (HD : exists d, depth d v).
    { assert (Hcase : (exists k, (k <= height v)%nat /\ nums v k <> []) \/ (forall k, (k <= height v)%nat -> nums v k = [])).
      { induction (height v) as [|h IH].
        - destruct (nums v 0) eqn:E; [right; intros k Hk; now replace k with 0%nat by lia|left; exists 0%nat; split; [lia|congruence]].
        - destruct IH as [(k & Hk & Hn)|IH]; [left; exists k; split; [lia|assumption]|].
          destruct (nums v (S h)) eqn:E; [|left; exists (S h); split; [lia|congruence]].
          right. intros k Hk. destruct (Nat.eq_dec k (S h)) as [->|]; [assumption|apply IH; lia]. }
      destruct Hcase as [(k & _ & Hk)|Hno].
      - exists k. apply depth_levels. split.
        + intros j x Hj. destruct (Nat.lt_trichotomy j k) as [Hlt|[?|Hlt]]; auto; exfalso.
          * pose proof (above v k (or_introl Hk) j Hlt). destruct (HM j) as [E|E]; [|congruence]. rewrite E in Hj. destruct Hj.
          * assert (Hj' : nums v j <> []) by (intros E; rewrite E in Hj; destruct Hj). pose proof (above v j (or_introl Hj') k Hlt). destruct (HM k); congruence.
        + intros j x Hj. destruct (Nat.lt_ge_cases j k) as [|Hge]; auto. exfalso.
          assert (Hj' : lens v j <> []) by (intros E; rewrite E in Hj; destruct Hj).
          assert (Hk' : lens v k <> []) by (destruct (Nat.eq_dec j k) as [<-|]; auto; apply (above v j (or_intror Hj')); lia).
          destruct (HM k); congruence.
      - exists (height v). apply depth_levels. split; [|intros j x Hj; eapply lens_height; eauto].
        intros j x Hj. exfalso. destruct (Nat.le_gt_cases j (height v)) as [Hle|Hgt]; [rewrite Hno in Hj by assumption; destruct Hj|].
        assert (Hj' : nums v j <> []) by (intros E; rewrite E in Hj; destruct Hj).
        pose proof (above v j (or_introl Hj') (height v) Hgt) as HX. destruct (lens v (height v)) as [|y r] eqn:E; [congruence|].
        assert (In y (lens v (height v))) by (rewrite E; now left). apply lens_height in H. lia. }
    destruct HD as (d & HD). apply (array_depth_iff v d HD). destruct (proj1 (array_exact [] v) HL) as (sh & H & _).
    unfold api_array in H. apply obind_done in H as ([fl sh'] & HA & _). eauto.
Qed.
