(* Index facts used by the backward rules. *)
From Verif Require Import Base BaseFacts Util UtilFacts Lang Spec SpecFacts Graph Api Denote DenoteFacts Reach ApiFacts
  FrontSpec FrontFacts FrontFacts2 FrontFacts3 FrontFacts4 Backward BackSpec.

(* ---- sum *)
Lemma ones_axes_length ax k s : length (ones_axes ax k s) = length s.
Proof. revert k. induction s; intros k; cbn; auto. Qed.
Lemma ones_axes_nth ax : forall s k j, (j < length s)%nat -> nth j (ones_axes ax k s) 0 = if zmem (k + Z.of_nat j) ax then 1 else nth j s 0.
Proof.
  induction s as [|d s IH]; intros k [|j] Hj; cbn in Hj; try lia; cbn [ones_axes nth].
  - now rewrite Z.add_0_r.
  - rewrite IH by lia. replace (k + 1 + Z.of_nat j) with (k + Z.of_nat (S j)) by lia. reflexivity.
Qed.
Lemma set_ones_length s ax : length (set_ones s ax) = length s.
Proof. unfold set_ones. revert s. induction ax as [|a ax IH]; intros s; cbn; [reflexivity|]. rewrite IH. apply upd_length. Qed.
Lemma set_ones_nth ax : forall s j, Forall (fun a => 0 <= a < Z.of_nat (length s)) ax -> (j < length s)%nat ->
  nth j (set_ones s ax) 0 = if zmem (Z.of_nat j) ax then 1 else nth j s 0.
Proof.
  induction ax as [|a ax IH]; intros s j HF Hj; [reflexivity|]. pose proof (Forall_inv HF) as Ha. apply Forall_inv_tail in HF. cbn beta in Ha.
  unfold set_ones. cbn [fold_left]. fold (set_ones (upd s (Z.to_nat a) 1) ax). rewrite IH by (rewrite upd_length; auto).
  unfold zmem at 2. cbn [existsb]. fold (zmem (Z.of_nat j) ax). destruct (zmem (Z.of_nat j) ax); [now rewrite orb_true_r|]. rewrite orb_false_r.
  destruct (Z.of_nat j =? a) eqn:E.
  - assert (j = Z.to_nat a) by lia. subst j. now apply nth_upd_same.
  - apply nth_upd_other. lia.
Qed.
Lemma list_eq_nth (a b : list Z) : length a = length b -> (forall j, (j < length a)%nat -> nth j a 0 = nth j b 0) -> a = b.
Proof. intros. eapply nth_ext; eauto. Qed.
Lemma set_ones_eq s ax : Forall (fun a => 0 <= a < Z.of_nat (length s)) ax -> set_ones s ax = ones_axes ax 0 s.
Proof.
  intros HF. apply list_eq_nth; [now rewrite set_ones_length, ones_axes_length|]. intros j Hj. rewrite set_ones_length in Hj.
  rewrite set_ones_nth, ones_axes_nth by auto. reflexivity.
Qed.
Lemma zprod_ones ax k s : zprod (ones_axes ax k s) = zprod (drop_axes ax k s).
Proof. revert k. induction s as [|d s IH]; intros k; cbn [ones_axes drop_axes]; [reflexivity|]. destruct (zmem k ax); rewrite ?zprod_cons, IH; lia. Qed.
Lemma flat_ones_squash ax : forall s k idx, in_range s idx ->
  flat (ones_axes ax k s) (squash (ones_axes ax k s) idx) = flat (drop_axes ax k s) (drop_axes ax k idx).
Proof.
  induction s as [|d s IH]; intros k idx H; inversion H as [|i e r t Hi Hr]; subst; [reflexivity|].
  cbn [ones_axes drop_axes squash]. destruct (zmem k ax) eqn:E.
  - cbn [squash]. rewrite Z.eqb_refl, flat_cons, IH by assumption. lia.
  - cbn [squash]. rewrite !flat_cons, IH, zprod_ones by assumption. destruct (d =? 1) eqn:E1; f_equal; f_equal; lia.
Qed.
Lemma bcast_ones ax k s : bcast_ok (ones_axes ax k s) s.
Proof.
  unfold bcast_ok. rewrite ones_axes_length, Nat.sub_diag. split; [lia|]. cbn [skipn]. revert k.
  induction s as [|d s IH]; intros k; cbn; constructor; auto. destruct (zmem k ax); auto.
Qed.

(* ---- broadcast *)
Lemma bw_added_eq so s : (length s <= length so)%nat -> bw_added so s = zrange (Z.of_nat (length so - length s)).
Proof. intros H. unfold bw_added. f_equal. lia. Qed.
Lemma in_expanded (added : list Z) : forall s j k, In j (map (fun '(i, _) => i + Z.of_nat (length added)) (filter (fun '(_, x) => x =? 1) (enum k s))) <->
  exists m, j = k + Z.of_nat m + Z.of_nat (length added) /\ nth_error s m = Some 1.
Proof.
  induction s as [|d s IH]; intros j k; cbn [enum filter map].
  - split; [intros []|]. intros (m & _ & H). now destruct m.
  - destruct (d =? 1) eqn:E; cbn [map In]; rewrite IH.
    + split.
      * intros [<-|(m & -> & H)]; [exists O; cbn; split; [lia|f_equal; lia]|]. exists (S m). split; [lia|assumption].
      * intros ([|m] & -> & H); [left; lia|right]. exists m. split; [lia|assumption].
    + split; [intros (m & -> & H); exists (S m); split; [lia|assumption]|].
      intros ([|m] & -> & H); [cbn in H; injection H as ->; lia|]. exists m. split; [lia|assumption].
Qed.
(* positions summed by the broadcast rule *)
Definition bw_axes (so s : list Z) : list Z := bw_added so s ++ bw_expanded (bw_added so s) s.
Lemma bw_axes_in so s j : (length s <= length so)%nat -> let k := (length so - length s)%nat in
  In j (bw_axes so s) <-> (0 <= j < Z.of_nat k) \/ exists m, j = Z.of_nat (k + m) /\ nth_error s m = Some 1.
Proof.
  intros Hl k. unfold bw_axes. rewrite in_app_iff, bw_added_eq by assumption. fold k. rewrite in_zrange.
  unfold bw_expanded. rewrite in_expanded, zrange_length.
  split; (intros [H|(m & E & H)]; [left; exact H|right; exists m; split; [lia|assumption]]).
Qed.
Lemma bw_axes_range so s : (length s <= length so)%nat -> Forall (fun a => 0 <= a < Z.of_nat (length so)) (bw_axes so s).
Proof.
  intros Hl. apply Forall_forall. intros j Hj. apply bw_axes_in in Hj as [Hj|(m & -> & Hm)]; [lia| |assumption].
  assert (m < length s)%nat by (apply nth_error_Some; congruence). lia.
Qed.
Lemma bw_axes_ones so s : bcast_ok s so -> ones_axes (bw_axes so s) 0 so = repeat 1 (length so - length s) ++ s.
Proof.
  intros (Hl & HB). apply list_eq_nth; [rewrite ones_axes_length, app_length, repeat_length; lia|].
  rewrite ones_axes_length. intros j Hj. rewrite ones_axes_nth by assumption. set (k := (length so - length s)%nat) in *.
  destruct (zmem (0 + Z.of_nat j) (bw_axes so s)) eqn:E.
  - apply zmem_In, bw_axes_in in E; [|assumption]. fold k in E. destruct (Nat.ltb_spec j k).
    + rewrite app_nth1 by (rewrite repeat_length; lia). clear - H. revert j H. induction k as [|k IH]; intros [|j] H; try lia; cbn; [reflexivity|]. apply IH. lia.
    + destruct E as [E|(m & E & Hm)]; [lia|]. rewrite app_nth2 by (rewrite repeat_length; lia). rewrite repeat_length.
      replace (j - k)%nat with m by lia. symmetry. now apply nth_error_nth.
  - apply zmem_false in E. rewrite bw_axes_in in E by assumption. fold k in E.
    assert (Hjk : (k <= j)%nat) by (destruct (Nat.le_gt_cases k j); [assumption|exfalso; apply E; left; lia]).
    rewrite app_nth2 by (rewrite repeat_length; lia). rewrite repeat_length.
    assert (Hm : (j - k < length s)%nat) by lia.
    destruct (nth_error s (j - k)) as [d|] eqn:Ed; [|apply nth_error_None in Ed; lia].
    destruct (Forall2_nth_error _ _ _ _ _ HB Ed) as (e & He & [->| ->]).
    + rewrite (nth_error_nth _ _ 0 Ed). apply nth_error_nth. rewrite <- He. clear - Hjk. fold k. 
      rewrite <- (firstn_skipn k so) at 1. rewrite nth_error_app2; rewrite firstn_length; [|lia].
      destruct (Nat.le_gt_cases k (length so)); [now rewrite Nat.min_l by lia|].
      rewrite skipn_all2 by lia. transitivity (@None Z); [|symmetry]; apply nth_error_None; cbn; lia.
    + exfalso. apply E. right. exists (j - k)%nat. split; [lia|assumption].
Qed.

Lemma drop_axes_skip ax : forall l1 l2 p, (forall m, p <= m < p + Z.of_nat (length l1) -> zmem m ax = true) ->
  drop_axes ax p (l1 ++ l2) = drop_axes ax (p + Z.of_nat (length l1)) l2.
Proof.
  induction l1 as [|x l1 IH]; intros l2 p H; cbn [app drop_axes length].
  - now rewrite Z.add_0_r.
  - cbn [length] in H. rewrite H by lia. rewrite IH by (intros; apply H; lia). f_equal. lia.
Qed.
Lemma drop_squash_iff ax : forall s f idx p, length f = length s -> in_range s idx ->
  (forall m, (m < length s)%nat -> zmem (p + Z.of_nat m) ax = (nth m s 0 =? 1)) ->
  (drop_axes ax p f = drop_axes ax p idx <-> squash s f = idx).
Proof.
  induction s as [|d s IH]; intros f idx p Hl Hi HM.
  - inversion Hi; subst. destruct f; [|discriminate]. cbn. tauto.
  - inversion Hi as [|i e r t Hir Hr]; subst. destruct f as [|x f]; [discriminate|]. cbn in Hl. cbn [drop_axes squash].
    pose proof (HM O ltac:(cbn; lia)) as H0. cbn in H0. rewrite Z.add_0_r in H0. rewrite H0.
    assert (HM' : forall m, (m < length s)%nat -> zmem (p + 1 + Z.of_nat m) ax = (nth m s 0 =? 1)).
    { intros m Hm. pose proof (HM (S m) ltac:(cbn; lia)) as H1. cbn [nth] in H1. rewrite <- H1. f_equal. lia. }
    specialize (IH f r (p + 1) ltac:(lia) Hr HM'). destruct (d =? 1) eqn:E.
    + rewrite IH. split; [intros ->; f_equal; lia|]. now injection 1.
    + split; [injection 1 as -> H2; f_equal; now apply IH|injection 1 as -> H2; f_equal; now apply IH].
Qed.
Lemma bw_positions_iff so s f idx : bcast_ok s so -> in_range so f -> in_range s idx -> let k := (length so - length s)%nat in
  (drop_axes (bw_axes so s) 0 f = drop_axes (bw_axes so s) 0 (repeat 0 k ++ idx) <-> squash s (skipn k f) = idx).
Proof.
  intros (Hl & HB) Hf Hi k.
  assert (HK : forall m, 0 <= m < 0 + Z.of_nat k -> zmem m (bw_axes so s) = true).
  { intros m Hm. apply zmem_In, bw_axes_in; [assumption|]. left. fold k. lia. }
  pose proof (in_range_length _ _ Hf) as Lf.
  rewrite <- (firstn_skipn k f) at 1. rewrite (drop_axes_skip _ (firstn k f)) by (rewrite firstn_length; intros; apply HK; lia).
  rewrite (drop_axes_skip _ (repeat 0 k)) by (rewrite repeat_length; exact HK). rewrite firstn_length, repeat_length.
  rewrite Nat.min_l by lia. apply drop_squash_iff; [rewrite skipn_length; lia|assumption|].
  intros m Hm. destruct (zmem _ _) eqn:E; symmetry.
  - apply zmem_In, bw_axes_in in E; [|assumption]. fold k in E. destruct E as [E|(m' & E & Hm')]; [lia|].
    replace m with m' by lia. rewrite (nth_error_nth _ _ 0 Hm'). reflexivity.
  - apply zmem_false in E. rewrite bw_axes_in in E by assumption. fold k in E. apply Z.eqb_neq. intros E1. apply E. right. exists m.
    split; [lia|]. rewrite <- E1. now apply nth_error_nth'.
Qed.
Lemma flat_repeat1 k s idx : flat (repeat 1 k ++ s) (repeat 0 k ++ idx) = flat s idx.
Proof. induction k as [|k IH]; cbn [repeat app]; [reflexivity|]. rewrite flat_cons, IH. lia. Qed.
Lemma in_range_repeat1 k s idx : in_range s idx -> in_range (repeat 1 k ++ s) (repeat 0 k ++ idx).
Proof. intros H. induction k; cbn; [assumption|]. constructor; [lia|assumption]. Qed.
Lemma unflat_repeat1 k s idx : in_range s idx -> unflat (repeat 1 k ++ s) (flat s idx) = repeat 0 k ++ idx.
Proof. intros H. rewrite <- (flat_repeat1 k). apply unflat_flat. now apply in_range_repeat1. Qed.
Lemma drop_added k s : drop_axes (zrange (Z.of_nat k)) 0 (repeat 1 k ++ s) = s.
Proof.
  rewrite drop_axes_skip by (intros m Hm; rewrite repeat_length in Hm; apply zmem_In, in_zrange; lia). rewrite repeat_length.
  assert (H : forall l p, Z.of_nat k <= p -> drop_axes (zrange (Z.of_nat k)) p l = l).
  { induction l as [|x l IH]; intros p Hp; cbn; [reflexivity|]. rewrite IH by lia.
    replace (zmem p (zrange (Z.of_nat k))) with false; [reflexivity|]. symmetry. apply zmem_false. rewrite in_zrange. lia. }
  apply H. lia.
Qed.
Lemma zprod_repeat1 k s : zprod (repeat 1 k ++ s) = zprod s.
Proof. induction k as [|k IH]; cbn [repeat app]; [reflexivity|]. rewrite zprod_cons, IH. lia. Qed.

(* ---- transpose *)
Lemma transpose_shape_back axes s : Permutation axes (zrange (Z.of_nat (length s))) ->
  map (fun k => nth (Z.to_nat k) (map (fun a => nth (Z.to_nat a) s 0) axes) 0) (argsort axes) = s.
Proof.
  intros Hp. pose proof (perm_zrange_len _ _ Hp) as HL. apply list_eq_nth; [now rewrite map_length, argsort_length|].
  rewrite map_length, argsort_length. intros j Hj.
  pose proof (argsort_inverse axes (Z.of_nat (length s)) (Z.of_nat j) Hp ltac:(lia)) as HI.
  destruct HI as (i & H1 & H2). pose proof (znth_Some_range _ _ _ H2) as Hb.
  rewrite znth_of_nat in H1.
  rewrite (nth_error_nth _ _ 0 (map_nth_error _ _ _ H1)).
  unfold znth in H2. destruct (i <? 0) eqn:E; [lia|].
  rewrite (nth_error_nth _ _ 0 (map_nth_error _ _ _ H2)). f_equal. lia.
Qed.
Lemma argsort_mutual axes n : Permutation axes (zrange (Z.of_nat n)) ->
  forall k j, nth_error (argsort axes) k = Some (Z.of_nat j) <-> nth_error axes j = Some (Z.of_nat k).
Proof.
  intros Hp k j. rewrite <- !znth_of_nat. split; intros H.
  - assert (Hk : 0 <= Z.of_nat k < Z.of_nat n).
    { apply znth_Some_range in H. rewrite argsort_length in H. rewrite (perm_zrange_len _ _ Hp) in H. lia. }
    destruct (argsort_inverse _ _ _ Hp Hk) as (j' & H1 & H2). congruence.
  - eapply argsort_inverse'; eauto.
Qed.

(* ---- slice *)
(* the position in the slice of input position j, if it is selected *)
Definition slice_count (a b st : Z) : Z := if a <? b then (b - a - 1) / st + 1 else 0.
Fixpoint slice_inv (subs : list nsub) (idx : list Z) : option (list Z) :=
  match subs, idx with
  | NSInt s :: r, j :: js => if j =? s then slice_inv r js else None
  | NSSlice a b st :: r, j :: js =>
      if (a <=? j) && ((j - a) mod st =? 0) && ((j - a) / st <? slice_count a b st)
      then option_map (cons ((j - a) / st)) (slice_inv r js) else None
  | _, _ => Some []
  end.
Lemma slice_inv_some subs : forall s idx q, Forall2 sub_ok subs s -> in_range s idx ->
  (slice_inv subs idx = Some q <-> in_range (slice_shape subs) q /\ slice_idx subs q = idx).
Proof.
  induction subs as [|x subs IH]; intros s idx q HS Hi.
  - inversion HS; subst. inversion Hi; subst. cbn. split; [injection 1 as <-; split; [constructor|reflexivity]|].
    intros (H & _). inversion H; reflexivity.
  - inversion HS as [|? d ? s' Hx HS']; subst. inversion Hi as [|j ? js ? Hj Hjs]; subst.
    destruct x as [i|a b st]; cbn [slice_inv slice_shape slice_idx sub_ok] in *.
    + destruct (j =? i) eqn:E.
      * rewrite (IH s' js q HS' Hjs). split; intros (H1 & H2); (split; [assumption|]); [subst; f_equal; lia|congruence].
      * split; [discriminate|]. intros (_ & H). injection H as H _. lia.
    + fold (slice_count a b st). destruct Hx as (Ha & Hb & Hst).
      destruct ((a <=? j) && ((j - a) mod st =? 0) && ((j - a) / st <? slice_count a b st)) eqn:E.
      * assert (Hd : j - a = st * ((j - a) / st)) by (pose proof (Z.div_mod (j - a) st ltac:(lia)); lia).
        assert (H0 : 0 <= (j - a) / st) by (apply Z.div_pos; lia).
        destruct (slice_inv subs js) as [q'|] eqn:Eq; cbn [option_map].
        -- split.
           ++ injection 1 as <-. apply (IH s' js q' HS' Hjs) in Eq as (H1 & H2). split; [constructor; [lia|assumption]|]. f_equal; [lia|assumption].
           ++ intros (H1 & H2). destruct q as [|c q]; [inversion H1|]. injection H2 as H2 H3. inversion H1; subst.
              assert (c = (a + c * st - a) / st) by (replace (a + c * st - a) with (c * st) by lia; now rewrite Z.div_mul by lia).
              do 2 f_equal; [congruence|]. assert (Some q' = Some q); [|congruence]. rewrite <- Eq. apply (IH s' _ q HS' Hjs). auto.
        -- split; [discriminate|]. intros (H1 & H2). destruct q as [|c q]; [inversion H1|]. injection H2 as H2 H3. inversion H1; subst.
           assert (None = Some q); [|discriminate]. rewrite <- Eq. apply (IH s' _ q HS' Hjs). auto.
      * split; [discriminate|]. intros (H1 & H2). destruct q as [|c q]; [inversion H1|]. injection H2 as H2 H3. inversion H1; subst.
        replace (a + c * st - a) with (c * st) in E by lia. rewrite Z.mod_mul, Z.div_mul in E by lia. lia.
Qed.
