(* Index maps of the specification stay in range; shapes computed by the code are the
   specification's shapes. *)
From Verif Require Import Base BaseFacts Util UtilFacts Lang Spec Graph Api Denote.
From Coq Require Import ZifyBool ZifyNat.
Ltac Zify.zify_post_hook ::= Z.div_mod_to_equations.

(* ---------- transpose ---------- *)
Lemma pos_in_aux a l k : In a l ->
  let p := (fix go (l : list Z) (k : Z) := match l with [] => -1 | x :: r => if x =? a then k else go r (k + 1) end) l k in
  k <= p < k + Z.of_nat (length l) /\ nth_error l (Z.to_nat (p - k)) = Some a.
Proof.
  revert k; induction l as [|x l IH]; intros k H; [destruct H|].
  cbn -[Z.of_nat]. destruct (x =? a) eqn:E.
  - split; [lia|]. replace (Z.to_nat (k - k)) with 0%nat by lia. cbn. f_equal. lia.
  - destruct H as [H|H]; [lia|]. specialize (IH (k + 1) H). cbn zeta in IH.
    destruct IH as [IH1 IH2]. split; [lia|].
    match goal with |- nth_error _ (Z.to_nat (?p - k)) = _ =>
      replace (Z.to_nat (p - k)) with (S (Z.to_nat (p - (k + 1)))) by lia end.
    exact IH2.
Qed.

Lemma pos_in_spec axes a : In a axes ->
  0 <= pos_in axes a < Z.of_nat (length axes) /\ nth_error axes (Z.to_nat (pos_in axes a)) = Some a.
Proof.
  intros H. pose proof (pos_in_aux a axes 0 H) as P. cbn zeta in P. fold (pos_in axes a) in P.
  rewrite Z.sub_0_r in P. destruct P. split; [lia|assumption].
Qed.

Lemma pos_in_unique axes a k : NoDup axes -> nth_error axes k = Some a -> pos_in axes a = Z.of_nat k.
Proof.
  intros HN Hk. destruct (pos_in_spec axes a) as [H1 H2]; [eapply nth_error_In; eauto|].
  rewrite NoDup_nth_error in HN.
  assert (Z.to_nat (pos_in axes a) = k); [|lia].
  apply HN; [lia|congruence].
Qed.

Lemma unpermute_length axes idx : length (unpermute axes idx) = length axes.
Proof. unfold unpermute. rewrite map_length, zrange_length. lia. Qed.

Lemma nth_error_unpermute axes idx (a : nat) : (a < length axes)%nat ->
  nth_error (unpermute axes idx) a = Some (nth (Z.to_nat (pos_in axes (Z.of_nat a))) idx 0).
Proof. intros H. unfold unpermute. rewrite nth_error_map, nth_error_zrange by lia. reflexivity. Qed.

(* coordinate axes[k] of the source index is coordinate k of the result index *)
Lemma unpermute_coord axes idx k a : Permutation axes (zrange (Z.of_nat (length axes))) ->
  length idx = length axes -> nth_error axes k = Some a ->
  nth_error (unpermute axes idx) (Z.to_nat a) = nth_error idx k.
Proof.
  intros HP HL Hk.
  assert (Ha : 0 <= a < Z.of_nat (length axes)).
  { apply in_zrange. eapply Permutation_in; [exact HP|]. eapply nth_error_In; eauto. }
  rewrite nth_error_unpermute by lia. rewrite Z2Nat.id by lia.
  rewrite (pos_in_unique axes a k); auto.
  - rewrite Nat2Z.id. symmetry. apply nth_error_nth'.
    rewrite HL. apply nth_error_Some. congruence.
  - eapply Permutation_NoDup; [symmetry; exact HP|apply NoDup_zrange].
Qed.

Lemma perm_zrange_len (axes : list Z) n : Permutation axes (zrange (Z.of_nat n)) -> length axes = n.
Proof. intros H. rewrite (Permutation_length H), zrange_length. lia. Qed.

Lemma unpermute_in_range axes shape idx : Permutation axes (zrange (Z.of_nat (length shape))) ->
  in_range (map (fun a => nth (Z.to_nat a) shape 0) axes) idx -> in_range shape (unpermute axes idx).
Proof.
  intros HP Hi. pose proof (perm_zrange_len _ _ HP) as HL.
  pose proof (in_range_length _ _ Hi) as HLi. rewrite map_length in HLi.
  apply Forall2_of_nth; [now rewrite unpermute_length|].
  intros j x d Hx Hd.
  assert (Hj : (j < length axes)%nat) by (rewrite HL; apply nth_error_Some; congruence).
  rewrite nth_error_unpermute in Hx by assumption. injection Hx as <-.
  destruct (pos_in_spec axes (Z.of_nat j)) as [P1 P2].
  { eapply Permutation_in; [symmetry; exact HP|]. apply in_zrange. lia. }
  set (p := Z.to_nat (pos_in axes (Z.of_nat j))) in *.
  destruct (nth_error idx p) as [v|] eqn:Ev.
  - rewrite (nth_error_nth _ _ 0 Ev).
    destruct (Forall2_nth_error _ _ _ _ _ Hi Ev) as (d' & Hd' & Hr).
    rewrite nth_error_map, P2 in Hd'. cbn in Hd'. injection Hd' as <-.
    rewrite Nat2Z.id, (nth_error_nth _ _ 0 Hd) in Hr. exact Hr.
  - apply nth_error_None in Ev. lia.
Qed.

(* ---------- broadcast ---------- *)
Lemma in_range_skipn k s idx : in_range s idx -> in_range (skipn k s) (skipn k idx).
Proof.
  unfold in_range. intros HH; revert k; induction HH as [|i d idx s H Hr IH]; intros k.
  - destruct k; cbn; constructor.
  - destruct k; cbn; [constructor; auto|]. apply IH.
Qed.

Lemma squash_in_range_aux src tgt idx : Forall2 (fun d e => d = e \/ d = 1) src tgt -> in_range tgt idx -> in_range src (squash src idx).
Proof.
  unfold in_range. intros H; revert idx; induction H as [|d e src tgt H _ IH]; intros idx Hi; inversion Hi; subst; cbn; constructor.
  - destruct (d =? 1) eqn:E; [lia|]. destruct H; [subst; assumption|lia].
  - now apply IH.
Qed.

Lemma squash_in_range src tgt idx : bcast_ok src tgt -> in_range tgt idx ->
  in_range src (squash src (skipn (length tgt - length src) idx)).
Proof.
  intros [_ H] Hi. eapply squash_in_range_aux; [exact H|]. now apply in_range_skipn.
Qed.

(* ---------- slice ---------- *)
Lemma slice_len_eq a b st : 0 < st -> Z.max 0 ((b - a + st - 1) / st) = (if a <? b then (b - a - 1) / st + 1 else 0).
Proof.
  intros Hs. destruct (a <? b) eqn:E.
  - replace (b - a + st - 1) with ((b - a - 1) + 1 * st) by ring.
    rewrite Z.div_add by lia.
    pose proof (Z.div_pos (b - a - 1) st). lia.
  - assert ((b - a + st - 1) / st <= 0).
    { apply Z.lt_succ_r. apply Z.div_lt_upper_bound; lia. }
    lia.
Qed.

Lemma slice_pos_bound a b st i : 0 < st -> 0 <= i < (if a <? b then (b - a - 1) / st + 1 else 0) -> a <= a + i * st < b.
Proof.
  intros Hs Hi. destruct (a <? b) eqn:E; [|lia].
  assert (i <= (b - a - 1) / st) by lia.
  assert (st * ((b - a - 1) / st) <= b - a - 1) by (apply Z.mul_div_le; lia).
  nia.
Qed.

Lemma slice_idx_in_range subs shape idx : Forall2 sub_ok subs shape ->
  in_range (slice_shape subs) idx -> in_range shape (slice_idx subs idx).
Proof.
  unfold in_range. intros H; revert idx; induction H as [|s d subs shape Hs _ IH]; intros idx Hi.
  - inversion Hi; subst; constructor.
  - destruct s as [i|a b st]; cbn in *.
    + constructor; auto.
    + inversion Hi as [|i0 d0 idx' sh0 Hb Hr]; subst. constructor; [|now apply IH].
      destruct Hs as (Hs1 & Hs2 & Hs3). pose proof (slice_pos_bound a b st i0 Hs3 Hb). lia.
Qed.

Lemma slice_shape_nonneg subs shape : Forall2 sub_ok subs shape -> nonneg (slice_shape subs).
Proof.
  unfold nonneg. induction 1 as [|s d subs shape Hs _ IH]; cbn; [constructor|].
  destruct s as [i|a b st]; auto. constructor; auto.
  cbn in Hs. destruct (a <? b) eqn:E; [|lia].
  pose proof (Z.div_pos (b - a - 1) st). lia.
Qed.

(* what the loop of _slice_forward computes *)
Lemma slice_loop_spec subs shape strides : Forall2 sub_ok subs shape -> length strides = length shape ->
  forall o sh ss, slice_loop subs strides = (o, sh, ss) ->
  sh = slice_shape subs /\ length ss = length sh /\
  forall idx, in_range sh idx -> dot (slice_idx subs idx) strides = o + dot idx ss.
Proof.
  intros H; revert strides. induction H as [|s d subs shape Hs _ IH]; intros strides HL o sh ss HE.
  - destruct strides; [|discriminate]. cbn in HE. injection HE as <- <- <-.
    repeat split; auto. intros idx Hi. inversion Hi; subst; reflexivity.
  - destruct strides as [|st0 strides]; [discriminate|]. cbn in HL.
    cbn [slice_loop] in HE.
    destruct s as [i|a b st]; destruct (slice_loop subs strides) as [[o' sh'] ss'] eqn:E;
      destruct (IH strides ltac:(lia) _ _ _ E) as (I1 & I2 & I3); injection HE as <- <- <-.
    + cbn. repeat split; auto. intros idx Hi. rewrite (I3 idx Hi). lia.
    + cbn in Hs. cbn [slice_shape length]. rewrite slice_len_eq by lia.
      repeat split; [now rewrite I1|now rewrite I2|].
      intros idx Hi. inversion Hi as [|i0 d0 idx' sh0 Hb Hr]; subst. cbn [slice_idx dot].
      rewrite (I3 idx' Hr). lia.
Qed.

(* ---------- reduce ---------- *)
Lemma reduce_shape_keep axis k shape :
  map (fun '(i, s) => if zmem i axis then 1 else s) (enum k shape) = ones_axes axis k shape.
Proof. revert k; induction shape as [|d s IH]; intros k; cbn; [reflexivity|]. now rewrite IH. Qed.
Lemma reduce_shape_drop axis k shape :
  map snd (filter (fun '(i, _) => negb (zmem i axis)) (enum k shape)) = drop_axes axis k shape.
Proof.
  revert k; induction shape as [|d s IH]; intros k; cbn; [reflexivity|].
  destruct (zmem k axis); cbn; now rewrite IH.
Qed.
Lemma reduce_shape_spec axis kd shape :
  reduce_shape axis kd shape = if kd then ones_axes axis 0 shape else drop_axes axis 0 shape.
Proof. unfold reduce_shape. destruct kd; [apply reduce_shape_keep|apply reduce_shape_drop]. Qed.

Lemma ones_axes_nonneg axis k s : nonneg s -> nonneg (ones_axes axis k s).
Proof. unfold nonneg. intros H; revert k; induction H; intros k; cbn; constructor; auto. destruct (zmem k axis); lia. Qed.
Lemma drop_axes_nonneg axis k s : nonneg s -> nonneg (drop_axes axis k s).
Proof. unfold nonneg. intros H; revert k; induction H; intros k; cbn; [constructor|]. destruct (zmem k axis); auto. Qed.

Lemma drop_axes_in_range axis k s idx : in_range s idx -> in_range (drop_axes axis k s) (drop_axes axis k idx).
Proof.
  unfold in_range. intros H; revert k; induction H; intros k; cbn; [constructor|].
  destruct (zmem k axis); auto.
Qed.

Lemma drop_ones_axes axis k s : drop_axes axis k (ones_axes axis k s) = drop_axes axis k s.
Proof. revert k; induction s as [|d s IH]; intros k; cbn; [reflexivity|]. destruct (zmem k axis); now rewrite IH. Qed.

Lemma sum_positions_in_range axis shape out p : In p (sum_positions axis shape out) -> in_range shape p.
Proof. unfold sum_positions. intros H. apply filter_In in H as [H _]. now apply in_all_idx. Qed.

(* ---------- one-axis updates ---------- *)
Lemma nth_upd_same {A} (l : list A) k v d : (k < length l)%nat -> nth k (upd l k v) d = v.
Proof. intros H. apply nth_error_nth. now apply nth_error_upd_same. Qed.
Lemma nth_upd_other {A} (l : list A) k v j d : j <> k -> nth j (upd l k v) d = nth j l d.
Proof.
  intros H. destruct (nth_error l j) eqn:E.
  - rewrite (nth_error_nth _ _ _ E). apply nth_error_nth. now rewrite nth_error_upd_other.
  - pose proof E as E'. apply nth_error_None in E. rewrite (nth_overflow l) by assumption.
    apply nth_overflow. now rewrite upd_length.
Qed.
Lemma upd_upd_same {A} (l : list A) k a b : upd (upd l k a) k b = upd l k b.
Proof. revert k; induction l as [|x l IH]; intros [|k]; cbn; auto. now rewrite IH. Qed.
Lemma upd_nth_self {A} (l : list A) k d : upd l k (nth k l d) = l.
Proof. revert k; induction l as [|x l IH]; intros [|k]; cbn; auto. now rewrite IH. Qed.

Lemma nonneg_upd s k v : nonneg s -> 0 <= v -> nonneg (upd s k v).
Proof. unfold nonneg. intros H Hv; revert k; induction H; intros [|k]; cbn; constructor; auto. Qed.

Lemma in_range_upd s idx k i d : in_range s idx -> 0 <= i < d -> in_range (upd s k d) (upd idx k i).
Proof. unfold in_range. intros H Hi; revert k; induction H; intros [|k]; cbn; constructor; auto. Qed.

Lemma in_range_nth s idx k : in_range s idx -> (k < length s)%nat -> 0 <= nth k idx 0 < nth k s 0.
Proof. unfold in_range. intros H; revert k; induction H; intros [|k]; cbn; intros Hk; try lia; auto. apply IHForall2. lia. Qed.

Lemma in_range_upd_shape s idx k d i : in_range (upd s k d) idx -> (k < length s)%nat -> 0 <= i < nth k s 0 ->
  in_range s (upd idx k i).
Proof.
  intros H Hk Hi. rewrite <- (upd_nth_self s k 0), <- (upd_upd_same s k d (nth k s 0)).
  apply in_range_upd; assumption.
Qed.

Lemma pyupdate_nonneg l i f : 0 <= i < Z.of_nat (length l) -> pyupdate l i f = Some (upd l (Z.to_nat i) (f (nth (Z.to_nat i) l 0))).
Proof.
  intros H. unfold pyupdate. destruct (i <? 0) eqn:E; [lia|].
  destruct (znth_in_range l i H) as [x Hx]. rewrite Hx. do 2 f_equal.
  unfold znth in Hx. rewrite E in Hx. now rewrite (nth_error_nth _ _ 0 Hx).
Qed.

Lemma fold_left_mul s k : fold_left Z.mul s k = k * zprod s.
Proof.
  revert k; induction s as [|d s IH]; intros k; cbn [fold_left].
  - change (zprod []) with 1. lia.
  - rewrite IH, zprod_cons. ring.
Qed.
Lemma fold_left_mul1 s : fold_left Z.mul s 1 = zprod s.
Proof. rewrite fold_left_mul. lia. Qed.
