From Verif Require Import Base BaseFacts Util.
From Coq Require Import ZifyBool ZifyNat.

Lemma strides_nil : strides_from_shape [] = [].
Proof. reflexivity. Qed.

Lemma strides_cons d s : strides_from_shape (d :: s) = zprod s :: strides_from_shape s.
Proof.
  unfold strides_from_shape. cbn [length seq map skipn]. f_equal.
  rewrite <- seq_shift, map_map. apply map_ext. intros i. reflexivity.
Qed.

Lemma strides_length s : length (strides_from_shape s) = length s.
Proof. unfold strides_from_shape. now rewrite map_length, seq_length. Qed.

Lemma flat_nil idx : flat [] idx = 0.
Proof. apply dot_nil_r. Qed.

Lemma flat_cons d s i r : flat (d :: s) (i :: r) = i * zprod s + flat s r.
Proof. unfold flat. now rewrite strides_cons. Qed.

Lemma in_range_zprod_pos s idx : in_range s idx -> 0 < zprod s.
Proof. unfold in_range. induction 1 as [|i d idx s H _ IH]; [cbn; lia|]. rewrite zprod_cons. nia. Qed.

Lemma flat_bounds s idx : in_range s idx -> 0 <= flat s idx < zprod s.
Proof.
  unfold in_range. induction 1 as [|i d idx s H Hr IH]; [cbn; lia|].
  rewrite flat_cons, zprod_cons. pose proof (in_range_zprod_pos s idx Hr). nia.
Qed.

Lemma unflat_flat s idx : in_range s idx -> unflat s (flat s idx) = idx.
Proof.
  unfold in_range. induction 1 as [|i d idx s H Hr IH]; [reflexivity|].
  rewrite flat_cons. cbn [unflat]. pose proof (in_range_zprod_pos s idx Hr) as HP.
  pose proof (flat_bounds s idx Hr).
  rewrite Z.div_add_l by lia. rewrite Z.div_small, Z.add_0_r by lia.
  rewrite Z.add_comm, Z.mod_add by lia. rewrite Z.mod_small by lia. now rewrite IH.
Qed.

Lemma unflat_in_range s k : Forall (fun d => 0 <= d) s -> 0 <= k < zprod s -> in_range s (unflat s k).
Proof.
  intros Hs; revert k. induction Hs as [|d s Hd Hs IH]; intros k Hk; [constructor|].
  rewrite zprod_cons in Hk. pose proof (zprod_nonneg s Hs) as HP.
  assert (0 < zprod s) by (destruct (Z.eq_dec (zprod s) 0) as [E|]; [rewrite E in Hk; lia|lia]).
  cbn [unflat]. constructor.
  - split; [apply Z.div_pos; lia|]. apply Z.div_lt_upper_bound; lia.
  - apply IH. apply Z.mod_pos_bound. lia.
Qed.

Lemma flat_unflat s k : Forall (fun d => 0 <= d) s -> 0 <= k < zprod s -> flat s (unflat s k) = k.
Proof.
  intros Hs; revert k. induction Hs as [|d s Hd Hs IH]; intros k Hk; [rewrite flat_nil; cbn in Hk; lia|].
  rewrite zprod_cons in Hk. pose proof (zprod_nonneg s Hs) as HP.
  assert (0 < zprod s) by (destruct (Z.eq_dec (zprod s) 0) as [E|]; [rewrite E in Hk; lia|lia]).
  cbn [unflat]. rewrite flat_cons, IH by (apply Z.mod_pos_bound; lia).
  rewrite (Z.div_mod k (zprod s)) at 3 by lia. ring.
Qed.

Lemma flat_inj s i j : in_range s i -> in_range s j -> flat s i = flat s j -> i = j.
Proof. intros Hi Hj E. rewrite <- (unflat_flat s i Hi), <- (unflat_flat s j Hj). now rewrite E. Qed.

Lemma zrange_shift_app a b : 0 <= a -> 0 <= b -> zrange (a + b) = zrange a ++ map (Z.add a) (zrange b).
Proof.
  intros Ha Hb. unfold zrange. rewrite Z2Nat.inj_add, seq_app, map_app by lia. f_equal.
  cbn. rewrite map_map.
  rewrite <- (Nat.add_0_r (Z.to_nat a)) at 1.
  generalize (Z.to_nat b). intros n. generalize 0%nat.
  induction n as [|n IH]; intros s; cbn; [reflexivity|].
  f_equal; [lia|]. rewrite <- IH. f_equal. f_equal. lia.
Qed.

Lemma map_flat_all_idx s : Forall (fun d => 0 <= d) s -> map (flat s) (all_idx s) = zrange (zprod s).
Proof.
  induction 1 as [|d s Hd Hs IH]; [reflexivity|].
  rewrite zprod_cons. cbn [all_idx].
  assert (HG : forall n, 0 <= n -> map (flat (d :: s)) (flat_map (fun i => map (cons i) (all_idx s)) (zrange n)) = zrange (n * zprod s)).
  { apply natlike_ind.
    - reflexivity.
    - intros n Hn IHn. unfold Z.succ. rewrite zrange_S by lia.
      rewrite flat_map_app, map_app, IHn. cbn [flat_map]. rewrite app_nil_r, map_map.
      erewrite map_ext by (intros r; apply flat_cons).
      rewrite <- (map_map (flat s) (Z.add (n * zprod s))), IH.
      pose proof (zprod_nonneg s Hs).
      rewrite <- zrange_shift_app by nia. f_equal. ring. }
  apply HG. lia.
Qed.

Lemma nth_error_all_idx s idx : Forall (fun d => 0 <= d) s -> in_range s idx ->
  nth_error (all_idx s) (Z.to_nat (flat s idx)) = Some idx.
Proof.
  intros Hs Hi. pose proof (flat_bounds s idx Hi) as Hb.
  destruct (nth_error (all_idx s) (Z.to_nat (flat s idx))) as [j|] eqn:E.
  - assert (Hj : in_range s j) by (apply in_all_idx; eapply nth_error_In; eauto).
    assert (Some (flat s j) = Some (flat s idx)) as HE.
    { rewrite <- (znth_zrange (zprod s) (flat s idx)) by lia.
      rewrite <- (map_flat_all_idx s Hs), znth_map. unfold znth.
      destruct (_ <? 0) eqn:E0; [lia|]. now rewrite E. }
    f_equal. apply (flat_inj s); auto. congruence.
  - apply nth_error_None in E. rewrite all_idx_length in E by assumption. lia.
Qed.

Lemma all_idx_unflat s : Forall (fun d => 0 <= d) s -> all_idx s = map (unflat s) (zrange (zprod s)).
Proof.
  intros Hs. rewrite <- (map_flat_all_idx s Hs), map_map.
  erewrite map_ext_in; [symmetry; apply map_id|].
  intros idx H. apply in_all_idx in H. now apply unflat_flat.
Qed.

(* argsort *)
Lemma kinsert_perm key x l : Permutation (kinsert key x l) (x :: l).
Proof.
  induction l as [|y l IH]; cbn; [reflexivity|].
  destruct (key x <=? key y); [reflexivity|]. rewrite IH. apply perm_swap.
Qed.

Lemma argsort_perm l : Permutation (argsort l) (zrange (Z.of_nat (length l))).
Proof.
  unfold argsort. generalize (zrange (Z.of_nat (length l))). intros r.
  induction r as [|x r IH]; cbn; [reflexivity|]. rewrite kinsert_perm. now constructor.
Qed.

Lemma kinsert_sorted key x l : Sorted Z.le (map key l) -> Sorted Z.le (map key (kinsert key x l)).
Proof.
  induction l as [|y l IH]; cbn; intros H; [repeat constructor|].
  destruct (key x <=? key y) eqn:E; cbn.
  - constructor; [assumption|]. constructor. lia.
  - inversion H; subst. constructor; [now apply IH|].
    destruct l as [|z l]; cbn.
    + constructor. lia.
    + inversion H3; subst. destruct (key x <=? key z); constructor; lia.
Qed.

Lemma argsort_sorted l : Sorted Z.le (map (argkey l) (argsort l)).
Proof.
  unfold argsort. generalize (zrange (Z.of_nat (length l))). intros r.
  induction r as [|x r IH]; cbn; [constructor|]. now apply kinsert_sorted.
Qed.

Lemma map_argkey_zrange l : map (argkey l) (zrange (Z.of_nat (length l))) = l.
Proof.
  apply nth_error_ext'. intros k. rewrite nth_error_map.
  destruct (Nat.ltb_spec k (length l)).
  - rewrite nth_error_zrange by lia. cbn. unfold argkey. rewrite znth_of_nat.
    destruct (nth_error l k) eqn:E; [reflexivity|]. apply nth_error_None in E. lia.
  - rewrite (proj2 (nth_error_None (zrange _) k)) by (rewrite zrange_length; lia).
    cbn. symmetry. apply nth_error_None. lia.
Qed.

Lemma argsort_length l : length (argsort l) = length l.
Proof. rewrite (Permutation_length (argsort_perm l)), zrange_length. lia. Qed.

(* on a permutation of 0..n-1, argsort is the inverse permutation *)
Lemma argsort_keys l n : Permutation l (zrange n) -> map (argkey l) (argsort l) = zrange n.
Proof.
  intros H. apply Sorted_le_perm_eq; [apply argsort_sorted|apply Sorted_zrange|].
  rewrite <- H. rewrite <- (map_argkey_zrange l) at 3. apply Permutation_map, argsort_perm.
Qed.

Lemma argsort_inverse l n k : Permutation l (zrange n) -> 0 <= k < n ->
  exists j, znth (argsort l) k = Some j /\ znth l j = Some k.
Proof.
  intros HP Hk. pose proof (argsort_keys l n HP) as HM.
  assert (HL : Z.of_nat (length l) = n).
  { rewrite (Permutation_length HP), zrange_length. lia. }
  destruct (znth_in_range (argsort l) k) as [j Hj]; [rewrite argsort_length; lia|].
  exists j. split; [assumption|].
  assert (E : option_map (argkey l) (znth (argsort l) k) = Some k).
  { rewrite <- znth_map, HM. now apply znth_zrange. }
  rewrite Hj in E. cbn in E. injection E as E.
  assert (Hjr : 0 <= j < Z.of_nat (length l)).
  { apply in_zrange. eapply Permutation_in; [apply argsort_perm|]. eapply znth_In; eauto. }
  destruct (znth_in_range l j Hjr) as [x Hx]. unfold argkey in E. rewrite Hx in E. congruence.
Qed.

Lemma perm_zrange_length l n : 0 <= n -> Permutation l (zrange n) -> Z.of_nat (length l) = n.
Proof. intros Hn H. rewrite (Permutation_length H), zrange_length. lia. Qed.

Lemma argsort_inverse' l n j k : Permutation l (zrange n) -> znth l j = Some k -> znth (argsort l) k = Some j.
Proof.
  intros HP Hj.
  assert (Hk : 0 <= k < n) by (apply in_zrange; eapply Permutation_in; [exact HP|]; eapply znth_In; eauto).
  destruct (argsort_inverse l n k HP Hk) as (j' & H1 & H2).
  rewrite H1. f_equal.
  assert (HN : NoDup l) by (eapply Permutation_NoDup; [symmetry; exact HP|apply NoDup_zrange]).
  pose proof (znth_Some_range _ _ _ H2). pose proof (znth_Some_range _ _ _ Hj).
  unfold znth in *. destruct (j' <? 0) eqn:?; [lia|]. destruct (j <? 0) eqn:?; [lia|].
  assert (Z.to_nat j' = Z.to_nat j); [|lia].
  rewrite NoDup_nth_error in HN. apply HN; [lia|]. congruence.
Qed.

Lemma argsort_is_perm l n : 0 <= n -> Permutation l (zrange n) -> Permutation (argsort l) (zrange n).
Proof. intros Hn H. rewrite argsort_perm. now rewrite (perm_zrange_length l n Hn H). Qed.
