(* Linear operations: which input elements an output element adds up, and that the backward rule is
   the transpose of that map. *)
From Coq Require Import Reals Lra.
From Verif Require Import Base BaseFacts Util UtilFacts Lang Spec SpecFacts Graph Api Denote DenoteFacts Reach ApiFacts
  FrontFacts2 FrontFacts3 Backward BackSpec BackIdx BackRules RealAlg GradSpec.
From Coq Require Import ZifyBool.

Definition is_lin (op : nop) : bool :=
  match op with OConst _ | OUn _ | OBin _ => false | _ => true end.
Definition srcs (op : nop) (s idx : list Z) : list (list Z) :=
  match op with
  | OSum ax kd => sum_positions ax s (if kd then drop_axes ax 0 idx else idx)
  | OReshape t => [unflat s (flat t idx)]
  | OBroadcast t => [squash s (skipn (length t - length s) idx)]
  | OTranspose axes => [unpermute axes idx]
  | OSlice subs => [slice_idx subs idx]
  | OContiguous => [idx]
  | OPad d b _ => let i := nth (Z.to_nat d) idx 0 in
      if (b <=? i) && (i <? b + nth (Z.to_nat d) s 0) then [upd idx (Z.to_nat d) (i - b)] else []
  | ODilate d st => let i := nth (Z.to_nat d) idx 0 in
      if i mod st =? 0 then [upd idx (Z.to_nat d) (i / st)] else []
  | _ => []
  end.
Definition out_shape (op : nop) (s : list Z) : list Z :=
  match op with
  | OSum ax kd => if kd then ones_axes ax 0 s else drop_axes ax 0 s
  | OReshape t | OBroadcast t => t
  | OTranspose axes => map (fun a => nth (Z.to_nat a) s 0) axes
  | OSlice subs => slice_shape subs
  | OPad d b a => upd s (Z.to_nat d) (b + nth (Z.to_nat d) s 0 + a)
  | ODilate d st => upd s (Z.to_nat d) ((nth (Z.to_nat d) s 0 - 1) * st + 1)
  | _ => s
  end.
Definition lin_ok (op : nop) (s : list Z) : Prop :=
  nonneg s /\
  match op with
  | OSum axis _ => Forall (fun a => 0 <= a < Z.of_nat (length s)) axis
  | OReshape t => nonneg t /\ zprod t = zprod s
  | OBroadcast t => nonneg t /\ bcast_ok s t
  | OTranspose axes => Permutation axes (zrange (Z.of_nat (length s)))
  | OSlice subs => Forall2 sub_ok subs s
  | OContiguous => True
  | OPad d b a => 0 <= d < Z.of_nat (length s) /\ 0 <= b /\ 0 <= a
  | ODilate d st => 0 <= d < Z.of_nat (length s) /\ 1 <= st /\ 1 <= nth (Z.to_nat d) s 0
  | _ => False
  end.

Lemma arg_lin g i op ins x : is_lin op = true -> nonneg (n_shape x) -> arg_ok g i op ins x -> lin_ok op (n_shape x) /\ length ins = 1%nat.
Proof. destruct op; try discriminate; cbn [arg_ok]; unfold lin_ok; cbn zeta; intros; tauto. Qed.

Lemma srcs_in op s idx j : lin_ok op s -> in_range (out_shape op s) idx -> In j (srcs op s idx) -> in_range s j.
Proof.
  intros (Hn & Hok) Hi Hj. destruct op as [vals|u|b|ax kd|t|t|axes|subs| |d bf af|d st]; cbn [srcs out_shape] in *; try contradiction.
  - eapply sum_positions_in_range; eauto.
  - destruct Hj as [<-|[]]. destruct Hok as (Hnt & Hp). apply unflat_in_range; [assumption|]. rewrite <- Hp. now apply flat_bounds.
  - destruct Hj as [<-|[]]. now apply squash_in_range.
  - destruct Hj as [<-|[]]. now apply unpermute_in_range.
  - destruct Hj as [<-|[]]. now apply slice_idx_in_range.
  - destruct Hj as [<-|[]]. assumption.
  - destruct (_ && _) eqn:E in Hj; [|destruct Hj]. destruct Hj as [<-|[]]. eapply in_range_upd_shape; [exact Hi|lia|lia].
  - destruct (_ =? 0) eqn:E in Hj; [|destruct Hj]. destruct Hj as [<-|[]].
    assert (HB : 0 <= nth (Z.to_nat d) idx 0 < (nth (Z.to_nat d) s 0 - 1) * st + 1).
    { pose proof (in_range_nth _ _ (Z.to_nat d) Hi) as HB. rewrite upd_length in HB. rewrite nth_upd_same in HB by lia. apply HB. lia. }
    eapply in_range_upd_shape; [exact Hi|lia|]. split; [apply Z.div_pos; lia|]. apply Z.div_lt_upper_bound; [lia|]. nia.
Qed.
Lemma srcs_nodup op s idx : NoDup (srcs op s idx).
Proof.
  destruct op; cbn [srcs]; try (repeat constructor; intros []; fail).
  - apply NoDup_filter, NoDup_all_idx.
  - cbn zeta. destruct (_ && _); repeat constructor; intros [].
  - cbn zeta. destruct (_ =? 0); repeat constructor; intros [].
Qed.

(* element of the result = sum of its sources *)
Lemma fold_one (x : res R) : fold_res (fun p q => of_opt (r_bin BAdd p q)) 0%R [x] = x.
Proof. destruct x; cbn; auto. now rewrite Rplus_0_l. Qed.
Lemma lin_at ts nd idx : is_lin (n_op nd) = true ->
  t_at (den_node RA ts nd) idx = fold_res (fun p q => of_opt (r_bin BAdd p q)) 0%R
     (map (t_at (tin RA ts nd 0)) (srcs (n_op nd) (t_shape (tin RA ts nd 0)) idx)).
Proof.
  intros Hl. unfold den_node. set (X := tin RA ts nd 0).
  destruct (n_op nd) as [vals|u|b|ax kd|t|t|axes|subs| |d bf af|d st]; try discriminate; cbn [srcs map];
    try (rewrite fold_one; reflexivity).
  - cbn [t_sum t_at]. generalize (map (t_at X) (sum_positions ax (t_shape X) (if kd then drop_axes ax 0 idx else idx))). unfold zero_of. cbn.
    generalize 0%R. intros a l. revert a. induction l as [|v l IH]; intros a; cbn; [reflexivity|]. destruct v as [v| |]; cbn; auto.
  - cbn [t_pad t_at]. cbn zeta. destruct (_ && _); cbn [map]; [now rewrite fold_one|reflexivity].
  - cbn [t_dilate t_at]. cbn zeta. destruct (_ =? 0); cbn [map]; [now rewrite fold_one|reflexivity].
Qed.
Lemma lin_shape ts nd : is_lin (n_op nd) = true -> t_shape (den_node RA ts nd) = out_shape (n_op nd) (t_shape (tin RA ts nd 0)).
Proof. intros Hl. unfold den_node. destruct (n_op nd); try discriminate; reflexivity. Qed.

Definition memb (j : list Z) (l : list (list Z)) : bool := existsb (list_zeqb j) l.
Lemma memb_In j l : memb j l = true <-> In j l.
Proof.
  unfold memb. rewrite existsb_exists. split.
  - intros (x & Hx & E). apply list_zeqb_eq in E. now subst.
  - intros H. exists j. split; [assumption|apply list_zeqb_refl].
Qed.
Lemma memb_one j k : memb j [k] = list_zeqb j k.
Proof. cbn. now rewrite orb_false_r. Qed.

Section Adj.
Local Open Scope R_scope.
(* exactly one result element uses input element j *)
Lemma only_one (so : list Z) (p : list Z -> bool) (G : list Z -> res R) i0 :
  in_range so i0 -> G i0 = Ok (rv (G i0)) -> p i0 = true -> (forall i, in_range so i -> p i = true -> i = i0) ->
  G i0 = Ok (rsum (all_idx so) (fun i => if p i then rv (G i) else 0)).
Proof.
  intros Hi HG Hp Hu. rewrite HG at 1. f_equal. rewrite (rsum_single (all_idx so) i0); [now rewrite Hp|apply NoDup_all_idx|now apply in_all_idx|].
  intros i Hin Hne. destruct (p i) eqn:E; [|reflexivity]. exfalso. apply Hne. apply Hu; [now apply in_all_idx|assumption].
Qed.
Lemma none_at_all (so : list Z) (p : list Z -> bool) (f : list Z -> R) : (forall i, in_range so i -> p i = false) ->
  rsum (all_idx so) (fun i => if p i then f i else 0) = 0.
Proof. intros H. apply rsum_zero. intros i Hi. rewrite H by (now apply in_all_idx). reflexivity. Qed.
Lemma zeqb_sym a b : list_zeqb a b = list_zeqb b a.
Proof.
  destruct (list_zeqb a b) eqn:E.
  - apply list_zeqb_eq in E. subst. symmetry. apply list_zeqb_refl.
  - destruct (list_zeqb b a) eqn:E2; [|reflexivity]. apply list_zeqb_eq in E2. subst. now rewrite list_zeqb_refl in E.
Qed.

Lemma lin_bw op s (X Y O G : list Z -> res R) j : lin_ok op s -> is_lin op = true ->
  (forall i, in_range (out_shape op s) i -> G i = Ok (rv (G i))) -> in_range s j ->
  bw_val RA op s (out_shape op s) X Y O G 0 j =
    Ok (rsum (all_idx (out_shape op s)) (fun i => if memb j (srcs op s i) then rv (G i) else 0)).
Proof.
  intros (Hn & Hok) Hl HG Hj. destruct op as [vals|u|b|ax kd|t|t|axes|subs| |d bf af|d st]; try discriminate; cbn [out_shape bw_val srcs] in *.
  - (* sum *)
    assert (HI : forall i, In j (sum_positions ax s i) <-> drop_axes ax 0 j = i).
    { intros i. unfold sum_positions. rewrite filter_In, list_zeqb_eq, in_all_idx. tauto. }
    set (so := if kd then ones_axes ax 0 s else drop_axes ax 0 s) in *.
    apply only_one with (i0 := if kd then squash (ones_axes ax 0 s) j else drop_axes ax 0 j).
    + unfold so. destruct kd; [|now apply drop_axes_in_range].
      assert (HB : bcast_ok (ones_axes ax 0 s) s) by apply bcast_ones.
      pose proof (squash_in_range _ _ j HB Hj) as HH. rewrite ones_axes_length, Nat.sub_diag in HH. exact HH.
    + apply HG. unfold so. destruct kd; [|now apply drop_axes_in_range].
      assert (HB : bcast_ok (ones_axes ax 0 s) s) by apply bcast_ones.
      pose proof (squash_in_range _ _ j HB Hj) as HH. rewrite ones_axes_length, Nat.sub_diag in HH. exact HH.
    + apply memb_In, HI. destruct kd; [|reflexivity]. clear - Hj. revert j Hj. generalize 0%Z. induction s as [|d s IH]; intros k j Hj; inversion Hj; subst; cbn; [reflexivity|].
      destruct (zmem k ax) eqn:E; cbn; [apply IH; assumption|]. 
      destruct (d =? 1)%Z eqn:E1; f_equal; try (apply IH; assumption). cbn in *. lia.
    + intros i Hi Hm. apply memb_In, HI in Hm. unfold so in Hi. destruct kd; [|congruence].
      clear - Hi Hm Hj. revert i j Hi Hj Hm. generalize 0%Z. induction s as [|d s IH]; intros k i j Hi Hj Hm; inversion Hj; subst; cbn in *; inversion Hi; subst; cbn in *; [reflexivity|].
      destruct (zmem k ax) eqn:E; cbn in *.
      * f_equal; [lia|]. eapply IH; eauto.
      * injection Hm as -> Hm. f_equal; [destruct (d =? 1)%Z eqn:E1; [cbn in *; lia|reflexivity]|]. eapply IH; eauto.
  - (* reshape *)
    destruct Hok as (Hnt & Hp). assert (Hb : (0 <= flat s j < zprod t)%Z) by (rewrite Hp; now apply flat_bounds).
    assert (Hi0 : in_range t (unflat t (flat s j))) by (now apply unflat_in_range).
    apply only_one with (i0 := unflat t (flat s j)); auto.
    + apply memb_In. left. rewrite flat_unflat by assumption. now apply unflat_flat.
    + intros i Hi Hm. apply memb_In in Hm as [Hm|[]]. rewrite <- Hm. rewrite flat_unflat; [symmetry; now apply unflat_flat|assumption|].
      rewrite <- Hp. now apply flat_bounds.
  - (* broadcast *)
    change (bin RA BAdd) with (r_bin BAdd). change (lit RA 0) with 0. rewrite fold_rsum.
    + f_equal. rewrite rsum_filter, Rplus_0_l. apply rsum_ext. intros i _. rewrite memb_one, zeqb_sym. reflexivity.
    + intros i Hi. apply filter_In in Hi as (Hi & _). apply HG. now apply in_all_idx.
  - (* transpose *)
    pose proof (perm_zrange_len _ _ Hok) as HL.
    assert (HP2 : Permutation (argsort axes) (zrange (Z.of_nat (length s)))) by (apply argsort_is_perm; [lia|assumption]).
    assert (Hb1 : forall k a, nth_error (argsort axes) k = Some a -> nth_error axes (Z.to_nat a) = Some (Z.of_nat k)).
    { intros k a Ha. apply (argsort_mutual axes (length s) Hok). rewrite Z2Nat.id; [assumption|].
      apply nth_error_In in Ha. eapply Permutation_in in Ha; [|exact HP2]. apply in_zrange in Ha. lia. }
    assert (Hb2 : forall k a, nth_error axes k = Some a -> nth_error (argsort axes) (Z.to_nat a) = Some (Z.of_nat k)).
    { intros k a Ha. apply (argsort_mutual axes (length s) Hok). rewrite Z2Nat.id; [assumption|].
      apply nth_error_In in Ha. eapply Permutation_in in Ha; [|exact Hok]. apply in_zrange in Ha. lia. }
    assert (Hi0 : in_range (map (fun a => nth (Z.to_nat a) s 0%Z) axes) (unpermute (argsort axes) j)).
    { apply unpermute_in_range; [rewrite map_length, HL; exact HP2|]. now rewrite transpose_shape_back. }
    apply only_one with (i0 := unpermute (argsort axes) j); auto.
    + apply memb_In. left. eapply unpermute_inverse; eauto. now apply in_range_length.
    + intros i Hi Hm. apply memb_In in Hm as [Hm|[]]. rewrite <- Hm. symmetry. eapply unpermute_inverse; eauto.
      apply in_range_length in Hi. rewrite map_length in Hi. lia.
  - (* slice *)
    destruct (slice_inv subs j) as [q|] eqn:E.
    + apply (slice_inv_some subs s j q Hok Hj) in E as (Hq & Eq).
      apply only_one with (i0 := q); auto.
      * apply memb_In. now left.
      * intros i Hi Hm. apply memb_In in Hm as [Hm|[]].
        assert (E1 : slice_inv subs j = Some i) by (apply (slice_inv_some subs s j i Hok Hj); auto).
        assert (E2 : slice_inv subs j = Some q) by (apply (slice_inv_some subs s j q Hok Hj); auto). congruence.
    + change (lit RA 0) with 0. f_equal. symmetry. apply none_at_all. intros i Hi. destruct (memb j _) eqn:Em; [|reflexivity].
      apply memb_In in Em as [Em|[]]. assert (E1 : slice_inv subs j = Some i) by (apply (slice_inv_some subs s j i Hok Hj); auto). congruence.
  - (* contiguous *)
    apply only_one with (i0 := j); auto.
    + apply memb_In. now left.
    + intros i Hi Hm. apply memb_In in Hm as [Hm|[]]. assumption.
  - (* pad *)
    destruct Hok as (Hd & Hbf & Haf). set (k := Z.to_nat d) in *. assert (Hk : (k < length s)%nat) by lia.
    pose proof (in_range_nth _ _ k Hj Hk) as Hjk. pose proof (in_range_length _ _ Hj) as HjL.
    assert (Hi0 : in_range (upd s k (bf + nth k s 0 + af))%Z (upd j k (bf + nth k j 0)%Z)) by (apply in_range_upd; [assumption|lia]).
    apply only_one with (i0 := upd j k (bf + nth k j 0)%Z); auto.
    + apply memb_In. rewrite nth_upd_same by lia. replace (_ && _) with true by lia. left.
      rewrite upd_upd_same. replace (bf + nth k j 0 - bf)%Z with (nth k j 0%Z) by lia. apply upd_nth_self.
    + intros i Hi Hm. apply memb_In in Hm. destruct (_ && _) eqn:E in Hm; [|destruct Hm]. destruct Hm as [Hm|[]].
      pose proof (in_range_length _ _ Hi) as HiL. rewrite upd_length in HiL.
      rewrite <- Hm, upd_upd_same, nth_upd_same by lia. replace (bf + (nth k i 0 - bf))%Z with (nth k i 0%Z) by lia. symmetry. apply upd_nth_self.
  - (* dilate *)
    destruct Hok as (Hd & Hst & Hn1). set (k := Z.to_nat d) in *. assert (Hk : (k < length s)%nat) by lia.
    pose proof (in_range_nth _ _ k Hj Hk) as Hjk. pose proof (in_range_length _ _ Hj) as HjL.
    assert (Hi0 : in_range (upd s k ((nth k s 0 - 1) * st + 1))%Z (upd j k (nth k j 0 * st)%Z)) by (apply in_range_upd; [assumption|nia]).
    apply only_one with (i0 := upd j k (nth k j 0 * st)%Z); auto.
    + apply memb_In. rewrite nth_upd_same by lia. rewrite Z.mod_mul by lia. cbn [Z.eqb]. left.
      rewrite upd_upd_same, Z.div_mul by lia. apply upd_nth_self.
    + intros i Hi Hm. apply memb_In in Hm. destruct (_ =? 0)%Z eqn:E in Hm; [|destruct Hm]. destruct Hm as [Hm|[]].
      pose proof (in_range_length _ _ Hi) as HiL. rewrite upd_length in HiL.
      rewrite <- Hm, upd_upd_same, nth_upd_same by lia.
      replace (nth k i 0 / st * st)%Z with (nth k i 0%Z); [symmetry; apply upd_nth_self|].
      pose proof (Z.div_mod (nth k i 0%Z) st ltac:(lia)). lia.
Qed.

Lemma rsum_sub (l m : list (list Z)) f : NoDup l -> NoDup m -> (forall j, In j l -> In j m) ->
  rsum l f = rsum m (fun j => if memb j l then f j else 0).
Proof.
  intros Hl Hm. induction Hl as [|x l Hx Hl IH]; intros H; cbn [rsum].
  - symmetry. now apply rsum_zero.
  - rewrite IH by (intros; apply H; now right).
    assert (E : rsum m (fun j => if memb j (x :: l) then f j else 0) = rsum m (fun j => (if list_zeqb j x then f j else 0) + (if memb j l then f j else 0))).
    { apply rsum_ext. intros j _. unfold memb. cbn [existsb]. destruct (list_zeqb j x) eqn:E; cbn [orb]; [|lra].
      apply list_zeqb_eq in E. subst j. fold (memb x l). destruct (memb x l) eqn:E2; [apply memb_In in E2; contradiction|lra]. }
    rewrite E, rsum_plus. f_equal. rewrite (rsum_single m x); [now rewrite list_zeqb_refl|assumption|apply H; now left|].
    intros y _ Hy. destruct (list_zeqb y x) eqn:E2; [apply list_zeqb_eq in E2; contradiction|reflexivity].
Qed.

(* the rule is the transpose of the operation *)
Lemma lin_adjoint op s (G : list Z -> res R) (T : list Z -> R) (X Y O : list Z -> res R) : lin_ok op s -> is_lin op = true ->
  (forall i, in_range (out_shape op s) i -> G i = Ok (rv (G i))) ->
  rsum (all_idx (out_shape op s)) (fun i => rv (G i) * rsum (srcs op s i) T) =
  rsum (all_idx s) (fun j => rv (bw_val RA op s (out_shape op s) X Y O G 0 j) * T j).
Proof.
  intros Hok Hl HG.
  rewrite (rsum_ext (all_idx s) _ (fun j => rsum (all_idx (out_shape op s)) (fun i => T j * (if memb j (srcs op s i) then rv (G i) else 0)))).
  - rewrite rsum_swap. apply rsum_ext. intros i Hi. apply in_all_idx in Hi.
    rewrite (rsum_sub (srcs op s i) (all_idx s)); [|apply srcs_nodup|apply NoDup_all_idx|intros j Hj; apply in_all_idx; eapply srcs_in; eauto].
    rewrite <- rsum_scal. apply rsum_ext. intros j _. destruct (memb j _); lra.
  - intros j Hj. apply in_all_idx in Hj. rewrite (lin_bw op s X Y O G j Hok Hl HG Hj). cbn [rv]. rewrite rsum_scal. lra.
Qed.
End Adj.
