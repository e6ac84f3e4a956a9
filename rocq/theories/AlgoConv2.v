(* Reductions, and the correctness of conv_expr for every operation. *)
From Verif Require Import Base BaseFacts Util UtilFacts Lang Spec Graph Api Denote SpecFacts DenoteFacts Reach Algo AlgoSem AlgoConv.

(* ------------------------------------------------------------------ the dict of reduction indices *)
Lemma dict_set_keys {V} (d : list (Z * V)) k v : map fst (dict_set d k v) = if zmem k (map fst d) then map fst d else map fst d ++ [k].
Proof.
  induction d as [|[k' v'] d IH]; cbn; [reflexivity|].
  destruct (k' =? k) eqn:E.
  - apply Z.eqb_eq in E. subst. rewrite Z.eqb_refl. reflexivity.
  - rewrite (Z.eqb_sym k k'), E. cbn [map orb fst]. rewrite IH. unfold zmem. destruct (existsb _ _); reflexivity.
Qed.
Lemma dict_set_in {V} (d : list (Z * V)) k v p : In p (dict_set d k v) -> p = (k, v) \/ (In p d /\ fst p <> k).
Proof.
  induction d as [|[k' v'] d IH]; cbn; [intuition|].
  destruct (k' =? k) eqn:E; cbn.
  - intros [<-|H]; auto. right. split; auto.
Abort.
Lemma dict_set_in {V} (d : list (Z * V)) k v p : In p (dict_set d k v) -> p = (k, v) \/ In p d.
Proof.
  induction d as [|[k' v'] d IH]; cbn; [intuition|].
  destruct (k' =? k) eqn:E; cbn; intuition.
Qed.
Lemma dict_set_pos (d : list (Z * lidx)) k l : (forall p, In p d -> (l_pos (snd p) < l_pos l)%nat) ->
  NoDup (map (fun p => l_pos (snd p)) d) -> NoDup (map (fun p => l_pos (snd p)) (dict_set d k l)).
Proof.
  intros H1 H2. induction d as [|[k' v'] d IH]; cbn in *; [repeat constructor; auto|].
  inversion H2 as [|? ? Hn Hd]; subst. destruct (k' =? k); cbn; constructor; auto.
  - intros Hi. apply in_map_iff in Hi as (p & Hp & Hi). specialize (H1 p (or_intror Hi)). cbn in Hp. lia.
  - intros Hi. apply in_map_iff in Hi as (p & Hp & Hi). apply dict_set_in in Hi as [->|Hi].
    + cbn in Hp. specialize (H1 (k', v') (or_introl eq_refl)). cbn in H1. lia.
    + apply Hn. rewrite <- Hp. apply (in_map (fun p => l_pos (snd p))). assumption.
Qed.

Lemma dict_get_in {V} (d : list (Z * V)) k v : NoDup (map fst d) -> In (k, v) d -> dict_get d k = Some v.
Proof.
  induction d as [|[k' v'] d IH]; cbn; intros HN H; [tauto|]. inversion HN; subst.
  destruct H as [H|H].
  - injection H as -> ->. now rewrite Z.eqb_refl.
  - destruct (k' =? k) eqn:E; auto. apply Z.eqb_eq in E. subst. exfalso. apply H2. apply (in_map fst) in H. exact H.
Qed.

Definition rgo (a : nat) (inp_shape : list Z) :=
  fix go (axs : list Z) (i : nat) (d : list (Z * lidx)) : outcome (list (Z * lidx)) :=
    match axs with
    | [] => Done d
    | ax :: r => ext <~ throw_none IndexErr (pynth inp_shape ax) ;; go r (S i) (dict_set d ax (mkL a true i ext))
    end.

Definition dict_ok (a : nat) (shape : list Z) (i : nat) (d : list (Z * lidx)) : Prop :=
  Forall (fun '(k, l) => l_own l = a /\ l_red l = true /\ (l_pos l < i)%nat /\ 0 <= k /\ nth_error shape (Z.to_nat k) = Some (l_ext l)) d /\
  NoDup (map (fun p => l_pos (snd p)) d) /\ StronglySorted Z.lt (map fst d).

Lemma SSorted_snoc l x : StronglySorted Z.lt l -> Forall (fun y => y < x) l -> StronglySorted Z.lt (l ++ [x]).
Proof.
  induction 1 as [|y l Hs IH Hy]; cbn; intros H; [repeat constructor|].
  inversion H; subst. constructor; auto. apply Forall_app. split; auto.
Qed.

Lemma rgo_ok a shape axs i d : Sorted Z.le axs -> Forall (fun x => 0 <= x < Z.of_nat (length shape)) axs ->
  dict_ok a shape i d -> Forall (fun k => Forall (fun x => k <= x) axs) (map fst d) ->
  exists d', rgo a shape axs i d = Done d' /\ dict_ok a shape (i + length axs) d' /\
    forall k, In k (map fst d') <-> In k (map fst d) \/ In k axs.
Proof.
  intros Hs. apply Sorted_StronglySorted in Hs; [|intros ? ? ?; lia]. revert i d.
  induction Hs as [|ax axs Hs IH Hax]; intros i d Hr Hd Hk.
  - exists d. cbn. rewrite Nat.add_0_r. intuition.
  - inversion Hr as [|? ? Hr1 Hr2]; subst. cbn [rgo].
    rewrite pynth_nat by lia. destruct (nth_error shape (Z.to_nat ax)) as [ext|] eqn:E; [|apply nth_error_None in E; lia].
    cbn [throw_none obind].
    destruct Hd as (D1 & D2 & D3).
    assert (Hpos : forall p, In p d -> (l_pos (snd p) < i)%nat).
    { intros [k l] Hp. rewrite Forall_forall in D1. specialize (D1 _ Hp). cbn in *. intuition. }
    destruct (IH (S i) (dict_set d ax (mkL a true i ext))) as (d' & H1 & H2 & H3); auto.
    + split; [|split].
      * apply Forall_forall. intros [k l] Hp. apply dict_set_in in Hp as [Hp|Hp].
        { injection Hp as -> ->. cbn. repeat split; auto; lia. }
        { rewrite Forall_forall in D1. specialize (D1 _ Hp). cbn in D1 |- *. intuition lia. }
      * apply dict_set_pos; auto.
      * rewrite dict_set_keys. destruct (zmem ax (map fst d)) eqn:Em; auto.
        apply SSorted_snoc; auto. apply zmem_false in Em. apply Forall_forall. intros k Hk2.
        rewrite Forall_forall in Hk. specialize (Hk _ Hk2). inversion Hk; subst.
        assert (k <> ax) by (intros ->; tauto). lia.
    + rewrite dict_set_keys. apply Forall_forall. intros k Hk2. destruct (zmem ax (map fst d)) eqn:Em.
      * rewrite Forall_forall in Hk. specialize (Hk _ Hk2). now inversion Hk.
      * apply in_app_iff in Hk2 as [Hk2|[<-|[]]]; auto. rewrite Forall_forall in Hk. specialize (Hk _ Hk2). now inversion Hk.
    + exists d'. split; [exact H1|]. split; [now replace (i + length (ax :: axs))%nat with (S i + length axs)%nat by (cbn; lia)|].
      intros k. rewrite H3, dict_set_keys. destruct (zmem ax (map fst d)) eqn:Em.
      * apply zmem_In in Em. cbn. intuition. subst; auto.
      * rewrite in_app_iff. cbn. intuition.
Qed.

Lemma SSorted_lt_ext l1 l2 : StronglySorted Z.lt l1 -> StronglySorted Z.lt l2 -> (forall x, In x l1 <-> In x l2) -> l1 = l2.
Proof.
  intros H1; revert l2. induction H1 as [|x l1 Hs IH Hx]; intros [|y l2] H2 HE; auto.
  - exfalso. apply (HE y). now left.
  - exfalso. apply (HE x). now left.
  - inversion H2 as [|? ? Hs2 Hy]; subst. rewrite Forall_forall in Hx, Hy.
    assert (x = y).
    { assert (HA : In x (y :: l2)) by (apply HE; now left). assert (HB : In y (x :: l1)) by (apply HE; now left).
      destruct HA as [->|HA]; auto. destruct HB as [->|HB]; auto. specialize (Hx _ HB). specialize (Hy _ HA). lia. }
    subst y. f_equal. apply IH; auto. intros z. specialize (HE z). cbn in HE. split; intros Hz.
    + assert (x < z) by auto. destruct (proj1 HE (or_intror Hz)); [lia|assumption].
    + assert (x < z) by auto. destruct (proj2 HE (or_intror Hz)); [lia|assumption].
Qed.

Definition zseq (k : Z) (m : nat) : list Z := map (fun i => k + Z.of_nat i) (seq 0 m).
Lemma zseq_S k m : zseq k (S m) = k :: zseq (k + 1) m.
Proof. unfold zseq. cbn [seq map]. f_equal; [lia|]. rewrite <- seq_shift, map_map. apply map_ext. intros; lia. Qed.
Lemma zrange_zseq n : zrange (Z.of_nat n) = zseq 0 n.
Proof. unfold zrange, zseq. rewrite Nat2Z.id. apply map_ext. intros; lia. Qed.
Lemma zseq_in k m x : In x (zseq k m) <-> k <= x < k + Z.of_nat m.
Proof.
  unfold zseq. rewrite in_map_iff. split.
  - intros (i & <- & Hi). apply in_seq in Hi. lia.
  - intros H. exists (Z.to_nat (x - k)). split; [lia|]. apply in_seq. lia.
Qed.
Lemma zseq_sorted k m : StronglySorted Z.lt (zseq k m).
Proof.
  revert k; induction m as [|m IH]; intros k; [constructor|]. rewrite zseq_S. constructor; auto.
  apply Forall_forall. intros x Hx. apply zseq_in in Hx. lia.
Qed.
Lemma SSorted_filter {A} (R : A -> A -> Prop) p l : StronglySorted R l -> StronglySorted R (filter p l).
Proof.
  induction 1 as [|x l Hs IH Hx]; cbn; [constructor|]. destruct (p x); auto. constructor; auto.
  rewrite Forall_forall in *. intros y Hy. apply filter_In in Hy as [Hy _]. auto.
Qed.

Lemma reduced_dict_ok a axis shape : Forall (fun x => 0 <= x < Z.of_nat (length shape)) axis ->
  exists d, reduced_dict a axis shape = Done d /\
    map fst d = filter (fun k => zmem k axis) (zseq 0 (length shape)) /\
    Forall (fun '(k, l) => l_own l = a /\ l_red l = true /\ nth_error shape (Z.to_nat k) = Some (l_ext l)) d /\
    NoDup (map (fun p => l_pos (snd p)) d).
Proof.
  intros Hr. assert (HS : Forall (fun x => 0 <= x < Z.of_nat (length shape)) (zsort axis)).
  { rewrite Forall_forall in *. intros x Hx. apply Hr. eapply Permutation_in; [apply zsort_perm|exact Hx]. }
  destruct (rgo_ok a shape (zsort axis) 0 [] (zsort_sorted axis) HS) as (d & H1 & (H2 & H3 & H4) & H5).
  { repeat split; constructor. }
  { constructor. }
  exists d. split; [exact H1|]. split; [|split; [|exact H3]].
  - apply SSorted_lt_ext; auto; [apply SSorted_filter, zseq_sorted|].
    intros x. rewrite H5, filter_In, zseq_in, zmem_In. cbn. split.
    + intros [[]|Hx]. assert (In x axis) by (eapply Permutation_in; [apply zsort_perm|exact Hx]). split; auto.
      rewrite Forall_forall in Hr. specialize (Hr _ H). lia.
    + intros [_ Hx]. right. eapply Permutation_in; [symmetry; apply zsort_perm|exact Hx].
  - eapply Forall_impl; [|exact H2]. intros [k l]. intuition.
Qed.

Lemma take_axes_ext axis shape k d : map fst d = filter (fun k => zmem k axis) (zseq k (length shape)) ->
  Forall (fun '(j, l) => nth_error shape (Z.to_nat (j - k)) = Some (l_ext l)) d ->
  map (fun p => l_ext (snd p)) d = take_axes axis k shape.
Proof.
  revert k d; induction shape as [|x s IH]; intros k d HK HF; cbn [length] in HK.
  - cbn in HK. destruct d; [reflexivity|discriminate].
  - rewrite zseq_S in HK. cbn [filter take_axes] in *.
    assert (Hgt : forall d', map fst d' = filter (fun k => zmem k axis) (zseq (k + 1) (length s)) ->
       Forall (fun '(j, l) => nth_error (x :: s) (Z.to_nat (j - k)) = Some (l_ext l)) d' ->
       Forall (fun '(j, l) => nth_error s (Z.to_nat (j - (k + 1))) = Some (l_ext l)) d').
    { intros d' HK' HF'. apply Forall_forall. intros [j l] Hp. rewrite Forall_forall in HF'. specialize (HF' _ Hp). cbn in HF'.
      assert (Hj : In j (map fst d')) by (apply (in_map fst) in Hp; exact Hp).
      rewrite HK' in Hj. apply filter_In in Hj as [Hj _]. apply zseq_in in Hj.
      replace (Z.to_nat (j - k)) with (S (Z.to_nat (j - (k + 1)))) in HF' by lia. exact HF'. }
    destruct (zmem k axis) eqn:E.
    + destruct d as [|[j l] d]; [discriminate|]. cbn in HK. injection HK as -> HK.
      inversion HF as [|? ? HF1 HF2]; subst. cbn [map snd]. f_equal.
      * rewrite Z.sub_diag in HF1. cbn in HF1. congruence.
      * apply IH; auto.
    + apply IH; auto.
Qed.

Section Conv2.
Context (L : lang) (HL : lang_ok L).
Notation V := (val L).

Lemma reduce_indices_ok axis d (HN : NoDup (map fst d)) m : forall k d' sp,
  map fst d' = filter (fun k => zmem k axis) (zseq k m) -> (forall p, In p d' -> In p d) ->
  (length sp + length d' = m)%nat ->
  exists ix, reduce_indices axis d (zseq k m) sp = Done ix /\ length ix = m /\
    Forall (is_ix (fun l => In l sp \/ In l (map snd d'))) ix /\
    forall r rs out, Forall2 (fun l z => evalI L r (EIdx l) = Ok z) (map snd d') rs ->
      Forall2 (fun l z => evalI L r (EIdx l) = Ok z) sp out ->
      mapM (evalI L r) ix = Ok (merge axis k m rs out).
Proof.
  induction m as [|m IH]; intros k d' sp HK Hsub Hlen.
  - exists []. cbn. auto.
  - rewrite zseq_S in *. cbn [filter reduce_indices merge] in *. destruct (zmem k axis) eqn:E.
    + destruct d' as [|[k0 l] d']; [discriminate|]. cbn in HK. injection HK as -> HK.
      rewrite (dict_get_in d k l HN) by (apply Hsub; now left). cbn [throw_none obind].
      destruct (IH (k + 1) d' sp HK) as (ix & H1 & H2 & H3 & H4).
      { intros p Hp. apply Hsub. now right. }
      { cbn in Hlen. lia. }
      rewrite H1. cbn [obind]. eexists; split; [reflexivity|]. split; [cbn; congruence|]. split.
      { constructor; [cbn; auto|]. eapply Forall_impl; [|exact H3]. intros e. apply is_ix_mono. cbn. tauto. }
      intros r rs out HR HO. cbn [map] in HR. inversion HR; subst. cbn [mapM snd] in *.
      rewrite H5. cbn [rbind]. rewrite (H4 r l' out) by assumption. reflexivity.
    + destruct sp as [|l sp].
      { exfalso. cbn in Hlen. subst. assert (length d' <= m)%nat; [|lia].
        rewrite <- (map_length fst d'), HK. clear. rewrite <- (seq_length m 0) at 2.
        rewrite <- (map_length (fun i => k + 1 + Z.of_nat i) (seq 0 m)). fold (zseq (k + 1) m).
        induction (zseq (k + 1) m) as [|x l IHl]; cbn; auto. destruct (zmem x axis); cbn; lia. }
      destruct (IH (k + 1) d' sp HK Hsub) as (ix & H1 & H2 & H3 & H4); [cbn in Hlen; lia|].
      rewrite H1. cbn [obind]. eexists; split; [reflexivity|]. split; [cbn; congruence|]. split.
      { constructor; [cbn; auto|]. eapply Forall_impl; [|exact H3]. intros e. apply is_ix_mono. cbn. tauto. }
      intros r rs out HR HO. inversion HO; subst. cbn [mapM].
      rewrite H5. cbn [rbind]. rewrite (H4 r rs l') by assumption. reflexivity.
Qed.

Lemma drop_enum_length {B} axis k (l : list B) (s : list Z) : length l = length s ->
  length (map snd (filter (fun '(i, _) => negb (zmem i axis)) (enum k l))) = length (drop_axes axis k s).
Proof.
  revert k s; induction l as [|x l IH]; intros k [|y s] H; cbn in *; try discriminate; auto.
  destruct (zmem k axis); cbn; rewrite ?(IH (k + 1) s) by lia; auto.
Qed.
Lemma drop_take_length axis k (s : list Z) : (length (drop_axes axis k s) + length (take_axes axis k s) = length s)%nat.
Proof. revert k; induction s as [|x s IH]; intros k; cbn; auto. specialize (IH (k + 1)). destruct (zmem k axis); cbn; lia. Qed.
Lemma drop_enum_Forall2 {B} (P : B -> Z -> Prop) axis k (l : list B) zs : Forall2 P l zs ->
  Forall2 P (map snd (filter (fun '(i, _) => negb (zmem i axis)) (enum k l))) (drop_axes axis k zs).
Proof. intros H; revert k; induction H; intros k; cbn; [constructor|]. destruct (zmem k axis); cbn; auto. Qed.

Lemma evalI_other_env r r' ls zs : (forall l, In l ls -> r' l = r l) ->
  Forall2 (fun l z => evalI L r (EIdx l) = Ok z) ls zs -> Forall2 (fun l z => evalI L r' (EIdx l) = Ok z) ls zs.
Proof.
  intros HE H. induction H as [|l z ls zs Hl _ IH]; constructor.
  - cbn in *. now rewrite HE by now left.
  - apply IH. intros; apply HE. now right.
Qed.

Lemma conv_sum_ok a (axis : list Z) kd i (inp : list Z) : Forall (fun x => 0 <= x < Z.of_nat (length inp)) axis -> nonneg inp ->
  let s := reduce_shape axis kd inp in
  exists ix red, conv_sum a (out_loops a s) axis kd i inp = Done (ESum (EFunc i ix) red) /\ length ix = length inp /\
    Forall (is_ix (fun l => In l (out_loops a s) \/ In l red)) ix /\
    NoDup (map l_pos red) /\ Forall (fun l => l_own l = a /\ l_red l = true /\ 0 <= l_ext l) red /\
    map l_ext red = take_axes axis 0 inp /\
    forall idx rs, in_range s idx -> ltB L (zprod s) -> ltB L (zprod inp) -> in_range (take_axes axis 0 inp) rs ->
      let out := if kd then drop_axes axis 0 idx else idx in
      in_range inp (merge axis 0 (length inp) rs out) /\
      mapM (evalI L (ibinds red rs (lenv a s idx))) ix = Ok (merge axis 0 (length inp) rs out).
Proof using HL.
  intros Hax Hnn s. unfold conv_sum.
  destruct (reduced_dict_ok a axis inp Hax) as (d & Hd & HK & HF & HP). rewrite Hd. cbn [obind].
  set (sp := if kd then map snd (filter (fun '(i, _) => negb (zmem i axis)) (enum 0 (out_loops a s))) else out_loops a s).
  assert (HsE : s = if kd then ones_axes axis 0 inp else drop_axes axis 0 inp) by apply reduce_shape_spec.
  assert (Hlo : forall k l, length (ones_axes axis k l) = length l).
  { intros k l; revert k; induction l; intros; cbn; auto. }
  assert (Hspl : length sp = length (drop_axes axis 0 inp)).
  { unfold sp. destruct kd.
    - apply drop_enum_length. rewrite out_loops_length, HsE. apply Hlo.
    - now rewrite out_loops_length, HsE. }
  assert (Hext : map (fun p => l_ext (snd p)) d = take_axes axis 0 inp).
  { apply take_axes_ext; auto. eapply Forall_impl; [|exact HF]. intros [k l] (_ & _ & H). now rewrite Z.sub_0_r. }
  assert (HKN : NoDup (map fst d)).
  { rewrite HK. apply NoDup_filter. unfold zseq. apply FinFun.Injective_map_NoDup; [intros x y; lia|apply seq_NoDup]. }
  destruct (reduce_indices_ok axis d HKN (length inp) 0 d sp HK (fun p H => H)) as (ix & H1 & H2 & H3 & H4).
  { rewrite Hspl, <- (map_length (fun p => l_ext (snd p)) d), Hext. apply drop_take_length. }
  rewrite zrange_zseq, H1. cbn [obind]. exists ix, (map snd d). split; [reflexivity|]. split; [assumption|].
  assert (Hspin : forall l, In l sp -> In l (out_loops a s)).
  { unfold sp. destruct kd; auto. intros l Hl. apply in_map_iff in Hl as ([k l'] & <- & Hl). apply filter_In in Hl as [Hl _].
    apply In_nth_error in Hl as [j Hj]. rewrite nth_error_enum in Hj.
    destruct (nth_error (out_loops a s) j) eqn:E; [|discriminate]. injection Hj as _ <-. eapply nth_error_In; eauto. }
  split.
  { eapply Forall_impl; [|exact H3]. intros e. apply is_ix_mono. intros l [Hl|Hl]; auto. }
  split; [now rewrite map_map|]. split.
  { apply Forall_forall. intros l Hl. apply in_map_iff in Hl as ([k l'] & <- & Hl). rewrite Forall_forall in HF.
    destruct (HF _ Hl) as (E1 & E2 & E3). cbn. repeat split; auto.
    unfold nonneg in Hnn. rewrite Forall_forall in Hnn. apply Hnn. eapply nth_error_In; eauto. }
  split; [now rewrite map_map|].
  intros idx rs Hi Hb Hbi Hrs. set (out := if kd then drop_axes axis 0 idx else idx).
  assert (Hout : in_range (drop_axes axis 0 inp) out).
  { unfold out. rewrite HsE in Hi. destruct kd; [|assumption].
    rewrite <- (drop_ones_axes axis 0 inp). now apply drop_axes_in_range. }
  assert (Hm : in_range inp (merge axis 0 (length inp) rs out)) by now apply merge_in_range.
  split; [exact Hm|]. apply H4.
  - (* reduction variables *)
    assert (HNr : NoDup (map snd d)).
    { rewrite <- (map_map snd l_pos) in HP. now apply NoDup_map_inv in HP. }
    apply Forall2_of_nth.
    { rewrite map_length, <- (map_length (fun p => l_ext (snd p)) d), Hext. symmetry. now apply in_range_length. }
    intros k l z Hl Hz. cbn. rewrite (ibinds_nth _ _ _ _ _ _ HNr Hl Hz). cbn. apply chk_ok.
    assert (HB : Forall (inB L) rs); [|rewrite Forall_forall in HB; apply HB; eapply nth_error_In; eauto].
    pose proof (dims_le inp _ Hm) as Hdl.
    assert (HT : forall j s0, Forall (fun x => x <= zprod inp) s0 -> Forall (fun x => x <= zprod inp) (take_axes axis j s0)).
    { intros j s0 H; revert j; induction H; intros j; cbn; [constructor|]. destruct (zmem j axis); auto. }
    specialize (HT 0 inp Hdl). unfold in_range in Hrs. clear -Hrs HT Hbi.
    induction Hrs as [|z d rs s Hz _ IH]; constructor; inversion HT; subst; auto.
    apply inB_intro; [lia|]. eapply ltB_le; [exact Hbi|lia].
  - (* spatial variables *)
    assert (HE : Forall2 (fun l z => evalI L (lenv a s idx) (EIdx l) = Ok z) (out_loops a s) idx).
    { apply mapM_ok. rewrite <- (env_same L HL a s idx Hi Hb). now rewrite mapM_map. }
    apply evalI_other_env with (r := lenv a s idx).
    + intros l Hl. apply ibinds_other. intros Hl2. apply Hspin, out_loops_in in Hl as (_ & Hl & _).
      apply in_map_iff in Hl2 as ([k l'] & <- & Hl2). rewrite Forall_forall in HF. destruct (HF _ Hl2) as (_ & E2 & _). cbn in Hl. congruence.
    + unfold sp, out. destruct kd; auto. now apply drop_enum_Forall2.
Qed.

(* ---------------------------------------------------------------- every operation *)
Context (g : graph) (Hw : wf_graph g).
Let shp := shape_of g.
Definition Fden (f : nat) (idx : list Z) : res V := t_at (den L g f) idx.

Lemma shape_of_some n nd : nth_error g n = Some nd -> shp n = n_shape nd.
Proof. intros H. unfold shp, shape_of. now rewrite H. Qed.

Lemma readF_ok f nd idx : nth_error g f = Some nd -> in_range (n_shape nd) idx -> readF L shp Fden f idx = Fden f idx.
Proof. intros Hf Hi. unfold readF. rewrite (shape_of_some _ _ Hf). apply in_rangeb_spec in Hi. now rewrite Hi. Qed.

Definition small (n : nat) : Prop :=
  forall nd, nth_error g n = Some nd -> ltB L (zprod (n_shape nd)) /\ Forall (ltB L) (op_steps (n_op nd)).

Theorem conv_expr_ok a nd : nth_error g a = Some nd -> n_op nd <> OReshape [] ->
  exists e, conv_expr g a nd = Done e /\ wff shp (isc g) a (out_loops a (n_shape nd)) e /\ func_refs e = n_in nd /\
    (has_reduce e = true <-> exists ax kd, n_op nd = OSum ax kd) /\
    (is_buf e = true <-> is_const (n_op nd) = true) /\
    (valop e = true -> computes (n_op nd) = true) /\
    (valop e = false -> forall f ix, e = EFunc f ix -> exists x, nth_error g f = Some x /\ n_dtype x = n_dtype nd) /\
    (small a -> Forall small (n_in nd) -> forall idx, in_range (n_shape nd) idx ->
       evalV L shp Fden (n_dtype nd) e (lenv a (n_shape nd) idx) = Fden a idx).
Proof using HL Hw.
  intros Ha Hnr. pose proof (Hw _ _ Ha) as Hwn. pose proof (den_wf_eq L g a nd Hw Ha) as Hden.
  pose proof (wf_shape_facts L g a nd Hw Ha) as SF.
  unfold conv_expr, wf_node in *. unfold Fden at 2.
  destruct (n_op nd) as [vals|u|b|axis kd|t|t|axes|subs| |dim bf af|dim st] eqn:Eop.
  { (* constant *)
    destruct Hwn as (Hin & _). eexists; split; [reflexivity|]. rewrite Hin. split.
    { cbn. split; [exists nd; rewrite Eop; auto|]. rewrite map_length, out_loops_length, (shape_of_some _ _ Ha). split; auto.
      apply Forall_forall. intros e He. apply in_map_iff in He as (l & <- & Hl). exact Hl. }
    split; [reflexivity|]. split; [split; [discriminate|intros (? & ? & ?); discriminate]|]. split; [tauto|]. split; [discriminate|].
    split; [intros _ f ix H; discriminate|].
    intros Hsm _ idx Hi. cbn [evalV]. destruct (Hsm _ Ha) as [Hsz _].
    rewrite (env_same L HL a (n_shape nd) idx Hi Hsz). cbn [rbind].
    now rewrite (readF_ok a nd) by assumption. }
  all: destruct Hwn as (i & x & Hi0 & Hlt & Hx & Hfw & Hok).
  all: assert (Hsmx : Forall small (n_in nd) -> ltB L (zprod (n_shape x))) by
    (intros HF; rewrite Forall_forall in HF; apply (HF i (nth_error_In _ _ Hi0) _ Hx)).
  all: pose proof (wf_shape_facts L g i x Hw Hx) as SFx.
  all: rewrite Hden; unfold den_node; rewrite Eop; rewrite ?(tin_den L g nd 0 i Hi0).
  all: pose proof (forward_dtype _ _ _ _ Hfw) as Hdt.
  all: rewrite Hi0; cbn [throw_none obind].
  all: assert (Hin1 : length (n_in nd) = 1%nat -> n_in nd = [i]) by
    (intros HL1; destruct (n_in nd) as [|i0 [|]]; cbn in HL1; try discriminate; cbn in Hi0; congruence).
  all: assert (Hget : get g i = Done x) by (unfold get; now rewrite Hx).
  all: assert (Hsame : forall (P : lidx -> Prop), (forall l, In l (out_loops a (n_shape nd)) -> P l) ->
         Forall (is_ix P) (map EIdx (out_loops a (n_shape nd)))) by
    (intros P HP; apply Forall_forall; intros e He; apply in_map_iff in He as (l & <- & Hl); cbn; auto).
  - (* unary *)
    cbn in Hfw, Hok. injection Hfw as Hfw.
    assert (Hs : n_shape nd = n_shape x) by (rewrite <- Hfw; reflexivity).
    eexists; split; [reflexivity|]. split.
    { cbn. split; [assumption|]. rewrite map_length, out_loops_length, (shape_of_some _ _ Hx). split; [congruence|auto]. }
    split; [cbn; symmetry; auto|]. split; [split; [discriminate|intros (? & ? & ?); discriminate]|].
    split; [split; discriminate|]. split; [reflexivity|]. split; [discriminate|].
    intros Hsm Hsi idx Hi. destruct (Hsm _ Ha) as [Hsz _]. cbn [evalV].
    rewrite (env_same L HL a (n_shape nd) idx Hi Hsz). cbn [rbind].
    rewrite (readF_ok i x) by (assumption || now rewrite <- Hs). reflexivity.
  - (* binary *)
    unfold forward_node in Hfw. unfold arg_ok in Hok. injection Hfw as Hfw.
    assert (Hs : n_shape nd = n_shape x) by (rewrite <- Hfw; reflexivity).
    destruct Hok as (j & y & Hj & Hlen2 & Hjlt & Hy & Hys). rewrite Hj. cbn [throw_none obind].
    assert (Hin2 : n_in nd = [i; j]) by
      (destruct (n_in nd) as [|i0 [|j0 [|]]]; cbn in Hlen2; try discriminate; cbn in Hi0, Hj; congruence).
    eexists; split; [reflexivity|]. split.
    { cbn. rewrite map_length, out_loops_length, (shape_of_some _ _ Hx), (shape_of_some _ _ Hy), Hys. repeat split; auto; congruence. }
    split; [cbn; auto|]. split; [split; [discriminate|intros (? & ? & ?); discriminate]|].
    split; [split; discriminate|]. split; [reflexivity|]. split; [discriminate|].
    intros Hsm Hsi idx Hi. destruct (Hsm _ Ha) as [Hsz _]. cbn [evalV].
    rewrite (env_same L HL a (n_shape nd) idx Hi Hsz). cbn [rbind].
    rewrite (readF_ok i x) by (assumption || now rewrite <- Hs).
    rewrite (readF_ok j y) by (assumption || now rewrite Hys, <- Hs).
    rewrite (tin_den L g nd 1 j Hj). reflexivity.
  - (* sum *)
    cbn in Hfw, Hok. injection Hfw as Hfw. destruct Hok as [Hlen1 Hax].
    assert (Hs : n_shape nd = reduce_shape axis kd (n_shape x)) by (rewrite <- Hfw; reflexivity).
    rewrite Hget. cbn [obind].
    destruct (conv_sum_ok a axis kd i (n_shape x) Hax (sf_nonneg _ _ _ _ SFx)) as (ix & red & H1 & H2 & H3 & H4 & H5 & H6 & H7).
    rewrite <- Hs in *. rewrite H1. eexists; split; [reflexivity|]. split.
    { cbn. rewrite (shape_of_some _ _ Hx). repeat split; auto. }
    split; [cbn; symmetry; auto|]. split; [split; [eauto|reflexivity]|].
    split; [split; discriminate|]. split; [reflexivity|]. split; [discriminate|].
    intros Hsm Hsi idx Hi. destruct (Hsm _ Ha) as [Hsz _]. cbn [evalV].
    rewrite sum_loops_fold, H6. unfold t_sum. cbn [t_at]. unfold zero_of. f_equal.
    rewrite (sf_den _ _ _ _ SFx). unfold sum_positions.
    assert (Hs2 : n_shape nd = if kd then ones_axes axis 0 (n_shape x) else drop_axes axis 0 (n_shape x)) by (rewrite Hs; apply reduce_shape_spec).
    assert (Hout : in_range (drop_axes axis 0 (n_shape x)) (if kd then drop_axes axis 0 idx else idx)).
    { rewrite Hs2 in Hi. destruct kd; [|assumption]. rewrite <- (drop_ones_axes axis 0 (n_shape x)). now apply drop_axes_in_range. }
    rewrite (sum_positions_merge axis 0 (n_shape x) _ Hout), map_map.
    apply map_ext_in. intros rs Hrs. apply in_all_idx in Hrs. cbn [evalV].
    destruct (H7 idx rs Hi Hsz (Hsmx Hsi) Hrs) as [E1 E2]. rewrite E2. cbn [rbind].
    now rewrite (readF_ok i x) by assumption.
  - (* reshape *)
    cbn in Hfw, Hok. injection Hfw as Hfw. destruct Hok as (Hlen1 & Hnn & Hpr & _).
    assert (Hs : n_shape nd = t) by (rewrite <- Hfw; reflexivity).
    rewrite Hget. cbn [obind]. rewrite Hs in *.
    destruct (conv_reshape_ok L HL a t (n_shape x)) as (ix & H1 & H2 & H3 & H4); auto.
    { intros ->. congruence. } { apply (sf_nonneg _ _ _ _ SFx). }
    rewrite H1. cbn [obind]. eexists; split; [reflexivity|]. split.
    { cbn. rewrite (shape_of_some _ _ Hx). auto. }
    split; [cbn; symmetry; auto|]. split; [split; [discriminate|intros (? & ? & ?); discriminate]|].
    split; [split; discriminate|]. split; [discriminate|].
    split; [intros _ f ix' E; injection E as <- <-; eauto|].
    intros Hsm Hsi idx Hi. destruct (Hsm _ Ha) as [Hsz _]. cbn [evalV]. rewrite Hs in Hsz.
    rewrite (H4 idx Hi Hsz). cbn [rbind t_reshape t_at]. rewrite (sf_den _ _ _ _ SFx).
    rewrite (readF_ok i x); auto. apply unflat_in_range; [apply (sf_nonneg _ _ _ _ SFx)|].
    rewrite <- Hpr. now apply flat_bounds.
  - (* broadcast *)
    cbn in Hfw, Hok. injection Hfw as Hfw. destruct Hok as (Hlen1 & Hnn & Hbc).
    assert (Hs : n_shape nd = t) by (rewrite <- Hfw; reflexivity).
    rewrite Hget. cbn [obind]. rewrite Hs in *.
    destruct (conv_broadcast_ok L HL a t (n_shape x) Hbc) as (ix & H1 & H2 & H3 & H4).
    rewrite H1. cbn [obind]. eexists; split; [reflexivity|]. split.
    { cbn. rewrite (shape_of_some _ _ Hx). auto. }
    split; [cbn; symmetry; auto|]. split; [split; [discriminate|intros (? & ? & ?); discriminate]|].
    split; [split; discriminate|]. split; [discriminate|].
    split; [intros _ f ix' E; injection E as <- <-; eauto|].
    intros Hsm Hsi idx Hi. destruct (Hsm _ Ha) as [Hsz _]. cbn [evalV]. rewrite Hs in Hsz.
    rewrite (H4 idx Hi Hsz). cbn [rbind t_broadcast t_at]. rewrite (sf_den _ _ _ _ SFx).
    rewrite (readF_ok i x); auto. now apply squash_in_range.
  - (* transpose *)
    cbn in Hfw, Hok. injection Hfw as Hfw. destruct Hok as (Hlen1 & HP).
    assert (Hs : n_shape nd = map (fun k => nth (Z.to_nat k) (n_shape x) 0) axes) by (rewrite <- Hfw; reflexivity).
    rewrite Hget. cbn [obind].
    destruct (conv_transpose_ok L HL a (n_shape nd) axes (n_shape x) HP Hs) as (ix & H1 & H2 & H3 & H4).
    rewrite H1. cbn [obind]. eexists; split; [reflexivity|]. split.
    { cbn. rewrite (shape_of_some _ _ Hx). auto. }
    split; [cbn; symmetry; auto|]. split; [split; [discriminate|intros (? & ? & ?); discriminate]|].
    split; [split; discriminate|]. split; [discriminate|].
    split; [intros _ f ix' E; injection E as <- <-; eauto|].
    intros Hsm Hsi idx Hi. destruct (Hsm _ Ha) as [Hsz _]. cbn [evalV].
    rewrite (H4 idx Hi Hsz). cbn [rbind t_transpose t_at].
    rewrite (readF_ok i x); auto. apply unpermute_in_range; auto. now rewrite <- Hs.
  - (* slice *)
    cbn in Hfw, Hok. destruct Hok as (Hlen1 & HS). unfold fwd_slice in Hfw.
    destruct (slice_loop subs (n_strides x)) as [[o sh] ss] eqn:Esl. injection Hfw as Hfw.
    destruct (slice_loop_spec subs (n_shape x) (n_strides x) HS (sf_strides _ _ _ _ SFx) _ _ _ Esl) as (Hsh & _).
    assert (Hs : n_shape nd = slice_shape subs) by (rewrite <- Hfw; cbn; assumption).
    rewrite Hget. cbn [obind].
    destruct (conv_slice_ok L HL subs (n_shape x) (out_loops a (n_shape nd)) HS) as (ix & H1 & H2 & H3 & H4).
    { now rewrite out_loops_length, Hs. }
    rewrite H1. cbn [obind]. eexists; split; [reflexivity|]. split.
    { cbn. rewrite (shape_of_some _ _ Hx). auto. }
    split; [cbn; symmetry; auto|]. split; [split; [discriminate|intros (? & ? & ?); discriminate]|].
    split; [split; discriminate|]. split; [discriminate|].
    split; [intros _ f ix' E; injection E as <- <-; eauto|].
    intros Hsm Hsi idx Hi. destruct (Hsm _ Ha) as [Hsz Hst]. cbn [evalV]. rewrite Eop in Hst.
    assert (Hir : in_range (n_shape x) (slice_idx subs idx)) by (apply slice_idx_in_range; [assumption|now rewrite <- Hs]).
    rewrite (H4 (lenv a (n_shape nd) idx) idx).
    + cbn [rbind t_slice t_at]. now rewrite (readF_ok i x).
    + apply mapM_ok. rewrite <- (env_same L HL a (n_shape nd) idx Hi Hsz). now rewrite mapM_map.
    + now rewrite <- Hs.
    + eapply Forall_impl; [|apply (dims_le _ _ Hir)]. intros d Hd. cbn in Hd. eapply ltB_le; [apply Hsmx; exact Hsi|exact Hd].
    + exact Hst.
  - (* contiguous *)
    cbn in Hfw, Hok. injection Hfw as Hfw.
    assert (Hs : n_shape nd = n_shape x) by (rewrite <- Hfw; reflexivity).
    eexists; split; [reflexivity|]. split.
    { cbn. split; [assumption|]. rewrite map_length, out_loops_length, (shape_of_some _ _ Hx). split; [congruence|auto]. }
    split; [cbn; symmetry; auto|]. split; [split; [discriminate|intros (? & ? & ?); discriminate]|].
    split; [split; discriminate|]. split; [discriminate|].
    split; [intros _ f ix' E; injection E as <- <-; eauto|].
    intros Hsm Hsi idx Hi. destruct (Hsm _ Ha) as [Hsz _]. cbn [evalV].
    rewrite (env_same L HL a (n_shape nd) idx Hi Hsz). cbn [rbind].
    rewrite (readF_ok i x) by (assumption || now rewrite <- Hs). reflexivity.
  - (* pad *)
    cbn in Hfw, Hok. destruct Hok as (Hlen1 & Hdim & Hbf & Haf). unfold fwd_pad in Hfw.
    rewrite pyupdate_nonneg in Hfw by lia. injection Hfw as Hfw.
    set (n := nth (Z.to_nat dim) (n_shape x) 0) in *.
    assert (Hs : n_shape nd = upd (n_shape x) (Z.to_nat dim) (n + (bf + af))) by (rewrite <- Hfw; reflexivity).
    assert (Hlenl : length (out_loops a (n_shape nd)) = length (n_shape x)) by (now rewrite out_loops_length, Hs, upd_length).
    rewrite Hget. cbn [obind]. unfold conv_pad. rewrite !pynth_nat by lia.
    destruct (nth_error (out_loops a (n_shape nd)) (Z.to_nat dim)) as [l|] eqn:El; [|apply nth_error_None in El; lia].
    destruct (nth_error (n_shape x) (Z.to_nat dim)) as [n'|] eqn:En; [|apply nth_error_None in En; lia].
    assert (n' = n) by (unfold n; symmetry; now apply nth_error_nth). subst n'.
    cbn [throw_none obind]. eexists; split; [reflexivity|]. split.
    { cbn. apply nth_error_In in El. rewrite at_dim_length, (shape_of_some _ _ Hx), Hlenl. repeat split; auto.
      apply at_dim_ix; cbn; auto. }
    split; [cbn; symmetry; auto|]. split; [split; [discriminate|intros (? & ? & ?); discriminate]|].
    split; [split; discriminate|]. split; [reflexivity|]. split; [discriminate|].
    intros Hsm Hsi idx Hi. destruct (Hsm _ Ha) as [Hsz _].
    set (r := lenv a (n_shape nd) idx).
    assert (HF2 : Forall2 (fun l z => evalI L r (EIdx l) = Ok z) (out_loops a (n_shape nd)) idx).
    { apply mapM_ok. unfold r. rewrite <- (env_same L HL a (n_shape nd) idx Hi Hsz). now rewrite mapM_map. }
    destruct (Forall2_nth_error _ _ _ _ _ HF2 El) as (z & Hz & Hzl).
    assert (Hnz : nth (Z.to_nat dim) idx 0 = z) by now apply nth_error_nth.
    assert (Hn0 : 0 <= n). { pose proof (sf_nonneg _ _ _ _ SFx) as HH. unfold nonneg in HH. rewrite Forall_forall in HH. apply HH. eapply nth_error_In; eauto. }
    assert (Hzr : 0 <= z < n + (bf + af)).
    { pose proof (in_range_nth _ _ (Z.to_nat dim) Hi) as HH. rewrite Hnz, Hs, nth_upd_same in HH by lia. apply HH. rewrite upd_length. lia. }
    assert (Hdle : n + (bf + af) <= zprod (n_shape nd)).
    { pose proof (dims_le _ _ Hi) as HH. rewrite Forall_forall in HH. apply HH. rewrite Hs. eapply nth_error_In. apply nth_error_upd_same. lia. }
    assert (Bb : forall q, 0 <= q <= n + (bf + af) -> inB L q).
    { intros q Hq. apply inB_intro; [lia|]. eapply ltB_le; [exact Hsz|]. lia. }
    unfold t_pad. cbn [t_at]. rewrite (sf_den _ _ _ _ SFx). fold n. rewrite Hnz.
    cbn [evalV]. cbn [evalI] in Hzl. cbn [evalI]. rewrite !Hzl. cbn [rbind].
    rewrite !chk_ok by (apply Bb; lia). cbn [rbind ibin].
    replace ((b2z (z >=? bf) <=? 1) && (b2z (z <? bf + n) <=? 1)) with true by (destruct (z >=? bf), (z <? bf + n); reflexivity).
    cbn [rbind]. destruct (bf <=? z) eqn:E1; cbn [andb].
    + replace (z >=? bf) with true by lia. destruct (z <? bf + n) eqn:E2; cbn [b2z andb Z.eqb].
      * rewrite (at_dim_eval L r _ idx dim (fun l => EBin BSub (EIdx l) (EConst bf)) (z - bf)).
        { cbn [rbind]. assert (Hir : in_range (n_shape x) (upd idx (Z.to_nat dim) (z - bf))).
          { rewrite Hs in Hi. eapply in_range_upd_shape; eauto; [lia|]. fold n. lia. }
          rewrite (readF_ok i x) by assumption. unfold Fden.
          destruct (t_at (den L g i) (upd idx (Z.to_nat dim) (z - bf))) as [v| |] eqn:Ev; cbn; auto.
          rewrite Hdt. f_equal. eapply den_coerced; eauto. apply (ok_idem _ HL). }
        { assumption. }
        { lia. }
        { intros l' El'. rewrite El in El'. injection El' as <-. cbn [evalI]. rewrite Hzl. cbn [rbind].
          rewrite chk_ok by (apply Bb; lia). cbn [rbind ibin]. apply chk_ok, Bb. lia. }
      * reflexivity.
    + replace (z >=? bf) with false by lia. cbn. reflexivity.
  - (* dilate *)
    cbn in Hfw, Hok. destruct Hok as (Hlen1 & Hdim & Hst & Hnd). unfold fwd_dilate in Hfw.
    rewrite pyupdate_nonneg in Hfw by lia. injection Hfw as Hfw.
    set (n := nth (Z.to_nat dim) (n_shape x) 0) in *.
    assert (Hs : n_shape nd = upd (n_shape x) (Z.to_nat dim) ((n - 1) * st + 1)) by (rewrite <- Hfw; reflexivity).
    assert (Hlenl : length (out_loops a (n_shape nd)) = length (n_shape x)) by (now rewrite out_loops_length, Hs, upd_length).
    unfold conv_dilate. rewrite !pynth_nat by lia.
    destruct (nth_error (out_loops a (n_shape nd)) (Z.to_nat dim)) as [l|] eqn:El; [|apply nth_error_None in El; lia].
    cbn [throw_none obind]. eexists; split; [reflexivity|]. split.
    { cbn. apply nth_error_In in El. rewrite at_dim_length, (shape_of_some _ _ Hx), Hlenl. repeat split; auto.
      apply at_dim_ix; cbn; auto. }
    split; [cbn; symmetry; auto|]. split; [split; [discriminate|intros (? & ? & ?); discriminate]|].
    split; [split; discriminate|]. split; [reflexivity|]. split; [discriminate|].
    intros Hsm Hsi idx Hi. destruct (Hsm _ Ha) as [Hsz Hsts]. rewrite Eop in Hsts. cbn in Hsts.
    assert (Hstb : ltB L st) by now inversion Hsts.
    set (r := lenv a (n_shape nd) idx).
    assert (HF2 : Forall2 (fun l z => evalI L r (EIdx l) = Ok z) (out_loops a (n_shape nd)) idx).
    { apply mapM_ok. unfold r. rewrite <- (env_same L HL a (n_shape nd) idx Hi Hsz). now rewrite mapM_map. }
    destruct (Forall2_nth_error _ _ _ _ _ HF2 El) as (z & Hz & Hzl).
    assert (Hnz : nth (Z.to_nat dim) idx 0 = z) by now apply nth_error_nth.
    assert (Hzr : 0 <= z < (n - 1) * st + 1).
    { pose proof (in_range_nth _ _ (Z.to_nat dim) Hi) as HH. rewrite Hnz, Hs, nth_upd_same in HH by lia. apply HH. rewrite upd_length. lia. }
    assert (Hdle : (n - 1) * st + 1 <= zprod (n_shape nd)).
    { pose proof (dims_le _ _ Hi) as HH. rewrite Forall_forall in HH. apply HH. rewrite Hs. eapply nth_error_In. apply nth_error_upd_same. lia. }
    assert (Bst : inB L st) by (apply inB_intro; [lia|assumption]).
    assert (Bz : inB L z) by (apply inB_intro; [lia|eapply ltB_le; [exact Hsz|lia]]).
    assert (Hm : 0 <= z mod st < st) by (apply Z.mod_pos_bound; lia).
    assert (Hdv : 0 <= z / st <= z) by (split; [apply Z.div_pos; lia|apply Z.div_le_upper_bound; nia]).
    assert (B0 := inB0 L HL).
    unfold t_dilate. cbn [t_at]. rewrite Hnz.
    cbn [evalV]. cbn [evalI] in Hzl. cbn [evalI]. rewrite !Hzl. cbn [rbind].
    rewrite (chk_ok L st) by assumption. cbn [rbind ibin]. replace (0 <? st) with true by lia.
    rewrite (chk_ok L (z mod st)) by (eapply inB_le; [exact Bst|lia]). cbn [rbind].
    rewrite (chk_ok L 0) by assumption. cbn [rbind ibin].
    destruct (z mod st =? 0) eqn:E1; cbn [b2z Z.eqb].
    + rewrite (at_dim_eval L r _ idx dim (fun l => EBin BFloordiv (EIdx l) (EConst st)) (z / st)).
      { cbn [rbind]. assert (Hir : in_range (n_shape x) (upd idx (Z.to_nat dim) (z / st))).
        { rewrite Hs in Hi. eapply in_range_upd_shape; eauto; [lia|]. fold n. split; [lia|].
          apply Z.div_lt_upper_bound; [lia|]. apply Z.eqb_eq in E1. pose proof (Z.div_mod z st ltac:(lia)). nia. }
        rewrite (readF_ok i x) by assumption. unfold Fden.
        destruct (t_at (den L g i) (upd idx (Z.to_nat dim) (z / st))) as [v| |] eqn:Ev; cbn; auto.
        rewrite Hdt. f_equal. eapply den_coerced; eauto. apply (ok_idem _ HL). }
      { assumption. }
      { lia. }
      { intros l' El'. rewrite El in El'. injection El' as <-. cbn [evalI]. rewrite Hzl. cbn [rbind].
        rewrite chk_ok by assumption. cbn [rbind ibin]. replace (0 <? st) with true by lia. apply chk_ok. eapply inB_le; [exact Bz|lia]. }
    + reflexivity.
Qed.

End Conv2.
