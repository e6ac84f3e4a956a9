(* User schedules: split and reorder on their own (C08, C09). *)
From Coq Require Import Permutation.
From Verif Require Import Base BaseFacts Util UtilFacts Lang Spec Graph Algo AlgoSem AlgoConv Kernel Sched Codegen KernFacts RenderFacts KernelOk SchedFacts SchedGpu Nest NestSched.

(* ------------------------------------------------------------------ split *)
Lemma seq_add a : forall m k, seq (a + k) m = map (Nat.add a) (seq k m).
Proof. induction m as [|m IH]; intros k; cbn; auto. f_equal. rewrite <- IH. f_equal. lia. Qed.
Lemma zrange_app n m : 0 <= n -> 0 <= m -> zrange (n + m) = zrange n ++ map (Z.add n) (zrange m).
Proof.
  intros Hn Hm. unfold zrange. rewrite Z2Nat.inj_add, seq_app, map_app by lia. f_equal.
  replace (0 + Z.to_nat n)%nat with (Z.to_nat n + 0)%nat by lia. rewrite seq_add, !map_map. apply map_ext. intros. lia.
Qed.
Lemma zrange_mul c f : 0 <= c -> 0 < f ->
  flat_map (fun o => map (fun i => (o, i)) (zrange f)) (zrange c) = map (fun p => (p / f, p mod f)) (zrange (c * f)).
Proof.
  intros Hc Hf. pattern c. revert c Hc. apply natlike_ind; [reflexivity|]. intros c Hc IH.
  rewrite <- Z.add_1_r, zrange_S by lia. rewrite flat_map_app, IH. cbn [flat_map]. rewrite app_nil_r.
  replace ((c + 1) * f) with (c * f + f) by ring. rewrite zrange_app by nia. rewrite map_app. f_equal. rewrite map_map. apply map_ext_in.
  intros i Hi. apply in_zrange in Hi. f_equal.
  - rewrite Z.div_add_l by lia. rewrite Z.div_small by lia. lia.
  - rewrite (Z.add_comm (c * f) i), Z.mod_add by lia. now rewrite Z.mod_small by lia.
Qed.
Lemma filter_zrange n m : n <= m -> 0 <= m -> filter (fun p => p <? n) (zrange m) = zrange n.
Proof.
  intros H Hm. destruct (Z.le_gt_cases n 0) as [Hn|Hn].
  - rewrite (zrange_nil n) by lia. apply filter_all_false. intros y Hy. apply in_zrange in Hy. lia.
  - replace m with (n + (m - n)) by lia. rewrite zrange_app, filter_app by lia.
    rewrite filter_all_true by (intros y Hy; apply in_zrange in Hy; lia).
    rewrite filter_all_false; [apply app_nil_r|]. intros y Hy. apply in_map_iff in Hy as (z & <- & Hz). apply in_zrange in Hz. lia.
Qed.
Lemma ceildiv_nonneg n f : 0 <= n -> 0 < f -> 0 <= ceildiv n f.
Proof. intros Hn Hf. pose proof (ceildiv_bounds n f Hf). nia. Qed.
(* values of the original variable, in the order in which the two loops run *)
Definition split_order (o i f : Z) : list Z := map (fun '(x, y) => x * f + y) (flat_map (fun x => map (fun y => (x, y)) (zrange i)) (zrange o)).
Lemma split_order_ok n f : 0 <= n -> 0 < f -> split_order (ceildiv n f) f f = zrange (ceildiv n f * f).
Proof.
  intros Hn Hf. unfold split_order. rewrite zrange_mul by (auto; now apply ceildiv_nonneg). rewrite map_map.
  rewrite <- (map_id (zrange (ceildiv n f * f))) at 2. apply map_ext. intros p. pose proof (Z.div_mod p f ltac:(lia)). lia.
Qed.
Lemma guard_iff n f : 0 <= n -> 0 < f -> negb (n mod f =? 0) = true <-> exists p, In p (split_order (ceildiv n f) f f) /\ n <= p.
Proof.
  intros Hn Hf. rewrite split_order_ok by assumption. pose proof (ceildiv_bounds n f Hf) as HC. rewrite negb_true_iff, Z.eqb_neq. split.
  - intros Hm. exists n. split; [|lia]. apply in_zrange. split; [assumption|].
    assert (n <> ceildiv n f * f); [|lia]. intros He. apply Hm. rewrite He. apply Z.mod_mul. lia.
  - intros (p & Hp & Hle) Hm. apply in_zrange in Hp. apply Z.mod_divide in Hm as [q ->]; [|lia].
    assert (ceildiv (q * f) f * f = q * f); [|lia]. assert (ceildiv (q * f) f = q) by nia. nia.
Qed.

(* ------------------------------------------------------------------ reorder *)
(* the members of [lvs], from left to right, replaced by the elements of a queue *)
Fixpoint refill (mem : loopvar -> bool) (loops queue : list loopvar) : list loopvar :=
  match loops with
  | [] => []
  | l :: r => if mem l then match queue with q :: qs => q :: refill mem r qs | [] => l :: refill mem r [] end else l :: refill mem r queue
  end.
Definition names (loops : list loopsched) : list name := map (fun l => lv_name (ls_lv l)) loops.
Definition memb (lvs : list loopvar) (lv : loopvar) : bool := existsb (fun x => name_eqb (lv_name x) (lv_name lv)) lvs.
Lemma memb_spec lvs lv : memb lvs lv = true <-> In (lv_name lv) (map lv_name lvs).
Proof.
  unfold memb. rewrite existsb_exists, in_map_iff. split; intros (x & H1 & H2).
  - apply name_eqb_eq in H2. eauto.
  - exists x. split; auto. rewrite H1. apply name_eqb_refl.
Qed.
Definition stp (x : nat * loopvar) (l : list loopsched) := set_lv l (fst x) (snd x).
Lemma set_lv_cons x l i lv : set_lv (x :: l) (S i) lv = x :: set_lv l i lv.
Proof. unfold set_lv. cbn. destruct (nth_error l i); reflexivity. Qed.
Lemma foldr_shift x l : forall ps qs, Forall (fun p => (1 <= p)%nat) ps ->
  fold_right stp (x :: l) (combine ps qs) = x :: fold_right stp l (combine (map Nat.pred ps) qs).
Proof.
  induction ps as [|p ps IH]; intros [|q qs] H; cbn; auto. rewrite IH by (eapply Forall_inv_tail; eauto). apply Forall_inv in H.
  unfold stp at 1. cbn. destruct p as [|p]; [lia|]. now rewrite set_lv_cons.
Qed.
Inductive incr : list nat -> Prop :=
| incr_nil : incr []
| incr_cons p ps : Forall (fun q => (p < q)%nat) ps -> incr ps -> incr (p :: ps).
Lemma incr_pred ps : incr ps -> Forall (fun p => (1 <= p)%nat) ps -> incr (map Nat.pred ps).
Proof.
  induction 1 as [|p ps H _ IH]; intros HF; cbn; constructor.
  - apply Forall_inv_tail in HF as HF2. apply Forall_inv in HF. rewrite Forall_forall in *. intros q Hq. apply in_map_iff in Hq as (r & <- & Hr).
    specialize (H r Hr). specialize (HF2 r Hr). lia.
  - apply IH. eapply Forall_inv_tail; eauto.
Qed.
Lemma refill_none mem l : (forall x, In x l -> mem x = false) -> forall q, refill mem l q = l.
Proof. intros H. induction l as [|x l IH]; intros q; cbn; auto. rewrite H by now left. f_equal. apply IH. intros; apply H; now right. Qed.
Lemma foldr_refill mem : forall loops ps qs, incr ps -> length qs = length ps ->
  (forall p, In p ps <-> exists l, nth_error loops p = Some l /\ mem (ls_lv l) = true) ->
  map ls_lv (fold_right stp loops (combine ps qs)) = refill mem (map ls_lv loops) qs /\
  map ls_kind (fold_right stp loops (combine ps qs)) = map ls_kind loops /\ map ls_exec (fold_right stp loops (combine ps qs)) = map ls_exec loops.
Proof.
  induction loops as [|x loops IH]; intros ps qs Hi Hl Hp.
  - destruct ps as [|p ps]; [destruct qs; [cbn; auto|discriminate]|]. destruct (proj1 (Hp p) (or_introl eq_refl)) as (l & H & _). destruct p; discriminate.
  - assert (Hsh : forall ps', incr ps' -> Forall (fun p => (1 <= p)%nat) ps' -> (forall p, (1 <= p)%nat -> In p ps' <-> In p ps) ->
       (forall p, In p (map Nat.pred ps') <-> exists l, nth_error loops p = Some l /\ mem (ls_lv l) = true)).
    { intros ps' H1 H2 H3 p. rewrite in_map_iff. rewrite Forall_forall in H2. split.
      - intros (r & <- & Hr). pose proof (H2 r Hr). apply H3 in Hr; auto. apply Hp in Hr as (l & E1 & E2). destruct r as [|r]; [lia|]. eauto.
      - intros (l & E1 & E2). exists (S p). split; auto. apply H3; [lia|]. apply Hp. eauto. }
    destruct (mem (ls_lv x)) eqn:Ex.
    + assert (H0 : In 0%nat ps) by (apply Hp; exists x; auto).
      inversion Hi as [|p ps' Hlt Hi' E0]; subst; [destruct H0|]. rename ps' into ps. rename Hi' into Hi2. assert (p = 0%nat) by (destruct H0 as [->|H0]; auto; rewrite Forall_forall in Hlt; specialize (Hlt _ H0); lia). subst p.
      destruct qs as [|q qs]; [discriminate|]. cbn [combine fold_right map refill]. rewrite Ex.
      assert (HF : Forall (fun p => (1 <= p)%nat) ps) by (eapply Forall_impl; [|exact Hlt]; intros y Hy; cbn beta in *; lia).
      rewrite foldr_shift by exact HF. change (stp (0%nat, q)) with (fun l => set_lv l 0%nat q). cbn beta. unfold set_lv at 1 2 3. cbn [nth_error upd map ls_lv ls_kind ls_exec].
      destruct (IH (map Nat.pred ps) qs) as (R1 & R2 & R3).
      * now apply incr_pred.
      * rewrite map_length. cbn in Hl. lia.
      * apply Hsh; auto. intros p Hp1. split; [now right|intros [<-|H]; [lia|auto]].
      * rewrite R1, R2, R3. auto.
    + assert (HF : Forall (fun p => (1 <= p)%nat) ps).
      { apply Forall_forall. intros [|p] H; [|lia]. apply Hp in H as (l & E1 & E2). cbn in E1. congruence. }
      rewrite foldr_shift by exact HF. cbn [map refill]. rewrite Ex.
      destruct (IH (map Nat.pred ps) qs) as (R1 & R2 & R3).
      * now apply incr_pred.
      * now rewrite map_length.
      * apply Hsh; auto. tauto.
      * rewrite R1, R2, R3. auto.
Qed.
Lemma refill_perm mem : forall l q, length q = length (filter mem l) -> Permutation (filter mem l) q -> Permutation l (refill mem l q).
Proof.
  intros l q Hl HP. assert (G : forall l q, length q = length (filter mem l) -> Permutation (filter (fun x => negb (mem x)) l ++ q) (refill mem l q)).
  { clear. induction l as [|x l IH]; intros q Hl; cbn in *.
    - destruct q; [constructor|discriminate].
    - destruct (mem x) eqn:Ex; cbn in *.
      + destruct q as [|y q]; [discriminate|]. symmetry. apply Permutation_cons_app. symmetry. apply IH. cbn in Hl. lia.
      + constructor. apply IH. exact Hl. }
  etransitivity; [|apply G; exact Hl]. clear G Hl. etransitivity; [|apply Permutation_app_head; exact HP].
  clear. induction l as [|x l IH]; cbn; auto. destruct (mem x); cbn; [apply Permutation_cons_app; auto|constructor; auto].
Qed.
Lemma index_of_name n l i : NoDup (names l) -> index_of n l = Some i <-> exists x, nth_error l i = Some x /\ lv_name (ls_lv x) = n.
Proof.
  intros HN. split; [apply index_of_spec|]. revert i; induction l as [|y l IH]; intros i (x & Hx & Hn); [destruct i; discriminate|].
  cbn in *. apply NoDup_cons_iff in HN as [Hy HN]. destruct i as [|i].
  - injection Hx as ->. rewrite Hn, name_eqb_refl. reflexivity.
  - destruct (name_eqb (lv_name (ls_lv y)) n) eqn:E.
    + exfalso. apply name_eqb_eq in E. apply Hy. rewrite E, <- Hn. apply in_map_iff. exists x. split; auto. eapply nth_error_In; eauto.
    + cbn in Hx. rewrite (IH HN i) by eauto. reflexivity.
Qed.
Lemma indices_of_ok l : NoDup (names l) -> forall lvs, (forall lv, In lv lvs -> In (lv_name lv) (names l)) ->
  exists is, indices_of l lvs = Done is /\ length is = length lvs /\ Forall2 (fun lv z => exists i x, z = Z.of_nat i /\ nth_error l i = Some x /\ lv_name (ls_lv x) = lv_name lv) lvs is.
Proof.
  intros HN. induction lvs as [|lv lvs IH]; intros Hin; cbn.
  - exists []. auto.
  - destruct (index_of_in (lv_name lv) l) as [i Hi]; [apply Hin; now left|]. rewrite Hi. cbn.
    destruct IH as (is & -> & Hl & HF); [intros; apply Hin; now right|]. cbn. eexists. split; [reflexivity|]. split; [cbn; lia|].
    constructor; auto. apply index_of_spec in Hi as (x & H1 & H2). eauto.
Qed.
Lemma Forall2_in_l {A B} (R : A -> B -> Prop) l1 l2 x : Forall2 R l1 l2 -> In x l1 -> exists y, In y l2 /\ R x y.
Proof. induction 1; intros []; subst; [eexists; split; [now left|auto]|]. destruct IHForall2 as (y0 & H2 & H3); auto. exists y0. split; auto. now right. Qed.
Lemma Forall2_in_r {A B} (R : A -> B -> Prop) l1 l2 y : Forall2 R l1 l2 -> In y l2 -> exists x, In x l1 /\ R x y.
Proof. induction 1; intros []; subst; [eexists; split; [now left|auto]|]. destruct IHForall2 as (x0 & H2 & H3); auto. exists x0. split; auto. now right. Qed.
Lemma incr_sorted l : Sorted Z.le l -> NoDup l -> Forall (fun z => 0 <= z) l -> incr (map Z.to_nat l).
Proof.
  intros HS. apply Sorted_StronglySorted in HS; [|intros a b c; lia]. induction HS as [|z l HS IH HF]; intros HN H0; cbn; constructor.
  - apply NoDup_cons_iff in HN as [Hz HN]. pose proof (Forall_inv H0). apply Forall_inv_tail in H0. rewrite Forall_forall in *. intros q Hq.
    apply in_map_iff in Hq as (r & <- & Hr). specialize (HF r Hr). specialize (H0 r Hr). assert (z <> r) by congruence. cbn beta in *. lia.
  - apply NoDup_cons_iff in HN as [_ HN]. apply Forall_inv_tail in H0. auto.
Qed.
Lemma combine_rev {A B} (l1 : list A) (l2 : list B) : length l1 = length l2 -> combine (rev l1) (rev l2) = rev (combine l1 l2).
Proof.
  revert l2; induction l1 as [|a l1 IH]; intros [|b l2] H; try discriminate; cbn; auto. rewrite <- IH by (cbn in H; lia).
  assert (Hl : length (rev l1) = length (rev l2)) by (rewrite !rev_length; cbn in H; lia). clear - Hl. revert Hl. generalize (rev l1) (rev l2).
  induction l as [|x l IH]; intros [|y l0] H; try discriminate; cbn; auto. f_equal. apply IH. cbn in H. lia.
Qed.
Theorem reorder_ok s lvs : NoDup (names (s_loops s)) -> NoDup (map lv_name lvs) -> (forall lv, In lv lvs -> In lv (map ls_lv (s_loops s))) ->
  exists s', reorder s lvs = Done s' /\ s_splits s' = s_splits s /\
    map ls_kind (s_loops s') = map ls_kind (s_loops s) /\ map ls_exec (s_loops s') = map ls_exec (s_loops s) /\
    map ls_lv (s_loops s') = refill (memb lvs) (map ls_lv (s_loops s)) (rev lvs) /\
    Permutation (map ls_lv (s_loops s)) (map ls_lv (s_loops s')).
Proof.
  intros HN HD Hin.
  assert (Hin' : forall lv, In lv lvs -> In (lv_name lv) (names (s_loops s))).
  { intros lv H. unfold names. rewrite <- map_map. apply in_map. auto. }
  destruct (indices_of_ok _ HN lvs Hin') as (is & HI & Hl & HF). unfold reorder. rewrite HI. cbn. eexists. split; [reflexivity|]. cbn. split; auto.
  set (ps := map Z.to_nat (zsort is)).
  assert (Hperm : Permutation is (zsort is)) by (symmetry; apply zsort_perm).
  assert (Hnd : NoDup is).
  { clear - HF HD HN. induction HF as [|lv z lvs is (i & x & -> & H1 & H2) HF IH]; [constructor|]. cbn in HD. apply NoDup_cons_iff in HD as [Hn HD]. constructor; auto.
    intros Hz. destruct (Forall2_in_r _ _ _ _ HF Hz) as (lv' & H3 & (j & y & E & H4 & H5)). apply Nat2Z.inj in E. subst j.
    apply Hn. rewrite <- H2. assert (x = y) by congruence. subst y. rewrite H5. now apply in_map. }
  assert (H0 : Forall (fun z => 0 <= z) (zsort is)).
  { apply Forall_forall. intros z Hz. apply (Permutation_in z (Permutation_sym Hperm)) in Hz. destruct (Forall2_in_r _ _ _ _ HF Hz) as (lv & _ & (i & x & -> & _)). lia. }
  assert (Hinc : incr ps).
  { apply incr_sorted; auto; [apply zsort_sorted|]. eapply Permutation_NoDup; eauto. }
  assert (Hlen : length (rev lvs) = length ps).
  { unfold ps. rewrite map_length, rev_length, <- (Permutation_length Hperm). auto. }
  assert (Hps : forall p, In p ps <-> exists l, nth_error (s_loops s) p = Some l /\ memb lvs (ls_lv l) = true).
  { intros p. unfold ps. rewrite in_map_iff. split.
    - intros (z & <- & Hz). apply (Permutation_in z (Permutation_sym Hperm)) in Hz. destruct (Forall2_in_r _ _ _ _ HF Hz) as (lv & Hlv & (i & x & -> & H1 & H2)).
      exists x. rewrite Nat2Z.id. split; auto. apply memb_spec. rewrite H2. now apply in_map.
    - intros (l & H1 & H2). apply memb_spec in H2. apply in_map_iff in H2 as (lv & H3 & H4). destruct (Forall2_in_l _ _ _ _ HF H4) as (z & Hz & (i & x & -> & H5 & H6)).
      exists (Z.of_nat i). split; [|eapply Permutation_in; eauto]. rewrite Nat2Z.id.
      assert (E1 : index_of (lv_name lv) (s_loops s) = Some i) by (apply index_of_name; eauto).
      assert (E2 : index_of (lv_name lv) (s_loops s) = Some p) by (apply index_of_name; eauto). congruence. }
  assert (Hfold : fold_left (fun l '(i, lv) => set_lv l (Z.to_nat i) lv) (combine (rev (zsort is)) lvs) (s_loops s) = fold_right stp (s_loops s) (combine ps (rev lvs))).
  { rewrite <- (rev_involutive lvs) at 1. rewrite combine_rev by (rewrite Hlen; unfold ps; now rewrite map_length). rewrite <- fold_left_rev_right, rev_involutive.
    unfold ps. generalize (zsort is) (rev lvs). clear. intros l l0. revert l0. induction l as [|z l IH]; intros [|lv l0]; cbn; auto. now rewrite IH. }
  rewrite Hfold. destruct (foldr_refill (memb lvs) (s_loops s) ps (rev lvs) Hinc Hlen Hps) as (R1 & R2 & R3). rewrite R1, R2, R3. split; auto. split; auto. split; auto.
  assert (HfP : Permutation (filter (memb lvs) (map ls_lv (s_loops s))) (rev lvs)).
  { apply NoDup_Permutation.
    - apply NoDup_filter. eapply NoDup_map_inv. rewrite map_map. exact HN.
    - apply NoDup_rev. eapply NoDup_map_inv; eauto.
    - intros lv. rewrite filter_In, <- in_rev. split.
      + intros [H1 H2]. apply memb_spec in H2. apply in_map_iff in H2 as (lv' & E & H3). replace lv with lv'; auto.
        pose proof (Hin lv' H3) as H4. apply in_map_iff in H1 as (l1 & <- & I1). apply in_map_iff in H4 as (l2 & <- & I2).
        f_equal. clear - HN E I1 I2. unfold names in HN. induction (s_loops s) as [|y l IH]; [destruct I1|]. cbn in HN. apply NoDup_cons_iff in HN as [Hy HN].
        destruct I1 as [->|I1], I2 as [->|I2]; auto.
        * exfalso. apply Hy. rewrite <- E. apply in_map_iff. eauto.
        * exfalso. apply Hy. rewrite E. apply in_map_iff. eauto.
      + intros H. split; auto. apply memb_spec. now apply in_map. }
  apply refill_perm; [|exact HfP]. symmetry. now apply Permutation_length.
Qed.
