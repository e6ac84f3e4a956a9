From Verif Require Import Base BaseFacts Util UtilFacts Lang Spec SpecFacts Graph Api Denote DenoteFacts
  ArrayLit ArrayFacts Reach ApiFacts Tolist.
From Coq Require Import ZifyBool ZifyNat.

Lemma zsum_perm a b : Permutation a b -> zsum a = zsum b.
Proof. induction 1; cbn; lia. Qed.

Lemma dot_zsum a b : length a = length b ->
  dot a b = zsum (map (fun k => nth (Z.to_nat k) a 0 * nth (Z.to_nat k) b 0) (zrange (Z.of_nat (length a)))).
Proof.
  intros H. unfold zrange. rewrite Nat2Z.id, map_map. revert b H.
  induction a as [|x a IH]; intros [|y b] H; try discriminate; [reflexivity|].
  cbn [length seq map dot zsum]. rewrite Nat2Z.id. cbn [nth]. f_equal.
  rewrite (IH b) by (cbn in H; lia). rewrite <- seq_shift, map_map. f_equal.
  apply map_ext. intros k. rewrite !Nat2Z.id. reflexivity.
Qed.


Lemma dot_transpose axes idx st : Permutation axes (zrange (Z.of_nat (length st))) -> length idx = length axes ->
  dot idx (map (fun a => nth (Z.to_nat a) st 0) axes) = dot (unpermute axes idx) st.
Proof.
  intros HP HL. pose proof (perm_zrange_len _ _ HP) as HA.
  rewrite (dot_zsum (unpermute axes idx) st) by (rewrite unpermute_length; lia).
  rewrite unpermute_length, HA.
  rewrite <- (zsum_perm _ _ (Permutation_map (fun k => nth (Z.to_nat k) (unpermute axes idx) 0 * nth (Z.to_nat k) st 0) HP)).
  rewrite dot_zsum by (rewrite map_length; lia). rewrite HL. f_equal.
  apply nth_error_ext'. intros k. rewrite !nth_error_map.
  destruct (Nat.lt_ge_cases k (length axes)) as [Hk|Hk].
  - rewrite nth_error_zrange by lia. cbn. destruct (nth_error axes k) as [a|] eqn:Ea.
    + cbn. rewrite Nat2Z.id. f_equal. f_equal.
      * rewrite <- HA in HP. pose proof (unpermute_coord axes idx k a HP HL Ea) as U.
        destruct (nth_error idx k) as [v|] eqn:Ev; [|apply nth_error_None in Ev; lia].
        rewrite (nth_error_nth _ _ 0 Ev). symmetry. now apply nth_error_nth.
      * rewrite (nth_indep _ 0 (nth (Z.to_nat 0) st 0)) by (rewrite map_length; lia).
        rewrite (map_nth (fun a => nth (Z.to_nat a) st 0) axes 0). now rewrite (nth_error_nth _ _ 0 Ea).
    + apply nth_error_None in Ea. lia.
  - assert (E1 : nth_error axes k = None) by (apply nth_error_None; lia).
    assert (E2 : nth_error (zrange (Z.of_nat (length axes))) k = None) by (apply nth_error_None; rewrite zrange_length; lia).
    now rewrite E1, E2.
Qed.

Lemma dot_broadcast src st k idx : length st = length src -> length idx = (k + length src)%nat ->
  dot idx (map (fun '(s, t) => if s =? 1 then 0 else t) (combine (repeat 1 k ++ src) (repeat 0 k ++ st)))
  = dot (squash src (skipn k idx)) st.
Proof.
  revert idx. induction k as [|k IH]; intros idx H1 H2.
  - cbn. clear - H1 H2. revert st idx H1 H2.
    induction src as [|d src IH]; intros [|t st] [|i idx] H1 H2; try discriminate; [reflexivity|].
    cbn. rewrite IH by (cbn in *; lia). destruct (d =? 1); lia.
  - destruct idx as [|i idx]; [discriminate|]. cbn. rewrite (IH idx) by (cbn in *; lia). lia.
Qed.

Lemma wf_nonview g n nd : wf_graph g -> nth_error g n = Some nd -> is_view (n_op nd) = false ->
  n_strides nd = strides_from_shape (n_shape nd) /\ n_offset nd = 0.
Proof.
  intros Hw Hn Hv. specialize (Hw _ _ Hn). unfold wf_node in Hw.
  destruct (n_op nd) eqn:E; try discriminate Hv.
  { destruct Hw as (_ & _ & _ & H1 & H2 & _). auto. }
  all: destruct Hw as (a & x & _ & _ & _ & Hf & Hok); cbn in Hf.
  all: try (injection Hf as <-; cbn; auto; fail).
  - unfold fwd_pad in Hf. destruct (pyupdate _ _ _); [|discriminate]. injection Hf as <-. cbn. auto.
  - unfold fwd_dilate in Hf. destruct (pyupdate _ _ _); [|discriminate]. injection Hf as <-. cbn. auto.
Qed.

Section Addr.
Context (A : valg).

(* Every element of a view is an element of the array that owns the buffer, and strides and
   offset address exactly that element in row-major order. *)
Lemma view_address g a b : wf_graph g -> view_of g true a b ->
  forall nd bd, nth_error g a = Some nd -> nth_error g b = Some bd ->
  forall idx, in_range (n_shape nd) idx ->
  exists bi, in_range (n_shape bd) bi /\ t_at (den A g a) idx = t_at (den A g b) bi /\
             n_offset nd + dot idx (n_strides nd) = flat (n_shape bd) bi.
Proof.
  intros Hw Hv. induction Hv as [b nd0 Hb Hnv|a nd0 p pd b Ha Hvw Hp Hpd Hal Hv IH]; intros nd bd Hnd Hbd idx Hi.
  - rewrite Hnd in Hbd. injection Hbd as <-. rewrite Hnd in Hb. injection Hb as <-.
    destruct (wf_nonview g b nd Hw Hnd Hnv) as [-> ->]. exists idx. repeat split; auto.
  - rewrite Ha in Hnd. injection Hnd as ->.
    specialize (IH pd bd Hpd Hbd).
    pose proof (den_wf_eq A g a nd Hw Ha) as Hd. pose proof (Hw _ _ Ha) as Hwn.
    pose proof (wf_shape_facts A g p pd Hw Hpd) as [Ix In_ Is Il].
    unfold wf_node in Hwn. unfold den_node in Hd.
    destruct (n_op nd) eqn:E; try discriminate Hvw;
      destruct Hwn as (a' & x & Ha' & Hlt & Hx & Hf & Hok); rewrite Hp in Ha'; injection Ha' as <-;
      rewrite Hpd in Hx; injection Hx as <-; rewrite (tin_den A g nd 0 p Hp) in Hd; rewrite Hd.
    + (* reshape *) destruct Hok as (_ & Hnn & Hprod & Hc). cbn in Hf.
      assert (Hs : n_shape nd = shape) by (injection Hf as <-; reflexivity).
      assert (Hst : n_strides nd = strides_from_shape shape) by (injection Hf as <-; reflexivity).
      assert (Ho : n_offset nd = 0) by (injection Hf as <-; reflexivity).
      rewrite Hs in Hi. cbn [t_reshape t_at]. rewrite Ix.
      assert (Hk := flat_bounds _ _ Hi). rewrite Hprod in Hk.
      destruct (IH (unflat (n_shape pd) (flat shape idx))) as (bi & B1 & B2 & B3); [now apply unflat_in_range|].
      exists bi. repeat split; auto. rewrite <- B3, Ho, Hst.
      rewrite (Hal eq_refl (ex_intro _ shape eq_refl)).
      unfold is_contiguous in Hc. apply list_zeqb_eq in Hc. rewrite Hc.
      change (dot (unflat (n_shape pd) (flat shape idx)) (strides_from_shape (n_shape pd)))
        with (flat (n_shape pd) (unflat (n_shape pd) (flat shape idx))).
      rewrite flat_unflat by assumption. reflexivity.
    + (* broadcast *) destruct Hok as (_ & Hnn & Hb). cbn in Hf.
      assert (Hs : n_shape nd = shape) by (injection Hf as <-; reflexivity).
      assert (Hst : n_strides nd = n_strides (fwd_broadcast shape (n_in nd) pd)) by (injection Hf as <-; reflexivity).
      assert (Ho : n_offset nd = n_offset pd) by (injection Hf as <-; reflexivity).
      rewrite Hs in Hi. cbn [t_broadcast t_at]. rewrite Ix.
      destruct (IH _ (squash_in_range _ _ _ Hb Hi)) as (bi & B1 & B2 & B3).
      exists bi. repeat split; auto. rewrite <- B3, Ho, Hst. f_equal. cbn [fwd_broadcast new_node n_strides].
      replace (Z.to_nat (Z.of_nat (length shape) - Z.of_nat (length (n_shape pd)))) with (length shape - length (n_shape pd))%nat by lia.
      apply dot_broadcast; [assumption|]. rewrite (in_range_length _ _ Hi). destruct Hb. lia.
    + (* transpose *) destruct Hok as (_ & HP). cbn in Hf.
      assert (Hs : n_shape nd = map (fun a => nth (Z.to_nat a) (n_shape pd) 0) axes) by (injection Hf as <-; reflexivity).
      assert (Hst : n_strides nd = map (fun a => nth (Z.to_nat a) (n_strides pd) 0) axes) by (injection Hf as <-; reflexivity).
      assert (Ho : n_offset nd = n_offset pd) by (injection Hf as <-; reflexivity).
      rewrite Hs in Hi. cbn [t_transpose t_at].
      destruct (IH _ (unpermute_in_range _ _ _ HP Hi)) as (bi & B1 & B2 & B3).
      exists bi. repeat split; auto. rewrite <- B3, Ho, Hst. f_equal. apply dot_transpose; [now rewrite Is|].
      apply in_range_length in Hi. now rewrite map_length in Hi.
    + (* slice *) destruct Hok as (_ & Hs). cbn in Hf. unfold fwd_slice in Hf.
      destruct (slice_loop subs (n_strides pd)) as [[o sh] ss] eqn:Es.
      destruct (slice_loop_spec _ _ _ Hs Is _ _ _ Es) as (H1 & H2 & H3).
      assert (Hsh : n_shape nd = sh) by (injection Hf as <-; reflexivity).
      assert (Hst : n_strides nd = ss) by (injection Hf as <-; reflexivity).
      assert (Ho : n_offset nd = n_offset pd + o) by (injection Hf as <-; reflexivity).
      rewrite Hsh in Hi. cbn [t_slice t_at]. pose proof (H3 _ Hi) as H4. subst sh.
      destruct (IH _ (slice_idx_in_range _ _ _ Hs Hi)) as (bi & B1 & B2 & B3).
      exists bi. repeat split; auto. rewrite <- B3, Ho, Hst, H4. lia.
Qed.

(* the buffer of b holds the elements of b in row-major order *)
Definition holds (g : graph) (m : mem (val A)) (b : nat) : Prop :=
  exists data bd, m b = Some data /\ nth_error g b = Some bd /\ Z.of_nat (length data) = zprod (n_shape bd) /\
    forall idx, in_range (n_shape bd) idx -> t_at (den A g b) idx = or_fault (znth data (flat (n_shape bd) idx)).

Lemma pynth_znth {B} (l : list B) k x : znth l k = Some x -> pynth l k = Some x.
Proof.
  intros H. pose proof (znth_Some_range _ _ _ H). unfold pynth. now replace (k <? 0) with false by lia.
Qed.

Lemma mapO_mapM {X Y} (f : X -> outcome Y) (h : X -> res Y) l :
  (forall x, In x l -> exists y, f x = Done y /\ h x = Ok y) -> exists ys, mapO f l = Done ys /\ mapM h l = Ok ys.
Proof.
  induction l as [|x l IH]; intros H; [exists []; auto|].
  destruct (H x (or_introl eq_refl)) as (y & Hy & Hy'). destruct IH as (ys & H1 & H2); [intros; apply H; now right|].
  exists (y :: ys). cbn. rewrite Hy, Hy'. cbn. now rewrite H1, H2.
Qed.

Lemma read_nd_nested data shape strides offset (f : list Z -> res (val A)) :
  length strides = length shape ->
  (forall idx, in_range shape idx -> exists v, f idx = Ok v /\ znth data (offset + dot idx strides) = Some v) ->
  exists l, read_nd data shape strides offset = Done l /\ nested shape f = Ok l.
Proof.
  revert strides offset f. induction shape as [|d s IH]; intros strides offset f HL H.
  - destruct strides; [|discriminate]. destruct (H [] (Forall2_nil _)) as (v & Hv & Hz). cbn in Hz. rewrite Z.add_0_r in Hz.
    exists (Leaf v). cbn. rewrite Hv. cbn. now rewrite (pynth_znth _ _ _ Hz).
  - destruct strides as [|st sts]; [discriminate|]. cbn [read_nd nested].
    destruct (mapO_mapM (fun i => read_nd data s sts (offset + i * st)) (fun i => nested s (fun r => f (i :: r))) (zrange d)) as (ys & H1 & H2).
    { intros i Hi. apply in_zrange in Hi. apply IH; [cbn in HL; lia|]. intros idx Hidx.
      destruct (H (i :: idx)) as (v & Hv & Hz); [constructor; assumption|]. exists v. split; [assumption|].
      rewrite <- Hz. cbn. f_equal. lia. }
    exists (Nest ys). rewrite H1, H2. auto.
Qed.

Lemma view_of_base g al a b : wf_graph g -> view_of g al a b -> base g a = Some b.
Proof.
  intros Hw Hv. unfold base.
  assert (H : forall fuel, (a < fuel)%nat -> base_fuel fuel g a = Some b).
  { induction Hv as [b nd Hb Hnv|a nd p pd b Ha Hvw Hp Hpd _ Hv IH]; intros [|k] Hk; try lia; cbn.
    - now rewrite Hb, Hnv.
    - rewrite Ha, Hvw. destruct (n_in nd) as [|q r] eqn:Ei; [discriminate|]. cbn in Hp. injection Hp as ->.
      apply IH. pose proof (wf_inputs_lt g a nd Hw Ha) as HF. rewrite Ei in HF. inversion HF; subst. lia. }
  apply H. destruct Hv; apply nth_error_Some; congruence.
Qed.

Lemma tolist_view g m a b : wf_graph g -> view_of g true a b -> holds g m b ->
  exists l, tolist g m a = Done l /\ t_tolist (den A g a) = Ok l.
Proof.
  intros Hw Hv (data & bd & Hm & Hbd & HL & Hdat).
  pose proof (view_of_base g true a b Hw Hv) as Hbase.
  assert (exists nd, nth_error g a = Some nd) as [nd Hnd] by (destruct Hv; eauto).
  pose proof (wf_shape_facts A g a nd Hw Hnd) as [Ix In_ Is Il].
  unfold tolist. rewrite Hnd, Hbase, Hm. unfold t_tolist. rewrite Ix.
  apply read_nd_nested; [assumption|]. intros idx Hi.
  destruct (view_address g a b Hw Hv nd bd Hnd Hbd idx Hi) as (bi & B1 & B2 & B3).
  rewrite B2, B3, Hdat by assumption.
  pose proof (flat_bounds _ _ B1). destruct (znth_in_range data (flat (n_shape bd) bi)) as [v Hz]; [lia|].
  exists v. rewrite Hz. auto.
Qed.

Lemma tolist_absent g (m : mem (val A)) a b : base g a = Some b -> (a < length g)%nat -> m b = None -> tolist g m a = Throw AttrErr.
Proof.
  intros Hb Ha Hm. unfold tolist. destruct (nth_error g a) eqn:E; [|apply nth_error_None in E; lia].
  now rewrite Hb, Hm.
Qed.

End Addr.

Lemma base_total g a : wf_graph g -> (a < length g)%nat -> exists b, base g a = Some b /\ (b <= a)%nat /\
   view_of g false a b.
Proof.
  intros Hw Ha. unfold base.
  assert (H : forall fuel a, (a < fuel)%nat -> (a < length g)%nat -> exists b, base_fuel fuel g a = Some b /\ (b <= a)%nat /\ view_of g false a b).
  { induction fuel as [|k IH]; intros x Hk Hx; [lia|]. cbn.
    destruct (nth_error g x) as [nd|] eqn:E; [|apply nth_error_None in E; lia].
    destruct (is_view (n_op nd)) eqn:Ev.
    - pose proof (wf_inputs_lt g x nd Hw E) as HF. pose proof (Hw _ _ E) as Hwn. unfold wf_node in Hwn.
      assert (exists p pd, nth_error (n_in nd) 0 = Some p /\ nth_error g p = Some pd) as (p & pd & Hp & Hpd).
      { destruct (n_op nd); try discriminate; destruct Hwn as (p & pd & Hp & _ & Hpd & _); eauto. }
      destruct (n_in nd) as [|q r] eqn:Ei; [discriminate|]. cbn in Hp. injection Hp as ->. inversion HF; subst.
      destruct (IH p) as (b & Hb & Hle & Hv); [lia|lia|]. exists b. split; [assumption|]. split; [lia|].
      eapply vo_step; eauto; [now rewrite Ei|discriminate].
    - exists x. split; [reflexivity|]. split; [lia|]. eapply vo_self; eauto. }
  now apply H.
Qed.
