(* What tolist() of an arbitrary chain of views reads, including reshapes of views that do not start at offset 0. *)
From Verif Require Import Base BaseFacts Util UtilFacts Lang Spec SpecFacts Graph Api Denote DenoteFacts
  ArrayLit ArrayFacts Reach ApiFacts Tolist TolistFacts FrontSpec FrontFacts3 FrontFacts4.
From Coq Require Import ZifyBool ZifyNat.

(* specification: how far the chain of views below [a] has lost its place.  ndarray.py:126-130: reshape drops the
   offset of its operand, every other view keeps it (or adds to it) *)
Inductive lost (g : graph) : nat -> Z -> Prop :=
| lost_own b nd : nth_error g b = Some nd -> is_view (n_op nd) = false -> lost g b 0
| lost_keep a nd p k : nth_error g a = Some nd -> is_view (n_op nd) = true -> (forall s, n_op nd <> OReshape s) ->
    nth_error (n_in nd) 0 = Some p -> lost g p k -> lost g a k
| lost_reshape a nd s p pd k : nth_error g a = Some nd -> n_op nd = OReshape s -> nth_error (n_in nd) 0 = Some p ->
    nth_error g p = Some pd -> lost g p k -> lost g a (n_offset pd + k).

Lemma lost_fun g a k : lost g a k -> forall k', lost g a k' -> k = k'.
Proof.
  induction 1 as [b nd H1 H2|a nd p k H1 H2 H3 H4 H5 IH|a nd s p pd k H1 H2 H3 H4 H5 IH]; intros k' Hk'; inversion Hk' as [? nd' N1 N2|? nd' p' ? N1 N2 N3 N4 N5|? nd' s' p' pd' ? N1 N2 N3 N4 N5]; subst; rewrite N1 in H1; injection H1 as <-; auto.
  - congruence.
  - now rewrite N2 in H2.
  - congruence.
  - rewrite H4 in N4. injection N4 as <-. auto.
  - now apply H3 in N2.
  - now rewrite H2 in N2.
  - now apply N3 in H2.
  - rewrite H3 in N3. injection N3 as <-. rewrite H4 in N4. injection N4 as <-. f_equal. auto.
Qed.
Lemma view_lost g a b : view_of g false a b -> exists k, lost g a k.
Proof.
  induction 1 as [b nd Hb Hv|a nd p pd b Ha Hv Hp Hpd _ Hvo [k IH]]; [exists 0; econstructor; eauto|].
  destruct (n_op nd) eqn:E; try discriminate Hv; try (exists k; eapply lost_keep; eauto; rewrite E; [reflexivity|discriminate]).
  exists (n_offset pd + k). eapply lost_reshape; eauto.
Qed.

(* specification: element idx of the view a is element bi of the array b that owns the buffer *)
Inductive source (g : graph) (b : nat) : nat -> list Z -> list Z -> Prop :=
| src_own nd idx : nth_error g b = Some nd -> is_view (n_op nd) = false -> in_range (n_shape nd) idx -> source g b b idx idx
| src_reshape a nd s p pd idx bi : nth_error g a = Some nd -> n_op nd = OReshape s -> nth_error (n_in nd) 0 = Some p -> nth_error g p = Some pd ->
    in_range s idx -> source g b p (unflat (n_shape pd) (flat s idx)) bi -> source g b a idx bi
| src_broadcast a nd s p pd idx bi : nth_error g a = Some nd -> n_op nd = OBroadcast s -> nth_error (n_in nd) 0 = Some p -> nth_error g p = Some pd ->
    in_range s idx -> source g b p (squash (n_shape pd) (skipn (length s - length (n_shape pd)) idx)) bi -> source g b a idx bi
| src_transpose a nd axes p idx bi : nth_error g a = Some nd -> n_op nd = OTranspose axes -> nth_error (n_in nd) 0 = Some p ->
    in_range (n_shape nd) idx -> source g b p (unpermute axes idx) bi -> source g b a idx bi
| src_slice a nd subs p idx bi : nth_error g a = Some nd -> n_op nd = OSlice subs -> nth_error (n_in nd) 0 = Some p ->
    in_range (n_shape nd) idx -> source g b p (slice_idx subs idx) bi -> source g b a idx bi.

Lemma view_exact (A : valg) g a b k : wf_graph g -> view_of g false a b -> lost g a k ->
  forall nd bd, nth_error g a = Some nd -> nth_error g b = Some bd ->
  forall idx, in_range (n_shape nd) idx ->
  exists bi, in_range (n_shape bd) bi /\ source g b a idx bi /\ t_at (den A g a) idx = t_at (den A g b) bi /\
             n_offset nd + dot idx (n_strides nd) = flat (n_shape bd) bi - k.
Proof.
  intros Hw Hv. revert k. induction Hv as [b nd0 Hb Hnv|a nd0 p pd b Ha Hvw Hp Hpd _ Hv IH]; intros k Hk nd bd Hnd Hbd idx Hi.
  - rewrite Hnd in Hbd. injection Hbd as <-. rewrite Hnd in Hb. injection Hb as <-.
    destruct (wf_nonview g b nd Hw Hnd Hnv) as [-> ->]. exists idx. split; [assumption|]. split; [eapply src_own; eauto|]. split; [reflexivity|].
    assert (k = 0) as -> by (eapply lost_fun; [exact Hk|econstructor; eauto]). unfold flat. lia.
  - rewrite Ha in Hnd. injection Hnd as ->.
    assert (HK : exists k0, lost g p k0 /\ k = match n_op nd with OReshape _ => n_offset pd + k0 | _ => k0 end).
    { inversion Hk as [? nd' N1 N2|? nd' p' ? N1 N2 N3 N4 N5|? nd' s' p' pd' k' N1 N2 N3 N4 N5]; subst; rewrite N1 in Ha; injection Ha as <-.
      - congruence.
      - rewrite Hp in N4. injection N4 as <-. exists k. split; auto. destruct (n_op nd') eqn:EE; auto. now destruct (N3 shape).
      - rewrite Hp in N3. injection N3 as <-. rewrite Hpd in N4. injection N4 as <-. exists k'. now rewrite N2. }
    destruct HK as (k0 & Hk0 & HK). specialize (IH k0 Hk0 pd bd Hpd Hbd).
    pose proof (den_wf_eq A g a nd Hw Ha) as Hd. pose proof (Hw _ _ Ha) as Hwn.
    pose proof (wf_shape_facts A g p pd Hw Hpd) as [Ix In_ Is Il].
    unfold wf_node in Hwn. unfold den_node in Hd.
    destruct (n_op nd) eqn:E; try discriminate Hvw;
      destruct Hwn as (a' & x & Ha' & Hlt & Hx & Hf & Hok); rewrite Hp in Ha'; injection Ha' as <-;
      rewrite Hpd in Hx; injection Hx as <-; rewrite (tin_den A g nd 0 p Hp) in Hd; rewrite Hd.
    + (* reshape *) destruct Hok as (_ & Hnn & Hprod & Hc). cbn in Hf.
      assert (Hs : n_shape nd = shape) by (injection Hf as <-; reflexivity).
      assert (Hst : n_strides nd = strides_from_shape shape) by (injection Hf as <-; reflexivity).
      assert (Ho : n_offset nd = 0) by (injection Hf as <-; reflexivity).
      rewrite Hs in Hi. cbn [t_reshape t_at]. rewrite Ix.
      assert (Hkk := flat_bounds _ _ Hi). rewrite Hprod in Hkk.
      destruct (IH (unflat (n_shape pd) (flat shape idx))) as (bi & B1 & BS & B2 & B3); [now apply unflat_in_range|].
      exists bi. split; [exact B1|]. split; [eapply src_reshape; eauto; try congruence|]. split; [exact B2|]. rewrite Ho, Hst.
      unfold is_contiguous in Hc. apply list_zeqb_eq in Hc. rewrite Hc in B3.
      change (dot (unflat (n_shape pd) (flat shape idx)) (strides_from_shape (n_shape pd)))
        with (flat (n_shape pd) (unflat (n_shape pd) (flat shape idx))) in B3.
      rewrite flat_unflat in B3 by assumption. unfold flat at 1 in B3. lia.
    + (* broadcast *) destruct Hok as (_ & Hnn & Hb). cbn in Hf.
      assert (Hs : n_shape nd = shape) by (injection Hf as <-; reflexivity).
      assert (Hst : n_strides nd = n_strides (fwd_broadcast shape (n_in nd) pd)) by (injection Hf as <-; reflexivity).
      assert (Ho : n_offset nd = n_offset pd) by (injection Hf as <-; reflexivity).
      rewrite Hs in Hi. cbn [t_broadcast t_at]. rewrite Ix. subst k0.
      destruct (IH _ (squash_in_range _ _ _ Hb Hi)) as (bi & B1 & BS & B2 & B3).
      exists bi. split; [exact B1|]. split; [eapply src_broadcast; eauto; try congruence|]. split; [exact B2|]. rewrite <- B3, Ho, Hst. f_equal. cbn [fwd_broadcast new_node n_strides].
      replace (Z.to_nat (Z.of_nat (length shape) - Z.of_nat (length (n_shape pd)))) with (length shape - length (n_shape pd))%nat by lia.
      apply dot_broadcast; [assumption|]. rewrite (in_range_length _ _ Hi). destruct Hb. lia.
    + (* transpose *) destruct Hok as (_ & HP). cbn in Hf.
      assert (Hs : n_shape nd = map (fun a => nth (Z.to_nat a) (n_shape pd) 0) axes) by (injection Hf as <-; reflexivity).
      assert (Hst : n_strides nd = map (fun a => nth (Z.to_nat a) (n_strides pd) 0) axes) by (injection Hf as <-; reflexivity).
      assert (Ho : n_offset nd = n_offset pd) by (injection Hf as <-; reflexivity).
      rewrite Hs in Hi. cbn [t_transpose t_at]. subst k0.
      destruct (IH _ (unpermute_in_range _ _ _ HP Hi)) as (bi & B1 & BS & B2 & B3).
      exists bi. split; [exact B1|]. split; [eapply src_transpose; eauto; try congruence|]. split; [exact B2|]. rewrite <- B3, Ho, Hst. f_equal. apply dot_transpose; [now rewrite Is|].
      apply in_range_length in Hi. now rewrite map_length in Hi.
    + (* slice *) destruct Hok as (_ & Hs). cbn in Hf. unfold fwd_slice in Hf.
      destruct (slice_loop subs (n_strides pd)) as [[o sh] ss] eqn:Es.
      destruct (slice_loop_spec _ _ _ Hs Is _ _ _ Es) as (H1 & H2 & H3).
      assert (Hsh : n_shape nd = sh) by (injection Hf as <-; reflexivity).
      assert (Hst : n_strides nd = ss) by (injection Hf as <-; reflexivity).
      assert (Ho : n_offset nd = n_offset pd + o) by (injection Hf as <-; reflexivity).
      rewrite Hsh in Hi. cbn [t_slice t_at]. pose proof (H3 _ Hi) as H4. subst sh. subst k0.
      destruct (IH _ (slice_idx_in_range _ _ _ Hs Hi)) as (bi & B1 & BS & B2 & B3).
      exists bi. split; [exact B1|]. split; [eapply src_slice; eauto; try congruence|]. split; [exact B2|]. rewrite <- B3, Ho, Hst, H4. lia.
Qed.

(* the offsets that get lost are never negative (for arrays that have elements) *)
Lemma view_nonempty g a b : wf_graph g -> view_of g false a b -> forall nd, nth_error g a = Some nd -> 0 < zprod (n_shape nd) ->
  forall p pd, is_view (n_op nd) = true -> nth_error (n_in nd) 0 = Some p -> nth_error g p = Some pd -> 0 < zprod (n_shape pd).
Proof.
  intros Hw Hv nd Hnd Hpos p pd Hvw Hp Hpd. pose proof (wf_nonneg unit_valg g a nd Hw Hnd) as HN.
  pose proof (zprod_pos_all _ HN Hpos) as HA. pose proof (zeros_in_range _ HA) as HZ.
  pose proof (wf_nonneg unit_valg g p pd Hw Hpd) as HNp.
  enough (HI : exists i, in_range (n_shape pd) i) by (destruct HI as (i & Hi); pose proof (flat_bounds _ _ Hi); lia).
  pose proof (Hw _ _ Hnd) as W. unfold wf_node in W.
  pose proof (wf_strides_len unit_valg g p pd Hw Hpd) as HSL.
  destruct (n_op nd) as [ | | | |t|t|axes|subs| | | ] eqn:Eop; try discriminate Hvw;
    destruct W as (p' & x & W1 & W2 & W3 & W4 & W5); rewrite Hp in W1; injection W1 as <-; rewrite Hpd in W3; injection W3 as <-;
    cbn in W4; (let H := fresh in pose proof (f_equal (fun o => match o with Done m => (n_shape m, n_strides m, n_offset m) | _ => ([], [], 0) end) W4) as H; cbn in H); cbn in W5.
  - injection H as E1 E2 E3. rewrite <- E1 in Hpos. destruct W5 as (_ & Hnt & Hz & Hc).
    exists (unflat (n_shape pd) 0). apply unflat_in_range; auto. lia.
  - injection H as E1 E2 E3. rewrite <- E1 in HZ at 1. destruct W5 as (_ & Hnt & Hb). eexists. eapply squash_in_range; [exact Hb|exact HZ].
  - injection H as E1 E2 E3. rewrite <- E1 in HZ at 1. destruct W5 as (_ & Hperm). eexists. eapply unpermute_in_range; [exact Hperm|exact HZ].
  - destruct W5 as (_ & Hsub). unfold fwd_slice in H. destruct (slice_loop subs (n_strides pd)) as [[o sh] ss] eqn:ES.
    cbn in H. injection H as E1 E2 E3. destruct (slice_loop_spec _ _ _ Hsub HSL _ _ _ ES) as (S1 & S2 & S3).
    eexists. eapply slice_idx_in_range; [exact Hsub|]. rewrite <- S1, E1. exact HZ.
Qed.
Lemma lost_nonneg g a k : wf_graph g -> lost g a k -> forall nd, nth_error g a = Some nd -> 0 < zprod (n_shape nd) -> 0 <= k.
Proof.
  intros Hw. induction 1 as [b nd0 H1 H2|a nd0 p k H1 H2 H3 H4 H5 IH|a nd0 s p pd k H1 H2 H3 H4 H5 IH]; intros nd Hnd Hpos; [lia| |];
    rewrite H1 in Hnd; injection Hnd as <-.
  - destruct (nth_error g p) as [pd|] eqn:Hpd; [|inversion H5; congruence].
    destruct (base_total g a Hw) as (b & _ & _ & Hv); [apply nth_error_Some; congruence|]. eapply IH; eauto. eapply view_nonempty; eauto.
  - destruct (base_total g a Hw) as (b & _ & _ & Hv); [apply nth_error_Some; congruence|].
    assert (Hvw : is_view (n_op nd0) = true) by now rewrite H2.
    assert (HP : 0 < zprod (n_shape pd)) by (eapply view_nonempty; eauto). pose proof (IH pd H4 HP).
    destruct (base_total g p Hw) as (b' & _ & _ & Hv'); [apply nth_error_Some; congruence|].
    assert (exists bd, nth_error g b' = Some bd) as [bd Hbd] by (clear - Hv'; induction Hv'; eauto).
    pose proof (view_in_buffer g p b' Hw Hv' pd bd H4 Hbd _ (zeros_in_range _ (zprod_pos_all _ (wf_nonneg unit_valg g p pd Hw H4) HP))) as HB.
    rewrite dot_zeros in HB. lia.
Qed.
(* nothing is lost exactly if no reshape was taken of an array that does not start at offset 0 *)
Lemma lost_zero g a k : wf_graph g -> lost g a k -> forall nd, nth_error g a = Some nd -> 0 < zprod (n_shape nd) ->
  (k = 0 <-> exists b, view_of g true a b).
Proof.
  intros Hw. induction 1 as [b nd0 H1 H2|a nd0 p k H1 H2 H3 H4 H5 IH|a nd0 s p pd k H1 H2 H3 H4 H5 IH]; intros nd Hnd Hpos;
    rewrite H1 in Hnd; injection Hnd as <-.
  - split; auto. intros _. exists b. econstructor; eauto.
  - destruct (nth_error g p) as [pd|] eqn:Hpd; [|inversion H5; congruence].
    destruct (base_total g a Hw) as (b & _ & _ & Hv); [apply nth_error_Some; congruence|].
    rewrite (IH pd eq_refl (view_nonempty _ _ _ Hw Hv _ H1 Hpos _ _ H2 H4 Hpd)). split; intros (b' & Hb').
    + exists b'. eapply vo_step; eauto. intros _ (s & Hs). now apply H3 in Hs.
    + inversion Hb' as [? nd' N1 N2|? nd' p' pd' ? N1 N2 N3 N4 N5 N6]; subst; rewrite N1 in H1; injection H1 as <-; [congruence|]. rewrite H4 in N3. injection N3 as <-. eauto.
  - destruct (base_total g a Hw) as (b & _ & _ & Hv); [apply nth_error_Some; congruence|].
    assert (Hvw : is_view (n_op nd0) = true) by now rewrite H2.
    assert (HP : 0 < zprod (n_shape pd)) by (eapply view_nonempty; eauto). pose proof (lost_nonneg _ _ _ Hw H5 pd H4 HP) as HK. specialize (IH pd H4 HP).
    destruct (base_total g p Hw) as (b' & _ & _ & Hv'); [apply nth_error_Some; congruence|].
    assert (exists bd, nth_error g b' = Some bd) as [bd Hbd] by (clear - Hv'; induction Hv'; eauto).
    pose proof (view_in_buffer g p b' Hw Hv' pd bd H4 Hbd _ (zeros_in_range _ (zprod_pos_all _ (wf_nonneg unit_valg g p pd Hw H4) HP))) as HB.
    rewrite dot_zeros in HB. split.
    + intros HE. assert (k = 0) as Hk by lia. apply IH in Hk as (b1 & Hb1). exists b1. eapply vo_step; eauto. intros; lia.
    + intros (b1 & Hb1). inversion Hb1 as [? nd' N1 N2|? nd' p' pd' ? N1 N2 N3 N4 N5 N6]; subst; rewrite N1 in H1; injection H1 as <-; [congruence|].
      rewrite H3 in N3. injection N3 as <-. rewrite H4 in N4. injection N4 as <-. rewrite N5 by eauto. apply IH. eauto.
Qed.

Lemma mapO_nth {X Y} (f : X -> outcome Y) l : forall ys, mapO f l = Done ys -> forall k x, nth_error l k = Some x -> exists y, nth_error ys k = Some y /\ f x = Done y.
Proof.
  induction l as [|x0 l IH]; intros ys H [|k] x Hk; try discriminate; cbn in H; destruct (f x0) as [y0|] eqn:E; try discriminate; cbn in H;
    destruct (mapO f l) as [ys0|] eqn:E0; try discriminate; cbn in H; injection H as <-.
  - injection Hk as <-. exists y0. auto.
  - cbn. eapply IH; eauto.
Qed.
Lemma read_nd_follow {V} (data : list V) : forall shape strides off l, length strides = length shape -> read_nd data shape strides off = Done l ->
  forall idx, in_range shape idx -> follow l idx = pynth data (off + dot idx strides).
Proof.
  induction shape as [|d s IH]; intros strides off l HL H idx Hi; inversion Hi; subst; cbn [read_nd] in H.
  - destruct strides; [|discriminate]. cbn. rewrite Z.add_0_r. destruct (pynth data off); [|discriminate]. now injection H as <-.
  - destruct strides as [|st sts]; [discriminate|]. destruct (mapO _ _) as [ys|] eqn:E; [|discriminate]. cbn in H. injection H as <-.
    rewrite follow_nest. assert (Hx : nth_error (zrange d) (Z.to_nat x) = Some x) by (rewrite nth_error_zrange by lia; f_equal; lia).
    destruct (mapO_nth _ _ _ E _ _ Hx) as (w & Hw & Hf). unfold znth. replace (x <? 0) with false by lia. rewrite Hw.
    assert (HL' : length sts = length s) by (cbn in HL; lia). rewrite (IH _ _ _ HL' Hf l0 H4). cbn [dot]. f_equal. lia.
Qed.

Lemma read_nd_total {V} (data : list V) : forall shape strides off, length strides = length shape ->
  (forall idx, in_range shape idx -> 0 <= off + dot idx strides < Z.of_nat (length data)) -> exists l, read_nd data shape strides off = Done l.
Proof.
  induction shape as [|d s IH]; intros strides off HL H; cbn [read_nd].
  - destruct strides; [|discriminate]. specialize (H [] (Forall2_nil _)). cbn in H. rewrite Z.add_0_r in H. destruct (znth_in_range data off H) as [v Hv].
    rewrite (pynth_znth data off v Hv). eauto.
  - destruct strides as [|st sts]; [discriminate|].
    assert (HM : forall l, (forall i, In i l -> 0 <= i < d) -> exists ys, mapO (fun i => read_nd data s sts (off + i * st)) l = Done ys).
    { induction l as [|i l IHl]; intros Hl; [exists []; reflexivity|]. cbn.
      destruct (IH sts (off + i * st)) as (w & ->); [cbn in HL; lia| |].
      - intros idx Hi. specialize (H (i :: idx) ltac:(constructor; [apply Hl; now left|exact Hi])). cbn in H. lia.
      - destruct IHl as (ys & ->); [intros; apply Hl; now right|]. cbn. eauto. }
    destruct (HM (zrange d)) as (ys & ->); [intros i Hi; now apply in_zrange in Hi|]. cbn. eauto.
Qed.
Lemma view_exact_all g a b k : wf_graph g -> view_of g false a b -> lost g a k ->
  forall nd bd, nth_error g a = Some nd -> nth_error g b = Some bd ->
  forall idx, in_range (n_shape nd) idx ->
  exists bi, in_range (n_shape bd) bi /\ source g b a idx bi /\ (forall A : valg, t_at (den A g a) idx = t_at (den A g b) bi) /\
             n_offset nd + dot idx (n_strides nd) = flat (n_shape bd) bi - k.
Proof.
  intros Hw Hv Hk nd bd Hnd Hbd idx Hi. pose proof (view_exact unit_valg g a b k Hw Hv Hk nd bd Hnd Hbd idx Hi) as (bi & B1 & BS & _ & B3).
  exists bi. split; [exact B1|]. split; [exact BS|]. split; [|exact B3].
  intros A. destruct (view_exact A g a b k Hw Hv Hk nd bd Hnd Hbd idx Hi) as (bj & C1 & _ & C2 & C3).
  assert (bi = bj) as ->; [|exact C2]. rewrite <- (unflat_flat _ _ C1), <- (unflat_flat _ _ B1). f_equal. lia.
Qed.
Lemma tolist_exact {V} g (m : mem V) a b k data nd bd : wf_graph g -> view_of g false a b -> lost g a k ->
  nth_error g a = Some nd -> nth_error g b = Some bd -> m b = Some data -> Z.of_nat (length data) = zprod (n_shape bd) ->
  exists l, tolist g m a = Done l /\
    forall idx, in_range (n_shape nd) idx -> exists bi, in_range (n_shape bd) bi /\ source g b a idx bi /\ (forall A : valg, t_at (den A g a) idx = t_at (den A g b) bi) /\
      0 <= flat (n_shape bd) bi - k /\ follow l idx = znth data (flat (n_shape bd) bi - k).
Proof.
  intros Hw Hv Hk Hnd Hbd Hm HL. unfold tolist. rewrite Hnd, (view_of_base g false a b Hw Hv), Hm.
  pose proof (wf_strides_len unit_valg g a nd Hw Hnd) as HS.
  assert (HB : forall idx, in_range (n_shape nd) idx -> 0 <= n_offset nd + dot idx (n_strides nd) < Z.of_nat (length data)).
  { intros idx Hi. rewrite HL, <- (wf_len unit_valg g b bd Hw Hbd). eapply view_in_buffer; eauto. }
  destruct (read_nd_total data (n_shape nd) (n_strides nd) (n_offset nd) HS HB) as (l & Hl). exists l. split; [exact Hl|].
  intros idx Hi. destruct (view_exact_all g a b k Hw Hv Hk nd bd Hnd Hbd idx Hi) as (bi & B1 & BS & B2 & B3). exists bi. split; [exact B1|]. split; [exact BS|]. split; [exact B2|].
  rewrite (read_nd_follow _ _ _ _ _ HS Hl idx Hi), <- B3. split; [now apply HB|]. unfold pynth. now replace (n_offset nd + dot idx (n_strides nd) <? 0) with false by (specialize (HB idx Hi); lia).
Qed.

Lemma source_fun g b a idx bi : source g b a idx bi -> forall bj, source g b a idx bj -> bi = bj.
Proof.
  induction 1; intros bj HJ; inversion HJ; subst;
    repeat match goal with H1 : nth_error ?g ?a = Some ?x, H2 : nth_error ?g ?a = Some ?y |- _ => rewrite H1 in H2; injection H2 as <- end;
    repeat match goal with H1 : n_op ?n = _, H2 : n_op ?n = _ |- _ => rewrite H1 in H2; try discriminate H2; try (injection H2 as <-) end; auto;
    match goal with H1 : n_op ?n = _, H2 : is_view (n_op ?n) = _ |- _ => rewrite H1 in H2; discriminate H2 end.
Qed.
