From Verif Require Import Base BaseFacts Util UtilFacts Lang Spec SpecFacts Graph Api Denote.
From Coq Require Import ZifyBool ZifyNat.

Section DenFacts.
Context (A : valg).
Notation T := (tensor (val A)).

Lemma dens_snoc g nd : dens A (g ++ [nd]) = dens A g ++ [den_node A (dens A g) nd].
Proof. unfold dens. now rewrite fold_left_app. Qed.

Lemma dens_length g : length (dens A g) = length g.
Proof.
  induction g as [|nd g IH] using rev_ind; [reflexivity|].
  rewrite dens_snoc, !app_length, IH. reflexivity.
Qed.

Lemma dens_prefix g h : exists l, dens A (g ++ h) = dens A g ++ l.
Proof.
  induction h as [|nd h IH] using rev_ind.
  - exists []. now rewrite !app_nil_r.
  - destruct IH as [l IH]. rewrite app_assoc, dens_snoc, IH. rewrite <- app_assoc. eauto.
Qed.

(* adding arrays never changes the meaning of existing ones *)
Lemma den_app g h n : (n < length g)%nat -> den A (g ++ h) n = den A g n.
Proof.
  intros H. unfold den. destruct (dens_prefix g h) as [l ->].
  apply app_nth1. now rewrite dens_length.
Qed.

Lemma den_last g nd : den A (g ++ [nd]) (length g) = den_node A (dens A g) nd.
Proof.
  unfold den. rewrite dens_snoc, app_nth2 by (rewrite dens_length; lia).
  rewrite dens_length, Nat.sub_diag. reflexivity.
Qed.

Lemma tin_ext ts ts' nd k : (forall a, In a (n_in nd) -> nth a ts dummy_tensor = nth a ts' dummy_tensor) ->
  tin A ts nd k = tin A ts' nd k.
Proof.
  intros H. unfold tin. destruct (nth_error (n_in nd) k) eqn:E; [|reflexivity].
  apply H. eapply nth_error_In; eauto.
Qed.

Lemma den_node_ext ts ts' nd : (forall a, In a (n_in nd) -> nth a ts dummy_tensor = nth a ts' dummy_tensor) ->
  den_node A ts nd = den_node A ts' nd.
Proof. intros H. unfold den_node. now rewrite !(tin_ext ts ts' nd) by assumption. Qed.

Lemma den_eq g n nd : nth_error g n = Some nd -> Forall (fun a => (a < n)%nat) (n_in nd) ->
  den A g n = den_node A (dens A g) nd.
Proof.
  intros Hn Hin. destruct (nth_error_split _ _ Hn) as (g1 & g2 & -> & HL).
  replace (g1 ++ nd :: g2) with ((g1 ++ [nd]) ++ g2) by (now rewrite <- app_assoc).
  rewrite den_app by (rewrite app_length; cbn; lia).
  rewrite <- HL, den_last. apply den_node_ext.
  intros a Ha. rewrite Forall_forall in Hin. specialize (Hin _ Ha).
  change (den A g1 a = den A ((g1 ++ [nd]) ++ g2) a). rewrite <- app_assoc. symmetry. apply den_app. lia.
Qed.

Lemma wf_inputs_lt g n nd : wf_graph g -> nth_error g n = Some nd -> Forall (fun a => (a < n)%nat) (n_in nd).
Proof.
  intros Hw Hn. specialize (Hw _ _ Hn). unfold wf_node in Hw.
  destruct (n_op nd) eqn:E; [destruct Hw as (-> & _); constructor| | | | | | | | | |];
  destruct Hw as (a & x & Ha & Hlt & Hx & _ & Hok); cbn in Hok.
  all: try (destruct (n_in nd) as [|a0 [|b0 [|]]]; cbn in *; try lia; [injection Ha as ->]; constructor; [assumption|constructor]; fail).
  destruct Hok as (b1 & y & Hb & HL & Hbl & _).
  destruct (n_in nd) as [|a0 [|b0 [|]]]; cbn in *; try lia.
  injection Ha as ->. injection Hb as ->. repeat constructor; assumption.
Qed.

Lemma den_wf_eq g n nd : wf_graph g -> nth_error g n = Some nd -> den A g n = den_node A (dens A g) nd.
Proof. intros Hw Hn. apply den_eq; [assumption|]. eapply wf_inputs_lt; eauto. Qed.

Lemma tin_den g nd k a : nth_error (n_in nd) k = Some a -> tin A (dens A g) nd k = den A g a.
Proof. intros H. unfold tin. rewrite H. reflexivity. Qed.

Record shape_facts (g : graph) (n : nat) (nd : node) : Prop := {
  sf_den : t_shape (den A g n) = n_shape nd;
  sf_nonneg : nonneg (n_shape nd);
  sf_strides : length (n_strides nd) = length (n_shape nd);
  sf_len : n_len nd = zprod (n_shape nd)
}.

Lemma wf_shape_facts g n nd : wf_graph g -> nth_error g n = Some nd -> shape_facts g n nd.
Proof.
  intros Hw. revert nd. induction n as [n IH] using lt_wf_ind. intros nd Hn.
  pose proof (Hw _ _ Hn) as Hwn. pose proof (den_wf_eq g n nd Hw Hn) as Hd.
  unfold wf_node in Hwn. unfold den_node in Hd.
  destruct (n_op nd) eqn:Eop.
  { destruct Hwn as (Hin & Hnn & Hlen & Hst & Hoff & Hl).
    constructor; auto; rewrite ?Hd, ?Hst, ?strides_length; reflexivity. }
  all: destruct Hwn as (a & x & Ha & Hlt & Hx & Hf & Hok);
       rewrite (tin_den g nd 0 a Ha) in Hd;
       destruct (IH a Hlt x Hx) as [Ix In_ Is Il]; cbn in Hf, Hok.
  - (* un *) injection Hf as <-. constructor; cbn; rewrite ?Hd, ?strides_length, ?fold_left_mul1; cbn; auto.
  - (* bin *) injection Hf as <-. constructor; cbn; rewrite ?Hd, ?strides_length, ?fold_left_mul1; cbn; auto.
  - (* sum *) injection Hf as <-. unfold fwd_reduce in *.
    constructor; cbn; rewrite ?Hd, ?strides_length, ?fold_left_mul1; cbn; auto.
    + now rewrite Ix, reduce_shape_spec.
    + rewrite reduce_shape_spec. destruct keepdims; [now apply ones_axes_nonneg|now apply drop_axes_nonneg].
  - (* reshape *) destruct Hok as (_ & Hok & _). injection Hf as <-.
    constructor; cbn; rewrite ?Hd, ?strides_length, ?fold_left_mul1; cbn; auto.
  - (* broadcast *) destruct Hok as (_ & Hok & Hb & _). injection Hf as <-.
    constructor; cbn; rewrite ?Hd, ?strides_length, ?fold_left_mul1; cbn; auto.
    rewrite map_length, combine_length, !app_length, !repeat_length, Is. lia.
  - (* transpose *) destruct Hok as (_ & Hok). injection Hf as <-.
    constructor; cbn; rewrite ?Hd, ?map_length, ?fold_left_mul1; cbn; auto.
    + now rewrite Ix.
    + apply Forall_forall. intros d Hdd. apply in_map_iff in Hdd as (k & <- & _).
      destruct (nth_in_or_default (Z.to_nat k) (n_shape x) 0) as [Hi|Hi].
      * unfold nonneg in In_. rewrite Forall_forall in In_. now apply In_.
      * rewrite Hi. lia.
  - (* slice *) destruct Hok as (_ & Hok). unfold fwd_slice in Hf.
    destruct (slice_loop subs (n_strides x)) as [[o sh] ss] eqn:Es. injection Hf as <-.
    destruct (slice_loop_spec _ _ _ Hok Is _ _ _ Es) as (H1 & H2 & _).
    constructor; cbn; rewrite ?Hd, ?fold_left_mul1; cbn; auto.
    rewrite H1. eapply slice_shape_nonneg; eauto.
  - (* contiguous *) injection Hf as <-. constructor; cbn; rewrite ?Hd, ?strides_length, ?fold_left_mul1; cbn; auto.
  - (* pad *) destruct Hok as (_ & Hdim & Hb & Haf). unfold fwd_pad in Hf.
    rewrite pyupdate_nonneg in Hf by assumption. injection Hf as <-.
    constructor; cbn; rewrite ?Hd, ?strides_length, ?fold_left_mul1; cbn; auto.
    + rewrite Ix. f_equal. lia.
    + apply nonneg_upd; [assumption|].
      assert (0 <= nth (Z.to_nat dim) (n_shape x) 0); [|lia].
      destruct (nth_in_or_default (Z.to_nat dim) (n_shape x) 0) as [Hi|Hi]; [|lia].
      unfold nonneg in In_. rewrite Forall_forall in In_. now apply In_.
  - (* dilate *) destruct Hok as (_ & Hdim & Hst & Hn1). unfold fwd_dilate in Hf.
    rewrite pyupdate_nonneg in Hf by assumption. injection Hf as <-.
    constructor; cbn; rewrite ?Hd, ?strides_length, ?fold_left_mul1; cbn; auto.
    + now rewrite Ix.
    + apply nonneg_upd; [assumption|]. nia.
Qed.

Lemma fold_res_nofault {V} (f : V -> V -> res V) xs acc :
  (forall a b, f a b <> Fault) -> Forall (fun x => x <> Fault) xs -> fold_res f acc xs <> Fault.
Proof.
  intros Hf H. revert acc. induction H as [|x xs Hx _ IH]; intros acc; cbn; [discriminate|].
  destruct x as [v| |]; cbn; try congruence. specialize (Hf acc v).
  destruct (f acc v); cbn; [apply IH|discriminate|congruence].
Qed.

Lemma op1_nofault dt u x : op1 A dt u x <> Fault.
Proof. unfold op1. destruct (un A u x); cbn; discriminate. Qed.
Lemma op2_nofault dt b x y : op2 A dt b x y <> Fault.
Proof. unfold op2. destruct (bin A b x y); cbn; discriminate. Qed.

Lemma forward_dtype op ins x nd : forward_node op ins x = Done nd -> n_dtype nd = n_dtype x.
Proof.
  destruct op; cbn; try discriminate; try (intros H; injection H as <-; reflexivity).
  - unfold fwd_slice. destruct (slice_loop subs (n_strides x)) as [[o sh] ss]. intros H; injection H as <-; reflexivity.
  - unfold fwd_pad. destruct (pyupdate _ _ _); [|discriminate]. intros H; injection H as <-; reflexivity.
  - unfold fwd_dilate. destruct (pyupdate _ _ _); [|discriminate]. intros H; injection H as <-; reflexivity.
Qed.

(* replace the shape of nd in Hi by what the forward rule says *)
Ltac use_shape Hf Hi :=
  let H := fresh in
  pose proof (f_equal (fun o => match o with Done m => n_shape m | _ => [] end) Hf) as H;
  cbn in H; rewrite <- H in Hi; clear H; cbn.

(* inside its shape every array has a defined element, or an element operation raised *)
Lemma den_nofault g n nd idx : wf_graph g -> nth_error g n = Some nd ->
  in_range (n_shape nd) idx -> t_at (den A g n) idx <> Fault.
Proof.
  intros Hw. revert nd idx. induction n as [n IH] using lt_wf_ind. intros nd idx Hn Hi.
  pose proof (Hw _ _ Hn) as Hwn. pose proof (den_wf_eq g n nd Hw Hn) as Hd.
  unfold wf_node in Hwn. rewrite Hd. unfold den_node.
  destruct (n_op nd) eqn:Eop.
  { destruct Hwn as (Hin & Hnn & Hlen & Hst & Hoff & Hl). cbn.
    pose proof (flat_bounds _ _ Hi).
    destruct (znth_in_range (map (fun v => coerce A (n_dtype nd) (of_num A v)) vals) (flat (n_shape nd) idx)) as [v ->].
    { rewrite map_length. lia. }
    discriminate. }
  all: destruct Hwn as (a & x & Ha & Hlt & Hx & Hf & Hok);
       rewrite (tin_den g nd 0 a Ha);
       pose proof (wf_shape_facts g a x Hw Hx) as [Ix In_ Is Il]; cbn in Hf, Hok;
       pose proof (fun idx => IH a Hlt x idx Hx) as IHa.
  - use_shape Hf Hi. specialize (IHa idx Hi). destruct (t_at (den A g a) idx); cbn; try congruence.
    apply op1_nofault.
  - destruct Hok as (b' & y & Hb & _ & Hbl & Hy & Hsy).
    rewrite (tin_den g nd 1 b' Hb). use_shape Hf Hi.
    specialize (IHa idx Hi). destruct (t_at (den A g a) idx); cbn; try congruence.
    assert (IHb := IH b' Hbl y idx Hy). rewrite Hsy in IHb. specialize (IHb Hi).
    destruct (t_at (den A g b') idx); cbn; try congruence. apply op2_nofault.
  - cbn. apply fold_res_nofault; [intros; apply op2_nofault|].
    apply Forall_forall. intros r Hr. apply in_map_iff in Hr as (p & <- & Hp).
    apply sum_positions_in_range in Hp. rewrite Ix in Hp. now apply IHa.
  - destruct Hok as (_ & Hnn & Hprod & _). use_shape Hf Hi.
    apply IHa. rewrite Ix. apply unflat_in_range; [assumption|]. rewrite <- Hprod. now apply flat_bounds.
  - destruct Hok as (_ & Hnn & Hb). use_shape Hf Hi.
    apply IHa. rewrite Ix. now apply squash_in_range.
  - destruct Hok as (_ & HP). use_shape Hf Hi.
    apply IHa. now apply unpermute_in_range.
  - destruct Hok as (_ & Hs). unfold fwd_slice in Hf.
    destruct (slice_loop subs (n_strides x)) as [[o sh] ss] eqn:Es. use_shape Hf Hi.
    destruct (slice_loop_spec _ _ _ Hs Is _ _ _ Es) as (H1 & H2 & _).
    apply IHa. subst sh. now apply slice_idx_in_range.
  - use_shape Hf Hi. now apply IHa.
  - destruct Hok as (_ & Hdim & Hb & Haf). unfold fwd_pad in Hf.
    rewrite pyupdate_nonneg in Hf by assumption. use_shape Hf Hi. rewrite Ix.
    destruct (_ && _) eqn:E; [|discriminate]. apply IHa.
    eapply in_range_upd_shape; [exact Hi|lia|lia].
  - destruct Hok as (_ & Hdim & Hst & Hn1). unfold fwd_dilate in Hf.
    rewrite pyupdate_nonneg in Hf by assumption. use_shape Hf Hi.
    destruct (_ =? 0) eqn:E; [|discriminate]. apply IHa.
    assert (HB : 0 <= nth (Z.to_nat dim) idx 0 < (nth (Z.to_nat dim) (n_shape x) 0 - 1) * step + 1).
    { pose proof (in_range_nth _ _ (Z.to_nat dim) Hi) as HB. rewrite upd_length in HB.
      rewrite nth_upd_same in HB by lia. apply HB. lia. }
    eapply in_range_upd_shape; [exact Hi|lia|].
    split; [apply Z.div_pos; lia|]. apply Z.div_lt_upper_bound; [lia|]. nia.
Qed.

(* elements are already converted to the array's dtype *)
Lemma den_coerced g n nd idx v : (forall dt w, coerce A dt (coerce A dt w) = coerce A dt w) ->
  wf_graph g -> nth_error g n = Some nd ->
  in_range (n_shape nd) idx -> t_at (den A g n) idx = Ok v -> coerce A (n_dtype nd) v = v.
Proof.
  intros Hid Hw. revert nd idx v. induction n as [n IH] using lt_wf_ind. intros nd idx v Hn Hi.
  pose proof (Hw _ _ Hn) as Hwn. pose proof (den_wf_eq g n nd Hw Hn) as Hd.
  unfold wf_node in Hwn. rewrite Hd. unfold den_node. clear Hd.
  destruct (n_op nd) eqn:Eop.
  { destruct Hwn as (Hin & Hnn & Hlen & Hst & Hoff & Hl). cbn. rewrite znth_map.
    destruct (znth vals (flat (n_shape nd) idx)) eqn:E; cbn; [|discriminate]. intros H; injection H as <-. apply Hid. }
  all: destruct Hwn as (a & x & Ha & Hlt & Hx & Hf & Hok);
       rewrite (tin_den g nd 0 a Ha); rewrite (forward_dtype _ _ _ _ Hf);
       pose proof (wf_shape_facts g a x Hw Hx) as [Ix In_ Is Il]; cbn in Hf, Hok;
       pose proof (fun idx v => IH a Hlt x idx v Hx) as IHa.
  - use_shape Hf Hi. destruct (t_at (den A g a) idx); cbn; try congruence.
    unfold op1. destruct (un A u a0); cbn; [|discriminate]. intros H; injection H as <-. apply Hid.
  - destruct Hok as (b' & y & Hb & _ & Hbl & Hy & Hsy).
    rewrite (tin_den g nd 1 b' Hb). use_shape Hf Hi.
    destruct (t_at (den A g a) idx); cbn; try congruence.
    destruct (t_at (den A g b') idx); cbn; try congruence.
    unfold op2. destruct (bin A b a0 a1); cbn; [|discriminate]. intros H; injection H as <-. apply Hid.
  - cbn. assert (HF : forall xs acc w, coerce A (n_dtype x) acc = acc -> fold_res (op2 A (n_dtype x) BAdd) acc xs = Ok w -> coerce A (n_dtype x) w = w).
    { induction xs as [|r xs IHx]; cbn; intros acc w Hacc H; [congruence|].
      destruct r; cbn in H; try discriminate. unfold op2 in H at 1.
      destruct (bin A BAdd acc a0); cbn in H; [|discriminate]. eapply IHx; [|exact H]. apply Hid. }
    apply HF. apply Hid.
  - destruct Hok as (_ & Hnn & Hprod & _). use_shape Hf Hi.
    apply IHa. rewrite Ix. apply unflat_in_range; [assumption|]. rewrite <- Hprod. now apply flat_bounds.
  - destruct Hok as (_ & Hnn & Hb). use_shape Hf Hi.
    apply IHa. rewrite Ix. now apply squash_in_range.
  - destruct Hok as (_ & HP). use_shape Hf Hi.
    apply IHa. now apply unpermute_in_range.
  - destruct Hok as (_ & Hs). unfold fwd_slice in Hf.
    destruct (slice_loop subs (n_strides x)) as [[o sh] ss] eqn:Es. use_shape Hf Hi.
    destruct (slice_loop_spec _ _ _ Hs Is _ _ _ Es) as (H1 & H2 & _).
    apply IHa. subst sh. now apply slice_idx_in_range.
  - use_shape Hf Hi. now apply IHa.
  - destruct Hok as (_ & Hdim & Hb & Haf). unfold fwd_pad in Hf.
    rewrite pyupdate_nonneg in Hf by assumption. use_shape Hf Hi. rewrite Ix.
    destruct (_ && _) eqn:E; [|intros H; injection H as <-; apply Hid]. apply IHa.
    eapply in_range_upd_shape; [exact Hi|lia|lia].
  - destruct Hok as (_ & Hdim & Hst & Hn1). unfold fwd_dilate in Hf.
    rewrite pyupdate_nonneg in Hf by assumption. use_shape Hf Hi.
    destruct (_ =? 0) eqn:E; [|intros H; injection H as <-; apply Hid]. apply IHa.
    assert (HB : 0 <= nth (Z.to_nat dim) idx 0 < (nth (Z.to_nat dim) (n_shape x) 0 - 1) * step + 1).
    { pose proof (in_range_nth _ _ (Z.to_nat dim) Hi) as HB. rewrite upd_length in HB.
      rewrite nth_upd_same in HB by lia. apply HB. lia. }
    eapply in_range_upd_shape; [exact Hi|lia|].
    split; [apply Z.div_pos; lia|]. apply Z.div_lt_upper_bound; [lia|]. nia.
Qed.
End DenFacts.
