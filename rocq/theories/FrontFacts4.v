(* More frontend corollaries: integer indexing, dtypes, purity, bounds of every view. *)
From Verif Require Import Base BaseFacts Util UtilFacts Lang Spec SpecFacts Graph Api Denote DenoteFacts
  ArrayLit ArrayFacts Reach ApiFacts Tolist TolistFacts FrontSpec FrontFacts FrontFacts2 FrontFacts3.
From Coq Require Import ZifyBool ZifyNat.

(* ---- a[i1, ..., ik] *)
Lemma legal_ints is s : subs_legal (map SInt is) s <-> ((length is <= length s)%nat /\ Forall2 (fun i n => - n <= i < n) is (firstn (length is) s)).
Proof.
  revert s. induction is as [|i is IH]; intros s; cbn.
  - split; [intros _; split; [lia|destruct s; constructor]|auto].
  - destruct s as [|n s]; cbn; [split; [contradiction|lia]|]. rewrite IH. split.
    + intros (H & HL & HF). split; [lia|]. constructor; auto.
    + intros (HL & HF). inversion HF; subst. repeat split; auto; lia.
Qed.
Lemma selects_nil s idx src : selects [] s idx src -> src = idx.
Proof. remember (@nil sub) as e. intros H. induction H; try discriminate; auto. now rewrite IHselects. Qed.
Lemma selects_ints is : forall s idx src, selects (map SInt is) s idx src -> src = from_ends s is ++ idx.
Proof.
  induction is as [|i is IH]; intros s idx src H; cbn in H.
  - rewrite (selects_nil _ _ _ H). now destruct s.
  - inversion H; subst. cbn. f_equal. auto.
Qed.
Lemma selected_ints is : forall s, (length is <= length s)%nat -> selected_shape (map SInt is) s = skipn (length is) s.
Proof. induction is as [|i is IH]; intros [|n s] H; cbn in *; try lia; auto. apply IH. lia. Qed.

Section F.
Context (A : valg).
Lemma index_ints g a is : reach g -> valid g a ->
  ((exists g' r, api_getitem g a (map SInt is) = Done (g', r)) <->
     ((length is <= length (shape_of g a))%nat /\ Forall2 (fun i n => - n <= i < n) is (firstn (length is) (shape_of g a)))) /\
  (forall e, api_getitem g a (map SInt is) = Throw e -> e = RuntimeErr) /\
  (forall g' r, api_getitem g a (map SInt is) = Done (g', r) ->
     shape_of g' r = skipn (length is) (shape_of g a) /\
     forall idx, in_range (shape_of g' r) idx -> t_at (den A g' r) idx = t_at (den A g a) (from_ends (shape_of g a) is ++ idx)).
Proof.
  intros Hr Hv. destruct (getitem_accepts A g a (map SInt is) Hr Hv) as (Hacc & Hex). rewrite legal_ints in Hacc.
  split; [exact Hacc|]. split; [exact Hex|]. intros g' r H.
  destruct (getitem_done A _ _ _ _ _ Hr H) as (_ & HS & HD).
  assert (HL : (length is <= length (shape_of g a))%nat) by (apply Hacc; eauto).
  rewrite selected_ints in HS by exact HL. split; [exact HS|]. intros idx Hi. destruct (HD idx Hi) as (src & Hsel & ->).
  f_equal. now apply selects_ints.
Qed.

(* ---- purity *)
Lemma call_pure g c g' r : run_call g c = Done (g', r) ->
  valid g' r /\ (exists h, g' = g ++ h) /\
  forall a, valid g a -> nth_error g' a = nth_error g a /\ den A g' a = den A g a.
Proof.
  intros H. apply run_call_appends in H as (h & -> & Hr). split; [exact Hr|]. split; [eauto|].
  intros a Ha. split; [now apply nth_error_app1|now apply den_app].
Qed.
End F.

(* ---- dtypes *)
Lemma forward_dtype_of g op a ins g' r : forward g op (a :: ins) = Done (g', r) -> dtype_of g' r = dtype_of g a.
Proof.
  intros H. apply forward_done in H as (b & x & nd & H1 & H2 & H3 & -> & -> & _ & _). cbn in H1. injection H1 as <-.
  unfold dtype_of. rewrite nth_error_snoc, H2. cbn. f_equal. eapply forward_dtype; eauto.
Qed.
Lemma dtype_of_app g h a : valid g a -> dtype_of (g ++ h) a = dtype_of g a.
Proof. intros H. unfold dtype_of. now rewrite nth_error_app1. Qed.
Lemma dtype_of_some g a nd : nth_error g a = Some nd -> valid g a.
Proof. intros H. apply nth_error_Some. congruence. Qed.
Lemma binary_dtype g b l r g' x : api_binary g b l r = Done (g', x) -> dtype_of g' x = dtype_of g l.
Proof.
  unfold api_binary, api_broadcasted. intros H. apply obind_done in H as ([[g1 l1] r1] & Hb & H).
  apply obind_done in Hb as (nl & H1 & Hb). apply obind_done in Hb as (nr & H2 & Hb).
  apply obind_done in Hb as (ns & H3 & Hb). apply obind_done in Hb as ([g2 l2] & H4 & Hb).
  apply obind_done in Hb as ([g3 r2] & H5 & Hb). injection Hb as <- <- <-.
  rewrite (forward_dtype_of _ _ _ _ _ _ H). apply get_done in H1, H2.
  assert (HL : dtype_of g2 l2 = dtype_of g l /\ valid g2 l2).
  { destruct (list_zeqb (n_shape nl) ns); [injection H4 as <- <-; split; [reflexivity|now apply dtype_of_some in H1]|].
    unfold api_broadcast_to in H4. split; [now apply forward_dtype_of in H4|].
    apply forward_appends in H4 as (h & -> & ?). assumption. }
  destruct HL as [HL Hv]. rewrite <- HL.
  destruct (list_zeqb (n_shape nr) ns); [now injection H5 as <- <-|].
  unfold api_broadcast_to in H5. apply forward_appends in H5 as (h & -> & ?). now apply dtype_of_app.
Qed.
Lemma call_dtype g c a g' r : valid g a -> first_operand c = Some a -> run_call g c = Done (g', r) -> dtype_of g' r = dtype_of g a.
Proof.
  intros Hv Hf H. destruct c; cbn in Hf; try discriminate; injection Hf as ->; cbn [run_call] in H.
  - eapply forward_dtype_of; eauto.
  - eapply binary_dtype; eauto.
  - unfold api_binary_scalar, api_array in H. apply obind_done in H as ([g1 r1] & H1 & H).
    apply obind_done in H1 as ([fl sh] & H0 & H1). cbn [array_dfs] in H0. injection H0 as <- <-. unfold api_const in H1. injection H1 as <- <-.
    rewrite (binary_dtype _ _ _ _ _ _ H). now apply dtype_of_app.
  - unfold api_sum in H. apply obind_done in H as (nd & _ & H). apply obind_done in H as (ax & _ & H). eapply forward_dtype_of; eauto.
  - unfold api_getitem in H. apply obind_done in H as (nd & _ & H). cbn zeta in H. destruct (Nat.ltb _ _); [discriminate|].
    apply obind_done in H as (ns & _ & H). eapply forward_dtype_of; eauto.
  - eapply forward_dtype_of; eauto.
  - unfold api_reshape in H. apply obind_done in H as (nd & Hn & H). destruct (negb _); [discriminate|].
    apply obind_done in H as ([g1 c] & Hc & H). rewrite (forward_dtype_of _ _ _ _ _ _ H).
    unfold api_contiguous in Hc. apply obind_done in Hc as (nd' & _ & Hc). destruct (is_contiguous nd'); [now injection Hc as <- <-|].
    eapply forward_dtype_of; eauto.
  - unfold api_transpose in H. apply obind_done in H as (nd & _ & H). destruct (negb _); [discriminate|]. eapply forward_dtype_of; eauto.
  - unfold api_T in H. apply obind_done in H as (nd & _ & H). destruct (Nat.leb _ _); [now injection H as <- <-|].
    unfold api_transpose in H. apply obind_done in H as (nd' & _ & H). destruct (negb _); [discriminate|]. eapply forward_dtype_of; eauto.
  - unfold api_contiguous in H. apply obind_done in H as (nd' & _ & H). destruct (is_contiguous nd'); [now injection H as <- <-|].
    eapply forward_dtype_of; eauto.
  - unfold api_pad in H. apply obind_done in H as (nd' & _ & H). destruct (_ <=? _); [discriminate|].
    destruct (_ && _); [now injection H as <- <-|]. eapply forward_dtype_of; eauto.
  - unfold api_dilate in H. apply obind_done in H as (nd' & _ & H). destruct (_ <=? _); [discriminate|].
    destruct (_ =? _); [now injection H as <- <-|]. eapply forward_dtype_of; eauto.
Qed.

Lemma const_dtype g s vals : dtype_of (g ++ [const_node s vals]) (length g) = Some (data_dtype (hd_error vals)).
Proof. unfold dtype_of. rewrite nth_error_snoc. destruct vals as [|[z|m e] vals]; reflexivity. Qed.
Lemma array_leaves v : forall dim fl sh fl' sh', array_dfs v dim fl sh = Done (fl', sh') -> fl' = fl ++ leaves v.
Proof.
  induction v as [x|l IH] using nest_ind'; intros dim fl sh fl' sh' H; cbn [array_dfs] in H.
  - now injection H as <- <-.
  - rewrite array_dfs_nest in H || idtac. change (array_dfs (Nest l) dim fl sh = Done (fl', sh')) in H. rewrite array_dfs_nest in H.
    apply obind_done in H as (sh1 & _ & H). cbn [leaves]. revert fl sh1 H. induction l as [|w l IHl]; intros fl sh1 H; cbn in H.
    + injection H as <- <-. now rewrite app_nil_r.
    + apply obind_done in H as ([fl1 sh2] & H1 & H). apply IH in H1; [|now left]. apply IHl in H; [|intros; eapply IH; eauto; now right].
      subst. cbn. now rewrite app_assoc.
Qed.
Lemma array_dtype g v g' r : api_array g v = Done (g', r) -> dtype_of g' r = Some (data_dtype (hd_error (leaves v))).
Proof.
  unfold api_array. intros H. apply obind_done in H as ([fl sh] & H1 & H). apply array_leaves in H1. cbn in H1. subst fl.
  unfold api_const in H. injection H as <- <-. apply const_dtype.
Qed.
Lemma ones_like_dtype g t g' r : reach g -> valid g t -> zprod (shape_of g t) <> 0 -> api_ones_like g t = Done (g', r) ->
  (dtype_of g t = Some Int64 \/ dtype_of g t = Some Float64) -> dtype_of g' r = dtype_of g t /\ shape_of g' r = shape_of g t.
Proof.
  intros Hr Hv Hz H Hd. pose proof (shape_nonneg g t Hr) as Hn. destruct (valid_node _ _ Hv) as [nd Hnd].
  unfold api_ones_like, api_full_like, get in H. rewrite Hnd in H. cbn [obind] in H. unfold api_full, api_const in H. injection H as <- <-.
  rewrite const_dtype. unfold shape_of. rewrite nth_error_snoc, Hnd. split; [|reflexivity].
  unfold shape_of in Hz, Hn. rewrite Hnd in Hz, Hn. pose proof (zprod_nonneg _ Hn).
  unfold dtype_of in *. rewrite Hnd in *. cbn in *. destruct (Z.to_nat (zprod (n_shape nd))) eqn:E; [lia|]. cbn.
  destruct Hd as [Hd|Hd]; injection Hd as ->; reflexivity.
Qed.
Lemma reach_dtype g : reach g -> forall a, valid g a -> dtype_of g a = Some Int64 \/ dtype_of g a = Some Float64.
Proof.
  intros Hr. pose proof (reach_wf _ Hr) as Hw.
  assert (Hc : forall g, reach g -> forall a nd, nth_error g a = Some nd -> is_const (n_op nd) = true -> n_dtype nd = Int64 \/ n_dtype nd = Float64).
  { clear. assert (Hfwd : forall (P : node -> Prop) g op ins g' r, forward g op ins = Done (g', r) ->
        (forall nd, is_const (n_op nd) = false -> P nd) -> (forall a nd, nth_error g a = Some nd -> P nd) ->
        forall a nd, nth_error g' a = Some nd -> P nd).
    { intros P g op ins g' r H Hnew Hold a nd Ha. apply forward_done in H as (b & x & nd' & H1 & H2 & H3 & -> & -> & H4 & _).
      destruct (Nat.lt_ge_cases a (length g)) as [Hl|Hl]; [rewrite nth_error_app1 in Ha by assumption; eauto|].
      rewrite nth_error_app2 in Ha by assumption. destruct (a - length g)%nat as [|k]; cbn in Ha; [|now destruct k].
      injection Ha as <-. apply Hnew. rewrite H4. destruct op; (reflexivity || discriminate H3). }
    assert (Hcon : forall (P : node -> Prop) g s v, P (const_node s v) -> (forall a nd, nth_error g a = Some nd -> P nd) ->
        forall a nd, nth_error (g ++ [const_node s v]) a = Some nd -> P nd).
    { intros P g s v Hp Hold a nd Ha. destruct (Nat.lt_ge_cases a (length g)) as [Hl|Hl]; [rewrite nth_error_app1 in Ha by assumption; eauto|].
      rewrite nth_error_app2 in Ha by assumption. destruct (a - length g)%nat as [|k]; cbn in Ha; [|now destruct k]. now injection Ha as <-. }
    set (P := fun nd => is_const (n_op nd) = true -> n_dtype nd = Int64 \/ n_dtype nd = Float64).
    assert (HPn : forall nd, is_const (n_op nd) = false -> P nd) by (intros nd H; unfold P; congruence).
    assert (HPc : forall s v, P (const_node s v)) by (intros s [|[z|m e] v] _; cbn; auto).
    intros g Hr. change (forall a nd, nth_error g a = Some nd -> P nd).
    induction Hr as [|g c g' r Hr IH Hok H]; [intros [|a] nd Ha; discriminate|].
    assert (Hbin : forall g0 b l r0 g1 x, (forall a nd, nth_error g0 a = Some nd -> P nd) -> api_binary g0 b l r0 = Done (g1, x) ->
        forall a nd, nth_error g1 a = Some nd -> P nd).
    { intros g0 b l r0 g1 x H0 Hb. unfold api_binary, api_broadcasted in Hb. apply obind_done in Hb as ([[g2 l1] r1] & Hb & Hf).
      apply obind_done in Hb as (nl & _ & Hb). apply obind_done in Hb as (nr & _ & Hb). apply obind_done in Hb as (ns & _ & Hb).
      apply obind_done in Hb as ([g3 l2] & H4 & Hb). apply obind_done in Hb as ([g4 r2] & H5 & Hb). injection Hb as <- <- <-.
      eapply Hfwd; [exact Hf|exact HPn|].
      assert (forall a nd, nth_error g3 a = Some nd -> P nd).
      { destruct (list_zeqb (n_shape nl) ns); [now injection H4 as <- <-|]. eapply Hfwd; [exact H4|exact HPn|exact H0]. }
      destruct (list_zeqb (n_shape nr) ns); [now injection H5 as <- <-|]. eapply Hfwd; [exact H5|exact HPn|assumption]. }
    assert (Harr : forall g0 v g1 x, (forall a nd, nth_error g0 a = Some nd -> P nd) -> api_array g0 v = Done (g1, x) ->
        forall a nd, nth_error g1 a = Some nd -> P nd).
    { intros g0 v g1 x H0 Hb. unfold api_array in Hb. apply obind_done in Hb as ([fl sh] & _ & Hb). unfold api_const in Hb. injection Hb as <- <-.
      apply Hcon; auto. }
    assert (Hcont : forall g0 a0 g1 x, (forall a nd, nth_error g0 a = Some nd -> P nd) -> api_contiguous g0 a0 = Done (g1, x) ->
        forall a nd, nth_error g1 a = Some nd -> P nd).
    { intros g0 a0 g1 x H0 Hb. unfold api_contiguous in Hb. apply obind_done in Hb as (nd' & _ & Hb). destruct (is_contiguous nd'); [now injection Hb as <- <-|].
      eapply Hfwd; eauto. }
    destruct c; cbn [run_call] in H;
      unfold api_arange, api_full_like, api_ones_like, api_full_like, api_zeros_like, api_full_like, api_full, api_const, api_unary, api_binary_scalar, api_sum, api_getitem,
        api_broadcast_to, api_reshape, api_T, api_transpose, api_pad, api_dilate in H; cbn zeta in H;
      repeat match goal with
             | H : obind _ _ = Done _ |- _ => apply obind_done in H as (? & ? & H)
             | H : (if ?c then _ else _) = Done _ |- _ => destruct c; try discriminate H
             | H : (let '(_, _) := ?p in _) = Done _ |- _ => destruct p
             | H : Done _ = Done _ |- _ => injection H as <- <-
             end; eauto; try (eapply Hfwd; eassumption); try (eapply Hcon; eauto; fail).
    eapply Hfwd; [exact H|exact HPn|]. eapply Hcont; eauto. }
  intros a. induction a as [a IH] using lt_wf_ind. intros Hv. destruct (valid_node _ _ Hv) as [nd Hnd].
  destruct (is_const (n_op nd)) eqn:E.
  - unfold dtype_of. rewrite Hnd. cbn. destruct (Hc _ Hr _ _ Hnd E) as [->| ->]; auto.
  - pose proof (Hw _ _ Hnd) as W. unfold wf_node in W.
    assert (exists b x, (b < a)%nat /\ nth_error g b = Some x /\ n_dtype nd = n_dtype x) as (b & x & Hlt & Hx & Hdt).
    { destruct (n_op nd); try discriminate E; destruct W as (b0 & x0 & W1 & W2 & W3 & W4 & W5); exists b0, x0; repeat split; auto; eapply forward_dtype; eauto. }
    specialize (IH b Hlt (dtype_of_some _ _ _ Hx)). unfold dtype_of in *. rewrite Hnd, Hx in *. cbn in *. now rewrite Hdt.
Qed.

(* ---- addresses of every view stay inside the buffer that owns the data *)
Lemma zeros_in_range s : Forall (fun d => 0 < d) s -> in_range s (repeat 0 (length s)).
Proof. induction 1; cbn; constructor; auto. lia. Qed.
Lemma lasts_in_range s : Forall (fun d => 0 < d) s -> in_range s (map (fun d => d - 1) s).
Proof. induction 1; cbn; constructor; auto. lia. Qed.
Lemma zprod_pos_all s : nonneg s -> 0 < zprod s -> Forall (fun d => 0 < d) s.
Proof.
  induction s as [|d s IH]; intros Hn H; constructor; inversion Hn; subst; rewrite zprod_cons in H.
  - destruct (Z.eq_dec d 0) as [->|]; lia.
  - apply IH; auto. pose proof (zprod_nonneg s H3). nia.
Qed.
Lemma flat_lasts s : Forall (fun d => 0 < d) s -> flat s (map (fun d => d - 1) s) = zprod s - 1.
Proof.
  induction 1 as [|d s Hd Hs IH]; [reflexivity|]. cbn [map]. rewrite flat_cons, IH, zprod_cons. lia.
Qed.
Lemma dot_zeros n l : dot (repeat 0 n) l = 0.
Proof. revert l. induction n as [|n IH]; intros [|x l]; cbn; auto. Qed.

Lemma view_in_buffer g a b : wf_graph g -> view_of g false a b ->
  forall nd bd, nth_error g a = Some nd -> nth_error g b = Some bd ->
  forall idx, in_range (n_shape nd) idx -> 0 <= n_offset nd + dot idx (n_strides nd) < n_len bd.
Proof.
  intros Hw H. induction H as [b nd0 Hb Hv|a nd0 p pd b Ha Hv Hp Hpd _ Hvo IH]; intros nd bd Hn Hbd idx Hi.
  - rewrite Hb in Hn, Hbd. injection Hn as <-. injection Hbd as <-.
    destruct (wf_nonview g b nd0 Hw Hb Hv) as [-> ->]. rewrite (wf_len unit_valg g b nd0 Hw Hb).
    pose proof (flat_bounds _ _ Hi) as HF. unfold flat in HF. lia.
  - rewrite Ha in Hn. injection Hn as <-. specialize (IH pd bd Hpd Hbd).
    pose proof (Hw _ _ Ha) as W. unfold wf_node in W.
    pose proof (wf_strides_len unit_valg g p pd Hw Hpd) as HSL.
    pose proof (wf_nonneg unit_valg g p pd Hw Hpd) as HNN.
    destruct (n_op nd0) as [ | | | |t|t|axes|subs| | | ] eqn:Eop; try discriminate Hv;
      destruct W as (p' & x & W1 & W2 & W3 & W4 & W5); rewrite Hp in W1; injection W1 as <-; rewrite Hpd in W3; injection W3 as <-;
      cbn in W4; (let H := fresh in pose proof (f_equal (fun o => match o with Done m => (n_shape m, n_strides m, n_offset m) | _ => ([], [], 0) end) W4) as H;
        cbn in H); cbn in W5.
    + injection H as E1 E2 E3. rewrite <- E1 in Hi. rewrite <- E2, <- E3. destruct W5 as (_ & Hnt & Hz & Hc).
      pose proof (flat_bounds _ _ Hi) as HF. unfold flat in HF.
      assert (Hpos : Forall (fun d => 0 < d) (n_shape pd)) by (apply zprod_pos_all; auto; lia).
      apply list_zeqb_eq in Hc. pose proof (IH _ (zeros_in_range _ Hpos)) as I1. rewrite dot_zeros in I1.
      pose proof (IH _ (lasts_in_range _ Hpos)) as I2. rewrite Hc in I2. pose proof (flat_lasts _ Hpos) as HL. unfold flat in HL. lia.
    + injection H as E1 E2 E3. rewrite <- E1 in Hi. rewrite <- E2, <- E3. destruct W5 as (_ & Hnt & Hb).
      pose proof (in_range_length _ _ Hi) as HIL. destruct Hb as [HbL HbF].
      replace (Z.to_nat (Z.of_nat (length t) - Z.of_nat (length (n_shape pd)))) with (length t - length (n_shape pd))%nat by lia.
      rewrite dot_broadcast by lia. apply IH. apply squash_in_range; [split; assumption|exact Hi].
    + injection H as E1 E2 E3. rewrite <- E1 in Hi. rewrite <- E2, <- E3. destruct W5 as (_ & Hperm).
      rewrite dot_transpose.
      * apply IH. apply unpermute_in_range; auto.
      * rewrite HSL. exact Hperm.
      * rewrite (in_range_length _ _ Hi), map_length. reflexivity.
    + destruct W5 as (_ & Hsub). unfold fwd_slice in H. destruct (slice_loop subs (n_strides pd)) as [[o sh] ss] eqn:ES.
      cbn in H. injection H as E1 E2 E3. rewrite <- E1 in Hi. rewrite <- E2, <- E3.
      destruct (slice_loop_spec _ _ _ Hsub HSL _ _ _ ES) as (S1 & S2 & S3). specialize (S3 idx Hi).
      pose proof (slice_idx_in_range _ _ idx Hsub ltac:(now rewrite <- S1)) as Hin. specialize (IH _ Hin). lia.
Qed.

Lemma extents_ok g a nd : reach g -> nth_error g a = Some nd ->
  nonneg (n_shape nd) /\ length (n_strides nd) = length (n_shape nd) /\ n_len nd = zprod (n_shape nd) /\
  exists b bd, base g a = Some b /\ nth_error g b = Some bd /\
    forall idx, in_range (n_shape nd) idx -> 0 <= n_offset nd + dot idx (n_strides nd) < n_len bd.
Proof.
  intros Hr H. pose proof (reach_wf _ Hr) as Hw.
  split; [exact (wf_nonneg unit_valg g a nd Hw H)|]. split; [exact (wf_strides_len unit_valg g a nd Hw H)|].
  split; [exact (wf_len unit_valg g a nd Hw H)|].
  destruct (base_total g a Hw (dtype_of_some _ _ _ H)) as (b & Hb & Hle & Hvo).
  pose proof (dtype_of_some _ _ _ H) as Hv. unfold valid in Hv.
  destruct (nth_error g b) as [bd|] eqn:E; [|apply nth_error_None in E; lia].
  exists b, bd. split; [exact Hb|]. split; [exact E|]. eapply view_in_buffer; eauto.
Qed.

Lemma transpose_elements (A : valg) g a axes g' r : reach g -> api_transpose g a axes = Done (g', r) ->
  shape_of g' r = map (fun k => nth (Z.to_nat k) (shape_of g a) 0) axes /\
  forall idx, in_range (shape_of g' r) idx -> exists src, t_at (den A g' r) idx = t_at (den A g a) src /\
    length src = length (shape_of g a) /\
    forall k ax, nth_error axes k = Some ax -> nth_error src (Z.to_nat ax) = nth_error idx k.
Proof.
  intros Hr H. destruct (transpose_done A _ _ _ _ _ Hr H) as (V & P & R & S & D). split; [exact S|].
  intros idx Hi. pose proof (perm_zrange_len _ _ P) as HL. exists (unpermute axes idx). split; [now apply D|].
  split; [now rewrite unpermute_length|]. intros k ax Hk. apply unpermute_coord; auto.
  - now rewrite HL.
  - rewrite (in_range_length _ _ Hi), S, map_length. reflexivity.
Qed.

Lemma array_elements (A : valg) g v s g' r : rect s v -> api_array g v = Done (g', r) ->
  forall idx, in_range (shape_of g' r) idx ->
    exists x, follow v idx = Some x /\ t_at (den A g' r) idx = Ok (coerce A (data_dtype (hd_error (leaves v))) (of_num A x)).
Proof.
  intros Hr H idx Hi. unfold api_array in H. destruct (array_rect s v Hr [] []) as [HA _]. cbn [length app] in HA.
  rewrite HA in H. cbn [obind] in H. unfold api_const in H. injection H as <- <-.
  unfold shape_of in Hi. rewrite nth_error_snoc in Hi. cbn [const_node n_shape] in Hi.
  pose proof (leaves_follow v s idx Hr Hi) as HF. rewrite den_last. unfold den_node. cbn [const_node n_op n_dtype n_shape t_at t_data].
  rewrite znth_map, HF.
  assert (Hlen : 0 <= flat (cut0 s) idx < Z.of_nat (length (leaves v))).
  { rewrite (rect_leaves_length s v Hr). now apply flat_bounds. }
  destruct (znth_in_range _ _ Hlen) as [x Hx]. rewrite HF in Hx. exists x. split; [exact Hx|]. rewrite Hx. cbn.
  destruct (leaves v) as [|[z|m e] l]; reflexivity.
Qed.

Lemma array_accepts g v : rectangular v -> exists g' r, api_array g v = Done (g', r).
Proof. intros [s Hs]. destruct (array_roundtrip g v s Hs) as (g' & r & H & _). eauto. Qed.
Lemma array_accepts_iff g v d : depth d v -> ((exists g' r, api_array g v = Done (g', r)) <-> rectangular v).
Proof.
  intros Hd. split; [|apply array_accepts]. intros (g' & r & H). apply (array_depth_iff v d Hd).
  unfold api_array in H. apply obind_done in H as (x & H & _). eauto.
Qed.
Lemma array_mixed : let i_ z := @Leaf num (NInt z) in let row l := Nest (map i_ l) in
  (exists g' r nd, api_array [] (Nest [row [1; 2]; i_ 3]) = Done (g', r) /\ nth_error g' r = Some nd /\
     n_shape nd = [2; 2] /\ n_len nd = 3) /\
  (exists g' r, api_array [] (Nest [i_ 1; row [2]]) = Done (g', r) /\ shape_of g' r = [2; 1]) /\
  ~ rectangular (Nest [row [1; 2]; i_ 3]) /\ ~ rectangular (Nest [i_ 1; row [2]]).
Proof.
  cbn zeta. split; [|split; [|split]].
  - eexists _, _, _. split; [vm_compute; reflexivity|]. split; [reflexivity|]. split; reflexivity.
  - eexists _, _. split; [vm_compute; reflexivity|]. reflexivity.
  - intros [s Hs]. inversion Hs as [|d s' l Hl Hall]; subst. pose proof (Hall _ (or_introl eq_refl)) as H1.
    pose proof (Hall _ (or_intror (or_introl eq_refl))) as H2. inversion H1; subst. inversion H2.
  - intros [s Hs]. inversion Hs as [|d s' l Hl Hall]; subst. pose proof (Hall _ (or_introl eq_refl)) as H1.
    pose proof (Hall _ (or_intror (or_introl eq_refl))) as H2. inversion H1; subst. inversion H2.
Qed.
