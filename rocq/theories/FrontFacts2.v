From Verif Require Import Base BaseFacts Util UtilFacts Lang Spec SpecFacts Graph Api Denote DenoteFacts
  ArrayLit ArrayFacts Reach ApiFacts Tolist TolistFacts FrontSpec FrontFacts.
From Coq Require Import ZifyBool ZifyNat.

(* ---------- broadcasting ---------- *)
(* bzip on right-aligned lists of equal length, read from the right *)
Lemma bzip_snoc a b x y : length a = length b ->
  bzip (a ++ [x]) (b ++ [y]) =
  match bzip a b, bzip [x] [y] with Done s, Done [d] => Done (s ++ [d]) | _, _ => Throw RuntimeErr end.
Proof.
  revert b. induction a as [|a0 a IH]; intros [|b0 b] HL; try discriminate.
  - cbn. destruct (x =? y); [reflexivity|]. destruct (x =? 1); [reflexivity|]. destruct (y =? 1); reflexivity.
  - cbn [app bzip]. destruct (if a0 =? b0 then _ else _) as [d|e] eqn:E; cbn [obind].
    + rewrite IH by (cbn in HL; lia). cbn. destruct (bzip a b) as [s|]; cbn; [|reflexivity].
      destruct (x =? y); [reflexivity|]. destruct (x =? 1); [reflexivity|]. destruct (y =? 1); reflexivity.
    + destruct (a0 =? b0); [discriminate|]. destruct (a0 =? 1); [discriminate|]. destruct (b0 =? 1); [discriminate|]. now injection E as <-.
Qed.

Definition oo {X} (o : option X) : outcome X := match o with Some x => Done x | None => Throw RuntimeErr end.

Lemma bzip_rev_eq a b : length a = length b ->
  bzip (rev a) (rev b) = oo (option_map (@rev Z) (np_rev a b)).
Proof.
  revert b. induction a as [|x a IH]; intros [|y b] HL; try discriminate; [reflexivity|].
  cbn [rev]. rewrite bzip_snoc by (rewrite !rev_length; cbn in HL; lia). rewrite IH by (cbn in HL; lia).
  cbn [np_rev]. destruct (np_rev a b) as [r|]; cbn; [|reflexivity].
  destruct (x =? y); [reflexivity|]. destruct (x =? 1); [reflexivity|]. destruct (y =? 1); reflexivity.
Qed.

Lemma rev_repeat {A} (x : A) n : rev (repeat x n) = repeat x n.
Proof.
  assert (Hs : forall k, repeat x k ++ [x] = x :: repeat x k) by (induction k; cbn; congruence).
  induction n; cbn; [reflexivity|]. rewrite IHn. apply Hs.
Qed.

Lemma np_rev_pad a b n : np_rev (a ++ repeat 1 n) b = np_rev a b \/ (length b < length a + n)%nat.
Proof.
  revert b n. induction a as [|x a IH]; intros b n.
  - cbn [app length]. revert b. induction n as [|n IHn]; intros b; [now left|].
    destruct b as [|y b]; [right; cbn; lia|]. destruct (IHn b) as [E|E]; [|right; cbn; lia].
    left. cbn [repeat np_rev]. rewrite E. destruct b; cbn [np_rev]; destruct (Z.eqb_spec 1 y) as [<-|]; reflexivity.
  - destruct b as [|y b]; [right; cbn; lia|]. destruct (IH b n) as [E|E]; [|right; cbn; lia]. left. cbn. now rewrite E.
Qed.
Lemma np_rev_sym a b : np_rev a b = np_rev b a.
Proof.
  revert b. induction a as [|x a IH]; intros [|y b]; try reflexivity. cbn. rewrite IH. destruct (np_rev b a); [|reflexivity].
  rewrite (Z.eqb_sym y x). destruct (x =? y) eqn:E; [f_equal; f_equal; lia|].
  destruct (x =? 1) eqn:E1; destruct (y =? 1) eqn:E2; try reflexivity; lia.
Qed.

Lemma bshape_np s t : bshape s t = oo (np_broadcast s t).
Proof.
  unfold bshape, np_broadcast. set (m := Nat.max (length s) (length t)).
  replace (repeat 1 (m - length s) ++ s) with (rev (rev s ++ repeat 1 (m - length s)))
    by (rewrite rev_app_distr, rev_involutive, rev_repeat; reflexivity).
  replace (repeat 1 (m - length t) ++ t) with (rev (rev t ++ repeat 1 (m - length t)))
    by (rewrite rev_app_distr, rev_involutive, rev_repeat; reflexivity).
  rewrite bzip_rev_eq by (rewrite !app_length, !rev_length, !repeat_length; lia).
  destruct (np_rev_pad (rev s) (rev t ++ repeat 1 (m - length t)) (m - length s)) as [E|E];
    [|rewrite app_length, !rev_length, repeat_length in E; lia].
  rewrite E. rewrite np_rev_sym.
  assert (E2 : np_rev (rev t ++ repeat 1 (m - length t)) (rev s) = np_rev (rev t) (rev s)).
  { destruct (Nat.le_ge_cases (length t) (length s)).
    - destruct (np_rev_pad (rev t) (rev s) (m - length t)) as [E2|E2]; [assumption|rewrite !rev_length in E2; lia].
    - replace (m - length t)%nat with 0%nat by lia. cbn. now rewrite app_nil_r. }
  rewrite E2, np_rev_sym. destruct (np_rev (rev s) (rev t)); reflexivity.
Qed.

Lemma squash_app s1 s2 i1 i2 : length s1 = length i1 -> squash (s1 ++ s2) (i1 ++ i2) = squash s1 i1 ++ squash s2 i2.
Proof. revert i1. induction s1 as [|d s1 IH]; intros [|i i1] H; try discriminate; [reflexivity|]. cbn. now rewrite IH by (cbn in H; lia). Qed.

Lemma np_pick_rev_squash s idx : length s = length idx -> np_pick_rev s idx = squash s idx.
Proof. revert idx. induction s as [|d s IH]; intros [|i idx] H; try discriminate; [reflexivity|]. cbn. now rewrite IH by (cbn in H; lia). Qed.
Lemma np_pick_rev_app s idx ext : length s = length idx -> np_pick_rev s (idx ++ ext) = np_pick_rev s idx.
Proof. revert idx. induction s as [|d s IH]; intros [|i idx] H; try discriminate; [reflexivity|]. cbn. now rewrite IH by (cbn in H; lia). Qed.
Lemma rev_squash s idx : length s = length idx -> rev (squash (rev s) (rev idx)) = squash s idx.
Proof.
  revert idx. induction s as [|d s IH]; intros [|i idx] H; try discriminate; [reflexivity|].
  cbn [rev]. rewrite squash_app by (rewrite !rev_length; cbn in H; lia). rewrite rev_app_distr. cbn. now rewrite IH by (cbn in H; lia).
Qed.

Lemma np_pick_squash s idx : (length s <= length idx)%nat -> np_pick s idx = squash s (skipn (length idx - length s) idx).
Proof.
  intros H. unfold np_pick. set (k := (length idx - length s)%nat).
  assert (HL : length s = length (skipn k idx)) by (rewrite skipn_length; lia).
  rewrite <- (firstn_skipn k idx) at 1. rewrite rev_app_distr, np_pick_rev_app by (rewrite !rev_length; exact HL).
  rewrite np_pick_rev_squash by (rewrite !rev_length; exact HL). now apply rev_squash.
Qed.

Section F.
Context (A : valg).

Lemma broadcast_at g' ns d n nd : wf_graph g' -> nth_error g' n = Some nd -> n_op nd = OBroadcast ns -> n_in nd = [d] ->
  forall idx, in_range ns idx -> t_at (den A g' n) idx = t_at (den A g' d) (np_pick (shape_of g' d) idx).
Proof.
  intros Hw Hn Ho Hi idx Hr. rewrite (den_wf_eq A g' n nd Hw Hn). unfold den_node. rewrite Ho.
  rewrite (tin_den A g' nd 0 d) by (now rewrite Hi).
  pose proof (Hw _ _ Hn) as Hwn. unfold wf_node in Hwn. rewrite Ho in Hwn.
  destruct Hwn as (a & x & Ha & _ & Hx & _ & (_ & _ & Hb & _)). rewrite Hi in Ha. cbn in Ha. injection Ha as <-.
  pose proof (wf_shape_facts A g' d x Hw Hx) as [Ix _ _ _]. unfold shape_of. rewrite Hx.
  cbn [t_broadcast t_at]. rewrite Ix. rewrite np_pick_squash by (rewrite (in_range_length _ _ Hr); lia).
  now rewrite (in_range_length _ _ Hr).
Qed.

Lemma np_pick_self s idx : in_range s idx -> np_pick s idx = idx.
Proof.
  intros H. rewrite np_pick_squash by (rewrite (in_range_length _ _ H); lia).
  rewrite (in_range_length _ _ H), Nat.sub_diag. cbn [skipn]. unfold in_range in H.
  induction H as [|i d idx s Hi _ IH]; [reflexivity|]. cbn. rewrite IH. destruct (d =? 1) eqn:E; f_equal; lia.
Qed.

Lemma bcast_self s : bcast_ok s s.
Proof. split; [lia|]. rewrite Nat.sub_diag. cbn. induction s; constructor; auto. Qed.

(* binary operations *)
Lemma binary_done g b l r g' x : reach g -> api_binary g b l r = Done (g', x) ->
  valid g l /\ valid g r /\ np_broadcast (shape_of g l) (shape_of g r) = Some (shape_of g' x) /\
  forall idx, in_range (shape_of g' x) idx ->
    t_at (den A g' x) idx =
      (u <- t_at (den A g l) (np_pick (shape_of g l) idx) ;;
       v <- t_at (den A g r) (np_pick (shape_of g r) idx) ;;
       w <- of_opt (bin A b u v) ;; Ok (coerce A (match nth_error g l with Some nd => n_dtype nd | None => Float64 end) w)).
Proof.
  intros Hr H. pose proof (reach_wf _ Hr) as Hw. pose proof (api_binary_wf _ _ _ _ _ _ Hw H) as Hw'.
  unfold api_binary in H. apply obind_done in H as ([[g1 l1] r1] & H1 & H).
  destruct (broadcasted_spec _ _ _ _ _ _ Hw H1) as (nl & nr & ns & h & nl' & nr' & L1 & L2 & L3 & -> & Hw1 & B1 & B2 & B3 & B4 & B5 & B6 & B7 & B8).
  assert (Hl : valid g l) by (apply nth_error_Some; congruence).
  assert (Hrr : valid g r) by (apply nth_error_Some; congruence).
  split; [assumption|]. split; [assumption|].
  destruct (forward_den A _ _ _ _ _ Hw' H) as (rd & y & a' & R1 & R2 & R3 & R4 & R5 & R6 & R7 & R8 & R9).
  cbn in R2. injection R2 as <-. rewrite B1 in R3. injection R3 as <-.
  pose proof (wf_shape_facts A g' x rd Hw' R1) as [Jx _ _ _].
  pose proof (wf_shape_facts A (g ++ h) l1 nl' Hw1 B1) as [Kx _ _ _].
  unfold shape_of. rewrite R1, L1, L2.
  assert (Hsh : n_shape rd = ns) by (rewrite <- Jx, R8; unfold den_node; rewrite R4, R9; cbn; congruence).
  rewrite Hsh. split; [rewrite bshape_np in L3; destruct (np_broadcast _ _); cbn in L3; congruence|].
  intros idx Hi. rewrite R8. unfold den_node. rewrite R4, R9.
  rewrite (tin_den A (g ++ h) rd 1 r1) by (now rewrite R5). cbn [t_at t_map2]. rewrite R7, B3.
  assert (El : t_at (den A (g ++ h) l1) idx = t_at (den A g l) (np_pick (n_shape nl) idx)).
  { destruct B7 as [[-> Es]|[E1 E2]].
    - rewrite den_app by assumption. rewrite np_pick_self by (now rewrite Es). reflexivity.
    - rewrite (broadcast_at _ _ _ _ _ Hw1 B1 E1 E2 _ Hi). rewrite den_app by assumption.
      unfold shape_of. now rewrite (nth_error_app_some _ _ _ _ L1). }
  assert (Er : t_at (den A (g ++ h) r1) idx = t_at (den A g r) (np_pick (n_shape nr) idx)).
  { destruct B8 as [[-> Es]|[E1 E2]].
    - rewrite den_app by assumption. rewrite np_pick_self by (now rewrite Es). reflexivity.
    - rewrite (broadcast_at _ _ _ _ _ Hw1 B4 E1 E2 _ Hi). rewrite den_app by assumption.
      unfold shape_of. now rewrite (nth_error_app_some _ _ _ _ L2). }
  rewrite El, Er. reflexivity.
Qed.

Lemma binary_accepts g b l r : reach g -> valid g l -> valid g r ->
  ((exists g' x, api_binary g b l r = Done (g', x)) <-> np_broadcast (shape_of g l) (shape_of g r) <> None) /\
  (forall e, api_binary g b l r = Throw e -> e = RuntimeErr).
Proof.
  intros Hr Hl Hrr. pose proof (reach_wf _ Hr) as Hw.
  destruct (nth_error g l) as [nl|] eqn:El; [|apply nth_error_None in El; unfold valid in Hl; lia].
  destruct (nth_error g r) as [nr|] eqn:Er; [|apply nth_error_None in Er; unfold valid in Hrr; lia].
  unfold shape_of. rewrite El, Er.
  assert (HB : api_broadcasted g l r = (ns <~ bshape (n_shape nl) (n_shape nr) ;;
     '(g1, l1) <~ (if list_zeqb (n_shape nl) ns then Done (g, l) else api_broadcast_to g l ns) ;;
     '(g2, r1) <~ (if list_zeqb (n_shape nr) ns then Done (g1, r) else api_broadcast_to g1 r ns) ;; Done (g2, l1, r1))).
  { unfold api_broadcasted, get. now rewrite El, Er. }
  rewrite bshape_np in HB. destruct (np_broadcast (n_shape nl) (n_shape nr)) as [ns|] eqn:Enp; cbn [oo obind] in HB.
  - assert (exists g1 l1, (if list_zeqb (n_shape nl) ns then Done (g, l) else api_broadcast_to g l ns) = Done (g1, l1) /\ (exists h, g1 = g ++ h)) as (g1 & l1 & E1 & h1 & Eg1).
    { destruct (list_zeqb _ _); [exists g, l; split; [reflexivity|exists []; now rewrite app_nil_r]|].
      unfold api_broadcast_to, forward, get. rewrite El. cbn. eauto. }
    rewrite E1 in HB. cbn [obind] in HB.
    assert (exists g2 r1, (if list_zeqb (n_shape nr) ns then Done (g1, r) else api_broadcast_to g1 r ns) = Done (g2, r1)) as (g2 & r1 & E2).
    { destruct (list_zeqb (n_shape nr) ns); [eauto|].
      unfold api_broadcast_to, forward, get. rewrite Eg1, (nth_error_app_some _ _ _ _ Er). cbn. eauto. }
    rewrite E2 in HB. cbn [obind] in HB.
    destruct (broadcasted_spec _ _ _ _ _ _ Hw HB) as (nl0 & nr0 & ns0 & h & nl' & nr' & L1 & L2 & L3 & -> & Hw1 & B1 & _).
    unfold api_binary. rewrite HB. cbn [obind]. unfold forward, get. rewrite B1. cbn. split; [|discriminate]. split; [discriminate|eauto].
  - unfold api_binary. rewrite HB. cbn. split; [|congruence]. split; [intros (? & ? & ?); discriminate|congruence].
Qed.

Lemma broadcast_to_done g a s g' r : reach g -> call_ok g (CBroadcastTo a s) -> api_broadcast_to g a s = Done (g', r) ->
  shape_of g' r = s /\ forall idx, in_range s idx -> t_at (den A g' r) idx = t_at (den A g a) (np_pick (shape_of g a) idx).
Proof.
  intros Hr Hok H. pose proof (reach_wf _ Hr) as Hw. pose proof (run_call_wf _ _ _ _ Hw Hok H) as Hw'.
  pose proof (forward_done _ _ _ _ _ H) as (a' & x & nd & H1 & H2 & H3 & -> & -> & H4 & H5).
  cbn in H1. injection H1 as <-.
  split.
  - unfold shape_of. rewrite nth_error_snoc. cbn in H3. injection H3 as <-. reflexivity.
  - intros idx Hi. rewrite (broadcast_at _ s a _ nd Hw') by (auto using nth_error_snoc).
    rewrite den_app by (apply nth_error_Some; congruence). unfold shape_of. now rewrite (nth_error_app_some _ _ _ _ H2), H2.
Qed.

(* ---------- transpose ---------- *)
Lemma transpose_accepts g a axes : valid g a ->
  ((exists g' r, api_transpose g a axes = Done (g', r)) <-> Permutation axes (zrange (Z.of_nat (length (shape_of g a))))) /\
  (forall e, api_transpose g a axes = Throw e -> e = RuntimeErr).
Proof.
  intros Hv. unfold api_transpose, shape_of, get.
  destruct (nth_error g a) as [nd|] eqn:Hg; [|apply nth_error_None in Hg; unfold valid in Hv; lia]. cbn [obind].
  destruct (list_zeqb _ _) eqn:E; cbn [negb].
  - unfold forward, get. rewrite Hg. cbn. split; [|discriminate]. split; [intros _|eauto].
    now apply zsort_eq_range, list_zeqb_eq.
  - split; [|congruence]. split; [intros (? & ? & ?); discriminate|]. intros HP. apply zsort_eq_range in HP. rewrite HP, list_zeqb_refl in E. discriminate.
Qed.

Lemma transpose_done g a axes g' r : reach g -> api_transpose g a axes = Done (g', r) ->
  valid g a /\ Permutation axes (zrange (Z.of_nat (length (shape_of g a)))) /\ reach g' /\
  shape_of g' r = map (fun k => nth (Z.to_nat k) (shape_of g a) 0) axes /\
  forall idx, in_range (shape_of g' r) idx -> t_at (den A g' r) idx = t_at (den A g a) (unpermute axes idx).
Proof.
  intros Hr H. pose proof (reach_wf _ Hr) as Hw.
  assert (Hv : valid g a).
  { unfold api_transpose in H. apply obind_done in H as (nd & Hnd & _). apply get_done in Hnd. apply nth_error_Some. congruence. }
  pose proof (proj1 (proj1 (transpose_accepts g a axes Hv)) (ex_intro _ _ (ex_intro _ _ H))) as HP.
  assert (Hok : call_ok g (CTranspose a axes)) by exact Hv.
  pose proof (run_call_wf _ (CTranspose a axes) _ _ Hw Hok H) as Hw'.
  split; [assumption|]. split; [assumption|]. split; [eapply (reach_call g (CTranspose a axes)); eauto|].
  unfold api_transpose in H. apply obind_done in H as (nd & Hnd & H). destruct (negb _); [discriminate|].
  destruct (forward_den A _ _ _ _ _ Hw' H) as (rd & y & a' & R1 & R2 & R3 & R4 & R5 & R6 & R7 & R8 & R9).
  cbn in R2. injection R2 as <-.
  unfold shape_of. rewrite R1, R3. cbn in R6. split; [injection R6 as <-; reflexivity|].
  intros idx _. rewrite R8. unfold den_node. rewrite R4, R9. reflexivity.
Qed.

(* ---------- reshape, contiguous ---------- *)
Lemma api_contiguous_den g a g' c : reach g -> api_contiguous g a = Done (g', c) ->
  valid g a /\ shape_of g' c = shape_of g a /\ (forall idx, t_at (den A g' c) idx = t_at (den A g a) idx) /\
  (exists nd, nth_error g' c = Some nd /\ n_strides nd = strides_from_shape (n_shape nd)) /\
  (forall nd, nth_error g a = Some nd -> n_strides nd = strides_from_shape (n_shape nd) -> g' = g /\ c = a).
Proof.
  intros Hr H. pose proof (reach_wf _ Hr) as Hw.
  destruct (api_contiguous_spec _ _ _ _ Hw H) as (x & y & h & C1 & -> & C2 & C3 & C4 & C5 & C6 & C7).
  assert (Hv : valid g a) by (apply nth_error_Some; congruence).
  split; [assumption|]. unfold shape_of. rewrite C1, C2. split; [assumption|].
  split; [|split].
  - destruct C7 as [(-> & -> & ->)|(E1 & E2 & _)].
    + rewrite app_nil_r. reflexivity.
    + intros idx. rewrite (den_wf_eq A _ _ _ C3 C2). unfold den_node. rewrite E1.
      rewrite (tin_den A (g ++ h) y 0 a) by (now rewrite E2). now rewrite den_app by assumption.
  - exists y. split; [reflexivity|]. now apply list_zeqb_eq.
  - intros nd Hnd Hs. injection Hnd as <-. unfold api_contiguous, get in H. rewrite C1 in H. cbn in H.
    unfold is_contiguous in H. rewrite Hs, list_zeqb_refl in H. injection H as H1 H2. auto.
Qed.

Lemma reshape_accepts g a s : valid g a ->
  ((exists g' r, api_reshape g a s = Done (g', r)) <-> zprod s = zprod (shape_of g a)) /\
  (forall e, api_reshape g a s = Throw e -> e = RuntimeErr).
Proof.
  intros Hv. unfold api_reshape, shape_of, get.
  destruct (nth_error g a) as [nd|] eqn:Hg; [|apply nth_error_None in Hg; unfold valid in Hv; lia]. cbn [obind].
  destruct (zprod s =? zprod (n_shape nd)) eqn:E; cbn [negb].
  - assert (exists g1 c x, api_contiguous g a = Done (g1, c) /\ nth_error g1 c = Some x) as (g1 & c & x & E1 & E2).
    { unfold api_contiguous, get. rewrite Hg. cbn. destruct (is_contiguous nd); [eauto|].
      unfold forward, get. rewrite Hg. cbn. eexists _, _, _. split; [reflexivity|apply nth_error_snoc]. }
    rewrite E1. cbn [obind]. unfold forward, get. rewrite E2. cbn. split; [|discriminate]. split; [lia|eauto].
  - split; [|congruence]. split; [intros (? & ? & ?); discriminate|lia].
Qed.

Lemma map_unflat_seq {V} (f : list Z -> V) s t : nonneg s -> nonneg t -> zprod t = zprod s ->
  map (fun idx => f (unflat s (flat t idx))) (all_idx t) = map f (all_idx s).
Proof.
  intros Hs Ht Hp. rewrite (all_idx_unflat s Hs), map_map. rewrite <- Hp.
  rewrite <- (map_flat_all_idx t Ht), map_map. reflexivity.
Qed.

Lemma reshape_done g a s g' r : reach g -> call_ok g (CReshape a s) -> api_reshape g a s = Done (g', r) ->
  shape_of g' r = s /\ zprod s = zprod (shape_of g a) /\
  map (t_at (den A g' r)) (all_idx s) = map (t_at (den A g a)) (all_idx (shape_of g a)).
Proof.
  intros Hr Hok H. pose proof (reach_wf _ Hr) as Hw. pose proof (run_call_wf _ (CReshape a s) _ _ Hw Hok H) as Hw'.
  destruct Hok as (Hv & Hn).
  pose proof (proj1 (proj1 (reshape_accepts g a s Hv)) (ex_intro _ _ (ex_intro _ _ H))) as HP.
  unfold api_reshape in H. apply obind_done in H as (nd & Hnd & H). destruct (negb _); [discriminate|].
  apply obind_done in H as ([g1 c] & H1 & H).
  destruct (api_contiguous_den _ _ _ _ Hr H1) as (_ & D1 & D2 & _).
  destruct (forward_den A _ _ _ _ _ Hw' H) as (rd & y & a' & R1 & R2 & R3 & R4 & R5 & R6 & R7 & R8 & R9).
  cbn in R2. injection R2 as <-.
  unfold shape_of at 1. rewrite R1. cbn in R6. split; [injection R6 as <-; reflexivity|]. split; [assumption|].
  rewrite R8. unfold den_node. rewrite R4, R9. cbn [t_reshape t_at].
  assert (Hw1 : wf_graph g1).
  { apply forward_done in H as (_ & _ & nd' & _ & _ & _ & -> & _). eapply wf_graph_prefix; eauto. }
  pose proof (wf_shape_facts A g1 c y Hw1 R3) as [Ix In_ _ _]. rewrite Ix.
  assert (Hsh : n_shape y = shape_of g a) by (rewrite <- D1; unfold shape_of; now rewrite R3).
  rewrite map_unflat_seq; [|assumption|assumption|rewrite Hsh; assumption]. rewrite Hsh. apply map_ext. assumption.
Qed.

(* ---------- sum ---------- *)
Lemma norm_axis_user ndim axis : 0 < ndim -> Forall (fun a => - ndim <= a < ndim) axis -> axis <> [] ->
  norm_axis ndim (Some axis) = Done (map (user_axis ndim) axis).
Proof.
  intros Hn Hr Ha. unfold norm_axis. destruct axis as [|x l]; [congruence|].
  replace (ndim =? 0) with false by lia. f_equal. apply map_ext_in. intros a Ha'.
  rewrite Forall_forall in Hr. specialize (Hr a Ha'). unfold user_axis.
  destruct (a <? 0) eqn:E.
  - symmetry. apply Z.mod_unique with (q := -1); [left; lia|lia].
  - apply Z.mod_small. lia.
Qed.
Lemma norm_axis_all ndim axis : 0 <= ndim -> axis = None \/ axis = Some [] -> norm_axis ndim axis = Done (zrange ndim).
Proof.
  intros Hn H. unfold norm_axis. replace (match axis with None | Some [] => zrange ndim | Some l => l end) with (zrange ndim) by (destruct H as [->| ->]; reflexivity).
  destruct (zrange ndim) eqn:E; [reflexivity|]. rewrite <- E.
  destruct (ndim =? 0) eqn:E0; [assert (ndim = 0) by lia; subst; discriminate|].
  f_equal. rewrite <- (map_id (zrange ndim)) at 2. apply map_ext_in. intros a Ha. apply in_zrange in Ha. now apply Z.mod_small.
Qed.

Lemma sum_done g a axis kd g' r : reach g -> api_sum g a axis kd = Done (g', r) ->
  exists ax dt, norm_axis (Z.of_nat (length (shape_of g a))) axis = Done ax /\
   match nth_error g a with Some nd => n_dtype nd = dt | None => False end /\
   shape_of g' r = (if kd then ones_axes ax 0 (shape_of g a) else drop_axes ax 0 (shape_of g a)) /\
   forall idx, in_range (shape_of g' r) idx ->
     t_at (den A g' r) idx =
       fold_res (fun x y => v <- of_opt (bin A BAdd x y) ;; Ok (coerce A dt v)) (coerce A dt (lit A 0))
         (map (t_at (den A g a)) (sum_positions ax (shape_of g a) (if kd then drop_axes ax 0 idx else idx))).
Proof.
  intros Hr H. pose proof (reach_wf _ Hr) as Hw. pose proof H as H0. unfold api_sum in H.
  apply obind_done in H as (nd & Hnd & H). apply get_done in Hnd. apply obind_done in H as (ax & Hax & H).
  assert (Hv : valid g a) by (apply nth_error_Some; congruence).
  pose proof (run_call_wf _ (CSum a axis kd) _ _ Hw Hv H0) as Hw'.
  exists ax, (n_dtype nd). unfold shape_of. rewrite Hnd. split; [assumption|]. split; [reflexivity|].
  destruct (forward_den A _ _ _ _ _ Hw' H) as (rd & y & a' & R1 & R2 & R3 & R4 & R5 & R6 & R7 & R8 & R9).
  cbn in R2. injection R2 as <-. rewrite Hnd in R3. injection R3 as <-. rewrite R1. cbn in R6.
  pose proof (wf_shape_facts A g a nd Hw Hnd) as [Ix In_ _ _].
  split; [injection R6 as <-; cbn; apply reduce_shape_spec|].
  intros idx _. rewrite R8. unfold den_node. rewrite R4, R9, R7. cbn [t_sum t_at]. rewrite Ix. reflexivity.
Qed.

Lemma strongly_app {X} (R : X -> X -> Prop) l1 l2 : Sorted.StronglySorted R l1 -> Sorted.StronglySorted R l2 ->
  (forall x y, In x l1 -> In y l2 -> R x y) -> Sorted.StronglySorted R (l1 ++ l2).
Proof.
  intros H1 H2 H. induction H1 as [|x l _ IH HF]; cbn; [assumption|]. constructor.
  - apply IH. intros; apply H; [now right|assumption].
  - apply Forall_app. split; [assumption|]. apply Forall_forall. intros y Hy. apply H; [now left|assumption].
Qed.

Lemma all_idx_lex s : Sorted.StronglySorted lex_lt (all_idx s).
Proof.
  induction s as [|d s IH]; cbn; [repeat constructor|].
  assert (H : forall l, Sorted.StronglySorted Z.lt l -> Sorted.StronglySorted lex_lt (flat_map (fun i => map (cons i) (all_idx s)) l)).
  { induction l as [|i l IHl]; intros Hl; cbn; [constructor|]. inversion Hl as [|? ? Hl' HF]; subst.
    assert (HA : Sorted.StronglySorted lex_lt (map (cons i) (all_idx s))).
    { clear - IH. induction IH as [|x l _ IH' HF]; cbn; constructor; auto.
      apply Forall_forall. intros y Hy. apply in_map_iff in Hy as (z & <- & Hz). rewrite Forall_forall in HF. right. split; [reflexivity|now apply HF]. }
    apply strongly_app; [assumption|now apply IHl|]. intros x y Hx Hy.
    apply in_map_iff in Hx as (t & <- & _). apply in_flat_map in Hy as (j & Hj & Hy). apply in_map_iff in Hy as (u & <- & _).
    left. rewrite Forall_forall in HF. now apply HF. }
  apply H. unfold zrange. generalize (Z.to_nat d). intros n.
  assert (HS : forall k, Sorted.StronglySorted Z.lt (map Z.of_nat (seq k n))).
  { induction n as [|n IHn]; intros k; cbn; constructor; auto. apply Forall_forall. intros y Hy.
    apply in_map_iff in Hy as (z & <- & Hz). apply in_seq in Hz. lia. }
  apply HS.
Qed.

Lemma filter_strongly {X} (R : X -> X -> Prop) f l : Sorted.StronglySorted R l -> Sorted.StronglySorted R (filter f l).
Proof.
  induction 1 as [|x l _ IH HF]; cbn; [constructor|]. destruct (f x); [|assumption]. constructor; [assumption|].
  apply Forall_forall. intros y Hy. apply filter_In in Hy as [Hy _]. rewrite Forall_forall in HF. auto.
Qed.

Lemma sum_positions_spec axes shape out :
  NoDup (sum_positions axes shape out) /\ Sorted.StronglySorted lex_lt (sum_positions axes shape out) /\
  forall p, In p (sum_positions axes shape out) <-> in_range shape p /\ agrees axes out p.
Proof.
  unfold sum_positions, agrees. split; [apply NoDup_filter, NoDup_all_idx|]. split; [apply filter_strongly, all_idx_lex|].
  intros p. rewrite filter_In, in_all_idx, list_zeqb_eq. reflexivity.
Qed.

(* ---------- pad, dilate ---------- *)
Lemma pad_done g a d b f g' r : reach g -> call_ok g (CPad a d b f) -> api_pad g a d b f = Done (g', r) ->
  let n := nth (Z.to_nat d) (shape_of g a) 0 in
  d < Z.of_nat (length (shape_of g a)) /\
  shape_of g' r = upd (shape_of g a) (Z.to_nat d) (b + n + f) /\
  (forall idx, in_range (shape_of g' r) idx ->
     t_at (den A g' r) idx =
       if (b <=? nth (Z.to_nat d) idx 0) && (nth (Z.to_nat d) idx 0 <? b + n)
       then t_at (den A g a) (upd idx (Z.to_nat d) (nth (Z.to_nat d) idx 0 - b))
       else Ok (coerce A (match nth_error g a with Some nd => n_dtype nd | None => Float64 end) (lit A 0))) /\
  (b = 0 -> f = 0 -> g' = g /\ r = a).
Proof.
  intros Hr Hok H. cbn zeta. pose proof (reach_wf _ Hr) as Hw. pose proof (run_call_wf _ (CPad a d b f) _ _ Hw Hok H) as Hw'.
  destruct Hok as (Hv & Hd & Hb & Hf). unfold api_pad in H. apply obind_done in H as (nd & Hnd & H). apply get_done in Hnd.
  unfold shape_of in *. rewrite Hnd in *. set (n := nth (Z.to_nat d) (n_shape nd) 0) in *.
  pose proof (wf_shape_facts A g a nd Hw Hnd) as [Ix In_ _ _].
  destruct (_ <=? d) eqn:E; [discriminate|]. split; [lia|]. destruct (_ && _) eqn:E0.
  - injection H as <- <-. rewrite Hnd. replace b with 0 by lia. replace f with 0 by lia.
    rewrite Z.add_0_r, Z.add_0_l. split; [unfold n; now rewrite upd_nth_self|]. split; [|auto].
    intros idx Hi. pose proof (in_range_nth _ _ (Z.to_nat d) Hi ltac:(lia)).
    replace ((0 <=? nth (Z.to_nat d) idx 0) && (nth (Z.to_nat d) idx 0 <? n)) with true by (unfold n; lia).
    now rewrite Z.sub_0_r, upd_nth_self.
  - destruct (forward_den A _ _ _ _ _ Hw' H) as (rd & y & a' & R1 & R2 & R3 & R4 & R5 & R6 & R7 & R8 & R9).
    cbn in R2. injection R2 as <-. rewrite Hnd in R3. injection R3 as <-. rewrite R1. cbn in R6.
    unfold fwd_pad in R6. rewrite pyupdate_nonneg in R6 by lia.
    assert (HS : n_shape rd = upd (n_shape nd) (Z.to_nat d) (nth (Z.to_nat d) (n_shape nd) 0 + (b + f))) by (injection R6 as <-; reflexivity).
    rewrite HS. split; [f_equal; unfold n; lia|]. split.
    + intros idx _. rewrite R8. unfold den_node. rewrite R4, R9, R7. cbn [t_pad t_at]. rewrite Ix. reflexivity.
    + intros -> ->. discriminate.
Qed.

Lemma dilate_done g a d st g' r : reach g -> call_ok g (CDilate a d st) -> api_dilate g a d st = Done (g', r) ->
  let n := nth (Z.to_nat d) (shape_of g a) 0 in
  d < Z.of_nat (length (shape_of g a)) /\
  shape_of g' r = upd (shape_of g a) (Z.to_nat d) ((n - 1) * st + 1) /\
  (forall idx, in_range (shape_of g' r) idx ->
     t_at (den A g' r) idx =
       if nth (Z.to_nat d) idx 0 mod st =? 0
       then t_at (den A g a) (upd idx (Z.to_nat d) (nth (Z.to_nat d) idx 0 / st))
       else Ok (coerce A (match nth_error g a with Some nd => n_dtype nd | None => Float64 end) (lit A 0))) /\
  (st = 1 -> g' = g /\ r = a).
Proof.
  intros Hr Hok H. cbn zeta. pose proof (reach_wf _ Hr) as Hw. pose proof (run_call_wf _ (CDilate a d st) _ _ Hw Hok H) as Hw'.
  destruct Hok as (Hv & Hd & Hst & Hn1). unfold api_dilate in H. apply obind_done in H as (nd & Hnd & H). apply get_done in Hnd.
  unfold shape_of in *. rewrite Hnd in *. set (n := nth (Z.to_nat d) (n_shape nd) 0) in *.
  pose proof (wf_shape_facts A g a nd Hw Hnd) as [Ix In_ _ _].
  destruct (_ <=? d) eqn:E; [discriminate|]. split; [lia|]. destruct (st =? 1) eqn:E0.
  - injection H as <- <-. rewrite Hnd. replace st with 1 by lia.
    replace ((n - 1) * 1 + 1) with n by lia. split; [unfold n; now rewrite upd_nth_self|]. split; [|auto].
    intros idx Hi. rewrite Z.mod_1_r, Z.div_1_r. cbn. now rewrite upd_nth_self.
  - destruct (forward_den A _ _ _ _ _ Hw' H) as (rd & y & a' & R1 & R2 & R3 & R4 & R5 & R6 & R7 & R8 & R9).
    cbn in R2. injection R2 as <-. rewrite Hnd in R3. injection R3 as <-. rewrite R1. cbn in R6.
    unfold fwd_dilate in R6. rewrite pyupdate_nonneg in R6 by lia.
    assert (HS : n_shape rd = upd (n_shape nd) (Z.to_nat d) ((nth (Z.to_nat d) (n_shape nd) 0 - 1) * st + 1)) by (injection R6 as <-; reflexivity).
    rewrite HS. split; [reflexivity|]. split.
    + intros idx _. rewrite R8. unfold den_node. rewrite R4, R9, R7. cbn [t_dilate t_at]. reflexivity.
    + lia.
Qed.

End F.
