(* Corollaries of the frontend facts: inverse transposes, slicing padding/dilation back, round trip, dtypes. *)
From Verif Require Import Base BaseFacts Util UtilFacts Lang Spec SpecFacts Graph Api Denote DenoteFacts
  ArrayLit ArrayFacts Reach ApiFacts Tolist TolistFacts FrontSpec FrontFacts FrontFacts2.
From Coq Require Import ZifyBool ZifyNat.

Lemma in_range_len s i : in_range s i -> length i = length s.
Proof. apply in_range_length. Qed.

Lemma unpermute_inverse axes axes' n idx :
  Permutation axes (zrange (Z.of_nat n)) -> Permutation axes' (zrange (Z.of_nat n)) ->
  (forall k x, nth_error axes' k = Some x -> nth_error axes (Z.to_nat x) = Some (Z.of_nat k)) ->
  length idx = n -> unpermute axes (unpermute axes' idx) = idx.
Proof.
  intros P1 P2 Hinv Hl. pose proof (perm_zrange_len _ _ P1) as L1. pose proof (perm_zrange_len _ _ P2) as L2.
  apply nth_error_ext'. intros m.
  destruct (nth_error axes' m) as [x|] eqn:E.
  - pose proof (Hinv _ _ E) as E2.
    assert (H : nth_error (unpermute axes (unpermute axes' idx)) (Z.to_nat (Z.of_nat m)) = nth_error (unpermute axes' idx) (Z.to_nat x)).
    { apply unpermute_coord; [rewrite L1; exact P1|rewrite unpermute_length; lia|exact E2]. }
    rewrite Nat2Z.id in H. rewrite H. apply unpermute_coord; [rewrite L2; exact P2|lia|exact E].
  - apply nth_error_None in E. transitivity (@None Z).
    + apply nth_error_None. rewrite unpermute_length. lia.
    + symmetry. apply nth_error_None. lia.
Qed.

Lemma nth_error_rev' {X} (l : list X) k : (k < length l)%nat -> nth_error (rev l) k = nth_error l (length l - S k).
Proof.
  intros H. destruct l as [|d l']; [cbn in H; lia|]. set (l := d :: l') in *.
  rewrite (nth_error_nth' (rev l) d) by (rewrite rev_length; lia).
  rewrite (nth_error_nth' l d) by lia. f_equal. now apply rev_nth.
Qed.

Lemma Forall2_rev' {X Y} (P : X -> Y -> Prop) l1 l2 : Forall2 P l1 l2 -> Forall2 P (rev l1) (rev l2).
Proof. induction 1; cbn; [constructor|]. apply Forall2_app; auto. Qed.

Section F.
Context (A : valg).

Lemma transpose_inverse g a axes g1 b axes' g2 c : reach g ->
  api_transpose g a axes = Done (g1, b) -> api_transpose g1 b axes' = Done (g2, c) ->
  (forall k x, nth_error axes' k = Some x -> nth_error axes (Z.to_nat x) = Some (Z.of_nat k)) ->
  shape_of g2 c = shape_of g a /\
  forall idx, in_range (shape_of g a) idx -> t_at (den A g2 c) idx = t_at (den A g a) idx.
Proof.
  intros Hr H1 H2 Hinv.
  destruct (transpose_done A _ _ _ _ _ Hr H1) as (V1 & P1 & R1 & S1 & D1).
  destruct (transpose_done A _ _ _ _ _ R1 H2) as (V2 & P2 & R2 & S2 & D2).
  pose proof (perm_zrange_len _ _ P1) as L1. rewrite S1, map_length, L1 in P2. pose proof (perm_zrange_len _ _ P2) as L2.
  assert (HS : shape_of g2 c = shape_of g a).
  { rewrite S2, S1. apply nth_error_ext'. intros k. rewrite nth_error_map.
    destruct (nth_error axes' k) as [x|] eqn:E; cbn.
    - pose proof (Hinv _ _ E) as E2. assert (E3 : nth_error (map (fun k0 => nth (Z.to_nat k0) (shape_of g a) 0) axes) (Z.to_nat x) = Some (nth k (shape_of g a) 0)).
      { rewrite nth_error_map, E2. cbn. now rewrite Nat2Z.id. }
      rewrite (nth_error_nth _ _ _ E3). symmetry. apply nth_error_nth'.
      assert (k < length axes')%nat by (apply nth_error_Some; congruence). lia.
    - apply nth_error_None in E. symmetry. apply nth_error_None. lia. }
  split; [exact HS|]. intros idx Hi. rewrite D2 by (now rewrite HS).
  rewrite D1.
  - f_equal. eapply unpermute_inverse; eauto. apply (in_range_length _ _ Hi).
  - apply unpermute_in_range; [rewrite S1, map_length, L1; exact P2|]. rewrite <- S2, HS. exact Hi.
Qed.

Lemma T_twice g a g1 b g2 c : reach g -> api_T g a = Done (g1, b) -> api_T g1 b = Done (g2, c) ->
  shape_of g1 b = rev (shape_of g a) /\ shape_of g2 c = shape_of g a /\
  forall idx, in_range (shape_of g a) idx ->
    t_at (den A g1 b) (rev idx) = t_at (den A g a) idx /\ t_at (den A g2 c) idx = t_at (den A g a) idx.
Proof.
  intros Hr H1 H2. unfold api_T in H1.
  destruct (get g a) as [nd|] eqn:Hg; [|discriminate]. cbn [obind] in H1. apply get_done in Hg.
  assert (Hsa : shape_of g a = n_shape nd) by (unfold shape_of; now rewrite Hg).
  destruct (Nat.leb (length (n_shape nd)) 1) eqn:E.
  - injection H1 as <- <-. unfold api_T, get in H2. rewrite Hg in H2. cbn [obind] in H2. rewrite E in H2. injection H2 as <- <-.
    apply Nat.leb_le in E. rewrite Hsa. destruct (n_shape nd) as [|d [|d' s]]; cbn in E; try lia; (split; [reflexivity|split; [reflexivity|]]);
      intros idx Hi; pose proof (in_range_length _ _ Hi) as HL; destruct idx as [|i [|]]; cbn in HL; try lia; split; reflexivity.
  - apply Nat.leb_gt in E. destruct (transpose_done A _ _ _ _ _ Hr H1) as (V1 & P1 & R1 & S1 & D1).
    set (n := Z.of_nat (length (n_shape nd))) in *.
    assert (Hrn : forall k, (k < length (n_shape nd))%nat -> nth_error (rev (zrange n)) k = Some (n - 1 - Z.of_nat k)).
    { intros k Hk. rewrite nth_error_rev' by (rewrite zrange_length; lia). rewrite zrange_length, nth_error_zrange by lia. f_equal. lia. }
    assert (S1' : shape_of g1 b = rev (shape_of g a)).
    { rewrite S1, Hsa. apply nth_error_ext'. intros k. rewrite nth_error_map.
      destruct (Nat.ltb_spec k (length (n_shape nd))).
      - rewrite Hrn by lia. cbn. rewrite nth_error_rev' by lia.
        replace (Z.to_nat (n - 1 - Z.of_nat k)) with (length (n_shape nd) - S k)%nat by lia. symmetry. apply nth_error_nth'. lia.
      - replace (nth_error (rev (zrange n)) k) with (@None Z); [cbn; symmetry; apply nth_error_None; rewrite rev_length; lia|].
        symmetry. apply nth_error_None. rewrite rev_length, zrange_length. lia. }
    unfold api_T in H2. destruct (get g1 b) as [nb|] eqn:Hgb; [|discriminate]. cbn [obind] in H2. apply get_done in Hgb.
    assert (Hlb : length (n_shape nb) = length (n_shape nd)).
    { assert (shape_of g1 b = n_shape nb) by (unfold shape_of; now rewrite Hgb). rewrite <- H, S1', rev_length, Hsa. reflexivity. }
    rewrite Hlb in H2. replace (Nat.leb (length (n_shape nd)) 1) with false in H2 by (symmetry; apply Nat.leb_gt; lia). fold n in H2.
    assert (Hinv : forall k x, nth_error (rev (zrange n)) k = Some x -> nth_error (rev (zrange n)) (Z.to_nat x) = Some (Z.of_nat k)).
    { intros k x Hk. assert (k < length (n_shape nd))%nat.
      { assert (k < length (rev (zrange n)))%nat by (apply nth_error_Some; congruence). rewrite rev_length, zrange_length in H. lia. }
      rewrite Hrn in Hk by lia. injection Hk as <-. rewrite Hrn by lia. f_equal. lia. }
    destruct (transpose_inverse _ _ _ _ _ _ _ _ Hr H1 H2 Hinv) as (S2 & D2).
    split; [exact S1'|]. split; [exact S2|]. intros idx Hi. split; [|now apply D2].
    assert (Hri : in_range (shape_of g1 b) (rev idx)).
    { rewrite S1'. unfold in_range in *. apply Forall2_rev'. exact Hi. }
    rewrite D1 by exact Hri. f_equal. pose proof (in_range_length _ _ Hi) as HL. rewrite Hsa in HL.
    assert (rev idx = unpermute (rev (zrange n)) idx) as ->.
    { apply nth_error_ext'. intros k. destruct (Nat.ltb_spec k (length (n_shape nd))).
      - pose proof (Hrn k ltac:(lia)) as E1. pose proof (Hinv _ _ E1) as E2.
        pose proof (unpermute_coord (rev (zrange n)) idx _ _ ltac:(rewrite rev_length, zrange_length; replace (Z.of_nat (Z.to_nat n)) with n by lia; symmetry; apply Permutation_rev) ltac:(rewrite rev_length, zrange_length; lia) E2) as E3.
        rewrite Nat2Z.id in E3. rewrite E3. rewrite nth_error_rev' by lia. f_equal. lia.
      - transitivity (@None Z); [|symmetry]; apply nth_error_None; rewrite ?rev_length, ?unpermute_length, ?rev_length, ?zrange_length; lia. }
    assert (Hp : Permutation (rev (zrange n)) (zrange (Z.of_nat (length (n_shape nd))))) by (symmetry; apply Permutation_rev).
    eapply unpermute_inverse; eauto.
Qed.

(* ---- slicing one axis in the middle *)
Lemma selects_axis d n s sub idx src : (d < length s)%nat -> nth d s 0 = n ->
  selects (repeat full_slice d ++ [sub]) s idx src -> nonneg s ->
  forall (f : Z -> Z), (forall idx0 s0 src0, selects [sub] (n :: s0) idx0 src0 ->
      exists i r, idx0 = i :: r /\ src0 = f i :: r) ->
  src = upd idx d (f (nth d idx 0)).
Proof.
  intros Hd Hn H Hnn f Hf. revert s n idx src Hd Hn H Hnn Hf.
  induction d as [|d IH]; intros [|e s] n idx src Hd Hn H Hnn Hf; cbn in Hd; try lia.
  - cbn in Hn. subst e. cbn [repeat app] in H. destruct (Hf _ _ _ H) as (i & r & -> & ->). reflexivity.
  - cbn in Hn. cbn [repeat app] in H. inversion H as [| | |a b st m subs s' i idx' src' p Hz Hrest]; subst.
    inversion Hnn; subst.
    assert (p = i).
    { unfold py_positions in Hz. rewrite progression_filter in Hz by lia.
      rewrite znth_map in Hz. destruct (znth (zrange _) i) as [q|] eqn:Eq; [|discriminate]. cbn in Hz. injection Hz as <-.
      pose proof (znth_Some_range _ _ _ Eq) as Hb. rewrite zrange_length in Hb.
      rewrite znth_zrange in Eq by lia. injection Eq as <-. lia. }
    subst p. cbn. f_equal. eapply IH; eauto. lia.
Qed.

Lemma selected_shape_axis d s a b st : (d < length s)%nat -> nonneg s ->
  selected_shape (repeat full_slice d ++ [SSlice a b st]) s =
  upd s d (Z.of_nat (length (py_positions (nth d s 0) a b st))).
Proof.
  revert s. induction d as [|d IH]; intros [|e s] Hd Hn; cbn in Hd; try lia.
  - reflexivity.
  - inversion Hn; subst. cbn [repeat app selected_shape upd full_slice nth]. rewrite IH by (auto; lia). f_equal.
    unfold full_slice, py_positions. rewrite progression_filter by lia. rewrite map_length, zrange_length.
    destruct (0 <? e) eqn:E; [rewrite Z.div_1_r|]; lia.
Qed.

Lemma valid_node g a : valid g a -> exists nd, nth_error g a = Some nd.
Proof. unfold valid. intros H. destruct (nth_error g a) eqn:E; eauto. apply nth_error_None in E. lia. Qed.

Lemma shape_nonneg g a : reach g -> nonneg (shape_of g a).
Proof.
  intros Hr. unfold shape_of. destruct (nth_error g a) eqn:E; [|constructor].
  eapply (wf_nonneg unit_valg); eauto using reach_wf.
Qed.

Lemma slice_axis_done g a d x y st g' r : reach g -> (d < length (shape_of g a))%nat ->
  forall f, (forall i p, znth (py_positions (nth d (shape_of g a) 0) x y st) i = Some p -> p = f i) ->
  api_getitem g a (repeat full_slice d ++ [SSlice x y st]) = Done (g', r) ->
  shape_of g' r = upd (shape_of g a) d (Z.of_nat (length (py_positions (nth d (shape_of g a) 0) x y st))) /\
  forall idx, in_range (shape_of g' r) idx -> t_at (den A g' r) idx = t_at (den A g a) (upd idx d (f (nth d idx 0))).
Proof.
  intros Hr Hd f Hf H. pose proof (shape_nonneg g a Hr) as Hn.
  destruct (getitem_done A _ _ _ _ _ Hr H) as (V & S & D). rewrite selected_shape_axis in S by auto.
  split; [exact S|]. intros idx Hi. destruct (D idx Hi) as (src & Hs & ->). f_equal.
  eapply selects_axis; eauto. intros idx0 s0 src0 H0. inversion H0 as [| | |? ? ? ? ? ? i idx' src' p Hz Hrest]; subst.
  exists i, idx'. split; [reflexivity|]. rewrite (Hf _ _ Hz). f_equal.
  clear - Hrest. remember (@nil sub) as e. induction Hrest; try discriminate; auto. subst. now rewrite IHHrest.
Qed.

Lemma pad_slice_back g a d b f g1 p g2 r : reach g -> call_ok g (CPad a d b f) -> api_pad g a d b f = Done (g1, p) ->
  api_getitem g1 p (repeat full_slice (Z.to_nat d) ++ [SSlice (Some b) (Some (b + nth (Z.to_nat d) (shape_of g a) 0)) None]) = Done (g2, r) ->
  shape_of g2 r = shape_of g a /\ forall idx, in_range (shape_of g a) idx -> t_at (den A g2 r) idx = t_at (den A g a) idx.
Proof.
  intros Hr Hok H1 H2. pose proof Hok as (Hv & Hd0 & Hb & Hf). pose proof (shape_nonneg g a Hr) as Hn.
  assert (Hr1 : reach g1) by (eapply reach_call with (c := CPad a d b f); eauto).
  destruct (pad_done A _ _ _ _ _ _ _ Hr Hok H1) as (Hd & S1 & D1 & _).
  set (n := nth (Z.to_nat d) (shape_of g a) 0) in *. set (k := Z.to_nat d) in *.
  assert (Hk : (k < length (shape_of g a))%nat) by lia.
  assert (Hn0 : 0 <= n). { apply (proj1 (Forall_forall _ _) Hn). unfold n. apply nth_In. exact Hk. }
  assert (Hnp : nth k (shape_of g1 p) 0 = b + n + f) by (rewrite S1; now apply nth_upd_same).
  assert (Hpos : py_positions (b + n + f) (Some b) (Some (b + n)) None = map (fun i => b + i * 1) (zrange n)).
  { unfold py_positions, py_bound. replace (b <? 0) with false by lia. replace (b + n <? 0) with false by lia.
    replace (Z.min (b + n + f) b) with b by lia. replace (Z.min (b + n + f) (b + n)) with (b + n) by lia.
    rewrite progression_filter by lia. f_equal. f_equal. destruct (b <? b + n) eqn:E; [rewrite Z.div_1_r|]; lia. }
  destruct (slice_axis_done g1 p k (Some b) (Some (b + n)) None g2 r Hr1) with (f := fun i => b + i) as (S2 & D2);
    [rewrite S1, upd_length; exact Hk| |exact H2|].
  { rewrite Hnp, Hpos. intros i q Hq. rewrite znth_map in Hq. destruct (znth (zrange n) i) as [z|] eqn:Ez; [|discriminate].
    cbn in Hq. injection Hq as <-. pose proof (znth_Some_range _ _ _ Ez) as Hz. rewrite zrange_length in Hz.
    rewrite znth_zrange in Ez by lia. injection Ez as <-. lia. }
  rewrite Hnp, Hpos, map_length, zrange_length in S2. rewrite S1, upd_upd_same in S2.
  replace (Z.of_nat (Z.to_nat n)) with n in S2 by lia. unfold n in S2. rewrite upd_nth_self in S2.
  split; [exact S2|]. intros idx Hi. rewrite D2 by (now rewrite S2).
  pose proof (in_range_nth _ _ k Hi Hk) as Hin. fold n in Hin. pose proof (in_range_length _ _ Hi) as HL.
  rewrite D1.
  - rewrite nth_upd_same by lia. replace (b <=? b + nth k idx 0) with true by lia. replace (b + nth k idx 0 <? b + n) with true by lia.
    cbn [andb]. rewrite upd_upd_same. replace (b + nth k idx 0 - b) with (nth k idx 0) by lia. now rewrite upd_nth_self.
  - rewrite S1. apply in_range_upd; [exact Hi|]. lia.
Qed.

Lemma dilate_slice_back g a d st g1 p g2 r : reach g -> call_ok g (CDilate a d st) -> api_dilate g a d st = Done (g1, p) ->
  api_getitem g1 p (repeat full_slice (Z.to_nat d) ++ [SSlice None None (Some st)]) = Done (g2, r) ->
  shape_of g2 r = shape_of g a /\ forall idx, in_range (shape_of g a) idx -> t_at (den A g2 r) idx = t_at (den A g a) idx.
Proof.
  intros Hr Hok H1 H2. pose proof Hok as (Hv & Hd0 & Hst & Hn1). pose proof (shape_nonneg g a Hr) as Hn.
  assert (Hr1 : reach g1) by (eapply reach_call with (c := CDilate a d st); eauto).
  destruct (dilate_done A _ _ _ _ _ _ Hr Hok H1) as (Hd & S1 & D1 & _).
  set (n := nth (Z.to_nat d) (shape_of g a) 0) in *. set (k := Z.to_nat d) in *.
  assert (Hk : (k < length (shape_of g a))%nat) by lia.
  assert (Hnp : nth k (shape_of g1 p) 0 = (n - 1) * st + 1) by (rewrite S1; now apply nth_upd_same).
  assert (Hpos : py_positions ((n - 1) * st + 1) None None (Some st) = map (fun i => 0 + i * st) (zrange n)).
  { unfold py_positions. rewrite progression_filter by nia. f_equal. f_equal.
    replace (0 <? (n - 1) * st + 1) with true by nia. replace ((n - 1) * st + 1 - 0 - 1) with ((n - 1) * st) by lia.
    rewrite Z.div_mul by lia. lia. }
  destruct (slice_axis_done g1 p k None None (Some st) g2 r Hr1) with (f := fun i => i * st) as (S2 & D2);
    [rewrite S1, upd_length; exact Hk| |exact H2|].
  { rewrite Hnp, Hpos. intros i q Hq. rewrite znth_map in Hq. destruct (znth (zrange n) i) as [z|] eqn:Ez; [|discriminate].
    cbn in Hq. injection Hq as <-. pose proof (znth_Some_range _ _ _ Ez) as Hz. rewrite zrange_length in Hz.
    rewrite znth_zrange in Ez by lia. injection Ez as <-. lia. }
  rewrite Hnp, Hpos, map_length, zrange_length in S2. rewrite S1, upd_upd_same in S2.
  replace (Z.of_nat (Z.to_nat n)) with n in S2 by lia. unfold n in S2. rewrite upd_nth_self in S2.
  split; [exact S2|]. intros idx Hi. rewrite D2 by (now rewrite S2).
  pose proof (in_range_nth _ _ k Hi Hk) as Hin. fold n in Hin. pose proof (in_range_length _ _ Hi) as HL.
  rewrite D1.
  - rewrite nth_upd_same by lia. rewrite Z.mod_mul by lia. cbn [Z.eqb]. rewrite upd_upd_same.
    rewrite Z.div_mul by lia. now rewrite upd_nth_self.
  - rewrite S1. apply in_range_upd; [exact Hi|]. nia.
Qed.
End F.

(* ---- round trip *)
Lemma znth_app_r {X} (l k : list X) z : 0 <= z -> znth (l ++ k) (Z.of_nat (length l) + z) = znth k z.
Proof.
  intros Hz. unfold znth. replace (Z.of_nat (length l) + z <? 0) with false by lia. replace (z <? 0) with false by lia.
  rewrite nth_error_app2 by lia. f_equal. lia.
Qed.

Lemma pynth_pos {X} (l : list X) z : 0 <= z -> pynth l z = znth l z.
Proof. intros H. unfold pynth. now replace (z <? 0) with false by lia. Qed.

Lemma read_nd_leaves {X} (v : nest X) : forall s pre post, rect s v ->
  read_nd (pre ++ leaves v ++ post) (cut0 s) (strides_from_shape (cut0 s)) (Z.of_nat (length pre)) = Done v.
Proof.
  induction v as [x|l IH] using nest_ind'; intros s pre post Hr; inversion Hr as [|d s' l' Hl Hall]; subst; cbn [cut0].
  - cbn [read_nd leaves app]. rewrite pynth_pos by lia. rewrite znth_of_nat, nth_error_app2, Nat.sub_diag by lia. reflexivity.
  - destruct (Z.of_nat (length l) =? 0) eqn:E0.
    + destruct l; [reflexivity|cbn in E0; lia].
    + rewrite strides_cons. cbn [read_nd].
      assert (Hc : zprod (cut0 s') = Z.of_nat (length (leaves (hd (Nest []) l)))).
      { destruct l as [|w l]; [cbn in E0; lia|]. symmetry. apply rect_leaves_length. apply Hall. now left. }
      assert (Hlen : forall w, In w l -> Z.of_nat (length (leaves w)) = zprod (cut0 s')).
      { intros w Hw. apply rect_leaves_length. auto. }
      cut (forall l1 l2, l = l1 ++ l2 -> mapO (fun i => read_nd (pre ++ leaves (Nest l) ++ post) (cut0 s') (strides_from_shape (cut0 s'))
             (Z.of_nat (length pre) + i * zprod (cut0 s'))) (map (fun k => Z.of_nat (length l1) + k) (zrange (Z.of_nat (length l2)))) = Done l2).
      { intros H. specialize (H [] l eq_refl). cbn [length] in H. rewrite map_ext with (g := fun k => k) in H by (intros; lia). rewrite map_id in H.
        rewrite H. reflexivity. }
      intros l1 l2. revert l1. induction l2 as [|w l2 IH2]; intros l1 Hsplit; [reflexivity|].
      replace (Z.of_nat (length (w :: l2))) with (1 + Z.of_nat (length l2)) by (cbn [length]; lia).
      rewrite zrange_shift_app by lia. cbn [app]. change (zrange 1) with [0]. cbn [app map mapO].
      assert (Hw : In w l) by (rewrite Hsplit; apply in_or_app; right; now left).
      assert (HL1 : Z.of_nat (length (flat_map leaves l1)) = Z.of_nat (length l1) * zprod (cut0 s')).
      { assert (forall w, In w l1 -> In w l) by (intros; rewrite Hsplit; apply in_or_app; now left).
        clear - H Hlen. induction l1 as [|u l1 IH]; [cbn; lia|]. cbn [flat_map length]. rewrite app_length.
        specialize (IH (fun w Hw => H w (or_intror Hw))). pose proof (Hlen u (H u (or_introl eq_refl))). nia. }
      pose proof (IH w Hw s' (pre ++ flat_map leaves l1) (flat_map leaves l2 ++ post) (Hall w Hw)) as HR.
      replace (pre ++ leaves (Nest l) ++ post) with ((pre ++ flat_map leaves l1) ++ leaves w ++ flat_map leaves l2 ++ post).
      2:{ cbn [leaves]. rewrite Hsplit, flat_map_app. cbn [flat_map]. now rewrite <- !app_assoc. }
      replace (Z.of_nat (length pre) + (Z.of_nat (length l1) + 0) * zprod (cut0 s')) with (Z.of_nat (length (pre ++ flat_map leaves l1))) by (rewrite app_length; lia).
      rewrite HR. cbn [obind]. specialize (IH2 (l1 ++ [w])). rewrite Hsplit, <- app_assoc in IH2. specialize (IH2 eq_refl).
      rewrite map_map. rewrite app_length in IH2. cbn [length] in IH2.
      rewrite map_ext with (g := fun k => Z.of_nat (length l1) + (1 + k)) in IH2 by (intros; lia).
      replace ((pre ++ flat_map leaves l1) ++ leaves w ++ flat_map leaves l2 ++ post) with (pre ++ leaves (Nest (l1 ++ w :: l2)) ++ post).
      2:{ cbn [leaves]. rewrite flat_map_app. cbn [flat_map]. now rewrite <- !app_assoc. }
      rewrite IH2. reflexivity.
Qed.

Lemma array_roundtrip g v s : rect s v ->
  exists g' r, api_array g v = Done (g', r) /\ shape_of g' r = cut0 s /\ tolist g' (const_mem g') r = Done v.
Proof.
  intros Hr. unfold api_array. destruct (array_rect s v Hr [] []) as [HA _]. cbn [length app] in HA. rewrite HA. cbn [obind].
  unfold api_const. eexists _, _. split; [reflexivity|]. unfold shape_of. rewrite nth_error_snoc. split; [reflexivity|].
  unfold tolist, const_mem. rewrite nth_error_snoc. cbn [const_node n_shape n_strides n_offset n_op].
  assert (Hb : base (g ++ [const_node (cut0 s) (leaves v)]) (length g) = Some (length g)).
  { unfold base. rewrite app_length. cbn [length]. rewrite Nat.add_1_r. cbn [base_fuel]. now rewrite nth_error_snoc. }
  rewrite Hb, nth_error_snoc. cbn [n_op const_node].
  pose proof (read_nd_leaves v s [] [] Hr) as HR. cbn [app length] in HR. rewrite app_nil_r in HR. exact HR.
Qed.

Lemma follow_nest {X} (l : list (nest X)) i r : follow (Nest l) (i :: r) = match znth l i with Some w => follow w r | None => None end.
Proof.
  cbn. unfold znth. destruct (i <? 0); [reflexivity|]. generalize (Z.to_nat i). induction l as [|w l IH]; intros [|k]; cbn; auto.
Qed.
Lemma leaves_follow {X} (v : nest X) : forall s idx, rect s v -> in_range (cut0 s) idx -> znth (leaves v) (flat (cut0 s) idx) = follow v idx.
Proof.
  induction v as [x|l IH] using nest_ind'; intros s idx Hr Hi; inversion Hr as [|d s' l' Hl Hall]; subst; cbn [cut0] in *.
  - inversion Hi; subst. reflexivity.
  - destruct (Z.of_nat (length l) =? 0) eqn:E0; [inversion Hi as [|? ? ? ? Hz]; subst; lia|].
    inversion Hi as [|i d r s'' Hz Hrest]; subst. fold (in_range (cut0 s') r) in Hrest.
    rewrite flat_cons, follow_nest. destruct (znth_in_range l i Hz) as [w Hw]. rewrite Hw.
    pose proof (znth_In _ _ _ Hw) as Hin. rewrite <- (IH w Hin s' r (Hall _ Hin) Hrest). cbn [leaves].
    assert (Hlen : forall w, In w l -> Z.of_nat (length (leaves w)) = zprod (cut0 s')) by (intros; apply rect_leaves_length; auto).
    pose proof (flat_bounds _ _ Hrest) as Hfb. clear - Hw Hlen Hfb Hz.
    unfold znth in Hw. destruct (i <? 0) eqn:E; [discriminate|].
    replace (i * zprod (cut0 s')) with (Z.of_nat (Z.to_nat i) * zprod (cut0 s')) by (f_equal; lia).
    revert Hw. generalize (Z.to_nat i). clear i Hz E. induction l as [|u l IH]; intros [|k] Hw; try discriminate; cbn in Hw.
    + injection Hw as ->. cbn [flat_map]. pose proof (Hlen w (or_introl eq_refl)). unfold znth. replace (Z.of_nat 0 * zprod (cut0 s') + flat (cut0 s') r) with (flat (cut0 s') r) by lia.
      destruct (flat (cut0 s') r <? 0) eqn:E; [reflexivity|]. apply nth_error_app1. lia.
    + cbn [flat_map]. pose proof (Hlen u (or_introl eq_refl)).
      replace (Z.of_nat (S k) * zprod (cut0 s') + flat (cut0 s') r) with (Z.of_nat (length (leaves u)) + (Z.of_nat k * zprod (cut0 s') + flat (cut0 s') r)) by nia.
      rewrite znth_app_r by nia. apply IH; auto. intros; apply Hlen; now right.
Qed.
