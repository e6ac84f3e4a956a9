From Verif Require Import Base BaseFacts Util UtilFacts Lang Spec SpecFacts Graph Api Denote DenoteFacts
  ArrayLit ArrayFacts Reach ApiFacts Tolist TolistFacts FrontSpec.
From Coq Require Import ZifyBool ZifyNat.

(* ---------- slicing ---------- *)
Lemma clamp_py n x : 0 <= n -> Z.max 0 (Z.min (if x <? 0 then x + n else x) n) = py_bound n x.
Proof. unfold py_bound. destruct (x <? 0) eqn:E; lia. Qed.

(* arithmetic progression lo, lo+st, ... below hi as a filtered range *)
Lemma progression_filter st : 0 < st -> forall n lo hi, 0 <= lo -> hi <= n -> lo <= n ->
  filter (fun p => (lo <=? p) && (p <? hi) && ((p - lo) mod st =? 0)) (zrange n)
  = map (fun k => lo + k * st) (zrange (if lo <? hi then (hi - lo - 1) / st + 1 else 0)).
Proof.
  intros Hst n lo hi H0 H1 H2.
  assert (Hfil : forall m, 0 <= m -> filter (fun p => (lo <=? p) && (p <? hi) && ((p - lo) mod st =? 0)) (zrange m)
     = map (fun k => lo + k * st) (zrange (if lo <? Z.min hi m then (Z.min hi m - lo - 1) / st + 1 else 0))).
  { intros m Hm. revert m Hm. apply natlike_ind.
    - cbn. replace (lo <? Z.min hi 0) with false by lia. reflexivity.
    - intros m Hm IH. unfold Z.succ. rewrite zrange_S by assumption. rewrite filter_app, IH. cbn [filter].
      destruct (Z.leb_spec lo m); cbn [andb].
      + destruct (Z.ltb_spec m hi); cbn [andb].
        * replace (Z.min hi (m + 1)) with (m + 1) by lia. replace (Z.min hi m) with m by lia.
          replace (lo <? m + 1) with true by lia. replace (m + 1 - lo - 1) with (m - lo) by lia.
          destruct ((m - lo) mod st =? 0) eqn:E.
          -- assert (Hq : m - lo = st * ((m - lo) / st)) by (apply Z.div_exact; lia).
             set (q := (m - lo) / st) in *.
             assert (Hq0 : 0 <= q) by nia.
             rewrite zrange_S by assumption. rewrite map_app. cbn [map]. f_equal; [|f_equal; nia].
             f_equal. f_equal. destruct (Z.ltb_spec lo m).
             ++ assert ((m - lo - 1) / st = q - 1); [|lia].
                symmetry. apply Z.div_unique with (r := st - 1); [left; lia|]. nia.
             ++ nia.
          -- rewrite app_nil_r. destruct (Z.ltb_spec lo m).
             ++ f_equal. f_equal. f_equal.
                pose proof (Z.div_mod (m - lo) st ltac:(lia)) as HD. pose proof (Z.mod_pos_bound (m - lo) st ltac:(lia)).
                symmetry. apply Z.div_unique with (r := (m - lo) mod st - 1); [left; lia|]. lia.
             ++ replace (m - lo) with 0 in E by lia. rewrite Z.mod_0_l in E by lia. discriminate.
        * rewrite app_nil_r. now replace (Z.min hi (m + 1)) with (Z.min hi m) by lia.
      + rewrite app_nil_r. replace (lo <? Z.min hi m) with false by lia.
        replace (lo <? Z.min hi (m + 1)) with false by lia. reflexivity. }
  rewrite Hfil by lia. now replace (Z.min hi n) with hi by lia.
Qed.

Lemma py_bound_range n x : 0 <= n -> 0 <= py_bound n x <= n.
Proof. unfold py_bound. destruct (x <? 0) eqn:E; lia. Qed.

(* what a normalised slice selects *)
Lemma norm_slice_positions n a b st x : 0 <= n -> norm_sub (SSlice a b st) n = Done x ->
  exists lo hi k, x = NSSlice lo hi k /\ 0 < k /\
    py_positions n a b st = map (fun i => lo + i * k) (zrange (if lo <? hi then (hi - lo - 1) / k + 1 else 0)).
Proof.
  intros Hn. cbn. destruct (odflt st 1 <=? 0) eqn:E; [discriminate|]. intros H; injection H as <-.
  eexists _, _, _. split; [reflexivity|]. split; [lia|]. rewrite !clamp_py by assumption.
  unfold py_positions.
  assert (Ha : match a with None => 0 | Some x => py_bound n x end = py_bound n (odflt a 0)) by (destruct a; cbn; [reflexivity|unfold py_bound; cbn; lia]).
  assert (Hb : match b with None => n | Some x => py_bound n x end = py_bound n (odflt b n)).
  { destruct b; cbn; [reflexivity|]. unfold py_bound. destruct (n <? 0) eqn:En; lia. }
  rewrite Ha, Hb. change (match st with None => 1 | Some x => x end) with (odflt st 1).
  pose proof (py_bound_range n (odflt a 0) Hn). pose proof (py_bound_range n (odflt b n) Hn).
  apply progression_filter; lia.
Qed.

Lemma norm_sub_legal s n : 0 <= n -> (exists x, norm_sub s n = Done x) <-> sub_legal s n.
Proof.
  intros Hn. destruct s as [i|a b st|]; cbn.
  - destruct (i <? 0) eqn:E0; destruct (_ && _) eqn:E; split; try (intros [x H]; discriminate); try lia; eauto.
  - destruct (odflt st 1 <=? 0) eqn:E; destruct st; cbn in *; split; try (intros [x H]; discriminate); try lia; eauto.
  - split; [intros [x H]; discriminate|contradiction].
Qed.
Lemma norm_sub_throw s n e : norm_sub s n = Throw e -> e = RuntimeErr.
Proof.
  destruct s; cbn; [destruct (_ && _)|destruct (_ <=? _)|]; congruence.
Qed.

Lemma norm_subs_full_spec s : nonneg s -> exists ns, norm_subs (repeat full_slice (length s)) s = Done ns /\
  slice_shape ns = s /\ forall idx, in_range s idx -> slice_idx ns idx = idx.
Proof.
  intros H. induction H as [|d s Hd Hs (ns & H1 & H2 & H3)].
  - exists []. repeat split. intros idx Hi. now inversion Hi.
  - cbn [length repeat norm_subs]. cbn. rewrite H1. cbn. eexists. split; [reflexivity|].
    replace (d <? 0) with false by lia. replace (Z.max 0 (Z.min d d)) with d by lia. replace (Z.max 0 (Z.min 0 d)) with 0 by lia.
    split.
    + cbn. rewrite H2. f_equal. destruct (0 <? d) eqn:E; [|lia]. rewrite Z.div_1_r. lia.
    + intros idx Hi. inversion Hi; subst. cbn. rewrite H3 by assumption. f_equal. lia.
Qed.

Lemma slice_shape_app a b : slice_shape (a ++ b) = slice_shape a ++ slice_shape b.
Proof. induction a as [|[i|x y z] a IH]; cbn; [reflexivity|assumption|now rewrite IH]. Qed.

Lemma norm_subs_length subs s ns : length subs = length s -> norm_subs subs s = Done ns -> length ns = length s.
Proof.
  revert s ns. induction subs as [|x subs IH]; intros [|d s] ns HL H; try discriminate; cbn in H.
  - now injection H as <-.
  - apply obind_done in H as (y & _ & H). apply obind_done in H as (ys & Hys & H). injection H as <-.
    cbn. f_equal. apply (IH s); auto.
Qed.

Lemma norm_subs_selects subs : forall s ns, nonneg s -> (length subs <= length s)%nat ->
  norm_subs (subs ++ repeat full_slice (length s - length subs)) s = Done ns ->
  slice_shape ns = selected_shape subs s /\
  forall idx, in_range (slice_shape ns) idx -> selects subs s idx (slice_idx ns idx).
Proof.
  induction subs as [|x subs IH]; intros s ns Hn HL H.
  - cbn [length app] in H. rewrite Nat.sub_0_r in H. destruct (norm_subs_full_spec s Hn) as (ns' & K1 & K2 & K3).
    rewrite K1 in H. injection H as <-. rewrite K2. cbn. split; [reflexivity|]. intros idx Hi. rewrite K3 by assumption.
    clear - Hi. induction Hi; constructor; auto.
  - destruct s as [|n s]; [cbn in HL; lia|]. cbn [app norm_subs length Nat.sub] in H.
    apply obind_done in H as (y & Hy & H). apply obind_done in H as (ys & Hys & H). injection H as <-.
    inversion Hn as [|? ? Hn0 Hns]; subst.
    destruct (IH s ys Hns ltac:(cbn in HL; lia) Hys) as (I1 & I2).
    destruct x as [i|a b st|]; [| |discriminate].
    + cbn in Hy. destruct (_ && _) eqn:E; [|discriminate]. injection Hy as <-. cbn. split; [assumption|].
      intros idx Hi. econstructor; [|lia|now apply I2]. destruct (i <? 0); lia.
    + destruct (norm_slice_positions _ _ _ _ _ Hn0 Hy) as (lo & hi & k & -> & Hk & HP).
      cbn [slice_shape selected_shape]. split.
      * rewrite I1. f_equal. rewrite HP, map_length, zrange_length.
        destruct (lo <? hi) eqn:E; [|reflexivity]. pose proof (Z.div_pos (hi - lo - 1) k). lia.
      * intros idx Hi. inversion Hi as [|i0 d0 idx' sh0 Hb Hr]; subst. cbn [slice_idx].
        econstructor; [|now apply I2]. rewrite HP, znth_map, znth_zrange by assumption. reflexivity.
Qed.

Lemma norm_subs_legal subs : forall s, nonneg s -> (length subs <= length s)%nat ->
  (exists ns, norm_subs (subs ++ repeat full_slice (length s - length subs)) s = Done ns) <-> subs_legal subs s.
Proof.
  induction subs as [|x subs IH]; intros s Hn HL.
  - cbn. split; [trivial|]. intros _. rewrite Nat.sub_0_r. destruct (norm_subs_full_spec s Hn) as (ns & H & _). eauto.
  - destruct s as [|n s]; [cbn in HL; lia|]. inversion Hn as [|? ? Hn0 Hns]; subst.
    cbn [app norm_subs length Nat.sub subs_legal]. rewrite <- (norm_sub_legal x n Hn0), <- (IH s Hns ltac:(cbn in HL; lia)).
    split.
    + intros [ns H]. apply obind_done in H as (y & Hy & H). apply obind_done in H as (ys & Hys & H). eauto.
    + intros [[y Hy] [ys Hys]]. rewrite Hy. cbn. rewrite Hys. cbn. eauto.
Qed.
Lemma norm_subs_throw subs s e : norm_subs subs s = Throw e -> e = RuntimeErr.
Proof.
  revert s. induction subs as [|x subs IH]; intros [|d s] H; try discriminate. cbn in H.
  destruct (norm_sub x d) eqn:E; cbn in H.
  - destruct (norm_subs subs s) eqn:E2; cbn in H; [discriminate|]. eapply IH. rewrite E2. exact H.
  - injection H as <-. eapply norm_sub_throw; eauto.
Qed.

Section F.
Context (A : valg).

(* the meaning of the array created by one operation *)
Lemma forward_den g op ins g' r : wf_graph g' -> forward g op ins = Done (g', r) ->
  exists nd x a, nth_error g' r = Some nd /\ nth_error ins 0 = Some a /\ nth_error g a = Some x /\ n_op nd = op /\ n_in nd = ins /\
    forward_node op ins x = Done nd /\ n_dtype nd = n_dtype x /\
    den A g' r = den_node A (dens A g) nd /\ tin A (dens A g) nd 0 = den A g a.
Proof.
  intros Hw H. apply forward_done in H as (a & x & nd & H1 & H2 & H3 & -> & -> & H4 & H5).
  exists nd, x, a. rewrite nth_error_snoc. repeat split; auto.
  - eapply forward_dtype; eauto.
  - apply den_last.
  - apply tin_den. now rewrite H5.
Qed.

Lemma getitem_done g a subs g' r : reach g -> api_getitem g a subs = Done (g', r) ->
  valid g a /\ shape_of g' r = selected_shape subs (shape_of g a) /\
  forall idx, in_range (shape_of g' r) idx -> exists src, selects subs (shape_of g a) idx src /\
     t_at (den A g' r) idx = t_at (den A g a) src.
Proof.
  intros Hr H. pose proof (reach_wf _ Hr) as Hw. unfold api_getitem in H.
  destruct (get g a) as [nd|] eqn:Hg; [|discriminate]. cbn [obind] in H. cbn zeta in H. apply get_done in Hg.
  assert (Hv : valid g a) by (apply nth_error_Some; congruence).
  assert (Hok : call_ok g (CGetitem a subs)) by exact Hv.
  assert (Hw' : wf_graph g').
  { eapply run_call_wf; [exact Hw|exact Hok|]. cbn. unfold api_getitem. unfold get. rewrite Hg. exact H. }
  destruct (Nat.ltb _ _) eqn:E; [discriminate|]. apply Nat.ltb_ge in E. apply obind_done in H as (ns & Hns & H).
  pose proof (wf_shape_facts A g a nd Hw Hg) as [Ix In_ Is Il].
  destruct (norm_subs_selects subs _ _ In_ E Hns) as (S1 & S2).
  destruct (forward_den _ _ _ _ _ Hw' H) as (rd & x & a' & R1 & R2 & R3 & R4 & R5 & R6 & R7 & R8 & R9).
  cbn in R2. injection R2 as <-. rewrite Hg in R3. injection R3 as <-.
  pose proof (wf_shape_facts A g' r rd Hw' R1) as [Jx _ _ _].
  unfold shape_of. rewrite R1, Hg. rewrite <- Jx, R8. unfold den_node. rewrite R4, R9. cbn [t_shape t_slice t_at].
  split; [assumption|]. split; [assumption|]. intros idx Hi. exists (slice_idx ns idx). split; [now apply S2|reflexivity].
Qed.

Lemma getitem_accepts g a subs : reach g -> valid g a ->
  ((exists g' r, api_getitem g a subs = Done (g', r)) <-> subs_legal subs (shape_of g a)) /\
  (forall e, api_getitem g a subs = Throw e -> e = RuntimeErr).
Proof.
  intros Hr Hv. pose proof (reach_wf _ Hr) as Hw. unfold api_getitem, shape_of, get.
  destruct (nth_error g a) as [nd|] eqn:Hg; [|apply nth_error_None in Hg; unfold valid in Hv; lia]. cbn [obind].
  pose proof (wf_nonneg A g a nd Hw Hg) as Hn.
  destruct (Nat.ltb (length (n_shape nd)) (length subs)) eqn:E.
  - apply Nat.ltb_lt in E. split; [|congruence]. split; [intros (g' & r & H); discriminate|].
    intros HL. exfalso. revert HL E. clear. generalize (n_shape nd). induction subs as [|x subs IH]; intros [|d s] H E; cbn in *; try lia; try contradiction.
    destruct H. apply (IH s); auto. lia.
  - apply Nat.ltb_ge in E. pose proof (norm_subs_legal subs _ Hn E) as HL. pose proof (norm_subs_throw (subs ++ repeat full_slice (length (n_shape nd) - length subs)) (n_shape nd)) as HT.
    destruct (norm_subs _ _) as [ns|e] eqn:En; cbn [obind].
    + split; [|unfold forward, get; rewrite Hg; cbn; discriminate]. split; [intros _; apply HL; eauto|].
      intros _. unfold forward, get. rewrite Hg. cbn. eauto.
    + split; [|intros e' H; injection H as <-; eauto]. split; [intros (g' & r & H); discriminate|].
      intros H. apply HL in H as [ns H]. discriminate.
Qed.
End F.
