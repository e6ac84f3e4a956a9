From Verif Require Import Base BaseFacts Util UtilFacts Lang Spec SpecFacts Graph Api Denote DenoteFacts
  ArrayLit ArrayFacts Reach.
From Coq Require Import ZifyBool ZifyNat.

Arguments forward : simpl never.
Lemma nth_error_snoc {A} (l : list A) x : nth_error (l ++ [x]) (length l) = Some x.
Proof. now rewrite nth_error_app2, Nat.sub_diag by lia. Qed.
Lemma nth_error_app_some {A} (l k : list A) i x : nth_error l i = Some x -> nth_error (l ++ k) i = Some x.
Proof. intros H. rewrite nth_error_app1; [assumption|]. apply nth_error_Some. congruence. Qed.

Lemma get_done g a nd : get g a = Done nd <-> nth_error g a = Some nd.
Proof. unfold get. destruct (nth_error g a); split; congruence. Qed.

Lemma arg_ok_mono g h i op ins x : arg_ok g i op ins x -> arg_ok (g ++ h) i op ins x.
Proof.
  destruct op; cbn; auto. intros (b' & y & H1 & H2 & H3 & H4 & H5).
  exists b', y. repeat split; auto. now apply nth_error_app_some.
Qed.

Lemma wf_node_mono g h i nd : wf_node g i nd -> wf_node (g ++ h) i nd.
Proof.
  unfold wf_node. destruct (n_op nd); auto;
  intros (a & x & H1 & H2 & H3 & H4 & H5); exists a, x;
  exact (conj H1 (conj H2 (conj (nth_error_app_some _ _ _ _ H3) (conj H4 (arg_ok_mono _ h _ _ _ _ H5))))).
Qed.

Lemma wf_graph_snoc g nd : wf_graph g -> wf_node g (length g) nd -> wf_graph (g ++ [nd]).
Proof.
  intros Hg Hn i nd' Hi.
  destruct (Nat.lt_ge_cases i (length g)) as [Hlt|Hge].
  - rewrite nth_error_app1 in Hi by assumption. apply wf_node_mono. now apply Hg.
  - assert (i = length g) as ->.
    { assert (i < length (g ++ [nd]))%nat by (apply nth_error_Some; congruence). rewrite app_length in *. cbn in *. lia. }
    rewrite nth_error_snoc in Hi. injection Hi as <-. now apply wf_node_mono.
Qed.

Lemma wf_graph_prefix g h : wf_graph (g ++ h) -> wf_graph g.
Proof.
  intros Hw i nd Hi. pose proof (Hw i nd (nth_error_app_some _ _ _ _ Hi)) as H.
  assert (HLi : (i < length g)%nat) by (apply nth_error_Some; congruence).
  assert (HT : forall a x, (a < i)%nat -> nth_error (g ++ h) a = Some x -> nth_error g a = Some x).
  { intros a x Ha Hx. rewrite nth_error_app1 in Hx; [assumption|lia]. }
  unfold wf_node in *. destruct (n_op nd); auto;
  destruct H as (a & x & H1 & H2 & H3 & H4 & H5); exists a, x;
  refine (conj H1 (conj H2 (conj (HT _ _ H2 H3) (conj H4 _)))); try exact H5.
  destruct H5 as (b' & y & K1 & K2 & K3 & K4 & K5). exists b', y. repeat split; auto.
Qed.

Lemma forward_op op ins x nd : forward_node op ins x = Done nd -> n_op nd = op.
Proof.
  destruct op; cbn; try discriminate; try (intros H; injection H as <-; reflexivity).
  - unfold fwd_slice. destruct (slice_loop subs (n_strides x)) as [[o sh] ss]. intros H; injection H as <-; reflexivity.
  - unfold fwd_pad. destruct (pyupdate _ _ _); [|discriminate]. intros H; injection H as <-; reflexivity.
  - unfold fwd_dilate. destruct (pyupdate _ _ _); [|discriminate]. intros H; injection H as <-; reflexivity.
Qed.
Lemma forward_in op ins x nd : forward_node op ins x = Done nd -> n_in nd = ins.
Proof.
  destruct op; cbn; try discriminate; try (intros H; injection H as <-; reflexivity).
  - unfold fwd_slice. destruct (slice_loop subs (n_strides x)) as [[o sh] ss]. intros H; injection H as <-; reflexivity.
  - unfold fwd_pad. destruct (pyupdate _ _ _); [|discriminate]. intros H; injection H as <-; reflexivity.
  - unfold fwd_dilate. destruct (pyupdate _ _ _); [|discriminate]. intros H; injection H as <-; reflexivity.
Qed.

(* the single step behind every operation: one new node at the end of the graph *)
Lemma forward_done g op ins g' r : forward g op ins = Done (g', r) ->
  exists a x nd, nth_error ins 0 = Some a /\ nth_error g a = Some x /\ forward_node op ins x = Done nd /\
    g' = g ++ [nd] /\ r = length g /\ n_op nd = op /\ n_in nd = ins.
Proof.
  unfold forward. destruct ins as [|a ins]; [discriminate|]. intros H.
  apply obind_done in H as (x & Hx & H). apply obind_done in H as (nd & Hnd & H).
  injection H as <- <-. apply get_done in Hx. exists a, x, nd. cbn. repeat split; auto.
  - eapply forward_op; eauto.
  - eapply forward_in; eauto.
Qed.

Lemma forward_wf g op ins g' r : wf_graph g -> forward g op ins = Done (g', r) ->
  (forall a x, nth_error ins 0 = Some a -> nth_error g a = Some x -> arg_ok g (length g) op ins x) ->
  wf_graph g'.
Proof.
  intros Hw H Hok. apply forward_done in H as (a & x & nd & H1 & H2 & H3 & -> & -> & H4 & H5).
  apply wf_graph_snoc; [assumption|]. specialize (Hok a x H1 H2). unfold wf_node. rewrite H4, H5.
  assert (a < length g)%nat by (apply nth_error_Some; congruence).
  destruct op; try exact (ex_intro _ a (ex_intro _ x (conj H1 (conj H (conj H2 (conj H3 Hok)))))). discriminate H3.
Qed.

Lemma const_wf g shape vals : wf_graph g -> nonneg shape -> Z.of_nat (length vals) = zprod shape ->
  wf_graph (g ++ [const_node shape vals]).
Proof.
  intros Hw Hn HL. apply wf_graph_snoc; [assumption|]. unfold wf_node, const_node. cbn. repeat split; auto.
Qed.

Lemma norm_axis_ok ndim axis ax : norm_axis (Z.of_nat ndim) axis = Done ax ->
  Forall (fun a => 0 <= a < Z.of_nat ndim) ax.
Proof.
  unfold norm_axis. intros H.
  destruct (match axis with None | Some [] => zrange (Z.of_nat ndim) | Some l => l end) as [|y l] eqn:E.
  - injection H as <-. constructor.
  - destruct (Z.of_nat ndim =? 0) eqn:E0; [discriminate|]. injection H as <-.
    change (Forall (fun a => 0 <= a < Z.of_nat ndim) (map (fun a => a mod Z.of_nat ndim) (y :: l))).
    apply Forall_forall. intros a Ha. apply in_map_iff in Ha as (b & <- & _). apply Z.mod_pos_bound. lia.
Qed.

Lemma norm_sub_ok s d x : 0 <= d -> norm_sub s d = Done x -> sub_ok x d.
Proof.
  intros Hd. destruct s as [i|a b st|]; cbn; [| |discriminate].
  - destruct ((0 <=? _) && _) eqn:E; [|discriminate]. intros H; injection H as <-. cbn. lia.
  - destruct (_ <=? 0) eqn:E; [discriminate|]. intros H; injection H as <-. cbn. lia.
Qed.
Lemma norm_subs_ok subs s ns : nonneg s -> length subs = length s -> norm_subs subs s = Done ns -> Forall2 sub_ok ns s.
Proof.
  intros Hn. revert subs ns. induction Hn as [|d s Hd Hs IH]; intros [|x subs] ns HL H; try discriminate; cbn in H.
  - injection H as <-. constructor.
  - apply obind_done in H as (y & Hy & H). apply obind_done in H as (ys & Hys & H). injection H as <-.
    constructor; [eapply norm_sub_ok; eauto|]. apply (IH subs); auto.
Qed.

Lemma bzip_ok a b s : length a = length b -> bzip a b = Done s ->
  length s = length a /\ Forall2 (fun d e => d = e \/ d = 1) a s /\ Forall2 (fun d e => d = e \/ d = 1) b s.
Proof.
  revert b s. induction a as [|x a IH]; intros [|y b] s HL H; try discriminate; cbn in H.
  - injection H as <-. auto.
  - apply obind_done in H as (d & Hd & H). apply obind_done in H as (r & Hr & H). injection H as <-.
    destruct (IH b r) as (H1 & H2 & H3); [cbn in HL; lia|assumption|].
    split; [cbn; lia|]. split; constructor; auto;
    destruct (x =? y) eqn:E1; [injection Hd as <-; lia| |injection Hd as <-; lia|];
    (destruct (x =? 1) eqn:E2; [injection Hd as <-; lia|]);
    (destruct (y =? 1) eqn:E3; [injection Hd as <-; lia|discriminate]).
Qed.
Lemma bzip_nonneg a b s : nonneg a -> nonneg b -> bzip a b = Done s -> nonneg s.
Proof.
  intros Ha. revert b s. induction Ha as [|x a Hx Ha IH]; intros b s Hb H; cbn in H.
  - destruct b; injection H as <-; constructor.
  - destruct Hb as [|y b Hy Hb]; [injection H as <-; constructor|].
    apply obind_done in H as (d & Hd & H). apply obind_done in H as (r & Hr & H). injection H as <-.
    constructor; [|eapply IH; eauto].
    destruct (x =? y); [injection Hd as <-; lia|]. destruct (x =? 1); [injection Hd as <-; lia|].
    destruct (y =? 1); [injection Hd as <-; lia|discriminate].
Qed.
Lemma Forall2_skipn {A B} (P : A -> B -> Prop) n l1 l2 : Forall2 P l1 l2 -> Forall2 P (skipn n l1) (skipn n l2).
Proof.
  intros H. revert n. induction H; intros [|n]; cbn; auto.
Qed.
Lemma nonneg_repeat1 n s : nonneg s -> nonneg (repeat 1 n ++ s).
Proof. intros H. induction n; cbn; [assumption|constructor; [lia|assumption]]. Qed.
Lemma skipn_repeat_app {A} (x : A) n l : skipn n (repeat x n ++ l) = l.
Proof. induction n; cbn; auto. Qed.
Lemma bshape_ok s1 s2 s : bshape s1 s2 = Done s -> bcast_ok s1 s /\ bcast_ok s2 s /\ length s = Nat.max (length s1) (length s2).
Proof.
  unfold bshape. set (m := Nat.max (length s1) (length s2)). intros H.
  apply bzip_ok in H as (H1 & H2 & H3); [|rewrite !app_length, !repeat_length; lia].
  rewrite app_length, repeat_length in H1.
  split; [|split; [|lia]].
  - split; [lia|]. apply (Forall2_skipn _ (m - length s1)) in H2. rewrite skipn_repeat_app in H2.
    now replace (length s - length s1)%nat with (m - length s1)%nat by lia.
  - split; [lia|]. apply (Forall2_skipn _ (m - length s2)) in H3. rewrite skipn_repeat_app in H3.
    now replace (length s - length s2)%nat with (m - length s2)%nat by lia.
Qed.
Lemma bshape_nonneg s1 s2 s : nonneg s1 -> nonneg s2 -> bshape s1 s2 = Done s -> nonneg s.
Proof. intros H1 H2. apply bzip_nonneg; now apply nonneg_repeat1. Qed.

Section Shapes.
Context (A0 : valg).  (* any; the shape facts do not depend on it *)

Lemma wf_nonneg g a x : wf_graph g -> nth_error g a = Some x -> nonneg (n_shape x).
Proof. intros Hw Hx. apply (sf_nonneg A0 _ _ _ (wf_shape_facts A0 g a x Hw Hx)). Qed.
Lemma wf_strides_len g a x : wf_graph g -> nth_error g a = Some x -> length (n_strides x) = length (n_shape x).
Proof. intros Hw Hx. apply (sf_strides A0 _ _ _ (wf_shape_facts A0 g a x Hw Hx)). Qed.
Lemma wf_len g a x : wf_graph g -> nth_error g a = Some x -> n_len x = zprod (n_shape x).
Proof. intros Hw Hx. apply (sf_len A0 _ _ _ (wf_shape_facts A0 g a x Hw Hx)). Qed.
End Shapes.
(* a throwaway arithmetic to instantiate the shape facts *)
Definition unit_valg : valg := mkValg unit (fun _ => tt) (fun _ _ => Some tt) (fun _ _ _ => Some tt) (fun _ _ => tt).

(* the extra arrays created by broadcasting *)
Lemma broadcast_to_wf g a s g' r x : wf_graph g -> nth_error g a = Some x -> nonneg s -> bcast_ok (n_shape x) s ->
  api_broadcast_to g a s = Done (g', r) -> wf_graph g'.
Proof.
  intros Hw Hx Hn Hb H. eapply forward_wf; [exact Hw|exact H|]. intros a' x' Ha Hx'. cbn in Ha. injection Ha as <-.
  rewrite Hx in Hx'. injection Hx' as <-. cbn. auto.
Qed.

Lemma broadcasted_spec g l r g' l' r' : wf_graph g -> api_broadcasted g l r = Done (g', l', r') ->
  exists nl nr ns h nl' nr', nth_error g l = Some nl /\ nth_error g r = Some nr /\
    bshape (n_shape nl) (n_shape nr) = Done ns /\ g' = g ++ h /\ wf_graph g' /\
    nth_error g' l' = Some nl' /\ n_shape nl' = ns /\ n_dtype nl' = n_dtype nl /\
    nth_error g' r' = Some nr' /\ n_shape nr' = ns /\ n_dtype nr' = n_dtype nr /\
    (l' = l /\ n_shape nl = ns \/ n_op nl' = OBroadcast ns /\ n_in nl' = [l]) /\
    (r' = r /\ n_shape nr = ns \/ n_op nr' = OBroadcast ns /\ n_in nr' = [r]).
Proof.
  intros Hw H. unfold api_broadcasted in H.
  apply obind_done in H as (nl & Hl & H). apply obind_done in H as (nr & Hr & H).
  apply obind_done in H as (ns & Hns & H). apply get_done in Hl, Hr.
  apply obind_done in H as ([g1 l1] & H1 & H). apply obind_done in H as ([g2 r1] & H2 & H).
  injection H as <- <- <-. destruct (bshape_ok _ _ _ Hns) as (Hb1 & Hb2 & _).
  assert (Hnn : nonneg ns) by (eapply bshape_nonneg; [| |exact Hns]; eapply (wf_nonneg unit_valg); eauto).
  assert (A1 : exists h1 nl', g1 = g ++ h1 /\ wf_graph g1 /\ nth_error g1 l1 = Some nl' /\ n_shape nl' = ns /\ n_dtype nl' = n_dtype nl /\
     (l1 = l /\ n_shape nl = ns \/ n_op nl' = OBroadcast ns /\ n_in nl' = [l])).
  { destruct (list_zeqb (n_shape nl) ns) eqn:E.
    - injection H1 as <- <-. apply list_zeqb_eq in E. exists [], nl. rewrite app_nil_r. auto 8.
    - pose proof (broadcast_to_wf _ _ _ _ _ _ Hw Hl Hnn Hb1 H1) as Hw1.
      unfold api_broadcast_to in H1. apply forward_done in H1 as (a & x & nd & K1 & K2 & K3 & -> & -> & K4 & K5).
      exists [nd], nd. cbn in K1. injection K1 as <-. rewrite Hl in K2. injection K2 as <-.
      rewrite nth_error_snoc. split; [reflexivity|]. split; [assumption|]. split; [reflexivity|].
      split; [cbn in K3; injection K3 as <-; reflexivity|].
      split; [eapply forward_dtype; eauto|]. right. auto. }
  destruct A1 as (h1 & nl' & -> & Hw1 & B1 & B2 & B3 & B4).
  assert (Hr' : nth_error (g ++ h1) r = Some nr) by now apply nth_error_app_some.
  destruct (list_zeqb (n_shape nr) ns) eqn:E.
  - injection H2 as <- <-. apply list_zeqb_eq in E. exists nl, nr, ns, h1, nl', nr. intuition.
  - pose proof (broadcast_to_wf _ _ _ _ _ _ Hw1 Hr' Hnn Hb2 H2) as Hw2.
    unfold api_broadcast_to in H2. apply forward_done in H2 as (a & x & nd & K1 & K2 & K3 & -> & -> & K4 & K5).
    cbn in K1. injection K1 as <-. rewrite Hr' in K2. injection K2 as <-.
    exists nl, nr, ns, (h1 ++ [nd]), nl', nd. rewrite nth_error_snoc, app_assoc.
    rewrite (nth_error_app_some _ [nd] _ _ B1).
    repeat split; auto.
    + cbn in K3. injection K3 as <-. reflexivity.
    + eapply forward_dtype; eauto.
Qed.

Lemma api_binary_wf g b l r g' x : wf_graph g -> api_binary g b l r = Done (g', x) -> wf_graph g'.
Proof.
  intros Hw H. unfold api_binary in H. apply obind_done in H as ([[g1 l1] r1] & H1 & H).
  destruct (broadcasted_spec _ _ _ _ _ _ Hw H1) as (nl & nr & ns & h & nl' & nr' & _ & _ & _ & -> & Hw1 & B1 & B2 & _ & B4 & B5 & _).
  eapply forward_wf; [exact Hw1|exact H|]. intros a y Ha Hy. cbn in Ha. injection Ha as <-. rewrite B1 in Hy. injection Hy as <-.
  cbn. exists r1, nr'. repeat split; auto; try congruence. apply nth_error_Some. congruence.
Qed.

Lemma is_contiguous_new nd : n_strides nd = strides_from_shape (n_shape nd) -> is_contiguous nd = true.
Proof. intros H. unfold is_contiguous. now apply list_zeqb_eq. Qed.

Lemma api_contiguous_spec g a g' c : wf_graph g -> api_contiguous g a = Done (g', c) ->
  exists x y h, nth_error g a = Some x /\ g' = g ++ h /\ nth_error g' c = Some y /\ wf_graph g' /\
    is_contiguous y = true /\ n_shape y = n_shape x /\ n_dtype y = n_dtype x /\
    (c = a /\ h = [] /\ y = x \/ n_op y = OContiguous /\ n_in y = [a] /\ n_offset y = 0).
Proof.
  intros Hw H. unfold api_contiguous in H. apply obind_done in H as (x & Hx & H). apply get_done in Hx.
  destruct (is_contiguous x) eqn:E.
  - injection H as <- <-. exists x, x, []. rewrite app_nil_r. repeat split; auto.
  - assert (Hw' : wf_graph g').
    { eapply forward_wf; [exact Hw|exact H|]. intros; cbn. reflexivity. }
    apply forward_done in H as (a' & x' & nd & K1 & K2 & K3 & -> & -> & K4 & K5).
    cbn in K1. injection K1 as <-. rewrite Hx in K2. injection K2 as <-.
    exists x, nd, [nd]. rewrite nth_error_snoc. cbn in K3. injection K3 as <-.
    repeat split; auto. apply is_contiguous_new. reflexivity.
Qed.

Lemma run_call_wf g c g' r : wf_graph g -> call_ok g c -> run_call g c = Done (g', r) -> wf_graph g'.
Proof.
  intros Hw Hok H. destruct c; cbn [run_call call_ok] in *.
  - (* array *) destruct Hok as [s Hs]. unfold api_array in H. destruct (array_rect s v Hs [] []) as [HA _].
    cbn in HA. rewrite HA in H. cbn in H. injection H as <- <-.
    apply const_wf; [assumption|exact (rect_nonneg _ _ Hs)|exact (rect_leaves_length _ _ Hs)].
  - (* arange *) unfold api_arange, api_array in H.
    set (v := Nest (map (fun i => Leaf (NInt i)) (zrange stop))) in *.
    assert (Hs : rect [Z.of_nat (length (zrange stop))] v).
    { constructor; [now rewrite map_length|]. intros w Hin. apply in_map_iff in Hin as (i & <- & _). constructor. }
    destruct (array_rect _ v Hs [] []) as [HA _].
    cbn [length app] in HA. rewrite HA in H. cbn [obind api_const] in H. injection H as <- <-.
    apply const_wf; [assumption|exact (rect_nonneg _ _ Hs)|exact (rect_leaves_length _ _ Hs)].
  - (* full *) injection H as <- <-. apply const_wf; [assumption|assumption|].
    rewrite repeat_length, Z2Nat.id; [reflexivity|]. now apply zprod_nonneg.
  - unfold api_full_like in H. apply obind_done in H as (nd & Hnd & H). apply get_done in Hnd. injection H as <- <-.
    pose proof (wf_nonneg unit_valg _ _ _ Hw Hnd). apply const_wf; [assumption|assumption|].
    rewrite repeat_length, Z2Nat.id; [reflexivity|]. now apply zprod_nonneg.
  - unfold api_ones_like, api_full_like in H. apply obind_done in H as (nd & Hnd & H). rewrite Hnd in H. cbn in H.
    apply get_done in Hnd. injection H as <- <-.
    pose proof (wf_nonneg unit_valg _ _ _ Hw Hnd). apply const_wf; [assumption|assumption|].
    rewrite repeat_length, Z2Nat.id; [reflexivity|]. now apply zprod_nonneg.
  - unfold api_zeros_like, api_full_like in H. apply obind_done in H as (nd & Hnd & H). apply get_done in Hnd. injection H as <- <-.
    pose proof (wf_nonneg unit_valg _ _ _ Hw Hnd). apply const_wf; [assumption|assumption|].
    rewrite repeat_length, Z2Nat.id; [reflexivity|]. now apply zprod_nonneg.
  - eapply forward_wf; [exact Hw|exact H|]. intros; reflexivity.
  - eapply api_binary_wf; eauto.
  - unfold api_binary_scalar in H. cbn in H. eapply api_binary_wf; [|exact H].
    apply const_wf; [assumption|constructor|reflexivity].
  - unfold api_sum in H. apply obind_done in H as (nd & Hnd & H). apply obind_done in H as (ax & Hax & H). apply get_done in Hnd.
    eapply forward_wf; [exact Hw|exact H|]. intros a' x Ha Hx. cbn in Ha. injection Ha as <-. rewrite Hnd in Hx. injection Hx as <-.
    cbn. split; [reflexivity|]. eapply norm_axis_ok; eauto.
  - unfold api_getitem in H. apply obind_done in H as (nd & Hnd & H). apply get_done in Hnd.
    destruct (Nat.ltb _ _) eqn:E; [discriminate|]. apply obind_done in H as (ns & Hns & H).
    eapply forward_wf; [exact Hw|exact H|]. intros a' x Ha Hx. cbn in Ha. injection Ha as <-. rewrite Hnd in Hx. injection Hx as <-.
    cbn. split; [reflexivity|]. eapply norm_subs_ok; [|  |exact Hns].
    + eapply (wf_nonneg unit_valg); eauto.
    + rewrite app_length, repeat_length. apply Nat.ltb_ge in E. lia.
  - destruct Hok as (Ha & Hn & Hb). unfold valid, shape_of in *.
    destruct (nth_error g a) as [x|] eqn:Ex; [|apply nth_error_None in Ex; lia].
    eapply broadcast_to_wf; eauto.
  - unfold api_reshape in H. apply obind_done in H as (nd & Hnd & H). apply get_done in Hnd.
    destruct (zprod shape =? zprod (n_shape nd)) eqn:E; [|discriminate]. cbn in H.
    apply obind_done in H as ([g1 c] & H1 & H).
    destruct (api_contiguous_spec _ _ _ _ Hw H1) as (x & y & h & C1 & -> & C2 & C3 & C4 & C5 & _).
    eapply forward_wf; [exact C3|exact H|]. intros a' x' Ha' Hx'. cbn in Ha'. injection Ha' as <-.
    rewrite C2 in Hx'. injection Hx' as <-. rewrite Hnd in C1. injection C1 as <-. cbn. repeat split; auto; [apply Hok|]. rewrite C5. lia.
  - unfold api_transpose in H. apply obind_done in H as (nd & Hnd & H). apply get_done in Hnd.
    destruct (list_zeqb _ _) eqn:E; [|discriminate]. cbn in H. apply list_zeqb_eq, zsort_eq_range in E.
    eapply forward_wf; [exact Hw|exact H|]. intros a' x Ha Hx. cbn in Ha. injection Ha as <-. rewrite Hnd in Hx. injection Hx as <-.
    cbn. auto.
  - unfold api_T, api_transpose in H. apply obind_done in H as (nd & Hnd & H). rewrite Hnd in H. cbn in H. apply get_done in Hnd.
    destruct (Nat.leb _ _); [now injection H as <- <-|].
    destruct (list_zeqb _ _) eqn:E; [|discriminate]. cbn in H. apply list_zeqb_eq, zsort_eq_range in E.
    eapply forward_wf; [exact Hw|exact H|]. intros a' x Ha Hx. cbn in Ha. injection Ha as <-. rewrite Hnd in Hx. injection Hx as <-.
    cbn. auto.
  - destruct (api_contiguous_spec _ _ _ _ Hw H) as (x & y & h & _ & -> & _ & Hw' & _). assumption.
  - unfold api_pad in H. apply obind_done in H as (nd & Hnd & H). apply get_done in Hnd.
    destruct (_ <=? dim) eqn:E; [discriminate|]. destruct (_ && _); [now injection H as <- <-|].
    eapply forward_wf; [exact Hw|exact H|]. intros a' x Ha Hx. cbn in Ha. injection Ha as <-. rewrite Hnd in Hx. injection Hx as <-.
    cbn. destruct Hok as (_ & Hok). repeat split; lia.
  - unfold api_dilate in H. apply obind_done in H as (nd & Hnd & H). apply get_done in Hnd.
    destruct (_ <=? dim) eqn:E; [discriminate|]. destruct (_ =? 1); [now injection H as <- <-|].
    eapply forward_wf; [exact Hw|exact H|]. intros a' x Ha Hx. cbn in Ha. injection Ha as <-. rewrite Hnd in Hx. injection Hx as <-.
    cbn. unfold shape_of in Hok. rewrite Hnd in Hok. destruct Hok as (_ & Hok). repeat split; lia.
Qed.

Lemma reach_wf g : reach g -> wf_graph g.
Proof.
  intros H. induction H as [|g c g' r _ IH Hok H]; [intros i nd Hi; now destruct i|].
  eapply run_call_wf; eauto.
Qed.

(* laziness and purity: a call only appends *)
Lemma forward_appends g op ins g' r : forward g op ins = Done (g', r) -> exists h, g' = g ++ h /\ (r < length g')%nat.
Proof.
  intros H. apply forward_done in H as (_ & _ & nd & _ & _ & _ & -> & -> & _).
  exists [nd]. split; [reflexivity|]. rewrite app_length. cbn. lia.
Qed.
Lemma broadcast_appends g a s g' r : api_broadcast_to g a s = Done (g', r) -> exists h, g' = g ++ h.
Proof. unfold api_broadcast_to. intros H. apply forward_appends in H as (h & -> & _). eauto. Qed.
Lemma binary_appends g b l r g' x : api_binary g b l r = Done (g', x) -> exists h, g' = g ++ h /\ (x < length g')%nat.
Proof.
  unfold api_binary, api_broadcasted. intros H. apply obind_done in H as ([[g1 l1] r1] & H1 & H).
  apply obind_done in H1 as (nl & _ & H1). apply obind_done in H1 as (nr & _ & H1). apply obind_done in H1 as (ns & _ & H1).
  apply obind_done in H1 as ([g2 l2] & H2 & H1). apply obind_done in H1 as ([g3 r2] & H3 & H1). injection H1 as <- <- <-.
  assert (exists h, g2 = g ++ h) as [h2 ->].
  { destruct (list_zeqb _ _); [injection H2 as <- <-; exists []; now rewrite app_nil_r|eauto using broadcast_appends]. }
  assert (exists h, g3 = (g ++ h2) ++ h) as [h3 ->].
  { destruct (list_zeqb (n_shape nr) _); [injection H3 as <- <-; exists []; now rewrite app_nil_r|eauto using broadcast_appends]. }
  apply forward_appends in H as (h & -> & Hx). exists (h2 ++ h3 ++ h). now rewrite !app_assoc.
Qed.
Lemma const_appends g s v g' r : api_const g s v = Done (g', r) -> exists h, g' = g ++ h /\ (r < length g')%nat.
Proof. intros H. injection H as <- <-. eexists. split; [reflexivity|]. rewrite app_length; cbn; lia. Qed.
Lemma self_appends (g : graph) a x : nth_error g a = Some x -> exists h, g = g ++ h /\ (a < length g)%nat.
Proof. intros H. exists []. rewrite app_nil_r. split; [reflexivity|]. apply nth_error_Some. congruence. Qed.

Lemma run_call_appends g c g' r : run_call g c = Done (g', r) -> exists h, g' = g ++ h /\ (r < length g')%nat.
Proof.
  destruct c; cbn [run_call]; intros H.
  - unfold api_array in H. apply obind_done in H as ([fl sh] & _ & H). exact (const_appends _ _ _ _ _ H).
  - unfold api_arange, api_array in H. apply obind_done in H as ([fl sh] & _ & H). exact (const_appends _ _ _ _ _ H).
  - exact (const_appends _ _ _ _ _ H).
  - apply obind_done in H as (nd & _ & H). exact (const_appends _ _ _ _ _ H).
  - apply obind_done in H as (nd & _ & H). apply obind_done in H as (nd' & _ & H). exact (const_appends _ _ _ _ _ H).
  - apply obind_done in H as (nd & _ & H). exact (const_appends _ _ _ _ _ H).
  - exact (forward_appends _ _ _ _ _ H).
  - exact (binary_appends _ _ _ _ _ _ H).
  - unfold api_binary_scalar in H. cbn in H. apply binary_appends in H as (h & -> & Hr). rewrite <- app_assoc in *. eauto.
  - apply obind_done in H as (nd & _ & H). apply obind_done in H as (ax & _ & H). exact (forward_appends _ _ _ _ _ H).
  - apply obind_done in H as (nd & _ & H). cbn zeta in H. destruct (Nat.ltb _ _); [discriminate|]. apply obind_done in H as (ax & _ & H). exact (forward_appends _ _ _ _ _ H).
  - exact (forward_appends _ _ _ _ _ H).
  - apply obind_done in H as (nd & Hnd & H). destruct (negb _); [discriminate|]. apply obind_done in H as ([g1 c] & H1 & H).
    apply forward_appends in H as (h & -> & Hr). unfold api_contiguous in H1. rewrite Hnd in H1. cbn in H1.
    destruct (is_contiguous nd).
    + injection H1 as <- <-. eauto.
    + apply forward_appends in H1 as (h1 & -> & _). rewrite <- app_assoc in *. eauto.
  - apply obind_done in H as (nd & _ & H). destruct (negb _); [discriminate|]. exact (forward_appends _ _ _ _ _ H).
  - apply obind_done in H as (nd & Hnd & H). apply get_done in Hnd. destruct (Nat.leb _ _); [injection H as <- <-; eauto using self_appends|].
    apply obind_done in H as (nd' & _ & H). destruct (negb _); [discriminate|]. exact (forward_appends _ _ _ _ _ H).
  - apply obind_done in H as (nd & Hnd & H). apply get_done in Hnd. destruct (is_contiguous nd); [injection H as <- <-; eauto using self_appends|].
    exact (forward_appends _ _ _ _ _ H).
  - apply obind_done in H as (nd & Hnd & H). apply get_done in Hnd. destruct (_ <=? _); [discriminate|].
    destruct (_ && _); [injection H as <- <-; eauto using self_appends|]. exact (forward_appends _ _ _ _ _ H).
  - apply obind_done in H as (nd & Hnd & H). apply get_done in Hnd. destruct (_ <=? _); [discriminate|].
    destruct (_ =? _); [injection H as <- <-; eauto using self_appends|]. exact (forward_appends _ _ _ _ _ H).
Qed.
