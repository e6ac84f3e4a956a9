(* Any valid extension of the graph is a sequence of API calls: programs that build further arrays by whatever
   means (in particular backward(), which calls the public API) are covered by the histories. *)
From Verif Require Import Base BaseFacts Util UtilFacts Lang Spec SpecFacts Graph Api Denote DenoteFacts ArrayLit Reach ApiFacts FrontSpec FrontFacts FrontFacts2 FrontFacts3 FrontFacts4
  Tolist Algo AlgoSem Kernel Sched Codegen Backends CacheKey Runtime RuntimeFacts RuntimeFacts2 History BackSteps.

(* sequences of valid calls that create at most one array each *)
Inductive steps1 : graph -> graph -> Prop :=
| s1_refl g : steps1 g g
| s1_step g c g1 r g' : call_ok g c -> run_call g c = Done (g1, r) -> (length g1 <= S (length g))%nat -> steps1 g1 g' -> steps1 g g'.
Lemma steps1_trans a b c : steps1 a b -> steps1 b c -> steps1 a c.
Proof. induction 1; [auto|]. intros. econstructor; eauto. Qed.
Lemma steps1_one g c g' r : call_ok g c -> run_call g c = Done (g', r) -> (length g' <= S (length g))%nat -> steps1 g g'.
Proof. intros. econstructor; eauto. constructor. Qed.
Lemma steps1_appends g g' : steps1 g g' -> exists h, g' = g ++ h.
Proof.
  induction 1 as [g|g c g1 r g' H1 H2 H3 H IH]; [exists []; now rewrite app_nil_r|]. destruct (run_call_appends _ _ _ _ H2) as (h & -> & _).
  destruct IH as (h' & ->). exists (h ++ h'). now rewrite app_assoc.
Qed.
Lemma forward_one g op ins g' r : forward g op ins = Done (g', r) -> length g' = S (length g).
Proof.
  unfold forward. destruct ins; [discriminate|]. destruct (get g n); cbn [obind]; [|discriminate]. destruct (forward_node op (n :: ins) a); cbn [obind]; [|discriminate].
  intros [= <- <-]. rewrite app_length. cbn. lia.
Qed.
Lemma const_one g s v g' r : api_const g s v = Done (g', r) -> length g' = S (length g).
Proof. unfold api_const. intros [= <- <-]. rewrite app_length. cbn. lia. Qed.
Lemma broadcast_step g a s g' r : valid g a -> nonneg s -> bcast_ok (shape_of g a) s -> api_broadcast_to g a s = Done (g', r) -> steps1 g g'.
Proof. intros Hv Hs Hb H. apply (steps1_one g (CBroadcastTo a s) g' r); [cbn; auto|exact H|]. unfold api_broadcast_to in H. apply forward_one in H. lia. Qed.
Lemma binary_steps g b l r g' x : reach g -> valid g l -> valid g r -> api_binary g b l r = Done (g', x) -> steps1 g g'.
Proof.
  intros Hr Hl Hrv H. unfold api_binary in H. destruct (api_broadcasted g l r) as [[[g2 l1] r1]|] eqn:E; cbn [obind] in H; [|discriminate].
  unfold api_broadcasted in E. destruct (valid_node _ _ Hl) as (nl & Hnl). destruct (valid_node _ _ Hrv) as (nr & Hnr).
  unfold get in E. rewrite Hnl, Hnr in E. cbn [obind] in E. rewrite <- (shape_node _ _ _ Hnl), <- (shape_node _ _ _ Hnr) in E.
  destruct (bshape (shape_of g l) (shape_of g r)) as [ns|] eqn:Eb; cbn [obind] in E; [|discriminate].
  destruct (bshape_ok _ _ _ Eb) as (B1 & B2 & _). pose proof (bshape_nonneg _ _ _ (shape_nonneg _ _ Hr) (shape_nonneg _ _ Hr) Eb) as Hn.
  destruct (if list_zeqb (shape_of g l) ns then _ else _) as [[ga la]|] eqn:E1; cbn [obind] in E; [|discriminate].
  destruct (if list_zeqb (shape_of g r) ns then _ else _) as [[gb lb]|] eqn:E2; cbn [obind] in E; [|discriminate]. injection E as <- <- <-.
  assert (M1 : steps1 g ga /\ reach ga /\ valid ga la /\ shape_of ga la = ns /\ valid ga r /\ shape_of ga r = shape_of g r).
  { destruct (list_zeqb (shape_of g l) ns) eqn:Q.
    - injection E1 as <- <-. apply list_zeqb_eq in Q. split; [constructor|auto].
    - split; [exact (broadcast_step _ _ _ _ _ Hl Hn B1 E1)|]. assert (Rg : reach ga) by (eapply (reach_call g (CBroadcastTo l ns)); [assumption|cbn; auto|exact E1]). split; [assumption|].
      destruct (run_call_appends g (CBroadcastTo l ns) ga la E1) as (h & Eh & _). split; [|split].
      + unfold api_broadcast_to, forward, get in E1. rewrite Hnl in E1. cbn [obind forward_node] in E1. injection E1 as <- <-. unfold valid. rewrite app_length. cbn. lia.
      + unfold api_broadcast_to, forward, get in E1. rewrite Hnl in E1. cbn [obind forward_node] in E1. injection E1 as <- <-. unfold shape_of. rewrite nth_error_snoc. reflexivity.
      + rewrite Eh. split; [unfold valid in *; rewrite app_length; lia|]. unfold shape_of. now rewrite nth_error_app1 by exact Hrv. }
  destruct M1 as (S1 & Ra & Vla & Sla & Vra & Sra).
  assert (M2 : steps1 ga gb /\ reach gb /\ valid gb lb /\ shape_of gb lb = ns /\ valid gb la /\ shape_of gb la = ns).
  { destruct (list_zeqb (shape_of g r) ns) eqn:Q.
    - injection E2 as <- <-. apply list_zeqb_eq in Q. split; [constructor|]. rewrite Sra. auto.
    - destruct (valid_node _ _ Vra) as (nr' & Hnr').
      assert (HB : bcast_ok (shape_of ga r) ns) by (now rewrite Sra).
      split; [exact (broadcast_step _ _ _ _ _ Vra Hn HB E2)|]. assert (Rg : reach gb) by (eapply (reach_call ga (CBroadcastTo r ns)); [assumption|cbn; auto|exact E2]). split; [assumption|].
      destruct (run_call_appends ga (CBroadcastTo r ns) gb lb E2) as (h & Eh & _). split; [|split].
      + unfold api_broadcast_to, forward, get in E2. rewrite Hnr' in E2. cbn [obind forward_node] in E2. injection E2 as <- <-. unfold valid. rewrite app_length. cbn. lia.
      + unfold api_broadcast_to, forward, get in E2. rewrite Hnr' in E2. cbn [obind forward_node] in E2. injection E2 as <- <-. unfold shape_of. rewrite nth_error_snoc. reflexivity.
      + rewrite Eh. split; [unfold valid in *; rewrite app_length; lia|]. rewrite <- Sla. unfold shape_of. now rewrite nth_error_app1 by exact Vla. }
  destruct M2 as (S2 & Rb & Vlb & Slb & Vla' & Sla').
  eapply steps1_trans; [exact S1|]. eapply steps1_trans; [exact S2|].
  apply (steps1_one gb (CBinary b la lb) g' x); [cbn; auto| |apply forward_one in H; lia].
  cbn [run_call]. unfold api_binary, api_broadcasted. destruct (valid_node _ _ Vla') as (n1 & Hn1). destruct (valid_node _ _ Vlb) as (n2 & Hn2).
  unfold get. rewrite Hn1, Hn2. cbn [obind]. rewrite <- (shape_node _ _ _ Hn1), <- (shape_node _ _ _ Hn2), Slb, Sla'.
  rewrite bshape_np, np_broadcast_self. cbn [oo obind]. rewrite (proj2 (list_zeqb_eq ns ns) eq_refl). cbn [obind]. exact H.
Qed.
Lemma call_steps1 g c g' r : reach g -> call_ok g c -> run_call g c = Done (g', r) -> steps1 g g'.
Proof.
  intros Hr Hc H. 
  destruct c.
  - apply (steps1_one g _ g' r Hc H); cbn [run_call] in H. unfold api_array in H. destruct (array_dfs v 0 [] []) as [[fl sh]|]; cbn [obind] in H; [|discriminate]. unfold api_full in H; apply const_one in H. lia.
  - apply (steps1_one g _ g' r Hc H); cbn [run_call] in H. unfold api_arange, api_array in H. destruct (array_dfs _ 0 [] []) as [[fl sh]|]; cbn [obind] in H; [|discriminate]. unfold api_full in H; apply const_one in H. lia.
  - apply (steps1_one g _ g' r Hc H); cbn [run_call] in H. unfold api_full in H. apply const_one in H. lia.
  - apply (steps1_one g _ g' r Hc H); cbn [run_call] in H. unfold api_full_like in H. destruct (get g t); cbn [obind] in H; [|discriminate]. unfold api_full in H; apply const_one in H. lia.
  - apply (steps1_one g _ g' r Hc H); cbn [run_call] in H. unfold api_ones_like, api_full_like in H. destruct (get g t); cbn [obind] in H; [|discriminate]. unfold api_full in H; apply const_one in H. lia.
  - apply (steps1_one g _ g' r Hc H); cbn [run_call] in H. unfold api_zeros_like, api_full_like in H. destruct (get g t); cbn [obind] in H; [|discriminate]. unfold api_full in H; apply const_one in H. lia.
  - apply (steps1_one g _ g' r Hc H); cbn [run_call] in H. unfold api_unary, api_broadcast_to in H. apply forward_one in H. lia.
  - cbn [run_call] in H. destruct Hc as (Hc1 & Hc2). exact (binary_steps _ _ _ _ _ _ Hr Hc1 Hc2 H).
  - cbn [run_call] in H. cbn [call_ok] in Hc. unfold api_binary_scalar in H. destruct (api_array g (Leaf v)) as [[g1 c]|] eqn:E; cbn [obind] in H; [|discriminate].
    assert (HO : call_ok g (CArray (Leaf v))) by (exists []; constructor).
    assert (R1 : reach g1) by (eapply (reach_call g (CArray (Leaf v))); eauto).
    pose proof E as E'. unfold api_array in E'. cbn [array_dfs obind] in E'. unfold api_const in E'. injection E' as E1 E2.
    eapply steps1_trans; [apply (steps1_one g (CArray (Leaf v)) g1 c HO E); rewrite <- E1, app_length; cbn; lia|].
    eapply binary_steps; [exact R1| | |exact H]; unfold valid in *; rewrite <- E1, app_length; cbn; lia.
  - apply (steps1_one g _ g' r Hc H); cbn [run_call] in H. unfold api_sum in H. destruct (get g a); cbn [obind] in H; [|discriminate]. destruct (norm_axis _ _); cbn [obind] in H; [|discriminate]. apply forward_one in H. lia.
  - apply (steps1_one g _ g' r Hc H); cbn [run_call] in H. unfold api_getitem in H. destruct (get g a); cbn [obind] in H; [|discriminate]. destruct (Nat.ltb _ _); [discriminate|]. destruct (norm_subs _ _); cbn [obind] in H; [|discriminate]. apply forward_one in H. lia.
  - apply (steps1_one g _ g' r Hc H); cbn [run_call] in H. unfold api_unary, api_broadcast_to in H. apply forward_one in H. lia.
  - cbn [run_call] in H. cbn [call_ok] in Hc. destruct Hc as (Hv & Hs). unfold api_reshape in H. destruct (valid_node _ _ Hv) as (nd & Hn). unfold get in H. rewrite Hn in H. cbn [obind] in H.
    destruct (negb (zprod shape =? zprod (n_shape nd))) eqn:Q; [discriminate|]. unfold api_contiguous, get in H. rewrite Hn in H. cbn [obind] in H.
    destruct (is_contiguous nd) eqn:Ec.
    + cbn [obind] in H. apply (steps1_one g (CReshape a shape) g' r); [cbn; auto| |apply forward_one in H; lia].
      cbn [run_call]. unfold api_reshape, api_contiguous, get. rewrite Hn. cbn [obind]. rewrite Q, Ec. cbn [obind]. exact H.
    + destruct (forward g OContiguous [a]) as [[g1 c1]|] eqn:E1; cbn [obind] in H; [|discriminate].
      eapply steps1_trans.
      { apply (steps1_one g (CContiguous a) g1 c1); [exact Hv| |apply forward_one in E1; lia]. cbn [run_call]. unfold api_contiguous, get. rewrite Hn. cbn [obind]. now rewrite Ec. }
      unfold forward, get in E1. rewrite Hn in E1. cbn [obind forward_node] in E1. injection E1 as <- <-.
      set (nc := fwd_contiguous [a] nd) in *. assert (Hnc : nth_error (g ++ [nc]) (length g) = Some nc) by apply nth_error_snoc.
      apply (steps1_one _ (CReshape (length g) shape) g' r); [cbn; split; [unfold valid; rewrite app_length; cbn; lia|assumption]| |apply forward_one in H; lia].
      cbn [run_call]. unfold api_reshape, api_contiguous, get. rewrite Hnc. cbn [obind]. replace (n_shape nc) with (n_shape nd) by reflexivity. rewrite Q.
      assert (Ecc : is_contiguous nc = true) by (unfold is_contiguous, nc; cbn; now apply list_zeqb_eq). rewrite Ecc. cbn [obind]. exact H.
  - apply (steps1_one g _ g' r Hc H); cbn [run_call] in H. unfold api_transpose in H. destruct (get g a); cbn [obind] in H; [|discriminate]. destruct (negb _); [discriminate|]. apply forward_one in H. lia.
  - apply (steps1_one g _ g' r Hc H); cbn [run_call] in H. unfold api_T in H. destruct (get g a); cbn [obind] in H; [|discriminate]. destruct (Nat.leb _ _); [injection H as <- <-; lia|]. unfold api_transpose in H. destruct (get g a); cbn [obind] in H; [|discriminate]. destruct (negb _); [discriminate|]. apply forward_one in H. lia.
  - apply (steps1_one g _ g' r Hc H); cbn [run_call] in H. unfold api_contiguous in H. destruct (get g a); cbn [obind] in H; [|discriminate]. destruct (is_contiguous _); [injection H as <- <-; lia|]. apply forward_one in H. lia.
  - apply (steps1_one g _ g' r Hc H); cbn [run_call] in H. unfold api_pad in H. destruct (get g a); cbn [obind] in H; [|discriminate]. destruct (_ <=? _); [discriminate|]. destruct (_ && _); [injection H as <- <-; lia|]. apply forward_one in H. lia.
  - apply (steps1_one g _ g' r Hc H); cbn [run_call] in H. unfold api_dilate in H. destruct (get g a); cbn [obind] in H; [|discriminate]. destruct (_ <=? _); [discriminate|]. destruct (_ =? _); [injection H as <- <-; lia|]. apply forward_one in H. lia.
Qed.
Lemma reach_steps1 g : reach g -> steps1 [] g.
Proof. induction 1; [constructor|]. eapply steps1_trans; [eassumption|]. eapply call_steps1; eauto. Qed.
(* every prefix is passed through *)
Lemma steps1_from g g' : steps1 g g' -> forall p h, g' = p ++ h -> (length g <= length p)%nat -> steps1 p g'.
Proof.
  induction 1 as [g|g c g1 r g' H1 H2 H3 H IH]; intros p h E Hl.
  - assert (h = []) as -> by (destruct h; [reflexivity|]; rewrite E, app_length in Hl; cbn in Hl; lia). rewrite app_nil_r in E. subst. constructor.
  - destruct (Nat.le_gt_cases (length g1) (length p)) as [L|L]; [eapply IH; eauto|].
    destruct (steps1_appends _ _ H) as (h1 & E1). destruct (run_call_appends _ _ _ _ H2) as (h2 & E2 & _).
    assert (p = g) as ->.
    { assert (Hlen : length p = length g) by lia. rewrite E in E1. rewrite E2, <- app_assoc in E1. apply (f_equal (firstn (length p))) in E1.
      rewrite firstn_app, Nat.sub_diag, firstn_O, app_nil_r, firstn_all in E1. rewrite E1, Hlen. rewrite firstn_app, Nat.sub_diag, firstn_O, app_nil_r. apply firstn_all. }
    econstructor; eauto.
Qed.
Lemma reach_extension g h : reach (g ++ h) -> steps1 g (g ++ h).
Proof. intros H. eapply (steps1_from [] (g ++ h)); [now apply reach_steps1|reflexivity|cbn; lia]. Qed.

Section H.
Context (B : cpu_backend) (C : desc -> Prop).
Lemma later_steps s0 g' : forall s, later B C s0 s -> steps1 (r_graph B s) g' ->
  exists s', later B C s0 s' /\ r_graph B s' = g' /\ r_cache B s' = r_cache B s /\ forall n, valid (r_graph B s) n -> r_cpu B s' n = r_cpu B s n.
Proof.
  intros s Hs H. remember (r_graph B s) as g eqn:Eg. revert s Hs Eg. induction H as [g|g c g1 r g' H1 H2 H3 H IH]; intros s Hs Eg.
  - exists s. auto.
  - subst g. pose proof (l_call B C s0 s c Hs H1) as Hs1. unfold api_call in Hs1. rewrite H2 in Hs1. cbn [fst] in Hs1.
    match type of Hs1 with later _ _ _ ?t => destruct (IH t Hs1 eq_refl) as (s' & A1 & A2 & A3 & A4) end.
    exists s'. split; [assumption|]. split; [assumption|]. split; [exact A3|]. intros n Hn.
    cbn [r_graph r_cpu] in A4. rewrite A4.
    + unfold valid in Hn. now rewrite (proj2 (Nat.ltb_lt _ _) Hn).
    + destruct (run_call_appends _ _ _ _ H2) as (h & -> & _). unfold valid in *. rewrite app_length. lia.
Qed.
Lemma later_extension s h : reach (r_graph B s ++ h) ->
  exists s', later B C s s' /\ r_graph B s' = r_graph B s ++ h /\ r_cache B s' = r_cache B s /\ forall n, valid (r_graph B s) n -> r_cpu B s' n = r_cpu B s n.
Proof. intros H. apply (later_steps s (r_graph B s ++ h) s); [constructor|now apply reach_extension]. Qed.
Lemma hist_later s t : hist B C s -> later B C s t -> hist B C t.
Proof. intros Hs. induction 1; [assumption|now apply h_call|now apply h_mat|now apply h_reset]. Qed.
End H.
