(* Which gradients can be compiled: the reshapes to shape () that the backward rules produce. *)
From Verif Require Import Base BaseFacts Util UtilFacts Lang Spec SpecFacts Graph Api Denote DenoteFacts Reach ApiFacts
  FrontSpec FrontFacts FrontFacts2 FrontFacts3 FrontFacts4 Backward BackSpec BackOrder BackSteps BackIdx BackSlice BackRules BackRun BackTop AlgoSem AlgoConvert Frame.

Notation cln := no_scalar_reshape.

Lemma cone_first g a n : cone g a n -> n = a \/ exists nd b, nth_error g a = Some nd /\ In b (n_in nd) /\ cone g b n.
Proof.
  induction 1 as [|n nd b Hc IH Hn Hb]; [auto|]. right. destruct IH as [->|(nd' & b' & H1 & H2 & H3)].
  - exists nd, b. split; [assumption|]. split; [assumption|constructor].
  - exists nd', b'. split; [assumption|]. split; [assumption|]. eapply cone_step; eauto.
Qed.
Lemma cln_node g n nd : nth_error g n = Some nd -> cln g n <-> n_op nd <> OReshape [] /\ Forall (cln g) (n_in nd).
Proof.
  intros Hn. split.
  - intros H. split; [exact (H n nd (cone_self _ _) Hn)|]. apply Forall_forall. intros b Hb m md Hm. apply H.
    eapply cone_trans; [|exact Hm]. eapply cone_step; [constructor|exact Hn|exact Hb].
  - intros (H1 & H2) m md Hm Hmd. destruct (cone_first _ _ _ Hm) as [->|(nd' & b & E & Hb & Hc)]; [congruence|].
    rewrite Hn in E. injection E as <-. rewrite Forall_forall in H2. exact (H2 b Hb m md Hc Hmd).
Qed.

(* every operand is older than its consumer *)
Definition lt_graph (g : graph) : Prop := forall n nd, nth_error g n = Some nd -> Forall (fun a => (a < n)%nat) (n_in nd).
Lemma cln_ext g g' : extends g g' -> lt_graph g -> forall n, valid g n -> cln g' n <-> cln g n.
Proof.
  intros He Hl. induction n as [n IH] using lt_wf_ind. intros Hv. destruct (valid_node _ _ Hv) as (nd & Hn).
  rewrite (cln_node _ _ _ Hn), (cln_node _ _ _ (ext_node _ _ _ _ He Hn)). specialize (Hl _ _ Hn). rewrite !Forall_forall in *.
  split; intros (H1 & H2); (split; [assumption|]); intros a Ha; (apply IH; [auto|specialize (Hl a Ha); unfold valid in *; lia|auto]).
Qed.

(* what a call does to the graph and to the compilability of its result *)
Record made (g g' : graph) (r : nat) (P : Prop) : Prop := {
  md_lt : lt_graph g'; md_ext : extends g g'; md_valid : valid g' r; md_cln : cln g' r <-> P }.
Lemma made_iff g g' r P Q : made g g' r P -> (P <-> Q) -> made g g' r Q.
Proof. intros [A B C D] H. constructor; auto. now rewrite D. Qed.
Lemma made_self g r : lt_graph g -> valid g r -> made g g r (cln g r).
Proof. intros H V. constructor; auto using ext_refl. reflexivity. Qed.
Lemma made_forward g op ins g' r : lt_graph g -> Forall (valid g) ins -> forward g op ins = Done (g', r) ->
  made g g' r (op <> OReshape [] /\ Forall (cln g) ins).
Proof.
  intros Hl HV H. destruct ins as [|a ins]; [discriminate|]. unfold forward in H. destruct (get g a) as [x|]; cbn [obind] in H; [|discriminate].
  destruct (forward_node op (a :: ins) x) as [nd|] eqn:Ef; cbn [obind] in H; [|discriminate]. injection H as <- <-.
  pose proof (forward_op _ _ _ _ Ef) as Eo. pose proof (forward_in _ _ _ _ Ef) as Ei.
  assert (He : extends g (g ++ [nd])) by (now exists [nd]).
  assert (Hn : nth_error (g ++ [nd]) (length g) = Some nd) by (rewrite nth_error_app2, Nat.sub_diag by lia; reflexivity).
  constructor; [|assumption|apply nth_error_Some; congruence|].
  - intros n md Hm. destruct (Nat.lt_ge_cases n (length g)) as [L|L]; [rewrite nth_error_app1 in Hm by assumption; eauto|].
    assert (n = length g) as -> by (pose proof (proj1 (nth_error_Some _ _) (ltac:(rewrite Hm; discriminate) : nth_error (g ++ [nd]) n <> None)) as Q; rewrite app_length in Q; cbn in Q; lia).
    rewrite Hn in Hm. injection Hm as <-. rewrite Ei. exact HV.
  - rewrite (cln_node _ _ _ Hn), Eo, Ei. rewrite !Forall_forall in *.
    split; intros (H1 & H2); (split; [assumption|]); intros b Hb; apply (cln_ext _ _ He Hl); auto.
Qed.
Lemma made_forward1 g op a g' r : lt_graph g -> valid g a -> op <> OReshape [] -> forward g op [a] = Done (g', r) -> made g g' r (cln g a).
Proof.
  intros Hl Hv Ho H. eapply made_iff; [exact (made_forward g op [a] g' r Hl (Forall_cons _ Hv (Forall_nil _)) H)|]. split; [intros (_ & HF); now apply Forall_inv in HF|intros; split; [assumption|constructor; auto]].
Qed.
Lemma md_keep g g' r P n : made g g' r P -> lt_graph g -> valid g n -> cln g' n <-> cln g n.
Proof. intros [A B C D] Hl. now apply cln_ext. Qed.

Lemma made_unary g u a g' r : lt_graph g -> valid g a -> api_unary g u a = Done (g', r) -> made g g' r (cln g a).
Proof. intros Hl Hv H. eapply made_forward1; eauto. discriminate. Qed.
Lemma made_broadcast g a s g' r : lt_graph g -> valid g a -> api_broadcast_to g a s = Done (g', r) -> made g g' r (cln g a).
Proof. intros Hl Hv H. eapply made_forward1; eauto. discriminate. Qed.
Lemma made_const g s v g' r : lt_graph g -> api_const g s v = Done (g', r) -> made g g' r True.
Proof.
  intros Hl H. unfold api_const in H. injection H as <- <-. match goal with |- context [g ++ [?x]] => set (nd := x) end.
  assert (Hn : nth_error (g ++ [nd]) (length g) = Some nd) by (rewrite nth_error_app2, Nat.sub_diag by lia; reflexivity).
  constructor; [|now exists [nd]|apply nth_error_Some; congruence|].
  - intros n md Hm. destruct (Nat.lt_ge_cases n (length g)) as [L|L]; [rewrite nth_error_app1 in Hm by assumption; eauto|].
    assert (n = length g) as -> by (pose proof (proj1 (nth_error_Some _ _) (ltac:(rewrite Hm; discriminate) : nth_error (g ++ [nd]) n <> None)) as Q; rewrite app_length in Q; cbn in Q; lia).
    rewrite Hn in Hm. injection Hm as <-. constructor.
  - rewrite (cln_node _ _ _ Hn). split; [auto|]. intros _. split; [discriminate|constructor].
Qed.
Lemma made_binary g b x y g' r : lt_graph g -> valid g x -> valid g y -> api_binary g b x y = Done (g', r) -> made g g' r (cln g x /\ cln g y).
Proof.
  intros Hl Vx Vy H. unfold api_binary in H. destruct (api_broadcasted g x y) as [[[g1 l1] r1]|] eqn:E; cbn [obind] in H; [|discriminate].
  unfold api_broadcasted in E. destruct (get g x) as [nl|]; cbn [obind] in E; [|discriminate]. destruct (get g y) as [nr|]; cbn [obind] in E; [|discriminate].
  destruct (bshape _ _) as [ns|]; cbn [obind] in E; [|discriminate].
  destruct (if list_zeqb (n_shape nl) ns then Done (g, x) else api_broadcast_to g x ns) as [[ga la]|] eqn:E1; cbn [obind] in E; [|discriminate].
  destruct (if list_zeqb (n_shape nr) ns then Done (ga, y) else api_broadcast_to ga y ns) as [[gb lb]|] eqn:E2; cbn [obind] in E; [|discriminate].
  injection E as <- <- <-.
  assert (M1 : made g ga la (cln g x)).
  { destruct (list_zeqb (n_shape nl) ns); [injection E1 as <- <-; now apply made_self|eapply made_broadcast; eauto]. }
  destruct M1 as [L1 X1 V1 C1]. pose proof (ext_valid _ _ _ X1 Vy) as Vy1.
  assert (M2 : made ga gb lb (cln ga y)).
  { destruct (list_zeqb (n_shape nr) ns); [injection E2 as <- <-; now apply made_self|eapply made_broadcast; eauto]. }
  destruct M2 as [L2 X2 V2 C2].
  destruct (made_forward gb (OBin b) [la; lb] g' r L2) as [L3 X3 V3 C3]; [constructor; [eapply ext_valid; eauto|constructor; [assumption|constructor]]|assumption|].
  constructor; eauto using ext_trans. rewrite C3. rewrite !Forall_cons_iff. rewrite (cln_ext _ _ X2 L1 la V1), C1, C2, (cln_ext _ _ X1 Hl y Vy).
  split; [tauto|]. intros (A1 & A2). split; [discriminate|]. auto.
Qed.
Lemma made_binary_scalar g b x v g' r : lt_graph g -> valid g x -> api_binary_scalar g b x v = Done (g', r) -> made g g' r (cln g x).
Proof.
  intros Hl Vx H. unfold api_binary_scalar, api_array in H. cbn [array_dfs obind] in H.
  destruct (api_const g [] ([] ++ [v])) as [[g1 c]|] eqn:E; cbn [obind] in H; [|discriminate].
  destruct (made_const _ _ _ _ _ Hl E) as [L1 X1 V1 C1].
  destruct (made_binary _ _ _ _ _ _ L1 (ext_valid _ _ _ X1 Vx) V1 H) as [L2 X2 V2 C2]. constructor; eauto using ext_trans.
  rewrite C2, C1, (cln_ext _ _ X1 Hl x Vx). tauto.
Qed.
Lemma made_sum g a ax kd g' r : lt_graph g -> valid g a -> api_sum g a ax kd = Done (g', r) -> made g g' r (cln g a).
Proof.
  intros Hl Hv H. unfold api_sum in H. undone. eapply made_forward1; eauto. discriminate.
Qed.
Lemma made_getitem g a s g' r : lt_graph g -> valid g a -> api_getitem g a s = Done (g', r) -> made g g' r (cln g a).
Proof. intros Hl Hv H. unfold api_getitem in H. undone. eapply made_forward1; eauto. discriminate. Qed.
Lemma made_transpose g a s g' r : lt_graph g -> valid g a -> api_transpose g a s = Done (g', r) -> made g g' r (cln g a).
Proof. intros Hl Hv H. unfold api_transpose in H. undone. eapply made_forward1; eauto. discriminate. Qed.
Lemma made_pad g a d p q g' r : lt_graph g -> valid g a -> api_pad g a d p q = Done (g', r) -> made g g' r (cln g a).
Proof. intros Hl Hv H. unfold api_pad in H. undone; [now apply made_self|]. eapply made_forward1; eauto. discriminate. Qed.
Lemma made_dilate g a d p g' r : lt_graph g -> valid g a -> api_dilate g a d p = Done (g', r) -> made g g' r (cln g a).
Proof. intros Hl Hv H. unfold api_dilate in H. undone; [now apply made_self|]. eapply made_forward1; eauto. discriminate. Qed.
Lemma made_reshape g a s g' r : lt_graph g -> valid g a -> api_reshape g a s = Done (g', r) -> made g g' r (s <> [] /\ cln g a).
Proof.
  intros Hl Hv H. unfold api_reshape in H. destruct (get g a) as [nd|]; cbn [obind] in H; [|discriminate].
  destruct (negb _); [discriminate|]. destruct (api_contiguous g a) as [[g0 n0]|] eqn:E; cbn [obind] in H; [|discriminate].
  assert (M1 : made g g0 n0 (cln g a)).
  { unfold api_contiguous in E. destruct (get g a) as [nd'|]; cbn [obind] in E; [|discriminate]. destruct (is_contiguous nd'); [injection E as <- <-; now apply made_self|]. eapply made_forward1; eauto. discriminate. }
  destruct M1 as [L1 X1 V1 C1]. destruct (made_forward g0 (OReshape s) [n0] g' r L1 (Forall_cons _ V1 (Forall_nil _)) H) as [L2 X2 V2 C2].
  constructor; eauto using ext_trans. rewrite C2, Forall_cons_iff, C1. split; [intros (A1 & A2 & _); split; [congruence|assumption]|].
  intros (A1 & A2). split; [congruence|auto].
Qed.
Lemma made_bw_slice : forall subs ish g gr gd g' r, lt_graph g -> valid g gr -> bw_slice g gr gd subs ish = Done (g', r) -> made g g' r (cln g gr).
Proof.
  induction subs as [|[s|a b st] subs IH]; intros [|n ish] g gr gd g' r Hl Hv H; cbn [bw_slice] in H.
  1,2,3,5 : injection H as <- <-; now apply made_self.
  - destruct (get g gr) as [nd|]; cbn [obind] in H; [|discriminate].
    destruct (api_reshape _ _ _) as [[g1 r1]|] eqn:E1; cbn [obind] in H; [|discriminate].
    destruct (api_pad _ _ _ _ _) as [[g2 r2]|] eqn:E2; cbn [obind] in H; [|discriminate].
    destruct (made_reshape _ _ _ _ _ Hl Hv E1) as [L1 X1 V1 C1]. destruct (made_pad _ _ _ _ _ _ _ L1 V1 E2) as [L2 X2 V2 C2].
    destruct (IH _ _ _ _ _ _ L2 V2 H) as [L3 X3 V3 C3]. constructor; eauto using ext_trans. rewrite C3, C2, C1. split; [tauto|]. intros Hc. split; [|assumption].
    destruct (firstn gd (n_shape nd)); discriminate.
  - destruct (if st >? 1 then _ else _) as [[g1 r1]|] eqn:E1; cbn [obind] in H; [|discriminate].
    assert (M1 : made g g1 r1 (cln g gr)).
    { destruct (st >? 1); [eapply made_dilate; eauto|injection E1 as <- <-; now apply made_self]. }
    destruct M1 as [L1 X1 V1 C1]. destruct (get g1 r1) as [nd|]; cbn [obind] in H; [|discriminate].
    destruct (nth_error (n_shape nd) gd) as [len|]; cbn [obind] in H; [|discriminate].
    destruct (if _ || _ then _ else _) as [[g2 r2]|] eqn:E2; cbn [obind] in H; [|discriminate].
    assert (M2 : made g1 g2 r2 (cln g1 r1)).
    { destruct ((a >? 0) || (n - a - len >? 0)); [eapply made_pad; eauto|injection E2 as <- <-; now apply made_self]. }
    destruct M2 as [L2 X2 V2 C2]. destruct (IH _ _ _ _ _ _ L2 V2 H) as [L3 X3 V3 C3]. constructor; eauto using ext_trans. now rewrite C3, C2, C1.
Qed.

Lemma set_ones_length ax : forall s, length (set_ones s ax) = length s.
Proof. unfold set_ones. induction ax as [|a ax IH]; intros s; cbn; [reflexivity|]. rewrite IH. apply upd_length. Qed.
Lemma nil_length {X} (l m : list X) : length l = length m -> l = [] <-> m = [].
Proof. destruct l, m; cbn; try discriminate; intuition discriminate. Qed.

Lemma bw_rule_clean g nd o gr g' rs : reach g -> nth_error g o = Some nd -> n_in nd <> [] -> valid g gr -> shape_of g gr = shape_of g o ->
  cln g o -> bw_rule g nd o gr = Done (g', rs) ->
  forall k a r, nth_error (n_in nd) k = Some a -> nth_error rs k = Some r ->
    cln g' r <-> cln g gr /\ ~ scalar_rule (n_op nd) (shape_of g a).
Proof.
  intros Hr Hn Hne Vg Sg Hco H.
  assert (Hl : lt_graph g) by (intros n md; now apply reach_inputs_lt).
  assert (Hc : is_const (n_op nd) = false).
  { destruct (is_const (n_op nd)) eqn:E; [|reflexivity]. pose proof (reach_wf _ Hr _ _ Hn) as Hw. unfold wf_node in Hw.
    destruct (n_op nd); try discriminate. destruct Hw as (Hw & _). congruence. }
  destruct (op_node g o nd Hr Hn Hc) as (a & x & Ha & Hao & Hx & Hf & Hok).
  pose proof (proj1 (cln_node _ _ _ Hn) Hco) as (_ & HcI). rewrite Forall_forall in HcI.
  assert (Vi : forall b, In b (n_in nd) -> valid g b).
  { intros b Hb. pose proof (Hl _ _ Hn) as HF. rewrite Forall_forall in HF. specialize (HF b Hb). assert (valid g o) by (apply nth_error_Some; congruence). unfold valid in *. lia. }
  assert (Va : valid g a) by (apply Vi; eapply nth_error_In; eauto).
  assert (Ca : cln g a) by (apply HcI; eapply nth_error_In; eauto).
  assert (Vo : valid g o) by (apply nth_error_Some; congruence).
  unfold bw_rule, inp in H. rewrite Ha in H.
  assert (HU : forall r0, rs = [r0] -> n_in nd = [a] -> (cln g' r0 <-> cln g gr /\ ~ scalar_rule (n_op nd) (shape_of g a)) ->
     forall k a0 r, nth_error (n_in nd) k = Some a0 -> nth_error rs k = Some r -> cln g' r <-> cln g gr /\ ~ scalar_rule (n_op nd) (shape_of g a0)).
  { intros r0 -> -> HI [|[|k]] a0 r; cbn; intros Q1 Q2; try (try destruct k; discriminate). injection Q1 as <-. injection Q2 as <-. exact HI. }
  destruct (n_op nd) as [vals|u|b|ax kd|t|t|axes|subs| |d bf af|d st] eqn:Eop; try discriminate; cbn [arg_ok] in Hok.
  - (* unary *)
    assert (HS : ~ scalar_rule (OUn u) (shape_of g a)) by (intros (_ & [])).
    destruct u; cbn [obind] in H.
    + destruct (api_unary g UNeg gr) as [[g1 r1]|] eqn:E1; cbn [obind] in H; [|discriminate]. injection H as <- <-.
      destruct (made_unary _ _ _ _ _ Hl Vg E1) as [L1 X1 V1 C1]. eapply HU; [reflexivity|exact (one_input _ _ Hok Ha)|]. tauto.
    + destruct (api_unary g UCos a) as [[g1 r1]|] eqn:E1; cbn [obind] in H; [|discriminate].
      destruct (api_binary g1 BMul r1 gr) as [[g2 r2]|] eqn:E2; cbn [obind] in H; [|discriminate]. injection H as <- <-.
      destruct (made_unary _ _ _ _ _ Hl Va E1) as [L1 X1 V1 C1]. destruct (made_binary _ _ _ _ _ _ L1 V1 (ext_valid _ _ _ X1 Vg) E2) as [L2 X2 V2 C2].
      eapply HU; [reflexivity|exact (one_input _ _ Hok Ha)|]. rewrite C2, C1, (cln_ext _ _ X1 Hl _ Vg). tauto.
    + destruct (api_unary g USin a) as [[g1 r1]|] eqn:E1; cbn [obind] in H; [|discriminate].
      destruct (api_unary g1 UNeg r1) as [[g2 r2]|] eqn:E2; cbn [obind] in H; [|discriminate].
      destruct (api_binary g2 BMul r2 gr) as [[g3 r3]|] eqn:E3; cbn [obind] in H; [|discriminate]. injection H as <- <-.
      destruct (made_unary _ _ _ _ _ Hl Va E1) as [L1 X1 V1 C1]. destruct (made_unary _ _ _ _ _ L1 V1 E2) as [L2 X2 V2 C2].
      pose proof (ext_trans _ _ _ X1 X2) as X12.
      destruct (made_binary _ _ _ _ _ _ L2 V2 (ext_valid _ _ _ X12 Vg) E3) as [L3 X3 V3 C3].
      eapply HU; [reflexivity|exact (one_input _ _ Hok Ha)|]. rewrite C3, C2, C1, (cln_ext _ _ X12 Hl _ Vg). tauto.
    + destruct (api_binary g BMul o gr) as [[g1 r1]|] eqn:E1; cbn [obind] in H; [|discriminate]. injection H as <- <-.
      destruct (made_binary _ _ _ _ _ _ Hl Vo Vg E1) as [L1 X1 V1 C1]. eapply HU; [reflexivity|exact (one_input _ _ Hok Ha)|]. tauto.
    + destruct (api_binary g BTruediv gr a) as [[g1 r1]|] eqn:E1; cbn [obind] in H; [|discriminate]. injection H as <- <-.
      destruct (made_binary _ _ _ _ _ _ Hl Vg Va E1) as [L1 X1 V1 C1]. eapply HU; [reflexivity|exact (one_input _ _ Hok Ha)|]. tauto.
    + destruct (api_binary_scalar g BMul o (NInt 2)) as [[g1 r1]|] eqn:E1; cbn [obind] in H; [|discriminate].
      destruct (api_binary g1 BTruediv gr r1) as [[g2 r2]|] eqn:E2; cbn [obind] in H; [|discriminate]. injection H as <- <-.
      destruct (made_binary_scalar _ _ _ _ _ _ Hl Vo E1) as [L1 X1 V1 C1]. destruct (made_binary _ _ _ _ _ _ L1 (ext_valid _ _ _ X1 Vg) V1 E2) as [L2 X2 V2 C2].
      eapply HU; [reflexivity|exact (one_input _ _ Hok Ha)|]. rewrite C2, C1, (cln_ext _ _ X1 Hl _ Vg). tauto.
  - (* binary *)
    destruct Hok as (a2 & y & Ha2 & Hlen & _). rewrite Ha2 in H. pose proof (two_inputs _ _ _ Hlen Ha Ha2) as Ei.
    assert (V2 : valid g a2) by (apply Vi; eapply nth_error_In; eauto). assert (C2 : cln g a2) by (apply HcI; eapply nth_error_In; eauto).
    assert (HB : forall r0 r1, rs = [r0; r1] -> (cln g' r0 <-> cln g gr) -> (cln g' r1 <-> cln g gr) ->
       forall k a0 r, nth_error (n_in nd) k = Some a0 -> nth_error rs k = Some r -> cln g' r <-> cln g gr /\ ~ scalar_rule (OBin b) (shape_of g a0)).
    { intros r0 r1 -> I0 I1 k a0 r _ Q2. assert (HS : ~ scalar_rule (OBin b) (shape_of g a0)) by (intros (_ & [])).
      destruct k as [|[|k]]; cbn in Q2; try (try destruct k; discriminate); injection Q2 as <-; tauto. }
    destruct b; cbn [obind] in H; try discriminate.
    + injection H as <- <-. eapply HB; [reflexivity|tauto|tauto].
    + destruct (api_unary g UNeg gr) as [[g1 r1]|] eqn:E1; cbn [obind] in H; [|discriminate]. injection H as <- <-.
      destruct (made_unary _ _ _ _ _ Hl Vg E1) as [L1 X1 W1 C1]. eapply HB; [reflexivity|now apply cln_ext|tauto].
    + destruct (api_binary g BMul gr a2) as [[g1 r1]|] eqn:E1; cbn [obind] in H; [|discriminate].
      destruct (api_binary g1 BMul gr a) as [[g2 r2]|] eqn:E2; cbn [obind] in H; [|discriminate]. injection H as <- <-.
      destruct (made_binary _ _ _ _ _ _ Hl Vg V2 E1) as [L1 X1 W1 C1].
      destruct (made_binary _ _ _ _ _ _ L1 (ext_valid _ _ _ X1 Vg) (ext_valid _ _ _ X1 Va) E2) as [L2 X2 W2 D2].
      eapply HB; [reflexivity|rewrite (cln_ext _ _ X2 L1 _ W1); tauto|]. rewrite D2, (cln_ext _ _ X1 Hl _ Vg), (cln_ext _ _ X1 Hl _ Va). tauto.
    + destruct (api_binary g BTruediv gr a2) as [[g1 r1]|] eqn:E1; cbn [obind] in H; [|discriminate].
      destruct (api_unary g1 UNeg a) as [[g2 r2]|] eqn:E2; cbn [obind] in H; [|discriminate].
      destruct (api_binary_scalar g2 BPow a2 (NInt 2)) as [[g3 r3]|] eqn:E3; cbn [obind] in H; [|discriminate].
      destruct (api_binary g3 BTruediv r2 r3) as [[g4 r4]|] eqn:E4; cbn [obind] in H; [|discriminate].
      destruct (api_binary g4 BMul gr r4) as [[g5 r5]|] eqn:E5; cbn [obind] in H; [|discriminate]. injection H as <- <-.
      destruct (made_binary _ _ _ _ _ _ Hl Vg V2 E1) as [L1 X1 W1 C1].
      destruct (made_unary _ _ _ _ _ L1 (ext_valid _ _ _ X1 Va) E2) as [L2 X2 W2 D2]. pose proof (ext_trans _ _ _ X1 X2) as X12.
      destruct (made_binary_scalar _ _ _ _ _ _ L2 (ext_valid _ _ _ X12 V2) E3) as [L3 X3 W3 D3]. pose proof (ext_trans _ _ _ X12 X3) as X13.
      destruct (made_binary _ _ _ _ _ _ L3 (ext_valid _ _ _ X3 W2) W3 E4) as [L4 X4 W4 D4]. pose proof (ext_trans _ _ _ X13 X4) as X14.
      destruct (made_binary _ _ _ _ _ _ L4 (ext_valid _ _ _ X14 Vg) W4 E5) as [L5 X5 W5 D5].
      pose proof (ext_trans _ _ _ X2 (ext_trans _ _ _ X3 (ext_trans _ _ _ X4 X5))) as X25.
      eapply HB; [reflexivity|rewrite (cln_ext _ _ X25 L1 _ W1); tauto|].
      rewrite D5, (cln_ext _ _ X14 Hl _ Vg), D4, (cln_ext _ _ X3 L2 _ W2), D2, D3, (cln_ext _ _ X1 Hl _ Va), (cln_ext _ _ X12 Hl _ V2). tauto.
    + destruct (api_binary_scalar g BSub a2 (NInt 1)) as [[g1 r1]|] eqn:E1; cbn [obind] in H; [|discriminate].
      destruct (api_binary g1 BPow a r1) as [[g2 r2]|] eqn:E2; cbn [obind] in H; [|discriminate].
      destruct (api_binary g2 BMul a2 r2) as [[g3 r3]|] eqn:E3; cbn [obind] in H; [|discriminate].
      destruct (api_binary g3 BMul r3 gr) as [[g4 r4]|] eqn:E4; cbn [obind] in H; [|discriminate].
      destruct (api_binary g4 BPow a a2) as [[g5 r5]|] eqn:E5; cbn [obind] in H; [|discriminate].
      destruct (api_unary g5 ULog a) as [[g6 r6]|] eqn:E6; cbn [obind] in H; [|discriminate].
      destruct (api_binary g6 BMul r5 r6) as [[g7 r7]|] eqn:E7; cbn [obind] in H; [|discriminate].
      destruct (api_binary g7 BMul r7 gr) as [[g8 r8]|] eqn:E8; cbn [obind] in H; [|discriminate]. injection H as <- <-.
      destruct (made_binary_scalar _ _ _ _ _ _ Hl V2 E1) as [L1 X1 W1 D1].
      destruct (made_binary _ _ _ _ _ _ L1 (ext_valid _ _ _ X1 Va) W1 E2) as [L2 X2 W2 D2]. pose proof (ext_trans _ _ _ X1 X2) as X12.
      destruct (made_binary _ _ _ _ _ _ L2 (ext_valid _ _ _ X12 V2) W2 E3) as [L3 X3 W3 D3]. pose proof (ext_trans _ _ _ X12 X3) as X13.
      destruct (made_binary _ _ _ _ _ _ L3 W3 (ext_valid _ _ _ X13 Vg) E4) as [L4 X4 W4 D4]. pose proof (ext_trans _ _ _ X13 X4) as X14.
      destruct (made_binary _ _ _ _ _ _ L4 (ext_valid _ _ _ X14 Va) (ext_valid _ _ _ X14 V2) E5) as [L5 X5 W5 D5]. pose proof (ext_trans _ _ _ X14 X5) as X15.
      destruct (made_unary _ _ _ _ _ L5 (ext_valid _ _ _ X15 Va) E6) as [L6 X6 W6 D6]. pose proof (ext_trans _ _ _ X15 X6) as X16.
      destruct (made_binary _ _ _ _ _ _ L6 (ext_valid _ _ _ X6 W5) W6 E7) as [L7 X7 W7 D7]. pose proof (ext_trans _ _ _ X16 X7) as X17.
      destruct (made_binary _ _ _ _ _ _ L7 W7 (ext_valid _ _ _ X17 Vg) E8) as [L8 X8 W8 D8].
      pose proof (ext_trans _ _ _ X5 (ext_trans _ _ _ X6 (ext_trans _ _ _ X7 X8))) as X48.
      eapply HB; [reflexivity| |].
      * rewrite (cln_ext _ _ X48 L4 _ W4), D4, D3, D2, D1, (cln_ext _ _ X13 Hl _ Vg), (cln_ext _ _ X12 Hl _ V2), (cln_ext _ _ X1 Hl _ Va). tauto.
      * rewrite D8, D7, (cln_ext _ _ X6 L5 _ W5), D5, D6, (cln_ext _ _ X17 Hl _ Vg), (cln_ext _ _ X14 Hl _ V2), (cln_ext _ _ X14 Hl _ Va), (cln_ext _ _ X15 Hl _ Va). tauto.
  - (* sum *)
    cbn [obind] in H. unfold get at 1 in H. rewrite Hx in H. cbn [obind] in H. rewrite <- (shape_node _ _ _ Hx) in H.
    destruct (if kd then Done (g, gr) else _) as [[g1 h]|] eqn:E1; cbn [obind] in H; [|discriminate].
    destruct (api_broadcast_to g1 h (shape_of g a)) as [[g2 r2]|] eqn:E2; cbn [obind] in H; [|discriminate]. injection H as <- <-.
    assert (M1 : made g g1 h (cln g gr /\ ~ scalar_rule (OSum ax kd) (shape_of g a))).
    { destruct kd.
      - injection E1 as <- <-. eapply made_iff; [now apply made_self|]. split; [|tauto]. intros Hg. split; [assumption|]. intros (_ & Q). discriminate Q.
      - eapply made_iff; [exact (made_reshape _ _ _ _ _ Hl Vg E1)|]. unfold scalar_rule. pose proof (nil_length _ _ (set_ones_length ax (shape_of g a))) as HNL. split; [intros (Q1 & Q2); split; [assumption|]; intros (Q3 & _); apply Q1; now apply HNL|]. intros (Q1 & Q2). split; [|assumption]. intros Q3. apply Q2. split; [now apply HNL|reflexivity]. }
    destruct M1 as [L1 X1 W1 D1]. destruct (made_broadcast _ _ _ _ _ L1 W1 E2) as [L2 X2 W2 D2].
    eapply HU; [reflexivity|exact (one_input _ _ (proj1 Hok) Ha)|]. now rewrite D2.
  - (* reshape *)
    cbn [obind] in H. unfold get at 1 in H. rewrite Hx in H. cbn [obind] in H. rewrite <- (shape_node _ _ _ Hx) in H.
    destruct (api_reshape g gr (shape_of g a)) as [[g1 r1]|] eqn:E1; cbn [obind] in H; [|discriminate]. injection H as <- <-.
    destruct (made_reshape _ _ _ _ _ Hl Vg E1) as [L1 X1 W1 D1]. eapply HU; [reflexivity|exact (one_input _ _ (proj1 Hok) Ha)|]. rewrite D1. unfold scalar_rule. tauto.
  - (* broadcast *)
    cbn [obind] in H. unfold get at 1 in H. rewrite Hx in H. cbn [obind] in H. rewrite <- (shape_node _ _ _ Hx) in H.
    destruct (valid_node _ _ Vg) as [gn Hgn]. unfold get at 1 in H. rewrite Hgn in H. cbn [obind] in H. rewrite <- (shape_node _ _ _ Hgn) in H.
    destruct Hok as (Hlen & Hnt & Hb). rewrite <- (shape_node _ _ _ Hx) in Hb.
    assert (Hs : shape_of g gr = t) by (rewrite Sg, (shape_node _ _ _ Hn); cbn in Hf; now injection Hf as <-).
    rewrite Hs in H. destruct (api_sum g gr _ true) as [[g1 r1]|] eqn:E1; cbn [obind] in H; [|discriminate].
    destruct (made_sum _ _ _ _ _ _ Hl Vg E1) as [L1 X1 W1 D1].
    assert (Hlt : (length (shape_of g a) <= length t)%nat) by exact (proj1 Hb).
    pose proof (bw_added_eq t (shape_of g a) Hlt) as Hadd. set (kk := (length t - length (shape_of g a))%nat) in *.
    destruct (bw_added t (shape_of g a)) as [|z0 l0] eqn:Ez.
    + injection H as <- <-. assert (kk = O) as Ek.
      { destruct kk; [reflexivity|]. pose proof (zrange_length (Z.of_nat (S kk))) as HH. rewrite <- Hadd in HH. cbn in HH. lia. }
      eapply HU; [reflexivity|exact (one_input _ _ Hlen Ha)|]. rewrite D1. split; [|tauto]. intros Hg. split; [assumption|]. intros (Q1 & Q2). apply Q2.
      destruct t; [reflexivity|]. unfold kk in Ek. rewrite Q1 in Ek. cbn in Ek. lia.
    + destruct (valid_node _ _ W1) as [yn Hyn]. unfold get at 1 in H. rewrite Hyn in H. cbn [obind] in H. rewrite <- (shape_node _ _ _ Hyn) in H.
      set (ns := map snd _) in H.
      destruct (api_reshape g1 r1 ns) as [[g2 r2]|] eqn:E2; cbn [obind] in H; [|discriminate]. injection H as <- <-.
      destruct (made_reshape _ _ _ _ _ L1 W1 E2) as [L2 X2 W2 D2]. eapply HU; [reflexivity|exact (one_input _ _ Hlen Ha)|]. rewrite D2, D1.
      assert (HN : ns = [] <-> shape_of g a = [] /\ t <> []); [|unfold scalar_rule; tauto].
      assert (Hk : kk <> O) by (intros Q; rewrite Q in Hadd; discriminate).
      assert (HL : length ns = length (shape_of g a)).
      { unfold ns. rewrite Hadd.
        assert (Hls : length (shape_of g1 r1) = length t).
        { unfold api_sum, get in E1. rewrite Hgn in E1. cbn [obind] in E1. destruct (norm_axis _ _) as [axx|]; cbn [obind] in E1; [|discriminate].
          unfold forward, get in E1. rewrite Hgn in E1. cbn [obind forward_node] in E1. injection E1 as <- <-.
          unfold shape_of. rewrite nth_error_app2, Nat.sub_diag by lia. cbn. unfold reduce_shape. rewrite map_length.
          rewrite <- Hs, (shape_node _ _ _ Hgn). clear. generalize 0 at 1. induction (n_shape gn); intros z; cbn; [reflexivity|]. now rewrite IHl. }
        assert (HG : forall (l : list Z) z m, 0 <= z -> (Z.to_nat m <= Z.to_nat z + length l)%nat ->
           length (map snd (filter (fun '(i, _) => negb (zmem i (zrange m))) (enum z l))) = (length l - (Z.to_nat m - Z.to_nat z))%nat).
        { induction l as [|x0 l IH]; intros z m Hz Hm; cbn [enum filter map length]; [lia|].
          assert (Hmem : zmem z (zrange m) = (z <? m)).
          { destruct (z <? m) eqn:Q; [apply zmem_In, in_zrange; lia|]. destruct (zmem z (zrange m)) eqn:Q2; [|reflexivity]. apply zmem_In, in_zrange in Q2. lia. }
          rewrite Hmem. destruct (z <? m) eqn:Q; cbn [negb map length]; rewrite IH by (cbn [length] in Hm; lia); cbn [length] in Hm; lia. }
        rewrite HG by lia. rewrite Hls. unfold kk. lia. }
      rewrite (nil_length _ _ HL). split; [|tauto]. intros Q. split; [assumption|]. intros ->. apply Hk. unfold kk. reflexivity.
  - (* transpose *)
    cbn [obind] in H. destruct (api_transpose g gr (argsort axes)) as [[g1 r1]|] eqn:E1; cbn [obind] in H; [|discriminate]. injection H as <- <-.
    destruct (made_transpose _ _ _ _ _ Hl Vg E1) as [L1 X1 W1 D1]. eapply HU; [reflexivity|exact (one_input _ _ (proj1 Hok) Ha)|]. rewrite D1. unfold scalar_rule. tauto.
  - (* slice *)
    cbn [obind] in H. unfold get at 1 in H. rewrite Hx in H. cbn [obind] in H. destruct (bw_slice _ _ _ _ _) as [[g1 r1]|] eqn:E1; cbn [obind] in H; [|discriminate]. injection H as <- <-.
    destruct (made_bw_slice _ _ _ _ _ _ _ Hl Vg E1) as [L1 X1 W1 D1]. eapply HU; [reflexivity|exact (one_input _ _ (proj1 Hok) Ha)|]. rewrite D1. unfold scalar_rule. tauto.
  - (* contiguous *)
    injection H as <- <-. eapply HU; [reflexivity|exact (one_input _ _ Hok Ha)|]. unfold scalar_rule. tauto.
  - (* pad *)
    cbn [obind] in H. unfold get at 1 in H. rewrite Hx in H. cbn [obind] in H. destruct (get g gr) as [gn|]; cbn [obind] in H; [|discriminate].
    destruct (pynth _ _) as [sz|]; cbn [obind] in H; [|discriminate].
    destruct (api_getitem _ _ _) as [[g1 r1]|] eqn:E1; cbn [obind] in H; [|discriminate]. injection H as <- <-.
    destruct (made_getitem _ _ _ _ _ Hl Vg E1) as [L1 X1 W1 D1]. eapply HU; [reflexivity|exact (one_input _ _ (proj1 Hok) Ha)|]. rewrite D1. unfold scalar_rule. tauto.
  - (* dilate *)
    cbn [obind] in H. destruct (get g gr) as [gn|]; cbn [obind] in H; [|discriminate].
    destruct (api_getitem _ _ _) as [[g1 r1]|] eqn:E1; cbn [obind] in H; [|discriminate]. injection H as <- <-.
    destruct (made_getitem _ _ _ _ _ Hl Vg E1) as [L1 X1 W1 D1]. eapply HU; [reflexivity|exact (one_input _ _ (proj1 Hok) Ha)|]. rewrite D1. unfold scalar_rule. tauto.
Qed.

(* ---- accumulation and the loop ---- *)
Lemma add_grads_clean : forall xs G gs G' gs', lt_graph G -> (forall n r, gs n = Some r -> valid G r) -> Forall (fun p => valid G (snd p)) xs ->
  add_grads G gs xs = Done (G', gs') ->
  lt_graph G' /\ extends G G' /\ forall n r, gs' n = Some r -> valid G' r /\
    (cln G' r <-> (forall old, gs n = Some old -> cln G old) /\ (forall gx, In (n, gx) xs -> cln G gx)).
Proof.
  induction xs as [|[x gx] xs IH]; intros G gs G' gs' Hl HV HF H; cbn [add_grads] in H.
  { injection H as <- <-. split; [assumption|]. split; [apply ext_refl|]. intros n r E. split; [eauto|]. split; [|intros (A1 & _); exact (A1 r E)].
    intros Hc. split; [intros old Eo; rewrite E in Eo; injection Eo as <-; exact Hc|intros ? []]. }
  pose proof (Forall_inv HF) as Vx. cbn in Vx. apply Forall_inv_tail in HF.
  unfold add_grad in H. destruct (gs x) as [old|] eqn:Ex.
  - destruct (api_binary G BAdd old gx) as [[G1 r1]|] eqn:E1; cbn [obind] in H; [|discriminate].
    destruct (made_binary _ _ _ _ _ _ Hl (HV _ _ Ex) Vx E1) as [L1 X1 V1 C1].
    destruct (IH G1 (set_grad gs x r1) G' gs' L1) as (L2 & X2 & HI); [| |exact H|].
    { intros n r E. destruct (Nat.eq_dec n x) as [->|Hn]; [rewrite set_grad_same in E; injection E as <-; assumption|].
      rewrite set_grad_other in E by assumption. eapply ext_valid; eauto. }
    { eapply Forall_impl; [|exact HF]. cbn. intros. eapply ext_valid; eauto. }
    split; [assumption|]. split; [eauto using ext_trans|]. intros n r E. destruct (HI n r E) as (Vr & HC). split; [assumption|]. rewrite HC.
    assert (HX : (forall gx0, In (n, gx0) xs -> cln G1 gx0) <-> (forall gx0, In (n, gx0) xs -> cln G gx0)).
    { split; intros Q gx0 Hi; specialize (Q gx0 Hi); rewrite Forall_forall in HF; specialize (HF _ Hi); cbn in HF; apply (cln_ext _ _ X1 Hl _ HF); assumption. }
    destruct (Nat.eq_dec n x) as [->|Hn].
    + rewrite set_grad_same, Ex. split.
      * intros (Q1 & Q2). specialize (Q1 _ eq_refl). apply C1 in Q1 as (Q1 & Q1'). split; [intros o Eo; injection Eo as <-; exact Q1|].
        intros gx0 [Eq|Hi]; [injection Eq as <-; assumption|]. now apply HX.
      * intros (Q1 & Q2). split; [intros o Eo; injection Eo as <-; apply C1; split; [now apply Q1|apply Q2; now left]|]. apply HX. intros; apply Q2. now right.
    + rewrite set_grad_other by assumption. split.
      * intros (Q1 & Q2). split; [intros o Eo; apply (cln_ext _ _ X1 Hl _ (HV _ _ Eo)); auto|]. intros gx0 [Eq|Hi]; [congruence|]. now apply HX.
      * intros (Q1 & Q2). split; [intros o Eo; apply (cln_ext _ _ X1 Hl _ (HV _ _ Eo)); auto|]. apply HX. intros; apply Q2. now right.
  - cbn [obind] in H. destruct (IH G (set_grad gs x gx) G' gs' Hl) as (L2 & X2 & HI); [|assumption|exact H|].
    { intros n r E. destruct (Nat.eq_dec n x) as [->|Hn]; [rewrite set_grad_same in E; injection E as <-; assumption|].
      rewrite set_grad_other in E by assumption. eauto. }
    split; [assumption|]. split; [assumption|]. intros n r E. destruct (HI n r E) as (Vr & HC). split; [assumption|]. rewrite HC.
    destruct (Nat.eq_dec n x) as [->|Hn].
    + rewrite set_grad_same, Ex. split.
      * intros (Q1 & Q2). split; [discriminate|]. intros gx0 [Eq|Hi]; [injection Eq as <-; auto|auto].
      * intros (_ & Q2). split; [intros o Eo; injection Eo as <-; apply Q2; now left|]. intros; apply Q2. now right.
    + rewrite set_grad_other by assumption. split.
      * intros (Q1 & Q2). split; [assumption|]. intros gx0 [Eq|Hi]; [congruence|auto].
      * intros (Q1 & Q2). split; [assumption|]. intros; apply Q2. now right.
Qed.

Section Loop.
Context (g0 : graph) (y : nat) (Hr0 : reach g0) (Hvy : valid g0 y) (Hreg : regular g0 y) (Hcy : cln g0 y).
Let ord := order g0 y.
Let Bad := scalar_on_path g0 y.
Definition hit (done : list nat) (n : nat) : Prop :=
  exists c nd, In c done /\ nth_error g0 c = Some nd /\ In n (n_in nd) /\ (scalar_rule (n_op nd) (shape_of g0 n) \/ Bad c).
Definition clean_inv (G : graph) (gs : grads) (done : list nat) : Prop :=
  forall n r, gs n = Some r -> cln G r <-> ~ hit done n.

Lemma depends_cone g a n : depends g a n -> cone g a n.
Proof. induction 1; [constructor|]. eapply cone_trans; [|exact IHdepends]. eapply cone_step; [apply cone_self|eassumption|assumption]. Qed.
Lemma depends_cln g a n : cln g a -> depends g a n -> cln g n.
Proof. intros H Hd m md Hm. apply H. eapply cone_trans; [exact (depends_cone _ _ _ Hd)|exact Hm]. Qed.
Lemma depends_last g a n : depends g a n -> n = a \/ exists c nd, depends g a c /\ nth_error g c = Some nd /\ In n (n_in nd).
Proof. intros H. destruct (depends_consumer _ _ _ H) as [->|(c & Hc & nd & E & Hi)]; [auto|]. right. eauto. Qed.
Lemma hit_bad l1 f l2 : ord = l1 ++ f :: l2 -> hit l1 f <-> Bad f.
Proof.
  intros Eo. destruct (order_spec g0 (reach_inputs_lt _ Hr0) y Hvy) as (O1 & O2 & O3). fold ord in O1, O2, O3. split.
  - intros (c & nd & Hc & Hn & Hi & Hb). assert (Hdc : depends g0 y c) by (apply O2; rewrite Eo; apply in_app_iff; now left).
    destruct Hb as [Hb|(f' & i & nd' & B1 & B2 & B3 & B4 & B5)].
    + exists c, f, nd. repeat (split; [assumption|]). constructor.
    + exists f', i, nd'. repeat (split; [assumption|]). eapply depends_trans; [exact B5|]. eapply dep_step; eauto. constructor.
  - intros (f' & i & nd' & B1 & B2 & B3 & B4 & B5). destruct (depends_last _ _ _ B5) as [->|(c & nd & Hc & Hn & Hi)].
    + exists f', nd'. split; [eapply O3; eauto; exists nd'; auto|]. auto.
    + exists c, nd. assert (Hyc : depends g0 y c). { eapply depends_trans; [exact B1|]. eapply dep_step; eauto. }
      split; [eapply O3; eauto; exists nd; auto|]. split; [assumption|]. split; [assumption|]. right. exists f', i, nd'. auto.
Qed.

Lemma run_clean gs0 : forall l2 l1 G gs G' gs' tr, ord = l1 ++ l2 -> binv g0 y gs0 G gs l1 -> clean_inv G gs l1 ->
  run_funcs G gs l2 = Done (G', gs', tr) -> clean_inv G' gs' ord.
Proof.
  assert (UC : forall dt v, coerce (mkValg unit (fun _ => tt) (fun _ _ => Some tt) (fun _ _ _ => Some tt) (fun _ v => v)) dt v = v) by reflexivity.
  induction l2 as [|f l2 IH]; intros l1 G gs G' gs' tr Eo HB HI H; cbn [run_funcs] in H.
  { injection H as <- <- <-. rewrite app_nil_r in Eo. rewrite Eo. exact HI. }
  destruct (step_total _ UC g0 y Hr0 Hvy Hreg gs0 G gs l1 f l2 Eo HB) as (gr & G1 & gxs & G2 & gs2 & HS & HB2 & HE2 & HD).
  pose proof HS as [S1 (nd & Hn & HR & HA)]. pose proof (ext_node _ _ _ _ (bi_ext _ _ _ _ _ _ HB) Hn) as HnG.
  destruct (HD nd HnG) as (D1 & D2). unfold get in H. rewrite HnG in H. cbn [obind] in H. rewrite S1 in H. cbn [obind] in H.
  rewrite D1 in H. cbn [obind] in H. rewrite D2 in H. cbn [obind] in H.
  destruct (run_funcs G2 gs2 l2) as [[[G3 gs3] tr3]|] eqn:E3; cbn [obind] in H; [|discriminate]. injection H as <- <- <-.
  assert (Eo' : ord = (l1 ++ [f]) ++ l2) by (rewrite <- app_assoc; exact Eo).
  eapply (IH (l1 ++ [f])); [exact Eo'|exact HB2| |exact E3].
  pose proof (bi_reach _ _ _ _ _ _ HB) as RG. pose proof (bi_ok _ _ _ _ _ _ HB) as OK. pose proof (bi_ext _ _ _ _ _ _ HB) as EG.
  destruct (order_spec g0 (reach_inputs_lt _ Hr0) y Hvy) as (O1 & O2 & O3). fold ord in O1, O2, O3.
  assert (Hf : depends g0 y f /\ is_op g0 f) by (apply O2; rewrite Eo; apply in_app_iff; right; now left).
  destruct Hf as (Hdep & nd' & Hn' & Hne). rewrite Hn in Hn'. injection Hn' as <-.
  destruct (OK f gr S1) as (Vf & Vgr & Sgr).
  assert (Hl0 : lt_graph g0) by (intros n md; now apply reach_inputs_lt). assert (HlG : lt_graph G) by (intros n md; now apply reach_inputs_lt).
  assert (Vf0 : valid g0 f) by (apply nth_error_Some; congruence).
  assert (Cf : cln G f) by (apply (cln_ext _ _ EG Hl0 _ Vf0); eapply depends_cln; eauto).
  pose proof (bw_rule_clean G nd f gr G1 gxs RG HnG Hne Vgr Sgr Cf D1) as HC.
  destruct HR as [RD RR RE RL RA]. assert (Hl1 : lt_graph G1) by (intros n md; now apply reach_inputs_lt).
  assert (HK : forall k x gx, nth_error (combine (n_in nd) gxs) k = Some (x, gx) -> nth_error (n_in nd) k = Some x /\ nth_error gxs k = Some gx).
  { clear. generalize (n_in nd). intros l. revert gxs. induction l as [|a l IH]; intros [|b m] [|k] x gx H; cbn in *; try discriminate; [injection H as -> ->; auto|auto]. }
  destruct (add_grads_clean (combine (n_in nd) gxs) G1 gs G2 gs2 Hl1) as (L2 & X2 & HX); [| |exact D2|].
  { intros n r E. destruct (OK n r E) as (_ & V & _). eapply ext_valid; eauto. } 
  { apply Forall_forall. intros [x gx] Hi. apply In_nth_error in Hi as (k & Hk). destruct (HK _ _ _ Hk) as (K1 & K2). apply (RA k x gx K1 K2). }
  assert (Vin : forall b, In b (n_in nd) -> valid g0 b).
  { intros b Hb. specialize (Hl0 _ _ Hn). rewrite Forall_forall in Hl0. specialize (Hl0 b Hb). unfold valid in *. lia. }
  assert (Hgr : cln G gr <-> ~ Bad f) by (rewrite (HI f gr S1), (hit_bad l1 f l2 Eo); reflexivity).
  intros n r E. destruct (HX n r E) as (_ & ->).
  assert (HG : (forall gx, In (n, gx) (combine (n_in nd) gxs) -> cln G1 gx) <-> (In n (n_in nd) -> ~ Bad f /\ ~ scalar_rule (n_op nd) (shape_of g0 n))).
  { split.
    - intros Q Hin. apply In_nth_error in Hin as (k & Hk).
      destruct (nth_error gxs k) as [gx|] eqn:Eg.
      + assert (Hin : In (n, gx) (combine (n_in nd) gxs)).
        { clear - Hk Eg. revert gxs k Hk Eg. generalize (n_in nd). induction l as [|a l IH]; intros [|b m] [|k] H1 H2; cbn in *; try discriminate; [injection H1 as ->; injection H2 as ->; now left|right; eauto]. }
        specialize (Q gx Hin). apply (HC k n gx Hk Eg) in Q as (Q1 & Q2). rewrite (ext_shape _ _ _ EG (Vin n (nth_error_In _ _ Hk))) in Q2. split; [now apply Hgr|assumption].
      + exfalso. apply nth_error_None in Eg. assert (Hk' : nth_error (n_in nd) k <> None) by congruence. apply nth_error_Some in Hk'. rewrite RL in Eg. lia.
    - intros Q gx Hi. apply In_nth_error in Hi as (k & Hk). destruct (HK _ _ _ Hk) as (K1 & K2). destruct (Q (nth_error_In _ _ K1)) as (Q1 & Q2).
      apply (HC k n gx K1 K2). split; [now apply Hgr|]. now rewrite (ext_shape _ _ _ EG (Vin n (nth_error_In _ _ K1))). }
  rewrite HG. 
  assert (HO : (forall old, gs n = Some old -> cln G1 old) <-> (gs n <> None -> ~ hit l1 n)).
  { destruct (gs n) as [old|] eqn:Eg; [|split; [congruence|discriminate]]. destruct (OK n old Eg) as (_ & Vo & _).
    split; [intros Q _; apply (HI n old Eg), (cln_ext _ _ RE HlG _ Vo); auto|]. intros Q o Eq. injection Eq as <-. apply (cln_ext _ _ RE HlG _ Vo), (HI n old Eg). apply Q. discriminate. }
  rewrite HO. split.
  - intros (Q1 & Q2) (c & nd' & Hc & Hnc & Hi & Hb). apply in_app_iff in Hc as [Hc|[<-|[]]].
    + apply Q1; [|exists c, nd'; auto]. apply (bi_some _ _ _ _ _ _ HB). right. exists c. split; [assumption|]. exists nd'. auto.
    + rewrite Hn in Hnc. injection Hnc as <-. destruct (Q2 Hi) as (Q3 & Q4). tauto.
  - intros Q. split; [intros _ (c & nd' & Hc & Hrest); apply Q; exists c, nd'; split; [apply in_app_iff; now left|assumption]|].
    intros Hi. split; intros Hb; apply Q; exists f, nd; (split; [apply in_app_iff; right; now left|]); auto.
Qed.
End Loop.

(* every gradient of a backward() call compiles unless a scalar is on the path *)
Lemma backward_clean g y g' gs' x r : reach g -> valid g y -> regular g y -> cln g y ->
  backward g no_grads y = Done (g', gs') -> depends g y x -> gs' x = Some r -> cln g' r <-> ~ scalar_on_path g y x.
Proof.
  intros Hr Hv HR Hc H Hd Ex. 
  assert (UC : forall dt v, coerce (mkValg unit (fun _ => tt) (fun _ _ => Some tt) (fun _ _ _ => Some tt) (fun _ v => v)) dt v = v) by reflexivity.
  destruct (st_ones_like _ UC g y Hr Hv) as (g1 & o & z & [D1 R1 E1 V1 S1 A1] & _).
  unfold backward, backward_trace in H. cbn [no_grads] in H. rewrite D1 in H. cbn [obind] in H.
  destruct (run_funcs g1 (set_grad no_grads y o) (order g1 y)) as [[[G' GS'] tr]|] eqn:E; cbn [obind] in H; [|discriminate]. injection H as <- <-.
  assert (Hl : lt_graph g) by (intros n md; now apply reach_inputs_lt).
  assert (M : made g g1 o True).
  { unfold api_ones_like, api_full_like, api_full in D1. destruct (get g y) as [ndy|]; cbn [obind] in D1; [|discriminate]. eapply made_const; eauto. }
  assert (HB : binv g1 y no_grads g1 (set_grad no_grads y o) []).
  { constructor; [assumption|apply ext_refl| | |].
    - apply grads_ok_set; eauto using ext_valid; [intros n q En; discriminate En|]. now rewrite (ext_shape _ _ _ E1 Hv).
    - intros n [->|(c & [] & _)]. rewrite set_grad_same. discriminate.
    - intros n Hn. destruct (Nat.eq_dec n y) as [->|Hne]; [auto|]. rewrite set_grad_other in Hn by assumption. auto. }
  pose proof (ext_valid _ _ _ E1 Hv) as Hv1. pose proof (regular_ext _ _ _ E1 Hr Hv HR) as HR1.
  assert (Hc1 : cln g1 y) by (now apply (cln_ext _ _ E1 Hl)).
  assert (HI : clean_inv g1 y g1 (set_grad no_grads y o) []).
  { intros n q En. destruct (Nat.eq_dec n y) as [->|Hn]; [|rewrite set_grad_other in En by assumption; discriminate En].
    rewrite set_grad_same in En. injection En as <-. split; [intros _ (c & nd & [] & _)|]. intros _. now apply (md_cln _ _ _ _ M). }
  pose proof (run_clean g1 y R1 Hv1 HR1 Hc1 no_grads (order g1 y) [] g1 _ _ _ _ eq_refl HB HI E) as HF.
  rewrite (HF x r Ex).
  (* what was hit = what has a scalar on its path *)
  destruct (order_spec g1 (reach_inputs_lt _ R1) y Hv1) as (O1 & O2 & O3).
  assert (HP : scalar_on_path g1 y x <-> scalar_on_path g y x).
  { assert (Hd1 : forall f, depends g1 y f <-> depends g y f) by (intros f; apply (depends_ext _ _ _ _ E1 Hr Hv)).
    split; intros (f & i & nd & B1 & B2 & B3 & B4 & B5); exists f, i, nd.
    - apply Hd1 in B1. pose proof (depends_valid _ _ _ Hr Hv B1) as Vf. destruct (valid_node _ _ Vf) as (nd' & Hn'). pose proof (ext_node _ _ _ _ E1 Hn') as Q. rewrite B2 in Q. injection Q as <-.
      assert (Vi : valid g i) by (pose proof (Hl _ _ Hn') as HF'; rewrite Forall_forall in HF'; specialize (HF' i B3); unfold valid in *; lia).
      split; [assumption|]. split; [assumption|]. split; [assumption|]. split; [now rewrite <- (ext_shape _ _ _ E1 Vi)|]. now apply (depends_ext _ _ _ _ E1 Hr Vi).
    - pose proof (depends_valid _ _ _ Hr Hv B1) as Vf.
      assert (Vi : valid g i) by (pose proof (Hl _ _ B2) as HF'; rewrite Forall_forall in HF'; specialize (HF' i B3); unfold valid in *; lia).
      split; [now apply Hd1|]. split; [eapply ext_node; eauto|]. split; [assumption|]. split; [now rewrite (ext_shape _ _ _ E1 Vi)|]. now apply (depends_ext _ _ _ _ E1 Hr Vi). }
  rewrite <- HP. clear HP.
  assert (Hq : hit g1 y (order g1 y) x <-> scalar_on_path g1 y x); [|now rewrite Hq].
  split.
  - intros (c & nd & Hcc & Hn & Hi & Hb). apply O2 in Hcc as (Hdc & _). destruct Hb as [Hb|(f' & i & nd' & B1 & B2 & B3 & B4 & B5)].
    + exists c, x, nd. repeat (split; [assumption|]). constructor.
    + exists f', i, nd'. repeat (split; [assumption|]). eapply depends_trans; [exact B5|]. eapply dep_step; eauto. constructor.
  - intros (f' & i & nd' & B1 & B2 & B3 & B4 & B5). destruct (depends_last _ _ _ B5) as [->|(c & nd & Hcc & Hn & Hi)].
    + exists f', nd'. split; [apply O2; split; [assumption|]; exists nd'; split; [assumption|]; intros Q; rewrite Q in B3; destruct B3|]. auto.
    + exists c, nd. assert (Hyc : depends g1 y c). { eapply depends_trans; [exact B1|]. eapply dep_step; eauto. }
      split; [apply O2; split; [assumption|]; exists nd; split; [assumption|]; intros Q; rewrite Q in Hi; destruct Hi|].
      split; [assumption|]. split; [assumption|]. right. exists f', i, nd'. auto.
Qed.
