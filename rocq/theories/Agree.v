(* Two arithmetics that agree on the element operations of an expression give it the same elements. *)
From Coq Require Import Floats.SpecFloat.
From Verif Require Import Base BaseFacts Util UtilFacts Lang Spec Graph Api ApiFacts Denote SpecFacts DenoteFacts LangInst Reach AlgoSem AlgoConv AlgoConv2.

(* the same nested list, element by element *)
Inductive nest_rel {A B} (R : A -> B -> Prop) : nest A -> nest B -> Prop :=
| nr_leaf x y : R x y -> nest_rel R (Leaf x) (Leaf y)
| nr_nest l l' : Forall2 (nest_rel R) l l' -> nest_rel R (Nest l) (Nest l').

Section Agree.
Context (A B : valg) (R : val A -> val B -> Prop).

Definition un_agrees (dt : dtype) (u : uop) : Prop :=
  forall x y v, R x y -> op1 A dt u x = Ok v -> exists w, op1 B dt u y = Ok w /\ R v w.
Definition bin_agrees (dt : dtype) (b : bop) : Prop :=
  forall x y x' y' v, R x y -> R x' y' -> op2 A dt b x x' = Ok v -> exists w, op2 B dt b y y' = Ok w /\ R v w.
(* a sum starts from 0 converted to the dtype *)
Definition sum_agrees (dt : dtype) (s : list Z) : Prop :=
  bin_agrees dt BAdd /\
  (forall x y v, R x y -> op2 A dt BAdd (zero_of A dt) x = Ok v -> exists w, op2 B dt BAdd (zero_of B dt) y = Ok w /\ R v w) /\
  (R (zero_of A dt) (zero_of B dt) \/ Forall (fun d => 0 < d) s).
(* the element operation of one node agrees in A and B *)
Definition node_agrees (g : graph) (nd : node) : Prop :=
  let dt := n_dtype nd in
  match n_op nd with
  | OConst vals => Forall (fun v => R (coerce A dt (of_num A v)) (coerce B dt (of_num B v))) vals
  | OUn u => un_agrees dt u
  | OBin b => bin_agrees dt b
  | OSum _ _ => sum_agrees dt (shape_of g (nth 0 (n_in nd) 0%nat))
  | OPad _ _ _ | ODilate _ _ => R (zero_of A dt) (zero_of B dt)
  | _ => True
  end.

Lemma fold_rel_R dt xs ys : bin_agrees dt BAdd -> Forall2 (fun x y => forall v, x = Ok v -> exists w, y = Ok w /\ R v w) xs ys ->
  forall a b v, R a b -> fold_res (op2 A dt BAdd) a xs = Ok v -> exists w, fold_res (op2 B dt BAdd) b ys = Ok w /\ R v w.
Proof.
  intros HB. induction 1 as [|x y xs ys Hxy _ IH]; intros a b v Hab H; cbn [fold_res] in *.
  - injection H as <-. eauto.
  - destruct x as [u| |]; try discriminate. cbn [rbind] in H. destruct (Hxy u eq_refl) as (w & -> & Huw). cbn [rbind].
    destruct (op2 A dt BAdd a u) as [a'| |] eqn:Eo; try discriminate. destruct (HB a b u w a' Hab Huw Eo) as (b' & -> & Hab'). cbn [rbind] in *. eauto.
Qed.
Lemma fold_rel_0 dt xs ys s : sum_agrees dt s -> Forall2 (fun x y => forall v, x = Ok v -> exists w, y = Ok w /\ R v w) xs ys ->
  (Forall (fun d => 0 < d) s -> xs <> []) ->
  forall v, fold_res (op2 A dt BAdd) (zero_of A dt) xs = Ok v -> exists w, fold_res (op2 B dt BAdd) (zero_of B dt) ys = Ok w /\ R v w.
Proof.
  intros (HB & H0 & HZ) HF Hne v H. destruct HF as [|x y xs ys Hxy HF]; cbn [fold_res] in *.
  - injection H as <-. destruct HZ as [HZ|HZ]; [eauto|]. now apply Hne in HZ.
  - destruct x as [u| |]; try discriminate. cbn [rbind] in H. destruct (Hxy u eq_refl) as (w & -> & Huw). cbn [rbind].
    destruct (op2 A dt BAdd (zero_of A dt) u) as [a'| |] eqn:Eo; try discriminate. destruct (H0 u w a' Huw Eo) as (b' & -> & Hab'). cbn [rbind] in *.
    eapply fold_rel_R; eauto.
Qed.
Lemma pick_position axes : forall s k out, Forall (fun d => 0 < d) s -> in_range (drop_axes axes k s) out ->
  exists full, in_range s full /\ drop_axes axes k full = out.
Proof.
  induction s as [|d s IH]; intros k out Hp Hi; cbn [drop_axes] in *.
  - exists []. split; [constructor|]. inversion Hi. reflexivity.
  - inversion Hp as [|? ? Hd Hp']; subst. destruct (zmem k axes) eqn:Ek.
    + destruct (IH (k + 1) out Hp' Hi) as (full & F1 & F2). exists (0 :: full). cbn [drop_axes]. rewrite Ek. split; [constructor; [lia|auto]|auto].
    + destruct out as [|o out]; [inversion Hi|]. inversion Hi as [|? ? ? ? Ho Hi']; subst. destruct (IH (k + 1) out Hp' Hi') as (full & F1 & F2).
      exists (o :: full). cbn [drop_axes]. rewrite Ek. split; [constructor; auto|now rewrite F2].
Qed.

Ltac use_shape Hf Hi :=
  let H := fresh in
  pose proof (f_equal (fun o => match o with Done m => n_shape m | _ => [] end) Hf) as H;
  cbn in H; rewrite <- H in Hi; clear H; cbn.
Theorem den_rel g a : wf_graph g -> (forall n nd, cone g a n -> nth_error g n = Some nd -> node_agrees g nd) ->
  forall n nd idx x, cone g a n -> nth_error g n = Some nd -> in_range (n_shape nd) idx -> t_at (den A g n) idx = Ok x ->
  exists y, t_at (den B g n) idx = Ok y /\ R x y.
Proof.
  intros Hw HA. induction n as [n IH] using lt_wf_ind. intros nd idx v Hc Hn Hi.
  pose proof (Hw _ _ Hn) as Hwn. pose proof (HA n nd Hc Hn) as Hag. unfold node_agrees in Hag. cbv zeta in Hag.
  unfold wf_node in Hwn. rewrite (den_wf_eq A g n nd Hw Hn), (den_wf_eq B g n nd Hw Hn). unfold den_node.
  destruct (n_op nd) eqn:Eop.
  { cbn. rewrite !znth_map. destruct (znth vals (flat (n_shape nd) idx)) as [z|] eqn:Ez; cbn; [|discriminate].
    intros H; injection H as <-. eexists. split; [reflexivity|]. rewrite Forall_forall in Hag. apply Hag. eapply znth_In; eauto. }
  all: destruct Hwn as (a0 & x & Ha & Hlt & Hx & Hf & Hok);
       rewrite (tin_den A g nd 0 a0 Ha), (tin_den B g nd 0 a0 Ha);
       pose proof (wf_shape_facts A g a0 x Hw Hx) as [Ix In_ Is Il]; pose proof (wf_shape_facts B g a0 x Hw Hx) as [IxB _ _ _]; cbn in Hf, Hok;
       assert (Hc0 : cone g a a0) by (eapply cone_step; eauto; eapply nth_error_In; eauto);
       pose proof (fun idx v => IH a0 Hlt x idx v Hc0 Hx) as IHa.
  - use_shape Hf Hi. destruct (t_at (den A g a0) idx) as [u0| |] eqn:E0; cbn; try congruence. intros H.
    destruct (IHa idx u0 Hi E0) as (w & -> & Hw'). cbn. eapply Hag; eauto.
  - destruct Hok as (b' & y & Hb & _ & Hbl & Hy & Hsy).
    rewrite (tin_den A g nd 1 b' Hb), (tin_den B g nd 1 b' Hb). use_shape Hf Hi.
    destruct (t_at (den A g a0) idx) as [u0| |] eqn:E0; cbn; try congruence.
    destruct (t_at (den A g b') idx) as [u1| |] eqn:E1; cbn; try congruence. intros H.
    assert (Hcb : cone g a b') by (eapply cone_step; [exact Hc|exact Hn|]; change (nth_error (n_in nd) 1 = Some b') in Hb; exact (nth_error_In _ _ Hb)).
    destruct (IHa idx u0 Hi E0) as (w & -> & Hw'). destruct (IH b' Hbl y idx u1 Hcb Hy) as (w' & -> & Hw''); auto; [now rewrite Hsy|].
    cbn. eapply Hag; eauto.
  - cbn. rewrite Ix, IxB. intros H. assert (Hs0 : shape_of g (nth 0 (n_in nd) 0%nat) = n_shape x).
    { unfold shape_of. erewrite nth_error_nth by eauto. now rewrite Hx. }
    rewrite Hs0 in Hag. eapply (fold_rel_0 (n_dtype nd) _ _ (n_shape x)); eauto.
    + set (l := sum_positions _ _ _). assert (HL : forall p, In p l -> in_range (n_shape x) p) by (intros p; apply sum_positions_in_range).
      clearbody l. clear H. induction l as [|p l IHl]; cbn; constructor.
      * intros v0 Hv0. apply IHa; auto. apply HL. now left.
      * apply IHl. intros; apply HL; now right.
    + intros Hpos Hnil. assert (Hs2 : n_shape nd = if keepdims then ones_axes axis 0 (n_shape x) else drop_axes axis 0 (n_shape x)).
      { rewrite <- reduce_shape_spec. pose proof (f_equal (fun o => match o with Done m => n_shape m | _ => [] end) Hf) as H1. cbn in H1. symmetry. exact H1. }
      assert (Hout : in_range (drop_axes axis 0 (n_shape x)) (if keepdims then drop_axes axis 0 idx else idx)).
      { rewrite Hs2 in Hi. destruct keepdims; [|assumption]. rewrite <- (drop_ones_axes axis 0 (n_shape x)). now apply drop_axes_in_range. }
      destruct (pick_position axis (n_shape x) 0 _ Hpos Hout) as (full & F1 & F2).
      assert (HI : In full (sum_positions axis (n_shape x) (if keepdims then drop_axes axis 0 idx else idx))).
      { unfold sum_positions. apply filter_In. split; [now apply in_all_idx|]. now apply list_zeqb_eq. }
      apply map_eq_nil in Hnil. rewrite Hnil in HI. exact HI.
  - destruct Hok as (_ & Hnn & Hprod & _). use_shape Hf Hi. rewrite IxB, Ix.
    apply IHa. apply unflat_in_range; [assumption|]. rewrite <- Hprod. now apply flat_bounds.
  - destruct Hok as (_ & Hnn & Hb). use_shape Hf Hi. rewrite IxB, Ix.
    apply IHa. now apply squash_in_range.
  - destruct Hok as (_ & HP). use_shape Hf Hi.
    apply IHa. now apply unpermute_in_range.
  - destruct Hok as (_ & Hs). unfold fwd_slice in Hf.
    destruct (slice_loop subs (n_strides x)) as [[o sh] ss] eqn:Es. use_shape Hf Hi.
    destruct (slice_loop_spec _ _ _ Hs Is _ _ _ Es) as (H1 & H2 & _).
    apply IHa. subst sh. now apply slice_idx_in_range.
  - use_shape Hf Hi. now apply IHa.
  - destruct Hok as (_ & Hdim & Hb & Haf). unfold fwd_pad in Hf.
    rewrite pyupdate_nonneg in Hf by assumption. use_shape Hf Hi. rewrite Ix, IxB.
    destruct (_ && _) eqn:E; [|intros H; injection H as <-; eauto]. apply IHa.
    eapply in_range_upd_shape; [exact Hi|lia|lia].
  - destruct Hok as (_ & Hdim & Hst & Hn1). unfold fwd_dilate in Hf.
    rewrite pyupdate_nonneg in Hf by assumption. use_shape Hf Hi.
    destruct (_ =? 0) eqn:E; [|intros H; injection H as <-; eauto]. apply IHa.
    assert (HB : 0 <= nth (Z.to_nat dim) idx 0 < (nth (Z.to_nat dim) (n_shape x) 0 - 1) * step + 1).
    { pose proof (in_range_nth _ _ (Z.to_nat dim) Hi) as HB. rewrite upd_length in HB.
      rewrite nth_upd_same in HB by lia. apply HB. lia. }
    eapply in_range_upd_shape; [exact Hi|lia|].
    split; [apply Z.div_pos; lia|]. apply Z.div_lt_upper_bound; [lia|]. nia.
Qed.
End Agree.

Lemma nested_rel {A B} (R : A -> B -> Prop) s : forall (f : list Z -> res A) (f' : list Z -> res B) l,
  (forall idx x, in_range s idx -> f idx = Ok x -> exists y, f' idx = Ok y /\ R x y) -> nested s f = Ok l ->
  exists l', nested s f' = Ok l' /\ nest_rel R l l'.
Proof.
  induction s as [|d s IH]; intros f f' l HR; cbn [nested].
  - destruct (f []) as [v| |] eqn:Ev; try discriminate. cbn [rbind]. intros H; injection H as <-.
    destruct (HR [] v) as (w & -> & Hw); [constructor|auto|]. cbn [rbind]. eexists. split; [reflexivity|now constructor].
  - destruct (mapM (fun i => nested s (fun r => f (i :: r))) (zrange d)) as [ls| |] eqn:Em; try discriminate. cbn [rbind]. intros H; injection H as <-.
    assert (HM : exists ls', mapM (fun i => nested s (fun r => f' (i :: r))) (zrange d) = Ok ls' /\ Forall2 (nest_rel R) ls ls').
    { assert (HZ : forall i, In i (zrange d) -> 0 <= i < d) by (intros i Hi; now apply in_zrange).
      revert ls Em HZ. induction (zrange d) as [|i zs IHz]; intros ls Em HZ; cbn [mapM] in *.
      - injection Em as <-. exists []. auto.
      - destruct (nested s (fun r => f (i :: r))) as [v| |] eqn:Ev; try discriminate. cbn [rbind] in Em.
        destruct (mapM (fun i => nested s (fun r => f (i :: r))) zs) as [vs| |]; try discriminate. cbn [rbind] in Em. injection Em as <-.
        destruct (IH _ (fun r => f' (i :: r)) _ (fun idx x Hi Hx => HR (i :: idx) x (Forall2_cons _ _ (HZ i (or_introl eq_refl)) Hi) Hx) Ev) as (w & -> & Hw).
        destruct (IHz vs eq_refl) as (ws & -> & Hws); [intros; apply HZ; now right|]. cbn [rbind]. eexists. split; [reflexivity|now constructor]. }
    destruct HM as (ls' & -> & HF). cbn [rbind]. eexists. split; [reflexivity|now constructor].
Qed.

Theorem tolist_rel (A B : valg) (R : val A -> val B -> Prop) g a nd l : wf_graph g -> nth_error g a = Some nd ->
  (forall n nd, cone g a n -> nth_error g n = Some nd -> node_agrees A B R g nd) ->
  t_tolist (den A g a) = Ok l -> exists l', t_tolist (den B g a) = Ok l' /\ nest_rel R l l'.
Proof.
  intros Hw Hn HA. unfold t_tolist.
  pose proof (wf_shape_facts A g a nd Hw Hn) as [Ix _ _ _]. pose proof (wf_shape_facts B g a nd Hw Hn) as [IxB _ _ _]. rewrite Ix, IxB.
  apply nested_rel. intros idx x Hi Hx. eapply (den_rel A B R g a Hw HA a nd); eauto. constructor.
Qed.

(* ------------------------------------------------------------------ Python and C *)
(* the same double *)
Definition same_float (x : pyval) (y : cval) : Prop := exists f, x = PF f /\ y = CF f.
(* the same double, or Python's int 0 (a padding, or the sum of no elements) and C's 0.0 *)
Definition same_float0 (x : pyval) (y : cval) : Prop := same_float x y \/ (x = PI 0 /\ y = CF (S754_zero false)).
(* the same integer *)
Definition same_z (y : cval) (x : pyval) : Prop := exists z, x = PI z /\ y = CI64 z.

Definition is_flt (n : num) : Prop := match n with NFlt _ _ => True | NInt _ => False end.
Definition is_i64 (n : num) : Prop := match n with NInt z => - 2 ^ 63 <= z < 2 ^ 63 | NFlt _ _ => False end.
Definition arith (b : bop) : Prop := match b with BAdd | BSub | BMul | BTruediv | BPow => True | _ => False end.

(* float64 arrays; no pad, no dilate, no sum over an empty array *)
Definition float_node (g : graph) (nd : node) : Prop :=
  n_dtype nd = Float64 /\
  match n_op nd with
  | OConst vals => Forall is_flt vals
  | OBin b => arith b
  | OSum _ _ => Forall (fun d => 0 < d) (shape_of g (nth 0 (n_in nd) 0%nat))
  | OPad _ _ _ | ODilate _ _ => False
  | _ => True
  end.
(* float64 arrays; no negation and no power *)
Definition float_node0 (nd : node) : Prop :=
  n_dtype nd = Float64 /\
  match n_op nd with
  | OConst vals => Forall is_flt vals
  | OUn u => u <> UNeg
  | OBin b => arith b /\ b <> BPow
  | _ => True
  end.
(* int64 arrays with +, -, *, negation, sum, pad, dilate and views *)
Definition int_node (nd : node) : Prop :=
  n_dtype nd = Int64 /\
  match n_op nd with
  | OConst vals => Forall is_i64 vals
  | OUn u => u = UNeg
  | OBin b => b = BAdd \/ b = BSub \/ b = BMul
  | _ => True
  end.

Lemma float_un lm u f v : op1 (py_alg lm) Float64 u (PF f) = Ok v -> exists w, op1 (c_alg lm) Float64 u (CF f) = Ok w /\ same_float v w.
Proof.
  unfold op1, same_float. destruct u; cbn.
  - intros H; injection H as <-. eauto.
  - destruct (lm_un lm USin f); cbn; [|discriminate]. intros H; injection H as <-. eauto.
  - destruct (lm_un lm UCos f); cbn; [|discriminate]. intros H; injection H as <-. eauto.
  - destruct (lm_un lm UExp f); cbn; [|discriminate]. intros H; injection H as <-. eauto.
  - destruct (lm_un lm ULog f); cbn; [|discriminate]. intros H; injection H as <-. eauto.
  - destruct (f64_neg f); cbn; [discriminate|]. intros H; injection H as <-. eauto.
Qed.
Lemma float_bin lm b f f' v : arith b -> op2 (py_alg lm) Float64 b (PF f) (PF f') = Ok v -> exists w, op2 (c_alg lm) Float64 b (CF f) (CF f') = Ok w /\ same_float v w.
Proof.
  unfold op2, same_float. destruct b; cbn; try contradiction; intros _.
  - intros H; injection H as <-. eauto.
  - intros H; injection H as <-. eauto.
  - intros H; injection H as <-. eauto.
  - unfold fbin. cbn. destruct (f64_zero f'); cbn; [discriminate|]. intros H; injection H as <-. eauto.
  - unfold fbin. cbn. destruct (lm_pow lm f f'); cbn; [|discriminate]. intros H; injection H as <-. eauto.
Qed.
Lemma float_agrees lm g nd : float_node g nd -> node_agrees (py_alg lm) (c_alg lm) same_float g nd.
Proof.
  intros [Hd Hop]. unfold node_agrees. rewrite Hd. destruct (n_op nd); auto; try contradiction.
  - eapply Forall_impl; [|exact Hop]. intros [z|m e] H; [contradiction|]. cbn. unfold same_float. eauto.
  - intros x y v (f & -> & ->). apply float_un.
  - intros x y x' y' v (f & -> & ->) (f' & -> & ->). now apply float_bin.
  - split; [|split; [|right; exact Hop]].
    + intros x y x' y' v (f & -> & ->) (f' & -> & ->). now apply float_bin.
    + intros x y v (f & -> & ->). cbn. intros H; injection H as <-. unfold same_float. eauto.
Qed.
Lemma float0_bin lm b x y x' y' v : arith b -> b <> BPow -> same_float0 x y -> same_float0 x' y' -> op2 (py_alg lm) Float64 b x x' = Ok v ->
  exists w, op2 (c_alg lm) Float64 b y y' = Ok w /\ same_float0 v w.
Proof.
  intros Hb Hp [(f & -> & ->)|[-> ->]] [(f' & -> & ->)|[-> ->]].
  - intros H. destruct (float_bin lm b f f' v Hb H) as (w & H1 & H2). exists w. split; auto. now left.
  - unfold op2. destruct b; cbn; try contradiction; try congruence; try discriminate; intros H; injection H as <-; eexists; (split; [reflexivity|left; eexists; split; reflexivity]).
  - unfold op2. destruct b; cbn; try contradiction; try congruence; unfold fbin; cbn.
    1-3: intros H; injection H as <-; eexists; (split; [reflexivity|left; eexists; split; reflexivity]).
    destruct (f64_zero f'); cbn; [discriminate|]. intros H; injection H as <-; eexists; (split; [reflexivity|left; eexists; split; reflexivity]).
  - unfold op2. destruct b; cbn; try contradiction; try congruence; try discriminate; intros H; injection H as <-; eexists; (split; [reflexivity|right; split; reflexivity]).
Qed.
Lemma float0_agrees lm g nd : float_node0 nd -> node_agrees (py_alg lm) (c_alg lm) same_float0 g nd.
Proof.
  intros [Hd Hop]. unfold node_agrees. rewrite Hd.
  assert (HZ : same_float0 (zero_of (py_alg lm) Float64) (zero_of (c_alg lm) Float64)) by (right; split; reflexivity).
  destruct (n_op nd); auto; try contradiction.
  - eapply Forall_impl; [|exact Hop]. intros [z|m e] H; [contradiction|]. cbn. left. unfold same_float. eauto.
  - intros x y v [(f & -> & ->)|[-> ->]] H.
    + destruct (float_un lm u f v H) as (w & H1 & H2). exists w. split; auto. now left.
    + revert H. unfold op1. destruct u; cbn; try congruence.
      1-4: match goal with |- context [lm_un ?l ?q ?z] => destruct (lm_un l q z); cbn; [|discriminate] end; intros H; injection H as <-; eexists; (split; [reflexivity|left; eexists; split; reflexivity]).
      intros H; injection H as <-; eexists; (split; [reflexivity|left; eexists; split; reflexivity]).
  - intros x y x' y' v Hx Hx'. now apply float0_bin.
  - split; [|split; [|now left]].
    + intros x y x' y' v Hx Hx'. apply float0_bin; auto; try exact I; try discriminate.
    + intros x y v Hx. apply float0_bin; auto; try exact I; try discriminate.
Qed.
Lemma c_int64_ok z v : (w <- of_opt (c_int true z) ;; Ok (c_coerce Int64 w)) = Ok v -> v = CI64 z.
Proof.
  unfold c_int. destruct (c_fits true z) eqn:E; cbn [of_opt rbind]; [|discriminate]. intros H; injection H as <-. cbn -[wrap64 Z.pow].
  unfold c_fits in E. apply andb_true_iff in E as [E1 E2]. apply Z.leb_le in E1. apply Z.ltb_lt in E2. rewrite wrap64_small by lia. reflexivity.
Qed.
Lemma int_bin lp lm b z z' v : b = BAdd \/ b = BSub \/ b = BMul -> op2 (c_alg lm) Int64 b (CI64 z) (CI64 z') = Ok v ->
  exists w, op2 (py_alg lp) Int64 b (PI z) (PI z') = Ok w /\ same_z v w.
Proof.
  intros Hb H. exists (match b with BAdd => PI (z + z') | BSub => PI (z - z') | _ => PI (z * z') end).
  destruct Hb as [->|[->| ->]]; (split; [reflexivity|]); unfold op2 in H; cbn [c_alg bin coerce c_bin c_ints] in H; apply c_int64_ok in H; subst v; unfold same_z; eauto.
Qed.
Lemma int_agrees lp lm g nd : int_node nd -> node_agrees (c_alg lm) (py_alg lp) same_z g nd.
Proof.
  intros [Hd Hop]. unfold node_agrees. rewrite Hd.
  assert (HZ : same_z (zero_of (c_alg lm) Int64) (zero_of (py_alg lp) Int64)) by (exists 0; split; reflexivity).
  destruct (n_op nd); auto.
  - eapply Forall_impl; [|exact Hop]. intros [z|m e] H; [|contradiction]. cbn [is_i64] in H. exists z. split; [reflexivity|]. cbn -[wrap64 Z.pow c_fits].
    destruct (c_fits false z); rewrite wrap64_small by lia; reflexivity.
  - subst u. intros x y v (z & -> & ->) H. exists (PI (- z)). split; [reflexivity|]. unfold op1 in H. cbn [c_alg un coerce c_un] in H. apply c_int64_ok in H. subst v. unfold same_z; eauto.
  - intros x y x' y' v (z & -> & ->) (z' & -> & ->). now apply int_bin.
  - split; [|split; [|now left]].
    + intros x y x' y' v (z & -> & ->) (z' & -> & ->). apply int_bin; auto.
    + intros x y v (z & -> & ->). change (zero_of (c_alg lm) Int64) with (CI64 0). change (zero_of (py_alg lp) Int64) with (PI 0). apply int_bin; auto.
Qed.
