(* When equal cache keys imply equal code. *)
From Verif Require Import Base BaseFacts Util UtilFacts Lang Spec Graph Api ApiFacts Denote SpecFacts DenoteFacts Reach
  Algo AlgoSem AlgoConv AlgoConv2 AlgoFuse AlgoFuse2 AlgoConvert AlgoConvert2
  Kernel Sched Codegen Backends CacheKey KernFacts RenderFacts KernelOk RunFacts SchedFacts SchedGpu KernelRun KernelRun2 BackendFacts AlgoTop AlgoMore Runtime RuntimeFacts RuntimeFacts2 Tolist TolistFacts LangInst.

(* no pad or dilate in the kernel's own expression *)
Fixpoint no_where (e : expr) : Prop :=
  match e with
  | EWhere _ _ _ => False
  | EBin _ x y => no_where x /\ no_where y
  | EUn _ x | ESum x _ => no_where x
  | EIdx _ | EConst _ | EFunc _ _ | EBuf _ _ => True
  end.
(* the uses of other kernels' results, in order: which result (numbered by first use), row-major
   strides (all extents but the first), dtype *)
Definition f_strides (f : func) : list Z := strides_from_shape (f_shape f).
Definition use_sig (E : fenv) (e : expr) : list (option nat * option (list Z) * option dtype) :=
  map (fun f => (npos f (dedup (func_refs e) []), option_map f_strides (E f), option_map f_dtype (E f))) (func_refs e).
Lemma arr_idx_strides s s' names : strides_from_shape s = strides_from_shape s' -> arr_idx_calc s names = arr_idx_calc s' names.
Proof.
  intros H. pose proof (f_equal (@length Z) H) as HL. rewrite !strides_length in HL. unfold arr_idx_calc. destruct s, s'; cbn in HL; try discriminate; auto. now rewrite H.
Qed.

Fixpoint keyed (e : expr) : Prop :=
  match e with
  | EWhere _ _ _ => False
  | EBin _ x y => keyed x /\ keyed y
  | EUn _ x | ESum x _ => keyed x
  | EIdx _ | EConst _ => True
  | EFunc _ idx | EBuf _ idx => Forall (is_ix (fun _ => True)) idx
  end.
Lemma wfe_keyed shp ic lim P e : wfe shp ic lim P e -> no_where e -> keyed e.
Proof.
  induction e using expr_ind'; cbn; try tauto; intros (_ & _ & H1) _; (eapply Forall_impl; [|exact H1]); intros x Hx; eapply is_ix_mono; eauto.
Qed.
Lemma wff_keyed shp ic a loops e : wff shp ic a loops e -> no_where e -> keyed e.
Proof. destruct e; try apply wfe_keyed. intros [H _]. cbn. eapply wfe_keyed; eauto. Qed.

Lemma npos_ext n l x i : npos n l = Some i -> npos n (l ++ x) = Some i.
Proof.
  revert i; induction l as [|y l IH]; cbn; intros i H; [discriminate|]. destruct (Nat.eqb y n); auto.
  destruct (npos n l) as [j|]; [|discriminate]. now rewrite (IH j).
Qed.
Lemma npos_inj n m l i : npos n l = Some i -> npos m l = Some i -> n = m.
Proof.
  revert i; induction l as [|y l IH]; cbn; intros i H1 H2; [discriminate|].
  destruct (Nat.eqb_spec y n), (Nat.eqb_spec y m); subst; auto.
  - injection H1 as <-. destruct (npos m l); discriminate.
  - injection H2 as <-. destruct (npos n l); discriminate.
  - destruct (npos n l), (npos m l); try discriminate. injection H1 as <-. injection H2 as ->. eauto.
Qed.
Lemma npos_in n l : In n l -> exists i, npos n l = Some i.
Proof.
  induction l as [|y l IH]; cbn; [tauto|]. intros [->|H]; [rewrite Nat.eqb_refl; eauto|].
  destruct (Nat.eqb y n); eauto. destruct (IH H) as [i ->]. cbn. eauto.
Qed.
Lemma nadd_ext n l : exists x, nadd n l = l ++ x.
Proof. unfold nadd. destruct (npos n l); [exists []; now rewrite app_nil_r|eauto]. Qed.

Section Ids.
Context (g : graph) (E : fenv).
Lemma expr_keys_ext fuel es : Forall (fun e => forall ids k ids', expr_key g E fuel e ids = Done (k, ids') -> exists x, ids' = ids ++ x) es ->
  forall ids ks ids', expr_keys g E fuel es ids = Done (ks, ids') -> exists x, ids' = ids ++ x.
Proof.
  induction 1 as [|e es He _ IH]; cbn; intros ids ks ids' H; [injection H as _ <-; exists []; now rewrite app_nil_r|].
  bd H. destruct v as [k1 i1]. bd H. destruct v as [k2 i2]. injection H as _ <-.
  destruct (He _ _ _ D) as [x ->]. destruct (IH _ _ _ D0) as [y ->]. rewrite <- app_assoc. eauto.
Qed.
Lemma expr_key_ext fuel : forall e ids k ids', expr_key g E fuel e ids = Done (k, ids') -> exists x, ids' = ids ++ x.
Proof.
  induction fuel as [|n IHn]; intros e; induction e using expr_ind'; intros ids k ids' HK.
  all: try (cbn in HK; injection HK as _ <-; exists []; now rewrite app_nil_r).
  all: try (rewrite expr_key_func in HK; try discriminate; bd HK; bd HK; match goal with v : ekey * list nat |- _ => destruct v as [k1 i1] end; bd HK;
            match goal with v : list ekey * list nat |- _ => destruct v as [k2 i2] end; injection HK as _ <-;
            destruct (IHn _ _ _ _ D0) as [x ->]; destruct (expr_keys_ext _ _ H _ _ _ D1) as [y ->]; rewrite <- app_assoc; eauto; fail).
  all: try (rewrite expr_key_buf in HK; bd HK; bd HK; match goal with v : list ekey * list nat |- _ => destruct v as [k2 i2] end; bd HK; injection HK as _ <-;
            destruct (expr_keys_ext _ _ H _ _ _ D0) as [y ->]; match goal with |- context [nadd ?a ?b] => destruct (nadd_ext a b) as [x ->] end; rewrite <- app_assoc; eauto; fail).
  all: try (cbn in HK; bd HK; match goal with v : ekey * list nat |- _ => destruct v as [k1 i1] end; bd HK; match goal with v : ekey * list nat |- _ => destruct v as [k2 i2] end; injection HK as _ <-;
            destruct (IHe1 _ _ _ D) as [x ->]; destruct (IHe2 _ _ _ D0) as [y ->]; rewrite <- app_assoc; eauto; fail).
  all: cbn in HK; bd HK; match goal with v : ekey * list nat |- _ => destruct v as [k1 i1] end; injection HK as _ <-; eauto.
Qed.
End Ids.

(* inversion of keys, independent of the fuel's shape *)
Lemma key_bin_inv g E u b x y i k j : expr_key g E u (EBin b x y) i = Done (k, j) -> exists k1 k2 p, expr_key g E u x i = Done (k1, p) /\ expr_key g E u y p = Done (k2, j) /\ k = KyBin b k1 k2.
Proof. intros K. destruct u; cbn in K; bd K; destruct v as [k1 p]; bd K; destruct v as [k2 q]; injection K as <- <-; eauto 10. Qed.
Lemma key_un_inv g E u o x i k j : expr_key g E u (EUn o x) i = Done (k, j) -> exists k1, expr_key g E u x i = Done (k1, j) /\ k = KyUn o k1.
Proof. intros K. destruct u; cbn in K; bd K; destruct v as [k1 p]; injection K as <- <-; eauto 10. Qed.
Lemma key_sum_inv g E u x red i k j : expr_key g E u (ESum x red) i = Done (k, j) -> exists k1, expr_key g E u x i = Done (k1, j) /\ k = KyRed (map (fun l => (lname l, l_ext l)) red) k1.
Proof. intros K. destruct u; cbn in K; bd K; destruct v as [k1 p]; injection K as <- <-; eauto 10. Qed.
Lemma key_idx_inv g E u l i k j : expr_key g E u (EIdx l) i = Done (k, j) -> k = KyIdx (lname l) (l_ext l).
Proof. intros K. destruct u; cbn in K; injection K as <- <-; auto. Qed.
Lemma key_const_inv g E u z i k j : expr_key g E u (EConst z) i = Done (k, j) -> k = KyConst z.
Proof. intros K. destruct u; cbn in K; injection K as <- <-; auto. Qed.
Lemma key_func_inv g E u f idx i k j : expr_key g E u (EFunc f idx) i = Done (k, j) -> exists p k1 ks, expr_keys g E u idx p = Done (ks, j) /\ k = KyFnc k1 ks.
Proof. intros K. rewrite expr_key_func in K. destruct u; [discriminate|]. bd K. bd K. destruct v0 as [k1 p]. bd K. destruct v0 as [ks q]. injection K as <- <-. eauto 10. Qed.
Lemma key_buf_inv g E u n idx i k j : expr_key g E u (EBuf n idx) i = Done (k, j) ->
  exists nd ks x, nth_error g n = Some nd /\ npos n (nadd n i) = Some x /\ expr_keys g E u idx (nadd n i) = Done (ks, j) /\
    k = KyBuf x (n_shape nd) (n_strides nd) (n_offset nd) (n_dtype nd) ks.
Proof.
  intros K. rewrite expr_key_buf in K. unfold get in K. destruct (nth_error g n) as [nd|]; [|discriminate]. cbn [obind] in K. bd K. destruct v as [ks q]. bd K. injection K as <- <-.
  exists nd, ks, v. destruct (npos n (nadd n i)); [|discriminate]. injection D0 as ->. auto.
Qed.
Lemma expr_keys_ids g E fuel es ids ks ids' : expr_keys g E fuel es ids = Done (ks, ids') -> exists x, ids' = ids ++ x.
Proof. apply expr_keys_ext. apply Forall_forall. intros e _ i k i'. apply expr_key_ext. Qed.


Section Two.
Context (g1 g2 : graph) (E1 E2 : fenv).
Context (I1 I2 : list nat).      (* buffer numbering of the two keys *)
Definition Rb (n n' : nat) : Prop := exists i, npos n I1 = Some i /\ npos n' I2 = Some i.
Definition same_view (nd nd' : node) : Prop := n_shape nd = n_shape nd' /\ n_strides nd = n_strides nd' /\ n_offset nd = n_offset nd' /\ n_dtype nd = n_dtype nd'.
Inductive esim : expr -> expr -> Prop :=
| es_idx l l' : lname l = lname l' -> esim (EIdx l) (EIdx l')
| es_const z : esim (EConst z) (EConst z)
| es_bin b x y x' y' : esim x x' -> esim y y' -> esim (EBin b x y) (EBin b x' y')
| es_un u x x' : esim x x' -> esim (EUn u x) (EUn u x')
| es_sum x x' red red' : map (fun l => (lname l, l_ext l)) red = map (fun l => (lname l, l_ext l)) red' -> esim x x' -> esim (ESum x red) (ESum x' red')
| es_func f f' idx idx' : (forall a1 a2 k, renders g1 E1 a1 idx k = renders g2 E2 a2 idx' k) -> esim (EFunc f idx) (EFunc f' idx')
| es_buf n n' nd nd' idx idx' : Rb n n' -> nth_error g1 n = Some nd -> nth_error g2 n' = Some nd' -> same_view nd nd' ->
    (forall a1 a2 k, renders g1 E1 a1 idx k = renders g2 E2 a2 idx' k) -> esim (EBuf n idx) (EBuf n' idx').

(* index expressions with equal keys render equally *)
Lemma ix_sim u1 u2 x1 : forall x2 i1 i2 k j1 j2, is_ix (fun _ => True) x1 -> is_ix (fun _ => True) x2 ->
  expr_key g1 E1 u1 x1 i1 = Done (k, j1) -> expr_key g2 E2 u2 x2 i2 = Done (k, j2) ->
  forall a1 a2 dt t, render g1 E1 a1 x1 dt t = render g2 E2 a2 x2 dt t.
Proof.
  induction x1 using expr_ind'; intros x2 i1 i2 k j1 j2 P1 P2 K1 K2; cbn in P1; try contradiction.
  - apply key_idx_inv in K1 as ->. destruct x2; cbn in P2; try contradiction.
    + apply key_idx_inv in K2. assert (Hl : lname l = lname l0) by congruence. intros a1 a2 dt t. cbn. now rewrite Hl.
    + apply key_const_inv in K2. discriminate.
    + apply key_bin_inv in K2 as (? & ? & ? & _ & _ & ?). discriminate.
  - apply key_const_inv in K1 as ->. destruct x2; cbn in P2; try contradiction.
    + apply key_idx_inv in K2. discriminate.
    + apply key_const_inv in K2. injection K2 as ->. reflexivity.
    + apply key_bin_inv in K2 as (? & ? & ? & _ & _ & ?). discriminate.
  - apply key_bin_inv in K1 as (k1 & k2 & p1 & A1 & A2 & ->). destruct x2; cbn in P2; try contradiction.
    + apply key_idx_inv in K2. discriminate.
    + apply key_const_inv in K2. discriminate.
    + apply key_bin_inv in K2 as (k3 & k4 & p2 & B1 & B2 & HH). injection HH as -> -> ->. intros a1 a2 dt t. cbn.
      rewrite (IHx1_1 _ _ _ _ _ _ (proj1 P1) (proj1 P2) A1 B1 a1 a2 dt t). destruct (render g2 E2 a2 x2_1 dt t) as [[[c v] t1]|]; cbn; auto.
      rewrite (IHx1_2 _ _ _ _ _ _ (proj2 P1) (proj2 P2) A2 B2 a1 a2 dt t1). reflexivity.
Qed.
Lemma ixs_sim u1 u2 es1 : forall es2 i1 i2 ks j1 j2, Forall (is_ix (fun _ => True)) es1 -> Forall (is_ix (fun _ => True)) es2 ->
  expr_keys g1 E1 u1 es1 i1 = Done (ks, j1) -> expr_keys g2 E2 u2 es2 i2 = Done (ks, j2) ->
  forall a1 a2 t, renders g1 E1 a1 es1 t = renders g2 E2 a2 es2 t.
Proof.
  induction es1 as [|x1 es1 IH]; intros [|x2 es2] i1 i2 ks j1 j2 F1 F2 K1 K2 a1 a2 t; cbn in K1, K2.
  - reflexivity.
  - injection K1 as <- _. bd K2. destruct v. bd K2. destruct v. discriminate.
  - injection K2 as <- _. bd K1. destruct v. bd K1. destruct v. discriminate.
  - inversion F1; inversion F2; subst. bd K1. destruct v as [k1 p1]. bd K1. destruct v as [k2 q1]. injection K1 as <- _.
    bd K2. destruct v as [k3 p2]. bd K2. destruct v as [k4 q2]. injection K2 as -> -> _.
    cbn. rewrite (ix_sim _ _ _ _ _ _ _ _ _ H1 H5 D D1 a1 a2 Int64 t). destruct (render g2 E2 a2 x2 Int64 t) as [[[c v] t1]|]; cbn; auto.
    now rewrite (IH _ _ _ _ _ _ H2 H6 D0 D2 a1 a2 t1).
Qed.
Lemma key_sim u1 u2 e1 : forall e2 i1 i2 k j1 j2, keyed e1 -> keyed e2 ->
  expr_key g1 E1 u1 e1 i1 = Done (k, j1) -> expr_key g2 E2 u2 e2 i2 = Done (k, j2) ->
  (exists x, I1 = j1 ++ x) -> (exists x, I2 = j2 ++ x) -> esim e1 e2.
Proof.
  induction e1 using expr_ind'; intros e2 i1 i2 k j1 j2 P1 P2 K1 K2 X1 X2; cbn in P1; try contradiction.
  - pose proof (key_idx_inv _ _ _ _ _ _ _ K1) as ->. destruct e2; cbn in P2; try contradiction.
    + apply key_idx_inv in K2. constructor. congruence.
    + apply key_const_inv in K2. discriminate.
    + apply key_bin_inv in K2 as (? & ? & ? & _ & _ & ?). discriminate.
    + apply key_un_inv in K2 as (? & _ & ?). discriminate.
    + apply key_sum_inv in K2 as (? & _ & ?). discriminate.
    + apply key_func_inv in K2 as (? & ? & ? & _ & ?). discriminate.
    + apply key_buf_inv in K2 as (? & ? & ? & _ & _ & _ & ?). discriminate.
  - pose proof (key_const_inv _ _ _ _ _ _ _ K1) as ->. destruct e2; cbn in P2; try contradiction.
    + apply key_idx_inv in K2. discriminate.
    + apply key_const_inv in K2. injection K2 as ->. constructor.
    + apply key_bin_inv in K2 as (? & ? & ? & _ & _ & ?). discriminate.
    + apply key_un_inv in K2 as (? & _ & ?). discriminate.
    + apply key_sum_inv in K2 as (? & _ & ?). discriminate.
    + apply key_func_inv in K2 as (? & ? & ? & _ & ?). discriminate.
    + apply key_buf_inv in K2 as (? & ? & ? & _ & _ & _ & ?). discriminate.
  - apply key_bin_inv in K1 as (k1 & k2 & p & A1 & A2 & ->). destruct e2; cbn in P2; try contradiction.
    + apply key_idx_inv in K2. discriminate.
    + apply key_const_inv in K2. discriminate.
    + apply key_bin_inv in K2 as (k3 & k4 & q & B1 & B2 & HH). injection HH as -> -> ->. constructor.
      * eapply IHe1_1; [tauto|exact (proj1 P2)|exact A1|exact B1| |].
        -- destruct (expr_key_ext _ _ _ _ _ _ _ A2) as [y Hy], X1 as [z ->]. rewrite Hy, <- app_assoc. eauto.
        -- destruct (expr_key_ext _ _ _ _ _ _ _ B2) as [y Hy], X2 as [z ->]. rewrite Hy, <- app_assoc. eauto.
      * eapply IHe1_2; [tauto|exact (proj2 P2)|exact A2|exact B2|auto|auto].
    + apply key_un_inv in K2 as (? & _ & ?). discriminate.
    + apply key_sum_inv in K2 as (? & _ & ?). discriminate.
    + apply key_func_inv in K2 as (? & ? & ? & _ & ?). discriminate.
    + apply key_buf_inv in K2 as (? & ? & ? & _ & _ & _ & ?). discriminate.
  - apply key_un_inv in K1 as (k1 & A1 & ->). destruct e2; cbn in P2; try contradiction.
    + apply key_idx_inv in K2. discriminate.
    + apply key_const_inv in K2. discriminate.
    + apply key_bin_inv in K2 as (? & ? & ? & _ & _ & ?). discriminate.
    + apply key_un_inv in K2 as (k2 & B1 & HH). injection HH as -> ->. constructor. eauto.
    + apply key_sum_inv in K2 as (? & _ & ?). discriminate.
    + apply key_func_inv in K2 as (? & ? & ? & _ & ?). discriminate.
    + apply key_buf_inv in K2 as (? & ? & ? & _ & _ & _ & ?). discriminate.
  - apply key_sum_inv in K1 as (k1 & A1 & ->). destruct e2; cbn in P2; try contradiction.
    + apply key_idx_inv in K2. discriminate.
    + apply key_const_inv in K2. discriminate.
    + apply key_bin_inv in K2 as (? & ? & ? & _ & _ & ?). discriminate.
    + apply key_un_inv in K2 as (? & _ & ?). discriminate.
    + apply key_sum_inv in K2 as (k2 & B1 & HH). injection HH as HR ->. constructor; eauto.
    + apply key_func_inv in K2 as (? & ? & ? & _ & ?). discriminate.
    + apply key_buf_inv in K2 as (? & ? & ? & _ & _ & _ & ?). discriminate.
  - apply key_func_inv in K1 as (p & k1 & ks & A1 & ->). destruct e2; cbn in P2; try contradiction.
    + apply key_idx_inv in K2. discriminate.
    + apply key_const_inv in K2. discriminate.
    + apply key_bin_inv in K2 as (? & ? & ? & _ & _ & ?). discriminate.
    + apply key_un_inv in K2 as (? & _ & ?). discriminate.
    + apply key_sum_inv in K2 as (? & _ & ?). discriminate.
    + apply key_func_inv in K2 as (q & k2 & ks2 & B1 & HH). injection HH as -> ->. constructor. exact (ixs_sim _ _ _ _ _ _ _ _ _ P1 P2 A1 B1).
    + apply key_buf_inv in K2 as (? & ? & ? & _ & _ & _ & ?). discriminate.
  - apply key_buf_inv in K1 as (nd & ks & x & A1 & A2 & A3 & ->). destruct e2; cbn in P2; try contradiction.
    + apply key_idx_inv in K2. discriminate.
    + apply key_const_inv in K2. discriminate.
    + apply key_bin_inv in K2 as (? & ? & ? & _ & _ & ?). discriminate.
    + apply key_un_inv in K2 as (? & _ & ?). discriminate.
    + apply key_sum_inv in K2 as (? & _ & ?). discriminate.
    + apply key_func_inv in K2 as (? & ? & ? & _ & ?). discriminate.
    + apply key_buf_inv in K2 as (nd2 & ks2 & x2 & B1 & B2 & B3 & HH). injection HH as -> H1 H2 H3 H4 ->.
      apply es_buf with (nd := nd) (nd' := nd2); auto.
      * exists x2. destruct (expr_keys_ids _ _ _ _ _ _ _ A3) as [y1 ->], (expr_keys_ids _ _ _ _ _ _ _ B3) as [y2 ->], X1 as [z1 ->], X2 as [z2 ->].
        rewrite <- !app_assoc. split; now apply npos_ext.
      * repeat split; auto.
      * exact (ixs_sim _ _ _ _ _ _ _ _ _ P1 P2 A3 B3).
Qed.

(* structurally similar expressions render equally when the arguments correspond *)
Section Ren.
Context (a1 a2 : list arg).
Definition Qf (f f' : nat) : Prop := arg_pos (AFnc f) a1 = arg_pos (AFnc f') a2 /\ option_map f_strides (E1 f) = option_map f_strides (E2 f').
Lemma esim_refs e1 e2 : esim e1 e2 -> length (func_refs e1) = length (func_refs e2) /\ Forall2 Rb (buf_refs e1) (buf_refs e2).
Proof.
  induction 1; cbn; auto.
  - destruct IHesim1, IHesim2. rewrite !app_length. split; [congruence|]. now apply Forall2_app.
Qed.
Lemma esim_red e1 e2 : esim e1 e2 -> map (fun l => (lname l, l_ext l)) (reduced_vars e1) = map (fun l => (lname l, l_ext l)) (reduced_vars e2).
Proof. induction 1; cbn; auto. rewrite !map_app. congruence. Qed.
Lemma render_sim e1 e2 : esim e1 e2 -> (forall n n', Rb n n' -> arg_pos (ABuf n) a1 = arg_pos (ABuf n') a2) -> Forall2 Qf (func_refs e1) (func_refs e2) ->
  forall dt k, render g1 E1 a1 e1 dt k = render g2 E2 a2 e2 dt k.
Proof.
  induction 1; intros HR HF dt k.
  - cbn. congruence.
  - reflexivity.
  - cbn [func_refs] in HF. destruct (esim_refs _ _ H) as [HL _]. assert (HFs : Forall2 Qf (func_refs x) (func_refs x') /\ Forall2 Qf (func_refs y) (func_refs y')).
    { clear - HF HL. revert HF HL. generalize (func_refs x), (func_refs x'). intros l l'. revert l'. induction l as [|z l IH]; intros [|z' l'] HF HL; cbn in *; try discriminate; auto.
      inversion HF; subst. injection HL as HL. destruct (IH _ H4 HL). auto. }
    cbn. rewrite (IHesim1 HR (proj1 HFs) dt k). destruct (render g2 E2 a2 x' dt k) as [[[c v] t]|]; cbn; auto. now rewrite (IHesim2 HR (proj2 HFs) dt t).
  - cbn. now rewrite (IHesim HR HF dt k).
  - cbn. rewrite (IHesim HR HF dt k). destruct (render g2 E2 a2 x' dt k) as [[[c v] t]|]; cbn; auto. do 4 f_equal.
    assert (HG : forall body, fold_right (fun l b => CFor (lname l) (l_ext l) XSeq b CNil) body red = fold_right (fun l b => CFor (lname l) (l_ext l) XSeq b CNil) body red'); [|apply HG].
    { intros body. clear - H. revert red' H. induction red as [|l red IH]; intros [|l' red'] H; try discriminate; auto. cbn [map] in H. assert (H1 : lname l = lname l') by congruence. assert (H2 : l_ext l = l_ext l') by congruence. cbn [fold_right]. rewrite H1, H2, (IH red') by congruence. reflexivity. }
  - rewrite !render_func. cbn [func_refs] in HF. inversion HF as [|? ? ? ? [Q1 Q2]]; subst. unfold arg_name. rewrite Q1. destruct (arg_pos (AFnc f') a2); cbn; auto.
    destruct (E1 f), (E2 f'); cbn in Q2; try discriminate; cbn; auto. rewrite (H a1 a2 k). injection Q2 as Q2. destruct (renders g2 E2 a2 idx' k) as [[[c vs] k1]|]; cbn; auto. now rewrite (arr_idx_strides _ _ vs Q2).
  - rewrite !render_buf. unfold arg_name. rewrite (HR _ _ H). destruct (arg_pos (ABuf n') a2); cbn [obind throw_none]; auto.
    unfold get. rewrite H0, H1. cbn [obind]. destruct H2 as (S1 & S2 & S3 & S4). rewrite S2, S3. now rewrite (H3 a1 a2 k).
Qed.
End Ren.
End Two.

(* ------------------------------------------------------------------ argument lists correspond *)
Section Bij.
Context (R : nat -> nat -> Prop) (HR : forall x y x' y', R x y -> R x' y' -> (x = x' <-> y = y')).
Lemma nmem_sim x y s s' : R x y -> Forall2 R s s' -> nmem x s = nmem y s'.
Proof using HR.
  intros Hxy. induction 1 as [|a b s s' Hab _ IH]; auto. unfold nmem in *. cbn. rewrite IH. f_equal.
  destruct (Nat.eqb_spec x a), (Nat.eqb_spec y b); auto; exfalso; pose proof (HR _ _ _ _ Hxy Hab); tauto.
Qed.
Lemma dedup_sim l l' : Forall2 R l l' -> forall s s', Forall2 R s s' -> Forall2 R (dedup l s) (dedup l' s').
Proof using HR.
  induction 1 as [|x y l l' Hxy _ IH]; intros s s' Hs; cbn; auto. rewrite (nmem_sim x y s s' Hxy Hs). destruct (nmem y s'); auto.
Qed.
Lemma arg_pos_buf_sim x y l l' r r' : R x y -> Forall2 R l l' -> arg_pos (ABuf x) (map ABuf l ++ map AFnc r) = arg_pos (ABuf y) (map ABuf l' ++ map AFnc r').
Proof using HR.
  intros Hxy. induction 1 as [|a b l l' Hab _ IH]; cbn.
  - assert (HN : forall z q, arg_pos (ABuf z) (map AFnc q) = None) by (intros z q; induction q as [|? ? IHq]; cbn; auto; now rewrite IHq). now rewrite !HN.
  - pose proof (HR _ _ _ _ Hab Hxy) as Hiff.
    destruct (Nat.eqb_spec a x), (Nat.eqb_spec b y); auto; try (exfalso; tauto). now rewrite IH.
Qed.
Lemma arg_pos_fnc_sim x y l l' : R x y -> Forall2 R l l' -> arg_pos (AFnc x) (map AFnc l) = arg_pos (AFnc y) (map AFnc l').
Proof using HR.
  intros Hxy. induction 1 as [|a b l l' Hab _ IH]; cbn; auto. pose proof (HR _ _ _ _ Hab Hxy) as Hiff.
  destruct (Nat.eqb_spec a x), (Nat.eqb_spec b y); auto; try (exfalso; tauto). now rewrite IH.
Qed.
End Bij.
Lemma arg_pos_skip x l r : arg_pos (AFnc x) (map ABuf l ++ r) = option_map (Nat.add (length l)) (arg_pos (AFnc x) r).
Proof.
  induction l as [|a l IH]; cbn; [destruct (arg_pos (AFnc x) r); reflexivity|]. rewrite IH. destruct (arg_pos (AFnc x) r); reflexivity.
Qed.
Lemma arg_params_sim g1 E1 g2 E2 l l' : Forall2 (fun x y => is_abuf x = is_abuf y /\ arg_dtype g1 E1 x = arg_dtype g2 E2 y) l l' ->
  forall i, arg_params g1 E1 l i = arg_params g2 E2 l' i.
Proof. induction 1 as [|x y l l' [H1 H2] _ IH]; intros i; cbn; auto. rewrite H1, H2, IH. reflexivity. Qed.
Lemma Forall2_impl {A B} (P Q : A -> B -> Prop) l l' : (forall x y, P x y -> Q x y) -> Forall2 P l l' -> Forall2 Q l l'.
Proof. induction 2; auto. Qed.
Lemma map_eq_Forall2 {A B C} (f : A -> C) (h : B -> C) l l' : map f l = map h l' -> Forall2 (fun x y => f x = h y) l l'.
Proof. revert l'; induction l as [|x l IH]; intros [|y l'] H; try discriminate; constructor; injection H; auto. Qed.
Lemma Forall2_in_both {A B} (R : A -> B -> Prop) l l' : Forall2 R l l' -> Forall2 (fun x y => R x y /\ In x l /\ In y l') l l'.
Proof.
  induction 1 as [|x y l l' H _ IH]; constructor; [cbn; auto|]. eapply Forall2_impl; [|exact IH]. cbn. tauto.
Qed.

(* the automatic schedules depend only on the names and extents of the loops *)
Lemma sched_init_sim f1 f2 : map (fun l => (lname l, l_ext l)) (f_loops f1) = map (fun l => (lname l, l_ext l)) (f_loops f2) ->
  map (fun l => (lname l, l_ext l)) (reduced_vars (f_expr f1)) = map (fun l => (lname l, l_ext l)) (reduced_vars (f_expr f2)) -> sched_init f1 = sched_init f2.
Proof.
  intros H1 H2. unfold sched_init. f_equal. f_equal.
  - apply (f_equal (map (fun p => mkLS (mkLV (fst p) (snd p)) Spatial XSeq))) in H1. now rewrite !map_map in H1.
  - apply (f_equal (map (fun p => mkLS (mkLV (fst p) (snd p)) Reduce XSeq))) in H2. now rewrite !map_map in H2.
Qed.
(* ------------------------------------------------------------------ equal keys, equal code *)
Theorem key_code : forall gp d1 d2 key,
  keyed (f_expr (d_f d1)) -> keyed (f_expr (d_f d2)) -> auto_schedule gp (d_f d1) = Done (d_s d1) -> auto_schedule gp (d_f d2) = Done (d_s d2) ->
  key_of d1 = Done key -> key_of d2 = Done key ->
  use_sig (d_E d1) (f_expr (d_f d1)) = use_sig (d_E d2) (f_expr (d_f d2)) ->
  forall k, code_of d1 k = code_of d2 k.
Proof.
  intros gp [g1 E1 f1 s1] [g2 E2 f2 s2] key P1 P2 HS1 HS2 K1 K2 HU k. cbn [d_g d_E d_f d_s] in *. unfold key_of, code_of, cache_key in *. cbn [d_g d_E d_f d_s] in *.
  bd K1. destruct v as [e1 I1]. injection K1 as <-. bd K2. destruct v as [e2 I2]. injection K2 as Q1 Q2 Q3 Q4 Q5 Q6. subst e2. symmetry in Q1, Q2, Q3, Q5, Q6.
  pose proof (key_sim g1 g2 E1 E2 I1 I2 _ _ _ _ _ _ _ _ _ P1 P2 D D0 ltac:(exists []; now rewrite app_nil_r) ltac:(exists []; now rewrite app_nil_r)) as HS.
  set (b1 := dedup (buf_refs (f_expr f1)) []) in *. set (b2 := dedup (buf_refs (f_expr f2)) []) in *.
  set (c1 := dedup (func_refs (f_expr f1)) []) in *. set (c2 := dedup (func_refs (f_expr f2)) []) in *.
  assert (Ha1 : func_args (f_expr f1) = map ABuf b1 ++ map AFnc c1) by reflexivity.
  assert (Ha2 : func_args (f_expr f2) = map ABuf b2 ++ map AFnc c2) by reflexivity.
  assert (HRb : forall x y x' y', Rb I1 I2 x y -> Rb I1 I2 x' y' -> (x = x' <-> y = y')).
  { intros x y x' y' (i & H1 & H2) (j & H3 & H4). split; intros ->.
    - assert (i = j) by congruence. subst. eapply npos_inj; eauto.
    - assert (i = j) by congruence. subst. eapply npos_inj; eauto. }
  destruct (esim_refs g1 g2 E1 E2 I1 I2 _ _ HS) as [HLf HFb].
  assert (HB : Forall2 (Rb I1 I2) b1 b2) by (apply dedup_sim; auto).
  (* functions *)
  set (Rf := fun f f' => (npos f c1 = npos f' c2 /\ option_map f_strides (E1 f) = option_map f_strides (E2 f') /\ option_map f_dtype (E1 f) = option_map f_dtype (E2 f')) /\ In f (func_refs (f_expr f1)) /\ In f' (func_refs (f_expr f2))).
  assert (HRf : forall x y x' y', Rf x y -> Rf x' y' -> (x = x' <-> y = y')).
  { assert (Hc1 : forall x, In x (func_refs (f_expr f1)) -> exists i, npos x c1 = Some i) by (intros; apply npos_in; apply dedup_in; cbn; tauto).
    assert (Hc2 : forall x, In x (func_refs (f_expr f2)) -> exists i, npos x c2 = Some i) by (intros; apply npos_in; apply dedup_in; cbn; tauto).
    intros x y x' y' ((H1 & _) & H2 & H3) ((H4 & _) & H5 & H6). destruct (Hc1 x H2) as [i Hi], (Hc1 x' H5) as [j Hj]. split; intros ->.
    - assert (i = j) by congruence. subst. eapply (npos_inj _ _ c2); [rewrite <- H1; eauto|congruence].
    - eapply (npos_inj _ _ c1); [exact Hi|]. congruence. }
  assert (HFf : Forall2 Rf (func_refs (f_expr f1)) (func_refs (f_expr f2))).
  { unfold use_sig in HU. apply map_eq_Forall2, Forall2_in_both in HU. eapply Forall2_impl; [|exact HU]. intros x y (H1 & H2 & H3).
    injection H1 as H1 H4 H5. unfold Rf. auto. }
  assert (HC : Forall2 Rf c1 c2) by (apply dedup_sim; auto).
  assert (Hlen : length b1 = length b2) by (clear - HB; induction HB; cbn; congruence).
  unfold codegen. rewrite Ha1, Ha2.
  assert (HP : arg_params g1 E1 (map ABuf b1 ++ map AFnc c1) 0 = arg_params g2 E2 (map ABuf b2 ++ map AFnc c2) 0).
  { apply arg_params_sim. apply Forall2_app.
    - assert (HD : forall n n', In n b1 -> Rb I1 I2 n n' -> arg_dtype g1 E1 (ABuf n) = arg_dtype g2 E2 (ABuf n')).
      { assert (HX : forall e1' e2', esim g1 g2 E1 E2 I1 I2 e1' e2' -> forall n n', In n (buf_refs e1') -> Rb I1 I2 n n' -> arg_dtype g1 E1 (ABuf n) = arg_dtype g2 E2 (ABuf n')).
        { induction 1; cbn [buf_refs]; intros m m' Hin Hmm; try (destruct Hin; fail).
          - apply in_app_iff in Hin as [Hin|Hin]; eauto.
          - eauto. - eauto.
          - destruct Hin as [<-|[]]. assert (n' = m') by (apply (HRb _ _ _ _ H Hmm); reflexivity). subst m'. cbn. unfold get. rewrite H0, H1. cbn. now destruct H2 as (_ & _ & _ & ->). }
        intros n n' Hn. apply dedup_in in Hn as [Hn _]. eapply HX; eauto. }
      clear - HB HD. assert (HB' : Forall2 (fun x y => Rb I1 I2 x y /\ In x b1) b1 b2) by (eapply Forall2_impl; [|exact (Forall2_in_both _ _ _ HB)]; cbn; tauto).
      revert HB'. generalize b1 at 2 3 as x. generalize b2 as y. intros y x HB'.
      induction HB' as [|n n' l l' (Hr & Hi) _ IH]; cbn; constructor; auto.
    - clear - HC. induction HC as [|f f' l l' ((H1 & H2 & H3) & _) _ IH]; cbn; constructor; auto. split; auto. cbn.
      destruct (E1 f), (E2 f'); cbn in *; try discriminate; auto. now injection H3 as ->. }
  rewrite HP. destruct (arg_params g2 E2 _ 0) as [ps|]; cbn [obind]; auto.
  assert (HQ : Forall2 (Qf E1 E2 (map ABuf b1 ++ map AFnc c1) (map ABuf b2 ++ map AFnc c2)) (func_refs (f_expr f1)) (func_refs (f_expr f2))).
  { eapply Forall2_impl; [|exact HFf]. intros x y Hxy. split; [|exact (proj1 (proj2 (proj1 Hxy)))].
    rewrite !arg_pos_skip, Hlen, (arg_pos_fnc_sim Rf HRf x y c1 c2 Hxy HC). reflexivity. }
  rewrite Q3, (render_sim g1 g2 E1 E2 I1 I2 (map ABuf b1 ++ map AFnc c1) (map ABuf b2 ++ map AFnc c2) _ _ HS
     (fun n n' Hn => arg_pos_buf_sim _ HRb n n' b1 b2 c1 c2 Hn HB) HQ).
  destruct (render g2 E2 (map ABuf b2 ++ map AFnc c2) (f_expr f2) (f_dtype f2) k) as [[[c v] k1]|]; cbn [obind]; auto.
  assert (Hsc : s1 = s2).
  { pose proof (sched_init_sim f1 f2 Q1 (esim_red _ _ _ _ _ _ _ _ HS)) as HI. unfold auto_schedule in HS1, HS2. rewrite HI in HS1. destruct gp; congruence. }
  assert (HN : map (fun l => KName (lname l)) (f_loops f1) = map (fun l => KName (lname l)) (f_loops f2)).
  { apply (f_equal (map (fun p : name * Z => KName (fst p)))) in Q1. now rewrite !map_map in Q1. }
  now rewrite Q2, Hsc, HN.
Qed.

(* kernels of a reachable program, scheduled for a CPU (gp = false) or a GPU *)
Definition kernel_at (gp : bool) (g : graph) (a : nat) (d : desc) : Prop :=
  exists b bd E fs f fd sc, base g a = Some b /\ nth_error g b = Some bd /\ is_const (n_op bd) = false /\
    convert g b = Done (E, fs) /\ In f fs /\ E f = Some fd /\ auto_schedule gp fd = Done sc /\ d = mkD g E fd sc.
(* what is known about such a kernel *)
Lemma kernel_at_spec gp g a d : reach g -> valid g a -> kernel_at gp g a d -> exists b fs f nd, d_g d = g /\ valid g b /\ no_scalar_reshape g b /\ convert g b = Done (d_E d, fs) /\
  convert_spec (py_lang no_libm) g b (d_E d) fs /\ In f fs /\ d_E d f = Some (d_f d) /\ kctx g (d_E d) f (d_f d) nd /\ auto_schedule gp (d_f d) = Done (d_s d).
Proof.
  intros Hr Ha (b & bd & E & fs & f & fd & sc & Hb & Hbd & Hc & Hcv & Hf & Hfd & Hsc & ->). cbn [d_f d_s d_g d_E] in *. pose proof (reach_wf g Hr) as Hw.
  assert (Hvb : valid g b) by (unfold valid; apply nth_error_Some; congruence).
  destruct (convert_cases (py_lang no_libm) any_lang_ok g Hw b Hvb) as [Hns|HT]; [|congruence].
  pose proof (convert_inv _ g b E fs any_lang_ok Hr Hvb Hns Hcv) as HS.
  destruct (convert_kctx _ g b E fs f HS Hf) as (fd' & nd & Hfd' & HK). assert (fd' = fd) by congruence. subst fd'.
  exists b, fs, f, nd. repeat (split; [assumption || reflexivity|]). assumption.
Qed.
Lemma kernel_keyed gp g a d : reach g -> valid g a -> kernel_at gp g a d -> no_where (f_expr (d_f d)) -> keyed (f_expr (d_f d)) /\ auto_schedule gp (d_f d) = Done (d_s d).
Proof.
  intros Hr Ha Hk HN. destruct (kernel_at_spec gp g a d Hr Ha Hk) as (b & fs & f & nd & _ & _ & _ & _ & _ & _ & _ & HK & Hsc).
  split; [eapply wff_keyed; [exact (kc_wff _ _ _ _ _ HK)|exact HN]|exact Hsc].
Qed.
Lemma key_code_at : forall gp g1 a1 d1 g2 a2 d2 key,
  reach g1 -> valid g1 a1 -> kernel_at gp g1 a1 d1 -> reach g2 -> valid g2 a2 -> kernel_at gp g2 a2 d2 ->
  no_where (f_expr (d_f d1)) -> no_where (f_expr (d_f d2)) ->
  use_sig (d_E d1) (f_expr (d_f d1)) = use_sig (d_E d2) (f_expr (d_f d2)) ->
  key_of d1 = Done key -> key_of d2 = Done key -> forall k, code_of d1 k = code_of d2 k.
Proof.
  intros gp g1 a1 d1 g2 a2 d2 key R1 V1 K1 R2 V2 K2 N1 N2 HU Y1 Y2 k.
  destruct (kernel_keyed _ _ _ _ R1 V1 K1 N1) as [P1 S1]. destruct (kernel_keyed _ _ _ _ R2 V2 K2 N2) as [P2 S2].
  apply (key_code gp d1 d2 key); auto.
Qed.
Lemma key_code_reach : forall g1 a1 d1 g2 a2 d2 key,
  reach g1 -> valid g1 a1 -> kernel_of g1 a1 d1 -> reach g2 -> valid g2 a2 -> kernel_of g2 a2 d2 ->
  no_where (f_expr (d_f d1)) -> no_where (f_expr (d_f d2)) ->
  use_sig (d_E d1) (f_expr (d_f d1)) = use_sig (d_E d2) (f_expr (d_f d2)) ->
  key_of d1 = Done key -> key_of d2 = Done key -> forall k, code_of d1 k = code_of d2 k.
Proof. exact (key_code_at false). Qed.
(* kernels that read only constants, without pad or dilate *)
Definition plain_kernel (d : desc) : Prop :=
  (exists g a, reach g /\ valid g a /\ kernel_of g a d) /\ no_where (f_expr (d_f d)) /\ func_refs (f_expr (d_f d)) = [].
Lemma plain_safe : key_safe plain_kernel.
Proof.
  intros d1 d2 key ((g1 & a1 & R1 & V1 & K1) & N1 & F1) ((g2 & a2 & R2 & V2 & K2) & N2 & F2) Y1 Y2 k.
  eapply (key_code_reach g1 a1 d1 g2 a2 d2); eauto. unfold use_sig. now rewrite F1, F2.
Qed.
Lemma key_safe_sub (C C' : desc -> Prop) : (forall d, C d -> C' d) -> key_safe C' -> key_safe C.
Proof. intros H HC d1 d2 key H1 H2. apply HC; auto. Qed.
