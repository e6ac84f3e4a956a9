(* One kernel of a conversion, from code generation to its effect on memory. *)
From Verif Require Import Base BaseFacts Util UtilFacts Lang Spec Graph Api Denote SpecFacts DenoteFacts Reach
  Algo AlgoSem AlgoConv AlgoConv2 AlgoFuse AlgoFuse2 AlgoConvert AlgoConvert2
  Kernel Sched Codegen KernFacts RenderFacts KernelOk RunFacts SchedFacts.

(* ------------------------------------------------------------------ parameters of a kernel *)
(* positional binding of parameters to locations; backend_python.py:55, backend_clang.py:40-47 *)
Fixpoint bind_params (ps : list (name * dtype)) (bs : list nat) (n : name) : option nat :=
  match ps, bs with
  | (x, _) :: ps', b :: bs' => if name_eqb x n then Some b else bind_params ps' bs' n
  | _, _ => None
  end.
Fixpoint pty_of (ps : list (name * dtype)) (n : name) : dtype :=
  match ps with [] => Int64 | (x, dt) :: ps' => if name_eqb x n then dt else pty_of ps' n end.

(* ------------------------------------------------------------------ the context of one kernel *)
Record kctx (g : graph) (E : fenv) (f : nat) (fd : func) (nd : node) : Prop := {
  kc_nd : nth_error g f = Some nd;
  kc_entry : entry g f fd;
  kc_deps : forall d, In d (func_refs (f_expr fd)) -> exists fd' nd', E d = Some fd' /\ nth_error g d = Some nd' /\
              f_shape fd' = n_shape nd' /\ f_dtype fd' = n_dtype nd' /\ (d < f)%nat;
  kc_out : forall d, In d (func_refs (f_expr fd)) -> forall fd', E d = Some fd' -> f_out fd' = d
}.
Lemma convert_kctx L g a E fs f : convert_spec L g a E fs -> In f fs -> exists fd nd, E f = Some fd /\ kctx g E f fd nd.
Proof.
  intros HS Hf. destruct (cs_entry _ _ _ _ _ HS f Hf) as (fd & Hfd & He). destruct He as (nd & Hnd & Heq & HW & HR & HB) eqn:?.
  exists fd, nd. split; auto. apply in_split in Hf as (l1 & l2 & Hfs).
  assert (Hbefore : forall d, In d (func_refs (f_expr fd)) -> In d l1) by (intros d Hd; exact (cs_topo _ _ _ _ _ HS l1 f l2 Hfs fd Hfd d Hd)).
  split; auto; intros d Hd; pose proof (Hbefore d Hd) as Hin.
  2:{ intros fd' Hfd'. destruct (cs_entry _ _ _ _ _ HS d) as (fd2 & Hfd2 & (nd' & Hnd' & Heq' & _)); [rewrite Hfs; apply in_or_app; now left|].
      assert (fd2 = fd') by congruence. subst fd2. now rewrite Heq'. }
  destruct (cs_entry _ _ _ _ _ HS d) as (fd' & Hfd' & (nd' & Hnd' & Heq' & _)); [rewrite Hfs; apply in_or_app; now left|].
  exists fd', nd'. split; auto. split; auto. rewrite Heq'. cbn. split; auto. split; auto. eapply wff_refs; eauto.
Qed.

Lemma wfe_bufs shp ic lim P e n : wfe shp ic lim P e -> In n (buf_refs e) -> ic n.
Proof.
  induction e using expr_ind'; cbn; intros HW Hn; try tauto.
  - apply in_app_iff in Hn. intuition.
  - apply in_app_iff in Hn. destruct Hn as [Hn|Hn]; [|apply in_app_iff in Hn; intuition].
    exfalso. destruct HW as [HW _]. clear -HW Hn. induction e1; cbn in *; try tauto. apply in_app_iff in Hn. intuition.
  - destruct Hn as [<-|[]]. tauto.
Qed.
Lemma wff_bufs shp ic lim loops e n : wff shp ic lim loops e -> In n (buf_refs e) -> ic n.
Proof. destruct e; cbn [wff]; intros HW Hn; try (eapply wfe_bufs; eauto; fail). cbn in Hn. destruct HW as [HW _]. eapply wfe_bufs; eauto. Qed.

Section Kern.
Context (g : graph) (Hw : wf_graph g) (E : fenv) (f : nat) (fd : func) (nd : node) (HK : kctx g E f fd nd).
Let e := f_expr fd.
Let args := func_args e.
Let shp := shape_of g.

Lemma kc_fd : fd = mkF (out_loops f (n_shape nd)) (n_shape nd) (n_dtype nd) e f.
Proof using HK. destruct HK as [H1 (nd' & H2 & H3 & _) _ _]. assert (nd' = nd) by congruence. now subst. Qed.
Lemma kc_wff : wff shp (isc g) f (out_loops f (n_shape nd)) e.
Proof using HK. destruct HK as [H1 (nd' & H2 & _ & H3 & _) _ _]. assert (nd' = nd) by congruence. now subst. Qed.
Lemma in_args x : In x args <-> match x with ABuf n => In n (buf_refs e) | AFnc d => In d (func_refs e) end.
Proof.
  unfold args, func_args. rewrite in_app_iff, !in_map_iff. destruct x; split.
  - intros [(y & H & Hy)|(y & H & _)]; [|discriminate]. injection H as <-. apply dedup_in in Hy. tauto.
  - intros H. left. exists n. split; auto. apply dedup_in. cbn. tauto.
  - intros [(y & H & _)|(y & H & Hy)]; [discriminate|]. injection H as <-. apply dedup_in in Hy. tauto.
  - intros H. right. exists f0. split; auto. apply dedup_in. cbn. tauto.
Qed.
Lemma kc_cover : args_cover args e.
Proof. split; intros; apply in_args; assumption. Qed.
Lemma kc_nodes : nodes_ok g E args shp.
Proof using HK Hw.
  split.
  - intros n Hn. apply in_args in Hn. destruct (wff_bufs _ _ _ _ _ _ kc_wff Hn) as (bd & Hbd & Hc). exists bd. split; auto.
    pose proof (Hw _ _ Hbd) as HWn. unfold wf_node in HWn. destruct (n_op bd) eqn:Eop; try discriminate.
    unfold shp, shape_of. rewrite Hbd. tauto.
  - intros d Hd. apply in_args in Hd. destruct (kc_deps _ _ _ _ _ HK d Hd) as (fd' & nd' & H1 & H2 & H3 & _). exists fd'. split; auto.
    unfold shp, shape_of. now rewrite H2.
Qed.
(* an argument is an array other than the output, and the type of its parameter is its dtype *)
Lemma arg_node x : In x args -> exists xd, nth_error g (arg_id x) = Some xd /\ arg_dtype g E x = Done (n_dtype xd) /\
  shp (arg_id x) = n_shape xd.
Proof using HK Hw.
  intros Hx. apply in_args in Hx. destruct x as [n|d]; cbn [arg_id].
  - destruct (wff_bufs _ _ _ _ _ _ kc_wff Hx) as (bd & Hbd & Hc). exists bd. split; auto. cbn. unfold get. rewrite Hbd. split; auto.
    unfold shp, shape_of. now rewrite Hbd.
  - destruct (kc_deps _ _ _ _ _ HK d Hx) as (fd' & nd' & H1 & H2 & _ & H3 & _). exists nd'. split; auto. cbn. rewrite H1. cbn. split; [congruence|].
    unfold shp, shape_of. now rewrite H2.
Qed.
Lemma arg_const_or_before x : In x args -> (isc g (arg_id x) /\ is_abuf x = true) \/ (arg_id x < f)%nat.
Proof using HK.
  intros Hx. apply in_args in Hx. destruct x as [n|d]; cbn.
  - left. split; auto. eapply wff_bufs; [exact kc_wff|assumption].
  - right. destruct (kc_deps _ _ _ _ _ HK d Hx) as (fd' & nd' & H). tauto.
Qed.
Lemma arg_neq x : is_const (n_op nd) = false -> In x args -> arg_id x <> f.
Proof using HK.
  intros Hc Hx Heq. destruct (arg_const_or_before x Hx) as [[(bd & H1 & H2) _]|H]; [|lia].
  rewrite Heq, (kc_nd _ _ _ _ _ HK) in H1. congruence.
Qed.

(* ------------------------------------------------------------------ code generation is total *)
Lemma renders_total (P : lidx -> Prop) es : Forall (is_ix P) es -> forall k, exists c vs k1, renders g E args es k = Done (c, vs, k1).
Proof.
  assert (HI : forall x, is_ix P x -> forall k, exists c v k1, render g E args x Int64 k = Done (c, v, k1)).
  { induction x using expr_ind'; intros HP k; cbn in HP; try contradiction; try (cbn; eauto; fail).
    destruct (IHx1 (proj1 HP) k) as (c1 & v1 & k1 & E1). destruct (IHx2 (proj2 HP) k1) as (c2 & v2 & k2 & E2). cbn. rewrite E1. cbn. rewrite E2. cbn. eauto. }
  induction 1 as [|x es Hx _ IH]; intros k; cbn; [eauto|]. destruct (HI x Hx k) as (c & v & k1 & ->). cbn.
  destruct (IH k1) as (c2 & vs & k2 & ->). cbn. eauto.
Qed.
Lemma render_total ic lim P x : nodes_ok g E args shp -> wfe shp ic lim P x -> args_cover args x -> forall dt k,
  exists c v k1, render g E args x dt k = Done (c, v, k1).
Proof.
  intros HN. induction x using expr_ind'; intros HW HC dt k; cbn [wfe] in HW; try contradiction.
  - cbn. eauto.
  - destruct HW as [W1 W2]. assert (C1 : args_cover args x1) by (destruct HC as [A B]; split; intros; [apply A|apply B]; cbn; apply in_or_app; auto).
    assert (C2 : args_cover args x2) by (destruct HC as [A B]; split; intros; [apply A|apply B]; cbn; apply in_or_app; auto).
    destruct (IHx1 W1 C1 dt k) as (c1 & v1 & k1 & E1). destruct (IHx2 W2 C2 dt k1) as (c2 & v2 & k2 & E2). cbn. rewrite E1. cbn. rewrite E2. cbn. eauto.
  - destruct (IHx HW HC dt k) as (c1 & v1 & k1 & E1). cbn. rewrite E1. cbn. eauto.
  - destruct HW as (W1 & W2 & W3).
    assert (C2 : args_cover args x2) by (destruct HC as [A B]; split; intros; [apply A|apply B]; cbn; rewrite !in_app_iff; auto).
    assert (C3 : args_cover args x3) by (destruct HC as [A B]; split; intros; [apply A|apply B]; cbn; rewrite !in_app_iff; auto).
    destruct (renders_total P [x1] ltac:(auto) (S k)) as (c1 & vs & k1 & E1). cbn in E1.
    destruct (render g E args x1 Int64 (S k)) as [[[c0 v0] k0]|] eqn:E0; [|discriminate].
    destruct (IHx2 W2 C2 dt k0) as (c2 & v2 & k2 & E2). destruct (IHx3 W3 C3 dt k2) as (c3 & v3 & k3 & E3).
    cbn. rewrite E0. cbn. rewrite E2. cbn. rewrite E3. cbn. eauto.
  - destruct HW as (_ & _ & HW). destruct (renders_total P idx HW k) as (c & vs & k1 & E1). rewrite render_func.
    destruct (arg_name_in true (fun _ _ => 0) args (AFnc f0)) as [nm ->]; [apply HC; cbn; auto|]. cbn [obind].
    destruct (proj2 HN f0) as (fd' & -> & _); [apply HC; cbn; auto|]. cbn [obind throw_none]. rewrite E1. cbn. eauto.
  - destruct HW as (_ & _ & HW). destruct (renders_total P idx HW k) as (c & vs & k1 & E1). rewrite render_buf.
    destruct (arg_name_in true (fun _ _ => 0) args (ABuf n)) as [nm ->]; [apply HC; cbn; auto|]. cbn [obind].
    destruct (proj1 HN n) as (bd & Hbd & _); [apply HC; cbn; auto|]. unfold get. rewrite Hbd. cbn [obind]. rewrite E1. cbn. eauto.
Qed.
Lemma render_total_gen ic loops x : nodes_ok g E args shp -> wff shp ic f loops x -> args_cover args x -> forall dt k,
  exists c v k1, render g E args x dt k = Done (c, v, k1).
Proof.
  intros HN HW HC dt k. destruct x; try exact (render_total ic f (fun l => In l loops) _ HN HW HC dt k).
  destruct HW as [HW _]. destruct (render_total _ _ _ _ HN HW HC dt k) as (c & v & k1 & E1). cbn. rewrite E1. cbn. eauto.
Qed.
Lemma render_total_root dt k : exists c v k1, render g E args e dt k = Done (c, v, k1).
Proof using HK Hw. eapply render_total_gen; [exact kc_nodes|exact kc_wff|exact kc_cover]. Qed.
Lemma arg_params_ok l : (forall x, In x l -> In x args) -> forall i, exists ps, arg_params g E l i = Done ps /\
  length ps = length l /\
  forall j x, nth_error l j = Some x -> exists xd, nth_error g (arg_id x) = Some xd /\ nth_error ps j = Some (NArg (is_abuf x) (i + j), n_dtype xd).
Proof using HK Hw.
  induction l as [|x l IH]; intros HL i; cbn [arg_params].
  - exists []. split; auto. split; auto. intros [|j] y H; discriminate.
  - destruct (arg_node x) as (xd & H1 & H2 & _); [apply HL; now left|]. rewrite H2. cbn [obind].
    destruct (IH ltac:(intros; apply HL; now right) (S i)) as (ps & -> & Hlen & Hps). cbn [obind]. eexists. split; [reflexivity|].
    split; [cbn; lia|]. intros [|j] y H; cbn in H.
    + injection H as <-. exists xd. split; auto. cbn. now rewrite Nat.add_0_r.
    + destruct (Hps j y H) as (yd & Y1 & Y2). exists yd. split; auto. cbn. now replace (i + S j)%nat with (S i + j)%nat by lia.
Qed.
Lemma codegen_ok s k : exists ps c v k1, codegen g E args fd s k =
    Done (mkK ((NOut, n_dtype nd) :: ps)
      (render_loops (s_loops s) (capp (render_splits (s_splits s)) (capp (render_guards (s_splits s))
         (capp c (CStore NOut (arr_idx_calc (n_shape nd) (map (fun l => KName (lname l)) (out_loops f (n_shape nd)))) v CNil))))), k1) /\
  arg_params g E args 0 = Done ps /\ render g E args e (n_dtype nd) k = Done (c, v, k1).
Proof using HK Hw.
  destruct (arg_params_ok args ltac:(auto) 0) as (ps & E1 & _). destruct (render_total_root (n_dtype nd) k) as (c & v & k1 & E2).
  exists ps, c, v, k1. split; auto. unfold codegen. rewrite E1. cbn [obind].
  assert (Hd : f_dtype fd = n_dtype nd) by (rewrite kc_fd; reflexivity).
  assert (Hs : f_shape fd = n_shape nd) by (rewrite kc_fd; reflexivity).
  assert (Hl : f_loops fd = out_loops f (n_shape nd)) by (rewrite kc_fd; reflexivity).
  fold e. rewrite Hd, Hs, Hl, E2. reflexivity.
Qed.

(* ------------------------------------------------------------------ binding of parameters *)
Lemma bind_args_nth ps bs i0 : length ps = length bs ->
  (forall j p, nth_error ps j = Some p -> exists b, fst p = NArg b (i0 + j)) ->
  forall j p l, nth_error ps j = Some p -> nth_error bs j = Some l -> bind_params ps bs (fst p) = Some l /\ pty_of ps (fst p) = snd p.
Proof.
  revert bs i0. induction ps as [|[x dt] ps IH]; intros [|b bs] i0 Hlen Hnm j p l Hp Hl; try discriminate; [destruct j; discriminate|].
  destruct j as [|j]; cbn in Hp, Hl.
  - injection Hp as <-. injection Hl as <-. cbn. rewrite name_eqb_refl. auto.
  - destruct (Hnm (S j) p Hp) as [bb Hbb]. destruct (Hnm 0%nat (x, dt) eq_refl) as [b0 Hb0]. cbn in Hb0.
    cbn [bind_params pty_of]. destruct (name_eqb x (fst p)) eqn:En.
    + apply name_eqb_eq in En. rewrite Hb0, Hbb in En. injection En as _ En. lia.
    + apply (IH bs (S i0)) with (j := j); auto. intros j' p' Hp'. destruct (Hnm (S j') p' Hp') as [b' Hb']. exists b'.
      now replace (S i0 + j')%nat with (i0 + S j')%nat by lia.
Qed.
Lemma arg_pos_nth x l i : arg_pos x l = Some i -> nth_error l i = Some x.
Proof.
  revert i; induction l as [|y l IH]; intros i H; cbn in H; [discriminate|]. destruct (arg_eqb y x) eqn:E0.
  - injection H as <-. destruct y, x; cbn in E0; try discriminate; apply Nat.eqb_eq in E0; now subst.
  - destruct (arg_pos x l); [|discriminate]. injection H as <-. cbn. auto.
Qed.
(* locations of the parameters: lo for the output, then one per argument *)
Lemma bind_kernel ps lo ls : arg_params g E args 0 = Done ps -> length ls = length args ->
  let ps' := (NOut, n_dtype nd) :: ps in
  bind_params ps' (lo :: ls) NOut = Some lo /\ pty_of ps' NOut = n_dtype nd /\
  forall x nm, arg_name args x = Done nm -> In x args /\ exists i l xd, nth_error args i = Some x /\ nth_error ls i = Some l /\
     nth_error g (arg_id x) = Some xd /\ bind_params ps' (lo :: ls) nm = Some l /\ pty_of ps' nm = n_dtype xd.
Proof using HK Hw.
  intros Hps Hlen. cbn zeta. split; [reflexivity|]. split; [reflexivity|]. intros x nm Hnm.
  unfold arg_name in Hnm. destruct (arg_pos x args) as [i|] eqn:Ei; [|discriminate]. cbn in Hnm. injection Hnm as <-.
  apply arg_pos_nth in Ei. split; [eapply nth_error_In; eauto|].
  destruct (arg_params_ok args ltac:(auto) 0) as (ps2 & E2 & Hlen2 & HP). rewrite Hps in E2. injection E2 as <-.
  destruct (HP i x Ei) as (xd & Hx & Hpi). cbn [Nat.add] in Hpi.
  destruct (nth_error ls i) as [l|] eqn:El; [|apply nth_error_None in El; assert (i < length args)%nat by (apply nth_error_Some; congruence); lia].
  exists i, l, xd. split; auto. split; auto. split; auto. cbn [bind_params pty_of name_eqb].
  apply (bind_args_nth ps ls 0 ltac:(lia)) with (j := i) (p := (NArg (is_abuf x) i, n_dtype xd)); auto.
  intros j p Hp. assert (Hj : (j < length args)%nat) by (rewrite <- Hlen2; apply nth_error_Some; congruence).
  destruct (nth_error args j) as [y|] eqn:Ey; [|apply nth_error_None in Ey; lia].
  destruct (HP j y Ey) as (yd & _ & Hy). rewrite Hp in Hy. injection Hy as ->. cbn. eauto.
Qed.
End Kern.
