(* The static nesting of the statements of a kernel text. *)
From Coq Require Import String.
From Verif Require Import Base BaseFacts Util UtilFacts Lang Spec SpecFacts Graph Api Denote DenoteFacts Reach ApiFacts LangInst Prog Algo AlgoSem AlgoConv AlgoConv2 AlgoFuse AlgoFuse2
  AlgoConvert AlgoConvert2 AlgoTop AlgoMore Kernel Sched Codegen Backends KernelRun Text TextPrint TextParse TextStmt TextRead TextTop TextBind Once.
Open Scope string_scope.
Open Scope nat_scope.
Open Scope list_scope.

(* ------------------------------------------------------------------ specification *)
(* how deep for loops are nested in a list of statements *)
Fixpoint for_nest (s : stmt) : nat :=
  match s with
  | SForC _ _ _ _ _ _ body | SForIn _ _ body => S (list_max (map for_nest body))
  | SIf _ t f => Nat.max (list_max (map for_nest t)) (list_max (map for_nest f))
  | SDecl _ _ _ | SAssign _ _ | SReturn => 0
  end.
Definition for_depth (ss : list stmt) : nat := list_max (map for_nest ss).
(* how deep blocks (bodies of loops and branches) are nested *)
Fixpoint block_nest (s : stmt) : nat :=
  match s with
  | SForC _ _ _ _ _ _ body | SForIn _ _ body => S (list_max (map block_nest body))
  | SIf _ t f => S (Nat.max (list_max (map block_nest t)) (list_max (map block_nest f)))
  | SDecl _ _ _ | SAssign _ _ | SReturn => 0
  end.
Definition block_depth (ss : list stmt) : nat := list_max (map block_nest ss).

(* CPython has two limits: "too many statically nested blocks" for more than [blocks] nested for loops (CO_MAXBLOCKS; 20 in
   most releases), "too many levels of indentation" for more than [indents] levels (MAXINDENT - 1; 99); the body of the function is one level.
   Both are SyntaxErrors of exec(code), compiler.py / backend_python.py PythonCompiler.compile.  The values differ
   between releases, so they are parameters *)
Definition python_accepts (blocks indents : nat) (p : source) : Prop := for_depth (s_body p) <= blocks /\ 1 + block_depth (s_body p) <= indents.

(* ------------------------------------------------------------------ on the intermediate code *)
Fixpoint cfor (c : code) : nat :=
  match c with
  | CNil | CRet => 0
  | CDecl _ _ _ k | CAssign _ _ k | CStore _ _ _ k | CGpu _ _ _ k => cfor k
  | CFor _ _ _ body k => Nat.max (S (cfor body)) (cfor k)
  | CIf _ t f k => Nat.max (Nat.max (cfor t) (cfor f)) (cfor k)
  end.
Fixpoint cblk (c : code) : nat :=
  match c with
  | CNil | CRet => 0
  | CDecl _ _ _ k | CAssign _ _ k | CStore _ _ _ k | CGpu _ _ _ k => cblk k
  | CFor _ _ _ body k => Nat.max (S (cblk body)) (cblk k)
  | CIf _ t f k => Nat.max (S (Nat.max (cblk t) (cblk f))) (cblk k)
  end.
Lemma lmax_cons x l : list_max (x :: l) = Nat.max x (list_max l).
Proof. reflexivity. Qed.
Lemma stmts_for b c : for_depth (stmts b c) = cfor c.
Proof.
  unfold for_depth. induction c; cbn [stmts map cfor]; rewrite ?lmax_cons; auto; try (rewrite IHc; unfold decl_tree; destruct (is_py b); reflexivity).
  - rewrite IHc2. f_equal. unfold for_tree. destruct (is_py b); cbn [for_nest]; now rewrite IHc1.
  - cbn [for_nest]. now rewrite IHc1, IHc2, IHc3.
Qed.
Lemma stmts_block b c : block_depth (stmts b c) = cblk c.
Proof.
  unfold block_depth. induction c; cbn [stmts map cblk]; rewrite ?lmax_cons; auto; try (rewrite IHc; unfold decl_tree; destruct (is_py b); reflexivity).
  - rewrite IHc2. f_equal. unfold for_tree. destruct (is_py b); cbn [block_nest]; now rewrite IHc1.
  - cbn [block_nest]. now rewrite IHc1, IHc2, IHc3.
Qed.
Lemma cfor_capp a b : noret a -> cfor (capp a b) = Nat.max (cfor a) (cfor b).
Proof. induction a; cbn [capp cfor noret]; intros H; auto; try (now rewrite IHa); try (now rewrite IHa by tauto); try contradiction.
  - rewrite IHa2 by tauto. lia.
  - rewrite IHa3 by tauto. lia.
Qed.
Lemma cblk_capp a b : noret a -> cblk (capp a b) = Nat.max (cblk a) (cblk b).
Proof. induction a; cbn [capp cblk noret]; intros H; auto; try (now rewrite IHa); try (now rewrite IHa by tauto); try contradiction.
  - rewrite IHa2 by tauto. lia.
  - rewrite IHa3 by tauto. lia.
Qed.

(* ------------------------------------------------------------------ of expressions *)
(* nested reduction loops, and nested blocks, of the code of an expression without loops or branches in its indices *)
Fixpoint edepth (e : expr) : nat :=
  match e with
  | EUn _ x => edepth x
  | EBin _ x y => Nat.max (edepth x) (edepth y)
  | EWhere c t f => Nat.max (edepth c) (S (Nat.max (edepth t) (edepth f)))
  | ESum x red => length red + edepth x
  | EIdx _ | EConst _ | EFunc _ _ | EBuf _ _ => 0
  end.
Lemma nest_for inner red : cfor (fold_right (fun l body => CFor (lname l) (l_ext l) XSeq body CNil) inner red) = length red + cfor inner.
Proof. induction red; cbn; auto. Qed.
Lemma nest_blk inner red : cblk (fold_right (fun l body => CFor (lname l) (l_ext l) XSeq body CNil) inner red) = length red + cblk inner.
Proof. induction red; cbn; auto. Qed.
Lemma ix_render g E args P e : is_ix P e -> forall dt k c v k1, render g E args e dt k = Done (c, v, k1) -> cfor c = 0 /\ cblk c = 0.
Proof.
  induction e using expr_ind'; cbn [is_ix]; intros HI dt k c v k1 HR; try contradiction; cbn [render] in HR.
  - injection HR as <- <- <-. auto.
  - injection HR as <- <- <-. auto.
  - apply obind_done in HR as ([[c1 v1] ka] & H1 & HR). apply obind_done in HR as ([[c2 v2] kb] & H2 & HR). injection HR as <- <- <-.
    destruct HI as [I1 I2]. destruct (IHe1 I1 _ _ _ _ _ H1), (IHe2 I2 _ _ _ _ _ H2).
    rewrite !cfor_capp, !cblk_capp by (eapply render_noret; eassumption). cbn. lia.
Qed.

Lemma many_ix_render g E args P l : Forall (is_ix P) l -> forall k c vs k1, many_r g E args l k = Done (c, vs, k1) -> cfor c = 0 /\ cblk c = 0.
Proof.
  induction 1 as [|x l Hx Hl IH]; intros k c vs k1 HR; cbn [many_r] in HR; [injection HR as <- <- <-; auto|].
  apply obind_done in HR as ([[cx vx] kx] & H1 & HR). apply obind_done in HR as ([[cl vl] kl] & H2 & HR). injection HR as <- <- <-.
  destruct (ix_render _ _ _ _ _ Hx _ _ _ _ _ H1), (IH _ _ _ _ H2). rewrite cfor_capp, cblk_capp by (eapply render_noret; eassumption). lia.
Qed.
(* an expression without reductions, as they are inside kernels *)
Lemma wfe_render g E args shp ic lim P e : wfe shp ic lim P e -> forall dt k c v k1, render g E args e dt k = Done (c, v, k1) -> cfor c = 0 /\ cblk c = edepth e.
Proof.
  induction e using expr_ind'; cbn [wfe]; intros HW dt k c v k1 HR; try contradiction; cbn [render edepth] in *.
  - injection HR as <- <- <-. auto.
  - apply obind_done in HR as ([[c1 v1] ka] & H1 & HR). apply obind_done in HR as ([[c2 v2] kb] & H2 & HR). injection HR as <- <- <-.
    destruct HW as [I1 I2]. destruct (IHe1 I1 _ _ _ _ _ H1), (IHe2 I2 _ _ _ _ _ H2).
    rewrite !cfor_capp, !cblk_capp by (eapply render_noret; eassumption). cbn. lia.
  - apply obind_done in HR as ([[c1 v1] ka] & H1 & HR). injection HR as <- <- <-. destruct (IHe HW _ _ _ _ _ H1).
    rewrite !cfor_capp, !cblk_capp by (eapply render_noret; eassumption). cbn. lia.
  - apply obind_done in HR as ([[c1 v1] ka] & H1 & HR). apply obind_done in HR as ([[c2 v2] kb] & H2 & HR). apply obind_done in HR as ([[c3 v3] kc] & H3 & HR). injection HR as <- <- <-.
    destruct HW as (I1 & I2 & I3). destruct (ix_render _ _ _ _ _ I1 _ _ _ _ _ H1), (IHe2 I2 _ _ _ _ _ H2), (IHe3 I3 _ _ _ _ _ H3).
    assert (Hz : edepth e1 = 0) by (clear -I1; induction e1; cbn in *; try contradiction; auto; destruct I1; rewrite IHe1_1, IHe1_2 by assumption; reflexivity).
    cbn [cfor cblk]. rewrite !cfor_capp, !cblk_capp by (eapply render_noret; eassumption). cbn [cfor cblk]. rewrite !cfor_capp, !cblk_capp by (eapply render_noret; eassumption). cbn [cfor cblk]. lia.
  - apply obind_done in HR as (nm & _ & HR). apply obind_done in HR as (fd & _ & HR).
    change (('(c0, vs, k2) <~ many_r g E args idx k;; Done (c0, KIdx nm (arr_idx_calc (f_shape fd) vs), k2)) = Done (c, v, k1)) in HR.
    apply obind_done in HR as ([[cl vl] kl] & H1 & HR). injection HR as <- <- <-. eapply many_ix_render; [|exact H1]. apply HW.
  - apply obind_done in HR as (nm & _ & HR). apply obind_done in HR as (fd & _ & HR).
    change (('(c0, vs, k2) <~ many_r g E args idx k;; Done (c0, KIdx nm (buf_idx_calc (n_offset fd) (n_strides fd) vs), k2)) = Done (c, v, k1)) in HR.
    apply obind_done in HR as ([[cl vl] kl] & H1 & HR). injection HR as <- <- <-. eapply many_ix_render; [|exact H1]. apply HW.
Qed.
Lemma wfe_nored shp ic lim P e : wfe shp ic lim P e -> reduced_vars e = [].
Proof.
  induction e using expr_ind'; cbn [wfe reduced_vars]; intros HW0; try contradiction; auto.
  - destruct HW0. now rewrite IHe1, IHe2.
  - destruct HW0 as (H1 & H2 & H3). rewrite IHe2, IHe3 by assumption. rewrite !app_nil_r. clear -H1. induction e1; cbn in *; try contradiction; auto. destruct H1. now rewrite IHe1_1, IHe1_2.
Qed.
Lemma wff_render g E args shp ic a loops e : wff shp ic a loops e -> forall dt k c v k1, render g E args e dt k = Done (c, v, k1) ->
  cfor c = length (reduced_vars e) /\ cblk c = edepth e.
Proof.
  intros HW dt k c v k1 HR.
  assert (HE : (exists x red, e = ESum x red) \/ wfe shp ic a (fun l => In l loops) e) by (destruct e; cbn [wff] in HW; eauto).
  destruct HE as [(x & red & ->)|HE].
  - cbn [wff] in HW. destruct HW as (HX & _). cbn [render reduced_vars edepth] in *.
    apply obind_done in HR as ([[c1 v1] ka] & H1 & HR). injection HR as <- <- <-. destruct (wfe_render _ _ _ _ _ _ _ _ HX _ _ _ _ _ H1) as [D1 D2].
    cbn [cfor cblk]. rewrite nest_for, nest_blk, cfor_capp, cblk_capp by (eapply render_noret; eassumption). cbn [cfor cblk]. lia.
  - rewrite (wfe_nored _ _ _ _ _ HE). eapply wfe_render; eauto.
Qed.

(* ------------------------------------------------------------------ of kernels *)
(* loops that are loops in the text: the spatial ones that are not bound to the grid *)
Definition is_grid (x : lexec) : bool := match x with XBlock _ | XThread _ => true | _ => false end.
Definition text_loops (s : schedule) : list loopsched := filter (fun l => is_spatial l && negb (is_grid (ls_exec l)))%bool (s_loops s).
Definition guarded (s : schedule) : nat := if existsb sp_guard (s_splits s) then 1 else 0.
Lemma loops_for loops inner : cfor (render_loops loops inner) = length (filter (fun l => is_spatial l && negb (is_grid (ls_exec l)))%bool loops) + cfor inner.
Proof. induction loops as [|l r IH]; cbn [render_loops filter]; auto. destruct (is_spatial l); cbn [andb]; auto. destruct (ls_exec l); cbn [is_grid negb cfor length]; rewrite IH; lia. Qed.
Lemma loops_blk loops inner : cblk (render_loops loops inner) = length (filter (fun l => is_spatial l && negb (is_grid (ls_exec l)))%bool loops) + cblk inner.
Proof. induction loops as [|l r IH]; cbn [render_loops filter]; auto. destruct (is_spatial l); cbn [andb]; auto. destruct (ls_exec l); cbn [is_grid negb cblk length]; rewrite IH; lia. Qed.
Lemma splits_zero sps : cfor (render_splits sps) = 0 /\ cblk (render_splits sps) = 0.
Proof. induction sps; cbn; auto. Qed.
Lemma guards_depth sps : cfor (render_guards sps) = 0 /\ cblk (render_guards sps) = if existsb sp_guard sps then 1 else 0.
Proof. induction sps as [|sp r [IH1 IH2]]; cbn [render_guards existsb]; auto. destruct (sp_guard sp); cbn [cfor cblk orb]; auto. rewrite IH1, IH2. split; [reflexivity|]. destruct (existsb sp_guard r); reflexivity. Qed.
Lemma codegen_depth g E f fd nd s k kern k1 : kctx g E f fd nd -> codegen g E (func_args (f_expr fd)) fd s k = Done (kern, k1) ->
  cfor (k_body kern) = length (text_loops s) + length (reduced_vars (f_expr fd)) /\
  cblk (k_body kern) = length (text_loops s) + Nat.max (guarded s) (edepth (f_expr fd)).
Proof.
  intros HK HC. unfold codegen in HC. apply obind_done in HC as (ps & _ & HC). apply obind_done in HC as ([[c v] kx] & HR & HC). injection HC as <- <-.
  destruct (wff_render _ _ _ _ _ _ _ _ (kc_wff _ _ _ _ _ HK) _ _ _ _ _ HR) as [D1 D2]. cbn [k_body]. rewrite loops_for, loops_blk.
  rewrite !cfor_capp, !cblk_capp by (first [apply splits_noret|apply guards_noret|eapply render_noret; exact HR]).
  destruct (splits_zero (s_splits s)) as [-> ->], (guards_depth (s_splits s)) as [-> ->]. cbn [cfor cblk]. unfold text_loops, guarded. lia.
Qed.

(* ------------------------------------------------------------------ how many reduction loops a sum has *)
Definition n_axes (ax : list Z) : nat := length (nodup Z.eq_dec ax).
Lemma count_axes ax r : Forall (fun x => (0 <= x < Z.of_nat r)%Z) ax -> length (filter (fun k => zmem k ax) (zseq 0 r)) = n_axes ax.
Proof.
  intros HF. unfold n_axes. apply Permutation.Permutation_length. apply Permutation.NoDup_Permutation.
  - apply NoDup_filter. unfold zseq. apply FinFun.Injective_map_NoDup; [intros x y; lia|apply seq_NoDup].
  - apply NoDup_nodup.
  - intros x. rewrite filter_In, nodup_In, zseq_in, zmem_In. rewrite Forall_forall in HF. split; [tauto|]. intros H. split; auto.
Qed.
Section Red.
Context (g : graph) (Hw : wf_graph g).
Definition sums_ok (E : fenv) : Prop := forall f fd nd ax kd, E f = Some fd -> nth_error g f = Some nd -> n_op nd = OSum ax kd ->
  exists x red, f_expr fd = ESum x red /\ length red = n_axes ax.
Lemma conv_sums a nd e : nth_error g a = Some nd -> conv_expr g a nd = Done e -> forall ax kd, n_op nd = OSum ax kd -> exists x red, e = ESum x red /\ length red = n_axes ax.
Proof using Hw.
  intros Hn HC ax kd Hop. pose proof (Hw a nd Hn) as HW. unfold wf_node in HW. unfold conv_expr in HC. rewrite Hop in HC, HW.
  destruct HW as (i & x & Hi & _ & Hx & _ & HA). cbn [arg_ok] in HA. destruct HA as [_ HA]. rewrite Hi in HC. cbn [throw_none obind] in HC. unfold get in HC. rewrite Hx in HC. cbn [obind] in HC.
  unfold conv_sum in HC. destruct (reduced_dict_ok a ax (n_shape x) HA) as (d & Hd & HK & _). rewrite Hd in HC. cbn [obind] in HC.
  apply obind_done in HC as (idx & _ & HC). injection HC as <-. eexists _, _. split; [reflexivity|]. rewrite map_length, <- (map_length fst d), HK. now apply count_axes.
Qed.
Lemma fset_ok E a fd : sums_ok E -> (forall nd ax kd, nth_error g a = Some nd -> n_op nd = OSum ax kd -> exists x red, f_expr fd = ESum x red /\ length red = n_axes ax) -> sums_ok (fset E a fd).
Proof. intros HE HF f fd' nd ax kd. unfold fset. destruct (Nat.eqb_spec f a) as [->|Hne]; [|apply HE]. intros H. injection H as <-. apply HF. Qed.
Lemma fold_sums (f : nat -> fenv -> outcome fenv) l : (forall x E E', sums_ok E -> f x E = Done E' -> sums_ok E') -> forall E E', sums_ok E -> fold_out f l E = Done E' -> sums_ok E'.
Proof.
  intros Hf. induction l as [|x l IH]; cbn [fold_out]; intros E E' HE H; [injection H as <-; exact HE|].
  apply obind_done in H as (E1 & H1 & H2). eapply IH; [|exact H2]. eauto.
Qed.
Lemma arr_sums k : forall a E E', sums_ok E -> arr_to_func k g a E = Done E' -> sums_ok E'.
Proof using Hw.
  induction k as [|k IH]; intros a E E' HE H; cbn [arr_to_func] in H; [discriminate|]. destruct (E a); [injection H as <-; exact HE|].
  apply obind_done in H as (nd & Hn & H). apply obind_done in H as (E1 & H1 & H). apply obind_done in H as (e & He & H). injection H as <-.
  unfold get in Hn. destruct (nth_error g a) as [nd'|] eqn:En; [|discriminate]. injection Hn as ->.
  apply fset_ok.
  - eapply (fold_sums (fun i => arr_to_func k g i)); [|exact HE|exact H1]. intros x F F'. apply IH.
  - intros nd1 ax kd E2 Hop. assert (nd1 = nd) by congruence. subst. cbn [f_expr]. eapply conv_sums; eauto.
Qed.
Lemma fuse_sums rc : forall k e E e' E', sums_ok E -> try_fuse k rc e E = Done (e', E') -> sums_ok E' /\ forall x red, e = ESum x red -> exists x', e' = ESum x' red.
Proof.
  induction k as [|k IHk]; induction e using expr_ind'; intros E e' E' HE H'; cbn [try_fuse] in H'.
  all: try discriminate.
  all: try (injection H' as <- <-; split; [exact HE|intros; discriminate]).
  all: try match goal with
    | H : context [EBin] |- _ => apply obind_done in H as ([x1 Ea] & H1 & H); apply obind_done in H as ([x2 Eb] & H2 & H); injection H as <- <-;
        split; [|intros; discriminate]; eapply IHe2; [|exact H2]; eapply IHe1; [exact HE|exact H1]
    | H : context [EUn] |- _ => apply obind_done in H as ([x1 Ea] & H1 & H); injection H as <- <-; split; [|intros; discriminate]; eapply IHe; [exact HE|exact H1]
    | H : context [EWhere] |- _ => apply obind_done in H as ([x1 Ea] & H1 & H); apply obind_done in H as ([x2 Eb] & H2 & H); apply obind_done in H as ([x3 Ec] & H3 & H); injection H as <- <-;
        split; [|intros; discriminate]; eapply IHe3; [|exact H3]; eapply IHe2; [|exact H2]; eapply IHe1; [exact HE|exact H1]
    | H : context [ESum] |- _ => apply obind_done in H as ([x1 Ea] & H1 & H); injection H as <- <-; split; [eapply IHe; [exact HE|exact H1]|intros ? ? Hq; injection Hq as <- <-; eauto]
    end.
  apply obind_done in H' as (fd & Hfd & H'). destruct (E f) as [fd'|] eqn:Ef; [|discriminate]. injection Hfd as ->.
  destruct (Nat.eqb (rc f) 0); [discriminate|]. destruct (negb (fusable rc f (f_expr fd))).
  - apply obind_done in H' as ([e1 Ea] & H1 & H'). injection H' as <- <-. destruct (IHk _ _ _ _ HE H1) as [HA HS]. split; [|intros; discriminate].
    apply fset_ok; [exact HA|]. intros nd ax kd Hn Hop. destruct (HE f fd nd ax kd Ef Hn Hop) as (x & red & Hx & Hl). destruct (HS x red Hx) as (x' & ->). cbn. eauto.
  - apply obind_done in H' as (fe & _ & H'). destruct (IHk _ _ _ _ HE H') as [HA _]. split; [exact HA|intros; discriminate].
Qed.
Lemma convert_sums a E fs : convert g a = Done (E, fs) -> sums_ok E.
Proof using Hw.
  unfold convert. intros H. apply obind_done in H as (E0 & H0 & H). apply obind_done in H as (fd & H1 & H). apply obind_done in H as (rc & _ & H).
  apply obind_done in H as ([e E1] & H2 & H). apply obind_done in H as ([sn fs'] & _ & H). injection H as <- <-.
  assert (HE0 : sums_ok E0) by (eapply arr_sums; [|exact H0]; intros f fd' nd ax kd Hx; discriminate).
  destruct (fuse_sums _ _ _ _ _ _ HE0 H2) as [HE1 HS]. apply fset_ok; [exact HE1|]. intros nd ax kd Hn Hop.
  destruct (E0 a) as [fd'|] eqn:Ea; [|discriminate]. injection H1 as ->. destruct (HE0 a fd nd ax kd Ea Hn Hop) as (x & red & Hx & Hl). destruct (HS x red Hx) as (x' & ->). cbn. eauto.
Qed.
End Red.

(* ------------------------------------------------------------------ branches come from pad() and dilate() *)
Definition branches (e : expr) : nat := count_occ vop_eq_dec (vops e) VWhere.
Lemma ix_branches P e : is_ix P e -> edepth e = 0.
Proof. induction e; cbn [is_ix edepth]; try contradiction; auto. intros [H1 H2]. now rewrite IHe1, IHe2. Qed.
Lemma wfe_branches shp ic lim P e : wfe shp ic lim P e -> edepth e <= branches e.
Proof.
  unfold branches. induction e using expr_ind'; cbn [wfe edepth vops]; intros HW; try contradiction; try lia.
  - destruct HW as [H1 H2]. cbn [count_occ]. destruct (vop_eq_dec (VBin b) VWhere); [discriminate|]. rewrite count_occ_app. specialize (IHe1 H1). specialize (IHe2 H2). lia.
  - cbn [count_occ]. destruct (vop_eq_dec (VUn u) VWhere); [discriminate|]. auto.
  - destruct HW as (H1 & H2 & H3). rewrite (ix_branches _ _ H1). specialize (IHe2 H2). specialize (IHe3 H3).
    cbn [count_occ]. destruct (vop_eq_dec VWhere VWhere); [|congruence]. rewrite ?count_occ_app. lia.
Qed.
Lemma wff_branches shp ic a loops e : wff shp ic a loops e -> edepth e <= length (reduced_vars e) + branches e.
Proof.
  intros HW. assert (HE : (exists x red, e = ESum x red) \/ wfe shp ic a (fun l => In l loops) e) by (destruct e; cbn [wff] in HW; eauto).
  destruct HE as [(x & red & ->)|HE]; [|pose proof (wfe_branches _ _ _ _ _ HE); lia].
  cbn [wff] in HW. destruct HW as (HX & _). pose proof (wfe_branches _ _ _ _ _ HX) as H. unfold branches in *. cbn [edepth reduced_vars vops count_occ]. destruct (vop_eq_dec VSum VWhere); [discriminate|]. lia.
Qed.
