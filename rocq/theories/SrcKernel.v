(* The text of a kernel, executed by the rules of its language, does what the kernel does. *)
From Coq Require Import String Ascii.
From Verif Require Import Base BaseFacts Util UtilFacts Lang Spec Graph Api Denote Reach FrontSpec FrontFacts4 Algo AlgoSem AlgoConv AlgoConvert AlgoConvert2 AlgoMore AlgoTop Kernel Sched Codegen Backends LangInst RenderFacts KernelRun
  SchedFacts SchedUser SchedUser2 SchedUser3 SchedReach Text TextPrint TextParse TextName TextExpr TextStmt TextMono TextTop TextBind PropText SrcSem SrcFacts SrcSim.
Open Scope string_scope.
Open Scope Z_scope.
Open Scope list_scope.

(* ------------------------------------------------------------------ integer literals of a source *)
(* every integer literal is below 2^31 *)
Fixpoint small (e : sx) : bool :=
  match e with
  | SVar _ | SReal _ => true
  | SInt z => z <? 2 ^ 31
  | SBin _ x y => small x && small y
  | SNeg x => small x
  | SCall f l => small f && forallb small l
  | SIndex a i => small a && small i
  | SAttr a _ => small a
  end.
Fixpoint small_stmt (s : stmt) : bool :=
  match s with
  | SDecl _ _ e => small e
  | SAssign l e => small l && small e
  | SForC _ _ lo c _ st body => small lo && small c && small st && forallb small_stmt body
  | SForIn _ it body => small it && forallb small_stmt body
  | SIf c t f => small c && forallb small_stmt t && forallb small_stmt f
  | SReturn => true
  end.
Definition small_source (p : source) : bool := forallb small_stmt (s_body p).

Section Lits.
Context (b : backend).
Fixpoint lits (c : code) : Prop :=
  match c with
  | CNil | CRet => True
  | CDecl _ _ e k | CAssign _ e k => xok b e /\ lits k
  | CStore _ i e k => xok b i /\ xok b e /\ lits k
  | CFor _ ext _ body k => litok b ext /\ lits body /\ lits k
  | CIf c t f k => xok b c /\ lits t /\ lits f /\ lits k
  | CGpu _ _ _ k => lits k
  end.
Lemma py_xok e : is_py b = true -> xok b e.
Proof. intros H. induction e; cbn; auto. now left. Qed.
Lemma py_lits c : is_py b = true -> lits c.
Proof. intros H. induction c; cbn; repeat split; auto using py_xok. now left. Qed.
Lemma small_int z : small (int_tree z) = true -> litok b z.
Proof. unfold int_tree. intros H. right. destruct (z <? 0) eqn:E; cbn [small] in H; lia. Qed.
Lemma small_xok e : small (tree b e) = true -> xok b e.
Proof.
  induction e as [n|z| |o x IHx y IHy|u x IHx|a i IHi]; intros H; cbn [xok]; auto.
  - now apply small_int.
  - destruct o; cbn [tree small forallb] in H; repeat (apply andb_prop in H as [? H]); auto.
  - destruct u; cbn [tree small] in H; auto; apply andb_prop in H as [_ H]; cbn [forallb] in H; rewrite andb_true_r in H; auto.
Qed.
Lemma small_lits c : is_py b = false -> forallb small_stmt (stmts b c) = true -> lits c.
Proof.
  intros Hb. induction c; cbn [stmts forallb lits]; unfold decl_tree, for_tree; rewrite ?Hb; cbn [small_stmt small]; intros H; auto;
    repeat match goal with H : _ && _ = true |- _ => apply andb_prop in H as [? ?] end; repeat split; auto using small_xok, small_int.
Qed.
End Lits.

(* ------------------------------------------------------------------ the shape of generated code *)
Section Form.
Context (pty : name -> dtype) (hasgp : bool).
Fixpoint cform (c : code) : Prop :=
  match c with
  | CNil | CRet => True
  | CDecl dt n e k => okdt dt /\ cform k
  | CAssign n e k => ~ isloop n /\ cform k
  | CStore a i e k => okdt (pty a) /\ cform k
  | CFor n ext _ body k => isloop n /\ cform body /\ cform k
  | CIf c t f k => cform t /\ cform f /\ cform k
  | CGpu n _ _ k => hasgp = true /\ cform k
  end.
Lemma cform_cok b c : cform c -> lits b c -> cok b pty hasgp c.
Proof. induction c; cbn; intuition. Qed.
Lemma cform_capp a c : cform a -> cform c -> cform (capp a c).
Proof. induction a; cbn; intuition. Qed.
Lemma lits_capp b a c : noret a -> lits b (capp a c) <-> lits b a /\ lits b c.
Proof. induction a; cbn; intros; try tauto; try (rewrite IHa by tauto; tauto); try (rewrite IHa2 by tauto; tauto); rewrite IHa3 by tauto; tauto. Qed.
Context (g : graph) (E : fenv) (args : list arg).
Lemma render_form e : forall dt k c v k1, okdt dt -> render g E args e dt k = Done (c, v, k1) -> cform c.
Proof.
  assert (HM : forall l, Forall (fun e => forall dt k c v k1, okdt dt -> render g E args e dt k = Done (c, v, k1) -> cform c) l ->
    forall k c vs k1, many_r g E args l k = Done (c, vs, k1) -> cform c).
  { induction l as [|x l IH]; intros HF k c vs k1 HR; cbn [many_r] in HR; [injection HR as <- <- <-; exact I|].
    destruct (render g E args x Int64 k) as [[[cx vx] kx]|] eqn:Ex; [|discriminate]. cbn [obind] in HR.
    destruct (many_r g E args l kx) as [[[cl vl] kl]|] eqn:El; [|discriminate]. cbn [obind] in HR. injection HR as <- <- <-.
    inversion HF; subst. apply cform_capp; eauto. eapply H1; eauto. now left. }
  assert (H64 : okdt Int64) by now left.
  induction e using expr_ind'; intros dt k c v k1 Hd HR; cbn [render] in HR.
  - injection HR as <- <- <-. exact I.
  - injection HR as <- <- <-. exact I.
  - destruct (render g E args e1 dt k) as [[[c1 v1] ka]|] eqn:E1; [|discriminate]. cbn [obind] in HR.
    destruct (render g E args e2 dt ka) as [[[c2 v2] kb]|] eqn:E2; [|discriminate]. cbn [obind] in HR. injection HR as <- <- <-.
    apply cform_capp; eauto. apply cform_capp; eauto. cbn. auto.
  - destruct (render g E args e dt k) as [[[c1 v1] ka]|] eqn:E1; [|discriminate]. cbn [obind] in HR. injection HR as <- <- <-. apply cform_capp; eauto. cbn. auto.
  - destruct (render g E args e1 Int64 (S k)) as [[[c1 v1] ka]|] eqn:E1; [|discriminate]. cbn [obind] in HR.
    destruct (render g E args e2 dt ka) as [[[c2 v2] kb]|] eqn:E2; [|discriminate]. cbn [obind] in HR.
    destruct (render g E args e3 dt kb) as [[[c3 v3] kc]|] eqn:E3; [|discriminate]. cbn [obind] in HR. injection HR as <- <- <-.
    cbn [cform]. split; auto. apply cform_capp; eauto. cbn [cform]. repeat split; auto; apply cform_capp; eauto; cbn; auto.
  - destruct (render g E args e dt k) as [[[c1 v1] ka]|] eqn:E1; [|discriminate]. cbn [obind] in HR. injection HR as <- <- <-. cbn [cform]. split; auto.
    assert (HB : cform (capp c1 (CAssign NAcc (KBin BAdd (KName NAcc) v1) CNil))) by (apply cform_capp; eauto; cbn; auto).
    revert HB. generalize (capp c1 (CAssign NAcc (KBin BAdd (KName NAcc) v1) CNil)). intros q Hq. induction red as [|l r IHr]; cbn; auto.
  - destruct (arg_name args (AFnc f)); [|discriminate]. cbn [obind] in HR. destruct (throw_none InternalErr (E f)); [|discriminate]. cbn [obind] in HR.
    change (('(c0, vs, k2) <~ many_r g E args idx k;; Done (c0, KIdx a (arr_idx_calc (f_shape a0) vs), k2)) = Done (c, v, k1)) in HR.
    destruct (many_r g E args idx k) as [[[cl vl] kl]|] eqn:El; [|discriminate]. cbn [obind] in HR. injection HR as <- <- <-. eapply HM; eauto.
  - destruct (arg_name args (ABuf n)); [|discriminate]. cbn [obind] in HR. destruct (get g n); [|discriminate]. cbn [obind] in HR.
    change (('(c0, vs, k2) <~ many_r g E args idx k;; Done (c0, KIdx a (buf_idx_calc (n_offset a0) (n_strides a0) vs), k2)) = Done (c, v, k1)) in HR.
    destruct (many_r g E args idx k) as [[[cl vl] kl]|] eqn:El; [|discriminate]. cbn [obind] in HR. injection HR as <- <- <-. eapply HM; eauto.
Qed.
Lemma splits_form sps : cform (render_splits sps).
Proof. induction sps; cbn; auto. split; auto. now left. Qed.
Lemma guards_form sps : cform (render_guards sps).
Proof. induction sps as [|sp sps IH]; cbn; auto. destruct (sp_guard sp); cbn; auto. Qed.
Lemma loops_form loops inner : Forall (fun l => is_spatial l = true -> isloop (lv_name (ls_lv l))) loops ->
  (hasgp = false -> Forall (fun l => is_spatial l = true -> forall ax, ls_exec l <> XBlock ax /\ ls_exec l <> XThread ax) loops) -> cform inner -> cform (render_loops loops inner).
Proof.
  induction loops as [|l loops IH]; intros H1 H2 Hi; cbn [render_loops]; auto. inversion H1; subst.
  assert (HI : cform (render_loops loops inner)) by (apply IH; auto; intros Hg; specialize (H2 Hg); inversion H2; auto).
  destruct (is_spatial l) eqn:Es; auto. assert (HG : hasgp = false -> forall ax, ls_exec l <> XBlock ax /\ ls_exec l <> XThread ax) by (intros Hg; specialize (H2 Hg); inversion H2; auto).
  destruct (ls_exec l) eqn:Ex; cbn; auto; destruct hasgp; auto; destruct (HG eq_refl ax); congruence.
Qed.
End Form.

(* ------------------------------------------------------------------ whole kernels *)
(* the language of a backend's source *)
Definition src_lang (b : backend) (lm : libm) : slang := match b with Python => py_sl lm | _ => c_sl lm end.
(* the coordinates a CUDA thread sees *)
Definition cuda_coord (gp : bool -> axis -> Z) (q f : string) : option Z :=
  let v bl := if String.eqb f "x" then Some (gp bl AX) else if String.eqb f "y" then Some (gp bl AY) else if String.eqb f "z" then Some (gp bl AZ) else None in
  if String.eqb q "blockIdx" then v true else if String.eqb q "threadIdx" then v false else None.
Definition coord_of (b : backend) (gp : bool -> axis -> Z) : string -> string -> option Z := match b with CUDA => cuda_coord gp | _ => no_coord end.
Lemma cuda_coord_ok gp bl ax : cuda_coord gp (if bl : bool then "blockIdx" else "threadIdx") (axis_name ax) = Some (gp bl ax).
Proof. destruct bl, ax; reflexivity. Qed.
Lemma bind_params_in ps ls n : bind_params ps ls n <> None -> In n (map fst ps).
Proof. revert ls. induction ps as [|[x dt] ps IH]; intros [|l ls]; cbn; try congruence. destruct (name_eqb x n) eqn:E; [apply name_eqb_eq in E; auto|]. intros H. right. eapply IH; eauto. Qed.

Lemma kernel_form g a E fd s k kern k1 hasgp : kernel_schedule g a E fd s -> codegen g E (func_args (f_expr fd)) fd s k = Done (kern, k1) ->
  (hasgp = false -> Forall (fun l => is_spatial l = true -> forall ax, ls_exec l <> XBlock ax /\ ls_exec l <> XThread ax) (s_loops s)) -> cform (pty_of (k_params kern)) hasgp (k_body kern).
Proof.
  intros HS HC HG. destruct (kernel_schedule_ctx _ _ _ _ _ HS) as (f & nd & HK & HR).
  assert (Hd : okdt (f_dtype fd)).
  { rewrite (kc_fd g E f fd nd HK). cbn. destruct HS as (_ & _ & Hr & _). pose proof (kc_nd _ _ _ _ _ HK) as Hnd.
    assert (Hv : valid g f) by (apply nth_error_Some; congruence). destruct (reach_dtype g Hr f Hv) as [H|H]; unfold dtype_of in H; rewrite Hnd in H; injection H as ->; [now left|now right]. }
  pose proof (kreach_binv _ _ HR (init_binv _ _ _ _ _ HK)) as [_ I2 _ _ _].
  unfold codegen in HC. destruct (arg_params g E (func_args (f_expr fd)) 0) as [ps|] eqn:Ep; [|discriminate]. cbn [obind] in HC.
  destruct (render g E (func_args (f_expr fd)) (f_expr fd) (f_dtype fd) k) as [[[c v] kx]|] eqn:Er; [|discriminate]. cbn [obind] in HC. injection HC as <- <-. cbn [k_params k_body].
  apply loops_form; auto.
  - eapply Forall_impl; [|exact I2]. cbn. intros l Hl Hs. specialize (Hl Hs). destruct (lv_name (ls_lv l)); try contradiction. exact I.
  - apply cform_capp; [apply splits_form|]. apply cform_capp; [apply guards_form|]. apply cform_capp; [eapply render_form; eauto|]. cbn. auto.
Qed.

(* a run of the kernel is a run of its text *)
Theorem text_calls b lm g a E fd s k key text k1 kern p gp ls (m m' : mem (src_lang b lm)) x :
  kernel_schedule g a E fd s -> all_chars hex_digit key = true ->
  t_codegen b g E (kernel_name key) (func_args (f_expr fd)) fd s k = Done (text, k1) -> reads b text p -> is_py b = true \/ small_source p = true ->
  codegen g E (func_args (f_expr fd)) fd s k = Done (kern, k1) -> length ls = length (k_params kern) ->
  run (bind_params (k_params kern) ls) (Kernel.exec (src_lang b lm) (negb (is_py b)) gp (pty_of (k_params kern)) (k_body kern) [[]]) m = (m', OkO x) ->
  calls (src_lang b lm) (coord_of b gp) p ls m m'.
Proof.
  intros HS Hk HT HP Hsm HC Hlen HRun. destruct (C40_text_means_program b g E _ fd s k key text k1 Hk HT) as (kern' & HC' & _ & HU).
  rewrite HC in HC'. injection HC' as <-. specialize (HU p HP). subst p. clear HP.
  assert (HD := C39_no_name_clash _ _ _ _ _ _ _ _ HS HC). apply NoDup_map_inv in HD.
  destruct x as [fl r']. unfold calls. cbn [source_of s_params s_body]. rewrite map_length. split; auto.
  set (ps := k_params kern) in *. set (c := k_body kern) in *.
  assert (HL : lits b c).
  { destruct (is_py b) eqn:Eb; [now apply py_lits|]. destruct Hsm as [|Hsm]; [discriminate|]. apply small_lits; auto. }
  assert (HB : forall n, In n (binders c) -> bind_params ps ls n = None).
  { intros n Hn. destruct (bind_params ps ls n) eqn:En; auto. exfalso. assert (Hi : In n (map fst ps)) by (eapply bind_params_in; rewrite En; discriminate).
    clear - HD Hn Hi. induction (map fst ps) as [|y l IH]; [destruct Hi|]. inversion HD; subst. destruct Hi as [->|Hi]; [apply H1; apply in_or_app; auto|auto]. }
  assert (HN : NoDup (binders c)) by (clear - HD; induction (map fst ps) as [|y l IH]; [exact HD|inversion HD; auto]).
  assert (HH : handled b (s_loops s) = true).
  { destruct (handled b (s_loops s)) eqn:EH; auto. rewrite (t_codegen_no _ _ _ _ _ _ _ _ EH) in HT. destruct (arg_params g E (func_args (f_expr fd)) 0); discriminate HT. }
  assert (HF : cform (pty_of ps) (is_gpu b) c).
  { apply (kernel_form g a E fd s k kern k1); auto. intros Hg. unfold handled in HH. rewrite forallb_forall in HH. apply Forall_forall. intros l Hl Hs ax.
    assert (Hx : In l (filter is_spatial (s_loops s))) by (apply filter_In; auto). specialize (HH l Hx). destruct b; try discriminate; cbn in HH; destruct (ls_exec l); split; congruence. }
  pose proof (cform_cok _ _ b c HF HL) as HCk.
  assert (HV : forall (Sx : slang), visible Sx ps ls [[]]) by (intros Sx n Hn; reflexivity).
  assert (HCx : forall lm', nctx (c_sl lm') ps ls (binders c) [[]]).
  { intros lm'. split; [exact HN|]. split; [|apply HV]. intros n Hn. split; [reflexivity|auto]. }
  destruct b; cbn [is_py negb src_lang coord_of is_gpu] in *.
  - destruct (py_sim Python eq_refl (py_sl lm) (py_sl_ok lm) (py_sl_py_ok lm) ps ls no_coord gp c [[]] [[]] m m' fl r') as (s' & Hx & _); auto.
    + exists [], []. split; [reflexivity|]. split; [reflexivity|]. split; [reflexivity|]. intros y Hy. now destruct Hy.
    + eauto.
  - destruct (c_sim Clang eq_refl (c_sl lm) (c_sl_ok Clang lm eq_refl) (c_sl_c_ok lm) ps ls no_coord gp false ltac:(discriminate) c [None] [[]] [[]] m m' fl r') as (s' & Hx & _); auto.
    + apply (cr_plain _ []); [constructor|constructor].
    + eauto.
  - destruct (c_sim CUDA eq_refl (c_sl lm) (c_sl_ok CUDA lm eq_refl) (c_sl_c_ok lm) ps ls (cuda_coord gp) gp true (fun _ => cuda_coord_ok gp) c [None] [[]] [[]] m m' fl r') as (s' & Hx & _); auto.
    + apply (cr_plain _ []); [constructor|constructor].
    + eauto.
Qed.
