(* Property C60: the nesting limits of Python's own compiler. *)
From Coq Require Import Permutation String Ascii.
From Verif Require Import Base BaseFacts Util UtilFacts Lang Spec SpecFacts Graph Api Denote DenoteFacts Reach ApiFacts LangInst Prog Algo AlgoSem AlgoConv AlgoConv2 AlgoFuse AlgoFuse2
  AlgoConvert AlgoConvert2 AlgoTop AlgoMore Kernel Sched Codegen Backends KernelRun SchedUser SchedUser2 SchedUser3 SchedReach SchedFacts PropAlgo PropSched
  Text TextPrint TextParse TextLex TextName TextExpr TextStmt TextRead TextMono TextTop TextBind Once PropOnce PropText Limits.
Open Scope string_scope.
Open Scope nat_scope.
Open Scope list_scope.

(* the number of different axes that an array sums over *)
Definition axes_of (o : nop) : nat := match o with OSum ax _ => length (nodup Z.eq_dec ax) | _ => 0 end.
Definition makes_branch (g : graph) (n : nat) : bool :=
  match nth_error g n with Some nd => match n_op nd with OPad _ _ _ | ODilate _ _ => true | _ => false end | None => false end.

Lemma kernel_ctx g a E fs f fd : reach g -> valid g a -> convert g a = Done (E, fs) -> In f fs -> E f = Some fd ->
  exists nd, nth_error g f = Some nd /\ kctx g E f fd nd /\ length (reduced_vars (f_expr fd)) = axes_of (n_op nd).
Proof.
  intros Hr Hv HC Hf Hfd. pose proof (converted_ns _ _ _ _ Hr Hv HC) as Hns. pose proof (reach_wf g Hr) as Hw.
  pose proof (convert_inv (py_lang no_libm) g a E fs (py_lang_ok _) Hr Hv Hns HC) as HS.
  destruct (convert_kctx (py_lang no_libm) g a E fs f HS Hf) as (fd' & nd & Hfd' & HK). assert (fd' = fd) by congruence. subst fd'.
  pose proof (kc_nd _ _ _ _ _ HK) as Hn. exists nd. split; [exact Hn|]. split; [exact HK|].
  assert (HO : (exists ax kd, n_op nd = OSum ax kd) \/ axes_of (n_op nd) = 0) by (destruct (n_op nd); cbn; eauto).
  destruct HO as [(ax & kd & Hop)|HO].
  - destruct (convert_sums g Hw a E fs HC f fd nd ax kd Hfd Hn Hop) as (x & red & Hx & Hl). rewrite Hx, Hop. exact Hl.
  - rewrite HO. destruct (kc_entry _ _ _ _ _ HK) as (nd' & Hn' & _ & HW & HR & _). assert (nd' = nd) by congruence. subst nd'.
    assert (HE : (exists x red, f_expr fd = ESum x red) \/ wfe (shape_of g) (isc g) f (fun l => In l (out_loops f (n_shape nd))) (f_expr fd)) by (destruct (f_expr fd); cbn [wff] in HW; eauto).
    destruct HE as [(x & red & He)|HE].
    + destruct HR as [HR _]. rewrite He in HR. destruct (HR eq_refl) as (ax & kd & Hop). rewrite Hop in HO. cbn in HO.
      destruct (convert_sums g Hw a E fs HC f fd nd ax kd Hfd Hn Hop) as (x1 & red1 & Hx & Hl). rewrite Hx. cbn [reduced_vars]. unfold n_axes in Hl. lia.
    + now rewrite (wfe_nored _ _ _ _ _ HE).
Qed.
Lemma kernel_branches g a E fs l f fd : reach g -> valid g a -> convert g a = Done (E, fs) -> NoDup l -> (forall n, In n l <-> cone g a n) -> In f fs -> E f = Some fd ->
  branches (f_expr fd) <= length (filter (makes_branch g) l).
Proof.
  intros Hr Hv HC Hl Hc Hf Hfd. pose proof (C53_once g a E fs l Hr Hv HC Hl Hc) as HP.
  apply (Permutation_count_occ vop_eq_dec) with (x := VWhere) in HP.
  transitivity (count_occ vop_eq_dec (flat_map (fun f => match E f with Some fd => vops (f_expr fd) | None => [] end) fs) VWhere).
  - clear -Hf Hfd. induction fs as [|x fs IH]; [contradiction|]. cbn [flat_map]. rewrite count_occ_app. destruct Hf as [->|Hf]; [rewrite Hfd; unfold branches; lia|specialize (IH Hf); lia].
  - rewrite HP. clear. induction l as [|n l IH]; cbn [flat_map filter]; [auto|]. rewrite count_occ_app. unfold makes_branch at 1. destruct (nth_error g n) as [nd|]; cbn [count_occ]; [|exact IH].
    destruct (n_op nd); cbn [op_vops count_occ length]; repeat match goal with |- context [vop_eq_dec ?x ?y] => destruct (vop_eq_dec x y); try discriminate end; cbn [length]; lia.
Qed.

(* Every kernel of every array, for any backend and any schedule made by splitting spatial loops, reordering loops of one kind and
   annotating: the text has one nested for loop for each spatial loop of the schedule that is not bound to the GPU's grid, and one for each
   axis that the array sums over.  Blocks are nested deeper only by a tail guard or the branches of pad() and dilate(). *)
Theorem C60_any_schedule : forall b g a E fs f fd nd s k key text k1 p,
  reach g -> valid g a -> convert g a = Done (E, fs) -> In f fs -> E f = Some fd -> nth_error g f = Some nd -> kreach (sched_init fd) s -> all_chars hex_digit key = true ->
  t_codegen b g E (kernel_name key) (func_args (f_expr fd)) fd s k = Done (text, k1) -> reads b text p ->
  for_depth (s_body p) = length (text_loops s) + axes_of (n_op nd) /\
  for_depth (s_body p) <= block_depth (s_body p) /\
  forall l, NoDup l -> (forall n, In n l <-> cone g a n) -> block_depth (s_body p) <= for_depth (s_body p) + Nat.max (guarded s) (length (filter (makes_branch g) l)).
Proof.
  intros b g a E fs f fd nd s k key text k1 p Hr Hv HC Hf Hfd Hn HS Hh HT HP.
  destruct (kernel_ctx _ _ _ _ _ _ Hr Hv HC Hf Hfd) as (nd' & Hn' & HK & HL). assert (nd' = nd) by congruence. subst nd'.
  destruct (C40_text_means_program _ _ _ _ _ _ _ _ _ _ Hh HT) as (kern & HG & _ & HU). rewrite (HU _ HP). cbn [source_of s_body].
  destruct (codegen_depth _ _ _ _ _ _ _ _ _ HK HG) as [D1 D2]. rewrite stmts_for, stmts_block, D1, D2, HL.
  pose proof (wff_branches _ _ _ _ _ (kc_wff _ _ _ _ _ HK)) as HB. rewrite HL in HB.
  split; [reflexivity|]. split.
  - rewrite <- HL, <- D1, <- D2. clear. induction (k_body kern); cbn [cfor cblk]; lia.
  - intros l Hl Hc. pose proof (kernel_branches _ _ _ _ _ _ _ Hr Hv HC Hl Hc Hf Hfd). lia.
Qed.
Print Assumptions C60_any_schedule.

(* The Python kernels that materialize() compiles: as many nested for loops as the array has axes, plus one per summed axis; so Python compiles
   the kernels of an array when no array it depends on needs more than its limit on blocks, and enough levels of indentation are left for the
   pad() and dilate() calls that were made. *)
Lemma auto_plain f s : auto_schedule false f = Done s -> s_splits s = [] /\ length (text_loops s) = length (f_loops f).
Proof.
  intros H. unfold auto_schedule in H. destruct (schedule_cpu_ok f) as (s' & Es & HM & HS & HF). assert (s' = s) by congruence. subst s'. split; [exact HS|].
  unfold text_loops. transitivity (length (filter (fun p => match snd p with Spatial => true | Reduce => false end) (map lvk (s_loops s)))).
  - clear HM HS Es. induction HF as [|l ls Hl _ IH]; cbn [filter map]; auto. unfold is_spatial at 1. unfold lvk at 1. cbn [snd].
    destruct (ls_kind l); cbn [andb]; [|exact IH]. assert (Hg : is_grid (ls_exec l) = false) by (destruct (ls_exec l); cbn in *; auto; contradiction). rewrite Hg. cbn [negb length]. now rewrite IH.
  - rewrite HM. unfold init_lvk. rewrite filter_app, app_length.
    replace (filter _ (map (fun l => (mkLV (lname l) (l_ext l), Reduce)) (reduced_vars (f_expr f)))) with (@nil (loopvar * lkind)) by (induction (reduced_vars (f_expr f)); cbn; auto).
    clear HM HS HF Es. induction (f_loops f); cbn in *; auto.
Qed.
Theorem C60_python_exact : forall g a E fs f fd nd k key s kern k1 text k2 p,
  reach g -> valid g a -> convert g a = Done (E, fs) -> In f fs -> E f = Some fd -> nth_error g f = Some nd -> all_chars hex_digit key = true ->
  gen Python g E fd k = Done (s, kern, k1) -> t_codegen Python g E (kernel_name key) (func_args (f_expr fd)) fd s k = Done (text, k2) -> reads Python text p ->
  for_depth (s_body p) = length (n_shape nd) + axes_of (n_op nd) /\
  forall l, NoDup l -> (forall n, In n l <-> cone g a n) -> block_depth (s_body p) <= for_depth (s_body p) + length (filter (makes_branch g) l).
Proof.
  intros g a E fs f fd nd k key s kern k1 text k2 p Hr Hv HC Hf Hfd Hn Hh HG HT HP.
  unfold gen in HG. apply obind_done in HG as (s' & HS & HG). assert (s' = s) by (destruct (forallb _ _); [|discriminate]; apply obind_done in HG as ([? ?] & _ & HG); now injection HG as -> _ _). subst s'. clear HG.
  destruct (auto_plain _ _ HS) as [HP1 HP2]. destruct (kernel_ctx _ _ _ _ _ _ Hr Hv HC Hf Hfd) as (nd' & Hn' & HK & HL). assert (nd' = nd) by congruence. subst nd'.
  destruct (C60_any_schedule Python g a E fs f fd nd s k key text k2 p Hr Hv HC Hf Hfd Hn (auto_kreach _ _ _ HS) Hh HT HP) as (H1 & _ & H3).
  assert (Hl : length (f_loops fd) = length (n_shape nd)) by (rewrite (kc_fd _ _ _ _ _ HK); cbn [f_loops]; apply out_loops_length).
  split; [rewrite H1, HP2, Hl; reflexivity|]. intros l N C. specialize (H3 l N C). unfold guarded in H3. rewrite HP1 in H3. cbn in H3. exact H3.
Qed.
Print Assumptions C60_python_exact.
Theorem C60_python_compiles : forall blocks indents g a E fs l, reach g -> valid g a -> convert g a = Done (E, fs) -> NoDup l -> (forall n, In n l <-> cone g a n) ->
  (forall n nd, In n l -> nth_error g n = Some nd -> length (n_shape nd) + axes_of (n_op nd) <= blocks) -> 1 + blocks + length (filter (makes_branch g) l) <= indents ->
  forall f fd k key s kern k1 text k2 p, In f fs -> E f = Some fd -> all_chars hex_digit key = true -> gen Python g E fd k = Done (s, kern, k1) ->
  t_codegen Python g E (kernel_name key) (func_args (f_expr fd)) fd s k = Done (text, k2) -> reads Python text p -> python_accepts blocks indents p.
Proof.
  intros blocks indents g a E fs l Hr Hv HC Hl Hc HD HB f fd k key s kern k1 text k2 p Hf Hfd Hh HG HT HP.
  destruct (kernel_ctx _ _ _ _ _ _ Hr Hv HC Hf Hfd) as (nd & Hn & HK & HL).
  destruct (C60_python_exact g a E fs f fd nd k key s kern k1 text k2 p Hr Hv HC Hf Hfd Hn Hh HG HT HP) as [H1 H2]. specialize (H2 l Hl Hc).
  assert (Hin : In f l).
  { apply Hc. pose proof (convert_inv (py_lang no_libm) g a E fs (py_lang_ok _) Hr Hv (converted_ns _ _ _ _ Hr Hv HC) HC) as HS. now apply (cs_cone _ _ _ _ _ HS). }
  specialize (HD f nd Hin Hn). unfold python_accepts. lia.
Qed.
Print Assumptions C60_python_compiles.
(* Nothing keeps the user below the limit.  When the array's rank and the number of axes it sums over exceed the limit together, the array
   has a kernel, the kernel's text is generated, and Python rejects it. *)
Theorem C60_python_rejects : forall blocks indents g a E fs nd, reach g -> valid g a -> convert g a = Done (E, fs) -> nth_error g a = Some nd ->
  blocks < length (n_shape nd) + axes_of (n_op nd) ->
  exists fd, In a fs /\ E a = Some fd /\ forall k key, all_chars hex_digit key = true -> exists s kern k1 text p, gen Python g E fd k = Done (s, kern, k1) /\
    t_codegen Python g E (kernel_name key) (func_args (f_expr fd)) fd s k = Done (text, k1) /\ reads Python text p /\ ~ python_accepts blocks indents p.
Proof.
  intros blocks indents g a E fs nd Hr Hv HC Hn HD. pose proof (convert_inv (py_lang no_libm) g a E fs (py_lang_ok _) Hr Hv (converted_ns _ _ _ _ Hr Hv HC) HC) as HS.
  assert (Ha : In a fs) by (destruct (cs_last _ _ _ _ _ HS) as (l & ->); apply in_or_app; right; now left).
  destruct (C04_compiles_iff Python g a Hr Hv) as [(_ & E' & fs' & HC' & HG0)|[_ HC']]; [|congruence].
  assert (HEE : E' = E /\ fs' = fs) by (rewrite HC' in HC; now injection HC). destruct HEE as [-> ->]. destruct (HG0 a Ha) as (fd & Hfd & HG). exists fd. split; [exact Ha|]. split; [exact Hfd|].
  intros k key Hh. destruct (HG k) as (s & kern & k1 & HG1). destruct (C40_text_exists _ _ _ _ _ _ _ _ key Hr Hv HC Ha Hfd _ _ _ HG1) as (text & HT).
  destruct (C40_text_means_program _ _ _ _ _ _ _ _ _ _ Hh HT) as (kern2 & _ & HP & _).
  exists s, kern, k1, text, (source_of Python (kernel_name key) kern2). split; [exact HG1|]. split; [exact HT|]. split; [exact HP|].
  intros [H1 _]. destruct (C60_python_exact g a E fs a fd nd k key s kern k1 text k1 _ Hr Hv HC Ha Hfd Hn Hh HG1 HT HP) as [H2 _]. lia.
Qed.
Print Assumptions C60_python_rejects.

(* Whatever the limit, -x for an array x of a rank above it, and the sum of all the axes (keepdims=True) of an array of a rank above half of it:
   accepted by every API call, and the text of the kernel is not Python (finding 22; with a limit of 20: ranks 21 and 11). *)
Definition rejected (blocks indents : nat) (g : graph) (a : nat) : Prop :=
  exists E fs fd, reach g /\ valid g a /\ convert g a = Done (E, fs) /\ In a fs /\ E a = Some fd /\
    forall k key, all_chars hex_digit key = true -> exists s kern k1 text p, gen Python g E fd k = Done (s, kern, k1) /\
      t_codegen Python g E (kernel_name key) (func_args (f_expr fd)) fd s k = Done (text, k1) /\ reads Python text p /\ ~ python_accepts blocks indents p.
Lemma deep_rejected blocks indents g a nd : reach g -> valid g a -> no_scalar_reshape g a -> nth_error g a = Some nd -> blocks < length (n_shape nd) + axes_of (n_op nd) -> rejected blocks indents g a.
Proof.
  intros Hr Hv Hns Hn HD. destruct (compilation_total Python g a Hr Hv Hns) as (E & fs & HC & _).
  destruct (C60_python_rejects blocks indents g a E fs nd Hr Hv HC Hn HD) as (fd & H1 & H2 & H3). exists E, fs, fd. repeat (split; [assumption|]). exact H3.
Qed.
Lemma enum_len {A} (l : list A) : forall k, length (enum k l) = length l.
Proof. induction l; intros k; cbn; auto. Qed.
Lemma two_nodes_ns g : length g = 2 -> (forall n nd, nth_error g n = Some nd -> n_op nd <> OReshape []) -> forall a, no_scalar_reshape g a.
Proof. intros _ H a n nd _ Hn. eauto. Qed.
Theorem C60_rank_refuted : forall blocks indents r, blocks < r ->
  exists g1 g, run_call [] (CFull (repeat 1%Z r) (NInt 1)) = Done (g1, 0) /\ run_call g1 (CUnary UNeg 0) = Done (g, 1) /\ rejected blocks indents g 1.
Proof.
  intros blocks indents r Hr. eexists _, _. split; [reflexivity|]. split; [reflexivity|].
  match goal with |- rejected _ _ ?g _ => assert (HR : reach g) end.
  { eapply reach_call with (c := CUnary UNeg 0); [eapply reach_call with (c := CFull (repeat 1%Z r) (NInt 1)); [constructor|apply Forall_forall; intros x Hx; apply repeat_spec in Hx; lia|reflexivity]|unfold call_ok, valid; cbn; lia|reflexivity]. }
  eapply deep_rejected; [exact HR|unfold valid; cbn; lia| |reflexivity|].
  - apply two_nodes_ns; [reflexivity|]. intros [|[|n]] nd Hn; cbn in Hn; [injection Hn as <-; discriminate..|destruct n; discriminate].
  - cbn [fwd_elemwise new_node n_shape n_op axes_of const_node]. rewrite repeat_length. lia.
Qed.
Print Assumptions C60_rank_refuted.
Theorem C60_keepdims_refuted : forall blocks indents r, blocks < 2 * r ->
  exists g1 g, run_call [] (CFull (repeat 1%Z r) (NInt 1)) = Done (g1, 0) /\ run_call g1 (CSum 0 None true) = Done (g, 1) /\ rejected blocks indents g 1.
Proof.
  intros blocks indents r Hr. destruct r as [|r0]; [lia|]. set (r := S r0) in *. assert (Hr1 : 1 <= r) by (subst r; lia). clearbody r.
  set (c0 := const_node (repeat 1%Z r) (repeat (NInt 1) (Z.to_nat (zprod (repeat 1%Z r))))).
  assert (Hg1 : run_call [] (CFull (repeat 1%Z r) (NInt 1)) = Done ([c0], 0)) by reflexivity.
  assert (Hz : zrange (Z.of_nat r) <> []) by (intros E; apply (f_equal (@length Z)) in E; rewrite zrange_length in E; cbn in E; lia).
  assert (Hnorm : norm_axis (Z.of_nat r) None = Done (zrange (Z.of_nat r))).
  { unfold norm_axis. destruct (zrange (Z.of_nat r)) as [|x l] eqn:Ez; [congruence|]. rewrite <- Ez. replace (Z.of_nat r =? 0)%Z with false by (symmetry; apply Z.eqb_neq; lia).
    f_equal. rewrite <- (map_id (zrange (Z.of_nat r))) at 2. apply map_ext_in. intros k Hk. apply in_zrange in Hk. apply Z.mod_small. lia. }
  assert (H2 : run_call [c0] (CSum 0 None true) = Done ([c0; fwd_reduce (zrange (Z.of_nat r)) true [0] c0], 1)).
  { cbn [run_call]. unfold api_sum, get. cbn [nth_error throw_none obind]. change (n_shape c0) with (repeat 1%Z r). rewrite repeat_length, Hnorm. reflexivity. }
  eexists _, _. split; [exact Hg1|]. split; [exact H2|].
  match goal with |- rejected _ _ ?g _ => assert (HR : reach g) end.
  { eapply reach_call with (c := CSum 0 None true); [eapply reach_call with (c := CFull (repeat 1%Z r) (NInt 1)); [constructor|apply Forall_forall; intros x Hx; apply repeat_spec in Hx; lia|exact Hg1]|unfold call_ok, valid; cbn; lia|exact H2]. }
  eapply deep_rejected; [exact HR|unfold valid; cbn; lia| |reflexivity|].
  - apply two_nodes_ns; [reflexivity|]. intros [|[|n]] nd Hn; cbn in Hn; [injection Hn as <-; discriminate..|destruct n; discriminate].
  - change (n_shape (fwd_reduce (zrange (Z.of_nat r)) true [0] c0)) with (reduce_shape (zrange (Z.of_nat r)) true (repeat 1%Z r)).
    change (n_op (fwd_reduce (zrange (Z.of_nat r)) true [0] c0)) with (OSum (zrange (Z.of_nat r)) true). cbn [axes_of].
    rewrite nodup_fixed_point by apply NoDup_zrange. rewrite zrange_length. unfold reduce_shape. rewrite map_length, enum_len, repeat_length. lia.
Qed.

(* the hypotheses of C60_python_compiles are met: y = pad(x + x).sum(axis 1), x of shape (2, 3), has a text, and it is accepted; one loop
   for each axis of the result and one for the summed axis *)
Definition is_done {A} (o : outcome A) : bool := match o with Done _ => true | Throw _ => false end.
Definition shallow : list call := [CArange 6; CReshape 0 [2; 3]%Z; CBinary BAdd 1 1; CPad 2 0 1 2; CSum 3 (Some [1]%Z) false].
Definition shG : graph := match run_prog [] shallow with Some g => g | None => [] end.
Example C60_nonvacuous : exists E fs l fd s kern k1 text p, reach shG /\ valid shG 4 /\ convert shG 4 = Done (E, fs) /\ NoDup l /\ (forall n, In n l <-> cone shG 4 n) /\
  (forall n nd, In n l -> nth_error shG n = Some nd -> length (n_shape nd) + axes_of (n_op nd) <= 20) /\ 1 + 20 + length (filter (makes_branch shG) l) <= 99 /\
  In 4 fs /\ E 4 = Some fd /\ gen Python shG E fd 0 = Done (s, kern, k1) /\ all_chars hex_digit "00ff" = true /\
  t_codegen Python shG E (kernel_name "00ff") (func_args (f_expr fd)) fd s 0 = Done (text, k1) /\ reads Python text p /\ python_accepts 20 99 p /\ for_depth (s_body p) = 2.
Proof.
  assert (Hr : reach shG) by (eapply (run_prog_reach shallow []); [constructor|]; unfold shG; destruct (run_prog [] shallow) eqn:Ee; [reflexivity|]; vm_compute in Ee; discriminate).
  assert (Hv : valid shG 4) by (unfold valid; vm_compute; lia).
  destruct (convert shG 4) as [[E fs]|] eqn:HC; [|exfalso; assert (Ht : is_done (convert shG 4) = true) by (vm_compute; reflexivity); rewrite HC in Ht; discriminate].
  destruct (cone_enum shG 4 E fs Hr Hv HC) as (l & Hl & Hc).
  assert (Hle : forall n, In n l -> n < length shG) by (intros n Hn; apply Hc in Hn; exact (cone_valid shG (reach_wf shG Hr) 4 n Hv Hn)).
  assert (HD : forall n nd, In n l -> nth_error shG n = Some nd -> length (n_shape nd) + axes_of (n_op nd) <= 20).
  { intros n nd _ Hn. assert (HA : forallb (fun nd => Nat.leb (length (n_shape nd) + axes_of (n_op nd)) 20) shG = true) by (vm_compute; reflexivity).
    rewrite forallb_forall in HA. apply Nat.leb_le. apply HA. eapply nth_error_In; eauto. }
  assert (HB : 1 + 20 + length (filter (makes_branch shG) l) <= 99).
  { assert (length l <= length shG) by (rewrite <- (seq_length (length shG) 0); apply NoDup_incl_length; [exact Hl|]; intros n Hn; apply in_seq; specialize (Hle n Hn); lia).
    assert (Hf : length (filter (makes_branch shG) l) <= length l) by (clear; induction l as [|x l IH]; cbn; [lia|]; destruct (makes_branch shG x); cbn; lia).
    assert (length shG = 5) by (vm_compute; reflexivity). lia. }
  destruct (C04_compiles_iff Python shG 4 Hr Hv) as [(_ & E' & fs' & HC' & HG0)|[_ HC']]; [|congruence].
  assert (HEE : E' = E /\ fs' = fs) by (rewrite HC' in HC; now injection HC). destruct HEE as [-> ->].
  pose proof (convert_inv (py_lang no_libm) shG 4 E fs (py_lang_ok _) Hr Hv (converted_ns _ _ _ _ Hr Hv HC) HC) as HS.
  assert (Ha : In 4 fs) by (destruct (cs_last _ _ _ _ _ HS) as (l' & ->); apply in_or_app; right; now left).
  destruct (HG0 4 Ha) as (fd & Hfd & HG). destruct (HG 0) as (s & kern & k1 & HG1).
  destruct (C40_text_exists _ _ _ _ _ _ _ _ "00ff" Hr Hv HC Ha Hfd _ _ _ HG1) as (text & HT).
  assert (Hh : all_chars hex_digit "00ff" = true) by (vm_compute; reflexivity).
  destruct (C40_text_means_program _ _ _ _ _ _ _ _ _ _ Hh HT) as (kern2 & _ & HP & _).
  exists E, fs, l, fd, s, kern, k1, text, (source_of Python (kernel_name "00ff") kern2).
  repeat (split; [assumption || reflexivity|]). split.
  - eapply (C60_python_compiles 20 99 shG 4 E fs l); eauto.
  - destruct (nth_error shG 4) as [nd|] eqn:Hn; [|vm_compute in Hn; discriminate].
    destruct (C60_python_exact shG 4 E fs 4 fd nd 0 "00ff" s kern k1 text k1 _ Hr Hv HC Ha Hfd Hn Hh HG1 HT HP) as [-> _].
    assert (HX : match nth_error shG 4 with Some nd => length (n_shape nd) + axes_of (n_op nd) | None => 0 end = 2) by (vm_compute; reflexivity). now rewrite Hn in HX.
Qed.
