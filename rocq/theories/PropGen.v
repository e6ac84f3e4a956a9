(* Property C46: one code generator object serves all codegen() calls of a backend. *)
From Coq Require Import String Ascii.
From Verif Require Import Base BaseFacts Util Lang Spec Graph Api Reach Prog Algo AlgoSem Kernel Sched Codegen Backends PropAlgo PropSched
  Text TextPrint TextParse TextLex TextName TextExpr TextStmt TextRead TextMono TextTop Generator PropText.
Open Scope string_scope.
Open Scope Z_scope.
Open Scope list_scope.

(* ------------------------------------------------------------------ indentation and the two languages *)
Lemma lex_bol n m : forall s, lex false (LBol n) s = lex false (LBol m) s.
Proof.
  intros s. revert n m. induction s as [|c r IH]; intros n m; [reflexivity|]. cbn [lex step]. destruct (is_space c); [now rewrite (IH (S n) (S m))|].
  destruct (is_nl c); [reflexivity|]. destruct (is_hash c); [reflexivity|]. reflexivity.
Qed.
Lemma lex_space py n s : lex py (LBol n) (String " " s) = lex py (LBol (S n)) s.
Proof. cbn [lex step]. change (is_space " ") with true. cbv iota. apply omap_nil. Qed.
Lemma lex_indent py k : forall n s, lex py (LBol n) (times k indent_str +++ s) = lex py (LBol (n + 4 * k)) s.
Proof.
  induction k as [|k IH]; intros n s; [cbn; now rewrite Nat.add_0_r|]. cbn [times]. rewrite sapp_assoc. unfold indent_str at 1. cbn [String.append].
  rewrite !lex_space, IH. f_equal. f_equal. lia.
Qed.
Lemma step_nl py s : match step py s (ascii_of_nat 10) with Some (_, s') => s' = LBol 0 | None => True end.
Proof.
  destruct s; cbn; auto; unfold restart; cbn.
  - unfold restart. cbn. destruct (number acc); exact I || reflexivity.
  - match goal with |- match (if ?x then _ else _) with _ => _ end => destruct x eqn:Ex end; auto. exfalso. revert Ex. unfold two, two_ops. cbn. 
    destruct c as [[|] [|] [|] [|] [|] [|] [|] [|]]; vm_compute; discriminate.
Qed.
Lemma lex_line r r' : lex false (LBol 0) r = lex false (LBol 0) r' -> forall x s, lex false s (x +++ nl +++ r) = lex false s (x +++ nl +++ r').
Proof.
  intros H x. induction x as [|c x IH]; intros s.
  - cbn [String.append nl lex]. pose proof (step_nl false s) as HN. destruct (step false s (ascii_of_nat 10)) as [[ts s']|]; auto. subst s'. now rewrite H.
  - cbn [String.append lex]. destruct (step false s c) as [[ts s']|]; auto. now rewrite (IH s').
Qed.
Lemma lex_shift d : forall lns, lex false (LBol 0) (join nl (map (shift d) lns)) = lex false (LBol 0) (join nl lns).
Proof.
  assert (HS : forall s, lex false (LBol 0) (times d indent_str +++ s) = lex false (LBol 0) s) by (intros s; rewrite lex_indent; apply lex_bol).
  induction lns as [|x [|y r] IH]; [reflexivity|apply HS|].
  change (join nl (map (shift d) (x :: y :: r))) with (shift d x +++ nl +++ join nl (map (shift d) (y :: r))). unfold shift at 1. rewrite sapp_assoc, HS.
  change (join nl (x :: y :: r)) with (x +++ nl +++ join nl (y :: r)). apply lex_line. exact IH.
Qed.
(* C does not see the indentation *)
Lemma c_shift b d t t' p : is_py b = false -> shifted d t t' -> reads b t' p <-> reads b t p.
Proof.
  intros Hb (lns & _ & -> & ->). unfold reads. rewrite Hb. unfold c_reads. now setoid_rewrite lex_shift.
Qed.
(* Python refuses a text whose first line is indented *)
Lemma py_indented c r n p : (0 < n)%nat -> is_space c = false -> is_nl c = false -> is_hash c = false -> forall k ts, lex true (LBol n) (String c r) = Some ts -> py_source k ts <> Some p.
Proof.
  intros Hn H1 H2 H3 k ts HL. cbn [lex step] in HL. rewrite H1, H2, H3 in HL. destruct (start c) as [[us s']|]; [|discriminate]. destruct (lex true s' r) as [vs|]; [|discriminate].
  injection HL as <-. cbn [app]. unfold py_source. destruct n as [|n]; [lia|]. destruct k; cbn; discriminate.
Qed.
Lemma shifted_unreadable d t t' r : (0 < d)%nat -> t = String "i" r -> shifted d t t' -> forall p, ~ reads Python t' p.
Proof.
  intros Hd Ht (lns & Hne & E1 & E2) p (k & ts & HL & HS). destruct lns as [|x l]; [congruence|]. subst t'.
  assert (HX : exists q, join nl (map (shift d) (x :: l)) = times d indent_str +++ String "i" q).
  { destruct x as [|c x].
    - exfalso. rewrite Ht in E1. destruct l; cbn in E1; discriminate.
    - assert (Hc : c = "i"%char) by (rewrite Ht in E1; destruct l; cbn in E1; congruence). subst c.
      destruct l as [|y l]; [exists x; reflexivity|]. change (join nl (map (shift d) (String "i" x :: y :: l))) with (shift d (String "i" x) +++ nl +++ join nl (map (shift d) (y :: l))).
      unfold shift at 1. rewrite sapp_assoc. cbn [String.append]. eauto. }
  destruct HX as (q & HX). rewrite HX, lex_indent in HL. revert HS. apply (py_indented "i" q (0 + 4 * d)%nat p ltac:(lia) eq_refl eq_refl eq_refl k ts HL).
Qed.

(* ------------------------------------------------------------------ whether a request succeeds does not depend on the temporary counter *)
Definition fails {A} (x : outcome A) : option exn := match x with Done _ => None | Throw e => Some e end.
Lemma fails_bind {A B} (x y : outcome A) (f h : A -> outcome B) : fails x = fails y -> (forall a c, x = Done a -> y = Done c -> fails (f a) = fails (h c)) -> fails (x1 <~ x ;; f x1) = fails (y1 <~ y ;; h y1).
Proof. destruct x, y; cbn; intros H1 H2; try discriminate; auto. Qed.
Lemma render_fails g E args e : forall dt k k', fails (render g E args e dt k) = fails (render g E args e dt k').
Proof.
  induction e using expr_ind'; intros dt k k'; cbn [render]; auto.
  - apply fails_bind; auto. intros [[? ?] ?] [[? ?] ?] _ _. apply fails_bind; auto. intros [[? ?] ?] [[? ?] ?] _ _. reflexivity.
  - apply fails_bind; auto. intros [[? ?] ?] [[? ?] ?] _ _. reflexivity.
  - apply fails_bind; auto. intros [[? ?] ?] [[? ?] ?] _ _. apply fails_bind; auto. intros [[? ?] ?] [[? ?] ?] _ _. apply fails_bind; auto. intros [[? ?] ?] [[? ?] ?] _ _. reflexivity.
  - apply fails_bind; auto. intros [[? ?] ?] [[? ?] ?] _ _. reflexivity.
  - apply fails_bind; auto. intros nm nm' _ _. apply fails_bind; auto. intros fd fd' _ _. apply fails_bind; [|intros [[? ?] ?] [[? ?] ?] _ _; reflexivity].
    clear - H. revert k k'. induction H as [|x l Hx _ IH]; intros k k'; auto. apply fails_bind; auto. intros [[? ?] ?] [[? ?] ?] _ _. apply fails_bind; auto. intros [[? ?] ?] [[? ?] ?] _ _. reflexivity.
  - apply fails_bind; auto. intros nm nm' _ _. apply fails_bind; auto. intros fd fd' _ _. apply fails_bind; [|intros [[? ?] ?] [[? ?] ?] _ _; reflexivity].
    clear - H. revert k k'. induction H as [|x l Hx _ IH]; intros k k'; auto. apply fails_bind; auto. intros [[? ?] ?] [[? ?] ?] _ _. apply fails_bind; auto. intros [[? ?] ?] [[? ?] ?] _ _. reflexivity.
Qed.
Lemma t_codegen_fails b g E kname inputs f sc k k' : fails (t_codegen b g E kname inputs f sc k) = fails (t_codegen b g E kname inputs f sc k').
Proof.
  destruct (handled b (s_loops sc)) eqn:HH.
  - rewrite !t_codegen_eq by exact HH. unfold codegen. destruct (arg_params g E inputs 0); cbn [obind]; auto. pose proof (render_fails g E inputs (f_expr f) (f_dtype f) k k') as HF.
    destruct (render g E inputs (f_expr f) (f_dtype f) k) as [[[? ?] ?]|], (render g E inputs (f_expr f) (f_dtype f) k') as [[[? ?] ?]|]; cbn in *; congruence.
  - now rewrite !t_codegen_no by exact HH.
Qed.

(* ------------------------------------------------------------------ C46 *)
(* kernels are named kern_<hash> (materialize.py:57, 109) *)
Definition named (q : request) : Prop := exists key, all_chars hex_digit key = true /\ q_name q = kernel_name key.
(* the right answer to a request: the exception a fresh generator would raise, or a text which is read, in one
   way only, as the program of the kernel (for some starting number of the temporaries) *)
Definition right_answer (b : backend) (q : request) (x : outcome string) : Prop :=
  match x with
  | Throw e => snd (answer b q new_generator) = Throw e
  | Done text => (exists t0, snd (answer b q new_generator) = Done t0) /\
      exists k kern k1, codegen (q_graph q) (q_env q) (q_inputs q) (q_func q) (q_sched q) k = Done (kern, k1) /\ forall p, reads b text p <-> p = source_of b (q_name q) kern
  end.
(* one call, at any point of the life of the object *)
Lemma answer_step b q d o : ob_ind o = Z.of_nat d -> named q ->
  exists o' x, answer b q o = (o', x) /\ (exists d', ob_ind o' = Z.of_nat d' /\ (d <= d')%nat) /\ fails x = fails (snd (answer b q new_generator)) /\
    match x with
    | Done text => ob_ind o' = ob_ind o /\ exists k kern k1 t0, codegen (q_graph q) (q_env q) (q_inputs q) (q_func q) (q_sched q) k = Done (kern, k1) /\
        (forall p, reads b t0 p <-> p = source_of b (q_name q) kern) /\ shifted d t0 text /\ t0 = kernel_text b (q_name q) kern
    | Throw e => (exists ps, arg_params (q_graph q) (q_env q) (q_inputs q) 0 = Done ps) -> ob_ind o < ob_ind o'
    end.
Proof.
  intros Hd (key & Hk & Hn). destruct q as [g E kn inp f sc]. cbn [q_graph q_env q_name q_inputs q_func q_sched] in *. subst kn. unfold answer. cbn [q_graph q_env q_name q_inputs q_func q_sched].
  pose proof (codegen_sim b g E (kernel_name key) inp f sc d o Hd) as HC. pose proof (codegen_sim b g E (kernel_name key) inp f sc 0 new_generator eq_refl) as H0.
  pose proof (t_codegen_fails b g E (kernel_name key) inp f sc (ob_tmp o) (ob_tmp new_generator)) as HF.
  destruct (t_codegen b g E (kernel_name key) inp f sc (ob_tmp o)) as [[t k1]|e] eqn:ET.
  - destruct HC as (o' & t' & HC & HS & HI & _). exists o', (Done t'). split; [exact HC|]. split; [exists d; split; [congruence|lia]|].
    destruct (t_codegen b g E (kernel_name key) inp f sc (ob_tmp new_generator)) as [[t2 k2]|e2]; [|discriminate]. destruct H0 as (o2 & t2' & -> & _). split; [reflexivity|]. split; [exact HI|].
    destruct (C40_text_means_program _ _ _ _ _ _ _ _ _ _ Hk ET) as (kern & HK & HR & HU). exists (ob_tmp o), kern, k1, t. split; [exact HK|].
    split; [intros p; split; [apply HU|intros ->; exact HR]|]. split; [exact HS|]. destruct (handled b (s_loops sc)) eqn:HH.
    + rewrite t_codegen_eq in ET by exact HH. rewrite HK in ET. cbn [obind] in ET. congruence.
    + rewrite t_codegen_no in ET by exact HH. destruct (arg_params g E inp 0); discriminate.
  - destruct HC as (o' & HC & HI & HS). exists o', (Throw e). split; [exact HC|]. split; [exists (Z.to_nat (ob_ind o')); lia|].
    destruct (t_codegen b g E (kernel_name key) inp f sc (ob_tmp new_generator)) as [[t2 k2]|e2]; [discriminate|]. destruct H0 as (o2 & -> & _). split; [cbn in *; congruence|].
    intros (ps & Hps). apply HS. rewrite (params_types g E inp 0), Hps. cbn [obind]. eauto.
Qed.
Lemma fails_right b q x : fails x = fails (snd (answer b q new_generator)) ->
  match x with Done text => exists k kern k1, codegen (q_graph q) (q_env q) (q_inputs q) (q_func q) (q_sched q) k = Done (kern, k1) /\ forall p, reads b text p <-> p = source_of b (q_name q) kern | _ => True end ->
  right_answer b q x.
Proof.
  intros HF H. unfold right_answer. generalize dependent (snd (answer b q new_generator)). intros [t2|e2] HF; destruct x as [t|e]; cbn in HF; try discriminate.
  - split; [eauto|exact H].
  - congruence.
Qed.
(* C46.  Clang and CUDA: whatever the calls before it - accepted or rejected - every codegen() call of a session
   gives the right answer. *)
Theorem C46_c_generator_reusable : forall b qs o xs, b <> Python -> Forall named qs -> session b qs new_generator = (o, xs) -> Forall2 (right_answer b) qs xs.
Proof.
  intros b qs o xs Hb HN. assert (HG : forall d o0, ob_ind o0 = Z.of_nat d -> session b qs o0 = (o, xs) -> Forall2 (right_answer b) qs xs); [|apply (HG 0%nat); reflexivity].
  revert o xs. induction HN as [|q qs Hq HN IH]; intros o xs d o0 Hd HS; cbn [session] in HS; [injection HS as <- <-; constructor|].
  destruct (answer_step b q d o0 Hd Hq) as (o1 & x & HA & (d' & Hd' & _) & HF & HX). rewrite HA in HS. destruct (session b qs o1) as [o2 ys] eqn:ES. injection HS as <- <-.
  constructor; [|eapply IH; eauto]. apply fails_right; [exact HF|]. destruct x as [t|e]; [|exact I]. destruct HX as (_ & k & kern & k1 & t0 & HK & HR & HS & _).
  exists k, kern, k1. split; [exact HK|]. intros p. rewrite (c_shift b d t0 t p ltac:(destruct b; [congruence|reflexivity|reflexivity]) HS). apply HR.
Qed.
Print Assumptions C46_c_generator_reusable.
(* Python.  PARTIAL: as long as no call has raised. *)
Theorem C46_python_generator_reusable_partial : forall qs o xs, Forall named qs -> session Python qs new_generator = (o, xs) ->
  forall i, (forall j e, (j < i)%nat -> nth_error xs j <> Some (Throw e)) -> forall q x, nth_error qs i = Some q -> nth_error xs i = Some x -> right_answer Python q x.
Proof.
  intros qs o xs HN. assert (HG : forall o0, ob_ind o0 = 0 -> session Python qs o0 = (o, xs) ->
    forall i, (forall j e, (j < i)%nat -> nth_error xs j <> Some (Throw e)) -> forall q x, nth_error qs i = Some q -> nth_error xs i = Some x -> right_answer Python q x); [|apply HG; reflexivity].
  revert o xs. induction HN as [|q qs Hq HN IH]; intros o xs o0 Hd HS i Hi q' x' E1 E2; [destruct i; discriminate|]. cbn [session] in HS.
  destruct (answer_step Python q 0 o0 Hd Hq) as (o1 & x & HA & _ & HF & HX). rewrite HA in HS. destruct (session Python qs o1) as [o2 ys] eqn:ES. injection HS as <- <-.
  destruct i as [|i].
  - injection E1 as <-. injection E2 as <-. apply fails_right; [exact HF|]. destruct x as [t|e]; [|exact I]. destruct HX as (_ & k & kern & k1 & t0 & HK & HR & HS & _).
    exists k, kern, k1. split; [exact HK|]. rewrite (shifted_0 _ _ HS). exact HR.
  - cbn [nth_error] in E1, E2. eapply (IH o2 ys o1); [|exact ES| |exact E1|exact E2].
    + destruct x as [t|e]; [destruct HX as [-> _]; exact Hd|]. exfalso. apply (Hi 0%nat e); [lia|reflexivity].
    + intros j e Hj. apply (Hi (S j) e). lia.
Qed.
Print Assumptions C46_python_generator_reusable_partial.
(* What is missing is false: after a call rejected for an annotation Python lacks, no text the generator returns
   is a Python program any more (codegen.py:44 resets the buffer, not the indentation; Python: "unexpected indent"). *)
Theorem C46_python_generator_reusable_refuted : forall qs q rs o xs l ps, Forall named qs -> named q -> Forall named rs ->
  In l (s_loops (q_sched q)) -> ls_kind l = Spatial -> ~ supported Python (ls_exec l) -> arg_params (q_graph q) (q_env q) (q_inputs q) 0 = Done ps ->
  session Python (qs ++ q :: rs) new_generator = (o, xs) ->
  nth_error xs (length qs) = Some (Throw RuntimeErr) /\
  forall i text, (length qs < i)%nat -> nth_error xs i = Some (Done text) -> forall p, ~ reads Python text p.
Proof.
  intros qs q rs o xs l ps HQ Hq HR Hl Hk Hs Hps HS.
  assert (H0 : exists d, ob_ind new_generator = Z.of_nat d) by (exists 0%nat; reflexivity). revert H0 HS. generalize new_generator as o0. revert xs.
  induction HQ as [|q0 qs Hq0 HQ IH]; intros xs o0 (d & Hd) HS; cbn [app session length] in *.
  - destruct (answer_step Python q d o0 Hd Hq) as (o1 & x & HA & (d' & Hd' & _) & _ & HX). rewrite HA in HS. destruct (session Python rs o1) as [o2 ys] eqn:ES. injection HS as <- <-.
    assert (Hx : x = Throw RuntimeErr).
    { pose proof (codegen_sim Python (q_graph q) (q_env q) (q_name q) (q_inputs q) (q_func q) (q_sched q) d o0 Hd) as HC.
      rewrite t_codegen_no, Hps in HC; [cbn [obind] in HC|].
      - destruct HC as (o' & HC & _). unfold answer in HA. congruence.
      - unfold handled. apply not_true_is_false. intros HH. rewrite forallb_forall in HH. apply Hs, handles_supported, HH. apply filter_In. split; auto. unfold is_spatial. now rewrite Hk. }
    subst x. split; [reflexivity|]. specialize (HX (ex_intro _ ps Hps)). assert (Hd1 : (0 < d')%nat) by lia.
    clear - HR ES Hd' Hd1. intros i text Hi. destruct i as [|i]; [lia|]. cbn [nth_error]. clear Hi. revert ys o1 d' Hd' Hd1 ES i text.
    induction HR as [|q qs Hq HR IH]; intros ys o1 d Hd Hd1 ES i text Hx; cbn [session] in ES; [injection ES as <- <-; destruct i; discriminate|].
    destruct (answer_step Python q d o1 Hd Hq) as (o3 & x & HA & (d' & Hd' & Hle) & _ & HX). rewrite HA in ES. destruct (session Python qs o3) as [o4 zs] eqn:ES2. injection ES as <- <-.
    destruct i as [|i]; [|eapply (IH zs o3 d'); eauto; lia]. injection Hx as ->. destruct HX as (_ & k & kern & k1 & t0 & _ & _ & HS & Et).
    eapply shifted_unreadable; [exact Hd1| |exact HS]. rewrite Et. unfold kernel_text, kernel_lines. reflexivity.
  - destruct (answer_step Python q0 d o0 Hd Hq0) as (o1 & x & HA & (d' & Hd' & _) & _ & HX). rewrite HA in HS. destruct (session Python (qs ++ q :: rs) o1) as [o2 ys] eqn:ES. injection HS as <- <-.
    destruct (IH ys o1 (ex_intro _ d' Hd') ES) as [H1 H2]. split; [exact H1|]. intros i text Hi Hx. destruct i as [|i]; [lia|]. apply (H2 i text); [lia|exact Hx].
Qed.
Print Assumptions C46_python_generator_reusable_refuted.
(* concrete: an ordinary request, one with a GPU annotation, and the ordinary one again *)
Definition ex_request (sc : func -> outcome schedule) : option request :=
  match convert exText 4 with
  | Done (E, _) => match E 4%nat with
    | Some fd => match sc fd with Done s => Some (mkReq exText E (kernel_name "0a1b") (func_args (f_expr fd)) fd s) | _ => None end
    | None => None end
  | _ => None end.
Definition ex_good : option request := ex_request (auto_schedule false).
Definition ex_bad : option request := ex_request (fun fd => set_exec (sched_init fd) (mkLV (NLoop false 0 []) 2) (XBlock AX)).
Definition ex_session (b : backend) : option (list (outcome string)) :=
  match ex_good, ex_bad with Some q, Some q' => Some (snd (session b [q; q'; q] new_generator)) | _, _ => None end.
Example C46_nonvacuous_python : ex_session Python = Some [
  Done (join nl ["import math"; "def kern_0a1b(out, buf_0, buf_1):"; "    for i in range(0, 2, 1):"; "        acc = 0"; "        for ri in range(0, 3, 1):";
   "            tmp0 = buf_0[0 + i * 3 + ri * 1] + buf_1[0 + ri * 1]"; "            acc = acc + tmp0"; "        "; "        out[i * 1] = acc"; "    "; ""]);
  Throw RuntimeErr;
  Done (join nl ["    import math"; "    def kern_0a1b(out, buf_0, buf_1):"; "        for i in range(0, 2, 1):"; "            acc = 0"; "            for ri in range(0, 3, 1):";
   "                tmp1 = buf_0[0 + i * 3 + ri * 1] + buf_1[0 + ri * 1]"; "                acc = acc + tmp1"; "            "; "            out[i * 1] = acc"; "        "; "    "])].
Proof. vm_compute. reflexivity. Qed.
Example C46_nonvacuous_clang : exists q q' t t2, ex_good = Some q /\ ex_bad = Some q' /\ named q /\ named q' /\ ex_session Clang = Some [Done t; Throw RuntimeErr; Done t2] /\
  t2 <> t /\ (exists l, In l (s_loops (q_sched q')) /\ ls_kind l = Spatial /\ ~ supported Clang (ls_exec l) /\ ~ supported Python (ls_exec l)) /\
  exists ps, arg_params (q_graph q') (q_env q') (q_inputs q') 0 = Done ps.
Proof.
  destruct ex_good as [q|] eqn:Eq; [|vm_compute in Eq; discriminate]. destruct ex_bad as [q'|] eqn:Eb; [|vm_compute in Eb; discriminate].
  assert (HN : named q /\ named q') by (split; exists "0a1b"; (split; [reflexivity|]); [unfold ex_good, ex_request in Eq|unfold ex_bad, ex_request in Eb];
    destruct (convert exText 4) as [[E fs]|]; try discriminate; destruct (E 4%nat) as [fd|]; try discriminate;
    [destruct (auto_schedule false fd); try discriminate; injection Eq as <-; reflexivity|destruct (set_exec (sched_init fd) _ _); try discriminate; injection Eb as <-; reflexivity]).
  exists q, q'. eexists _, _. split; [reflexivity|]. split; [reflexivity|]. split; [apply HN|]. split; [apply HN|]. clear HN. split; [vm_compute; reflexivity|]. split; [vm_compute; discriminate|].
  vm_compute in Eb. injection Eb as <-. split.
  - eexists. split; [left; reflexivity|]. split; [reflexivity|]. split; intros H; cbn in H; discriminate.
  - eexists. vm_compute. reflexivity.
Qed.
