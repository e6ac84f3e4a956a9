(* Property C47: changing the backend of a running process with backend.reset(). *)
From Verif Require Import Base BaseFacts Util UtilFacts Lang Spec Graph Api ApiFacts Denote SpecFacts DenoteFacts Reach Tolist TolistFacts Prog
  Algo AlgoSem AlgoConvert AlgoConvert2 Kernel Sched Codegen Backends CacheKey KernelRun KernelRun2 BackendFacts AlgoTop AlgoMore Runtime RuntimeFacts RuntimeFacts2 History HistFacts RtInst LangInst CacheFacts Frame HistFacts2 HistTools RuntimeTop Safety PropRuntime
  Copy CopyConv CopyKey CopyRun CopyApi CopySafe PropCache Tidy TidyTools Switch.

#[local] Arguments bk : simpl never.

Fixpoint nest_map {A B} (f : A -> B) (x : nest A) : nest B :=
  match x with Leaf v => Leaf (f v) | Nest l => Nest (map (nest_map f) l) end.
(* what a.tolist() shows: nested lists of Python ints and floats *)
Definition numbers lm (w : which) (s : rt (bk lm w)) (a : nat) : outcome (nest pyval) :=
  omap (nest_map (shown_as lm w)) (tolist (r_graph _ s) (r_cpu _ s) a).

(* ------------------------------------------------------------------ reading across a switch *)
Lemma mapO_ext {A B} (f g : A -> outcome B) l : (forall x, f x = g x) -> mapO f l = mapO g l.
Proof. intros H. induction l as [|x l IH]; cbn; auto. now rewrite H, IH. Qed.
Lemma mapO_omap {A B C} (f : A -> outcome B) (h : B -> C) l : mapO (fun x => omap h (f x)) l = omap (map h) (mapO f l).
Proof. induction l as [|x l IH]; cbn; auto. destruct (f x); cbn; auto. rewrite IH. destruct (mapO f l); reflexivity. Qed.
Lemma read_nd_map {A B} (f : A -> B) data : forall shape strides off, read_nd (map f data) shape strides off = omap (nest_map f) (read_nd data shape strides off).
Proof.
  induction shape as [|d sh IH]; intros strides off; cbn [read_nd].
  - rewrite pynth_map. destruct (pynth data off); reflexivity.
  - erewrite mapO_ext with (g := fun i => omap (nest_map f) (match strides with st :: sts => read_nd data sh sts (off + i * st) | [] => Throw IndexErr end)).
    2:{ intros i. destruct strides; [reflexivity|apply IH]. }
    rewrite mapO_omap. destruct (mapO _ _); reflexivity.
Qed.
Lemma nest_map_map {A B C} (f : A -> B) (h : B -> C) x : nest_map h (nest_map f x) = nest_map (fun v => h (f v)) x.
Proof.
  revert x. fix IH 1. intros [v|l]; cbn; [reflexivity|]. f_equal. rewrite map_map. induction l as [|y l IHl]; cbn; [reflexivity|]. now rewrite IH, IHl.
Qed.
Lemma nest_map_ext {A B} (f h : A -> B) x : (forall v, f v = h v) -> nest_map f x = nest_map h x.
Proof.
  intros H. revert x. fix IH 1. intros [v|l]; cbn; [now rewrite H|]. f_equal. induction l as [|y l IHl]; cbn; [reflexivity|]. now rewrite IH, IHl.
Qed.

(* Changing the backend changes nothing that can be read: every array, computed or not, reads as before. *)
Theorem C47_numbers_survive : forall lm w w' s a, numbers lm w' (switch lm w w' s) a = numbers lm w s a.
Proof.
  intros lm w w' s a. unfold numbers, tolist. cbn [switch r_graph r_cpu]. destruct (nth_error (r_graph (bk lm w) s) a) as [nd|]; [|reflexivity].
  destruct (base (r_graph (bk lm w) s) a) as [b|]; [|reflexivity]. destruct (r_cpu (bk lm w) s b) as [data|]; cbn [option_map]; [|reflexivity].
  rewrite read_nd_map. destruct (read_nd data _ _ _) as [x|]; cbn [omap]; [|reflexivity]. f_equal. rewrite nest_map_map. apply nest_map_ext. intros v. apply conv_shown.
Qed.
Print Assumptions C47_numbers_survive.

(* User data survives every process history: API calls, materialize() calls (returning or raising, running
   whatever kernels), cache resets and backend changes in any order. *)
Theorem C47_user_data : forall lm mixed w s old n nd vals, pany lm mixed w s old -> nth_error (r_graph _ s) n = Some nd -> n_op nd = OConst vals ->
  r_cpu (bk lm w) s n = Some (map (of_num (b_lang (bk lm w))) vals).
Proof. intros lm mixed w s old n nd vals Hs Hn Ho. eapply j_const; eauto. eapply pany_inv0; eauto. Qed.
Print Assumptions C47_user_data.

(* ------------------------------------------------------------------ computing after a switch *)
(* After any process history - any number of backend changes - and a materialize.reset(), materialize()
   computes what the current backend computes: if it returns, tolist() gives the elements the API defines.
   In C the lists of the integer arrays must hold ints (see C47_float_refuted), arrays must be smaller
   than 2^31 elements and of one dtype (mat_ok), as without backend changes (C01).
   PARTIAL: key_safe, no cache collision among the kernels of this one materialize() (see C11). *)
Theorem C47_value_after_reset_partial : forall lm mixed w s old a b s', pany lm mixed w s old -> valid (r_graph _ s) a ->
  view_of (r_graph _ s) true a b -> computed (r_graph _ s) b -> key_safe (kernel_of (r_graph _ s) a) ->
  (w = CB -> portable lm w w s /\ mat_ok (b_lang (bk lm w)) (r_graph _ s) b) ->
  pmaterialize lm mixed w [] (reset_cache _ s) a = (s', Done tt) ->
  exists l, tolist (r_graph _ s') (r_cpu _ s') a = Done l /\ t_tolist (den (b_lang (bk lm w)) (r_graph _ s) a) = Ok l.
Proof.
  intros lm mixed w s old a b s' Hs Ha Hv (bd & Hbd & Hc) HK HP HM. rewrite pmaterialize_nil in HM.
  pose proof (pany_reset lm mixed (kernel_of (r_graph _ s) a) w s old Hs (fun e => proj1 (HP e))) as HI. pose proof (reach_wf _ (i_reach _ _ _ HI)) as Hw. cbn [reset_cache r_graph] in Hw.
  pose proof (view_of_base _ _ _ _ Hw Hv) as Hb.
  assert (Hm : mat_ok (b_lang (bk lm w)) (r_graph _ s) b) by (destruct w; [apply py_mat_ok|apply HP; auto]).
  destruct (materialize_ok _ (bk_ok lm w) _ HK (reset_cache _ s) a b bd HI Ha Hb Hbd Hm (fun d H => H)) as (s1 & oc & HR & HI1 & Hg & _ & _ & _ & Hoc).
  rewrite HM in HR. injection HR as <- <-. destruct (Hoc Hc) as [Hgood _]. cbn [reset_cache r_graph] in Hg.
  destruct (read_good (bk lm w) _ s' a b HI1) as (l & R1 & R2); [rewrite Hg; exact Hv|exact Hgood|]. exists l. split; auto. now rewrite <- Hg.
Qed.
Print Assumptions C47_value_after_reset_partial.
(* and it returns, unless an element operation raises, ctypes refuses a float in an integer constant, or
   the expression reshapes to () (C29) *)
Theorem C47_succeeds_after_reset_partial : forall lm mixed w s old a b, pany lm mixed w s old -> valid (r_graph _ s) a -> base (r_graph _ s) a = Some b ->
  key_safe (kernel_of (r_graph _ s) a) -> (w = CB -> portable lm w w s /\ mat_ok (b_lang (bk lm w)) (r_graph _ s) b) ->
  no_scalar_reshape (r_graph _ s) b -> (forall n, cone (r_graph _ s) b n -> ~ refused (bk lm w) (r_graph _ s) n) ->
  (forall n idx, cone (r_graph _ s) b n -> in_range (shape_of (r_graph _ s) n) idx -> t_at (den (b_lang (bk lm w)) (r_graph _ s) n) idx <> Raise) ->
  exists s', pmaterialize lm mixed w [] (reset_cache _ s) a = (s', Done tt).
Proof.
  intros lm mixed w s old a b Hs Ha Hb HK HP Hns Hrf Hra.
  pose proof (pany_reset lm mixed (kernel_of (r_graph _ s) a) w s old Hs (fun e => proj1 (HP e))) as HI. pose proof (reach_wf _ (i_reach _ _ _ HI)) as Hw. cbn [reset_cache r_graph] in Hw.
  destruct (base_node _ s a b Hw Ha Hb) as (bd & Hbd). rewrite pmaterialize_nil.
  assert (Hm : mat_ok (b_lang (bk lm w)) (r_graph _ s) b) by (destruct w; [apply py_mat_ok|apply HP; auto]).
  exact (mat_succeeds _ (bk_ok lm w) _ HK (reset_cache _ s) a b bd HI Ha Hb Hbd Hm (fun d H => H) Hns Hrf Hra).
Qed.
Print Assumptions C47_succeeds_after_reset_partial.

(* Without the reset.  In a process whose kernels all belong to the collection C, and which is on Python or
   has no kernels of the other backend in its cache: whatever materialize() returns is right. *)
Theorem C47_value_partial : forall lm mixed C w s old a b s', key_safe C -> phist lm mixed C w s old -> (w = CB -> old = []) -> valid (r_graph _ s) a ->
  view_of (r_graph _ s) true a b -> computed (r_graph _ s) b -> mat_ok (b_lang (bk lm w)) (r_graph _ s) b ->
  (forall d, kernel_of (r_graph _ s) a d -> C d) ->
  pmaterialize lm mixed w old s a = (s', Done tt) ->
  exists l, tolist (r_graph _ s') (r_cpu _ s') a = Done l /\ t_tolist (den (b_lang (bk lm w)) (r_graph _ s) a) = Ok l.
Proof.
  intros lm mixed C w s old a b s' HC Hs Hold Ha Hv (bd & Hbd & Hc) Hm Hk HM. pose proof (phist_inv lm mixed C HC w s old Hs) as HI.
  pose proof (reach_wf _ (i_reach _ _ _ HI)) as Hw. pose proof (view_of_base _ _ _ _ Hw Hv) as Hb.
  destruct (pmaterialize_ok lm mixed C HC w old s a b bd HI Ha Hb Hbd Hold Hm Hk) as (s1 & oc & HR & HI1 & Hg & _ & _ & _ & Hoc).
  rewrite HM in HR. injection HR as <- <-. specialize (Hoc Hc). cbn in Hoc.
  destruct (read_good (bk lm w) _ s' a b HI1) as (l & R1 & R2); [rewrite Hg; exact Hv|exact Hoc|]. exists l. split; auto. now rewrite <- Hg.
Qed.
Print Assumptions C47_value_partial.
(* what it raises: what it would raise without backend changes, or the refusal of a stale kernel; the arrays
   computed before keep their elements *)
Theorem C47_failures_partial : forall lm mixed C w s old a b s' e, key_safe C -> phist lm mixed C w s old -> (w = CB -> old = []) -> valid (r_graph _ s) a ->
  base (r_graph _ s) a = Some b -> mat_ok (b_lang (bk lm w)) (r_graph _ s) b -> (forall d, kernel_of (r_graph _ s) a d -> C d) ->
  pmaterialize lm mixed w old s a = (s', Throw e) ->
  (forall n, good (bk lm w) s n -> good (bk lm w) s' n) /\
  ((e = ValueErr /\ exists n idx, cone (r_graph _ s) b n /\ in_range (shape_of (r_graph _ s) n) idx /\ t_at (den (b_lang (bk lm w)) (r_graph _ s) n) idx = Raise) \/
   (e = TypeErr /\ exists n, cone (r_graph _ s) b n /\ refused (bk lm w) (r_graph _ s) n) \/
   (e = TypeErr /\ ~ no_scalar_reshape (r_graph _ s) b) \/
   (e = TypeErr /\ old <> [])).
Proof.
  intros lm mixed C w s old a b s' e HC Hs Hold Ha Hb Hm Hk HM. pose proof (phist_inv lm mixed C HC w s old Hs) as HI.
  pose proof (reach_wf _ (i_reach _ _ _ HI)) as Hw. destruct (base_node _ s a b Hw Ha Hb) as (bd & Hbd).
  destruct (pmaterialize_ok lm mixed C HC w old s a b bd HI Ha Hb Hbd Hold Hm Hk) as (s1 & oc & HR & _ & _ & _ & HG & Hc & Hoc).
  rewrite HM in HR. injection HR as <- <-. split; [exact HG|]. destruct (is_const (n_op bd)) eqn:Ec; [destruct (Hc eq_refl); discriminate|]. exact (Hoc eq_refl).
Qed.
Print Assumptions C47_failures_partial.

(* ------------------------------------------------------------------ stale kernels *)
Section Stale.
Context (lm : libm) (mixed : kernel -> list (list cval) -> outcome (list cval)).
Notation P := (bk lm PyB). Notation C := (bk lm CB).
Context (dom : list nat) (r0 : nat -> nat) (g1 g2 : graph) (HC : copies dom r0 g1 g2) (Hlen : (length g1 <= length g2)%nat).
Let r := ext_r dom r0.
Let D n := In n dom.
Let Hinj : forall n m, r n = r m -> n = m := proj1 (copies_ext dom r0 g1 g2 HC).
Let HD : forall n, D n -> exists x y, nth_error g1 n = Some x /\ nth_error g2 (r n) = Some y /\ same_node r x y /\ Forall D (n_in x) := proj2 (copies_ext dom r0 g1 g2 HC).

Lemma pcompute_stale s1 b s1' old u u' o : r_graph C s1 = g1 -> r_graph P u = g2 -> reach g1 -> In b dom -> valid g1 b ->
  compute C s1 b = (s1', Done tt) -> (forall k x, cache_get (r_cache C s1') k = Some x -> cache_get (r_cache P u) k = Some x /\ In k old) ->
  pcompute lm mixed PyB old u (r b) = (u', o) -> exists e, o = Throw e.
Proof using HC Hlen.
  intros G1 G2 Hr Hb Hvb H1 HL H2. unfold compute in H1. unfold pcompute in H2. rewrite G1 in H1. rewrite G2 in H2.
  destruct (convert g1 b) as [[E fs]|] eqn:C1; [|discriminate]. pose proof C1 as C1'. rewrite convert_is in C1.
  destruct (convert_n_rn r Hinj g1 g2 D HD (S (length g1)) (S (length g2)) b E fs ltac:(lia) Hb C1) as (E' & C2 & HE & HDe & HF).
  rewrite convert_is, C2 in H2. destruct (mapOut (schedule_one C E) fs) as [l|] eqn:SC; [|discriminate].
  destruct (run_funcs_grow _ _ _ _ _ _ H1) as (_ & _ & K1). specialize (K1 eq_refl).
  pose proof (converted_ns _ _ _ _ Hr Hvb C1') as Hns.
  pose proof (convert_inv (b_lang C) g1 b E fs (bo_lang _ (bk_ok lm CB)) Hr Hvb Hns C1') as HS.
  destruct fs as [|f fs]; [destruct (cs_last _ _ _ _ _ HS) as [[|? ?] Hl]; discriminate|].
  cbn [map mapOut] in H2, SC. destruct (schedule_one P E' (r f)) as [[fd' sc']|e] eqn:SP; cbn [obind] in H2; [|injection H2 as _ <-; eauto].
  destruct (schedule_one C E f) as [[fd sc]|e] eqn:S1; cbn [obind] in SC; [|discriminate]. destruct (mapOut (schedule_one C E) fs) as [l0|]; [|discriminate]. injection SC as <-.
  destruct (mapOut (schedule_one P E') (map r fs)) as [l'|e]; cbn [obind] in H2; [|injection H2 as _ <-; eauto].
  inversion HF as [|? ? Hf _]; subst. unfold schedule_one in SP, S1. rewrite (HE f Hf) in SP. destruct (E f) as [fd0|] eqn:Ef; cbn [option_map throw_none obind] in SP, S1; [|discriminate].
  rewrite auto_schedule_rn in SP. destruct (auto_schedule false fd0) as [sc0|]; cbn [obind] in SP, S1; [|discriminate].
  destruct (forallb _ _) in SP; [|discriminate]. destruct (forallb _ _) in S1; [|discriminate]. injection S1 as -> ->. injection SP as <- <-.
  destruct (K1 fd sc (or_introl eq_refl)) as (key & kern & Hk & Hg). destruct (HL _ _ Hg) as [Hg' Ho].
  assert (Hk' : cache_key (r_graph P u) E' (rnf r fd) sc = Done key) by (eapply cache_key_rn; eauto).
  cbn [prun_funcs] in H2. unfold prun_func in H2. rewrite Hk', Hg' in H2.
  assert (FIN : forall z : rt P * outcome unit, (match z with (s', Done _) => prun_funcs lm mixed PyB old E' l' s' | (s', Throw e) => (s', Throw e) end) = (u', o) -> (exists e, snd z = Throw e) -> exists e, o = Throw e).
  { intros [s' [?|e]] HH [e' He]; cbn in He; [discriminate|]. injection HH as _ <-. eauto. }
  destruct (mapOut (arg_buffer E') _) as [bufs|e] eqn:EB.
  - destruct (in_dec kkey_eq_dec key old) as [_|Hn]; [|contradiction]. apply (FIN _ H2). unfold foreign. destruct (zero_fill _ _ _ _); cbn [snd]; eauto.
  - apply (FIN _ H2). unfold run_func. rewrite EB. cbn [snd]. eauto.
Qed.
Lemma pmat_stale al a b : view_of g1 al a b -> In a dom -> forall k old u u' o, r_graph P u = g2 ->
  pmat lm mixed PyB old k u (r a) = (u', o) -> (exists e, o = Throw e) \/ (In b dom /\ (exists bd, nth_error g1 b = Some bd /\ (is_const (n_op bd) = true \/ pcompute lm mixed PyB old u (r b) = (u', o)))).
Proof using HC Hlen.
  induction 1 as [b nd Hn Hnv|a nd p pd b Hn Hvw Hp Hpd _ Hv IH]; intros Ha k old u u' o G2 H; (destruct k as [|k]; cbn [pmat] in H; [injection H as _ <-; left; eauto|]).
  - destruct (HD b Ha) as (x & y & N1 & N2 & (_ & _ & _ & _ & So & Si) & HF). assert (x = nd) by congruence. subst x. rewrite G2, N2 in H.
    destruct (same_op_view _ _ So) as [V1 V2]. rewrite V1, V2, Hnv in H. right. split; auto. exists nd. split; auto. destruct (is_const (n_op nd)); auto.
  - destruct (HD a Ha) as (x & y & N1 & N2 & (_ & _ & _ & _ & So & Si) & HF). assert (x = nd) by congruence. subst x. rewrite G2, N2 in H.
    destruct (same_op_view _ _ So) as [V1 V2]. rewrite V1, V2, Hvw, Si in H. destruct (n_op nd); try discriminate Hvw;
    (destruct (n_in nd) as [|q l]; [discriminate|]; cbn in Hp; injection Hp as ->; cbn [map is_const] in H; inversion HF; subst; eapply IH; eauto).
Qed.
End Stale.

(* REFUTED: backend.reset() alone.  x.materialize() returned on the Clang backend; then, in any later
   state of the process reached without a cache reset, the program changes to the Python backend.  Now
   materializing any array y that is the same expression as x - x itself, for example - raises. *)
Theorem C47_stale_refuted : forall lm mixed s x b s1 t y u' o, let C := bk lm CB in pany lm mixed CB s [] -> valid (r_graph C s) x ->
  base (r_graph C s) x = Some b -> computed (r_graph C s) b ->
  materialize C s x = (s1, Done tt) -> unreset C s1 t -> same_expr (r_graph C s) x (r_graph C t) y ->
  pmaterialize lm mixed PyB (switch_old lm CB PyB t []) (switch lm CB PyB t) y = (u', o) -> exists e, o = Throw e.
Proof.
  intros lm mixed s x b s1 t y u' o C Hs Hx Hb (bd & Hbd & Hc) H1 HU (dom & r & Ha & <- & HCo) H2. subst C.
  pose proof (j_reach _ _ (pany_inv0 _ _ _ _ _ Hs)) as Hr. pose proof (reach_wf _ Hr) as Hw.
  destruct (unreset_grow _ _ _ HU) as [HL (e & He)]. destruct (materialize_grow _ _ _ _ _ H1) as [G1 _].
  assert (Hlen : (length (r_graph (bk lm CB) s) <= length (r_graph (bk lm CB) t))%nat) by (rewrite He, G1, app_length; lia).
  destruct (base_total _ x Hw Hx) as (b' & Hb' & Hle & Hvw). assert (b' = b) by congruence. subst b'.
  rewrite (mat_compute _ s x b bd Hw Hb Hx Hbd), Hc in H1. unfold pmaterialize in H2. cbn [switch r_graph] in H2. rewrite <- (ext_in dom r x Ha) in H2.
  destruct (pmat_stale lm mixed dom r _ _ HCo Hlen _ x b Hvw Ha _ _ (switch lm CB PyB t) u' o eq_refl H2) as [|(Hbdom & bd' & Hbd' & [Hcc|HP])]; auto; [congruence|].
  eapply (pcompute_stale lm mixed dom r (r_graph (bk lm CB) s) (r_graph (bk lm CB) t) HCo Hlen s b s1 _ (switch lm CB PyB t)); eauto.
  - unfold valid. apply nth_error_Some. congruence.
  - intros k z Hk. specialize (HL k z Hk). cbn [switch r_cache]. split; auto. unfold switch_old. destruct (which_eq_dec CB PyB) as [|]; [discriminate|].
    apply filter_In. split; [|reflexivity]. clear - HL. revert HL. generalize (r_cache (bk lm CB) t). induction l as [|[k' x'] l IH]; cbn; [discriminate|]. destruct (kkey_eq_dec k' k); [subst; auto|]. intros H. right. auto.
Qed.
Print Assumptions C47_stale_refuted.

(* ------------------------------------------------------------------ a float in an integer array *)
Section Float.
Context (lm : libm) (mixed : kernel -> list (list cval) -> outcome (list cval)).
Notation C := (bk lm CB).
Lemma copy_refused g p ps m nd vs : nth_error g p = Some nd -> m p = Some vs -> forallb (c_accept (n_dtype nd)) vs = false -> copy_in C g (p :: ps) m = Throw TypeErr.
Proof. intros H1 H2 H3. cbn [copy_in]. unfold get. rewrite H1. cbn [obind throw_none]. rewrite H2. cbn [obind throw_none]. assert (H4 : forallb (b_accept C (n_dtype nd)) vs = false) by exact H3. now rewrite H4. Qed.
Lemma prun_func_c old E fd sc s s' o b nd vs : nth_error (r_graph C s) b = Some nd -> r_cpu C s b = Some vs -> forallb (c_accept (n_dtype nd)) vs = false ->
  prun_func lm mixed CB old E fd sc s = (s', o) -> r_graph C s' = r_graph C s /\ r_cpu C s' b = Some vs /\ (f_out fd = b -> exists e, o = Throw e).
Proof.
  intros Hn Hv Ha.
  assert (INV : forall s0 kern ps s' o, r_graph C s0 = r_graph C s -> r_cpu C s0 = r_cpu C s -> invoke C s0 kern (f_out fd :: ps) = (s', o) ->
    r_graph C s' = r_graph C s /\ r_cpu C s' b = Some vs /\ (f_out fd = b -> exists e, o = Throw e)).
  { intros s0 kern ps s2 o2 Hg0 Hc0 H. unfold invoke in H. cbn [r_graph r_cpu] in H. rewrite Hg0, Hc0 in H.
    destruct (zero_fill C (r_graph C s) (f_out fd :: ps) (r_cpu C s)) as [m|e] eqn:EZ; [|injection H as <- <-; cbn; split; auto; split; [congruence|eauto]].
    pose proof (zero_fill_some lm CB _ _ _ _ EZ b vs Hv) as Hm. change (b_copies C) with true in H.
    destruct (negb _); [injection H as <- <-; cbn; eauto|]. cbv iota in H.
    destruct (copy_in C (r_graph C s) (f_out fd :: ps) m) as [cs|e] eqn:EC; [|injection H as <- <-; cbn; eauto].
    assert (Hne : f_out fd <> b) by (intros Heq; rewrite Heq, (copy_refused _ b ps m nd vs Hn Hm Ha) in EC; discriminate).
    destruct (run _ _ _) as [m' oc]. destruct oc; [destruct (m' 0%nat)|..]; injection H as <- <-; cbn; split; auto; (split; [|contradiction]); auto.
    unfold sset. destruct (Nat.eqb_spec (f_out fd) b); [contradiction|auto]. }
  assert (NAT : run_func C E fd sc s = (s', o) -> r_graph C s' = r_graph C s /\ r_cpu C s' b = Some vs /\ (f_out fd = b -> exists e, o = Throw e)).
  { unfold run_func. destruct (mapOut _ _) as [bufs|]; [|intros H; injection H as <- <-; eauto]. destruct (cache_key _ _ _ _) as [key|]; [|intros H; injection H as <- <-; eauto].
    destruct (cache_get _ _) as [kern|]; [apply INV; auto|]. destruct (codegen _ _ _ _ _ _) as [[kern k']|]; [apply INV; auto|intros H; injection H as <- <-; eauto]. }
  unfold prun_func. destruct (mapOut _ _) as [bufs|]; [|exact NAT]. destruct (cache_key _ _ _ _) as [key|]; [|exact NAT]. destruct (cache_get _ _) as [kern|]; [|exact NAT].
  destruct (in_dec _ _ _); [|exact NAT]. unfold foreign. cbn [r_graph r_cpu].
  destruct (zero_fill C (r_graph C s) (f_out fd :: bufs) (r_cpu C s)) as [m|e] eqn:EZ; [|intros H; injection H as <- <-; cbn; eauto].
  pose proof (zero_fill_some lm CB _ _ _ _ EZ b vs Hv) as Hm.
  destruct (copy_in C (r_graph C s) (f_out fd :: bufs) m) as [cs|e] eqn:EC; [|intros H; injection H as <- <-; cbn; eauto].
  assert (Hne : f_out fd <> b) by (intros Heq; rewrite Heq, (copy_refused _ b bufs m nd vs Hn Hm Ha) in EC; discriminate).
  destruct (mixed kern cs); [|intros H; injection H as <- <-; cbn; eauto]. destruct cs; [intros H; injection H as <- <-; cbn; split; auto; split; [auto|contradiction]|].
  destruct (nth_error (r_graph C s) (f_out fd)); intros H; injection H as <- <-; cbn; (split; [auto|]); (split; [|contradiction]); auto.
  unfold sset. destruct (Nat.eqb_spec (f_out fd) b); [contradiction|auto].
Qed.
Lemma prun_funcs_c old E l b nd vs : (exists fd sc, In (fd, sc) l /\ f_out fd = b) -> forall s s' o, nth_error (r_graph C s) b = Some nd -> r_cpu C s b = Some vs -> forallb (c_accept (n_dtype nd)) vs = false ->
  prun_funcs lm mixed CB old E l s = (s', o) -> exists e, o = Throw e.
Proof.
  intros (fd & sc & Hin & Ho). induction l as [|[fd0 sc0] l IH]; [destruct Hin|]. intros s s' o Hn Hv Ha H. cbn [prun_funcs] in H.
  destruct (prun_func lm mixed CB old E fd0 sc0 s) as [s1 o1] eqn:E1. destruct (prun_func_c _ _ _ _ _ _ _ _ _ _ Hn Hv Ha E1) as (A1 & A2 & A3).
  destruct Hin as [Heq|Hin]; [injection Heq as -> ->; destruct (A3 Ho) as [e ->]; injection H as _ <-; eauto|].
  destruct o1; [|injection H as _ <-; eauto]. eapply (IH Hin s1); [exact (eq_trans (f_equal (fun g => nth_error g b) A1) Hn)|exact A2|exact Ha|exact H].
Qed.
End Float.

(* REFUTED: an integer array whose list holds a float (Python computes int64 / int64 to floats, C06).  After a
   change to the Clang backend, with or without cache resets, materializing it never returns: the
   executor converts the old contents of the output list as well (backend_clang.py:45). *)
Theorem C47_float_refuted : forall lm mixed w s old a b bd vs, pany lm mixed w s old -> valid (r_graph _ s) a -> base (r_graph _ s) a = Some b -> nth_error (r_graph _ s) b = Some bd ->
  is_const (n_op bd) = false -> n_dtype bd = Int64 -> r_cpu _ s b = Some vs -> (exists f, In (PF f) (map (shown_as lm w) vs)) ->
  forall t, t = switch lm w CB s \/ t = reset_cache _ (switch lm w CB s) -> forall old' t' o, pmaterialize lm mixed CB old' t a = (t', o) -> exists e, o = Throw e.
Proof.
  intros lm mixed w s old a b bd vs Hs Ha Hb Hbd Hc Hdt Hv (f & Hf) t Ht old' t' o HM.
  pose proof (j_reach _ _ (pany_inv0 _ _ _ _ _ Hs)) as Hr. pose proof (reach_wf _ Hr) as Hw.
  assert (Hg : r_graph _ t = r_graph _ s) by (destruct Ht; subst; reflexivity).
  assert (Hcpu : r_cpu (bk lm CB) t b = Some (map (conv lm w CB) vs)) by (destruct Ht; subst; cbn [reset_cache switch r_cpu]; now rewrite Hv).
  assert (Hrej : forallb (c_accept (n_dtype bd)) (map (conv lm w CB) vs) = false).
  { apply Bool.not_true_iff_false. intros HT. rewrite forallb_forall in HT. apply in_map_iff in Hf as (v & Hv1 & Hv2). specialize (HT _ (in_map (conv lm w CB) _ _ Hv2)).
    rewrite Hdt in HT. assert (HX : conv lm w CB v = CF f).
    { destruct w; cbn in Hv1 |- *; [subst v; reflexivity|]. destruct v; cbn in Hv1; try discriminate; congruence. }
    rewrite HX in HT. discriminate. }
  rewrite <- Hg in Hbd, Hb, Hw. assert (Ha' : (a < length (r_graph (bk lm CB) t))%nat) by (rewrite Hg; exact Ha).
  rewrite (pmat_compute lm mixed CB old' t a b bd Hw Hb Ha' Hbd), Hc in HM. unfold pcompute in HM.
  destruct (convert (r_graph (bk lm CB) t) b) as [[E fs]|] eqn:EC; [|injection HM as _ <-; eauto]. destruct (mapOut _ fs) as [l|] eqn:EM; [|injection HM as _ <-; eauto].
  assert (Hvb : valid (r_graph (bk lm CB) t) b) by (unfold valid; apply nth_error_Some; congruence). rewrite <- Hg in Hr.
  pose proof (convert_inv (b_lang (bk lm CB)) _ _ _ _ (bo_lang _ (bk_ok lm CB)) Hr Hvb (converted_ns _ _ _ _ Hr Hvb EC) EC) as HS.
  eapply prun_funcs_c; eauto. assert (Hin : In b fs) by (destruct (cs_last _ _ _ _ _ HS) as [l' ->]; apply in_or_app; right; now left).
  destruct (convert_kctx _ _ b E fs b HS Hin) as (fd & nd & Hfd & HK). pose proof (kc_fd _ _ _ _ _ HK) as Hfo.
  apply mapOut_Forall2 in EM. clear - EM Hin Hfd Hfo. induction EM as [|f0 [fd0 sc0] fs l Hf Hl IH]; [destruct Hin|]. destruct Hin as [->|Hin].
  - unfold schedule_one in Hf. rewrite Hfd in Hf. cbn [throw_none obind] in Hf. destruct (auto_schedule false fd) as [sc1|]; cbn [obind] in Hf; [|discriminate]. destruct (forallb _ _); [|discriminate].
    injection Hf as <- <-. exists fd, sc1. split; [now left|]. rewrite Hfo. reflexivity.
  - destruct (IH Hin) as (fd1 & sc1 & H1 & H2). exists fd1, sc1. split; [now right|auto].
Qed.
Print Assumptions C47_float_refuted.

(* ------------------------------------------------------------------ concrete cases *)
(* a script of a process, checking the conditions of phist *)
Inductive pev := PCall (c : call) | PMat (a : nat) | PReset | PSwitch (w : which).
Section Script.
Context (lm : libm) (mixed : kernel -> list (list cval) -> outcome (list cval)).
Definition pstate := {w : which & (rt (bk lm w) * list kkey)%type}.
Definition pst (w : which) (s : rt (bk lm w)) (old : list kkey) : pstate := existT _ w (s, old).
Definition cokb (g : graph) : bool := fitsb (c_lang lm) g && forallb (fun nd => match dtype_eq_dec (n_dtype nd) Int64 with left _ => true | right _ => false end) g.
Definition matokb (w : which) (old : list kkey) (g : graph) : bool := match w with PyB => true | CB => match old with [] => cokb g | _ => false end end.
Definition portableb (w w' : which) (s : rt (bk lm w)) : bool :=
  forallb (fun n => match nth_error (r_graph _ s) n, r_cpu _ s n with
                    | Some nd, Some vs => is_const (n_op nd) || forallb (b_accept (bk lm w') (n_dtype nd)) (map (conv lm w w') vs)
                    | _, _ => true end) (seq 0 (length (r_graph _ s))).
Fixpoint pscript (es : list pev) (w : which) (s : rt (bk lm w)) (old : list kkey) : pstate :=
  match es with
  | [] => pst w s old
  | PCall c :: r => if call_okb (r_graph _ s) c then pscript r w (fst (api_call (bk lm w) s c)) old else pst w s old
  | PMat a :: r => if validb (r_graph _ s) a && tidyb (r_graph _ s) a && matokb w old (r_graph _ s) then pscript r w (fst (pmaterialize lm mixed w old s a)) old else pst w s old
  | PReset :: r => pscript r w (reset_cache _ s) []
  | PSwitch w' :: r => if portableb w w' s then pscript r w' (switch lm w w' s) (switch_old lm w w' s old) else pst w s old
  end.
Lemma cokb_ok g b : cokb g = true -> mat_ok (b_lang (bk lm CB)) g b.
Proof.
  intros H. apply andb_prop in H as [H1 H2]. split; [now apply fits_all|]. exists Int64. intros n nd _ Hn _ v. rewrite forallb_forall in H2. specialize (H2 nd (nth_error_In _ _ Hn)).
  destruct (dtype_eq_dec (n_dtype nd) Int64) as [->|]; [reflexivity|discriminate].
Qed.
Lemma portableb_ok w w' s : portableb w w' s = true -> portable lm w w' s.
Proof.
  intros H n nd vs Hn Hc Hv. unfold portableb in H. rewrite forallb_forall in H. assert (Hl : (n < length (r_graph (bk lm w) s))%nat) by (apply nth_error_Some; congruence).
  specialize (H n ltac:(apply in_seq; lia)). rewrite Hn, Hv, Hc in H. exact H.
Qed.
Definition good_state (p : pstate) : Prop := let '(existT _ w (s, old)) := p in phist lm mixed (tidy_kernel false) w s old.
Lemma pscript_hist es : forall w s old, phist lm mixed (tidy_kernel false) w s old -> good_state (pscript es w s old).
Proof.
  induction es as [|[c|a| |w'] es IH]; intros w s old Hs; cbn [pscript]; auto.
  - destruct (call_okb _ c) eqn:Ec; [|exact Hs]. apply IH. apply ph_call; auto. now apply call_okb_ok.
  - destruct (validb (r_graph (bk lm w) s) a) eqn:Ev; [|exact Hs]. destruct (tidyb (r_graph (bk lm w) s) a) eqn:Et; [|exact Hs]. destruct (matokb w old (r_graph (bk lm w) s)) eqn:Em; [|exact Hs].
    cbn [andb]. apply IH. apply ph_mat; auto.
    + now apply Nat.ltb_lt.
    + intros ->. cbn in Em. destruct old; [auto|discriminate].
    + intros b _. destruct w; [apply py_mat_ok|]. cbn in Em. destruct old; [|discriminate]. now apply cokb_ok.
    + apply (tidyb_ok false); auto. exact (i_reach _ _ _ (phist_inv lm mixed _ (tidy_safe false) _ _ _ Hs)).
  - apply IH. now apply (ph_reset lm mixed _ w s old).
  - destruct (portableb w w' s) eqn:Ep; [|exact Hs]. apply IH. apply ph_switch; auto. now apply portableb_ok.
Qed.
Definition prun (w : which) (es : list pev) : pstate := pscript es w (rt0 (bk lm w)) [].
Lemma prun_hist w es : good_state (prun w es).
Proof. apply pscript_hist. apply ph_init. Qed.
Definition reads_now (p : pstate) (a : nat) : outcome (nest pyval) := let '(existT _ w (s, _)) := p in numbers lm w s a.
Definition backend_now (p : pstate) : which := projT1 p.
Definition mats (p : pstate) (a : nat) : outcome unit := let '(existT _ w (s, old)) := p in snd (pmaterialize lm mixed w old s a).
End Script.

Definition nomix : kernel -> list (list cval) -> outcome (list cval) := fun _ _ => Throw InternalErr.
Notation run47 := (prun no_libm nomix).
(* (x + arange(3)) ** 2 with x = [-7, 2, 3], computed by C, then by Python, then by C *)
Definition ex47 : list pev := [PCall (CArray (Nest [Leaf (NInt (-7)); Leaf (NInt 2); Leaf (NInt 3)])); PCall (CArange 3); PCall (CBinary BAdd 0 1); PCall (CBinary BMul 2 2)].
Example C47_nonvacuous :
  reads_now _ (run47 CB (ex47 ++ [PMat 3])) 3 = Done (Nest [Leaf (PI 49); Leaf (PI 9); Leaf (PI 25)]) /\
  reads_now _ (run47 CB (ex47 ++ [PMat 3; PSwitch PyB])) 3 = Done (Nest [Leaf (PI 49); Leaf (PI 9); Leaf (PI 25)]) /\
  (* stale: raises; after materialize.reset(): computes *)
  mats _ nomix (run47 CB (ex47 ++ [PMat 3; PSwitch PyB])) 3 = Throw TypeErr /\
  mats _ nomix (run47 CB (ex47 ++ [PMat 3; PSwitch PyB; PReset])) 3 = Done tt /\
  (* an array whose kernel was not compiled by C works without the reset *)
  mats _ nomix (run47 CB (ex47 ++ [PMat 3; PSwitch PyB; PCall (CUnary UNeg 0)])) 4 = Done tt /\
  backend_now _ (run47 CB (ex47 ++ [PMat 3; PSwitch PyB; PReset; PMat 3; PSwitch CB; PReset; PMat 3])) = CB /\
  reads_now _ (run47 CB (ex47 ++ [PMat 3; PSwitch PyB; PReset; PMat 3; PSwitch CB; PReset; PMat 3])) 3 = Done (Nest [Leaf (PI 49); Leaf (PI 9); Leaf (PI 25)]).
Proof. repeat split; vm_compute; reflexivity. Qed.
(* x / y with x = [-7, 6], y = [2, 2], all int64: C computes ints.  After the change they still read the same;
   computed again by Python (both resets) they are floats.  Changing back to C, the array cannot be computed
   any more: C47_float_refuted applies. *)
Definition exDiv : list pev := [PCall (CArray (Nest [Leaf (NInt (-7)); Leaf (NInt 6)])); PCall (CArray (Nest [Leaf (NInt 2); Leaf (NInt 2)])); PCall (CBinary BTruediv 0 1)].
Definition st47 : rt (bk no_libm PyB) := match run47 PyB (exDiv ++ [PMat 2]) with existT _ PyB (s, _) => s | existT _ CB (s, _) => rt0 _ end.
Example C47_division :
  reads_now _ (run47 CB (exDiv ++ [PMat 2])) 2 = Done (Nest [Leaf (PI (-3)); Leaf (PI 3)]) /\
  reads_now _ (run47 CB (exDiv ++ [PMat 2; PSwitch PyB; PReset])) 2 = Done (Nest [Leaf (PI (-3)); Leaf (PI 3)]) /\
  reads_now _ (run47 CB (exDiv ++ [PMat 2; PSwitch PyB; PReset; PMat 2])) 2 = Done (Nest [Leaf (PF (f64_of (-7) (-1))); Leaf (PF (f64_of 3 0))]) /\
  match r_cpu _ st47 2%nat with Some (v :: _) => v = PF (f64_of (-7) (-1)) | _ => False end /\
  snd (pmaterialize no_libm nomix CB [] (reset_cache _ (switch no_libm PyB CB st47)) 2%nat) = Throw TypeErr.
Proof. repeat split; vm_compute; reflexivity. Qed.
