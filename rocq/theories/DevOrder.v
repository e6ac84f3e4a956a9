(* What one materialize() call on CUDA sends to the driver, in which order: one launch per kernel, dependencies first. *)
From Verif Require Import Base BaseFacts Util UtilFacts Lang Spec Graph Api ApiFacts Denote DenoteFacts Reach Tolist TolistFacts Algo AlgoSem AlgoConv AlgoConvert AlgoConvert2 AlgoTop AlgoMore LangInst Kernel Sched Codegen Backends CacheKey KernelRun
  Runtime RuntimeFacts RuntimeFacts2 Frame Parallel ParGpu Device PropDevice DevStack.
From Verif Require DevFacts.
Open Scope Z_scope.
Open Scope list_scope.

Section Order.
Context (B : cpu_backend).
Notation dev := (dev B).
Notation event := (event B).
(* the arrays whose kernels were launched, in order *)
Fixpoint launches (tr : list event) : list nat :=
  match tr with [] => [] | EvLaunch _ n _ _ :: r => n :: launches r | _ :: r => launches r end.
(* driver calls that launch nothing *)
Definition quiet (tr : list event) : Prop := launches tr = [].
Lemma launches_app a b : launches (a ++ b) = launches a ++ launches b.
Proof. induction a as [|e a IH]; cbn; auto. destruct e; cbn; congruence. Qed.

Definition then_ (s s' : dev) (new : list event) : Prop := trace s' = trace s ++ new.
Lemma then_nil s : then_ s s []. Proof. unfold then_. now rewrite app_nil_r. Qed.
Lemma then_app a b c x y : then_ a b x -> then_ b c y -> then_ a c (x ++ y).
Proof. unfold then_. intros H1 H2. rewrite H2, H1. now rewrite app_assoc. Qed.
Lemma then_mem s m e : then_ s (set_mem B s m e) [e]. Proof. reflexivity. Qed.
Lemma then_ptr s n p g : then_ s (set_ptr B s n p g) [EvAlloc B n p]. Proof. reflexivity. Qed.

Lemma pointer_ev s n s' oc : pointer B s n s' oc -> exists new, then_ s s' new /\ quiet new.
Proof. intros H. inversion H; subst; [exists []|exists [EvAlloc B n p]|exists []]; split; try reflexivity; try apply then_nil. Qed.
Lemma htod_ev s n p s' oc : copy_htod B s n p = (s', oc) -> exists new, then_ s s' new /\ quiet new.
Proof.
  unfold copy_htod. destruct (dv_host B s n); [|intros H; injection H as <- _; exists []; split; [apply then_nil|reflexivity]]. destruct (nth_error _ _); [|intros H; injection H as <- _; exists []; split; [apply then_nil|reflexivity]].
  destruct (forallb _ _); [|intros H; injection H as <- _; exists []; split; [apply then_nil|reflexivity]]. destruct (dv_mem B s p); intros H; injection H as <- _; [exists [EvHtoD B n p]; split; reflexivity|exists []; split; [apply then_nil|reflexivity]].
Qed.
Lemma quiet_app a b : quiet a -> quiet b -> quiet (a ++ b).
Proof. unfold quiet. rewrite launches_app. intros -> ->. reflexivity. Qed.
Lemma prep1_ev out s n s' oc : prep1 B out s n s' oc -> exists new, then_ s s' new /\ quiet new.
Proof.
  intros H. inversion H; subst; try (eapply pointer_ev; eauto; fail);
  match goal with HP : pointer _ _ _ _ _, HC : copy_htod _ _ _ _ = _ |- _ => apply pointer_ev in HP as (x & X1 & X2); apply htod_ev in HC as (y & Y1 & Y2) end;
  exists (x ++ y); (split; [eapply then_app; eauto|now apply quiet_app]).
Qed.
Lemma prep_ev out s ns s' oc : prep B out s ns s' oc -> exists new, then_ s s' new /\ quiet new.
Proof.
  induction 1 as [out s|out s n r s1 e H|out s n r s1 p s2 oc H1 H2 IH]; [exists []; split; [apply then_nil|reflexivity]|eapply prep1_ev; eauto|].
  apply prep1_ev in H1 as (x & X1 & X2). destruct IH as (y & Y1 & Y2). exists (x ++ y). split; [eapply then_app; eauto|now apply quiet_app].
Qed.
(* backend.py:41-64: a kernel that ran was launched once, last, on the buffers that were passed; one that failed was not launched *)
Lemma ginvoke_ev s sc kern n ns s' oc : ginvoke B s sc kern n ns s' oc ->
  exists new, then_ s s' new /\ match oc with
    | Done _ => exists es p ins, new = es ++ [EvLaunch B n p ins] /\ quiet es /\ forall m q vs, In (m, q, vs) ins -> In m ns
    | Throw InternalErr => True
    | Throw _ => quiet new
    end.
Proof.
  intros H. inversion H as [s1 e HP|s1 p ps s2 oc0 HP HL]; subst.
  - apply prep_ev in HP as (x & X1 & X2). exists x. split; [exact X1|]. destruct e; auto.
  - apply prep_ev in HP as (x & X1 & X2). inversion HL; subst.
    + exists x. auto.
    + exists (x ++ [EvLaunch B n p (inputs_at B s1 ns ps)]). split; [eapply then_app; [exact X1|apply then_mem]|]. exists x, p, (inputs_at B s1 ns ps). split; [reflexivity|]. split; [exact X2|].
      intros m q vs Hin. unfold inputs_at in Hin. apply in_map_iff in Hin as ([m1 q1] & E & Hin). cbn in E. injection E as <- <- _. now apply in_combine_l in Hin.
    + eexists. split; [eapply then_app; [exact X1|apply then_mem]|exact I].
Qed.
Lemma grun_func_ev E fd sc s s' oc : grun_func B E fd sc s s' oc ->
  exists new, then_ s s' new /\ match oc with
    | Done _ => exists bufs es p ins, mapOut (arg_buffer E) (func_args (f_expr fd)) = Done bufs /\ new = es ++ [EvLaunch B (f_out fd) p ins] /\ quiet es /\ forall m q vs, In (m, q, vs) ins -> In m bufs
    | Throw InternalErr => True
    | Throw _ => quiet new
    end.
Proof.
  intros H. inversion H; subst; try (exists []; split; [apply then_nil|destruct e; reflexivity || exact I]);
  match goal with HI : ginvoke _ _ _ _ _ _ _ _ |- _ => apply ginvoke_ev in HI as (x & X1 & X2) end; exists x; (split; [exact X1|]); destruct oc as [u|e]; auto;
  destruct X2 as (es & p & ins & Y1 & Y2 & Y3); exists bufs, es, p, ins; auto.
Qed.

(* the inputs of every launch are literals or arrays launched before; [before]: the launches so far in this call *)
Fixpoint ordered (g : graph) (before : list nat) (tr : list event) : Prop :=
  match tr with
  | [] => True
  | EvLaunch _ f _ ins :: r => (forall m q vs, In (m, q, vs) ins -> (exists nd vals, nth_error g m = Some nd /\ n_op nd = OConst vals) \/ In m before) /\ ordered g (before ++ [f]) r
  | _ :: r => ordered g before r
  end.
Lemma ordered_quiet g es : quiet es -> forall before r, ordered g before r -> ordered g before (es ++ r).
Proof. induction es as [|e es IH]; intros Hq before r H; cbn; auto. destruct e; try (apply IH; auto; fail). discriminate. Qed.
Lemma ordered_at g n1 : forall before f p ins n2, ordered g before (n1 ++ EvLaunch B f p ins :: n2) -> forall m q vs, In (m, q, vs) ins -> (exists nd vals, nth_error g m = Some nd /\ n_op nd = OConst vals) \/ In m (before ++ launches n1).
Proof.
  induction n1 as [|e n1 IH]; intros before f p ins n2 H m q vs Hin; cbn in H.
  - cbn. rewrite app_nil_r. eapply H; eauto.
  - destruct e; cbn [launches]; try (eapply IH; eauto; fail). destruct H as [_ H]. destruct (IH _ _ _ _ _ H m q vs Hin) as [|HI]; auto. right. rewrite <- app_assoc in HI. exact HI.
Qed.

Section Conv.
Context (g : graph) (a : nat) (E : fenv) (Hr : reach g) (Ha : valid g a).
Lemma grun_funcs_ev fs l2 : convert g a = Done (E, fs) -> forall l1 l s s' oc, fs = l1 ++ l2 -> mapOut (gschedule_one E) l2 = Done l -> grun_funcs B E l s s' oc -> oc <> Throw InternalErr ->
  exists new r, then_ s s' new /\ l2 = launches new ++ r /\ (oc = Done tt -> r = []) /\ ordered g l1 new.
Proof using Hr Ha.
  intros HCV. induction l2 as [|f l2 IH]; intros l1 l s s' oc Hfs HM H Ho; cbn [mapOut] in HM.
  - injection HM as <-. inversion H; subst. exists [], []. split; [apply then_nil|]. repeat split.
  - apply obind_Done in HM as ([fd sc] & H1 & HM). apply obind_Done in HM as (r & H2 & HM). injection HM as <-.
    assert (Hfd : E f = Some fd).
    { unfold gschedule_one in H1. apply obind_Done in H1 as (fd0 & Hfd & H1). apply obind_Done in H1 as (sc0 & _ & H1). destruct (forallb _ _); [|discriminate]. injection H1 as -> ->. unfold throw_none in Hfd. destruct (E f); congruence. }
    destruct (dependency_order g a E fs Hr Ha (converted_ns _ _ _ _ Hr Ha HCV) HCV) as (_ & _ & _ & HD). destruct (HD l1 f l2 Hfs) as (fd' & Hfd' & Hout & _). assert (fd' = fd) by congruence. subst fd'.
    inversion H as [|? ? ? ? ? e HF|? ? ? ? s1 ? ? HF HR]; subst.
    + apply grun_func_ev in HF as (x & X1 & X2). exists x, (f_out fd :: l2). split; [exact X1|]. assert (Hq : quiet x) by (destruct e; auto; congruence). split; [now rewrite Hq|]. split; [discriminate|].
      rewrite <- (app_nil_r x). apply ordered_quiet; [exact Hq|exact I].
    + apply grun_func_ev in HF as (x & X1 & (bufs & es & p & ins & Y1 & Y2 & Y3 & Y4)). destruct (IH (l1 ++ [f_out fd]) r s1 s' oc) as (y & r' & Z1 & Z2 & Z3 & Z4); auto; [rewrite <- app_assoc; reflexivity|].
      exists (x ++ y), r'. split; [eapply then_app; eauto|]. split; [|split; [exact Z3|]].
      * subst x. rewrite !launches_app, Y3. cbn. now rewrite <- Z2.
      * subst x. rewrite <- app_assoc. apply ordered_quiet; [exact Y3|]. cbn. split; [|exact Z4]. intros m q vs Hin.
        destruct (args_known g a E Hr Ha _ l1 (f_out fd) l2 fd bufs m HCV eq_refl Hfd Y1 (Y4 m q vs Hin)) as [_ HX]. exact HX.
Qed.
End Conv.

Lemma nodup_left {A} (l m : list A) : NoDup (l ++ m) -> NoDup l.
Proof. induction l as [|x l IH]; intros H; [constructor|]. inversion H; subst. constructor; auto. intros Hin. apply H2, in_or_app. now left. Qed.
(* the whole call; b: the array that is computed when a is a view *)
Lemma gmat_ev g a b : view_of g false a b -> forall s s' oc bd, dv_graph B s = g -> reach g -> nth_error g b = Some bd -> gmat B s a s' oc ->
  if is_const (n_op bd) then s' = s /\ oc = Done tt
  else oc <> Throw InternalErr -> exists new, then_ s s' new /\ ordered g [] new /\ NoDup (launches new) /\ (forall f, In f (launches new) -> cone g b f) /\
       (oc = Done tt -> exists l, launches new = l ++ [b]) /\ (forall E fs, convert g b = Done (E, fs) -> exists r, fs = launches new ++ r /\ (oc = Done tt -> r = [])).
Proof.
  induction 1 as [a nd Hn Hv|a nd c cd b Hn Hv Hi Hcd Hal Hv2 IH]; intros s s' oc bd Hg Hr Hbd HM; pose proof (reach_wf _ Hr) as Hw; subst g.
  - assert (bd = nd) by congruence. subst bd. inversion HM as [? nd' Hn' Hc|? nd' c' r ? ? Hn' Hv' Hi' HM'|? nd' ? ? Hn' Hc Hv' HC]; subst; assert (nd' = nd) by congruence; subst nd'.
    + rewrite Hc. auto.
    + congruence.
    + rewrite Hc. intros Ho. assert (Ha : valid (dv_graph B s) a) by (unfold valid; apply nth_error_Some; congruence).
      inversion HC as [e HE|E fs e HE HS|E fs l ? ? HE HS HR]; subst.
      * exists []. split; [apply then_nil|]. split; [exact I|]. split; [constructor|]. split; [intros f []|]. split; [discriminate|]. intros E fs HX. exists fs. split; [reflexivity|discriminate].
      * exists []. split; [apply then_nil|]. split; [exact I|]. split; [constructor|]. split; [intros f []|]. split; [discriminate|]. intros E' fs' HX. exists fs'. split; [reflexivity|discriminate].
      * destruct (grun_funcs_ev (dv_graph B s) a E Hr Ha fs fs HE [] l s s' oc eq_refl HS HR Ho) as (new & r & N1 & N2 & N3 & N4).
        destruct (dependency_order _ a E fs Hr Ha (converted_ns _ _ _ _ Hr Ha HE) HE) as (D1 & (l0 & D2) & D3 & _).
        exists new. split; [exact N1|]. split; [exact N4|]. rewrite N2 in D1, D3. split; [eapply nodup_left; eauto|]. split; [intros f Hf; apply D3, in_or_app; now left|].
        split; [intros Hd; exists l0; rewrite (N3 Hd), app_nil_r in N2; congruence|]. intros E' fs' HE'. exists r. assert (fs' = fs) by congruence. split; [congruence|exact N3].
  - inversion HM as [? nd' Hn' Hc|? nd' c' r ? ? Hn' Hv' Hi' HM'|? nd' ? ? Hn' Hc Hv' HC]; subst; assert (nd' = nd) by congruence; subst nd'.
    + destruct (n_op nd); discriminate.
    + rewrite Hi' in Hi. cbn in Hi. injection Hi as ->. eapply IH; eauto.
    + congruence.
Qed.
End Order.
