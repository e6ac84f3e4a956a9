(* backward() as a whole. *)
From Verif Require Import Base BaseFacts Util UtilFacts Lang Spec SpecFacts Graph Api Denote DenoteFacts Reach ApiFacts
  FrontSpec FrontFacts FrontFacts2 FrontFacts3 FrontFacts4 Backward BackSpec BackOrder BackSteps BackIdx BackSlice BackRules BackRun.

(* ---- whatever happens, a successful backward() only appends to the graph ---- *)
Lemma call_ext g c g' r : run_call g c = Done (g', r) -> extends g g'.
Proof. intros H. destruct (run_call_appends _ _ _ _ H) as (h & E & _). now exists h. Qed.
Lemma ext_unary g u a g' r : api_unary g u a = Done (g', r) -> extends g g'.
Proof. exact (call_ext g (CUnary u a) g' r). Qed.
Lemma ext_binary g b x y g' r : api_binary g b x y = Done (g', r) -> extends g g'.
Proof. exact (call_ext g (CBinary b x y) g' r). Qed.
Lemma ext_binary_scalar g b x v g' r : api_binary_scalar g b x v = Done (g', r) -> extends g g'.
Proof. exact (call_ext g (CBinaryScalar b x v) g' r). Qed.
Lemma ext_reshape g x s g' r : api_reshape g x s = Done (g', r) -> extends g g'.
Proof. exact (call_ext g (CReshape x s) g' r). Qed.
Lemma ext_broadcast_to g x s g' r : api_broadcast_to g x s = Done (g', r) -> extends g g'.
Proof. exact (call_ext g (CBroadcastTo x s) g' r). Qed.
Lemma ext_transpose g x s g' r : api_transpose g x s = Done (g', r) -> extends g g'.
Proof. exact (call_ext g (CTranspose x s) g' r). Qed.
Lemma ext_getitem g x s g' r : api_getitem g x s = Done (g', r) -> extends g g'.
Proof. exact (call_ext g (CGetitem x s) g' r). Qed.
Lemma ext_sum g x s k g' r : api_sum g x s k = Done (g', r) -> extends g g'.
Proof. exact (call_ext g (CSum x s k) g' r). Qed.
Lemma ext_pad g x a b c g' r : api_pad g x a b c = Done (g', r) -> extends g g'.
Proof. exact (call_ext g (CPad x a b c) g' r). Qed.
Lemma ext_dilate g x a b g' r : api_dilate g x a b = Done (g', r) -> extends g g'.
Proof. exact (call_ext g (CDilate x a b) g' r). Qed.
Lemma ext_ones_like g x g' r : api_ones_like g x = Done (g', r) -> extends g g'.
Proof. exact (call_ext g (COnesLike x) g' r). Qed.

Ltac ext_facts :=
  repeat match goal with
  | H : api_unary _ _ _ = Done _ |- _ => apply ext_unary in H
  | H : api_binary _ _ _ _ = Done _ |- _ => apply ext_binary in H
  | H : api_binary_scalar _ _ _ _ = Done _ |- _ => apply ext_binary_scalar in H
  | H : api_reshape _ _ _ = Done _ |- _ => apply ext_reshape in H
  | H : api_broadcast_to _ _ _ = Done _ |- _ => apply ext_broadcast_to in H
  | H : api_transpose _ _ _ = Done _ |- _ => apply ext_transpose in H
  | H : api_getitem _ _ _ = Done _ |- _ => apply ext_getitem in H
  | H : api_sum _ _ _ _ = Done _ |- _ => apply ext_sum in H
  | H : api_pad _ _ _ _ _ = Done _ |- _ => apply ext_pad in H
  | H : api_dilate _ _ _ _ = Done _ |- _ => apply ext_dilate in H
  | H : api_ones_like _ _ = Done _ |- _ => apply ext_ones_like in H
  end.
Ltac undone := repeat match goal with
  | H : Done _ = Done _ |- _ => injection H as; subst
  | H : Throw _ = Done _ |- _ => discriminate H
  | H : obind ?o _ = Done _ |- _ => destruct o eqn:?; cbn [obind] in H
  | H : (let '(_, _) := ?p in _) = Done _ |- _ => destruct p
  | H : (if ?b then _ else _) = Done _ |- _ => destruct b
  end.
Ltac ext_go := ext_facts; subst; repeat first [apply ext_refl | eassumption | eapply ext_trans; [eassumption|]].

Lemma bw_slice_appends : forall subs ish g gr gd g' r, bw_slice g gr gd subs ish = Done (g', r) -> extends g g'.
Proof.
  induction subs as [|[s|a b st] subs IH]; intros [|n ish] g gr gd g' r H; cbn [bw_slice] in H; undone; ext_facts; try apply ext_refl;
    apply IH in H; ext_go.
Qed.
Lemma bw_rule_appends g nd o gr g' rs : bw_rule g nd o gr = Done (g', rs) -> extends g g'.
Proof.
  unfold bw_rule, inp. intros H. destruct (n_op nd) as [vals|u|b|ax kd|t|t|axes|subs| |d bf af|d st]; [|destruct u|destruct b|..]; undone; ext_go.
  match goal with X : bw_slice _ _ _ _ _ = Done _ |- _ => exact (bw_slice_appends _ _ _ _ _ _ _ X) end.
Qed.
Lemma add_grads_appends : forall xs g gs g' gs', add_grads g gs xs = Done (g', gs') -> extends g g'.
Proof.
  induction xs as [|[x gx] xs IH]; intros g gs g' gs' H; cbn [add_grads] in H; undone; [apply ext_refl|].
  apply IH in H. unfold add_grad in *. destruct (gs x); undone; ext_go.
Qed.
Lemma run_funcs_appends : forall fs g gs g' gs' tr, run_funcs g gs fs = Done (g', gs', tr) -> extends g g'.
Proof.
  induction fs as [|f fs IH]; intros g gs g' gs' tr H; cbn [run_funcs] in H; undone; [apply ext_refl|].
  repeat match goal with H : bw_rule _ _ _ _ = Done _ |- _ => apply bw_rule_appends in H
  | H : add_grads _ _ _ = Done _ |- _ => apply add_grads_appends in H | H : run_funcs _ _ _ = Done _ |- _ => apply IH in H end. ext_go.
Qed.
Lemma backward_trace_appends g gs y g' gs' tr : backward_trace g gs y = Done (g', gs', tr) -> extends g g'.
Proof.
  unfold backward_trace. intros H. destruct (gs y) as [o|]; undone; apply run_funcs_appends in H; ext_go.
Qed.

(* ---- progress and invariants ---- *)
Lemma depends_ext g g' y n : extends g g' -> reach g -> valid g y -> depends g' y n <-> depends g y n.
Proof.
  intros He Hr Hv. split.
  - intros H. revert Hv. induction H as [|y nd a n Hy Ha H IH]; intros Hv; [constructor|].
    destruct (valid_node _ _ Hv) as [nd' Hn']. pose proof (ext_node _ _ _ _ He Hn') as E. rewrite Hy in E. injection E as ->.
    eapply dep_step; eauto. apply IH. pose proof (reach_inputs_lt _ Hr _ _ Hn') as HF. rewrite Forall_forall in HF. specialize (HF a Ha). unfold valid in *. lia.
  - induction 1; [constructor|]. eapply dep_step; eauto using ext_node. apply IHdepends.
    pose proof (reach_inputs_lt _ Hr _ _ H) as HF. rewrite Forall_forall in HF. specialize (HF a H0). unfold valid in *. lia.
Qed.
Lemma depends_valid g y n : reach g -> valid g y -> depends g y n -> valid g n.
Proof.
  intros Hr Hv H. assert (n <= y)%nat; [|unfold valid in *; lia].
  induction H as [|y nd a n Hy Ha H IH]; [lia|]. pose proof (reach_inputs_lt _ Hr _ _ Hy) as HF. rewrite Forall_forall in HF. specialize (HF a Ha).
  assert (n <= a)%nat by (apply IH; unfold valid in *; lia). lia.
Qed.
Lemma regular_ext g g' y : extends g g' -> reach g -> valid g y -> regular g y -> regular g' y.
Proof.
  intros He Hr Hv H n nd a Hd Hn Ha. apply (depends_ext _ _ _ _ He Hr Hv) in Hd. pose proof (depends_valid _ _ _ Hr Hv Hd) as Vn.
  destruct (valid_node _ _ Vn) as [nd' Hn']. pose proof (ext_node _ _ _ _ He Hn') as E. rewrite Hn in E. injection E as ->.
  pose proof (reach_inputs_lt _ Hr _ _ Hn') as HF. rewrite Forall_forall in HF. specialize (HF a (nth_error_In _ _ Ha)).
  rewrite (ext_shape _ _ _ He) by (unfold valid in *; lia). eapply H; eauto.
Qed.

(* the state in which the loop starts *)
Definition started (A : valg) (g : graph) (gs : grads) (y : nat) (g1 : graph) (gs1 : grads) : Prop :=
  match gs y with
  | Some _ => g1 = g /\ gs1 = gs
  | None => exists o z, gs1 = set_grad gs y o /\ valid g1 o /\ shape_of g1 o = shape_of g y /\ (z = NInt 1 \/ z = NFlt 1 0) /\
              forall idx, in_range (shape_of g y) idx -> t_at (den A g1 o) idx = Ok (of_num A z)
  end.

Section T.
Context (A : valg) (Hco : forall dt v, coerce A dt v = v).
Lemma start_total g gs y : reach g -> valid g y -> grads_ok g gs -> regular g y ->
  exists g1 gs1, started A g gs y g1 gs1 /\ binv g1 y gs g1 gs1 [] /\ extends g g1 /\ regular g1 y /\ valid g1 y /\
    backward_trace g gs y = run_funcs g1 gs1 (order g1 y) /\ (forall n, n <> y -> gs1 n = gs n).
Proof.
  intros Hr Hv Hg HR. unfold started, backward_trace. destruct (gs y) as [o|] eqn:E.
  - exists g, gs. split; [auto|]. split.
    { constructor; [assumption|apply ext_refl|assumption| |auto]. intros n [->|(c & [] & _)]. congruence. }
    split; [apply ext_refl|]. split; [assumption|]. split; [assumption|]. split; [reflexivity|reflexivity].
  - destruct (st_ones_like A Hco g y Hr Hv) as (g1 & o & z & [D1 R1 E1 V1 S1 A1] & Hz). rewrite D1. cbn [obind].
    exists g1, (set_grad gs y o). split; [exists o, z; auto|]. split.
    { constructor; [assumption|apply ext_refl| | |].
      - apply grads_ok_set; eauto using grads_ok_ext, ext_valid. now rewrite (ext_shape _ _ _ E1 Hv).
      - intros n [->|(c & [] & _)]. rewrite set_grad_same. discriminate.
      - intros n Hn. destruct (Nat.eq_dec n y) as [->|Hne]; [auto|]. rewrite set_grad_other in Hn by assumption. auto. }
    split; [assumption|]. split; [eapply regular_ext; eauto|]. split; [eauto using ext_valid|]. split; [reflexivity|].
    intros n Hn. now apply set_grad_other.
Qed.

(* the whole call *)
Lemma backward_total g gs y : reach g -> valid g y -> grads_ok g gs -> regular g y ->
  exists g' gs' tr, backward_trace g gs y = Done (g', gs', tr) /\ reach g' /\ extends g g' /\ grads_ok g' gs' /\
    (forall n, depends g y n -> gs' n <> None) /\
    (forall n, gs' n <> None -> gs n <> None \/ depends g y n) /\
    NoDup (map fst tr) /\
    (forall n, In n (map fst tr) <-> depends g y n /\ is_op g n) /\
    (forall l1 n l2 c, map fst tr = l1 ++ n :: l2 -> depends g y c -> operand g c n -> In c l1) /\
    Forall (fun '(f, gr) => gs' f = Some gr) tr.
Proof.
  intros Hr Hv Hg HR. destruct (start_total g gs y Hr Hv Hg HR) as (g1 & gs1 & HS & HB & HE & HR1 & Hv1 & HD & _). rewrite HD.
  pose proof (bi_reach _ _ _ _ _ _ HB) as Hr1.
  destruct (run_total A Hco g1 y Hr1 Hv1 HR1 (fun _ _ _ => True) gs (fun _ _ _ _ _ _ _ _ _ _ _ _ _ _ _ => I) (order g1 y) [] g1 gs1 eq_refl HB I)
    as (g' & gs' & tr & D & B & _ & E & M & F & _).
  exists g', gs', tr. split; [exact D|]. split; [apply B|]. split; [eauto using ext_trans|]. split; [apply B|].
  destruct (order_spec g1 (reach_inputs_lt _ Hr1) y Hv1) as (O1 & O2 & O3).
  assert (Hop : forall n, depends g y n -> is_op g1 n <-> is_op g n).
  { intros n Hd. pose proof (depends_valid _ _ _ Hr Hv Hd) as Vn. destruct (valid_node _ _ Vn) as [nd Hn]. pose proof (ext_node _ _ _ _ HE Hn) as Hn1.
    unfold is_op. rewrite Hn, Hn1. tauto. }
  assert (Ho : forall c n, depends g y c -> operand g1 c n <-> operand g c n).
  { intros c n Hd. pose proof (depends_valid _ _ _ Hr Hv Hd) as Vn. destruct (valid_node _ _ Vn) as [nd Hn]. pose proof (ext_node _ _ _ _ HE Hn) as Hn1.
    unfold operand. rewrite Hn, Hn1. tauto. }
  assert (HO2 : forall n, In n (order g1 y) <-> depends g y n /\ is_op g n).
  { intros n. rewrite O2, (depends_ext _ _ _ _ HE Hr Hv). split; intros (H1 & H2); (split; [assumption|]); apply (Hop n H1); assumption. }
  split.
  { intros n Hd. apply (bi_some _ _ _ _ _ _ B). destruct (depends_consumer g y n Hd) as [->|(c & Hc & Hu)]; [auto|]. right. exists c. split; [|apply Ho; assumption].
    apply HO2. split; [assumption|]. destruct Hu as (nd & E' & Hi). exists nd. split; [assumption|]. intros Hx. rewrite Hx in Hi. destruct Hi. }
  split.
  { intros n Hn. destruct (bi_from _ _ _ _ _ _ B n Hn) as [H|[->|(c & Hc & Hu)]]; [auto|right; constructor|]. right. apply HO2 in Hc as (Hc & _).
    apply (Ho c n Hc) in Hu. destruct Hu as (nd & E' & Hi). eapply depends_trans; [exact Hc|]. eapply dep_step; eauto. constructor. }
  rewrite M. split; [assumption|]. split; [assumption|]. split; [|assumption].
  intros l1 n l2 c El Hd Hu. eapply O3; eauto; [apply (depends_ext _ _ _ _ HE Hr Hv); assumption|apply Ho; assumption].
Qed.
End T.

(* ---- trace facts for any successful call, without conditions on the operations ---- *)
Lemma add_grads_other : forall xs g gs g' gs' n, add_grads g gs xs = Done (g', gs') -> ~ In n (map fst xs) -> gs' n = gs n.
Proof.
  induction xs as [|[x gx] xs IH]; intros g gs g' gs' n H Hn; cbn [add_grads] in H; undone; [reflexivity|]. cbn in Hn.
  rewrite (IH _ _ _ _ n H) by intuition. unfold add_grad in *. destruct (gs x); undone; apply set_grad_other; intuition congruence.
Qed.
Lemma map_fst_combine_incl {X Y} (l : list X) (m : list Y) a : In a (map fst (combine l m)) -> In a l.
Proof. intros H. apply in_map_iff in H as ((u & v) & E & H). cbn in E. subst. now apply in_combine_l in H. Qed.
Lemma run_funcs_trace : forall fs g0 g gs g' gs' tr, run_funcs g gs fs = Done (g', gs', tr) -> extends g0 g -> Forall (valid g0) fs ->
  map fst tr = fs /\
  (forall n, (forall f, In f fs -> ~ operand g0 f n) -> gs' n = gs n) /\
  ((forall l1 n l2 c, fs = l1 ++ n :: l2 -> In c l2 -> ~ operand g0 c n) -> (forall f, In f fs -> ~ operand g0 f f) ->
   forall n gr, In (n, gr) tr -> gs' n = Some gr).
Proof.
  induction fs as [|f fs IH]; intros g0 g gs g' gs' tr H He HV; cbn [run_funcs] in H.
  { undone. split; [reflexivity|]. split; [reflexivity|]. intros _ _ n gr []. }
  destruct (get g f) as [nd|] eqn:Hnd; cbn [obind] in H; [|discriminate].
  destruct (gs f) as [gr|] eqn:Eg; cbn [obind] in H; [|discriminate].
  destruct (bw_rule g nd f gr) as [(g1 & gxs)|] eqn:Hr; cbn [obind] in H; [|discriminate].
  destruct (add_grads g1 gs (combine (n_in nd) gxs)) as [(g2 & g3)|] eqn:Ha; cbn [obind] in H; [|discriminate].
  destruct (run_funcs g2 g3 fs) as [((g4 & g5) & tr')|] eqn:Hrun; cbn [obind] in H; [|discriminate].
  injection H as <- <- <-.
  destruct (valid_node _ _ (Forall_inv HV)) as (nd0 & Hn0). pose proof (ext_node _ _ _ _ He Hn0) as Hn1.
  unfold get in Hnd. rewrite Hn1 in Hnd. injection Hnd as <-.
  assert (He2 : extends g0 g2).
  { eapply ext_trans; [exact He|]. eapply ext_trans; [exact (bw_rule_appends _ _ _ _ _ _ Hr)|exact (add_grads_appends _ _ _ _ _ Ha)]. }
  destruct (IH g0 _ _ _ _ _ Hrun He2 (Forall_inv_tail HV)) as (I1 & I2 & I3).
  assert (Hoth : forall n, ~ operand g0 f n -> g3 n = gs n).
  { intros n Hno. eapply add_grads_other; [exact Ha|]. intros Hi. apply map_fst_combine_incl in Hi. apply Hno. exists nd0. auto. }
  split; [cbn; now rewrite I1|]. split.
  - intros n Hno. rewrite I2 by (intros f' Hf'; apply Hno; now right). apply Hoth. apply Hno. now left.
  - intros Hord Hself n gr' [E|Hin].
    + injection E as <- <-. rewrite I2; [rewrite Hoth; [assumption|apply Hself; now left]|]. intros f' Hf'. exact (Hord [] f fs f' eq_refl Hf').
    + apply I3; [|intros f' Hf'; apply Hself; now right|assumption]. intros l1 m l2 c E. apply (Hord (f :: l1) m l2 c). cbn. now rewrite E.
Qed.
Lemma NoDup_app_disj {X} (l m : list X) : NoDup (l ++ m) -> forall a, In a l -> ~ In a m.
Proof. induction l as [|b l IH]; cbn; intros H a; [tauto|]. inversion H; subst. intros [->|Ha] Hm; [apply H2; apply in_app_iff; now right|]. exact (IH H3 a Ha Hm). Qed.
Lemma operand_lt g c n : reach g -> operand g c n -> (n < c)%nat.
Proof. intros Hr (nd & E & Hi). pose proof (reach_inputs_lt _ Hr _ _ E) as HF. rewrite Forall_forall in HF. auto. Qed.
Lemma operand_ext g g' c n : extends g g' -> valid g c -> operand g' c n <-> operand g c n.
Proof. intros He Hv. destruct (valid_node _ _ Hv) as (nd & Hn). pose proof (ext_node _ _ _ _ He Hn) as Hn'. unfold operand. rewrite Hn, Hn'. tauto. Qed.
Lemma is_op_ext g g' n : extends g g' -> valid g n -> is_op g' n <-> is_op g n.
Proof. intros He Hv. destruct (valid_node _ _ Hv) as (nd & Hn). pose proof (ext_node _ _ _ _ He Hn) as Hn'. unfold is_op. rewrite Hn, Hn'. tauto. Qed.

Lemma backward_trace_spec g gs y g' gs' tr : reach g -> valid g y -> backward_trace g gs y = Done (g', gs', tr) ->
  NoDup (map fst tr) /\ (forall n, In n (map fst tr) <-> depends g y n /\ is_op g n) /\
  (forall l1 n l2 c, map fst tr = l1 ++ n :: l2 -> depends g y c -> operand g c n -> In c l1) /\
  (forall n gr, In (n, gr) tr -> gs' n = Some gr).
Proof.
  intros Hr Hv H. unfold backward_trace in H.
  assert (HS : exists g1 gs1, extends g g1 /\ reach g1 /\ run_funcs g1 gs1 (order g1 y) = Done (g', gs', tr)).
  { destruct (gs y).
    - cbn [obind] in H. exists g, gs. split; [apply ext_refl|]. auto.
    - destruct (api_ones_like g y) as [(g1 & o)|] eqn:E; [|discriminate]. cbn [obind] in H. exists g1, (set_grad gs y o).
      split; [exact (ext_ones_like _ _ _ _ E)|]. split; [|exact H]. exact (reach_call g (COnesLike y) g1 o Hr Hv E). }
  destruct HS as (g1 & gs1 & HE & Hr1 & HRun). pose proof (ext_valid _ _ _ HE Hv) as Hv1.
  destruct (order_spec g1 (reach_inputs_lt _ Hr1) y Hv1) as (O1 & O2 & O3).
  assert (HO : Forall (valid g1) (order g1 y)).
  { apply Forall_forall. intros n Hn. apply O2 in Hn as (Hd & _). exact (depends_valid _ _ _ Hr1 Hv1 Hd). }
  destruct (run_funcs_trace _ g1 _ _ _ _ _ HRun (ext_refl _) HO) as (T1 & _ & T3). rewrite T1.
  split; [assumption|]. split.
  { intros n. rewrite O2, (depends_ext _ _ _ _ HE Hr Hv). split; intros (H1 & H2); (split; [assumption|]);
      apply (is_op_ext _ _ _ HE (depends_valid _ _ _ Hr Hv H1)); assumption. }
  split.
  { intros l1 n l2 c El Hd Hu. eapply O3; [exact El|now apply (depends_ext _ _ _ _ HE Hr Hv)|].
    apply (operand_ext _ _ _ _ HE); [exact (depends_valid _ _ _ Hr Hv Hd)|assumption]. }
  intros n gr Hn. apply T3; [| |assumption].
  - intros l1 m l2 c El Hc Hop.
    assert (Hc1 : In c (order g1 y)) by (rewrite El; apply in_app_iff; right; now right).
    apply O2 in Hc1 as (Hdc & _). pose proof (O3 l1 m l2 El c Hdc Hop) as Hcl.
    rewrite El in O1. apply (NoDup_app_disj _ _ O1 c Hcl). now right.
  - intros f _ Hf. pose proof (operand_lt _ _ _ Hr1 Hf). lia.
Qed.
