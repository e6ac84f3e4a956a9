(* The loop of backward(): progress, shapes, order, and the induction principle for its states. *)
From Verif Require Import Base BaseFacts Util UtilFacts Lang Spec SpecFacts Graph Api Denote DenoteFacts Reach ApiFacts
  FrontSpec FrontFacts FrontFacts2 FrontFacts3 FrontFacts4 Backward BackSpec BackOrder BackSteps BackIdx BackSlice BackRules.

(* every recorded gradient is an array of the shape of its owner *)
Definition grads_ok (g : graph) (gs : grads) : Prop :=
  forall n r, gs n = Some r -> valid g n /\ valid g r /\ shape_of g r = shape_of g n.

Lemma grads_ok_ext g g' gs : extends g g' -> grads_ok g gs -> grads_ok g' gs.
Proof.
  intros He H n r Hn. destruct (H n r Hn) as (V1 & V2 & S). split; [eauto using ext_valid|]. split; [eauto using ext_valid|].
  rewrite (ext_shape _ _ _ He V1), (ext_shape _ _ _ He V2). exact S.
Qed.
Lemma set_grad_same gs x r : set_grad gs x r x = Some r.
Proof. unfold set_grad. now rewrite Nat.eqb_refl. Qed.
Lemma set_grad_other gs x r n : n <> x -> set_grad gs x r n = gs n.
Proof. intros H. unfold set_grad. destruct (Nat.eqb_spec n x); [congruence|reflexivity]. Qed.
Lemma grads_ok_set g gs x r : grads_ok g gs -> valid g x -> valid g r -> shape_of g r = shape_of g x -> grads_ok g (set_grad gs x r).
Proof.
  intros H V1 V2 S n r'. destruct (Nat.eq_dec n x) as [->|Hn]; [rewrite set_grad_same; injection 1 as <-; auto|].
  rewrite set_grad_other by assumption. apply H.
Qed.

Lemma reach_inputs_lt g : reach g -> forall n nd, nth_error g n = Some nd -> Forall (fun a => (a < n)%nat) (n_in nd).
Proof. intros Hr n nd. apply wf_inputs_lt. now apply reach_wf. Qed.

Section R.
Context (A : valg) (Hco : forall dt v, coerce A dt v = v).

Lemma add_grad_spec g gs x gx : reach g -> grads_ok g gs -> valid g x -> valid g gx -> shape_of g gx = shape_of g x ->
  exists g' r, add_grad g gs x gx = Done (g', set_grad gs x r) /\ reach g' /\ extends g g' /\ grads_ok g' (set_grad gs x r) /\
    forall idx, in_range (shape_of g x) idx ->
      t_at (den A g' r) idx =
        match gs x with None => t_at (den A g gx) idx
        | Some old => u <- t_at (den A g old) idx ;; v <- t_at (den A g gx) idx ;; of_opt (bin A BAdd u v) end.
Proof.
  intros Hr Hg Vx Vg S. unfold add_grad. destruct (gs x) as [old|] eqn:E.
  - destruct (Hg x old E) as (_ & Vo & So).
    destruct (st_binary A Hco g BAdd old gx (shape_of g x) Hr Vo Vg So S) as (g' & r & [D R E1 V S1 A1]).
    rewrite D. cbn [obind]. exists g', r. split; [reflexivity|]. split; [assumption|]. split; [assumption|].
    split; [|exact A1]. apply grads_ok_set; eauto using grads_ok_ext, ext_valid. now rewrite (ext_shape _ _ _ E1 Vx).
  - exists g, gx. split; [reflexivity|]. split; [assumption|]. split; [apply ext_refl|]. split; [now apply grads_ok_set|reflexivity].
Qed.

(* one step of accumulation, seen by a reader of the gradients *)
Inductive accum : graph -> grads -> list (nat * nat) -> graph -> grads -> Prop :=
| acc_nil g gs : accum g gs [] g gs
| acc_cons g gs x gx l g1 r g2 gs2 :
    reach g1 -> extends g g1 -> valid g x -> valid g gx -> shape_of g gx = shape_of g x -> grads_ok g gs -> grads_ok g1 (set_grad gs x r) ->
    (forall idx, in_range (shape_of g x) idx ->
      t_at (den A g1 r) idx = match gs x with None => t_at (den A g gx) idx
        | Some old => u <- t_at (den A g old) idx ;; v <- t_at (den A g gx) idx ;; of_opt (bin A BAdd u v) end) ->
    accum g1 (set_grad gs x r) l g2 gs2 -> accum g gs ((x, gx) :: l) g2 gs2.

Lemma add_grads_spec : forall xs g gs, reach g -> grads_ok g gs ->
  Forall (fun '(x, gx) => valid g x /\ valid g gx /\ shape_of g gx = shape_of g x) xs ->
  exists g' gs', add_grads g gs xs = Done (g', gs') /\ reach g' /\ extends g g' /\ grads_ok g' gs' /\ accum g gs xs g' gs'.
Proof.
  induction xs as [|[x gx] xs IH]; intros g gs Hr Hg HF.
  - exists g, gs. split; [reflexivity|]. split; [assumption|]. split; [apply ext_refl|]. split; [assumption|]. constructor.
  - pose proof (Forall_inv HF) as (V1 & V2 & S). apply Forall_inv_tail in HF. cbn [add_grads].
    destruct (add_grad_spec g gs x gx Hr Hg V1 V2 S) as (g1 & r & D1 & R1 & E1 & G1 & A1). rewrite D1. cbn [obind].
    destruct (IH g1 (set_grad gs x r) R1 G1) as (g2 & gs2 & D2 & R2 & E2 & G2 & A2).
    { eapply Forall_impl; [|exact HF]. intros [x' gx'] (W1 & W2 & W3). split; [eauto using ext_valid|]. split; [eauto using ext_valid|].
      now rewrite (ext_shape _ _ _ E1 W1), (ext_shape _ _ _ E1 W2). }
    exists g2, gs2. rewrite D2. split; [reflexivity|]. split; [assumption|]. split; [eauto using ext_trans|]. split; [assumption|]. exact (acc_cons g gs x gx xs g1 r g2 gs2 R1 E1 V1 V2 S Hg G1 A1 A2).
Qed.

Lemma accum_other xs g gs g' gs' n : accum g gs xs g' gs' -> ~ In n (map fst xs) -> gs' n = gs n.
Proof. induction 1; intros Hn; [reflexivity|]. cbn in Hn. rewrite IHaccum by intuition. apply set_grad_other. intuition congruence. Qed.
Lemma accum_some xs g gs g' gs' n : accum g gs xs g' gs' -> gs n <> None \/ In n (map fst xs) -> gs' n <> None.
Proof.
  induction 1; cbn [map fst In]; [tauto|]. intros Hn. apply IHaccum. destruct (Nat.eq_dec n x) as [->|Hx]; [left; rewrite set_grad_same; discriminate|].
  rewrite set_grad_other by assumption. intuition congruence.
Qed.
Lemma accum_from xs g gs g' gs' n : accum g gs xs g' gs' -> gs' n <> None -> gs n <> None \/ In n (map fst xs).
Proof.
  induction 1; cbn [map fst In]; [tauto|]. intros Hn. destruct (IHaccum Hn) as [H'|H']; [|tauto].
  destruct (Nat.eq_dec n x) as [->|Hx]; [tauto|]. rewrite set_grad_other in H' by assumption. tauto.
Qed.

Lemma depends_consumer g0 y n : depends g0 y n -> n = y \/ exists c, depends g0 y c /\ operand g0 c n.
Proof.
  induction 1 as [|y nd a n Hy Ha HD IH]; [auto|]. right. destruct IH as [->|(c & Hc & Ho)].
  - exists y. split; [constructor|exists nd; auto].
  - exists c. split; [eapply dep_step; eauto|assumption].
Qed.

Section Run.
Context (g0 : graph) (y : nat) (Hr0 : reach g0) (Hvy : valid g0 y) (Hreg : regular g0 y).
Let ord := order g0 y.

Record binv (gs0 : grads) (G : graph) (gs : grads) (done : list nat) : Prop := {
  bi_reach : reach G;
  bi_ext : extends g0 G;
  bi_ok : grads_ok G gs;
  bi_some : forall n, n = y \/ (exists c, In c done /\ operand g0 c n) -> gs n <> None;
  bi_from : forall n, gs n <> None -> gs0 n <> None \/ n = y \/ exists c, In c done /\ operand g0 c n
}.

(* one rule, run in its turn *)
Record stepped (G : graph) (gs : grads) (f : nat) (gr : nat) (G1 : graph) (gxs : list nat) (G2 : graph) (gs2 : grads) : Prop := {
  sp_grad : gs f = Some gr;
  sp_node : exists nd, nth_error g0 f = Some nd /\
     let X k := match nth_error (n_in nd) k with Some a => t_at (den A g0 a) | None => fun _ => Fault end in
     let s := match nth_error (n_in nd) 0 with Some a => shape_of g0 a | None => [] end in
     ruled A G (bw_rule G nd f gr) (n_in nd)
       (bw_val A (n_op nd) s (shape_of g0 f) (X 0%nat) (X 1%nat) (t_at (den A g0 f)) (t_at (den A G gr))) G1 gxs /\
     accum G1 gs (combine (n_in nd) gxs) G2 gs2
}.

Lemma step_total gs0 G gs l1 f l2 : ord = l1 ++ f :: l2 -> binv gs0 G gs l1 ->
  exists gr G1 gxs G2 gs2, stepped G gs f gr G1 gxs G2 gs2 /\ binv gs0 G2 gs2 (l1 ++ [f]) /\ extends G G2 /\
    forall nd, nth_error G f = Some nd ->
      bw_rule G nd f gr = Done (G1, gxs) /\ add_grads G1 gs (combine (n_in nd) gxs) = Done (G2, gs2).
Proof.
  intros Eo [B1 B2 B3 B4 B5].
  destruct (order_spec g0 (reach_inputs_lt _ Hr0) y Hvy) as (O1 & O2 & O3). fold ord in O1, O2, O3.
  assert (Hf : depends g0 y f /\ is_op g0 f) by (apply O2; rewrite Eo; apply in_app_iff; right; now left).
  destruct Hf as (Hdep & nd & Hn & Hne).
  assert (Hvf : valid g0 f) by (apply nth_error_Some; congruence).
  assert (Hgf : gs f <> None).
  { apply B4. destruct (depends_consumer g0 y f Hdep) as [->|(c & Hc & Ho)]; [auto|]. right. exists c. split; [|assumption]. eapply O3; eauto. }
  destruct (gs f) as [gr|] eqn:Egr; [|congruence]. destruct (B3 f gr Egr) as (_ & Vgr & Sgr).
  pose proof (ext_node _ _ _ _ B2 Hn) as HnG.
  pose proof (reach_inputs_lt _ Hr0 _ _ Hn) as Hlt. rewrite Forall_forall in Hlt.
  assert (Hvin : forall a, In a (n_in nd) -> valid g0 a) by (intros a Ha; specialize (Hlt a Ha); unfold valid in *; lia).
  destruct (bw_rule_spec A Hco G nd f gr B1 HnG Hne Vgr Sgr) as (G1 & gxs & HR).
  { intros a Ha. rewrite (ext_shape _ _ _ B2) by (apply Hvin; eapply nth_error_In; eauto). eapply Hreg; eauto. }
  assert (HX : forall k, match nth_error (n_in nd) k with Some a => t_at (den A G a) | None => fun _ => Fault end =
                         match nth_error (n_in nd) k with Some a => t_at (den A g0 a) | None => fun _ => Fault end).
  { intros k. destruct (nth_error (n_in nd) k) as [a|] eqn:Ea; [|reflexivity]. rewrite (ext_den A _ _ _ B2); [reflexivity|apply Hvin; eapply nth_error_In; eauto]. }
  assert (HS : match nth_error (n_in nd) 0 with Some a => shape_of G a | None => [] end = match nth_error (n_in nd) 0 with Some a => shape_of g0 a | None => [] end).
  { destruct (nth_error (n_in nd) 0) as [a|] eqn:Ea; [|reflexivity]. apply (ext_shape _ _ _ B2). apply Hvin. eapply nth_error_In; eauto. }
  cbn zeta in HR. rewrite !HX, HS, (ext_shape _ _ _ B2 Hvf), (ext_den A _ _ _ B2 Hvf) in HR.
  pose proof HR as [D1 R1 E1 L1 A1].
  assert (HF : Forall (fun '(x, gx) => valid G1 x /\ valid G1 gx /\ shape_of G1 gx = shape_of G1 x) (combine (n_in nd) gxs)).
  { apply Forall_forall. intros [x gx] Hin. apply In_nth_error in Hin as (k & Hk).
    assert (HK : nth_error (n_in nd) k = Some x /\ nth_error gxs k = Some gx).
    { clear - Hk. revert gxs k Hk. generalize (n_in nd). induction l as [|a l IH]; intros [|b m] [|k] H; cbn in *; try discriminate; [injection H as -> ->; auto|auto]. }
    destruct HK as (K1 & K2). destruct (A1 k x gx K1 K2) as (V1 & S1 & _). assert (Vx : valid G x) by (eapply ext_valid; [exact B2|]; apply Hvin; eapply nth_error_In; eauto).
    split; [eauto using ext_valid|]. split; [eauto using ext_valid|]. rewrite (ext_shape _ _ _ E1 Vx). exact S1. }
  destruct (add_grads_spec _ G1 gs R1 (grads_ok_ext _ _ _ E1 B3) HF) as (G2 & gs2 & D2 & R2 & E2 & Ok2 & A2).
  assert (Hfst : map fst (combine (n_in nd) gxs) = n_in nd).
  { clear - L1. revert gxs L1. generalize (n_in nd). induction l as [|a l IH]; intros [|b m] H; cbn in *; try discriminate; [reflexivity|]. f_equal. apply IH. lia. }
  assert (Hnin : ~ In f (n_in nd)) by (intros H; specialize (Hlt f H); lia).
  exists gr, G1, gxs, G2, gs2. split; [|split; [|split; [eauto using ext_trans|]]].
  - constructor; [assumption|]. exists nd. split; [assumption|]. split; assumption.
  - constructor; eauto using ext_trans.
    + intros n Hn'. eapply accum_some; [exact A2|]. rewrite Hfst. destruct Hn' as [->|(c & Hc & Ho)]; [left; apply B4; auto|].
      apply in_app_iff in Hc as [Hc|[<-|[]]]; [left; apply B4; eauto|]. right. destruct Ho as (nd' & E & H). rewrite Hn in E. injection E as <-. assumption.
    + intros n Hn'. destruct (accum_from _ _ _ _ _ n A2 Hn') as [H|H].
      * destruct (B5 n H) as [H'|[H'|(c & Hc & Ho)]]; [auto|auto|]. right. right. exists c. split; [apply in_app_iff; auto|assumption].
      * rewrite Hfst in H. right. right. exists f. split; [apply in_app_iff; right; now left|]. exists nd. auto.
  - intros nd' Hnd'. rewrite HnG in Hnd'. injection Hnd' as <-. auto.
Qed.

(* induction over the loop *)
Lemma run_total (P : graph -> grads -> list nat -> Prop) gs0 :
  (forall G gs l1 f l2 gr G1 gxs G2 gs2, ord = l1 ++ f :: l2 -> binv gs0 G gs l1 -> P G gs l1 ->
     stepped G gs f gr G1 gxs G2 gs2 -> binv gs0 G2 gs2 (l1 ++ [f]) -> P G2 gs2 (l1 ++ [f])) ->
  forall l2 l1 G gs, ord = l1 ++ l2 -> binv gs0 G gs l1 -> P G gs l1 ->
    exists G' gs' tr, run_funcs G gs l2 = Done (G', gs', tr) /\ binv gs0 G' gs' ord /\ P G' gs' ord /\
      extends G G' /\ map fst tr = l2 /\ Forall (fun '(f, gr) => gs' f = Some gr) tr /\
      (forall n, In n l1 -> gs' n = gs n).
Proof.
  intros HP. induction l2 as [|f l2 IH]; intros l1 G gs Eo HB HPG; cbn [run_funcs].
  { rewrite app_nil_r in Eo. subst l1. exists G, gs, []. split; [reflexivity|]. split; [assumption|]. split; [assumption|]. split; [apply ext_refl|]. split; [reflexivity|]. split; [constructor|reflexivity]. }
  destruct (step_total gs0 G gs l1 f l2 Eo HB) as (gr & G1 & gxs & G2 & gs2 & HS & HB2 & HE2 & HD).
  pose proof HS as [S1 (nd & Hn & HR & HA)]. pose proof (ext_node _ _ _ _ (bi_ext _ _ _ _ HB) Hn) as HnG.
  destruct (HD nd HnG) as (D1 & D2). unfold get. rewrite HnG. cbn [obind]. rewrite S1. cbn [obind]. rewrite D1. cbn [obind]. rewrite D2. cbn [obind].
  assert (Eo' : ord = (l1 ++ [f]) ++ l2) by (rewrite <- app_assoc; exact Eo).
  destruct (IH (l1 ++ [f]) G2 gs2 Eo' HB2) as (G3 & gs3 & tr & D3 & B3 & P3 & E3 & M3 & F3 & K3); [eapply HP; eauto|].
  rewrite D3. cbn [obind]. exists G3, gs3, ((f, gr) :: tr).
  destruct (order_spec g0 (reach_inputs_lt _ Hr0) y Hvy) as (O1 & O2 & O3). fold ord in O1, O2, O3.
  pose proof (reach_inputs_lt _ Hr0 _ _ Hn) as Hlt. rewrite Forall_forall in Hlt.
  assert (Hkeep : forall n, In n (l1 ++ [f]) -> gs2 n = gs n).
  { intros n Hin. eapply accum_other; [exact HA|]. intros Hc.
    assert (Hin' : In n (n_in nd)).
    { clear - Hc. revert gxs Hc. generalize (n_in nd). induction l as [|a l IH]; intros [|b m] H; cbn in *; try contradiction. destruct H; [auto|right; eauto]. }
    apply in_app_iff in Hin as [Hin|[<-|[]]]; [|specialize (Hlt f Hin'); lia].
    (* n already processed, yet f uses it: f would have come before *)
    apply in_split in Hin as (p & q & ->).
    assert (Hfp : In f p).
    { eapply (O3 p n (q ++ f :: l2)); [rewrite Eo, <- app_assoc; reflexivity| |exists nd; auto].
      apply O2. rewrite Eo. apply in_app_iff. right. now left. }
    rewrite Eo in O1. apply NoDup_remove_2 in O1. apply O1. apply in_app_iff. left. apply in_app_iff. now left. }
  split; [reflexivity|]. split; [assumption|]. split; [assumption|].
  split; [eauto using ext_trans|].
  split; [cbn; congruence|]. split; [constructor; [|assumption]|].
  - rewrite (K3 f) by (apply in_app_iff; right; now left). rewrite Hkeep by (apply in_app_iff; right; now left). exact S1.
  - intros n Hin. rewrite K3 by (apply in_app_iff; now left). apply Hkeep. apply in_app_iff. now left.
Qed.
End Run.
End R.
