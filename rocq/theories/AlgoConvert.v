(* convert (algo.py:141-364): every kernel list it returns is complete, ordered, and means what the arrays mean. *)
From Verif Require Import Base BaseFacts Util UtilFacts Lang Spec Graph Api Denote SpecFacts DenoteFacts Reach Algo AlgoSem AlgoConv AlgoConv2 AlgoFuse AlgoFuse2.

Lemma fold_out_ok {A S} (f : A -> S -> outcome S) (I : S -> Prop) (R : S -> S -> Prop) (Q : A -> S -> Prop) l :
  (forall s, R s s) -> (forall s1 s2 s3, R s1 s2 -> R s2 s3 -> R s1 s3) ->
  (forall x s s', Q x s -> R s s' -> Q x s') ->
  (forall x s, In x l -> I s -> exists s', f x s = Done s' /\ I s' /\ R s s' /\ Q x s') ->
  forall s, I s -> exists s', fold_out f l s = Done s' /\ I s' /\ R s s' /\ (forall x, In x l -> Q x s').
Proof.
  intros HR HT HQ Hf. induction l as [|x l IH]; intros s Hs; cbn.
  - exists s. split; [reflexivity|]. split; [assumption|]. split; [apply HR|tauto].
  - destruct (Hf x s (or_introl eq_refl) Hs) as (s1 & E1 & I1 & R1 & Q1). rewrite E1. cbn.
    destruct (IH (fun y t Hy => Hf y t (or_intror Hy)) s1 I1) as (s2 & E2 & I2 & R2 & Q2).
    exists s2. split; [exact E2|]. split; [assumption|]. split; [eauto|]. intros y [<-|Hy]; eauto.
Qed.

Lemma NoDup_snoc {A} (l : list A) x : NoDup l -> ~ In x l -> NoDup (l ++ [x]).
Proof.
  induction 1 as [|y l Hy Hl IH]; intros Hx; cbn; [repeat constructor; auto|].
  constructor; [|apply IH; cbn in Hx; tauto]. rewrite in_app_iff. cbn in *. intuition.
Qed.

(* ------------------------------------------------------------------ arr_to_func *)
Section A2F.
Context (L : lang) (HL : lang_ok L) (g : graph) (Hw : wf_graph g) (root : nat) (Hns : no_scalar_reshape g root).

Definition cfunc (n : nat) (fd : func) : Prop :=
  exists nd e, nth_error g n = Some nd /\ conv_expr g n nd = Done e /\ fd = mkF (out_loops n (n_shape nd)) (n_shape nd) (n_dtype nd) e n.
Definition CE (E : fenv) : Prop :=
  forall n fd, E n = Some fd -> cone g root n /\ cfunc n fd /\ forall nd i, nth_error g n = Some nd -> In i (n_in nd) -> E i <> None.
Definition grow (E E' : fenv) : Prop := forall n, E n <> None -> E' n = E n.

Lemma cone_lt n b nd : nth_error g n = Some nd -> In b (n_in nd) -> (b < n)%nat.
Proof. intros Hn Hb. pose proof (wf_inputs_lt g n nd Hw Hn) as H. rewrite Forall_forall in H. auto. Qed.
Lemma cone_valid n : (root < length g)%nat -> cone g root n -> (n < length g)%nat.
Proof.
  intros Hr. induction 1 as [|n nd b Hc IH Hn Hb]; auto. pose proof (cone_lt _ _ _ Hn Hb).
  assert (n < length g)%nat by (apply nth_error_Some; congruence). lia.
Qed.
Lemma cone_le n : cone g root n -> (n <= root)%nat.
Proof. induction 1 as [|n nd b Hc IH Hn Hb]; auto. pose proof (cone_lt _ _ _ Hn Hb). lia. Qed.

Lemma arr_to_func_ok fuel : forall a E, (a < fuel)%nat -> (root < length g)%nat -> cone g root a -> CE E ->
  exists E', arr_to_func fuel g a E = Done E' /\ CE E' /\ grow E E' /\ E' a <> None /\
    (forall n, (a < n)%nat -> E' n = E n).
Proof.
  induction fuel as [|k IH]; intros a E Hf Hrt Hc HE; [lia|]. cbn [arr_to_func].
  destruct (E a) as [fd|] eqn:Ea.
  { exists E. split; [reflexivity|]. split; [assumption|]. split; [intros n _; reflexivity|]. split; [congruence|auto]. }
  assert (Ha : (a < length g)%nat) by (eapply cone_valid; eauto).
  destruct (nth_error g a) as [nd|] eqn:Hnd; [|apply nth_error_None in Hnd; lia].
  unfold get. rewrite Hnd. cbn [obind].
  destruct (fold_out_ok (fun i => arr_to_func k g i) (fun E0 => CE E0 /\ E0 a = None)
     (fun E0 E1 => grow E0 E1 /\ forall n, (a < n)%nat -> E1 n = E0 n) (fun i E0 => E0 i <> None) (n_in nd)) with (s := E) as (E1 & F1 & [I1 I1'] & [R1 R2] & Q1).
  { intros s. split; [intros n _; reflexivity|auto]. }
  { intros s1 s2 s3 [G1 G2] [G3 G4]. split; [|intros n Hn; rewrite G4, G2; auto].
    intros n Hn. rewrite <- (G1 n Hn). apply G3. rewrite (G1 n Hn). exact Hn. }
  { intros x s s' Hx [G _]. rewrite (G x Hx). exact Hx. }
  { intros i s Hi [Hs Hsa]. pose proof (cone_lt _ _ _ Hnd Hi).
    destruct (IH i s) as (s' & E1 & C1 & G1 & N1 & B1); auto; [lia|eapply cone_step; eauto|].
    exists s'. split; [exact E1|]. split; [split; [assumption|]|].
    - rewrite B1; [assumption|lia].
    - split; [|exact N1]. split; auto. intros n Hn. apply B1. lia. }
  { split; assumption. }
  rewrite F1. cbn [obind].
  destruct (conv_expr_ok L HL g Hw a nd Hnd (Hns a nd Hc Hnd)) as (e & He & _).
  rewrite He. cbn [obind].
  eexists; split; [reflexivity|].
  assert (Hne : forall n, n <> a -> forall x, fset E1 a x n = E1 n).
  { intros n Hn x. unfold fset. apply Nat.eqb_neq in Hn. now rewrite Hn. }
  assert (Heq : forall x, fset E1 a x a = Some x) by (intros; unfold fset; now rewrite Nat.eqb_refl).
  split; [|split; [|split]].
  - intros n fd Hfd. destruct (Nat.eq_dec n a) as [->|Hna].
    + rewrite Heq in Hfd. injection Hfd as <-. split; [assumption|]. split; [exists nd, e; auto|].
      intros nd' i Hn' Hi. assert (nd' = nd) by congruence. subst. pose proof (cone_lt _ _ _ Hnd Hi).
      rewrite Hne by lia. auto.
    + rewrite Hne in Hfd by assumption. destruct (I1 _ _ Hfd) as (C1 & C2 & C3). split; [assumption|]. split; [assumption|].
      intros nd' i Hn' Hi. destruct (Nat.eq_dec i a) as [->|Hia]; [rewrite Heq; discriminate|]. rewrite Hne by assumption. eauto.
  - intros n Hn. destruct (Nat.eq_dec n a) as [->|Hna]; [congruence|]. rewrite Hne by assumption. now apply R1.
  - rewrite Heq. discriminate.
  - intros n Hn. rewrite Hne by lia. auto.
Qed.

Lemma CE_cone E n : CE E -> E root <> None -> cone g root n -> E n <> None.
Proof.
  intros HE Hr. induction 1 as [|n nd b Hc IH Hn Hb]; auto.
  destruct (E n) as [fd|] eqn:En; [|congruence]. destruct (HE _ _ En) as (_ & _ & H). eauto.
Qed.
End A2F.

(* ------------------------------------------------------------------ kernel order *)
Section Order.
Context (E : fenv).
Definition deps (f : nat) : list nat := match E f with Some fd => func_refs (f_expr fd) | None => [] end.
Hypothesis HE : forall f fd, E f = Some fd -> forall i, In i (func_refs (f_expr fd)) -> (i < f)%nat /\ E i <> None.

(* every kernel comes after the kernels it reads *)
Definition topo (out : list nat) : Prop := forall l1 x l2, out = l1 ++ x :: l2 -> forall d, In d (deps x) -> In d l1.
Inductive rch (f : nat) : nat -> Prop :=
| rch_refl : rch f f
| rch_step x d : rch f x -> In d (deps x) -> rch f d.

Lemma rch_trans a b c : rch a b -> rch b c -> rch a c.
Proof. intros H1 H2. induction H2; auto. econstructor; eauto. Qed.

Lemma topo_snoc out f : topo out -> (forall d, In d (deps f) -> In d out) -> topo (out ++ [f]).
Proof.
  intros HT HD l1 x l2 Heq d Hd.
  destruct (list_eq_dec Nat.eq_dec l2 []) as [->|Hne].
  - apply app_inj_tail in Heq as [<- <-]. auto.
  - destruct (exists_last Hne) as (l2' & y & ->).
    change (out ++ [f] = l1 ++ (x :: l2') ++ [y]) in Heq. rewrite app_assoc in Heq.
    apply app_inj_tail in Heq as [-> _]. eapply HT; eauto.
Qed.

Definition oinv (b : nat) (st : list nat * list nat) : Prop :=
  let '(seen, out) := st in
  topo out /\ NoDup out /\ incl out seen /\ (forall x, In x seen -> In x out \/ (b <= x)%nat) /\ Forall (fun x => E x <> None) out.
Definition orel (f : nat) (st st' : list nat * list nat) : Prop :=
  (exists l, snd st' = snd st ++ l /\ Forall (rch f) l) /\ (forall x, In x (fst st') -> In x (snd st') \/ In x (fst st)) /\ incl (fst st) (fst st').

Lemma orel_refl f st : orel f st st.
Proof. split; [exists []; rewrite app_nil_r; auto|]. split; [auto|apply incl_refl]. Qed.
Lemma orel_trans f s1 s2 s3 : orel f s1 s2 -> orel f s2 s3 -> orel f s1 s3.
Proof.
  intros ((l & A1 & A2) & B & C) ((l' & A1' & A2') & B' & C'). split; [|split].
  - exists (l ++ l'). split; [rewrite A1', A1, app_assoc; reflexivity|apply Forall_app; auto].
  - intros x Hx. destruct (B' x Hx) as [H|H]; auto. destruct (B x H) as [H1|H1]; auto.
    left. rewrite A1'. apply in_or_app. now left.
  - eapply incl_tran; eauto.
Qed.

Lemma order_ok fuel : forall f st, (f < fuel)%nat -> E f <> None -> oinv (S f) st ->
  exists st', order fuel E f st = Done st' /\ oinv (S f) st' /\ orel f st st' /\ In f (snd st') /\
    (~ In f (fst st) -> exists l, snd st' = l ++ [f]).
Proof.
  induction fuel as [|k IH]; intros f [seen out] Hf HEf (I1 & I2 & I3 & I4 & I5); [lia|]. cbn [order].
  destruct (nmem f seen) eqn:Em.
  { apply nmem_In in Em. exists (seen, out). split; [reflexivity|]. split; [repeat split; auto|].
    split; [apply orel_refl|]. split; [|cbn; tauto]. cbn. destruct (I4 f Em); [assumption|lia]. }
  apply nmem_false in Em.
  destruct (E f) as [fd|] eqn:Ef; [|congruence]. cbn [throw_none obind].
  destruct (fold_out_ok (fun d => order k E d) (oinv f) (orel f) (fun d st => In d (snd st)) (dependent_funcs (f_expr fd)))
    with (s := (f :: seen, out)) as ([seen1 out1] & F1 & (J1 & J2 & J3 & J4 & J5) & (R1 & R2 & R3) & Q1).
  { apply orel_refl. } { apply orel_trans. }
  { intros x s s' Hx ((l & A1 & _) & _). rewrite A1. apply in_or_app. now left. }
  { intros d [s o] Hd (K1 & K2 & K3 & K4 & K5). rewrite dependent_funcs_in in Hd. destruct (HE _ _ Ef d Hd) as [Hlt Hdn].
    destruct (IH d (s, o)) as ([s' o'] & E1 & (M1 & M2 & M3 & M4 & M5) & (R1 & R2 & R3) & Hin & _); [lia|assumption| |].
    { repeat split; auto. intros x Hx. destruct (K4 x Hx); auto. right. lia. }
    exists (s', o'). split; [exact E1|]. split; [|split; [|exact Hin]].
    - repeat split; auto. intros x Hx. destruct (R2 x Hx) as [H|H]; auto. cbn in H. destruct (K4 x H) as [H'|H']; auto.
      left. destruct R1 as (l & Hl & _). cbn in Hl. rewrite Hl. apply in_or_app. now left.
    - split; [|split; auto]. destruct R1 as (l & Hl & Hl2). exists l. split; auto.
      eapply Forall_impl; [|exact Hl2]. intros x Hx. eapply rch_trans; [|exact Hx].
      eapply rch_step; [apply rch_refl|]. unfold deps. now rewrite Ef. }
  { repeat split; auto. { intros x Hx. right. auto. }
    intros x [<-|Hx]; [right; lia|]. destruct (I4 x Hx); auto. right. lia. }
  rewrite F1. cbn [obind]. cbn in R1, R2, R3, Q1.
  assert (Hfn : ~ In f out1).
  { destruct R1 as (l & Hl & _). intros Hin.
    (* f cannot be emitted while its own dependencies are visited: dependencies of f are below f *)
    assert (HB : forall x y, rch x y -> (y <= x)%nat).
    { intros x y HH. induction HH as [|y d HH IHH Hd]; auto. unfold deps in Hd. destruct (E y) as [fy|] eqn:Ey; [|destruct Hd].
      destruct (HE _ _ Ey d Hd). lia. }
    rewrite Hl in Hin. apply in_app_iff in Hin as [Hin|Hin]; [apply I3 in Hin; tauto|].
    clear - IH F1 Hin HE Ef Em I3 I1 I2 I4 I5 Hl Hf HB.
    (* split: every element of l is reachable from a dependency, hence < f *)
    assert (G : forall ds s o s' o', (forall d, In d ds -> (d < f)%nat /\ E d <> None) -> oinv f (s, o) ->
       fold_out (fun d => order k E d) ds (s, o) = Done (s', o') -> exists l, o' = o ++ l /\ Forall (fun x => (x < f)%nat) l).
    { induction ds as [|d ds IHd]; intros s o s' o' Hds Ho HF; cbn in HF.
      - injection HF as <- <-. exists []. rewrite app_nil_r. auto.
      - destruct (Hds d (or_introl eq_refl)) as [Hdf HdE]. destruct Ho as (K1 & K2 & K3 & K4 & K5).
        destruct (IH d (s, o)) as ([s1 o1] & E1 & (M1 & M2 & M3 & M4 & M5) & ((l1 & Hl1 & Hr1) & R2 & R3) & _ & _); [lia|assumption| |].
        { repeat split; auto. intros x Hx. destruct (K4 x Hx); auto. right. lia. }
        rewrite E1 in HF. cbn in HF, Hl1, R2.
        destruct (IHd s1 o1 s' o') as (l2 & Hl2 & Hf2); [intros; apply Hds; now right| |assumption|].
        { repeat split; auto. intros x Hx. destruct (R2 x Hx) as [H|H]; auto. destruct (K4 x H) as [H'|H']; auto.
          left. rewrite Hl1. apply in_or_app. now left. }
        exists (l1 ++ l2). split; [rewrite Hl2, Hl1, app_assoc; reflexivity|]. apply Forall_app. split; auto.
        eapply Forall_impl; [|exact Hr1]. intros x Hx. specialize (HB _ _ Hx). lia. }
    assert (O0 : oinv f (f :: seen, out)).
    { repeat split; auto. { intros x Hx. right. auto. }
      intros x [<-|Hx]; [right; lia|]. destruct (I4 x Hx); auto. right. lia. }
    assert (D0 : forall d, In d (dependent_funcs (f_expr fd)) -> (d < f)%nat /\ E d <> None).
    { intros d Hd. rewrite dependent_funcs_in in Hd. exact (HE _ _ Ef d Hd). }
    destruct (G _ _ _ _ _ D0 O0 F1) as (l' & Hl' & Hf').
    rewrite Hl in Hl'. apply app_inv_head in Hl'. subst l'. rewrite Forall_forall in Hf'. specialize (Hf' f Hin). lia. }
  exists (seen1, out1 ++ [f]). split; [reflexivity|]. split; [|split; [|split]].
  - assert (Hfs : In f seen1) by (apply R3; now left).
    repeat split.
    + apply topo_snoc; auto. intros d Hd. unfold deps in Hd. rewrite Ef in Hd. apply Q1. now apply dependent_funcs_in.
    + apply NoDup_snoc; auto.
    + intros x Hx. apply in_app_iff in Hx as [Hx|[<-|[]]]; auto.
    + intros x Hx. destruct (J4 x Hx) as [H|H]; [left; apply in_or_app; now left|].
      destruct (Nat.eq_dec x f) as [->|Hne]; [left; apply in_or_app; right; now left|]. right. lia.
    + apply Forall_app. split; auto. constructor; [congruence|constructor].
  - split; [|split].
    + destruct R1 as (l & Hl & Hr). exists (l ++ [f]). cbn. rewrite Hl, app_assoc. split; auto.
      apply Forall_app. split; auto. repeat constructor.
    + intros x Hx. cbn. destruct (R2 x Hx) as [H|[<-|H]]; auto.
      * left. apply in_or_app. now left.
      * left. apply in_or_app. right. now left.
    + intros x Hx. apply R3. now right.
  - cbn. apply in_or_app. right. now left.
  - intros _. exists out1. reflexivity.
Qed.
End Order.
