(* The device invariant: preserved by parameter preparation and kernel launches. *)
From Verif Require Import Base BaseFacts Util UtilFacts Lang Spec Graph Api ApiFacts Denote SpecFacts DenoteFacts Reach Tolist TolistFacts
  Algo AlgoSem AlgoConv AlgoConv2 AlgoFuse AlgoFuse2 AlgoConvert AlgoConvert2
  Kernel Sched Codegen Backends CacheKey KernFacts RenderFacts KernelOk RunFacts SchedFacts SchedGpu KernelRun KernelRun2 BackendFacts AlgoTop AlgoMore
  Runtime RuntimeFacts RuntimeFacts2 History HistFacts Safety Nest NestSched NestBody Parallel ParKernel ParCpu ParTop ParGpu Device.

Section D.
Context (B : cpu_backend).
Notation L := (b_lang B).
Notation V := (val (b_lang B)).
Notation dev := (dev B).
Notation event := (event B).

(* vs is the list of the elements of array n, in row-major order *)
Definition dfilled (g : graph) (n : nat) (vs : list V) : Prop :=
  exists nd, nth_error g n = Some nd /\ Z.of_nat (length vs) = zprod (n_shape nd) /\ filled L (n_shape nd) (fun idx => t_at (den L g n) idx) vs.
(* address p belongs to array n *)
Definition held (l : list event) (n p : nat) : Prop := In (EvAlloc B n p) l /\ ~ In (EvFree B n p) l.
Definition written (l : list event) (n p : nat) : Prop := In (EvHtoD B n p) l \/ exists ins, In (EvLaunch B n p ins) l.
(* what must be true of a driver call, given the earlier ones *)
Definition event_ok (g : graph) (l : list event) (e : event) : Prop :=
  match e with
  | EvAlloc _ n p => (forall q, ~ In (EvAlloc B n q) l) /\ forall m, In (EvAlloc B m p) l -> In (EvFree B m p) l
  | EvFree _ n p => In (EvAlloc B n p) l /\ forall q, ~ In (EvFree B n q) l
  | EvHtoD _ n p => held l n p
  | EvDtoH _ n p => held l n p /\ exists ins, In (EvLaunch B n p ins) l
  | EvLaunch _ n p ins => held l n p /\ forall m q vs, In (m, q, vs) ins -> q <> p /\ held l m q /\ written l m q /\ dfilled g m vs
  end.
Inductive log_ok (g : graph) : list event -> Prop :=
| lo_nil : log_ok g []
| lo_cons e l : event_ok g l e -> log_ok g l -> log_ok g (e :: l).

(* arrays in X may be dead although they are inputs of living ones (only while arrays are dying) *)
Context (HB : backend_ok B) (C : desc -> Prop) (X : nat -> Prop).
Let HL : lang_ok L := bo_lang _ HB.

Record dinv (s : dev) : Prop := {
  di_reach : reach (dv_graph B s);
  di_const : forall n nd vals, nth_error (dv_graph B s) n = Some nd -> n_op nd = OConst vals -> dv_host B s n = Some (map (of_num L) vals);
  di_host : forall n nd vs, nth_error (dv_graph B s) n = Some nd -> is_const (n_op nd) = false -> dv_host B s n = Some vs -> dfilled (dv_graph B s) n vs;
  di_hnew : forall n, nth_error (dv_graph B s) n = None -> dv_host B s n = None;
  di_cache : forall key kern, cache_get (dv_cache B s) key = Some kern -> exists d k0 k1, C d /\ key_of d = Done key /\ code_of d k0 = Done (kern, k1);
  di_alive : forall n, dv_alive B s n = true -> (n < length (dv_graph B s))%nat;
  di_in : forall m nd n, dv_alive B s m = true -> nth_error (dv_graph B s) m = Some nd -> In n (n_in nd) -> ~ X n -> dv_alive B s n = true;
  di_ptr : forall n p, dv_ptr B s n = Some p -> dv_alive B s n = true /\
     exists nd vs, nth_error (dv_graph B s) n = Some nd /\ dv_mem B s p = Some vs /\ Z.of_nat (length vs) = zprod (n_shape nd);
  di_inj : forall n m p, dv_ptr B s n = Some p -> dv_ptr B s m = Some p -> n = m;
  di_own : forall p vs, dv_mem B s p = Some vs -> exists n, dv_ptr B s n = Some p;
  di_held : forall n p, dv_ptr B s n = Some p -> held (dv_log B s) n p;
  di_allocs : forall n p, In (EvAlloc B n p) (dv_log B s) -> (n < length (dv_graph B s))%nat /\ (dv_ptr B s n = Some p \/ dv_alive B s n = false /\ In (EvFree B n p) (dv_log B s));
  di_frees : forall n p, In (EvFree B n p) (dv_log B s) -> (n < length (dv_graph B s))%nat /\ dv_alive B s n = false;
  di_launch : forall n p ins, In (EvLaunch B n p ins) (dv_log B s) -> (n < length (dv_graph B s))%nat /\ (dv_alive B s n = true ->
     dv_ptr B s n = Some p /\ exists vs, dv_mem B s p = Some vs /\ dfilled (dv_graph B s) n vs);
  di_log : log_ok (dv_graph B s) (dv_log B s)
}.
(* array n has device memory that holds its elements *)
Definition ready (s : dev) (n p : nat) : Prop :=
  dv_ptr B s n = Some p /\ (exists vs, dv_mem B s p = Some vs /\ dfilled (dv_graph B s) n vs) /\ written (dv_log B s) n p.
Definition launched (s : dev) (n : nat) : Prop := exists p ins, In (EvLaunch B n p ins) (dv_log B s).

(* ------------------------------------------------------------------ values *)
Lemma dfilled_accept g n vs nd : wf_graph g -> nth_error g n = Some nd -> dfilled g n vs ->
  forallb (b_accept B (n_dtype nd)) vs = true /\ map (coerce L (n_dtype nd)) vs = vs.
Proof using HB.
  clear X. intros Hw Hn (nd' & Hn' & Hlen & HF). assert (nd' = nd) by congruence. subst nd'.
  assert (Hnn : Forall (fun d => 0 <= d) (n_shape nd)) by apply (wf_shape_facts L g n nd Hw Hn).
  assert (Hv : forall v, In v vs -> coerce L (n_dtype nd) v = v).
  { intros v Hv. apply In_nth_error in Hv as [j Hj]. assert (Hjlt : (j < length vs)%nat) by (apply nth_error_Some; congruence).
    assert (Hj0 : 0 <= Z.of_nat j < zprod (n_shape nd)) by lia.
    pose (idx := unflat (n_shape nd) (Z.of_nat j)).
    assert (Hidx : in_range (n_shape nd) idx) by (apply unflat_in_range; auto). assert (Hfl : flat (n_shape nd) idx = Z.of_nat j) by (apply flat_unflat; auto).
    destruct (HF idx Hidx) as (w & Hw1 & Hw2). rewrite Hfl in Hw2. unfold znth in Hw2. destruct (Z.of_nat j <? 0) eqn:Ej; [lia|]. rewrite Nat2Z.id in Hw2.
    assert (v = w) by congruence. subst w. eapply den_coerced; eauto. apply (ok_idem _ HL). }
  split.
  - apply forallb_forall. intros v Hin. rewrite <- (Hv v Hin). apply (bo_acc _ HB).
  - rewrite (map_ext_in _ (fun v => v)) by exact Hv. apply map_id.
Qed.
Lemma const_dfilled g n nd vals : wf_graph g -> nth_error g n = Some nd -> n_op nd = OConst vals -> dfilled g n (map (coerce L (n_dtype nd)) (map (of_num L) vals)).
Proof.
  intros Hw Hn Hop. exists nd. split; auto. split; [|now apply const_filled].
  pose proof (Hw _ _ Hn) as HW. unfold wf_node in HW. rewrite Hop in HW. rewrite !map_length. tauto.
Qed.
Lemma dfilled_grow g e n vs : wf_graph g -> dfilled g n vs -> dfilled (g ++ e) n vs.
Proof.
  intros Hw (nd & H1 & H2 & H3). assert (Hn : (n < length g)%nat) by (apply nth_error_Some; congruence).
  exists nd. split; [now rewrite nth_error_app1|]. split; auto. rewrite den_app; auto.
Qed.
Lemma log_ok_grow g e l : wf_graph g -> log_ok g l -> log_ok (g ++ e) l.
Proof.
  intros Hw. induction 1 as [|ev l H _ IH]; constructor; auto. destruct ev; cbn in *; auto. destruct H as [H1 H2]. split; auto.
  intros m q vs Hin. destruct (H2 m q vs Hin) as (A1 & A2 & A3 & A4). repeat split; auto; try (now apply A2). now apply dfilled_grow.
Qed.

(* ------------------------------------------------------------------ pointers *)
Lemma upd1_same {A} (f : nat -> A) n x : upd1 f n x n = x.
Proof. unfold upd1. now rewrite Nat.eqb_refl. Qed.
Lemma upd1_other {A} (f : nat -> A) n x k : n <> k -> upd1 f n x k = f k.
Proof. unfold upd1. intros H. destruct (Nat.eqb_spec n k); congruence. Qed.

(* nothing but memory contents, pointers and the log has changed, and those only grew *)
Record same (s s' : dev) : Prop := {
  sm_graph : dv_graph B s' = dv_graph B s;
  sm_host : dv_host B s' = dv_host B s;
  sm_alive : dv_alive B s' = dv_alive B s;
  sm_ptr : forall n p, dv_ptr B s n = Some p -> dv_ptr B s' n = Some p;
  sm_log : forall e, In e (dv_log B s) -> In e (dv_log B s')
}.
Lemma same_refl s : same s s. Proof. split; auto. Qed.
Lemma same_trans s1 s2 s3 : same s1 s2 -> same s2 s3 -> same s1 s3.
Proof. intros [] []. split; intros; try congruence; auto. Qed.
Lemma launched_same s s' n : same s s' -> launched s n -> launched s' n.
Proof. intros H (p & ins & Hin). exists p, ins. now apply (sm_log _ _ H). Qed.

Lemma pointer_ok s n s1 oc : dinv s -> dv_alive B s n = true -> pointer B s n s1 oc ->
  dinv s1 /\ same s s1 /\ (forall q vs, dv_mem B s q = Some vs -> dv_mem B s1 q = Some vs) /\
  (forall m, launched s1 m -> launched s m) /\
  match oc with Done p => dv_ptr B s1 n = Some p | Throw e => e = RuntimeErr end.
Proof.
  intros HI Ha HP. inversion HP as [p Hp E1 E2|p nd garbage Hn Hnd Hlen Hfree Hg E1 E2|Hn E1 E2]; subst.
  - split; auto. split; [apply same_refl|]. auto.
  - assert (Hnp : forall m, dv_ptr B s m <> Some p).
    { intros m Hm. destruct (di_ptr _ HI _ _ Hm) as (_ & nd' & vs & _ & Hv & _). congruence. }
    assert (Hnlen : Z.of_nat (length garbage) = zprod (n_shape nd)).
    { pose proof (wf_shape_facts L _ n nd (reach_wf _ (di_reach _ HI)) Hnd) as [_ _ _ Hl]. congruence. }
    assert (Hmem : forall q vs, dv_mem B s q = Some vs -> upd1 (dv_mem B s) p (Some garbage) q = Some vs).
    { intros q vs Hq. rewrite upd1_other; auto. intros ->. congruence. }
    split; [|split; [|split; [|split]]].
    + destruct HI as [I1 I2 I3 I4 I5 I6 I7 I8 I9 I10 I11 I12 I13 I14 I15]. split; cbn [set_ptr dv_graph dv_host dv_cache dv_alive dv_ptr dv_mem dv_log]; auto.
      * intros m q Hm. unfold upd1 in Hm. destruct (Nat.eqb_spec n m) as [<-|Hne].
        -- injection Hm as <-. split; auto. exists nd, garbage. rewrite upd1_same. auto.
        -- destruct (I8 m q Hm) as (A1 & nd' & vs & A2 & A3 & A4). split; auto. exists nd', vs. split; auto.
      * intros m1 m2 q H1 H2. unfold upd1 in H1, H2. destruct (Nat.eqb_spec n m1) as [<-|], (Nat.eqb_spec n m2) as [<-|]; auto.
        -- exfalso. injection H1 as <-. now apply (Hnp m2).
        -- exfalso. injection H2 as <-. now apply (Hnp m1).
        -- eauto.
      * intros q vs Hq. unfold upd1 in Hq. destruct (Nat.eqb_spec p q) as [<-|Hne].
        -- exists n. apply upd1_same.
        -- destruct (I10 q vs Hq) as (m & Hm). exists m. rewrite upd1_other; auto. intros <-. congruence.
      * intros m q Hm. unfold upd1 in Hm. destruct (Nat.eqb_spec n m) as [<-|Hne].
        -- injection Hm as <-. split; [now left|]. intros [Hx|Hx]; [discriminate|]. destruct (I13 _ _ Hx). congruence.
        -- destruct (I11 m q Hm) as [A1 A2]. split; [now right|]. intros [Hx|Hx]; [discriminate|auto].
      * intros m q [Hx|Hx].
        -- injection Hx as <- <-. split; auto. left. apply upd1_same.
        -- destruct (I12 m q Hx) as [A1 A2]. split; auto. destruct A2 as [A2|[A2 A3]]; [left; rewrite upd1_other; auto; intros <-; congruence|right; split; auto; now right].
      * intros m q [Hx|Hx]; [discriminate|eauto].
      * intros m q ins [Hx|Hx]; [discriminate|]. destruct (I14 m q ins Hx) as [A1 A2]. split; auto. intros Hm. destruct (A2 Hm) as (A3 & vs & A4 & A5).
        split; [rewrite upd1_other; auto; intros <-; congruence|]. exists vs. auto.
      * constructor; auto. cbn. split.
        -- intros q Hx. destruct (I12 n q Hx) as [_ [A|[A _]]]; congruence.
        -- intros m Hx. destruct (I12 m p Hx) as [_ [A|[_ A]]]; auto. exfalso. now apply (Hnp m).
    + split; cbn; auto. intros m q Hm. rewrite upd1_other; auto. intros <-. congruence.
    + exact Hmem.
    + intros m (q & ins & [Hx|Hx]); [discriminate|]. exists q, ins. exact Hx.
    + cbn. apply upd1_same.
  - split; auto. split; [apply same_refl|]. auto.
Qed.

(* ------------------------------------------------------------------ copies to the device *)
Lemma copy_ok s n p s' oc : dinv s -> dv_ptr B s n = Some p -> copy_htod B s n p = (s', oc) ->
  dinv s' /\ same s s' /\ dv_ptr B s' = dv_ptr B s /\ (forall q, q <> p -> dv_mem B s' q = dv_mem B s q) /\ (forall m, launched s' m -> launched s m) /\
  match oc with
  | Done _ => dv_host B s n <> None \/ launched s n -> ready s' n p
  | Throw e => e = TypeErr /\ s' = s /\ exists nd vals, nth_error (dv_graph B s) n = Some nd /\ n_op nd = OConst vals /\ forallb (b_accept B (n_dtype nd)) (map (of_num L) vals) = false
  end.
Proof using HB.
  intros HI Hp HCp. pose proof (reach_wf _ (di_reach _ HI)) as Hw. destruct (di_ptr _ HI _ _ Hp) as (Hal & nd & vs0 & Hnd & Hm & Hlen0).
  unfold copy_htod in HCp. rewrite Hnd, Hm in HCp.
  assert (Hlr : launched s n -> ready s n p).
  { intros (q & ins & Hin). destruct (di_launch _ HI _ _ _ Hin) as [_ Hx]. destruct (Hx Hal) as (Hq & vs & Hv & Hd). assert (q = p) by congruence. subst q.
    split; auto. split; [eauto|]. right. eauto. }
  destruct (dv_host B s n) as [vs|] eqn:Eh.
  2:{ injection HCp as <- <-. split; auto. split; [apply same_refl|]. split; auto. split; auto. split; auto. intros [Hx|Hx]; [congruence|auto]. }
  destruct (forallb (b_accept B (n_dtype nd)) vs) eqn:EA.
  2:{ injection HCp as <- <-. split; auto. split; [apply same_refl|]. split; auto. split; auto. split; auto. split; auto. split; auto.
      destruct (is_const (n_op nd)) eqn:Ec.
      - destruct (n_op nd) eqn:Eop; try discriminate. exists nd, vals. split; auto. split; auto. rewrite (di_const _ HI _ _ _ Hnd Eop) in Eh. injection Eh as <-. exact EA.
      - exfalso. destruct (dfilled_accept _ n vs nd Hw Hnd (di_host _ HI _ _ _ Hnd Ec Eh)) as [A1 _]. congruence. }
  injection HCp as <- <-.
  assert (Hnew : dfilled (dv_graph B s) n (map (coerce L (n_dtype nd)) vs)).
  { destruct (is_const (n_op nd)) eqn:Ec.
    - destruct (n_op nd) eqn:Eop; try discriminate. rewrite (di_const _ HI _ _ _ Hnd Eop) in Eh. injection Eh as <-. now apply const_dfilled.
    - pose proof (di_host _ HI _ _ _ Hnd Ec Eh) as Hd. destruct (dfilled_accept _ n vs nd Hw Hnd Hd) as [_ ->]. exact Hd. }
  split; [|split; [|split; [|split; [|split]]]].
  - pose proof (di_held _ HI _ _ Hp) as Hheld. destruct HI as [I1 I2 I3 I4 I5 I6 I7 I8 I9 I10 I11 I12 I13 I14 I15].
    split; cbn [set_mem dv_graph dv_host dv_cache dv_alive dv_ptr dv_mem dv_log]; auto.
    + intros m q Hq. destruct (I8 m q Hq) as (A1 & nd' & ws & A2 & A3 & A4). split; auto. destruct (Nat.eq_dec p q) as [<-|Hne].
      * assert (m = n) by eauto. subst m. assert (nd' = nd) by congruence. subst nd'. exists nd, (map (coerce L (n_dtype nd)) vs). rewrite upd1_same. split; auto. split; auto.
        destruct Hnew as (nd' & N1 & N2 & _). congruence.
      * exists nd', ws. rewrite upd1_other; auto.
    + intros q ws Hq. destruct (Nat.eq_dec p q) as [<-|Hne]; [eauto|]. rewrite upd1_other in Hq by assumption. eauto.
    + intros m q Hq. destruct (I11 m q Hq) as [A1 A2]. split; [now right|]. intros [Hx|Hx]; [discriminate|auto].
    + intros m q [Hx|Hx]; [discriminate|]. destruct (I12 m q Hx) as [A1 [A2|[A2 A3]]]; split; auto. right. split; auto. now right.
    + intros m q [Hx|Hx]; [discriminate|eauto].
    + intros m q ins [Hx|Hx]; [discriminate|]. destruct (I14 m q ins Hx) as [A1 A2]. split; auto. intros Hm'. destruct (A2 Hm') as (A3 & ws & A4 & A5).
      split; auto. destruct (Nat.eq_dec p q) as [<-|Hne].
      * assert (m = n) by eauto. subst m. exists (map (coerce L (n_dtype nd)) vs). rewrite upd1_same. auto.
      * exists ws. rewrite upd1_other; auto.
    + constructor; auto.
  - split; cbn; auto.
  - reflexivity.
  - intros q Hq. cbn. now rewrite upd1_other by congruence.
  - intros m (q & ins & [Hx|Hx]); [discriminate|]. exists q, ins. exact Hx.
  - intros _. split; [exact Hp|]. split; [|left; now left]. exists (map (coerce L (n_dtype nd)) vs). cbn. rewrite upd1_same. auto.
Qed.
(* a parameter stays ready while others are prepared *)
Lemma ready_pointer s n s1 oc m q : dinv s -> dv_alive B s n = true -> pointer B s n s1 oc -> ready s m q -> ready s1 m q.
Proof.
  intros HI Ha HP (R1 & (vs & R2 & R3) & R4). destruct (pointer_ok s n s1 oc HI Ha HP) as (_ & HS & HM & _). split; [now apply (sm_ptr _ _ HS)|]. split.
  - exists vs. rewrite (sm_graph _ _ HS). auto.
  - destruct R4 as [R4|(ins & R4)]; [left|right; exists ins]; now apply (sm_log _ _ HS).
Qed.
Lemma ready_copy s n p s' oc m q : dinv s -> dv_ptr B s n = Some p -> copy_htod B s n p = (s', oc) -> ready s m q -> ready s' m q.
Proof using HB.
  intros HI Hp HCp HR. destruct (copy_ok s n p s' oc HI Hp HCp) as (HI' & HS & HPt & HM & _ & Hoc). pose proof HR as (R1 & (vs & R2 & R3) & R4).
  destruct (Nat.eq_dec q p) as [->|Hne].
  - assert (m = n) by (eapply (di_inj _ HI); eauto). subst m. unfold copy_htod in HCp. destruct (di_ptr _ HI _ _ Hp) as (Hal & nd & vs0 & Hnd & Hm0 & _). rewrite Hnd, Hm0 in HCp.
    destruct (dv_host B s n) as [ws|] eqn:Eh; [|injection HCp as <- <-; auto]. destruct (forallb _ ws); injection HCp as <- <-; auto. apply Hoc. left. congruence.
  - split; [now rewrite HPt|]. split.
    + exists vs. rewrite (sm_graph _ _ HS), HM; auto.
    + destruct R4 as [R4|(ins & R4)]; [left|right; exists ins]; now apply (sm_log _ _ HS).
Qed.

Definition input (s : dev) (n : nat) : Prop := dv_alive B s n = true /\ ((exists nd vals, nth_error (dv_graph B s) n = Some nd /\ n_op nd = OConst vals) \/ launched s n).
Lemma input_same s s' n : same s s' -> input s n -> input s' n.
Proof.
  intros HS (H1 & H2). split; [now rewrite (sm_alive _ _ HS)|]. rewrite (sm_graph _ _ HS). destruct H2 as [H2|H2]; [now left|right; eapply launched_same; eauto].
Qed.
Lemma input_host s n : dinv s -> input s n -> dv_host B s n <> None \/ launched s n.
Proof. intros HI (_ & [(nd & vals & H1 & H2)|H]); auto. left. rewrite (di_const _ HI _ _ _ H1 H2). discriminate. Qed.

Lemma prep1_in s n s' oc : dinv s -> input s n -> prep1 B false s n s' oc ->
  dinv s' /\ same s s' /\ (forall m q, ready s m q -> ready s' m q) /\ (forall m, launched s' m -> launched s m) /\
  match oc with
  | Done p => ready s' n p
  | Throw e => e = RuntimeErr \/ (e = TypeErr /\ exists nd vals, nth_error (dv_graph B s) n = Some nd /\ n_op nd = OConst vals /\ forallb (b_accept B (n_dtype nd)) (map (of_num L) vals) = false)
  end.
Proof using HB.
  intros HI Hin HP. pose proof (proj1 Hin) as Ha. inversion HP as [s1 e Hp E1 E2|s1 p Hf|s1 p s2 _ Hp Hcp E1 E2|s1 p s2 e _ Hp Hcp E1 E2]; subst.
  - destruct (pointer_ok _ _ _ _ HI Ha Hp) as (A1 & A2 & A3 & A4 & A5). split; auto. split; auto. split; [intros m q HR; exact (ready_pointer s n _ _ m q HI Ha Hp HR)|]. split; auto.
  - discriminate.
  - destruct (pointer_ok _ _ _ _ HI Ha Hp) as (A1 & A2 & A3 & A4 & A5). destruct (copy_ok _ _ _ _ _ A1 A5 Hcp) as (B1 & B2 & B3 & B4 & B5 & B6).
    split; auto. split; [eapply same_trans; eauto|]. split; [|split; auto].
    + intros m q HR. eapply ready_copy; [exact A1|exact A5|exact Hcp|]. exact (ready_pointer s n _ _ m q HI Ha Hp HR).
    + apply B6. apply input_host; auto. eapply input_same; eauto.
  - destruct (pointer_ok _ _ _ _ HI Ha Hp) as (A1 & A2 & A3 & A4 & A5). destruct (copy_ok _ _ _ _ _ A1 A5 Hcp) as (B1 & B2 & B3 & B4 & B5 & B6).
    split; auto. split; [eapply same_trans; eauto|]. split; [|split; auto].
    + intros m q HR. eapply ready_copy; [exact A1|exact A5|exact Hcp|]. exact (ready_pointer s n _ _ m q HI Ha Hp HR).
    + right. destruct B6 as (-> & _ & B6). split; auto. rewrite (sm_graph _ _ A2) in B6. exact B6.
Qed.
Lemma prep_in s ns s' oc : dinv s -> (forall n, In n ns -> input s n) -> prep B false s ns s' oc ->
  dinv s' /\ same s s' /\ (forall m q, ready s m q -> ready s' m q) /\ (forall m, launched s' m -> launched s m) /\
  match oc with
  | Done ps => Forall2 (ready s') ns ps
  | Throw e => e = RuntimeErr \/ (e = TypeErr /\ exists n nd vals, In n ns /\ nth_error (dv_graph B s) n = Some nd /\ n_op nd = OConst vals /\ forallb (b_accept B (n_dtype nd)) (map (of_num L) vals) = false)
  end.
Proof using HB.
  intros HI Hin HP. remember false as out eqn:Eo. revert HI Hin Eo. induction HP as [out s|out s n r s1 e H1|out s n r s1 p s2 oc H1 H2 IH]; intros HI Hin ->.
  - split; auto. split; [apply same_refl|]. split; auto.
  - destruct (prep1_in _ _ _ _ HI (Hin n (or_introl eq_refl)) H1) as (A1 & A2 & A3 & A4 & A5). split; auto. split; auto. split; auto. split; auto.
    destruct A5 as [A5|(A5 & nd & vals & A6)]; [now left|right]. split; auto. exists n, nd, vals. split; [now left|auto].
  - destruct (prep1_in _ _ _ _ HI (Hin n (or_introl eq_refl)) H1) as (A1 & A2 & A3 & A4 & A5).
    destruct (IH A1 ltac:(intros m Hm; eapply input_same; eauto; apply Hin; now right) eq_refl) as (B1 & B2 & B3 & B4 & B5).
    split; auto. split; [eapply same_trans; eauto|]. split; auto. split; auto. destruct oc as [ps|e].
    + constructor; auto.
    + destruct B5 as [B5|(B5 & m & nd & vals & B6 & B7)]; [now left|right]. split; auto. exists m, nd, vals. split; [now right|]. now rewrite (sm_graph _ _ A2) in B7.
Qed.
(* all parameters of a launch *)
Lemma prep_ok s n ns s' oc : dinv s -> dv_alive B s n = true -> (forall m, In m ns -> input s m) -> prep B true s (n :: ns) s' oc ->
  dinv s' /\ same s s' /\ (forall m, launched s' m -> launched s m) /\
  match oc with
  | Done ps => exists p qs, ps = p :: qs /\ dv_ptr B s' n = Some p /\ Forall2 (ready s') ns qs
  | Throw e => e = RuntimeErr \/ (e = TypeErr /\ exists m nd vals, In m ns /\ nth_error (dv_graph B s) m = Some nd /\ n_op nd = OConst vals /\ forallb (b_accept B (n_dtype nd)) (map (of_num L) vals) = false)
  end.
Proof using HB.
  intros HI Ha Hin HP. inversion HP as [|? ? ? ? s1 e H1|? ? ? ? s1 p s2 oc' H1 H2]; subst.
  - inversion H1 as [? ? Hp| | |]; subst; try discriminate. destruct (pointer_ok _ _ _ _ HI Ha Hp) as (A1 & A2 & A3 & A4 & A5). split; auto.
  - inversion H1 as [|? ? _ Hp| |]; subst; try discriminate.
    destruct (pointer_ok _ _ _ _ HI Ha Hp) as (A1 & A2 & A3 & A4 & A5).
    destruct (prep_in _ _ _ _ A1 ltac:(intros m Hm; eapply input_same; eauto) H2) as (B1 & B2 & B3 & B4 & B5).
    split; auto. split; [eapply same_trans; eauto|]. split; auto. destruct oc' as [ps|e].
    + exists p, ps. split; auto. split; auto. now apply (sm_ptr _ _ B2).
    + destruct B5 as [B5|(B5 & m & nd & vals & B6 & B7)]; [now left|right]. split; auto. exists m, nd, vals. split; auto. now rewrite (sm_graph _ _ A2) in B7.
Qed.
End D.
