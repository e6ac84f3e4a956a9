(* The device invariant holds in every history; what tolist() returns. *)
From Verif Require Import Base BaseFacts Util UtilFacts Lang Spec Graph Api ApiFacts Denote SpecFacts DenoteFacts Reach Tolist TolistFacts
  Algo AlgoSem Kernel Sched Codegen Backends CacheKey KernelRun AlgoTop
  Runtime RuntimeFacts RuntimeFacts2 History HistFacts Parallel ParGpu Device DevFacts DevRun.

Section D.
Context (B : cpu_backend).
Notation L := (b_lang B).
Notation V := (val (b_lang B)).
Notation dev := (dev B).
Context (HB : backend_ok B) (C : desc -> Prop) (HC : key_safe C).
Notation nobody := (fun _ : nat => False).
Notation dinv := (dinv B C nobody).

Lemma dinv_init : dinv (dev0 B).
Proof.
  split; cbn; try discriminate; try contradiction; auto.
  - constructor.
  - intros [|n] nd vals H; discriminate.
  - constructor.
Qed.
Lemma gcall_ok s c : dinv s -> call_ok (dv_graph B s) c -> uses_alive B s c -> dinv (fst (gcall B s c)) /\
  (exists e, dv_graph B (fst (gcall B s c)) = dv_graph B s ++ e) /\
  (forall n, (n < length (dv_graph B s))%nat -> dv_alive B (fst (gcall B s c)) n = dv_alive B s n /\ dv_host B (fst (gcall B s c)) n = dv_host B s n) /\
  dv_log B (fst (gcall B s c)) = dv_log B s.
Proof.
  intros HI Hc Hu. unfold gcall. unfold uses_alive in Hu. destruct (run_call (dv_graph B s) c) as [[g' r]|e] eqn:ER; cbn [fst].
  2:{ split; auto. split; [exists []; now rewrite app_nil_r|auto]. }
  destruct (run_call_appends _ _ _ _ ER) as (e & He & _). cbn [dv_graph dv_host dv_alive dv_log].
  assert (Hr' : reach g') by (econstructor; eauto; apply (di_reach _ _ _ _ HI)). pose proof (reach_wf _ Hr') as Hw'.
  pose proof (reach_wf _ (di_reach _ _ _ _ HI)) as Hw.
  split; [|split; [eauto|]].
  2:{ split; [|reflexivity]. intros n Hn. apply Nat.ltb_lt in Hn. now rewrite Hn. }
  assert (Hold : forall n nd, (n < length (dv_graph B s))%nat -> nth_error g' n = Some nd -> nth_error (dv_graph B s) n = Some nd).
  { intros n nd Hn H. rewrite He, nth_error_app1 in H by assumption. exact H. }
  assert (Hnew : forall n nd, nth_error (dv_graph B s) n = Some nd -> nth_error g' n = Some nd).
  { intros n nd H. rewrite He, nth_error_app1; auto. apply nth_error_Some. congruence. }
  assert (Hlen : (length (dv_graph B s) <= length g')%nat) by (rewrite He, app_length; lia).
  specialize (Hu g' r). destruct HI as [I1 I2 I3 I4 I5 I6 I7 I8 I9 I10 I11 I12 I13 I14 I15].
  assert (Hdf : forall n vs, dfilled B (dv_graph B s) n vs -> dfilled B g' n vs) by (intros n vs H; rewrite He; now apply dfilled_grow).
  split; cbn [dv_graph dv_host dv_cache dv_alive dv_ptr dv_mem dv_log]; auto.
  - intros n nd vals Hn Hop. destruct (Nat.ltb_spec n (length (dv_graph B s))) as [Hl|Hl]; [eauto|]. now rewrite Hn, Hop.
  - intros n nd vs Hn Hcst Hvs. destruct (Nat.ltb_spec n (length (dv_graph B s))) as [Hl|Hl].
    + apply Hdf. eauto.
    + rewrite Hn in Hvs. destruct (n_op nd); discriminate.
  - intros n Hn. destruct (Nat.ltb_spec n (length (dv_graph B s))) as [Hl|Hl].
    + apply nth_error_None in Hn. lia.
    + now rewrite Hn.
  - intros n Hn. destruct (Nat.ltb_spec n (length (dv_graph B s))) as [Hl|Hl]; [lia|]. now apply Nat.ltb_lt.
  - intros m nd n Hm Hnd Hin HX. pose proof (wf_inputs_lt _ m nd Hw' Hnd) as HF. rewrite Forall_forall in HF. specialize (HF n Hin).
    destruct (Nat.ltb_spec m (length (dv_graph B s))) as [Hl|Hl].
    + destruct (Nat.ltb_spec n (length (dv_graph B s))); [|lia]. eapply I7; eauto.
    + apply Nat.ltb_lt in Hm. destruct (Nat.ltb_spec n (length (dv_graph B s))) as [Hl'|Hl']; [eauto|]. apply Nat.ltb_lt. lia.
  - intros n p Hp. destruct (I8 n p Hp) as (A1 & nd & vs & A2 & A3). pose proof (I6 n A1) as Hl. apply Nat.ltb_lt in Hl. rewrite Hl. split; auto. exists nd, vs. auto.
  - intros n p Hin. destruct (I12 n p Hin) as [A1 A2]. split; [lia|]. apply Nat.ltb_lt in A1. now rewrite A1.
  - intros n p Hin. destruct (I13 n p Hin) as [A1 A2]. split; [lia|]. apply Nat.ltb_lt in A1. now rewrite A1.
  - intros n p ins Hin. destruct (I14 n p ins Hin) as [A1 A2]. split; [lia|]. apply Nat.ltb_lt in A1. rewrite A1. intros Ha. destruct (A2 Ha) as (A3 & vs & A4 & A5). split; auto. exists vs. auto.
  - rewrite He. apply log_ok_grow; auto.
Qed.

Lemma base_alive s a b : dinv s -> dv_alive B s a = true -> base (dv_graph B s) a = Some b -> dv_alive B s b = true.
Proof.
  intros HI Ha Hb. apply (cone_alive B C s a); auto. apply view_cone, base_view; auto; [apply reach_wf, (di_reach _ _ _ _ HI)|now apply (di_alive _ _ _ _ HI)].
Qed.
Lemma gtolist_ok s a : dinv s -> dv_alive B s a = true -> readable B s a ->
  let s' := fst (gtolist B s a) in dinv s' /\ dv_graph B s' = dv_graph B s /\ dv_alive B s' = dv_alive B s /\ (forall m, launched B s m -> launched B s' m).
Proof.
  intros HI Ha HR s'. unfold s', gtolist. destruct (nth_error (dv_graph B s) a) as [nd|] eqn:Hn; [|cbn; auto].
  destruct (base (dv_graph B s) a) as [b|] eqn:Hb; [|cbn; auto]. destruct (dv_host B s b) as [data|] eqn:Hh; [cbn; auto|].
  destruct (dv_ptr B s b) as [p|] eqn:Hp; [|cbn; auto]. destruct (dv_mem B s p) as [data|] eqn:Hm; [|cbn; auto]. cbn [fst].
  destruct (HR b Hb) as [H|[H|(p' & ins & H)]]; try congruence.
  pose proof (base_alive s a b HI Ha Hb) as Hal. pose proof (di_held _ _ _ _ HI _ _ Hp) as Hheld.
  destruct (di_launch _ _ _ _ HI _ _ _ H) as [Hlt Hx]. destruct (Hx Hal) as (Hp' & vs & Hv & Hd). assert (p' = p) by congruence. subst p'. assert (vs = data) by congruence. subst vs.
  split; [|split; [|split]]; auto.
  2:{ intros m (q & ins' & Hin). exists q, ins'. now right. }
  destruct HI as [I1 I2 I3 I4 I5 I6 I7 I8 I9 I10 I11 I12 I13 I14 I15].
  split; cbn [set_host dv_graph dv_host dv_cache dv_alive dv_ptr dv_mem dv_log]; auto.
  - intros m md vals Hmd Hop. destruct (Nat.eq_dec b m) as [<-|]; [rewrite (I2 _ _ _ Hmd Hop) in Hh; discriminate|]. rewrite upd1_other; eauto.
  - intros m md vs Hmd Hop Hvs. destruct (Nat.eq_dec b m) as [<-|]; [rewrite upd1_same in Hvs; injection Hvs as <-; auto|]. rewrite upd1_other in Hvs by assumption. eauto.
  - intros m Hmd. destruct (Nat.eq_dec b m) as [<-|]; [apply nth_error_None in Hmd; lia|]. rewrite upd1_other; auto.
  - intros m q Hq. destruct (I11 m q Hq) as [A1 A2]. split; [now right|]. intros [Hy|Hy]; [discriminate|auto].
  - intros m q [Hy|Hy]; [discriminate|]. destruct (I12 m q Hy) as [A1 [A2|[A2 A3]]]; split; auto. right. split; auto. now right.
  - intros m q [Hy|Hy]; [discriminate|eauto].
  - intros m q ins' [Hy|Hy]; [discriminate|eauto].
  - constructor; auto. cbn. split; eauto.
Qed.

(* ------------------------------------------------------------------ death *)
Lemma die1_ok X s n : DevFacts.dinv B C X s -> X n -> dv_alive B s n = true -> DevFacts.dinv B C X (die1 B s n).
Proof.
  intros HI HX Ha. unfold die1. pose proof (di_alive _ _ _ _ HI _ Ha) as Hlt. destruct (dv_ptr B s n) as [p|] eqn:Hp.
  - destruct HI as [I1 I2 I3 I4 I5 I6 I7 I8 I9 I10 I11 I12 I13 I14 I15]. pose proof (I11 _ _ Hp) as Hheld.
    assert (Hal : forall m, upd1 (dv_alive B s) n false m = true -> m <> n /\ dv_alive B s m = true).
    { intros m Hm. unfold upd1 in Hm. destruct (Nat.eqb_spec n m); [discriminate|auto]. }
    assert (Hpt : forall m q, upd1 (dv_ptr B s) n None m = Some q -> m <> n /\ q <> p /\ dv_ptr B s m = Some q).
    { intros m q Hm. unfold upd1 in Hm. destruct (Nat.eqb_spec n m) as [|Hne]; [discriminate|]. split; auto. split; auto. intros ->. apply Hne. eauto. }
    split; cbn [dv_graph dv_host dv_cache dv_alive dv_ptr dv_mem dv_log]; auto.
    + intros m Hm. apply I6. now apply Hal.
    + intros m nd k Hm Hnd Hin HnX. apply Hal in Hm as [_ Hm]. destruct (Nat.eq_dec n k) as [<-|]; [contradiction|]. rewrite upd1_other; eauto.
    + intros m q Hm. apply Hpt in Hm as (M1 & M2 & M3). destruct (I8 m q M3) as (A1 & nd & vs & A2 & A3). split; [rewrite upd1_other; auto|]. exists nd, vs. rewrite upd1_other; auto.
    + intros m k q H1 H2. apply Hpt in H1 as (_ & _ & H1). apply Hpt in H2 as (_ & _ & H2). eauto.
    + intros q vs Hq. unfold upd1 in Hq. destruct (Nat.eqb_spec p q) as [|Hne]; [discriminate|]. destruct (I10 q vs Hq) as (m & Hm). exists m. rewrite upd1_other; auto. intros <-. congruence.
    + intros m q Hm. apply Hpt in Hm as (M1 & M2 & M3). destruct (I11 m q M3) as [A1 A2]. split; [now right|]. intros [Hx|Hx]; [congruence|auto].
    + intros m q [Hx|Hx]; [discriminate|]. destruct (I12 m q Hx) as [A1 A2]. split; auto. destruct (Nat.eq_dec n m) as [<-|Hne].
      * right. rewrite upd1_same. split; auto. destruct A2 as [A2|[_ A2]]; [left; congruence|now right].
      * rewrite !upd1_other by assumption. destruct A2 as [A2|[A2 A3]]; auto. right. split; auto. now right.
    + intros m q [Hx|Hx].
      * injection Hx as <- <-. split; auto. apply upd1_same.
      * destruct (I13 m q Hx) as [A1 A2]. split; auto. unfold upd1. destruct (Nat.eqb n m); auto.
    + intros m q ins [Hx|Hx]; [discriminate|]. destruct (I14 m q ins Hx) as [A1 A2]. split; auto. intros Hm. apply Hal in Hm as [M1 M2]. destruct (A2 M2) as (A3 & vs & A4 & A5).
      rewrite upd1_other by congruence. split; auto. exists vs. rewrite upd1_other; auto. intros <-. apply M1. eauto.
    + constructor; auto. cbn. split; [apply Hheld|]. intros q Hq. destruct (I13 n q Hq). congruence.
  - destruct HI as [I1 I2 I3 I4 I5 I6 I7 I8 I9 I10 I11 I12 I13 I14 I15].
    assert (Hal : forall m, upd1 (dv_alive B s) n false m = true -> m <> n /\ dv_alive B s m = true).
    { intros m Hm. unfold upd1 in Hm. destruct (Nat.eqb_spec n m); [discriminate|auto]. }
    split; cbn [dv_graph dv_host dv_cache dv_alive dv_ptr dv_mem dv_log]; auto.
    + intros m Hm. apply I6. now apply Hal.
    + intros m nd k Hm Hnd Hin HnX. apply Hal in Hm as [_ Hm]. destruct (Nat.eq_dec n k) as [<-|]; [contradiction|]. rewrite upd1_other; eauto.
    + intros m q Hm. destruct (I8 m q Hm) as (A1 & A2). split; auto. rewrite upd1_other; auto. intros <-. congruence.
    + intros m q Hx. destruct (I12 m q Hx) as [A1 A2]. split; auto. destruct A2 as [A2|[A2 A3]]; auto. right. split; auto. unfold upd1. destruct (Nat.eqb n m); auto.
    + intros m q Hx. destruct (I13 m q Hx) as [A1 A2]. split; auto. unfold upd1. destruct (Nat.eqb n m); auto.
    + intros m q ins Hx. destruct (I14 m q ins Hx) as [A1 A2]. split; auto. intros Hm. apply Hal in Hm as [_ Hm]. auto.
Qed.
Lemma die1_facts s n : dv_graph B (die1 B s n) = dv_graph B s /\ dv_host B (die1 B s n) = dv_host B s /\ dv_alive B (die1 B s n) = upd1 (dv_alive B s) n false /\
  (forall e, In e (dv_log B s) -> In e (dv_log B (die1 B s n))).
Proof. unfold die1. destruct (dv_ptr B s n); cbn; auto. Qed.
Lemma die_facts D : forall s, dv_graph B (die B s D) = dv_graph B s /\ dv_host B (die B s D) = dv_host B s /\
  (forall m, dv_alive B (die B s D) m = true <-> dv_alive B s m = true /\ ~ In m D) /\ (forall e, In e (dv_log B s) -> In e (dv_log B (die B s D))).
Proof.
  induction D as [|n D IH]; intros s; cbn [die fold_left].
  - split; [reflexivity|]. split; [reflexivity|]. split; [|auto]. intros m. cbn. tauto.
  - destruct (IH (die1 B s n)) as (A1 & A2 & A3 & A4). destruct (die1_facts s n) as (B1 & B2 & B3 & B4). fold (die B (die1 B s n) D). rewrite A1, A2, B1, B2. split; auto. split; auto. split; auto.
    intros m. rewrite A3, B3. cbn. unfold upd1. destruct (Nat.eqb_spec n m) as [->|]; split; try (intros [? ?]; discriminate); try tauto.
Qed.
Lemma die_ok s D : dinv s -> droppable B s D -> dinv (die B s D).
Proof.
  intros HI (HND & HD). assert (HIX : DevFacts.dinv B C (fun n => In n D) s).
  { destruct HI as [I1 I2 I3 I4 I5 I6 I7 I8 I9 I10 I11 I12 I13 I14 I15]. split; auto. intros m nd n H1 H2 H3 _. eapply I7; eauto. }
  assert (G : forall D' t, incl D' D -> NoDup D' -> (forall n, In n D' -> dv_alive B t n = true) -> DevFacts.dinv B C (fun n => In n D) t -> DevFacts.dinv B C (fun n => In n D) (die B t D')).
  { induction D' as [|n D' IH]; intros t Hinc Hnd Hal HIt; cbn [die fold_left]; auto. apply NoDup_cons_iff in Hnd as [Hn Hnd]. apply IH; auto.
    - intros x Hx. apply Hinc. now right.
    - intros m Hm. destruct (die1_facts t n) as (_ & _ & -> & _). rewrite upd1_other by congruence. apply Hal. now right.
    - apply die1_ok; auto; [apply Hinc; now left|apply Hal; now left]. }
  specialize (G D s (incl_refl _) HND (fun n Hn => proj1 (HD n Hn)) HIX). destruct (die_facts D s) as (Hg & _ & Hal & _).
  destruct G as [I1 I2 I3 I4 I5 I6 I7 I8 I9 I10 I11 I12 I13 I14 I15]. split; auto.
  intros m nd n H1 H2 H3 _. apply Hal in H1 as [H1 Hm]. rewrite Hg in H2. apply Hal. split; [eapply (di_in _ _ _ _ HI); eauto|].
  intros Hn. apply Hm. eapply HD; eauto.
Qed.
Lemma reset_dev_ok s : dinv s -> dinv (reset_dev B s).
Proof. intros [I1 I2 I3 I4 I5 I6 I7 I8 I9 I10 I11 I12 I13 I14 I15]. split; cbn; auto. discriminate. Qed.

Lemma base_some s a : dinv s -> dv_alive B s a = true -> exists b bd, base (dv_graph B s) a = Some b /\ nth_error (dv_graph B s) b = Some bd.
Proof.
  intros HI Ha. pose proof (di_alive _ _ _ _ HI _ Ha) as Hlt. destruct (base_total _ a (reach_wf _ (di_reach _ _ _ _ HI)) Hlt) as (b & Hb & Hle & _).
  destruct (nth_error (dv_graph B s) b) as [bd|] eqn:Hbd; [eauto|]. apply nth_error_None in Hbd. lia.
Qed.
Theorem ghist_inv s : ghist B true C s -> dinv s.
Proof using HB HC.
  induction 1 as [|s c Hs IH Hc Hu|s a s' oc Hs IH Ha Hm Hk HM|s a Hs IH Ha HR|s D Hs IH HD|s Hs IH].
  - apply dinv_init.
  - now apply gcall_ok.
  - destruct (base_some s a IH Ha) as (b & bd & Hb & Hbd). eapply (gmat_top B HB C HC s a b bd s' oc); eauto.
  - apply gtolist_ok; auto.
  - now apply die_ok.
  - now apply reset_dev_ok.
Qed.
Lemma glater_hist s t : ghist B true C s -> glater B C s t -> ghist B true C t.
Proof.
  intros Hs. induction 1 as [|t c Ht IH Hc Hu|t a t' oc Ht IH Ha Hm Hk HM|t a Ht IH Ha HR|t D Ht IH HD|t Ht IH]; auto.
  - now apply gh_call.
  - now apply (gh_mat B true C t a t' oc).
  - now apply gh_tolist.
  - now apply gh_die.
  - now apply gh_reset.
Qed.
Lemma glater_grow s t : ghist B true C s -> glater B C s t -> (exists e, dv_graph B t = dv_graph B s ++ e) /\
  (forall n, (n < length (dv_graph B s))%nat -> dv_alive B t n = true -> dv_alive B s n = true) /\ (forall n, launched B s n -> launched B t n).
Proof using HB HC.
  intros Hs. induction 1 as [|t c Ht IH Hc Hu|t a t' oc Ht IH Ha Hm Hk HM|t a Ht IH Ha HR|t D Ht IH HD|t Ht IH].
  - split; [exists []; now rewrite app_nil_r|auto].
  - destruct IH as ((e & He) & I1 & I2). pose proof (ghist_inv t (glater_hist s t Hs Ht)) as HI. destruct (gcall_ok t c HI Hc Hu) as (_ & (e2 & He2) & Hal & Hlg).
    split; [exists (e ++ e2); now rewrite He2, He, app_assoc|]. split.
    + intros n Hn Hnl. apply I1; auto. rewrite <- (proj1 (Hal n ltac:(rewrite He, app_length; lia))). exact Hnl.
    + intros n Hn. destruct (I2 n Hn) as (p & ins & Hin). exists p, ins. now rewrite Hlg.
  - destruct IH as ((e & He) & I1 & I2). pose proof (ghist_inv t (glater_hist s t Hs Ht)) as HI. destruct (base_some t a HI Ha) as (b & bd & Hb & Hbd).
    destruct (gmat_top B HB C HC t a b bd t' oc HI Ha Hb Hbd (Hm b Hb) Hk HM) as (_ & Hg & Hal & _ & Hlg & _). split; [rewrite Hg; eauto|]. split.
    + intros n Hn. rewrite Hal. auto.
    + intros n Hn. destruct (I2 n Hn) as (p & ins & Hin). exists p, ins. auto.
  - destruct IH as (I0 & I1 & I2). pose proof (ghist_inv t (glater_hist s t Hs Ht)) as HI. destruct (gtolist_ok t a HI Ha HR) as (_ & Hg & Hal & Hlg).
    rewrite Hg, Hal. auto.
  - destruct IH as (I0 & I1 & I2). destruct (die_facts D t) as (Hg & _ & Hal & Hlg). rewrite Hg. split; auto. split.
    + intros n Hn Hd. apply Hal in Hd as [Hd _]. auto.
    + intros n Hn. destruct (I2 n Hn) as (p & ins & Hin). exists p, ins. auto.
  - exact IH.
Qed.

(* ------------------------------------------------------------------ what the user reads *)
Lemma read_dfilled g a b data nd : wf_graph g -> view_of g true a b -> nth_error g a = Some nd -> dfilled B g b data ->
  exists l, read_nd data (n_shape nd) (n_strides nd) (n_offset nd) = Done l /\ t_tolist (den L g a) = Ok l.
Proof.
  intros Hw Hv Hn (bd & D1 & D2 & D3). destruct (tolist_view L g (fun _ => Some data) a b Hw Hv) as (l & H1 & H2).
  - exists data, bd. split; auto. split; auto. split; auto. intros idx Hi. destruct (D3 idx Hi) as (v & -> & ->). reflexivity.
  - unfold tolist in H1. rewrite Hn, (view_of_base _ _ _ _ Hw Hv) in H1. eauto.
Qed.
Lemma gtolist_value s a b bd : dinv s -> dv_alive B s a = true -> view_of (dv_graph B s) true a b -> nth_error (dv_graph B s) b = Some bd -> is_const (n_op bd) = false ->
  launched B s b -> exists l, snd (gtolist B s a) = Done l /\ t_tolist (den L (dv_graph B s) a) = Ok l.
Proof.
  intros HI Ha Hv Hbd Hc (p & ins & Hin). pose proof (reach_wf _ (di_reach _ _ _ _ HI)) as Hw. pose proof (view_of_base _ _ _ _ Hw Hv) as Hb.
  assert (exists nd, nth_error (dv_graph B s) a = Some nd) as [nd Hnd] by (destruct Hv; eauto).
  unfold gtolist. rewrite Hnd, Hb. destruct (dv_host B s b) as [data|] eqn:Hh.
  - cbn [snd]. eapply read_dfilled; eauto. eapply (di_host _ _ _ _ HI); eauto.
  - destruct (di_launch _ _ _ _ HI _ _ _ Hin) as [_ Hx]. destruct (Hx (base_alive s a b HI Ha Hb)) as (Hp & vs & Hv' & Hd). rewrite Hp, Hv'. cbn [snd]. eapply read_dfilled; eauto.
Qed.
Lemma view_grow g e al a b : view_of g al a b -> view_of (g ++ e) al a b.
Proof.
  assert (H : forall n nd, nth_error g n = Some nd -> nth_error (g ++ e) n = Some nd).
  { intros n nd Hn. rewrite nth_error_app1; auto. apply nth_error_Some. congruence. }
  induction 1; econstructor; eauto.
Qed.
Theorem gtolist_later s a b bd s' t : ghist B true C s -> dv_alive B s a = true -> view_of (dv_graph B s) true a b -> nth_error (dv_graph B s) b = Some bd -> is_const (n_op bd) = false ->
  gmat_ok B (dv_graph B s) b -> (forall d, gkernel_of (dv_graph B s) a d -> C d) -> gmat B s a s' (Done tt) ->
  glater B C s' t -> dv_alive B t a = true ->
  exists l, snd (gtolist B t a) = Done l /\ t_tolist (den L (dv_graph B s) a) = Ok l.
Proof using HB HC.
  intros Hs Ha Hv Hbd Hc Hm Hk HM Hl Hat. pose proof (ghist_inv s Hs) as HI. pose proof (reach_wf _ (di_reach _ _ _ _ HI)) as Hw. pose proof (view_of_base _ _ _ _ Hw Hv) as Hb.
  destruct (gmat_top B HB C HC s a b bd s' (Done tt) HI Ha Hb Hbd Hm Hk HM) as (HI' & Hg & Hal & _ & _ & Hla). destruct Hla as [|Hla]; [congruence|].
  assert (Hs' : ghist B true C s').
  { eapply gh_mat with (a := a); eauto. intros b' Hb'. assert (b' = b) by congruence. now subst. }
  destruct (glater_grow s' t Hs' Hl) as ((e & He) & _ & Hlt). pose proof (ghist_inv t (glater_hist s' t Hs' Hl)) as HIt. rewrite Hg in He.
  assert (Hnb : nth_error (dv_graph B t) b = Some bd) by (rewrite He, nth_error_app1; auto; apply nth_error_Some; congruence).
  destruct (gtolist_value t a b bd HIt Hat) as (l & L1 & L2); auto; [rewrite He; now apply view_grow|].
  exists l. split; auto. rewrite <- L2, He. f_equal. symmetry. apply den_app; auto. now apply (di_alive _ _ _ _ HI).
Qed.
End D.
