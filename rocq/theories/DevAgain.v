(* A second materialize() of the same array on CUDA: nothing is allocated, and the driver has nothing to refuse. *)
From Verif Require Import Base BaseFacts Util UtilFacts Lang Spec Graph Api ApiFacts Algo Kernel Sched Codegen Backends CacheKey Runtime Parallel ParGpu Device DevAny DevCopy.
Open Scope Z_scope.
Open Scope list_scope.

Section Again.
Context (B : cpu_backend).
Notation dev := (dev B).

(* every address kept by a buffer is allocated *)
Definition owns (s : dev) : Prop := forall n p, dv_ptr B s n = Some p -> dv_mem B s p <> None.
Definition keeps (s s' : dev) : Prop := dv_graph B s' = dv_graph B s /\ dv_host B s' = dv_host B s /\
  (forall n p, dv_ptr B s n = Some p -> dv_ptr B s' n = Some p) /\ (forall p, dv_mem B s p <> None -> dv_mem B s' p <> None).
Lemma keeps_refl s : keeps s s. Proof. repeat split; auto. Qed.
Lemma keeps_trans s t u : keeps s t -> keeps t u -> keeps s u.
Proof. intros (A1 & A2 & A3 & A4) (B1 & B2 & B3 & B4). split; [congruence|]. split; [congruence|]. split; auto. Qed.
Definition accd (s : dev) (n : nat) : Prop := forall vs nd, dv_host B s n = Some vs -> nth_error (dv_graph B s) n = Some nd -> forallb (b_accept B (n_dtype nd)) vs = true.
Lemma accd_keeps s s' n : keeps s s' -> accd s n -> accd s' n.
Proof. intros (G & H & _) HA vs nd. rewrite G, H. apply HA. Qed.
Definition has (s : dev) (n : nat) : Prop := exists p, dv_ptr B s n = Some p.
Lemma has_keeps s s' n : keeps s s' -> has s n -> has s' n.
Proof. intros (_ & _ & HP & _) (p & H). exists p. auto. Qed.

Lemma upd1_same {A} (f : nat -> A) n x : upd1 f n x n = x. Proof. unfold upd1. now rewrite Nat.eqb_refl. Qed.
Lemma upd1_other {A} (f : nat -> A) n m x : n <> m -> upd1 f n x m = f m.
Proof. intros H. unfold upd1. destruct (Nat.eqb_spec n m); congruence. Qed.
Lemma pointer_keeps s n s' oc : pointer B s n s' oc -> owns s -> owns s' /\ keeps s s' /\ forall p, oc = Done p -> dv_ptr B s' n = Some p.
Proof.
  intros H HO. inversion H as [p H1|p nd garbage H1 H2 H3 H4 H5|H1]; subst.
  - split; auto. split; [apply keeps_refl|]. intros q E. congruence.
  - assert (HM : forall q, dv_mem B s q <> None -> dv_mem B (set_ptr B s n p garbage) q <> None).
    { intros q Hq. cbn. destruct (Nat.eq_dec p q) as [->|Hpq]; [now rewrite upd1_same|now rewrite upd1_other]. }
    split; [|split].
    + intros m q Hm. cbn in Hm. destruct (Nat.eq_dec n m) as [->|Hnm].
      * rewrite upd1_same in Hm. injection Hm as <-. cbn. now rewrite upd1_same.
      * rewrite upd1_other in Hm by auto. apply HM. eapply HO; eauto.
    + split; [reflexivity|]. split; [reflexivity|]. split; [|exact HM]. intros m q Hm. cbn. rewrite upd1_other; auto. congruence.
    + intros q E. injection E as <-. cbn. now rewrite upd1_same.
  - split; auto. split; [apply keeps_refl|discriminate].
Qed.
Lemma htod_keeps s n p s' oc : copy_htod B s n p = (s', oc) -> owns s -> owns s' /\ keeps s s' /\ (oc = Done tt -> accd s n) /\ dv_ptr B s' = dv_ptr B s.
Proof.
  unfold copy_htod. destruct (dv_host B s n) as [vs|] eqn:EH; [|intros H HO; injection H as <- <-; split; auto; split; [apply keeps_refl|]; split; auto; intros _ ws wd; congruence].
  destruct (nth_error _ _) as [nd|] eqn:EN; [|intros H HO; injection H as <- <-; split; auto; split; [apply keeps_refl|]; split; auto; intros _ ws wd; congruence].
  destruct (forallb _ _) eqn:EF; [|intros H HO; injection H as <- <-; split; auto; split; [apply keeps_refl|]; split; auto; discriminate].
  destruct (dv_mem B s p) as [old|] eqn:EM; [|intros H HO; injection H as <- <-; split; auto; split; [apply keeps_refl|]; split; auto; discriminate].
  intros H HO. injection H as <- <-.
  assert (HM : forall q, dv_mem B s q <> None -> upd1 (dv_mem B s) p (Some (map (coerce (b_lang B) (n_dtype nd)) vs)) q <> None).
  { intros q Hq. destruct (Nat.eq_dec p q) as [->|Hpq]; [now rewrite upd1_same|now rewrite upd1_other]. }
  split; [|split; [|split; [|reflexivity]]].
  - intros m q Hm. cbn in Hm. cbn. apply HM. eapply HO; eauto.
  - split; [reflexivity|]. split; [reflexivity|]. split; [auto|exact HM].
  - intros _ ws wd Hw Hd. congruence.
Qed.
(* with an address and values that ctypes accepts, the copy is made *)
Lemma htod_done s n p s' oc : copy_htod B s n p = (s', oc) -> owns s -> dv_ptr B s n = Some p -> accd s n -> oc = Done tt.
Proof.
  unfold copy_htod. intros H HO Hp HA. destruct (dv_host B s n) as [vs|] eqn:EH; [|now injection H as _ <-].
  destruct (nth_error _ _) as [nd|] eqn:EN; [|now injection H as _ <-]. rewrite (HA vs nd EH EN) in H.
  destruct (dv_mem B s p) eqn:EM; [now injection H as _ <-|]. exfalso. exact (HO n p Hp EM).
Qed.
Lemma prep1_keeps out s n s' oc : prep1 B out s n s' oc -> owns s -> owns s' /\ keeps s s' /\ forall p, oc = Done p -> has s' n /\ (out = false -> accd s' n).
Proof.
  intros H HO. inversion H as [s1 e HP|s1 p Ho HP|s1 p s2 Ho HP HC|s1 p s2 e Ho HP HC]; subst.
  - apply pointer_keeps in HP as (A1 & A2 & A3); auto. split; auto. split; auto. discriminate.
  - apply pointer_keeps in HP as (A1 & A2 & A3); auto. split; auto. split; auto. intros q _. split; [exists p; auto|discriminate].
  - apply pointer_keeps in HP as (A1 & A2 & A3); auto. apply htod_keeps in HC as (B1 & B2 & B3 & B4); auto. split; auto. split; [eapply keeps_trans; eauto|].
    intros q _. split; [exists p; rewrite B4; auto|]. intros _. eapply accd_keeps; eauto.
  - apply pointer_keeps in HP as (A1 & A2 & A3); auto. apply htod_keeps in HC as (B1 & B2 & B3 & B4); auto. split; auto. split; [eapply keeps_trans; eauto|discriminate].
Qed.
Lemma prep_keeps out s ns s' oc : prep B out s ns s' oc -> owns s -> owns s' /\ keeps s s' /\
  forall ps, oc = Done ps -> (forall n, In n ns -> has s' n) /\ forall n, In n (if out then tl ns else ns) -> accd s' n.
Proof.
  induction 1 as [out s|out s n r s1 e H|out s n r s1 p s2 oc H1 H2 IH]; intros HO.
  - split; auto. split; [apply keeps_refl|]. intros ps _. split; [intros ? []|destruct out; intros ? []].
  - apply prep1_keeps in H as (A1 & A2 & _); auto. split; auto. split; auto. discriminate.
  - apply prep1_keeps in H1 as (A1 & A2 & A3); auto. destruct (IH A1) as (B1 & B2 & B3). split; auto. split; [eapply keeps_trans; eauto|].
    intros ps E. destruct oc as [qs|e]; [|discriminate]. destruct (A3 p eq_refl) as [C1 C2]. destruct (B3 qs eq_refl) as [D1 D2]. split.
    + intros m [<-|Hm]; auto. eapply has_keeps; eauto.
    + destruct out; cbn [tl].
      * intros m Hm. apply D2. exact Hm.
      * intros m [<-|Hm]; [eapply accd_keeps; eauto|]. apply D2. exact Hm.
Qed.
(* with all addresses there: nothing is allocated, nothing fails *)
Lemma prep1_again out s n s' oc : prep1 B out s n s' oc -> owns s -> has s n -> (out = false -> accd s n) -> (exists p, oc = Done p) /\ dv_ptr B s' = dv_ptr B s.
Proof.
  intros H HO (q & Hq) HA. inversion H as [s1 e HP|s1 p Ho HP|s1 p s2 Ho HP HC|s1 p s2 e Ho HP HC]; subst; inversion HP; subst; try congruence.
  - eauto.
  - split; [eauto|]. eapply htod_keeps in HC as (_ & _ & _ & X); eauto.
  - exfalso. assert (q = p) by congruence. subst q. pose proof (htod_done _ _ _ _ _ HC HO Hq (HA eq_refl)). discriminate.
Qed.
Lemma prep_again out s ns s' oc : prep B out s ns s' oc -> owns s -> (forall n, In n ns -> has s n) -> (forall n, In n (if out then tl ns else ns) -> accd s n) ->
  (exists ps, oc = Done ps) /\ dv_ptr B s' = dv_ptr B s.
Proof.
  induction 1 as [out s|out s n r s1 e H|out s n r s1 p s2 oc H1 H2 IH]; intros HO Hh Ha.
  - eauto.
  - exfalso. destruct (prep1_again _ _ _ _ _ H HO (Hh n (or_introl eq_refl))) as [(p & E) _]; [|discriminate]. intros ->. apply Ha. now left.
  - destruct (prep1_again _ _ _ _ _ H1 HO (Hh n (or_introl eq_refl))) as [_ P1]; [intros ->; apply Ha; now left|].
    destruct (prep1_keeps _ _ _ _ _ H1 HO) as (A1 & A2 & _). destruct IH as [(ps & ->) P2]; auto.
    + intros m Hm. eapply has_keeps; eauto. apply Hh. now right.
    + intros m Hm. eapply accd_keeps; eauto. apply Ha. destruct out; cbn [tl]; [exact Hm|now right].
    + split; [eauto|congruence].
Qed.

(* what the first call leaves behind for one kernel *)
Definition ready2 (E : fenv) (fd : func) (sc : schedule) (s : dev) : Prop :=
  exists bufs key kern, mapOut (arg_buffer E) (func_args (f_expr fd)) = Done bufs /\ cache_key (dv_graph B s) E fd sc = Done key /\ cache_get (dv_cache B s) key = Some kern /\
    launchable (launch_dims sc) = true /\ has s (f_out fd) /\ forall n, In n bufs -> has s n /\ accd s n.
Lemma ready2_later E fd sc s s' : keeps s s' -> gcache_le B s s' -> ready2 E fd sc s -> ready2 E fd sc s'.
Proof.
  intros HK HL (bufs & key & kern & R1 & R2 & R3 & R4 & R5 & R6). exists bufs, key, kern. split; auto. split; [rewrite (proj1 HK); exact R2|]. split; [auto|]. split; auto.
  split; [eapply has_keeps; eauto|]. intros n Hn. destruct (R6 n Hn). split; [eapply has_keeps; eauto|eapply accd_keeps; eauto].
Qed.
Lemma ginvoke_keeps s sc kern n ns s' : ginvoke B s sc kern n ns s' (Done tt) -> owns s ->
  owns s' /\ keeps s s' /\ launchable (launch_dims sc) = true /\ has s' n /\ forall m, In m ns -> has s' m /\ accd s' m.
Proof.
  intros H HO. inversion H as [|s1 p ps s2 oc0 HP HL]; subst. apply prep_keeps in HP as (A1 & A2 & A3); auto. destruct (A3 _ eq_refl) as [A4 A5].
  inversion HL as [|k ts m' Hla Hst Hf|]; subst.
  assert (HM : forall q, dv_mem B s1 q <> None -> m' q <> None).
  { intros q Hq Hn. apply Hq. apply (psteps_dom B _ _ _ _ _ Hst q). exact Hn. }
  assert (HK : keeps s1 (set_mem B s1 m' (EvLaunch B n p (inputs_at B s1 ns ps)))) by (split; [reflexivity|]; split; [reflexivity|]; split; auto).
  split; [|split; [eapply keeps_trans; eauto|]; split; [exact Hla|]; split].
  - intros m q Hm. cbn in *. apply HM. eapply A1; eauto.
  - eapply has_keeps; [exact HK|]. apply A4. now left.
  - intros m Hm. split; [eapply has_keeps; [exact HK|]; apply A4; now right|]. eapply accd_keeps; [exact HK|]. apply A5. exact Hm.
Qed.
Lemma ginvoke_again s sc kern n ns s' oc : ginvoke B s sc kern n ns s' oc -> owns s -> launchable (launch_dims sc) = true -> has s n -> (forall m, In m ns -> has s m /\ accd s m) ->
  (oc = Done tt \/ oc = Throw InternalErr) /\ dv_ptr B s' = dv_ptr B s.
Proof.
  intros H HO Hla Hn Hns. assert (Hh : forall m, In m (n :: ns) -> has s m) by (intros m [<-|Hm]; auto; now apply Hns). assert (Ha : forall m, In m ns -> accd s m) by (intros m Hm; now apply Hns).
  inversion H as [s1 e HP|s1 p ps s2 oc0 HP HL]; subst.
  - apply prep_again in HP as [(ps & E) _]; auto. discriminate.
  - apply prep_again in HP as [_ P]; auto. inversion HL; subst; [congruence| |]; split; auto.
Qed.
Lemma owns_cache s c k : owns s -> owns (set_cache B s c k). Proof. intros H n p. apply H. Qed.
Lemma keeps_cache s c k s' : keeps (set_cache B s c k) s' -> keeps s s'. Proof. intros H. exact H. Qed.
Lemma grun_func_keeps E fd sc s s' : grun_func B E fd sc s s' (Done tt) -> owns s -> owns s' /\ keeps s s' /\ ready2 E fd sc s'.
Proof.
  intros H HO. pose proof (gfunc_grow B _ _ _ _ _ _ H) as (_ & _ & HK). destruct (HK eq_refl) as (key' & kern' & K1 & K2). clear HK.
  inversion H as [| |bufs key kern s2 oc0 M1 M2 M3 HI| |bufs key kern k' s2 oc0 M1 M2 M3 M4 HI]; subst.
  - apply ginvoke_keeps in HI as (A1 & A2 & A3 & A4 & A5); auto. split; auto. split; auto. exists bufs, key', kern'. rewrite (proj1 A2). auto 8.
  - apply ginvoke_keeps in HI as (A1 & A2 & A3 & A4 & A5); [|now apply owns_cache]. apply keeps_cache in A2. split; auto. split; auto. exists bufs, key', kern'. rewrite (proj1 A2). auto 8.
Qed.
Lemma grun_func_again E fd sc s s' oc : grun_func B E fd sc s s' oc -> owns s -> ready2 E fd sc s -> (oc = Done tt \/ oc = Throw InternalErr) /\ dv_ptr B s' = dv_ptr B s.
Proof.
  intros H HO (bufs & key & kern & R1 & R2 & R3 & R4 & R5 & R6). inversion H; subst; try congruence.
  match goal with HI : ginvoke _ _ _ _ _ _ _ _, M1 : mapOut _ _ = Done ?b |- _ => rewrite R1 in M1; injection M1 as <-; apply ginvoke_again in HI; auto end.
Qed.
Lemma grun_funcs_keeps E l : forall s s' oc, grun_funcs B E l s s' oc -> oc = Done tt -> owns s -> owns s' /\ keeps s s' /\ forall fd sc, In (fd, sc) l -> ready2 E fd sc s'.
Proof.
  intros s s' oc H. induction H as [s|fd sc r s s' e H1|fd sc r s s1 s' oc H1 H2 IH]; intros Ho HO.
  - split; auto. split; [apply keeps_refl|intros ? ? []].
  - discriminate.
  - apply grun_func_keeps in H1 as (A1 & A2 & A3); auto. destruct (IH Ho A1) as (B1 & B2 & B3). split; auto. split; [eapply keeps_trans; eauto|].
    intros fd' sc' [E1|Hin]; auto. injection E1 as <- <-. eapply ready2_later; eauto.
    subst oc. apply gfuncs_grow in H2 as (_ & L & _). exact L.
Qed.
Lemma grun_funcs_again E l : forall s s' oc, grun_funcs B E l s s' oc -> owns s -> (forall fd sc, In (fd, sc) l -> ready2 E fd sc s) ->
  (oc = Done tt \/ oc = Throw InternalErr) /\ dv_ptr B s' = dv_ptr B s.
Proof.
  intros s s' oc H. induction H as [s|fd sc r s s' e H1|fd sc r s s1 s' oc H1 H2 IH]; intros HO HR.
  - auto.
  - destruct (grun_func_again _ _ _ _ _ _ H1 HO (HR _ _ (or_introl eq_refl))); auto.
  - destruct (grun_func_again _ _ _ _ _ _ H1 HO (HR _ _ (or_introl eq_refl))) as [_ P1]. destruct (grun_func_keeps _ _ _ _ _ H1 HO) as (A1 & A2 & _).
    apply gfunc_grow in H1 as (_ & L & _). destruct IH as [O P2]; auto; [|split; [exact O|congruence]]. intros fd' sc' Hin. eapply ready2_later; eauto. apply HR. now right.
Qed.
(* t: any state after the first call in which no buffer lost its memory and no host list or cache entry changed *)
Lemma gmat_again s a s1 oc1 : gmat B s a s1 oc1 -> oc1 = Done tt -> owns s -> forall s2 oc, gmat B s1 a s2 oc -> (oc = Done tt \/ oc = Throw InternalErr) /\ dv_ptr B s2 = dv_ptr B s1.
Proof.
  induction 1 as [a nd Hn Hc|a nd b l s1 oc1 Hn Hv Hi HM IH|a nd s1 oc1 Hn Hc Hv HM]; intros Ho HO s2 oc H2.
  - inversion H2; subst; auto; try congruence.
    + rewrite H in Hn. injection Hn as ->. destruct (n_op nd); discriminate.
  - destruct (gmat_grow _ _ _ _ _ HM) as [G _]. inversion H2 as [a2 nd2 Hn2 Hc2|a2 nd2 b2 l2 s2x oc2 Hn2 Hv2 Hi2 HM2|a2 nd2 s2x oc2 Hn2 Hc2 Hv2 HM2]; subst; auto; rewrite G, Hn in Hn2; injection Hn2 as <-; [|congruence].
    rewrite Hi in Hi2. injection Hi2 as <- <-. eapply IH; eauto.
  - destruct (gcompute_grow _ _ _ _ _ HM) as [G _]. subst oc1. inversion H2 as [a2 nd2 Hn2 Hc2|a2 nd2 b2 l2 s2x oc2 Hn2 Hv2 Hi2 HM2|a2 nd2 s2x oc2 Hn2 Hc2 Hv2 HM2]; subst; auto; rewrite G, Hn in Hn2; injection Hn2 as <-; [congruence|].
    inversion HM as [| |E fs l s1x ocx C1 S1 HR]; subst. apply grun_funcs_keeps in HR as (A1 & A2 & A3); auto.
    inversion HM2 as [e C2|E2 fs2 e C2 S2|E2 fs2 l2 s3 oc3 C2 S2 HR2]; subst; rewrite G, C1 in C2; try discriminate; injection C2 as <- <-; rewrite S1 in S2; try discriminate.
    injection S2 as <-. eapply grun_funcs_again; eauto.
Qed.
End Again.
