(* Materializing a copy of something already materialized compiles nothing. *)
From Verif Require Import Base BaseFacts Util UtilFacts Lang Spec Graph Api Algo Kernel Sched Codegen Backends CacheKey Runtime Copy CopyConv CopyKey.

(* ---- an injective extension of the renaming *)
Definition ext_r (dom : list nat) (r : nat -> nat) (n : nat) : nat :=
  if nmem n dom then r n else (S (list_max (map r dom)) + n)%nat.
Lemma nmem_In x l : nmem x l = true <-> In x l.
Proof. unfold nmem. rewrite existsb_exists. split; [intros (y & Hy & E); apply Nat.eqb_eq in E; now subst|intros H; exists x; split; auto; apply Nat.eqb_refl]. Qed.
Lemma ext_in dom r n : In n dom -> ext_r dom r n = r n.
Proof. intros H. unfold ext_r. apply nmem_In in H. now rewrite H. Qed.
Lemma list_max_in l x : In x l -> (x <= list_max l)%nat.
Proof. intros H. pose proof (proj1 (list_max_le l (list_max l)) (le_n _)) as HF. rewrite Forall_forall in HF. auto. Qed.
Lemma copies_ext dom r g1 g2 : copies dom r g1 g2 ->
  (forall n m, ext_r dom r n = ext_r dom r m -> n = m) /\
  (forall n, In n dom -> exists x y, nth_error g1 n = Some x /\ nth_error g2 (ext_r dom r n) = Some y /\ same_node (ext_r dom r) x y /\ Forall (fun m => In m dom) (n_in x)).
Proof.
  intros [Hi Hc]. split.
  - intros n m. unfold ext_r. destruct (nmem n dom) eqn:En, (nmem m dom) eqn:Em; intros H.
    + apply nmem_In in En, Em. auto.
    + apply nmem_In in En. pose proof (list_max_in (map r dom) (r n) (in_map r _ _ En)). lia.
    + apply nmem_In in Em. pose proof (list_max_in (map r dom) (r m) (in_map r _ _ Em)). lia.
    + lia.
  - intros n Hn. destruct (Hc n Hn) as (x & y & H1 & H2 & (S1 & S2 & S3 & S4 & S5 & S6) & Hin). exists x, y. rewrite ext_in by auto. repeat split; auto.
    + rewrite S6. apply map_ext_in. intros m Hm. rewrite ext_in; auto.
    + apply Forall_forall. exact Hin.
Qed.

Section Run.
Context (B : cpu_backend).
Notation rt := (rt B).

(* ---- the cache only grows *)
Definition cache_le (s t : rt) : Prop := forall k x, cache_get (r_cache B s) k = Some x -> cache_get (r_cache B t) k = Some x.
Lemma cache_le_refl s : cache_le s s. Proof. intros k x H. exact H. Qed.
Lemma cache_le_trans s t u : cache_le s t -> cache_le t u -> cache_le s u. Proof. intros H1 H2 k x H. auto. Qed.
Definition same_code (s t : rt) : Prop := r_cache B t = r_cache B s /\ r_tmp B t = r_tmp B s.

Lemma invoke_fix s k ps s' o : invoke B s k ps = (s', o) -> r_graph B s' = r_graph B s /\ r_cache B s' = r_cache B s /\ r_tmp B s' = r_tmp B s.
Proof.
  unfold invoke. cbn [r_graph r_cpu r_cache r_tmp r_runs]. destruct (zero_fill B _ _ _) as [m|]; [|intros H; injection H as <- <-; cbn; auto].
  destruct (negb _); [intros H; injection H as <- <-; cbn; auto|]. destruct (b_copies B).
  - destruct (copy_in B _ _ _) as [cs|]; [|intros H; injection H as <- <-; cbn; auto]. destruct (run _ _ _) as [m' oc].
    destruct oc; destruct ps; try destruct (m' _); intros H; injection H as <- <-; cbn; auto.
  - destruct (run _ _ _) as [m' oc]. intros H; injection H as <- <-; cbn; auto.
Qed.

Lemma run_func_graph E fd sc s s' o : run_func B E fd sc s = (s', o) -> r_graph B s' = r_graph B s.
Proof.
  unfold run_func. destruct (mapOut _ _) as [bufs|]; [|intros H; injection H as <- <-; auto].
  destruct (cache_key (r_graph B s) E fd sc) as [key|]; [|intros H; injection H as <- <-; auto].
  destruct (cache_get _ key) as [kern|].
  - intros H. apply invoke_fix in H. tauto.
  - destruct (codegen _ _ _ _ _ _) as [[kern k']|]; [|intros H; injection H as <- <-; auto]. intros H. apply invoke_fix in H. tauto.
Qed.
Lemma run_func_grow E fd sc s s' o : run_func B E fd sc s = (s', o) -> cache_le s s' /\
  (o = Done tt -> exists key kern, cache_key (r_graph B s) E fd sc = Done key /\ cache_get (r_cache B s') key = Some kern).
Proof.
  unfold run_func. destruct (mapOut _ _) as [bufs|]; [|intros H; injection H as <- <-; split; [apply cache_le_refl|discriminate]].
  destruct (cache_key (r_graph B s) E fd sc) as [key|]; [|intros H; injection H as <- <-; split; [apply cache_le_refl|discriminate]].
  destruct (cache_get _ key) as [kern|] eqn:EG.
  - intros H. apply invoke_fix in H as (_ & H & _). unfold cache_le. rewrite H. split; auto. intros _. exists key, kern. auto.
  - destruct (codegen _ _ _ _ _ _) as [[kern k']|]; [|intros H; injection H as <- <-; split; [apply cache_le_refl|discriminate]].
    intros H. apply invoke_fix in H as (_ & H & _). unfold cache_le. rewrite H. cbn [r_cache]. split.
    + intros k x Hk. cbn [cache_get]. destruct (kkey_eq_dec key k); [subst; congruence|auto].
    + intros _. exists key, kern. split; auto. cbn. destruct (kkey_eq_dec key key); congruence.
Qed.
Lemma run_func_hit E fd sc s s' o key kern : run_func B E fd sc s = (s', o) -> cache_key (r_graph B s) E fd sc = Done key -> cache_get (r_cache B s) key = Some kern -> same_code s s'.
Proof.
  unfold run_func. intros H HK HG. rewrite HK in H. destruct (mapOut _ _) as [bufs|]; [|injection H as <- <-; split; auto].
  rewrite HG in H. apply invoke_fix in H. split; tauto.
Qed.
Lemma run_funcs_grow E l : forall s s' o, run_funcs B E l s = (s', o) -> r_graph B s' = r_graph B s /\ cache_le s s' /\
  (o = Done tt -> forall fd sc, In (fd, sc) l -> exists key kern, cache_key (r_graph B s) E fd sc = Done key /\ cache_get (r_cache B s') key = Some kern).
Proof.
  induction l as [|[fd sc] l IH]; intros s s' o H; cbn [run_funcs] in H.
  - injection H as <- <-. split; auto. split; [apply cache_le_refl|]. intros _ ? ? [].
  - destruct (run_func B E fd sc s) as [s1 [u|e]] eqn:E1.
    + pose proof (run_func_graph _ _ _ _ _ _ E1) as G1. destruct (run_func_grow _ _ _ _ _ _ E1) as [L1 K1].
      destruct (IH _ _ _ H) as (G2 & L2 & K2). split; [congruence|]. split; [eapply cache_le_trans; eauto|].
      intros Ho fd' sc' [Hin|Hin].
      * injection Hin as <- <-. destruct u. destruct (K1 eq_refl) as (key & kern & Hk & Hg). exists key, kern. split; auto.
      * rewrite <- G1. auto.
    + injection H as <- <-. destruct (run_func_grow _ _ _ _ _ _ E1) as [L1 K1]. split; [eapply run_func_graph; eauto|]. split; auto. discriminate.
Qed.
Lemma run_funcs_hit E l : forall s s' o, run_funcs B E l s = (s', o) ->
  (forall fd sc, In (fd, sc) l -> exists key kern, cache_key (r_graph B s) E fd sc = Done key /\ cache_get (r_cache B s) key = Some kern) -> same_code s s'.
Proof.
  induction l as [|[fd sc] l IH]; intros s s' o H HK; cbn [run_funcs] in H.
  - injection H as <- <-. split; auto.
  - destruct (run_func B E fd sc s) as [s1 o1] eqn:E1. destruct (HK fd sc (or_introl eq_refl)) as (key & kern & K1 & K2).
    pose proof (run_func_hit _ _ _ _ _ _ _ _ E1 K1 K2) as [C1 T1]. pose proof (run_func_graph _ _ _ _ _ _ E1) as G1.
    destruct o1 as [u|e]; [|injection H as <- <-; split; auto].
    destruct (IH _ _ _ H) as [C2 T2]; [|split; congruence]. intros fd' sc' Hin. rewrite G1, C1. apply HK. now right.
Qed.
Lemma compute_grow s a s' o : compute B s a = (s', o) -> r_graph B s' = r_graph B s /\ cache_le s s'.
Proof.
  unfold compute. destruct (convert _ _) as [[E fs]|]; [|intros H; injection H as <- <-; split; auto using cache_le_refl].
  destruct (mapOut _ _) as [l|]; [|intros H; injection H as <- <-; split; auto using cache_le_refl].
  intros H. apply run_funcs_grow in H. tauto.
Qed.
Lemma mat_grow k : forall s a s' o, mat B k s a = (s', o) -> r_graph B s' = r_graph B s /\ cache_le s s'.
Proof.
  induction k as [|k IH]; intros s a s' o H; cbn [mat] in H; [injection H as <- <-; split; auto using cache_le_refl|].
  destruct (nth_error _ _) as [nd|]; [|injection H as <- <-; split; auto using cache_le_refl].
  destruct (is_const _); [injection H as <- <-; split; auto using cache_le_refl|]. destruct (is_view _).
  - destruct (n_in nd); [injection H as <- <-; split; auto using cache_le_refl|]. eapply IH; eauto.
  - eapply compute_grow; eauto.
Qed.
Lemma materialize_grow s a s' o : materialize B s a = (s', o) -> r_graph B s' = r_graph B s /\ cache_le s s'.
Proof. apply mat_grow. Qed.
Lemma api_call_grow s c : r_cache B (fst (api_call B s c)) = r_cache B s /\ r_tmp B (fst (api_call B s c)) = r_tmp B s.
Proof. unfold api_call. destruct (run_call _ _) as [[g' n]|]; cbn; auto. Qed.

(* ---- a copy *)
Section Copy.
Context (dom : list nat) (r0 : nat -> nat) (g1 g2 : graph) (HC : copies dom r0 g1 g2) (Hlen : (length g1 <= length g2)%nat).
Let r := ext_r dom r0.
Let D n := In n dom.
Let Hinj : forall n m, r n = r m -> n = m := proj1 (copies_ext dom r0 g1 g2 HC).
Let HD : forall n, D n -> exists x y, nth_error g1 n = Some x /\ nth_error g2 (r n) = Some y /\ same_node r x y /\ Forall D (n_in x) := proj2 (copies_ext dom r0 g1 g2 HC).

Lemma schedule_copy E E' fs : Erel r D E E' -> Forall D fs -> forall l, mapOut (schedule_one B E) fs = Done l ->
  mapOut (schedule_one B E') (map r fs) = Done (map (fun p => (rnf r (fst p), snd p)) l).
Proof using HC.
  intros HE. induction 1 as [|f fs Hf Hfs IH]; intros l H; cbn [mapOut map] in *; [injection H as <-; reflexivity|].
  unfold schedule_one at 1. unfold schedule_one at 1 in H. rewrite (HE f Hf). destruct (E f) as [fd|]; cbn [option_map throw_none obind] in *; [|discriminate].
  rewrite auto_schedule_rn. destruct (auto_schedule false fd) as [sc|]; cbn [obind] in *; [|discriminate]. destruct (forallb _ _); cbn [obind] in *; [|discriminate].
  destruct (mapOut (schedule_one B E) fs) as [l'|]; cbn [obind] in *; [|discriminate]. rewrite (IH l' eq_refl). cbn [obind]. injection H as <-. reflexivity.
Qed.
Lemma mapOut_Forall2 {X Y} (f : X -> outcome Y) l v : mapOut f l = Done v -> Forall2 (fun x y => f x = Done y) l v.
Proof.
  revert v. induction l as [|x l IH]; cbn; intros v H; [injection H as <-; constructor|].
  destruct (f x) eqn:Ex; cbn in H; [|discriminate]. destruct (mapOut f l) eqn:El; cbn in H; [|discriminate]. injection H as <-. constructor; auto.
Qed.
Lemma compute_copy s1 a s1' s2 s2' o : r_graph B s1 = g1 -> r_graph B s2 = g2 -> In a dom ->
  compute B s1 a = (s1', Done tt) -> cache_le s1' s2 -> compute B s2 (r a) = (s2', o) -> same_code s2 s2'.
Proof using HC Hlen.
  intros G1 G2 Ha H1 HL H2. unfold compute in *. rewrite G1 in H1. rewrite G2 in H2.
  destruct (convert g1 a) as [[E fs]|] eqn:C1; [|discriminate]. rewrite convert_is in C1.
  destruct (convert_n_rn r Hinj g1 g2 D HD (S (length g1)) (S (length g2)) a E fs ltac:(lia) Ha C1) as (E' & C2 & HE & HDe & HF).
  rewrite convert_is, C2 in H2. destruct (mapOut (schedule_one B E) fs) as [l|] eqn:SC; [|discriminate].
  rewrite (schedule_copy E E' fs HE HF l SC) in H2.
  destruct (run_funcs_grow _ _ _ _ _ H1) as (_ & _ & K1). specialize (K1 eq_refl).
  eapply run_funcs_hit; [exact H2|]. intros fd' sc' Hin. apply in_map_iff in Hin as ([fd sc] & Heq & Hin). cbn in Heq. injection Heq as <- <-.
  destruct (K1 fd sc Hin) as (key & kern & Hk & Hg). exists key, kern. split; [|auto].
  rewrite G1 in Hk. rewrite G2. eapply cache_key_rn; eauto.
  apply mapOut_Forall2 in SC. clear - SC Hin HDe. induction SC as [|f [fd0 sc0] fs l Hf Hl IH]; [destruct Hin|]. destruct Hin as [Hin|Hin]; [|auto].
  injection Hin as -> ->. unfold schedule_one in Hf. destruct (E f) as [fd0|] eqn:Ef; cbn [throw_none obind] in Hf; [|discriminate].
  destruct (auto_schedule false fd0) as [sc1|]; cbn [obind] in Hf; [|discriminate]. destruct (forallb _ _); [|discriminate]. injection Hf as -> ->. eapply HDe; eauto.
Qed.
Lemma same_op_view x y : same_op x y -> is_view y = is_view x /\ is_const y = is_const x.
Proof. destruct x, y; cbn; intros H; try contradiction; try discriminate; try (injection H as; subst); auto. Qed.
Lemma mat_copy k : forall m s1 a s1' s2 s2' o, (k <= m)%nat -> r_graph B s1 = g1 -> r_graph B s2 = g2 -> In a dom ->
  mat B k s1 a = (s1', Done tt) -> cache_le s1' s2 -> mat B m s2 (r a) = (s2', o) -> same_code s2 s2'.
Proof using HC Hlen.
  induction k as [|k IH]; intros m s1 a s1' s2 s2' o Hm G1 G2 Ha H1 HL H2; [discriminate|]. destruct m as [|m]; [lia|].
  cbn [mat] in H1, H2. destruct (HD a Ha) as (x & y & N1 & N2 & (_ & _ & _ & _ & So & Si) & HF). rewrite G1, N1 in H1. rewrite G2, N2 in H2.
  destruct (same_op_view _ _ So) as [V1 V2]. rewrite V1, V2, Si in H2. destruct (is_const (n_op x)); [injection H2 as <- <-; split; auto|].
  destruct (is_view (n_op x)).
  - destruct (n_in x) as [|b l]; [discriminate|]. cbn [map] in H2. inversion HF as [|? ? Db _]; subst. eapply (IH m); eauto. lia.
  - eapply compute_copy; eauto.
Qed.
End Copy.

Lemma materialize_copy s1 a s1' s2 a2 s2' o : same_expr (r_graph B s1) a (r_graph B s2) a2 -> (length (r_graph B s1) <= length (r_graph B s2))%nat ->
  materialize B s1 a = (s1', Done tt) -> cache_le s1' s2 -> materialize B s2 a2 = (s2', o) -> same_code s2 s2'.
Proof.
  intros (dom & r & Ha & <- & HC) Hl H1 HL H2. unfold materialize in *. rewrite <- (ext_in dom r a Ha) in H2. eapply (mat_copy dom r); eauto.
Qed.
End Run.
