(* Fusion (algo.py try_fuse), reference counts and kernel order: totality, invariants, meaning. *)
From Verif Require Import Base BaseFacts Util UtilFacts Lang Spec Graph Api Denote SpecFacts DenoteFacts Reach Algo AlgoSem AlgoConv AlgoConv2.

(* ------------------------------------------------------------------ occurrences *)
Definition occ (l : list nat) (f : nat) : nat := count_occ Nat.eq_dec l f.
Lemma occ_app l1 l2 f : occ (l1 ++ l2) f = (occ l1 f + occ l2 f)%nat.
Proof. apply count_occ_app. Qed.
Fixpoint nsum (l : list nat) : nat := match l with [] => 0%nat | x :: r => (x + nsum r)%nat end.
Lemma nsum_map_add {A} (f h : A -> nat) l : nsum (map (fun x => (f x + h x)%nat) l) = (nsum (map f l) + nsum (map h l))%nat.
Proof. induction l; cbn; lia. Qed.
Lemma nsum_map_ext {A} (f h : A -> nat) l : (forall x, In x l -> f x = h x) -> nsum (map f l) = nsum (map h l).
Proof. intros H. f_equal. now apply map_ext_in. Qed.

Lemma nmem_In x l : nmem x l = true <-> In x l.
Proof.
  unfold nmem. rewrite existsb_exists. split.
  - intros (y & H & E). apply Nat.eqb_eq in E. now subst.
  - intros H. exists x. split; auto. apply Nat.eqb_refl.
Qed.
Lemma nmem_false x l : nmem x l = false <-> ~ In x l.
Proof. rewrite <- nmem_In. destruct (nmem x l); split; congruence. Qed.
Lemma dedup_in l seen x : In x (dedup l seen) <-> In x l /\ ~ In x seen.
Proof.
  revert seen; induction l as [|y l IH]; intros seen; cbn; [tauto|].
  destruct (nmem y seen) eqn:E.
  - apply nmem_In in E. rewrite IH. split; intros H; [tauto|]. destruct H as [[->|H] H2]; tauto.
  - apply nmem_false in E. cbn. rewrite IH. cbn. split.
    + intros [->|[H1 H2]]; tauto.
    + intros [[->|H1] H2]; auto. destruct (Nat.eq_dec y x); subst; tauto.
Qed.
Lemma dedup_NoDup l seen : NoDup (dedup l seen).
Proof.
  revert seen; induction l as [|y l IH]; intros seen; cbn; [constructor|].
  destruct (nmem y seen) eqn:E; auto. constructor; auto. rewrite dedup_in. cbn. tauto.
Qed.
Lemma dependent_funcs_in e x : In x (dependent_funcs e) <-> In x (func_refs e).
Proof. unfold dependent_funcs. rewrite dedup_in. cbn. tauto. Qed.

(* ------------------------------------------------------------------ count_refs *)
Section Count.
Context (E : fenv) (N : nat).
Hypothesis HE : forall f fd, E f = Some fd -> forall i, In i (func_refs (f_expr fd)) -> (i < f)%nat /\ E i <> None.
Hypothesis HN : forall f fd, E f = Some fd -> (f < N)%nat.

Definition erefs (f : nat) : list nat := match E f with Some fd => func_refs (f_expr fd) | None => [] end.
Definition fresh (rc rc' : refs) (n : nat) : bool := Nat.eqb (rc n) 0 && negb (Nat.eqb (rc' n) 0).
Definition uses (rc rc' : refs) (f : nat) : nat := nsum (map (fun n => if fresh rc rc' n then occ (erefs n) f else 0%nat) (seq 0 N)).

Definition cspec (e : expr) (rc rc' : refs) : Prop :=
  (forall f, rc' f = rc f + occ (func_refs e) f + uses rc rc' f)%nat.

Lemma uses_trans rc1 rc2 rc3 f : (forall n, rc1 n <= rc2 n)%nat -> (forall n, rc2 n <= rc3 n)%nat ->
  uses rc1 rc3 f = (uses rc1 rc2 f + uses rc2 rc3 f)%nat.
Proof.
  intros H1 H2. unfold uses. rewrite <- nsum_map_add. apply nsum_map_ext. intros n _. unfold fresh.
  specialize (H1 n). specialize (H2 n).
  destruct (Nat.eqb_spec (rc1 n) 0), (Nat.eqb_spec (rc2 n) 0), (Nat.eqb_spec (rc3 n) 0); cbn; lia.
Qed.
Lemma cspec_mono e rc rc' : cspec e rc rc' -> forall n, (rc n <= rc' n)%nat.
Proof. intros H n. rewrite (H n). lia. Qed.
Lemma cspec_app x y e rc1 rc2 rc3 : func_refs e = func_refs x ++ func_refs y ->
  cspec x rc1 rc2 -> cspec y rc2 rc3 -> cspec e rc1 rc3.
Proof.
  intros He H1 H2 f. rewrite (uses_trans rc1 rc2 rc3 f (cspec_mono _ _ _ H1) (cspec_mono _ _ _ H2)).
  rewrite He, occ_app, (H2 f), (H1 f). lia.
Qed.
Lemma uses_refl rc f : uses rc rc f = 0%nat.
Proof.
  unfold uses. rewrite (nsum_map_ext _ (fun _ => 0%nat)).
  - induction (seq 0 N); cbn; auto.
  - intros n _. unfold fresh. destruct (Nat.eqb (rc n) 0); reflexivity.
Qed.
Lemma cspec_nil e rc : func_refs e = [] -> cspec e rc rc.
Proof. intros H f. rewrite H, uses_refl. cbn. lia. Qed.

Lemma nsum_single (h : nat -> nat) k m : (k < m)%nat -> (forall n, n <> k -> h n = 0%nat) -> nsum (map h (seq 0 m)) = h k.
Proof.
  intros Hk H. assert (G : forall s len, (s <= k < s + len)%nat -> nsum (map h (seq s len)) = h k).
  { intros s len; revert s; induction len as [|len IH]; intros s Hs; [lia|]. cbn.
    destruct (Nat.eq_dec s k) as [->|Hne].
    - enough (nsum (map h (seq (S k) len)) = 0%nat) by lia.
      rewrite (nsum_map_ext _ (fun _ => 0%nat)); [induction (seq (S k) len); cbn; auto|].
      intros n Hn. apply in_seq in Hn. apply H. lia.
    - rewrite (H s Hne), IH by lia. reflexivity. }
  apply G. lia.
Qed.

Lemma count_refs_ok fuel : forall e rc lim, (forall i, In i (func_refs e) -> (i < lim)%nat /\ E i <> None) -> (lim <= fuel)%nat ->
  exists rc', count_refs fuel E e rc = Done rc' /\ cspec e rc rc'.
Proof.
  induction fuel as [|k IHk]; intros e; induction e using expr_ind'; intros rc lim Hr Hlim; cbn [count_refs func_refs] in *;
    try (eexists; split; [reflexivity|now apply cspec_nil]).
  1,6: destruct (IHe1 rc lim) as (rc1 & E1 & S1); [intros i Hi; apply Hr, in_or_app; now left|assumption|];
    rewrite E1; cbn [obind];
    destruct (IHe2 rc1 lim) as (rc2 & E2 & S2); [intros i Hi; apply Hr, in_or_app; now right|assumption|];
    rewrite E2; eexists; split; [reflexivity|]; eapply cspec_app; [|exact S1|exact S2]; reflexivity.
  1,5: destruct (IHe rc lim Hr Hlim) as (rc1 & E1 & S1); exists rc1; split; [exact E1|exact S1].
  1,4: (destruct (IHe1 rc lim) as (rc1 & E1 & S1); [intros i Hi; apply Hr, in_or_app; now left|assumption|];
    rewrite E1; cbn [obind];
    destruct (IHe2 rc1 lim) as (rc2 & E2 & S2); [intros i Hi; apply Hr, in_or_app; right; apply in_or_app; now left|assumption|];
    rewrite E2; cbn [obind];
    destruct (IHe3 rc2 lim) as (rc3 & E3 & S3); [intros i Hi; apply Hr, in_or_app; right; apply in_or_app; now right|assumption|];
    rewrite E3; eexists; split; [reflexivity|];
    eapply (cspec_app e1 (EBin BAdd e2 e3)); [reflexivity|exact S1|]; eapply cspec_app; [|exact S2|exact S3]; reflexivity).
  1,3: destruct (IHe rc lim Hr Hlim) as (rc1 & E1 & S1); exists rc1; split; [exact E1|exact S1].
  - destruct (Hr f (or_introl eq_refl)). lia.
  - destruct (Hr f (or_introl eq_refl)) as [Hf HEf]. unfold rinc at 1. rewrite Nat.eqb_refl.
    assert (Hocc : forall n, occ [f] n = if Nat.eqb n f then 1%nat else 0%nat).
    { intros n. unfold occ. cbn. destruct (Nat.eq_dec f n), (Nat.eqb_spec n f); congruence. }
    destruct (Nat.eqb_spec (S (rc f)) 1) as [Hz|Hz].
    + destruct (E f) as [fd|] eqn:Ef; [|congruence]. cbn [throw_none obind].
      destruct (IHk (f_expr fd) (rinc rc f) f) as (rc' & E1 & S1); [now apply HE|lia|].
      exists rc'. split; [exact E1|]. intros n. cbn [func_refs]. rewrite Hocc.
      assert (Hm := cspec_mono _ _ _ S1).
      assert (HU : uses rc rc' n = (occ (func_refs (f_expr fd)) n + uses (rinc rc f) rc' n)%nat).
      { unfold uses.
        rewrite (nsum_map_ext _ (fun m => ((if Nat.eqb m f then occ (func_refs (f_expr fd)) n else 0) + (if fresh (rinc rc f) rc' m then occ (erefs m) n else 0))%nat)).
        - rewrite nsum_map_add. f_equal. erewrite nsum_single with (k := f); [now rewrite Nat.eqb_refl|eapply HN; eauto|].
          intros m Hm2. apply Nat.eqb_neq in Hm2. now rewrite Hm2.
        - intros m _. unfold fresh, rinc. destruct (Nat.eqb_spec m f) as [->|Hmf].
          + specialize (Hm f). unfold rinc in Hm. rewrite Nat.eqb_refl in Hm.
            replace (Nat.eqb (rc f) 0) with true by (symmetry; apply Nat.eqb_eq; lia).
            replace (Nat.eqb (rc' f) 0) with false by (symmetry; apply Nat.eqb_neq; lia).
            cbn. unfold erefs. rewrite Ef. lia.
          + reflexivity. }
      rewrite HU, (S1 n). unfold rinc. destruct (Nat.eqb n f); lia.
    + eexists; split; [reflexivity|]. intros n. cbn [func_refs]. rewrite Hocc.
      assert (HU : uses rc (rinc rc f) n = 0%nat).
      { unfold uses. rewrite (nsum_map_ext _ (fun _ => 0%nat)); [induction (seq 0 N); cbn; auto|].
        intros m _. unfold fresh, rinc. destruct (Nat.eqb_spec m f) as [->|Hmf].
        - destruct (Nat.eqb_spec (rc f) 0); [lia|reflexivity].
        - destruct (Nat.eqb (rc m) 0); reflexivity. }
      rewrite HU. unfold rinc. destruct (Nat.eqb n f); lia.
Qed.
End Count.
