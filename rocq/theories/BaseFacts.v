From Verif Require Import Base.
From Coq Require Import ZifyBool ZifyNat.

Lemma zprod_cons x l : zprod (x :: l) = x * zprod l.
Proof. reflexivity. Qed.

Lemma zprod_app a b : zprod (a ++ b) = zprod a * zprod b.
Proof. induction a as [|x a IH]; [change (zprod []) with 1; cbn [app]; lia|].
  cbn [app]. rewrite !zprod_cons, IH. ring. Qed.

Lemma zprod_nonneg l : Forall (fun d => 0 <= d) l -> 0 <= zprod l.
Proof. induction 1 as [|x l H _ IH]; [cbn; lia|]. rewrite zprod_cons. nia. Qed.

Lemma zrange_length n : length (zrange n) = Z.to_nat n.
Proof. unfold zrange. now rewrite map_length, seq_length. Qed.

Lemma in_zrange n i : In i (zrange n) <-> 0 <= i < n.
Proof.
  unfold zrange. rewrite in_map_iff. split.
  - intros (k & <- & Hk). apply in_seq in Hk. lia.
  - intros H. exists (Z.to_nat i). split; [lia|]. apply in_seq. lia.
Qed.

Lemma NoDup_zrange n : NoDup (zrange n).
Proof. unfold zrange. apply FinFun.Injective_map_NoDup; [|apply seq_NoDup].
  intros x y. lia. Qed.

Lemma zrange_nil n : n <= 0 -> zrange n = [].
Proof. intros H. unfold zrange. now replace (Z.to_nat n) with 0%nat by lia. Qed.

Lemma zrange_S n : 0 <= n -> zrange (n + 1) = zrange n ++ [n].
Proof.
  intros H. unfold zrange. replace (Z.to_nat (n + 1)) with (Z.to_nat n + 1)%nat by lia.
  rewrite seq_app, map_app. cbn. do 2 f_equal. lia.
Qed.

Lemma nth_error_zrange n k : (k < Z.to_nat n)%nat -> nth_error (zrange n) k = Some (Z.of_nat k).
Proof.
  intros H. unfold zrange. rewrite nth_error_map.
  rewrite (nth_error_nth' _ 0%nat) by (rewrite seq_length; lia).
  rewrite seq_nth by lia. reflexivity.
Qed.

Lemma znth_Some_range {A} (l : list A) z x : znth l z = Some x -> 0 <= z < Z.of_nat (length l).
Proof.
  unfold znth. destruct (z <? 0) eqn:E; [discriminate|]. intros H.
  assert (Z.to_nat z < length l)%nat by (apply nth_error_Some; congruence). lia.
Qed.

Lemma znth_in_range {A} (l : list A) z : 0 <= z < Z.of_nat (length l) -> exists x, znth l z = Some x.
Proof.
  intros H. unfold znth. destruct (z <? 0) eqn:E; [lia|].
  destruct (nth_error l (Z.to_nat z)) eqn:E2; [eauto|].
  apply nth_error_None in E2. lia.
Qed.

Lemma znth_of_nat {A} (l : list A) k : znth l (Z.of_nat k) = nth_error l k.
Proof. unfold znth. destruct (Z.of_nat k <? 0) eqn:E; [lia|]. now rewrite Nat2Z.id. Qed.

Lemma znth_map {A B} (f : A -> B) l z : znth (map f l) z = option_map f (znth l z).
Proof. unfold znth. destruct (z <? 0); [reflexivity|]. apply nth_error_map. Qed.

Lemma znth_In {A} (l : list A) z x : znth l z = Some x -> In x l.
Proof. unfold znth. destruct (z <? 0); [discriminate|]. apply nth_error_In. Qed.

Lemma znth_zrange n z : 0 <= z < n -> znth (zrange n) z = Some z.
Proof.
  intros H. unfold znth. destruct (z <? 0) eqn:E; [lia|].
  rewrite nth_error_zrange by lia. f_equal. lia.
Qed.

Lemma upd_length {A} (l : list A) k v : length (upd l k v) = length l.
Proof. revert k; induction l as [|x l IH]; intros [|k]; cbn; auto. Qed.

Lemma nth_error_upd {A} (l : list A) k v j :
  nth_error (upd l k v) j = if Nat.eqb j k then option_map (fun _ => v) (nth_error l j) else nth_error l j.
Proof.
  revert k j; induction l as [|x l IH]; intros [|k] [|j]; cbn; auto.
  now destruct (Nat.eqb j k).
Qed.

Lemma nth_error_upd_same {A} (l : list A) k v : (k < length l)%nat -> nth_error (upd l k v) k = Some v.
Proof.
  intros H. rewrite nth_error_upd, Nat.eqb_refl.
  destruct (nth_error l k) eqn:E; [reflexivity|]. apply nth_error_None in E. lia.
Qed.

Lemma nth_error_upd_other {A} (l : list A) k v j : j <> k -> nth_error (upd l k v) j = nth_error l j.
Proof. intros H. rewrite nth_error_upd. destruct (Nat.eqb_spec j k); congruence. Qed.

Lemma upd_upd_comm {A} (l : list A) i j a b : i <> j -> upd (upd l i a) j b = upd (upd l j b) i a.
Proof. revert i j; induction l as [|x l IH]; intros [|i] [|j] H; cbn; auto; try congruence.
  f_equal. apply IH. congruence. Qed.

Lemma zupd_Some {A} (l : list A) z v : 0 <= z < Z.of_nat (length l) -> zupd l z v = Some (upd l (Z.to_nat z) v).
Proof. intros H. unfold zupd. destruct (_ && _) eqn:E; [reflexivity|lia]. Qed.

Lemma list_zeqb_eq a b : list_zeqb a b = true <-> a = b.
Proof.
  revert b; induction a as [|x a IH]; intros [|y b]; cbn; split; intros H; try congruence; try discriminate.
  - apply andb_true_iff in H as [H1 H2]. apply IH in H2. apply Z.eqb_eq in H1. congruence.
  - inversion H; subst. rewrite Z.eqb_refl. now apply IH.
Qed.

Lemma list_zeqb_refl a : list_zeqb a a = true.
Proof. now apply list_zeqb_eq. Qed.

Lemma zmem_In x l : zmem x l = true <-> In x l.
Proof.
  unfold zmem. rewrite existsb_exists. split.
  - intros (y & Hy & E). apply Z.eqb_eq in E. now subst.
  - intros H. exists x. now rewrite Z.eqb_refl.
Qed.

Lemma zmem_false x l : zmem x l = false <-> ~ In x l.
Proof. rewrite <- zmem_In. destruct (zmem x l); split; congruence || tauto. Qed.

Lemma zinsert_perm x l : Permutation (zinsert x l) (x :: l).
Proof.
  induction l as [|y l IH]; cbn; [reflexivity|].
  destruct (x <=? y); [reflexivity|]. rewrite IH. apply perm_swap.
Qed.

Lemma zsort_perm l : Permutation (zsort l) l.
Proof.
  induction l as [|x l IH]; cbn; [reflexivity|].
  rewrite zinsert_perm. now constructor.
Qed.

Lemma zinsert_sorted x l : Sorted Z.le l -> Sorted Z.le (zinsert x l).
Proof.
  induction l as [|y l IH]; cbn; intros H.
  - repeat constructor.
  - destruct (x <=? y) eqn:E.
    + constructor; [assumption|]. constructor. lia.
    + inversion H; subst. constructor; [now apply IH|].
      destruct l as [|z l]; cbn.
      * constructor. lia.
      * inversion H3; subst. destruct (x <=? z); constructor; lia.
Qed.

Lemma zsort_sorted l : Sorted Z.le (zsort l).
Proof. induction l as [|x l IH]; cbn; [constructor|]. now apply zinsert_sorted. Qed.

Lemma Sorted_le_perm_eq a b : Sorted Z.le a -> Sorted Z.le b -> Permutation a b -> a = b.
Proof.
  intros Ha Hb. apply Sorted_StronglySorted in Ha; [|intros ? ? ?; lia].
  apply Sorted_StronglySorted in Hb; [|intros ? ? ?; lia].
  revert b Hb. induction Ha as [|x a Ha IH Hx]; intros b Hb HP.
  - apply Permutation_nil in HP. now subst.
  - destruct Hb as [|y b Hb Hy].
    + symmetry in HP. apply Permutation_nil in HP. discriminate.
    + assert (x = y).
      { assert (In x (y :: b)) by (eapply Permutation_in; [exact HP|now left]).
        assert (In y (x :: a)) by (eapply Permutation_in; [symmetry; exact HP|now left]).
        rewrite Forall_forall in Hx, Hy.
        destruct H as [|H]; [congruence|]. destruct H0 as [|H0]; [congruence|].
        specialize (Hx _ H0). specialize (Hy _ H). lia. }
      subst. f_equal. apply IH; auto. eapply Permutation_cons_inv; eauto.
Qed.

Lemma Sorted_zrange n : Sorted Z.le (zrange n).
Proof.
  unfold zrange. generalize 0%nat. induction (Z.to_nat n) as [|k IH]; intros s; cbn; constructor; auto.
  destruct k; cbn; constructor. lia.
Qed.

(* sorted(l) == list(range(n))  iff  l is a permutation of the range *)
Lemma zsort_eq_range l n : zsort l = zrange n <-> Permutation l (zrange n).
Proof.
  split; intros H.
  - rewrite <- H. symmetry. apply zsort_perm.
  - apply Sorted_le_perm_eq; [apply zsort_sorted|apply Sorted_zrange|].
    rewrite zsort_perm. exact H.
Qed.

(* ---------------------------------------------------------------- *)
Lemma Forall2_len {A B} (P : A -> B -> Prop) l1 l2 : Forall2 P l1 l2 -> length l1 = length l2.
Proof. induction 1; cbn; congruence. Qed.

Lemma in_rangeb_spec shape idx : in_rangeb shape idx = true <-> in_range shape idx.
Proof.
  unfold in_range. revert idx; induction shape as [|d s IH]; intros [|i r]; cbn; split; intros H;
    try discriminate; try (inversion H; fail); auto.
  - apply andb_true_iff in H as [H1 H2]. constructor; [lia|]. now apply IH.
  - inversion H; subst. apply andb_true_iff. split; [lia|]. now apply IH.
Qed.

Lemma in_range_length shape idx : in_range shape idx -> length idx = length shape.
Proof. induction 1; cbn; congruence. Qed.

Lemma in_all_idx shape idx : In idx (all_idx shape) <-> in_range shape idx.
Proof.
  unfold in_range. revert idx; induction shape as [|d s IH]; intros idx; cbn.
  - split; [intros [<-|[]]; constructor|]. intros H; inversion H. now left.
  - rewrite in_flat_map. split.
    + intros (i & Hi & H). apply in_map_iff in H as (r & <- & Hr).
      apply in_zrange in Hi. constructor; [lia|]. now apply IH.
    + intros H. inversion H; subst. exists x. split; [apply in_zrange; lia|].
      apply in_map. now apply IH.
Qed.

Lemma NoDup_app_intro {A} (l1 l2 : list A) :
  NoDup l1 -> NoDup l2 -> (forall x, In x l1 -> ~ In x l2) -> NoDup (l1 ++ l2).
Proof.
  induction 1 as [|x l H _ IH]; cbn; intros H2 Hd; auto.
  constructor.
  - rewrite in_app_iff. intros [?|?]; [tauto|]. eapply Hd; eauto.
  - apply IH; auto.
Qed.

Lemma NoDup_flat_map {A B} (f : A -> list B) l :
  NoDup l -> (forall x, In x l -> NoDup (f x)) ->
  (forall x y b, In x l -> In y l -> In b (f x) -> In b (f y) -> x = y) -> NoDup (flat_map f l).
Proof.
  induction 1 as [|x l Hx _ IH]; cbn; intros Hf Hd; [constructor|].
  apply NoDup_app_intro.
  - apply Hf. now left.
  - apply IH; intros; [apply Hf; now right|]. eapply Hd; eauto.
  - intros b Hb H. apply in_flat_map in H as (y & Hy & Hby).
    apply Hx. replace x with y; [assumption|]. eapply Hd; eauto.
Qed.

Lemma NoDup_all_idx shape : NoDup (all_idx shape).
Proof.
  induction shape as [|d s IH]; cbn; [repeat constructor; auto|].
  apply NoDup_flat_map.
  - apply NoDup_zrange.
  - intros i _. apply FinFun.Injective_map_NoDup; [|assumption]. intros a b H. congruence.
  - intros i j b _ _ Hi Hj. apply in_map_iff in Hi as (? & <- & _). apply in_map_iff in Hj as (? & E & _).
    congruence.
Qed.

Lemma length_flat_map_const {A B} (f : A -> list B) l n :
  (forall x, In x l -> length (f x) = n) -> length (flat_map f l) = (length l * n)%nat.
Proof.
  induction l as [|x l IH]; cbn; intros H; auto.
  rewrite app_length, IH by auto. rewrite H by auto. lia.
Qed.

Lemma all_idx_length shape : Forall (fun d => 0 <= d) shape -> length (all_idx shape) = Z.to_nat (zprod shape).
Proof.
  induction 1 as [|d s Hd Hs IH]; cbn; [reflexivity|].
  rewrite (length_flat_map_const _ _ (length (all_idx s))) by (intros; now rewrite map_length).
  rewrite zrange_length, IH. change (fold_right Z.mul 1 s) with (zprod s).
  pose proof (zprod_nonneg s Hs). rewrite Z2Nat.inj_mul; lia.
Qed.

(* ---------------------------------------------------------------- *)
Lemma mapM_ok {A B} (f : A -> res B) l ys :
  mapM f l = Ok ys <-> Forall2 (fun x y => f x = Ok y) l ys.
Proof.
  revert ys; induction l as [|x l IH]; intros ys; cbn.
  - split; intros H; [injection H as <-; constructor|]. inversion H; reflexivity.
  - split.
    + destruct (f x) eqn:E; cbn; try discriminate. destruct (mapM f l) eqn:E2; cbn; try discriminate.
      intros H; injection H as <-. constructor; auto. now apply IH.
    + intros H; inversion H as [|? y ? ys' Hx Hl]; subst. rewrite Hx; cbn.
      apply IH in Hl. now rewrite Hl.
Qed.

Lemma mapM_ext {A B} (f g : A -> res B) l : (forall x, In x l -> f x = g x) -> mapM f l = mapM g l.
Proof.
  induction l as [|x l IH]; cbn; intros H; auto.
  rewrite H by auto. destruct (g x); cbn; auto. now rewrite IH by auto.
Qed.

Lemma mapM_map {A B C} (f : B -> res C) (g : A -> B) l : mapM f (map g l) = mapM (fun x => f (g x)) l.
Proof. induction l as [|x l IH]; cbn; auto. destruct (f (g x)); cbn; auto. now rewrite IH. Qed.

Lemma dot_nil_r a : dot a [] = 0.
Proof. destruct a; reflexivity. Qed.

Lemma dot_app a b c d : length a = length c -> dot (a ++ b) (c ++ d) = dot a c + dot b d.
Proof.
  revert c; induction a as [|x a IH]; intros [|y c]; cbn; intros H; try discriminate; auto.
  rewrite IH by lia. lia.
Qed.

Lemma Forall2_nth_error {A B} (P : A -> B -> Prop) l1 l2 k x :
  Forall2 P l1 l2 -> nth_error l1 k = Some x -> exists y, nth_error l2 k = Some y /\ P x y.
Proof.
  intros H; revert k; induction H as [|a b l1 l2 Hab _ IH]; intros [|k]; cbn; try discriminate.
  - intros E; injection E as <-. eauto.
  - apply IH.
Qed.

Lemma Forall2_nth_error_r {A B} (P : A -> B -> Prop) l1 l2 k y :
  Forall2 P l1 l2 -> nth_error l2 k = Some y -> exists x, nth_error l1 k = Some x /\ P x y.
Proof.
  intros H; revert k; induction H as [|a b l1 l2 Hab _ IH]; intros [|k]; cbn; try discriminate.
  - intros E; injection E as <-. eauto.
  - apply IH.
Qed.

Lemma Forall2_of_nth {A B} (P : A -> B -> Prop) l1 l2 :
  length l1 = length l2 ->
  (forall k x y, nth_error l1 k = Some x -> nth_error l2 k = Some y -> P x y) -> Forall2 P l1 l2.
Proof.
  revert l2; induction l1 as [|a l1 IH]; intros [|b l2]; cbn; intros HL H; try discriminate; constructor.
  - apply (H 0%nat); reflexivity.
  - apply IH; [lia|]. intros k. apply (H (S k)).
Qed.

Lemma nth_error_ext' {A} (l1 l2 : list A) : (forall k, nth_error l1 k = nth_error l2 k) -> l1 = l2.
Proof.
  revert l2; induction l1 as [|a l1 IH]; intros [|b l2] H; auto.
  - specialize (H 0%nat). discriminate.
  - specialize (H 0%nat). discriminate.
  - f_equal; [specialize (H 0%nat); cbn in H; congruence|]. apply IH. intros k. apply (H (S k)).
Qed.

Lemma rbind_ok {A B} (x : res A) (f : A -> res B) b : rbind x f = Ok b -> exists a, x = Ok a /\ f a = Ok b.
Proof. destruct x; cbn; try discriminate. eauto. Qed.

Lemma obind_done {A B} (x : outcome A) (f : A -> outcome B) b : obind x f = Done b -> exists a, x = Done a /\ f a = Done b.
Proof. destruct x; cbn; try discriminate. eauto. Qed.

Lemma dtype_eqb_eq a b : dtype_eqb a b = true <-> a = b.
Proof. destruct a, b; cbn; split; congruence. Qed.
