(* From observable behaviour (writes) to the contents of memory. *)
From Verif Require Import Base BaseFacts Util UtilFacts Lang Spec Graph Algo AlgoSem Kernel KernFacts RenderFacts KernelOk.

Section RunFacts.
Context (L : lang).
Notation V := (val L).

Lemma upd_length {A} (l : list A) k v : length (upd l k v) = length l.
Proof. revert k; induction l; intros [|k]; cbn; auto. Qed.
Lemma nth_upd_same {A} (l : list A) k v : (k < length l)%nat -> nth_error (upd l k v) k = Some v.
Proof. revert k; induction l; intros [|k] H; cbn in *; auto; try lia. apply IHl. lia. Qed.
Lemma nth_upd_other {A} (l : list A) k j v : k <> j -> nth_error (upd l k v) j = nth_error l j.
Proof. revert k j; induction l as [|x l IH]; intros [|k] [|j] H; cbn; auto; congruence. Qed.

Definition apply_w (w : list (wr L)) (out : list V) : list V :=
  fold_left (fun o '(_, i, v) => upd o (Z.to_nat i) v) w out.
Lemma apply_w_length w out : length (apply_w w out) = length out.
Proof. revert out; induction w as [|[[n i] v] w IH]; intros out; cbn; auto. rewrite IH. apply upd_length. Qed.
Definition out_writes (len : Z) (w : list (wr L)) : Prop := Forall (fun '(n, i, _) => n = NOut /\ 0 <= i < len) w.

(* arrays a kernel reads: every parameter that is not bound to the output's location *)
Definition inp_of (loc : name -> option nat) (m : store L) (o : nat) : name -> option (list V) :=
  fun n => match loc n with Some b => if Nat.eqb b o then None else m b | None => None end.

Lemma ev_ext {A} (i1 i2 : name -> option (list V)) (p : prog L A) : (forall n, i1 n = i2 n) -> ev i1 p = ev i2 p.
Proof. intros H. induction p; cbn; auto. - rewrite H. destruct (i2 n); auto. destruct (znth l i); auto. - now rewrite IHp. Qed.

Lemma run_ev {A} loc o (p : prog L A) : forall m out w oc, loc NOut = Some o -> m o = Some out ->
  ev (inp_of loc m o) p = (w, oc) -> oc <> FaultO -> out_writes (Z.of_nat (length out)) w ->
  exists m', run loc p m = (m', oc) /\ forall b, m' b = if Nat.eqb b o then Some (apply_w w out) else m b.
Proof.
  induction p as [a| | |n i k IH|n i v k IH]; intros m out w oc Ho Hm Hev Hnf Hw; cbn [ev run] in *.
  - injection Hev as <- <-. exists m. split; auto. intros b. destruct (Nat.eqb_spec b o) as [->|]; auto.
  - injection Hev as <- <-. exists m. split; auto. intros b. destruct (Nat.eqb_spec b o) as [->|]; auto.
  - injection Hev as <- <-. congruence.
  - unfold inp_of in Hev at 1. destruct (loc n) as [b|]; [|injection Hev as <- <-; congruence].
    destruct (Nat.eqb b o) eqn:Hb; [injection Hev as <- <-; congruence|].
    destruct (m b) as [l|]; [|injection Hev as <- <-; congruence]. destruct (znth l i); [|injection Hev as <- <-; congruence].
    eapply IH; eauto.
  - destruct (ev (inp_of loc m o) k) as [w0 o0] eqn:E0. injection Hev as <- <-.
    inversion Hw as [|? ? Hx Hw']; subst. destruct Hx as [-> Hi]. rewrite Ho, Hm. unfold zupd.
    replace ((0 <=? i) && (i <? Z.of_nat (length out))) with true by lia.
    destruct (IH (sset m o (upd out (Z.to_nat i) v)) (upd out (Z.to_nat i) v) w0 o0) as (m' & R & Hm'); auto.
    + unfold sset. now rewrite Nat.eqb_refl.
    + rewrite <- E0. apply ev_ext. intros n. unfold inp_of, sset. destruct (loc n); auto. destruct (Nat.eqb_spec n0 o); auto.
      destruct (Nat.eqb_spec o n0); auto. congruence.
    + unfold out_writes. now rewrite upd_length.
    + exists m'. split; auto. intros b. rewrite Hm'. unfold sset. destruct (Nat.eqb_spec b o) as [->|]; cbn; auto.
      destruct (Nat.eqb_spec o b); auto. congruence.
Qed.

Lemma wseq_writes s f is w o : wseq L s f is = (w, o) -> Forall (in_range s) is -> out_writes (zprod s) w.
Proof.
  revert w o. induction is as [|i is IH]; intros w o H Hi; cbn in H.
  - injection H as <- <-. constructor.
  - inversion Hi; subst. destruct (f i); [|injection H as <- <-; constructor|injection H as <- <-; constructor].
    destruct (wseq L s f is) as [w1 o1] eqn:E1. injection H as <- <-. constructor; [|eapply IH; eauto].
    split; auto. now apply flat_bounds.
Qed.
Lemma wseq_ok_inv s f is w : wseq L s f is = (w, OkO tt) ->
  (forall i, In i is -> exists v, f i = Ok v) /\ forall i v, In i is -> f i = Ok v -> In (NOut, flat s i, v) w.
Proof.
  revert w. induction is as [|i is IH]; intros w H; cbn in H.
  - split; intros ? *; intros [].
  - destruct (f i) eqn:Ef; try discriminate. destruct (wseq L s f is) as [w1 o1] eqn:E1. injection H as <- ->.
    destruct (IH _ eq_refl) as [H1 H2]. split.
    + intros j [<-|Hj]; eauto.
    + intros j v [<-|Hj] Hv; [left; congruence|right; auto].
Qed.
Lemma wseq_all_ok s f is : (forall i, In i is -> exists v, f i = Ok v) -> exists w, wseq L s f is = (w, OkO tt).
Proof.
  induction is as [|i is IH]; intros H; cbn; [eauto|]. destruct (H i) as [v Hv]; [now left|]. rewrite Hv.
  destruct IH as [w ->]; [intros; apply H; now right|]. eauto.
Qed.
Lemma wseq_raise_inv s f is w : wseq L s f is = (w, RaiseO) -> exists i, In i is /\ f i = Raise.
Proof.
  revert w. induction is as [|i is IH]; intros w H; cbn in H; [discriminate|]. destruct (f i) eqn:Ef; try discriminate.
  - destruct (wseq L s f is) as [w1 o1] eqn:E1. injection H as <- ->. destruct (IH _ eq_refl) as (j & Hj & Hf). exists j. split; auto. now right.
  - exists i. split; auto. now left.
Qed.

Lemma apply_other w out k : (forall n i v, In (n, i, v) w -> Z.to_nat i <> k) -> nth_error (apply_w w out) k = nth_error out k.
Proof.
  revert out; induction w as [|[[n i] v] w IH]; intros out H; cbn; auto.
  rewrite IH by (intros; eapply H; right; eauto). apply nth_upd_other. eapply H. now left.
Qed.
(* sequentially applying writes whose (index, value) pairs are a function of the index *)
Lemma apply_in w out n i v : In (n, i, v) w -> 0 <= i < Z.of_nat (length out) ->
  (forall n' i' v', In (n', i', v') w -> Z.to_nat i' = Z.to_nat i -> v' = v) -> znth (apply_w w out) i = Some v.
Proof.
  intros Hin Hi Huniq. unfold znth. destruct (i <? 0) eqn:E; [lia|].
  assert (G : forall w out, length out = length out -> (Z.to_nat i < length out)%nat ->
     (In (n, i, v) w \/ nth_error out (Z.to_nat i) = Some v) -> (forall n' i' v', In (n', i', v') w -> Z.to_nat i' = Z.to_nat i -> v' = v) ->
     nth_error (apply_w w out) (Z.to_nat i) = Some v).
  { clear. induction w as [|[[n0 i0] v0] w IH]; intros out _ Hl H Hu; cbn.
    - destruct H as [[]|H]; auto.
    - apply IH; auto.
      + now rewrite upd_length.
      + destruct (Nat.eq_dec (Z.to_nat i0) (Z.to_nat i)) as [Heq|Hne].
        * right. rewrite Heq, nth_upd_same by assumption. f_equal. eapply Hu; [now left|assumption].
        * destruct H as [[H|H]|H]; [injection H; intros; subst; congruence|now left|]. right. now rewrite nth_upd_other.
      + intros. eapply Hu; [right|]; eauto. }
  apply G; auto. lia.
Qed.

Lemma wseq_in s f is w o n i v : wseq L s f is = (w, o) -> In (n, i, v) w -> exists ix, In ix is /\ i = flat s ix /\ f ix = Ok v /\ n = NOut.
Proof.
  revert w o; induction is as [|j is IH]; intros w o H Hin; cbn in H.
  - injection H as <- <-. destruct Hin.
  - destruct (f j) eqn:Ef; [|injection H as <- <-; destruct Hin|injection H as <- <-; destruct Hin].
    destruct (wseq L s f is) as [w1 o1] eqn:E1. injection H as <- <-. destruct Hin as [Hin|Hin].
    + injection Hin as <- <- <-. exists j. repeat split; auto. now left.
    + destruct (IH _ _ eq_refl Hin) as (ix & H1 & H2 & H3). exists ix. repeat split; try tauto. now right.
Qed.

Lemma wseq_filled s f out w : Z.of_nat (length out) = zprod s -> wseq L s f (all_idx s) = (w, OkO tt) ->
  filled L s f (apply_w w out).
Proof.
  intros Hlen Hw idx Hi. destruct (wseq_ok_inv _ _ _ _ Hw) as [H1 H2].
  destruct (H1 idx) as [v Hv]; [now apply in_all_idx|]. exists v. split; auto.
  eapply apply_in.
  - apply H2; [now apply in_all_idx|exact Hv].
  - rewrite Hlen. now apply flat_bounds.
  - intros n' i' v' Hin Heq. destruct (wseq_in _ _ _ _ _ _ _ _ Hw Hin) as (ix & H3 & -> & H4 & _).
    apply in_all_idx in H3. pose proof (flat_bounds _ _ H3). pose proof (flat_bounds _ _ Hi).
    assert (ix = idx) by (apply (flat_inj s); auto; lia). congruence.
Qed.
End RunFacts.
