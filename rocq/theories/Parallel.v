(* Threads: the memory actions of several programs, interleaved in any order.  Element accesses are
   atomic and sequentially consistent; the theorems below also show that the programs are free of
   data races, which is what justifies that assumption for C (OpenMP) and CUDA. *)
From Coq Require Import Permutation.
From Verif Require Import Base BaseFacts Lang Kernel KernFacts RunFacts.

Section Par.
Context (L : lang).
Notation V := (val L).
Context {A : Type}.
Notation pool := (list (prog L A)).
Context (loc : name -> option nat).

(* one memory action of one thread.  A thread that is finished, has raised or has faulted takes no step *)
Inductive pstep : pool * store L -> pool * store L -> Prop :=
| ps_rd ts m t n i k b l v : nth_error ts t = Some (PRd n i k) -> loc n = Some b -> m b = Some l -> znth l i = Some v ->
    pstep (ts, m) (upd ts t (k v), m)
| ps_wr ts m t n i v k b l l' : nth_error ts t = Some (PWr n i v k) -> loc n = Some b -> m b = Some l -> zupd l i v = Some l' ->
    pstep (ts, m) (upd ts t k, sset m b l').
(* [psteps n x y]: n steps lead from x to y *)
Inductive psteps : nat -> pool * store L -> pool * store L -> Prop :=
| pss_0 x : psteps 0 x x
| pss_S n x y z : pstep x y -> psteps n y z -> psteps (S n) x z.
Definition finished (ts : pool) : Prop := Forall (fun p => exists a, p = PRet a) ts.

(* every execution takes a bounded number of steps, never reaches a state where two threads are about
   to touch the same element and one of them to write it (no data race), never gets stuck before all
   threads are finished, and ends in a memory that satisfies [final] *)
Definition touches (p : prog L A) (b : nat) (i : Z) : Prop :=
  match p with PRd n j _ | PWr n j _ _ => loc n = Some b /\ i = j | _ => False end.
Definition writes (p : prog L A) (b : nat) (i : Z) : Prop :=
  match p with PWr n j _ _ => loc n = Some b /\ i = j | _ => False end.
Definition race (ts : pool) : Prop := exists t1 t2 p1 p2 b i, t1 <> t2 /\ nth_error ts t1 = Some p1 /\ nth_error ts t2 = Some p2 /\ writes p1 b i /\ touches p2 b i.
Definition settles (ts : pool) (m : store L) (final : store L -> Prop) : Prop :=
  exists N, forall n ts' m', psteps n (ts, m) (ts', m') ->
    (n <= N)%nat /\ ~ race ts' /\ (finished ts' \/ exists st, pstep (ts', m') st) /\ (finished ts' -> final m').

Definition pos (w : wr L) : Z := snd (fst w).

Lemma upd_comm {B} (l : list B) i j x y : i <> j -> upd (upd l i x) j y = upd (upd l j y) i x.
Proof. revert i j; induction l as [|z l IH]; intros [|i] [|j] H; cbn; auto; try congruence. f_equal. apply IH. congruence. Qed.
Lemma apply_front w1 n i v w2 out : 0 <= i -> Forall (fun w => 0 <= pos w /\ pos w <> i) w1 ->
  apply_w L (w1 ++ (n, i, v) :: w2) out = apply_w L (w1 ++ w2) (upd out (Z.to_nat i) v).
Proof.
  intros Hi H. unfold apply_w. revert out; induction w1 as [|[[n' i'] v'] w1 IH]; intros out; cbn [app fold_left]; auto.
  inversion H as [|? ? Hx Hw]; subst. cbn in Hx. rewrite IH by assumption. f_equal. apply upd_comm. lia.
Qed.

Fixpoint nact {B} (inp : name -> option (list V)) (p : prog L B) : nat :=
  match p with
  | PRd n i k => match inp n with Some l => match znth l i with Some v => S (nact inp (k v)) | None => 0 end | None => 0 end
  | PWr _ _ _ k => S (nact inp k)
  | _ => 0
  end.

Definition does (inp : name -> option (list V)) (p : prog L A) (w : list (wr L)) : Prop := exists a, ev inp p = (w, OkO a).
(* [inp]: what the threads read *)
Record inv (m0 : store L) (o : nat) (inp : name -> option (list V)) (target : list V) (ts : pool) (m : store L) (ws : list (list (wr L))) : Prop := {
  iv_thr : Forall2 (does inp) ts ws;
  iv_nd : NoDup (map pos (concat ws));
  iv_out : exists out, m o = Some out /\ length out = length target /\ apply_w L (concat ws) out = target;
  iv_pos : Forall (fun w => fst (fst w) = NOut /\ 0 <= pos w < Z.of_nat (length target)) (concat ws);
  iv_mem : forall b, b <> o -> m b = m0 b
}.

Lemma upd_nth_split {B} (l1 l2 : list B) x y : upd (l1 ++ x :: l2) (length l1) y = l1 ++ y :: l2.
Proof. induction l1; cbn; auto. now f_equal. Qed.
Lemma Forall2_split_nth {B C} (R : B -> C -> Prop) l1 l2 t x : Forall2 R l1 l2 -> nth_error l1 t = Some x ->
  exists a1 b1 a2 b2 y, l1 = a1 ++ x :: a2 /\ l2 = b1 ++ y :: b2 /\ length a1 = t /\ length b1 = t /\ Forall2 R a1 b1 /\ R x y /\ Forall2 R a2 b2.
Proof.
  intros H; revert t; induction H as [|a b l1 l2 Hab H IH]; intros [|t] Hx; try discriminate; cbn in Hx.
  - injection Hx as ->. exists [], [], l1, l2, b. repeat split; auto.
  - destruct (IH t Hx) as (a1 & b1 & a2 & b2 & y & -> & -> & H1 & H2 & H3 & H4 & H5).
    exists (a :: a1), (b :: b1), a2, b2, y. repeat split; cbn; auto.
Qed.

Section Run.
Context (m0 : store L) (o : nat) (Ho : loc NOut = Some o).
Let inp := inp_of L loc m0 o.
Context (target : list V).
Notation inv := (inv m0 o inp target).

Definition total (ts : pool) : nat := list_sum (map (nact inp) ts).
Lemma total_upd ts t p q : nth_error ts t = Some p -> nact inp p = S (nact inp q) -> total ts = S (total (upd ts t q)).
Proof.
  unfold total. revert t; induction ts as [|x ts IH]; intros [|t] H Hp; try discriminate; cbn [upd map list_sum fold_right nth_error] in *.
  - injection H as ->. rewrite Hp. reflexivity.
  - specialize (IH t H Hp). unfold list_sum in *. cbn [fold_right map] in *. lia.
Qed.

Lemma step_inv ts m ws ts' m' : inv ts m ws -> pstep (ts, m) (ts', m') -> exists ws', inv ts' m' ws' /\ total ts = S (total ts').
Proof using Ho.
  intros HI Hst. inversion Hst as [? ? t n i k b l v Ht Hn Hb Hv|? ? t n i v k b l l' Ht Hn Hb Hv]; subst.
  - destruct HI as [I1 I2 (out & I3 & I4 & I5) I6 I7].
    destruct (Forall2_split_nth _ _ _ _ _ I1 Ht) as (a1 & b1 & a2 & b2 & y & -> & -> & H1 & H2 & H3 & H4 & H5).
    destruct H4 as [a H4]. cbn in H4.
    assert (Hin : inp n = Some l).
    { unfold inp, inp_of in *. rewrite Hn in *. destruct (Nat.eqb_spec b o) as [->|Hne]; [discriminate|]. rewrite <- I7 by assumption. exact Hb. }
    rewrite Hin, Hv in H4. exists (b1 ++ y :: b2). split.
    + constructor; auto.
      * rewrite <- H1, upd_nth_split. apply Forall2_app; auto. constructor; auto. exists a. exact H4.
      * exists out. auto.
    + eapply total_upd; [exact Ht|]. cbn. now rewrite Hin, Hv.
  - destruct HI as [I1 I2 (out & I3 & I4 & I5) I6 I7].
    destruct (Forall2_split_nth _ _ _ _ _ I1 Ht) as (a1 & b1 & a2 & b2 & y & -> & -> & H1 & H2 & H3 & H4 & H5).
    destruct H4 as [a H4]. cbn in H4. destruct (ev inp k) as [w0 o0] eqn:Ek. injection H4 as <- ->.
    rewrite concat_app in *. cbn [concat app] in *. rewrite map_app in I2. cbn [map] in I2.
    apply Forall_app in I6 as [I6 I6']. assert (Hx := Forall_inv I6'). assert (I6'' := Forall_inv_tail I6'). cbn in Hx. destruct Hx as [-> Hx].
    assert (b = o) by congruence. subst b. assert (l = out) by congruence. subst l.
    unfold zupd in Hv. destruct ((0 <=? i) && (i <? Z.of_nat (length out))) eqn:Ei; [|discriminate]. injection Hv as <-.
    exists (b1 ++ w0 :: b2). split.
    + constructor.
      * rewrite <- H1, upd_nth_split. apply Forall2_app; auto. constructor; auto. exists a. exact Ek.
      * rewrite concat_app. cbn [concat]. rewrite map_app. eapply NoDup_remove_1; eauto.
      * exists (upd out (Z.to_nat i) v). rewrite concat_app. cbn [concat]. unfold sset. rewrite Nat.eqb_refl. split; auto.
        rewrite upd_length. split; auto. rewrite <- I5. symmetry. apply apply_front; [lia|].
        apply NoDup_remove_2 in I2. rewrite Forall_forall in *. intros w Hw. specialize (I6 w Hw). split; [lia|].
        intros He. apply I2. apply in_or_app. left. cbn. unfold pos at 1. cbn. rewrite <- He. now apply in_map.
      * rewrite concat_app. cbn [concat]. apply Forall_app. auto.
      * intros b Hb'. unfold sset. destruct (Nat.eqb_spec o b); [congruence|auto].
    + eapply total_upd; [exact Ht|]. reflexivity.
Qed.

Lemma inv_progress ts m ws : inv ts m ws -> finished ts \/ exists st, pstep (ts, m) st.
Proof using Ho.
  intros [I1 I2 (out & I3 & I4 & I5) I6 I7].
  assert (HD : finished ts \/ exists t p, nth_error ts t = Some p /\ (forall a, p <> PRet a)).
  { clear. induction ts as [|p ts IH]; [left; constructor|].
    destruct p as [a| | |n i k|n i v k]; try (right; exists 0%nat; eexists; split; [reflexivity|discriminate]).
    destruct IH as [IH|(t & p & H1 & H2)]; [left; constructor; eauto|right; exists (S t), p; auto]. }
  destruct HD as [|(t & p & Ht & Hp)]; auto. right.
  destruct (Forall2_split_nth _ _ _ _ _ I1 Ht) as (a1 & b1 & a2 & b2 & y & -> & -> & H1 & H2 & H3 & [a H4] & H5).
  destruct p as [a'| | |n i k|n i v k]; cbn in H4; try discriminate.
  - exfalso. now apply (Hp a').
  - unfold inp in H4 at 1. unfold inp_of in H4 at 1. destruct (loc n) as [b|] eqn:En; [|discriminate].
    destruct (Nat.eqb_spec b o) as [->|Hne]; [discriminate|]. destruct (m0 b) as [l|] eqn:Eb; [|discriminate].
    destruct (znth l i) as [v|] eqn:Ev; [|discriminate]. eexists. eapply ps_rd; eauto. rewrite I7; auto.
  - destruct (ev inp k) as [w0 o0]. injection H4 as <- ->. rewrite concat_app in I6. cbn in I6. apply Forall_app in I6 as [_ I6].
    assert (Hx := Forall_inv I6). cbn in Hx. destruct Hx as [-> Hx].
    eexists. eapply ps_wr; eauto. unfold zupd. rewrite I4. replace ((0 <=? i) && (i <? Z.of_nat (length target))) with true by (symmetry; lia). reflexivity.
Qed.

Lemma inv_finished ts m ws : inv ts m ws -> finished ts -> m o = Some target /\ forall b, b <> o -> m b = m0 b.
Proof.
  intros [I1 I2 (out & I3 & I4 & I5) I6 I7] HF. split; auto.
  assert (concat ws = []).
  { clear - I1 HF. induction I1 as [|p w ts ws [a H] _ IH]; auto. inversion HF as [|? ? [a' ->] HF']; subst. cbn in H. injection H as <- _. cbn. auto. }
  rewrite H in I5. cbn in I5. congruence.
Qed.
End Run.

Lemma concat_two {B} (ws : list (list B)) t1 t2 w1 w2 x y : t1 <> t2 -> nth_error ws t1 = Some w1 -> nth_error ws t2 = Some w2 -> In x w1 -> In y w2 ->
  exists a b c, concat ws = a ++ x :: b ++ y :: c \/ concat ws = a ++ y :: b ++ x :: c.
Proof.
  revert t1 t2. induction ws as [|w ws IH]; intros t1 t2 Hne H1 H2 Hx Hy; [destruct t1; discriminate|]. cbn [concat].
  destruct t1 as [|t1], t2 as [|t2]; cbn in H1, H2; [congruence|..].
  - injection H1 as ->. apply in_split in Hx as (a & b & ->).
    assert (Hin : In y (concat ws)) by (apply in_concat; exists w2; split; auto; eapply nth_error_In; eauto).
    apply in_split in Hin as (c & d & ->). exists a, (b ++ c), d. left. rewrite <- !app_assoc. reflexivity.
  - injection H2 as ->. apply in_split in Hy as (a & b & ->).
    assert (Hin : In x (concat ws)) by (apply in_concat; exists w1; split; auto; eapply nth_error_In; eauto).
    apply in_split in Hin as (c & d & ->). exists a, (b ++ c), d. right. rewrite <- !app_assoc. reflexivity.
  - destruct (IH t1 t2 ltac:(congruence) H1 H2 Hx Hy) as (a & b & c & [-> | ->]); exists (w ++ a), b, c; [left|right]; now rewrite app_assoc.
Qed.
Lemma Forall2_nth {B C} (R : B -> C -> Prop) l1 l2 t x : Forall2 R l1 l2 -> nth_error l1 t = Some x -> exists y, nth_error l2 t = Some y /\ R x y.
Proof. intros H; revert t; induction H; intros [|t] Ht; try discriminate; cbn in *; [injection Ht as ->; eauto|auto]. Qed.
Lemma inv_no_race m0 o target ts m ws : loc NOut = Some o -> inv m0 o (inp_of L loc m0 o) target ts m ws -> ~ race ts.
Proof.
  intros Ho [I1 I2 _ I6 _] (t1 & t2 & p1 & p2 & b & i & Hne & H1 & H2 & Hw & Ht).
  destruct (Forall2_nth _ _ _ _ _ I1 H1) as (w1 & W1 & a1 & D1). destruct (Forall2_nth _ _ _ _ _ I1 H2) as (w2 & W2 & a2 & D2).
  destruct p1 as [| | | |n1 j1 v1 k1]; cbn in Hw; try contradiction. destruct Hw as [Hn1 <-].
  cbn in D1. destruct (ev (inp_of L loc m0 o) k1) as [w1' o1]. injection D1 as <- ->.
  assert (Hb : b = o).
  { assert (Hin : In (n1, i, v1) (concat ws)) by (apply in_concat; eexists; split; [eapply nth_error_In; exact W1|now left]).
    rewrite Forall_forall in I6. destruct (I6 _ Hin) as [Hf _]. cbn in Hf. subst n1. congruence. }
  subst b. destruct p2 as [| | |n2 j2 k2|n2 j2 v2 k2]; cbn in Ht; try contradiction; destruct Ht as [Hn2 <-].
  - cbn in D2. unfold inp_of in D2 at 1. rewrite Hn2, Nat.eqb_refl in D2. discriminate.
  - cbn in D2. destruct (ev (inp_of L loc m0 o) k2) as [w2' o2]. injection D2 as <- ->.
    destruct (concat_two ws t1 t2 _ _ _ _ Hne W1 W2 (or_introl eq_refl) (or_introl eq_refl)) as (a & b & c & Hc).
    assert (Hnd : exists a b c, map pos (concat ws) = a ++ i :: b ++ i :: c).
    { destruct Hc as [Hc|Hc]; rewrite Hc; exists (map pos a), (map pos b), (map pos c); rewrite map_app; cbn [map]; rewrite map_app; reflexivity. }
    destruct Hnd as (a' & b' & c' & Hnd). rewrite Hnd in I2. apply NoDup_remove_2 in I2. apply I2. apply in_or_app. right. apply in_or_app. right. now left.
Qed.

(* Threads whose writes go to pairwise different elements of the output and which never read the
   output: every interleaving goes on until all of them are finished, takes a bounded number of
   steps, and ends with the output the threads would leave if run one after the other. *)
Theorem par_run (ts : pool) (ws : list (list (wr L))) (m : store L) (o : nat) (out : list V) :
  loc NOut = Some o -> m o = Some out ->
  Forall2 (does (inp_of L loc m o)) ts ws ->
  NoDup (map pos (concat ws)) ->
  out_writes L (Z.of_nat (length out)) (concat ws) ->
  exists N, forall n ts' m', psteps n (ts, m) (ts', m') ->
    (n <= N)%nat /\ ~ race ts' /\ (finished ts' \/ exists st, pstep (ts', m') st) /\
    (finished ts' -> m' o = Some (apply_w L (concat ws) out) /\ forall b, b <> o -> m' b = m b).
Proof.
  intros Ho Hm HT HND HW. exists (total m o ts).
  assert (HI : inv m o (inp_of L loc m o) (apply_w L (concat ws) out) ts m ws).
  { constructor; auto.
    - exists out. rewrite apply_w_length. auto.
    - rewrite apply_w_length. eapply Forall_impl; [|exact HW]. intros [[n i] v] H. exact H. }
  set (target := apply_w L (concat ws) out) in *. clearbody target. clear HT HND HW Hm.
  intros n ts' m' Hs. remember (ts, m) as x eqn:Ex. remember (ts', m') as y eqn:Ey.
  assert (HT : forall n x y, psteps n x y -> forall ts1 m1 ws1 ts2 m2, x = (ts1, m1) -> y = (ts2, m2) ->
     inv m o (inp_of L loc m o) target ts1 m1 ws1 -> (n <= total m o ts1)%nat /\ exists ws2, inv m o (inp_of L loc m o) target ts2 m2 ws2).
  { clear - Ho. induction 1 as [x|n x y z Hst Hs IH]; intros ts1 m1 ws1 ts2 m2 -> E2 HI.
    - injection E2 as <- <-. split; [lia|eauto].
    - destruct y as [ts3 m3]. destruct (step_inv m o Ho target _ _ _ _ _ HI Hst) as (ws3 & HI3 & Htot).
      destruct (IH _ _ ws3 _ _ eq_refl E2 HI3) as [H1 H2]. split; [lia|auto]. }
  destruct (HT _ _ _ Hs _ _ _ _ _ Ex Ey HI) as [H1 [ws2 H2]]. split; auto. subst y. split; [eapply inv_no_race; eauto|]. split.
  - eapply inv_progress; eauto.
  - intros HF. eapply inv_finished; eauto.
Qed.
End Par.
