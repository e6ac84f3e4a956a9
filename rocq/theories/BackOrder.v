(* The order in which backward() runs the rules: topological, each operation once. *)
From Verif Require Import Base BaseFacts Util Lang Spec Graph Api Denote DenoteFacts Reach ApiFacts Backward BackSpec.

Section O.
Context (g : graph) (Hlt : forall n nd, nth_error g n = Some nd -> Forall (fun a => (a < n)%nat) (n_in nd)).

Lemma nmem_In n l : nmem n l = true <-> In n l.
Proof.
  unfold nmem. rewrite existsb_exists. split; [intros (x & H & E); apply Nat.eqb_eq in E; now subst|].
  intros H. exists n. split; [assumption|apply Nat.eqb_refl].
Qed.

Lemma depends_trans a b c : depends g a b -> depends g b c -> depends g a c.
Proof. induction 1; eauto using dep_step. Qed.
Lemma depends_le a b : depends g a b -> (b <= a)%nat.
Proof.
  induction 1 as [|y nd a n Hy Ha _ IH]; [lia|]. pose proof (Hlt _ _ Hy) as HF. rewrite Forall_forall in HF. specialize (HF a Ha). lia.
Qed.

(* every operand that is an operation occurs before its consumer *)
Definition sorted_ops (l : list nat) : Prop :=
  forall l1 n l2, l = l1 ++ n :: l2 -> forall a, operand g n a -> is_op g a -> In a l1.
Record dinv (st : list nat * list nat) : Prop := {
  di_nodup : NoDup (snd st);
  di_incl : incl (snd st) (fst st);
  di_ops : forall n, In n (snd st) -> is_op g n;
  di_sorted : sorted_ops (snd st)
}.

Lemma NoDup_snoc {X} (l : list X) x : NoDup l -> ~ In x l -> NoDup (l ++ [x]).
Proof. intros H1 H2. apply NoDup_Add with (a := x) (l := l); [|auto]. rewrite <- (app_nil_r l) at 1. apply Add_app. Qed.

Lemma snoc_split {X} (l : list X) x l1 n l2 : l ++ [x] = l1 ++ n :: l2 ->
  (l2 = [] /\ n = x /\ l1 = l) \/ exists l2', l2 = l2' ++ [x] /\ l = l1 ++ n :: l2'.
Proof.
  intros H. destruct (@exists_last _ (n :: l2)) as (p & q & E); [discriminate|]. rewrite E in H.
  rewrite app_assoc in H. apply app_inj_tail in H as [H1 H2]. subst q. destruct p as [|m p]; cbn in E.
  - left. injection E as E1 E2. subst. rewrite app_nil_r. auto.
  - right. injection E as E1 E2. subst. exists p. auto.
Qed.

Lemma dfs_spec fuel : forall t st, (t < fuel)%nat -> dinv st -> (forall s, In s (fst st) -> In s (snd st) \/ (t < s)%nat) ->
  let st' := dfs fuel g t st in
  dinv st' /\ incl (snd st) (snd st') /\ (forall s, In s (fst st') -> In s (snd st') \/ In s (fst st)) /\
  (is_op g t -> In t (snd st')) /\ (forall n, In n (snd st') -> In n (snd st) \/ depends g t n) /\ incl (fst st) (fst st').
Proof.
  induction fuel as [|k IH]; intros t st Ht Hi Hs; [lia|]. cbn zeta. cbn [dfs].
  destruct (nth_error g t) as [nd|] eqn:Hn.
  2:{ split; [exact Hi|]. split; [apply incl_refl|]. split; [auto|]. split; [intros (nd & E & _); congruence|]. split; [auto|apply incl_refl]. }
  destruct (n_in nd) as [|i0 is0] eqn:Ein.
  { split; [exact Hi|]. split; [apply incl_refl|]. split; [auto|]. split; [|split; [auto|apply incl_refl]].
    intros (nd' & E & Hne). rewrite Hn in E. injection E as <-. congruence. }
  rewrite <- Ein in *. destruct (nmem t (fst st)) eqn:Em.
  { apply nmem_In in Em. split; [exact Hi|]. split; [apply incl_refl|]. split; [auto|]. split; [|split; [auto|apply incl_refl]].
    intros _. destruct (Hs t Em); [assumption|lia]. }
  assert (Hnt : ~ In t (fst st)) by (intros H; apply nmem_In in H; congruence).
  assert (HL : forall ins, Forall (fun a => (a < t)%nat) ins -> incl ins (n_in nd) -> forall s0, dinv s0 -> In t (fst s0) -> ~ In t (snd s0) ->
     (forall s, In s (fst s0) -> In s (snd s0) \/ (t <= s)%nat) ->
     let s1 := fold_left (fun s i => dfs k g i s) ins s0 in
     dinv s1 /\ incl (snd s0) (snd s1) /\ (forall s, In s (fst s1) -> In s (snd s1) \/ In s (fst s0)) /\ In t (fst s1) /\ ~ In t (snd s1) /\
     (forall i, In i ins -> is_op g i -> In i (snd s1)) /\
     (forall n, In n (snd s1) -> In n (snd s0) \/ depends g t n) /\ incl (fst s0) (fst s1)).
  { induction ins as [|i ins IHi]; intros HF Hinc s0 Hi0 Ht0 Ht1 Hs0; cbn zeta; cbn [fold_left].
    { repeat split; auto using incl_refl; try apply Hi0. intros i []. }
    pose proof (Forall_inv HF) as Hlt_i. apply Forall_inv_tail in HF. cbn beta in Hlt_i.
    destruct (IH i s0) as (A1 & A2 & A3 & A4 & A5 & A6); [lia|assumption|intros s Hin; destruct (Hs0 s Hin); [auto|right; lia]|].
    set (s1 := dfs k g i s0) in *.
    assert (Hin_i : In i (n_in nd)) by (apply Hinc; now left).
    assert (HT1 : ~ In t (snd s1)).
    { intros H. destruct (A5 t H) as [H'|H']; [now apply Ht1|]. apply depends_le in H'. lia. }
    destruct (IHi HF ltac:(intros x Hx; apply Hinc; now right) s1 A1 (A6 _ Ht0) HT1) as (B1 & B2 & B3 & B4 & B5 & B6 & B7 & B8).
    { intros s Hs1. destruct (A3 s Hs1) as [H|H]; [auto|]. destruct (Hs0 s H) as [H'|H']; [left; now apply A2|auto]. }
    split; [exact B1|]. split; [eapply incl_tran; eauto|].
    split; [intros s H; destruct (B3 s H) as [H'|H']; [auto|]; destruct (A3 s H') as [H''|H'']; [left; now apply B2|auto]|].
    split; [exact B4|]. split; [exact B5|].
    split; [intros j [->|Hj] Ho; [apply B2; now apply A4|now apply B6]|].
    split; [|eapply incl_tran; eauto].
    intros n H. destruct (B7 n H) as [H'|H']; [|auto]. destruct (A5 n H') as [H''|H'']; [auto|right; eapply dep_step; eauto]. }
  destruct (HL (n_in nd) (Hlt _ _ Hn) (incl_refl _) (t :: fst st, snd st)) as (B1 & B2 & B3 & B4 & B5 & B6 & B7 & B8).
  { destruct Hi as [H1 H2 H3 H4]. constructor; cbn; auto. intros x Hx. right. auto. }
  { now left. }
  { cbn. intros H. apply Hnt. now apply (di_incl _ Hi). }
  { cbn. intros s [->|H]; [right; lia|]. destruct (Hs s H); [auto|right; lia]. }
  assert (Efold : (match n_in nd with [] => st | _ :: _ => (let st' := fold_left (fun s i => dfs k g i s) (n_in nd) (t :: fst st, snd st) in (fst st', snd st' ++ [t])) end) =
     (fst (fold_left (fun s i => dfs k g i s) (n_in nd) (t :: fst st, snd st)), snd (fold_left (fun s i => dfs k g i s) (n_in nd) (t :: fst st, snd st)) ++ [t])).
  { rewrite Ein. reflexivity. }
  set (s1 := fold_left _ (n_in nd) (t :: fst st, snd st)) in *. cbn [fst snd] in *.
  assert (Hop : is_op g t) by (exists nd; split; [assumption|rewrite Ein; discriminate]).
  assert (Hgoal : dinv (fst s1, snd s1 ++ [t]) /\ incl (snd st) (snd s1 ++ [t]) /\ (forall s, In s (fst s1) -> In s (snd s1 ++ [t]) \/ In s (fst st)) /\
     (is_op g t -> In t (snd s1 ++ [t])) /\ (forall n, In n (snd s1 ++ [t]) -> In n (snd st) \/ depends g t n) /\ incl (fst st) (fst s1)).
  { split; [|split; [|split; [|split; [|split]]]].
    - destruct B1 as [C1 C2 C3 C4]. constructor; cbn [fst snd].
      + now apply NoDup_snoc.
      + intros x Hx. apply in_app_iff in Hx as [Hx|[<-|[]]]; auto.
      + intros n Hx. apply in_app_iff in Hx as [Hx|[<-|[]]]; auto.
      + intros l1 n l2 E a Ha Ho. apply snoc_split in E as [(-> & -> & ->)|(l2' & -> & E)].
        * destruct Ha as (nd' & E & Ha). rewrite Hn in E. injection E as <-. now apply B6.
        * eapply C4; eauto.
    - intros x Hx. apply in_app_iff. left. now apply B2.
    - intros s H. destruct (B3 s H) as [H'|[<-|H']]; [left; apply in_app_iff; auto|left; apply in_app_iff; right; now left|auto].
    - intros _. apply in_app_iff. right. now left.
    - intros n H. apply in_app_iff in H as [H|[<-|[]]]; [auto|right; constructor].
    - intros x Hx. apply B8. now right. }
  destruct (n_in nd); [discriminate|]. exact Hgoal.
Qed.

Lemma is_op_dec a : is_op g a \/ ~ is_op g a.
Proof.
  destruct (nth_error g a) as [nd|] eqn:E; [|right; intros (nd & E' & _); congruence].
  destruct (n_in nd) as [|x r] eqn:Ei; [right; intros (nd' & E' & H); congruence|left; exists nd; split; [assumption|congruence]].
Qed.

Lemma nth_error_lt a (nd : node) : nth_error g a = Some nd -> (a < length g)%nat.
Proof. intros H. apply nth_error_Some. congruence. Qed.

Lemma order_spec y : (y < length g)%nat ->
  NoDup (order g y) /\ (forall n, In n (order g y) <-> depends g y n /\ is_op g n) /\
  (forall l1 n l2, order g y = l1 ++ n :: l2 -> forall c, depends g y c -> operand g c n -> In c l1).
Proof.
  intros Hy. destruct (dfs_spec (length g) y ([], []) Hy) as (A1 & _ & _ & A4 & A5 & _).
  { constructor; cbn; try constructor; intros x H; contradiction || idtac. intros n l2 E. now destruct x. }
  { intros s []. }
  cbn zeta in *. set (st := dfs (length g) g y ([], [])) in *.
  assert (HE : forall a, operand g a a -> False).
  { intros a (nd & E & H). pose proof (Hlt _ _ E) as HF. rewrite Forall_forall in HF. specialize (HF a H). lia. }
  assert (Hall : forall n, depends g y n -> is_op g n -> In n (snd st)).
  { assert (HG : forall a n, depends g a n -> (is_op g a -> In a (snd st)) -> is_op g n -> In n (snd st)).
    { induction 1 as [|a nd b n Ha Hb _ IH]; intros H Ho; [auto|]. apply IH; [|assumption]. intros Hob.
      assert (Hoa : is_op g a) by (exists nd; split; [assumption|destruct (n_in nd); [destruct Hb|discriminate]]).
      specialize (H Hoa). apply in_split in H as (l1 & l2 & E).
      pose proof (di_sorted _ A1 _ _ _ E b (ex_intro _ nd (conj Ha Hb)) Hob). rewrite E. apply in_app_iff. now left. }
    intros n H. apply (HG y n H). auto. }
  unfold order. fold st. split; [apply NoDup_rev, A1|]. split.
  - intros n. rewrite <- in_rev. split; [|intros (H1 & H2); auto].
    intros H. split; [|now apply (di_ops _ A1)]. destruct (A5 n H) as [[]|H']; assumption.
  - intros l1 n l2 E c Hc Ho.
    assert (Ec : snd st = rev l2 ++ n :: rev l1).
    { rewrite <- (rev_involutive (snd st)), E, rev_app_distr. cbn. now rewrite <- app_assoc. }
    assert (Hoc : is_op g c) by (destruct Ho as (nd & E1 & Ha); exists nd; split; [assumption|destruct (n_in nd); [destruct Ha|discriminate]]).
    assert (Hon : is_op g n) by (apply (di_ops _ A1); rewrite Ec; apply in_app_iff; right; now left).
    pose proof (Hall c Hc Hoc) as Hin. pose proof (in_split _ _ Hin) as (m1 & m2 & Em).
    pose proof (di_sorted _ A1 _ _ _ Em n Ho Hon) as Hbef.
    assert (Hcn : c <> n) by (intros ->; now apply (HE n)).
    rewrite Ec in Hin. apply in_app_iff in Hin as [Hin|[Hin|Hin]]; [|congruence|now apply in_rev].
    exfalso. (* c before n in funcs, although n is before c *)
    pose proof (di_nodup _ A1) as Hnd. apply in_split in Hin as (p1 & p2 & Ep). rewrite Ep in Ec.
    assert (Em' : m1 = p1).
    { rewrite Em in Ec. rewrite <- app_assoc in Ec. cbn in Ec. rewrite Em in Hnd. clear - Ec Hnd.
      revert p1 Ec Hnd. induction m1 as [|a m1 IH]; intros [|b p1] Ec Hnd; cbn in *; auto.
      - injection Ec as -> E2. exfalso. inversion Hnd as [|? ? H1 H2]; subst. apply H1. apply in_app_iff. right. now left.
      - injection Ec as -> E2. exfalso. inversion Hnd as [|? ? H1 H2]; subst. apply H1. apply in_app_iff. right. now left.
      - injection Ec as -> E2. f_equal. inversion Hnd; subst. eapply IH; eauto. }
    subst m1. rewrite Ec in Hnd. rewrite <- app_assoc in Hnd. cbn in Hnd. clear - Hnd Hbef.
    apply NoDup_remove_2 with (l := p1 ++ c :: p2) (a := n) (l' := rev l1); [now rewrite <- app_assoc|].
    rewrite in_app_iff. left. apply in_app_iff. now left.
Qed.
End O.
