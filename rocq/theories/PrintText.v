(* The text of a nested list determines the list. *)
From Coq Require Import String Ascii.
From Verif Require Import Base BaseFacts ArrayLit ArrayFacts Spec FrontSpec Text TextParse Print.

(* repr of a number: not empty, and without brackets and commas *)
Definition plain_char (c : ascii) : bool := negb (Ascii.eqb c "[" || Ascii.eqb c "]" || Ascii.eqb c ",")%char.
Definition plain_text (s : string) : Prop := s <> EmptyString /\ all_chars plain_char s = true.

(* what may follow an element: nothing, or a bracket or comma *)
Definition stop (s : string) : Prop := match s with EmptyString => True | String c _ => plain_char c = false end.
Lemma plain_split s1 : forall s2 r1 r2, all_chars plain_char s1 = true -> all_chars plain_char s2 = true -> stop r1 -> stop r2 ->
  (s1 +++ r1 = s2 +++ r2)%string -> s1 = s2 /\ r1 = r2.
Proof.
  induction s1 as [|c s1 IH]; intros s2 r1 r2 H1 H2 S1 S2 HE.
  - destruct s2 as [|d s2]; [auto|]. cbn in HE. subst r1. cbn in S1, H2. rewrite S1 in H2. discriminate.
  - destruct s2 as [|d s2].
    + cbn in HE. subst r2. cbn in S2, H1. rewrite S2 in H1. discriminate.
    + cbn in HE. injection HE as <- HE. cbn in H1, H2. apply andb_prop in H1 as [_ H1]. apply andb_prop in H2 as [_ H2].
      destruct (IH s2 r1 r2 H1 H2 S1 S2 HE) as [-> ->]. auto.
Qed.
Lemma sapp_assoc a b c : ((a +++ b) +++ c = a +++ b +++ c)%string.
Proof. induction a; cbn; congruence. Qed.

Section Read.
Context {V : Type} (repr : V -> string) (Hinj : forall x y, repr x = repr y -> x = y) (Hplain : forall x, plain_text (repr x)).
Notation text := (nest_text repr).
Lemma first_char t r : exists c s, (text t +++ r = String c s)%string /\ c <> "]"%char /\ (c = "["%char <-> exists l, t = Nest l).
Proof using Hplain.
  destruct t as [v|l]; cbn.
  - destruct (Hplain v) as [Hne Hp]. destruct (repr v) as [|c s]; [congruence|]. exists c. eexists. split; [reflexivity|]. cbn in Hp. apply andb_prop in Hp as [Hp _].
    unfold plain_char in Hp. apply Bool.negb_true_iff in Hp. apply Bool.orb_false_iff in Hp as [Hp _]. apply Bool.orb_false_iff in Hp as [Hp1 Hp2].
    apply Ascii.eqb_neq in Hp1. apply Ascii.eqb_neq in Hp2. split; [exact Hp2|]. split; [contradiction|intros (l & ?); discriminate].
  - exists "["%char. eexists. split; [reflexivity|]. split; [discriminate|]. split; eauto.
Qed.
Lemma join_cons (x : string) l : l <> [] -> join ", " (x :: l) = (x +++ ", " +++ join ", " l)%string.
Proof. destruct l; [contradiction|reflexivity]. Qed.
Lemma text_inj t1 : forall t2 r1 r2, stop r1 -> stop r2 -> (text t1 +++ r1 = text t2 +++ r2)%string -> t1 = t2 /\ r1 = r2.
Proof using Hinj Hplain.
  induction t1 as [v|l IH] using nest_ind'; intros t2 r1 r2 S1 S2 HE.
  - destruct t2 as [w|l2].
    + cbn in HE. destruct (plain_split _ _ _ _ (proj2 (Hplain v)) (proj2 (Hplain w)) S1 S2 HE) as [HV ->]. split; auto. f_equal. auto.
    + exfalso. destruct (first_char (Leaf v) r1) as (c & s & HC & _ & HN). rewrite HE in HC. cbn in HC. injection HC as <- _. destruct (proj1 HN eq_refl) as (? & ?). discriminate.
  - destruct t2 as [w|l2].
    + exfalso. destruct (first_char (Leaf w) r2) as (c & s & HC & _ & HN). rewrite <- HE in HC. cbn in HC. injection HC as <- _. destruct (proj1 HN eq_refl) as (? & ?). discriminate.
    + cbn in HE. injection HE as HE. rewrite !sapp_assoc in HE. cbn [String.append] in HE.
      assert (G : forall l2, (join ", " (map text l) +++ String "]" r1 = join ", " (map text l2) +++ String "]" r2)%string -> l = l2 /\ r1 = r2).
      { clear HE l2. rewrite <- Forall_forall in IH. induction IH as [|t l Ht _ IHl]; intros l2 HE.
        - destruct l2 as [|t2 l2]; [cbn in HE; injection HE as HE; auto|]. exfalso.
          assert (exists q, (join ", " (map text (t2 :: l2)) +++ String "]" r2 = text t2 +++ q)%string) as [q Hq].
          { destruct l2; [eexists; reflexivity|]. rewrite map_cons, join_cons by discriminate. rewrite !sapp_assoc. eexists; reflexivity. }
          rewrite Hq in HE. destruct (first_char t2 q) as (c & s & HC & HN & _). rewrite HC in HE. cbn in HE. injection HE as <- _. now apply HN.
        - destruct l2 as [|t2 l2].
          + exfalso. assert (exists q, (join ", " (map text (t :: l)) +++ String "]" r1 = text t +++ q)%string) as [q Hq].
            { destruct l; [eexists; reflexivity|]. rewrite map_cons, join_cons by discriminate. rewrite !sapp_assoc. eexists; reflexivity. }
            rewrite Hq in HE. destruct (first_char t q) as (c & s & HC & HN & _). rewrite HC in HE. cbn in HE. injection HE as -> _. now apply HN.
          + destruct l as [|u l], l2 as [|u2 l2].
            * cbn in HE. destruct ((fun A B => Ht t2 _ _ A B HE) eq_refl eq_refl) as [-> HR]. injection HR as HR. auto.
            * exfalso. rewrite (map_cons _ t2), join_cons in HE by discriminate. cbn [map join] in HE. rewrite !sapp_assoc in HE. destruct ((fun A B => Ht t2 _ _ A B HE) eq_refl eq_refl) as [_ HR]. discriminate.
            * exfalso. rewrite (map_cons _ t), join_cons in HE by discriminate. cbn [map join] in HE. rewrite !sapp_assoc in HE. destruct ((fun A B => Ht t2 _ _ A B HE) eq_refl eq_refl) as [_ HR]. discriminate.
            * rewrite (map_cons _ t), (map_cons _ t2), !join_cons in HE by discriminate. rewrite !sapp_assoc in HE. destruct ((fun A B => Ht t2 _ _ A B HE) eq_refl eq_refl) as [-> HR].
              cbn [String.append] in HR. injection HR as HR. destruct (IHl (u2 :: l2) HR) as [HL ->]. split; [congruence|reflexivity]. }
      destruct (G l2 HE) as [-> ->]. auto.
Qed.
End Read.
