From Verif Require Import Base BaseFacts Util UtilFacts Lang Spec SpecFacts Graph Api Denote ArrayLit.
From Coq Require Import ZifyBool ZifyNat.

(* induction principle for nested lists *)
Lemma nest_ind' {A} (P : nest A -> Prop) :
  (forall x, P (Leaf x)) -> (forall l, (forall v, In v l -> P v) -> P (Nest l)) -> forall v, P v.
Proof.
  intros HL HN. fix IH 1. intros [x|l]; [apply HL|]. apply HN.
  induction l as [|e l IHl]; [intros v []|]. intros v [<-|H]; [apply IH|now apply IHl].
Qed.

(* the loop over the elements, named *)
Definition array_each (dim : nat) :=
  fix each (l : list (nest num)) (fl : list num) (sh : list Z) : outcome (list num * list Z) :=
    match l with
    | [] => Done (fl, sh)
    | e :: r => '(fl', sh') <~ array_dfs e (S dim) fl sh ;; each r fl' sh'
    end.
Definition array_len (dim : nat) (len : Z) (shape : list Z) : outcome (list Z) :=
  if Nat.eqb (length shape) dim then Done (shape ++ [len])
  else match nth_error shape dim with
       | Some s => if len =? s then Done shape else Throw ValueErr
       | None => Throw IndexErr
       end.
Lemma array_dfs_nest l dim fl sh :
  array_dfs (Nest l) dim fl sh = (sh' <~ array_len dim (Z.of_nat (length l)) sh ;; array_each dim l fl sh').
Proof. reflexivity. Qed.

Lemma array_rect s v : rect s v -> forall pre fl,
  array_dfs v (length pre) fl pre = Done (fl ++ leaves v, pre ++ cut0 s) /\
  array_dfs v (length pre) fl (pre ++ cut0 s) = Done (fl ++ leaves v, pre ++ cut0 s).
Proof.
  intros H. induction H as [x|d s l HL Hl IH]; intros pre fl.
  - cbn. rewrite app_nil_r. auto.
  - rewrite !array_dfs_nest.
    assert (HA : array_len (length pre) (Z.of_nat (length l)) pre = Done (pre ++ [d])).
    { unfold array_len. rewrite Nat.eqb_refl, HL. reflexivity. }
    assert (HB : array_len (length pre) (Z.of_nat (length l)) (pre ++ cut0 (d :: s)) = Done (pre ++ cut0 (d :: s))).
    { unfold array_len. rewrite app_length.
      assert (Hc : exists r, cut0 (d :: s) = d :: r).
      { cbn. destruct (d =? 0) eqn:E; [exists []; f_equal; lia|eauto]. }
      destruct Hc as [r ->]. replace (Nat.eqb _ _) with false by (symmetry; apply Nat.eqb_neq; cbn; lia).
      rewrite nth_error_app2, Nat.sub_diag by lia. cbn. rewrite HL, Z.eqb_refl. reflexivity. }
    rewrite HA, HB. cbn [obind].
    assert (HE : forall l' fl', (forall v, In v l' -> In v l) -> d <> 0 ->
      array_each (length pre) l' fl' (pre ++ cut0 (d :: s)) = Done (fl' ++ flat_map leaves l', pre ++ cut0 (d :: s))).
    { induction l' as [|e l' IHl']; intros fl' Hin Hd; cbn [array_each flat_map].
      - now rewrite app_nil_r.
      - replace (pre ++ cut0 (d :: s)) with ((pre ++ [d]) ++ cut0 s)
          by (cbn; destruct (d =? 0) eqn:E; [lia|now rewrite <- app_assoc]).
        destruct (IH e (Hin e (or_introl eq_refl)) (pre ++ [d]) fl') as [_ H2].
        rewrite app_length in H2. cbn in H2. rewrite Nat.add_1_r in H2. rewrite H2. cbn [obind].
        replace ((pre ++ [d]) ++ cut0 s) with (pre ++ cut0 (d :: s))
          by (cbn; destruct (d =? 0) eqn:E; [lia|now rewrite <- app_assoc]).
        change (array_each (length pre) l' (fl' ++ leaves e) (pre ++ cut0 (d :: s)) = Done (fl' ++ leaves e ++ flat_map leaves l', pre ++ cut0 (d :: s))).
        rewrite IHl'; [now rewrite app_assoc| |assumption].
        intros w Hw. apply Hin. now right. }
    destruct l as [|e l'].
    + cbn in HL. subst d. cbn. rewrite app_nil_r. auto.
    + assert (Hd : d <> 0) by (cbn in HL; lia). split; [|apply HE; auto].
      cbn [array_each].
      destruct (IH e (or_introl eq_refl) (pre ++ [d]) fl) as [H1 _].
      rewrite app_length in H1. cbn in H1. rewrite Nat.add_1_r in H1. rewrite H1. cbn [obind].
      replace ((pre ++ [d]) ++ cut0 s) with (pre ++ cut0 (d :: s))
        by (cbn; destruct (d =? 0) eqn:E; [lia|now rewrite <- app_assoc]).
      change (array_each (length pre) l' (fl ++ leaves e) (pre ++ cut0 (d :: s)) = Done (fl ++ leaves (Nest (e :: l')), pre ++ cut0 (d :: s))).
      rewrite HE; [|intros; now right|assumption]. cbn. now rewrite <- app_assoc.
Qed.

Lemma rect_nonneg {A} s (v : nest A) : rect s v -> nonneg (cut0 s).
Proof.
  intros H. induction H as [x|d s l HL Hl IH]; cbn; [constructor|].
  destruct (d =? 0) eqn:E; [repeat constructor; lia|].
  constructor; [lia|]. destruct l as [|e l]; [cbn in HL; lia|]. apply (IH e). now left.
Qed.

Lemma rect_leaves_length {A} s (v : nest A) : rect s v -> Z.of_nat (length (leaves v)) = zprod (cut0 s).
Proof.
  intros H. induction H as [x|d s l HL Hl IH]; [reflexivity|]. cbn [leaves cut0].
  destruct (d =? 0) eqn:E.
  - destruct l; [reflexivity|cbn in HL; lia].
  - rewrite (length_flat_map_const leaves l (Z.to_nat (zprod (cut0 s)))).
    + cbn. change (fold_right Z.mul 1 (cut0 s)) with (zprod (cut0 s)).
      assert (0 <= zprod (cut0 s)).
      { destruct l as [|e l]; [cbn in HL; lia|]. rewrite <- (IH e (or_introl eq_refl)). lia. }
      rewrite Nat2Z.inj_mul, Z2Nat.id by assumption. lia.
    + intros v Hv. rewrite <- (IH v Hv). lia.
Qed.

(* acceptance implies that every list has the length recorded for its depth *)
Inductive fits (sh : list Z) : nat -> nest num -> Prop :=
| fits_leaf dim x : fits sh dim (Leaf x)
| fits_nest dim l : nth_error sh dim = Some (Z.of_nat (length l)) ->
    (forall v, In v l -> fits sh (S dim) v) -> fits sh dim (Nest l).

Lemma fits_ext sh ext dim v : fits sh dim v -> fits (sh ++ ext) dim v.
Proof.
  intros H. induction H as [|dim l Hn Hl IH]; constructor; [|assumption].
  rewrite nth_error_app1; [assumption|]. apply nth_error_Some. congruence.
Qed.

Lemma array_dfs_fits v : forall dim fl sh fl' sh', array_dfs v dim fl sh = Done (fl', sh') ->
  fits sh' dim v /\ exists ext, sh' = sh ++ ext.
Proof.
  induction v as [x|l IH] using nest_ind'; intros dim fl sh fl' sh' H.
  - cbn in H. injection H as <- <-. split; [constructor|]. exists []. now rewrite app_nil_r.
  - rewrite array_dfs_nest in H. apply obind_done in H as (sh1 & H1 & H2).
    assert (H3 : nth_error sh1 dim = Some (Z.of_nat (length l)) /\ exists ext, sh1 = sh ++ ext).
    { unfold array_len in H1. destruct (Nat.eqb_spec (length sh) dim) as [<-|E].
      - injection H1 as <-. split; [|eauto]. now rewrite nth_error_app2, Nat.sub_diag by lia.
      - destruct (nth_error sh dim) eqn:En; [|discriminate].
        destruct (_ =? _) eqn:E2; [|discriminate]. injection H1 as <-.
        split; [rewrite En; f_equal; lia|]. exists []. now rewrite app_nil_r. }
    destruct H3 as (Hn & ext1 & ->).
    assert (H4 : forall l' fl sh, (forall v, In v l' -> In v l) -> array_each dim l' fl sh = Done (fl', sh') ->
       (forall v, In v l' -> fits sh' (S dim) v) /\ exists ext, sh' = sh ++ ext).
    { induction l' as [|e l' IHl]; intros fl0 sh0 Hin He; cbn in He.
      - injection He as <- <-. split; [intros v []|]. exists []. now rewrite app_nil_r.
      - apply obind_done in He as ([fl1 sh1] & Ha & Hb).
        destruct (IH e (Hin e (or_introl eq_refl)) _ _ _ _ _ Ha) as (Hf & ext & ->).
        destruct (IHl fl1 (sh0 ++ ext)) as (Hr & ext' & ->); [intros; apply Hin; now right|exact Hb|].
        split.
        + intros v [<-|Hv]; [now apply fits_ext|now apply Hr].
        + exists (ext ++ ext'). now rewrite app_assoc. }
    destruct (H4 l fl (sh ++ ext1) (fun v h => h) H2) as (H5 & ext & ->).
    split.
    + constructor; [|assumption]. rewrite nth_error_app1; [assumption|]. apply nth_error_Some. congruence.
    + exists (ext1 ++ ext). now rewrite app_assoc.
Qed.

Lemma array_dfs_len v : forall dim fl sh fl' sh' d, depth d v -> (length sh <= dim + d)%nat ->
  array_dfs v dim fl sh = Done (fl', sh') -> (length sh' <= dim + d)%nat.
Proof.
  induction v as [x|l IH] using nest_ind'; intros dim fl sh fl' sh' d Hd HL H.
  - cbn in H. injection H as <- <-. assumption.
  - inversion Hd as [|d0 l0 Hl]; subst. rewrite array_dfs_nest in H. apply obind_done in H as (sh1 & H1 & H2).
    assert (HL1 : (length sh1 <= dim + S d0)%nat).
    { unfold array_len in H1. destruct (Nat.eqb_spec (length sh) dim) as [<-|E].
      - injection H1 as <-. rewrite app_length. cbn. lia.
      - destruct (nth_error sh dim); [|discriminate]. destruct (_ =? _); [|discriminate]. now injection H1 as <-. }
    clear H1 HL sh.
    assert (H4 : forall l' fl sh, (forall v, In v l' -> In v l) -> (length sh <= dim + S d0)%nat ->
       array_each dim l' fl sh = Done (fl', sh') -> (length sh' <= dim + S d0)%nat).
    { induction l' as [|e l' IHl]; intros fl0 sh0 Hin Hs He; cbn in He.
      - injection He as <- <-. assumption.
      - apply obind_done in He as ([fl1 sh2] & Ha & Hb).
        assert (Hx : (length sh2 <= S dim + d0)%nat)
          by (apply (IH e (Hin e (or_introl eq_refl)) (S dim) fl0 sh0 fl1 sh2 d0); [apply Hl, Hin; now left|lia|exact Ha]).
        apply (IHl fl1 sh2); [intros; apply Hin; now right|lia|exact Hb]. }
    eapply H4; [|exact HL1|exact H2]. auto.
Qed.

Lemma fits_rect v : forall sh dim d, depth d v -> fits sh dim v -> (length sh <= dim + d)%nat ->
  rect (firstn d (skipn dim (sh ++ repeat 0 (dim + d - length sh)))) v.
Proof.
  induction v as [x|l IH] using nest_ind'; intros sh dim d Hd Hf HL.
  - inversion Hd; subst. constructor.
  - inversion Hd as [|d0 l0 Hl]; subst. inversion Hf as [|? ? Hn Hc]; subst.
    assert (Hlt : (dim < length sh)%nat) by (apply nth_error_Some; congruence).
    set (s := sh ++ repeat 0 (dim + S d0 - length sh)).
    assert (Hs : skipn dim s = Z.of_nat (length l) :: skipn (S dim) s).
    { assert (Hn' : nth_error s dim = Some (Z.of_nat (length l))) by (unfold s; rewrite nth_error_app1; auto).
      clearbody s. clear - Hn'. revert dim Hn'. induction s as [|y s IHs]; intros [|dim] H; try discriminate.
      - now injection H as ->.
      - cbn [skipn]. now apply IHs. }
    rewrite Hs. cbn [firstn]. constructor; [reflexivity|].
    intros v Hv. specialize (IH v Hv sh (S dim) d0 (Hl v Hv) (Hc v Hv)).
    replace (S dim + d0)%nat with (dim + S d0)%nat in IH by lia. unfold s. apply IH. assumption.
Qed.

Lemma array_depth_iff v d : depth d v -> (exists r, array_dfs v 0 [] [] = Done r) <-> rectangular v.
Proof.
  intros Hd. split.
  - intros [[fl sh] H]. assert (HLn : (length sh <= 0 + d)%nat) by (eapply array_dfs_len; [exact Hd| |exact H]; cbn; lia).
    apply array_dfs_fits in H as [Hf _]. eexists. eapply fits_rect; eauto.
  - intros [s Hs]. destruct (array_rect s v Hs [] []) as [H _]. cbn in H. eauto.
Qed.
