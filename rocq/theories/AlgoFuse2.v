(* try_fuse: total, invariant preserving, meaning preserving. *)
From Verif Require Import Base BaseFacts Util UtilFacts Lang Spec Graph Api Denote SpecFacts DenoteFacts Reach Algo AlgoSem AlgoConv AlgoConv2 AlgoFuse.

(* ------------------------------------------------------------------ substitution *)
Lemma ilookup_combine ls idx k l e : NoDup ls -> nth_error ls k = Some l -> nth_error idx k = Some e ->
  ilookup (combine ls idx) l = Some e.
Proof.
  intros HN; revert idx k; induction HN as [|x ls Hx _ IH]; intros [|y idx] [|k] H1 H2; cbn in *; try discriminate.
  - injection H1 as ->. injection H2 as ->. now rewrite lidx_eqb_refl.
  - destruct (lidx_eqb x l) eqn:El; [|eapply IH; eauto].
    apply lidx_eqb_eq in El. subst. apply nth_error_In in H1. tauto.
Qed.

Lemma replace_is_ix (P Q : lidx -> Prop) s e : (forall l, P l -> exists el, ilookup s l = Some el /\ is_ix Q el) ->
  is_ix P e -> exists e', replace_index s e = Done e' /\ is_ix Q e'.
Proof.
  intros Hs. induction e using expr_ind'; cbn; intros HX; try contradiction.
  - destruct (Hs l HX) as (el & H1 & H2). rewrite H1. cbn. eauto.
  - eauto.
  - destruct HX as [H1 H2]. destruct (IHe1 H1) as (x & Ex & Qx). destruct (IHe2 H2) as (y & Ey & Qy).
    rewrite Ex, Ey. cbn. eexists; split; [reflexivity|]. cbn. auto.
Qed.
Lemma many_is_ix (P Q : lidx -> Prop) s l : (forall l, P l -> exists el, ilookup s l = Some el /\ is_ix Q el) ->
  Forall (is_ix P) l -> exists l', many_replace s l = Done l' /\ Forall (is_ix Q) l' /\ length l' = length l.
Proof.
  intros Hs. induction 1 as [|x l Hx _ (l' & E & Q' & Hl)]; cbn; [eauto|].
  destruct (replace_is_ix P Q s x Hs Hx) as (x' & Ex & Qx). rewrite Ex. cbn. rewrite E. cbn.
  eexists; split; [reflexivity|]. split; [auto|cbn; lia].
Qed.

Lemma replace_wfe shp ic lim (P Q : lidx -> Prop) s e : (forall l, P l -> exists el, ilookup s l = Some el /\ is_ix Q el) ->
  wfe shp ic lim P e -> exists e', replace_index s e = Done e' /\ wfe shp ic lim Q e' /\ func_refs e' = func_refs e /\
    valop e' = valop e /\ (forall f ix, e' = EFunc f ix -> exists ix0, e = EFunc f ix0) /\ is_buf e' = is_buf e.
Proof.
  intros Hs. induction e using expr_ind'; intros HW; try (cbn in HW; contradiction).
  - exists (EConst z). cbn. intuition discriminate.
  - cbn in HW. destruct HW as [H1 H2]. destruct (IHe1 H1) as (x & Ex & Wx & Rx & _). destruct (IHe2 H2) as (y & Ey & Wy & Ry & _).
    cbn. rewrite Ex. cbn. rewrite Ey. cbn. eexists; split; [reflexivity|]. cbn. rewrite Rx, Ry. intuition discriminate.
  - cbn in HW. destruct (IHe HW) as (x & Ex & Wx & Rx & _).
    cbn. rewrite Ex. cbn. eexists; split; [reflexivity|]. cbn. intuition discriminate.
  - cbn in HW. destruct HW as (Hc & H2 & H3). destruct (replace_is_ix P Q s e1 Hs Hc) as (c & Ec & Qc).
    destruct (IHe2 H2) as (x & Ex & Wx & Rx & _). destruct (IHe3 H3) as (y & Ey & Wy & Ry & _).
    cbn. rewrite Ec. cbn. rewrite Ex. cbn. rewrite Ey. cbn. eexists; split; [reflexivity|]. cbn. rewrite Rx, Ry.
    assert (HR : forall (P0 : lidx -> Prop) e0, is_ix P0 e0 -> func_refs e0 = []).
    { intros P0 e0. induction e0 using expr_ind'; cbn; intros HH; try contradiction; auto. destruct HH. now rewrite IHe0_1, IHe0_2. }
    rewrite (HR P e1 Hc), (HR Q c Qc). intuition discriminate.
  - cbn in HW. destruct HW as (H1 & H2 & H3). rewrite replace_func.
    destruct (many_is_ix P Q s idx Hs H3) as (l' & El & Ql & Hl). rewrite El. cbn.
    eexists; split; [reflexivity|]. cbn. rewrite Hl. intuition auto; try congruence.
    match goal with HH : EFunc _ _ = EFunc _ _ |- _ => injection HH as <- <- end. eauto.
  - cbn in HW. destruct HW as (H1 & H2 & H3). rewrite replace_buf.
    destruct (many_is_ix P Q s idx Hs H3) as (l' & El & Ql & Hl). rewrite El. cbn.
    eexists; split; [reflexivity|]. cbn. rewrite Hl. intuition (auto; congruence).
Qed.

Lemma is_ix_refs (P : lidx -> Prop) e : is_ix P e -> func_refs e = [].
Proof. induction e using expr_ind'; cbn; intros HH; try contradiction; auto. destruct HH. now rewrite IHe1, IHe2. Qed.
Lemma wfe_refs shp ic lim P e : wfe shp ic lim P e -> forall i, In i (func_refs e) -> (i < lim)%nat.
Proof.
  induction e using expr_ind'; cbn; intros HW i Hi; try contradiction.
  - destruct HW. apply in_app_iff in Hi as [Hi|Hi]; auto.
  - auto.
  - destruct HW as (Hc & H2 & H3). rewrite (is_ix_refs _ _ Hc) in Hi. cbn in Hi. apply in_app_iff in Hi as [Hi|Hi]; auto.
  - destruct HW as (H1 & _). destruct Hi as [<-|[]]. assumption.
Qed.
Lemma wff_refs shp ic a loops e : wff shp ic a loops e -> forall i, In i (func_refs e) -> (i < a)%nat.
Proof.
  destruct e; cbn [wff]; intros HW i Hi; try (eapply wfe_refs; eassumption).
  destruct HW as (HW & _). cbn [func_refs] in Hi. eapply wfe_refs; eassumption.
Qed.
Lemma wfe_nored shp ic lim P e : wfe shp ic lim P e -> has_reduce e = false.
Proof.
  induction e using expr_ind'; cbn; intros HW; try contradiction; auto.
  - destruct HW. now rewrite IHe1, IHe2.
  - destruct HW as (Hc & H2 & H3). rewrite IHe2, IHe3 by assumption.
    assert (HR : forall e0, is_ix P e0 -> has_reduce e0 = false).
    { induction e0 using expr_ind'; cbn; intros HH; try contradiction; auto. destruct HH. now rewrite IHe0_1, IHe0_2. }
    now rewrite HR.
Qed.
Lemma wfe_mono shp ic lim lim' (P Q : lidx -> Prop) e : (lim <= lim')%nat -> (forall l, P l -> Q l) -> wfe shp ic lim P e -> wfe shp ic lim' Q e.
Proof.
  intros Hl HP. induction e using expr_ind'; cbn; intros HW; auto.
  - intuition.
  - destruct HW as (H1 & H2 & H3). split; [eapply is_ix_mono; eauto|auto].
  - destruct HW as (H1 & H2 & H3). split; [lia|]. split; auto. eapply Forall_impl; [|exact H3]. intros; eapply is_ix_mono; eauto.
  - destruct HW as (H1 & H2 & H3). split; auto. split; auto. eapply Forall_impl; [|exact H3]. intros; eapply is_ix_mono; eauto.
Qed.

(* ------------------------------------------------------------------ *)
Section Fuse.
Context (L : lang) (HL : lang_ok L) (g : graph) (Hw : wf_graph g) (D : dtype) (rc : refs).
Let shp := shape_of g.
Notation Fd := (Fden L g).
Notation eV := (evalV L shp Fd D).

Definition entry (f : nat) (fd : func) : Prop :=
  exists nd, nth_error g f = Some nd /\ fd = mkF (out_loops f (n_shape nd)) (n_shape nd) (n_dtype nd) (f_expr fd) f /\
    wff shp (isc g) f (out_loops f (n_shape nd)) (f_expr fd) /\
    (has_reduce (f_expr fd) = true <-> exists ax kd, n_op nd = OSum ax kd) /\
    (is_const (n_op nd) = true -> is_buf (f_expr fd) = true).
Definition IE (E : fenv) : Prop :=
  forall f fd, E f = Some fd -> entry f fd /\ forall i, In i (func_refs (f_expr fd)) -> E i <> None /\ rc i <> 0%nat.

Definition keep (i : nat) : Prop :=
  exists nd, nth_error g i = Some nd /\ is_const (n_op nd) = false /\ ((exists ax kd, n_op nd = OSum ax kd) \/ (2 <= rc i)%nat).
Inductive dn (E : fenv) (i : nat) : Prop :=
| dn_intro : keep i -> (forall fd, E i = Some fd -> forall j, In j (func_refs (f_expr fd)) -> dn E j) -> dn E i.
Definition processed (E : fenv) (f : nat) : Prop := forall fd, E f = Some fd -> forall j, In j (func_refs (f_expr fd)) -> dn E j.

Definition sem (E : fenv) : Prop :=
  forall f fd nd, E f = Some fd -> nth_error g f = Some nd -> forall idx, in_range (n_shape nd) idx ->
    eV (f_expr fd) (lenv f (n_shape nd) idx) = Fd f idx.
Definition dtok (dt : dtype) (e : expr) : Prop :=
  (valop e = true -> forall v, coerce L dt v = coerce L D v) /\
  (forall f ix, e = EFunc f ix -> forall x, nth_error g f = Some x -> n_dtype x = dt).
Definition dts (E : fenv) : Prop := forall f fd nd, E f = Some fd -> nth_error g f = Some nd -> dtok (n_dtype nd) (f_expr fd).

Definition ext (E E' : fenv) : Prop :=
  (forall f, E f = None <-> E' f = None) /\ (forall f, E' f = E f \/ processed E' f).

Lemma dn_ext E E' i : ext E E' -> dn E i -> dn E' i.
Proof.
  intros [_ H2] HD. induction HD as [i Hk _ IH]. constructor; [assumption|].
  intros fd Hfd j Hj. destruct (H2 i) as [H|H]; [|eapply H; eauto]. rewrite H in Hfd. eapply IH; eauto.
Qed.
Lemma ext_refl E : ext E E.
Proof. split; [tauto|]. auto. Qed.
Lemma ext_trans E1 E2 E3 : ext E1 E2 -> ext E2 E3 -> ext E1 E3.
Proof.
  intros H12 H23. split.
  - intros f. rewrite (proj1 H12 f). apply (proj1 H23 f).
  - intros f. destruct (proj2 H23 f) as [H|H]; auto. destruct (proj2 H12 f) as [H'|H']; [left; congruence|].
    right. intros fd Hfd j Hj. eapply dn_ext; [exact H23|]. rewrite H in Hfd. eapply H'; eauto.
Qed.

Definition rok (E : fenv) (e : expr) : Prop := forall i, In i (func_refs e) -> E i <> None /\ rc i <> 0%nat.
Definition rdone (E : fenv) (e : expr) : Prop := forall i, In i (func_refs e) -> E i <> None /\ rc i <> 0%nat /\ dn E i.
Lemma rdone_ext E E' e : ext E E' -> rdone E e -> rdone E' e.
Proof.
  intros HX H i Hi. destruct (H i Hi) as (H1 & H2 & H3). split; [|split; [assumption|eapply dn_ext; eauto]].
  rewrite <- (proj1 HX i). assumption.
Qed.
Lemma rok_ext E E' e : ext E E' -> rok E e -> rok E' e.
Proof. intros HX H i Hi. destruct (H i Hi) as (H1 & H2). split; auto. now rewrite <- (proj1 HX i). Qed.

Definition post (E : fenv) (e : expr) (E' : fenv) (e' : expr) : Prop :=
  IE E' /\ ext E E' /\ rdone E' e' /\
  (sem E -> sem E' /\ forall r, refines (eV e r) (eV e' r)) /\
  (dts E -> dts E' /\ forall dt, dtok dt e -> dtok dt e').

Lemma post_nil E e : IE E -> func_refs e = [] -> post E e E e.
Proof.
  intros HI HR. split; [assumption|]. split; [apply ext_refl|]. split; [intros i Hi; rewrite HR in Hi; destruct Hi|].
  split; intros H; split; auto. intros; apply refines_refl.
Qed.
Lemma dtok_valop dt e e' : valop e = true -> valop e' = true -> dtok dt e -> dtok dt e'.
Proof.
  intros H1 H2 [Ha _]. split; [auto|]. intros f ix ->. cbn in H2. discriminate.
Qed.

Lemma Fd_nofault f nd idx : nth_error g f = Some nd -> in_range (n_shape nd) idx -> Fd f idx <> Fault.
Proof. intros. unfold Fden. eapply den_nofault; eauto. Qed.

(* at value level, wff expressions with a reduction *)
Lemma refines_sum x x' red r : (forall r, refines (eV x r) (eV x' r)) -> refines (eV (ESum x red) r) (eV (ESum x' red) r).
Proof.
  intros H. cbn [evalV]. rewrite !sum_loops_fold. apply fold_res_refines.
  induction (all_idx (map l_ext red)) as [|z zs IH]; cbn; constructor; auto.
Qed.

Definition tf_spec (fuel : nat) : Prop := forall e E lim P, IE E -> wfe shp (isc g) lim P e -> rok E e -> (lim <= fuel)%nat ->
  exists e' E', try_fuse fuel rc e E = Done (e', E') /\ wfe shp (isc g) lim P e' /\ post E e E' e' /\ (is_buf e = true -> is_buf e' = true).

Definition same_kind (e e' : expr) : Prop := has_reduce e' = has_reduce e /\ (is_buf e = true -> is_buf e' = true).

Lemma tf_wff fuel : tf_spec fuel -> forall e E a loops, IE E -> wff shp (isc g) a loops e -> rok E e -> (a <= fuel)%nat ->
  exists e' E', try_fuse fuel rc e E = Done (e', E') /\ wff shp (isc g) a loops e' /\ post E e E' e' /\ same_kind e e'.
Proof.
  intros HT e E a loops HI HWf HR Hf.
  assert (HC : (exists x red, e = ESum x red) \/ wfe shp (isc g) a (fun l => In l loops) e).
  { destruct e; auto. left; eauto. }
  destruct HC as [(x & red & ->)|HWe].
  - destruct HWf as (HW1 & HW2 & HW3). cbn [func_refs] in HR.
    destruct (HT x E a _ HI HW1) as (x' & E' & Ex & Wx & (P1 & P2 & P3 & P4 & P5) & _); auto.
    assert (ES : try_fuse fuel rc (ESum x red) E = Done (ESum x' red, E')).
    { destruct fuel; cbn [try_fuse] in *; rewrite Ex; reflexivity. }
    exists (ESum x' red), E'. split; [exact ES|]. split; [cbn; auto|]. split; [|split; [reflexivity|discriminate]].
    split; [assumption|]. split; [assumption|]. split; [exact P3|]. split.
    + intros HS. destruct (P4 HS) as [Hs1 Hs2]. split; auto. intros r. now apply refines_sum.
    + intros HD. destruct (P5 HD) as [Hd1 Hd2]. split; auto. intros dt. now apply dtok_valop.
  - destruct (HT e E a _ HI HWe HR Hf) as (e' & E' & Ee & We & HP & HB).
    exists e', E'. split; [exact Ee|]. split; [now apply wff_of_wfe|]. split; [assumption|].
    split; [now rewrite (wfe_nored _ _ _ _ _ We), (wfe_nored _ _ _ _ _ HWe)|assumption].
Qed.

Lemma subst_ok_lenv r f s idx zs : length idx = length s -> mapM (evalI L r) idx = Ok zs ->
  subst_ok L r (lenv f s zs) (combine (out_loops f s) idx).
Proof.
  intros Hl HM l z Hz. unfold lenv in Hz. apply ibinds_inv in Hz as (k & H1 & H2).
  apply mapM_ok in HM. destruct (Forall2_nth_error_r _ _ _ _ _ HM H2) as (e & He & Hev).
  exists e. split; auto. eapply ilookup_combine; eauto. apply out_loops_NoDup.
Qed.

Lemma dn_below E E' b : IE E -> (forall f, (f < b)%nat -> E' f = E f) -> forall i, dn E i -> (i < b)%nat -> dn E' i.
Proof.
  intros HI HB i HD. induction HD as [i Hk _ IH]. intros Hi. constructor; [assumption|].
  intros fd Hfd j Hj. rewrite HB in Hfd by assumption. eapply IH; eauto.
  destruct (HI _ _ Hfd) as [(nd & _ & _ & HWf & _) _]. pose proof (wff_refs _ _ _ _ _ HWf _ Hj). lia.
Qed.

Lemma try_fuse_ok fuel : tf_spec fuel.
Proof.
  induction fuel as [|k IHk]; intros e; induction e using expr_ind'; intros E lim P HI HW HR Hlim; cbn [wfe] in HW; try contradiction.
  (* constants *)
  1,7: exists (EConst z), E; split; [reflexivity|]; split; [exact I|]; split; [apply post_nil; auto|discriminate].
  (* binary *)
  1,6: destruct HW as [HW1 HW2]; cbn [func_refs] in HR;
    destruct (IHe1 E lim P HI HW1) as (x' & E1 & Ex & Wx & (P1 & P2 & P3 & P4 & P5) & _);
      [intros i Hi; apply HR, in_or_app; now left|assumption|];
    destruct (IHe2 E1 lim P P1 HW2) as (y' & E2 & Ey & Wy & (Q1 & Q2 & Q3 & Q4 & Q5) & _);
      [eapply rok_ext; [exact P2|]; intros i Hi; apply HR, in_or_app; now right|assumption|];
    exists (EBin b x' y'), E2; cbn [try_fuse] in *; rewrite Ex; cbn [obind]; rewrite Ey; split; [reflexivity|];
    split; [cbn; auto|]; split; [|discriminate];
    split; [assumption|]; split; [eapply ext_trans; eauto|]; split;
    [intros i Hi; cbn [func_refs] in Hi; apply in_app_iff in Hi as [Hi|Hi]; [eapply rdone_ext; eauto|now apply Q3]|];
    split; [intros HS; destruct (P4 HS) as [S1 R1]; destruct (Q4 S1) as [S2 R2]; split; auto;
            intros r; cbn [evalV]; apply refines_bind; auto; intros u Hu; apply refines_bind; auto; intros; apply refines_refl
           |intros HD; destruct (P5 HD) as [S1 R1]; destruct (Q5 S1) as [S2 R2]; split; auto; intros dt; now apply dtok_valop].
  (* unary *)
  1,5: cbn [func_refs] in HR;
    destruct (IHe E lim P HI HW HR Hlim) as (x' & E1 & Ex & Wx & (P1 & P2 & P3 & P4 & P5) & _);
    exists (EUn u x'), E1; cbn [try_fuse] in *; rewrite Ex; split; [reflexivity|];
    split; [cbn; auto|]; split; [|discriminate];
    split; [assumption|]; split; [assumption|]; split; [exact P3|];
    split; [intros HS; destruct (P4 HS) as [S1 R1]; split; auto;
            intros r; cbn [evalV]; apply refines_bind; auto; intros; apply refines_refl
           |intros HD; destruct (P5 HD) as [S1 R1]; split; auto; intros dt; now apply dtok_valop].
  (* where: the condition is an index expression, left unchanged *)
  1,4: destruct HW as (HWc & HW1 & HW2); unfold rok in HR; cbn [func_refs] in HR; rewrite (is_ix_refs _ _ HWc) in HR; cbn [app] in HR;
    destruct (IHe2 E lim P HI HW1) as (x' & E1 & Ex & Wx & (P1 & P2 & P3 & P4 & P5) & _);
      [intros i Hi; apply HR, in_or_app; now left|assumption|];
    destruct (IHe3 E1 lim P P1 HW2) as (y' & E2 & Ey & Wy & (Q1 & Q2 & Q3 & Q4 & Q5) & _);
      [eapply rok_ext; [exact P2|]; intros i Hi; apply HR, in_or_app; now right|assumption|];
    match goal with |- context [try_fuse ?n] => assert (Hc : forall c E0, is_ix P c -> try_fuse n rc c E0 = Done (c, E0)) by
      (induction c using expr_ind'; intros E0 HHc; cbn [is_ix] in HHc; try contradiction; try reflexivity;
       destruct HHc as [Hc1 Hc2]; specialize (IHc1 E0 Hc1); specialize (IHc2 E0 Hc2);
       cbn [try_fuse] in *; rewrite IHc1; cbn [obind]; rewrite IHc2; reflexivity) end;
    specialize (Hc e1 E HWc);
    exists (EWhere e1 x' y'), E2; cbn [try_fuse] in *; rewrite Hc; cbn [obind]; rewrite Ex; cbn [obind]; rewrite Ey; split; [reflexivity|];
    split; [cbn; auto|]; split; [|discriminate];
    split; [assumption|]; split; [eapply ext_trans; eauto|]; split;
    [intros i Hi; cbn [func_refs] in Hi; rewrite (is_ix_refs _ _ HWc) in Hi; cbn [app] in Hi; apply in_app_iff in Hi as [Hi|Hi]; [eapply rdone_ext; eauto|now apply Q3]|];
    split; [intros HS; destruct (P4 HS) as [S1 R1]; destruct (Q4 S1) as [S2 R2]; split; auto;
            intros r; cbn [evalV]; apply refines_bind; [apply refines_refl|]; intros u Hu; apply refines_bind; [destruct (u =? 0); auto|]; intros; apply refines_refl
           |intros HD; destruct (P5 HD) as [S1 R1]; destruct (Q5 S1) as [S2 R2]; split; auto; intros dt; now apply dtok_valop].
  (* func, no fuel *)
  - destruct HW as (HWf & _). lia.
  (* buffer *)
  - exists (EBuf n idx), E; split; [reflexivity|]; split; [cbn; auto|]; split; [apply post_nil; auto|auto].
  (* func *)
  - destruct HW as (HWf & HWl & HWi). destruct (HR f (or_introl eq_refl)) as [HEf Hrf].
    destruct (E f) as [fd|] eqn:Ef; [|congruence].
    destruct (HI _ _ Ef) as [(nd & Hnd & Hfd & Hwff & Hred & Hcst) Hrefs].
    cbn [try_fuse]. rewrite Ef. cbn [throw_none obind].
    destruct (Nat.eqb_spec (rc f) 0) as [?|_]; [congruence|].
    destruct (fusable rc f (f_expr fd)) eqn:Hfus; cbn [negb].
    + (* fused *)
      assert (Hnr : has_reduce (f_expr fd) = false).
      { unfold fusable in Hfus. apply orb_true_iff in Hfus as [H'|H'].
        - destruct (f_expr fd); cbn in H'; try discriminate. reflexivity.
        - apply andb_true_iff in H' as [H' _]. now apply negb_true_iff in H'. }
      pose proof (wff_nored _ _ _ _ _ Hnr Hwff) as Hwe.
      assert (Hloops : f_loops fd = out_loops f (n_shape nd)) by (rewrite Hfd; reflexivity). rewrite Hloops.
      assert (HWl' : length idx = length (n_shape nd)) by (rewrite HWl; f_equal; apply (shape_of_some g); assumption).
      destruct (replace_wfe shp (isc g) f (fun l => In l (out_loops f (n_shape nd))) P (combine (out_loops f (n_shape nd)) idx) (f_expr fd))
        as (e1 & Er & We1 & Re1 & Ve1 & Fe1 & _); [|assumption|].
      { intros l Hl. apply In_nth_error in Hl as [j Hj].
        destruct (nth_error idx j) as [el|] eqn:Eel.
        - exists el. split; [eapply ilookup_combine; eauto; apply out_loops_NoDup|].
          rewrite Forall_forall in HWi. apply HWi. eapply nth_error_In; eauto.
        - apply nth_error_None in Eel. assert (j < length (out_loops f (n_shape nd)))%nat by (apply nth_error_Some; congruence).
          rewrite out_loops_length in H0. lia. }
      rewrite Er. cbn [obind].
      destruct (IHk e1 E f P HI We1) as (e2 & E2 & Ee2 & We2 & (P1 & P2 & P3 & P4 & P5) & _).
      { intros i Hi. rewrite Re1 in Hi. auto. } { lia. }
      exists e2, E2. split; [exact Ee2|]. split; [eapply wfe_mono; [|intros l Hl; exact Hl|exact We2]; lia|]. split; [|discriminate].
      split; [assumption|]. split; [assumption|]. split; [assumption|]. split.
      * intros HS. destruct (P4 HS) as [S1 R1]. split; auto. intros r. eapply refines_trans; [|apply R1].
        cbn [evalV]. intros HN. destruct (mapM (evalI L r) idx) as [zs| |] eqn:Em; cbn [rbind] in *; [| |congruence].
        2:{ exfalso. eapply mapM_evalI_noraise; eauto. }
        assert (Hin : in_range (n_shape nd) zs).
        { unfold readF in HN. destruct (in_rangeb (shp f) zs) eqn:Ein; [|congruence].
          apply in_rangeb_spec in Ein. unfold shp in Ein. now rewrite (shape_of_some g f nd Hnd) in Ein. }
        assert (ERd : readF L shp Fd f zs = Fd f zs) by (apply (readF_ok L g f nd zs Hnd Hin)). rewrite ERd in HN |- *. rewrite <- (HS f fd nd Ef Hnd zs Hin) in HN |- *.
        eapply replace_evalV; eauto. now apply subst_ok_lenv.
      * intros HD. destruct (P5 HD) as [S1 R1]. split; auto. intros dt [_ Hdt]. apply R1.
        pose proof (HD f fd nd Ef Hnd) as [Ha Hb]. specialize (Hdt f idx eq_refl nd Hnd). subst dt. split.
        -- intros Hv. apply Ha. congruence.
        -- intros f' ix' He'. destruct (Fe1 f' ix' He') as [ix0 H0]. eapply Hb; eauto.
    + (* keeps its own kernel *)
      destruct (tf_wff k IHk (f_expr fd) E f (out_loops f (n_shape nd)) HI Hwff) as (e' & E1 & Ee & We & (P1 & P2 & P3 & P4 & P5) & [SK1 SK2]).
      { exact Hrefs. } { lia. }
      rewrite Ee. cbn [obind]. set (E2 := fset E1 f (set_expr fd e')).
      exists (EFunc f idx), E2. split; [reflexivity|]. split; [cbn; auto|]. split; [|discriminate].
      assert (Hlt2 : forall i, (i < f)%nat -> E2 i = E1 i).
      { intros i Hi. unfold E2, fset. destruct (Nat.eqb_spec i f); [lia|reflexivity]. }
      assert (Hne2 : forall i, i <> f -> E2 i = E1 i).
      { intros i Hi. unfold E2, fset. destruct (Nat.eqb_spec i f); [lia|reflexivity]. }
      assert (Hf2 : E2 f = Some (set_expr fd e')) by (unfold E2, fset; now rewrite Nat.eqb_refl).
      assert (Hnone : forall i, E1 i = None <-> E2 i = None).
      { intros i. destruct (Nat.eq_dec i f) as [->|Hne]; [|now rewrite Hne2].
        rewrite Hf2, <- (proj1 P2 f), Ef. split; discriminate. }
      assert (Hpr : processed E2 f).
      { intros fd' Hfd' j Hj. rewrite Hf2 in Hfd'. injection Hfd' as <-. cbn in Hj.
        assert (Hjf := wff_refs _ _ _ _ _ We j Hj).
        apply (dn_below E1 E2 f P1 Hlt2); [|assumption]. apply P3. exact Hj. }
      assert (HX12 : ext E1 E2).
      { split; [exact Hnone|]. intros i. destruct (Nat.eq_dec i f) as [->|Hne]; auto. }
      assert (HI2 : IE E2).
      { intros i fdi Hi. destruct (Nat.eq_dec i f) as [->|Hne].
        - rewrite Hf2 in Hi. injection Hi as <-. split.
          + exists nd. split; [assumption|]. cbn. split; [unfold set_expr; rewrite Hfd; reflexivity|].
            split; [assumption|]. split; [now rewrite SK1|auto].
          + intros j Hj. cbn in Hj. destruct (P3 j Hj) as (H1 & H2 & _). split; auto. now rewrite <- Hnone.
        - rewrite Hne2 in Hi by assumption. destruct (P1 _ _ Hi) as [H1 H2]. split; auto.
          intros j Hj. destruct (H2 j Hj). split; auto. now rewrite <- Hnone. }
      split; [assumption|]. split; [eapply ext_trans; eauto|]. split.
      { intros i [<-|[]]. split; [congruence|]. split; [assumption|]. constructor.
        - exists nd. split; [assumption|]. unfold fusable in Hfus. apply orb_false_iff in Hfus as [Hb Hrest]. split.
          + destruct (is_const (n_op nd)) eqn:Ec; auto. exfalso. pose proof (Hcst eq_refl). congruence.
          + apply andb_false_iff in Hrest as [Hr1|Hr1].
            * left. apply Hred. now apply negb_false_iff in Hr1.
            * right. apply Nat.eqb_neq in Hr1. lia.
        - exact Hpr. }
      split.
      * intros HS. destruct (P4 HS) as [S1 R1]. split; [|intros; apply refines_refl].
        intros i fdi ndi Hi Hndi zs Hzs. destruct (Nat.eq_dec i f) as [->|Hne].
        -- rewrite Hf2 in Hi. injection Hi as <-. assert (ndi = nd) by congruence. subst ndi. cbn [set_expr f_expr].
           rewrite <- (HS f fd nd Ef Hnd zs Hzs). apply R1. rewrite (HS f fd nd Ef Hnd zs Hzs). eapply Fd_nofault; eauto.
        -- rewrite Hne2 in Hi by assumption. eapply S1; eauto.
      * intros HD. destruct (P5 HD) as [S1 R1]. split; [|auto].
        intros i fdi ndi Hi Hndi. destruct (Nat.eq_dec i f) as [->|Hne].
        -- rewrite Hf2 in Hi. injection Hi as <-. cbn. assert (ndi = nd) by congruence. subst ndi. apply R1. eapply HD; eauto.
        -- rewrite Hne2 in Hi by assumption. eapply S1; eauto.
  (* buffer *)
  - exists (EBuf n idx), E; split; [reflexivity|]; split; [cbn; auto|]; split; [apply post_nil; auto|auto].
Qed.

End Fuse.
