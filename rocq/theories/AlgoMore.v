(* More facts about conversion: buffers read by kernels belong to the expression, and a reshape to ()
   is the only thing that makes conversion fail. *)
From Verif Require Import Base BaseFacts Util UtilFacts Lang Spec Graph Api Denote SpecFacts DenoteFacts Reach
  Algo AlgoSem AlgoConv AlgoConv2 AlgoFuse AlgoFuse2 AlgoConvert AlgoConvert2 KernelRun AlgoTop LangInst ApiFacts.

Lemma obind_Done {A B} (x : outcome A) (f : A -> outcome B) y : obind x f = Done y -> exists v, x = Done v /\ f v = Done y.
Proof. destruct x; cbn; intros; [eauto|discriminate]. Qed.
Ltac bd H := let v := fresh "v" in let H1 := fresh "D" in apply obind_Done in H as (v & H1 & H).

Section Bufs.
Context (P : nat -> Prop).
(* every buffer mentioned anywhere satisfies P *)
Fixpoint okP (e : expr) : Prop :=
  let many := fix many (l : list expr) : Prop := match l with [] => True | x :: r => okP x /\ many r end in
  match e with
  | EIdx _ | EConst _ => True
  | EBin _ x y => okP x /\ okP y
  | EUn _ x => okP x
  | EWhere c t f => okP c /\ okP t /\ okP f
  | ESum x _ => okP x
  | EFunc _ idx => many idx
  | EBuf n idx => P n /\ many idx
  end.
Definition okPs := fix many (l : list expr) : Prop := match l with [] => True | x :: r => okP x /\ many r end.
Lemma okPs_Forall l : okPs l <-> Forall okP l.
Proof. induction l; cbn; split; intros H; auto; [constructor; tauto|]. inversion H; subst; tauto. Qed.
Definition envP (E : fenv) : Prop := forall f fd, E f = Some fd -> okP (f_expr fd).

Lemma okP_refs e n : okP e -> In n (buf_refs e) -> P n.
Proof.
  induction e using expr_ind'; cbn; try tauto; intros Ho Hi.
  - apply in_app_iff in Hi. intuition.
  - rewrite !in_app_iff in Hi. intuition.
  - destruct Hi as [<-|[]]. tauto.
Qed.
Lemma ix_okP Q e : is_ix Q e -> okP e.
Proof. induction e using expr_ind'; cbn; try tauto. Qed.
Lemma wfe_okP shp ic lim Q e : wfe shp ic lim Q e -> (forall n, In n (buf_refs e) -> P n) -> okP e.
Proof.
  induction e using expr_ind'; cbn [wfe okP buf_refs]; try tauto; intros HW Hb.
  - split; [apply IHe1|apply IHe2]; try tauto; intros; apply Hb, in_or_app; auto.
  - split; [|split]; [eapply ix_okP; apply HW|apply IHe2|apply IHe3]; try tauto; intros; apply Hb; rewrite !in_app_iff; auto.
  - apply okPs_Forall. eapply (@Forall_impl _ (is_ix Q)); [|apply HW]. intros x Hx. eapply ix_okP; eauto.
  - split; [apply Hb; now left|]. apply okPs_Forall. eapply (@Forall_impl _ (is_ix Q)); [|apply HW]. intros x Hx. eapply ix_okP; eauto.
Qed.
Lemma wff_okP shp ic lim loops e : wff shp ic lim loops e -> (forall n, In n (buf_refs e) -> P n) -> okP e.
Proof.
  intros HW Hb. destruct e; try (apply (wfe_okP _ _ _ _ _ HW Hb)). destruct HW as [HW _]. cbn. apply (wfe_okP _ _ _ _ _ HW Hb).
Qed.

Lemma ilookup_okP r l e : Forall okP (map snd r) -> ilookup r l = Some e -> okP e.
Proof.
  induction r as [|[k x] r IH]; cbn; [discriminate|]. intros HF. inversion HF; subst. destruct (lidx_eqb k l); [|auto]. intros H. now injection H as <-.
Qed.
Lemma replace_okP r e : Forall okP (map snd r) -> forall e', okP e -> replace_index r e = Done e' -> okP e'.
Proof.
  intros HR. induction e using expr_ind'; intros e' Ho He; cbn [replace_index okP] in *.
  - destruct (ilookup r l) eqn:El; [|discriminate]. injection He as <-. eapply ilookup_okP; eauto.
  - now injection He as <-.
  - bd He. bd He. injection He as <-. cbn. split; [apply IHe1|apply IHe2]; tauto.
  - bd He. injection He as <-. cbn. auto.
  - bd He. bd He. bd He. injection He as <-. cbn. split; [|split]; [apply IHe1|apply IHe2|apply IHe3]; tauto.
  - bd He. injection He as <-. cbn. auto.
  - bd He. injection He as <-. cbn. apply okPs_Forall. apply okPs_Forall in Ho. revert v D. induction H as [|x l Hx _ IH]; intros v D.
    + injection D as <-. constructor.
    + inversion Ho; subst. bd D. bd D. injection D as <-. constructor; eauto.
  - bd He. injection He as <-. cbn. destruct Ho as [Hn Ho]. split; auto. apply okPs_Forall. apply okPs_Forall in Ho. revert v D. induction H as [|x l Hx _ IH]; intros v D.
    + injection D as <-. constructor.
    + inversion Ho; subst. bd D. bd D. injection D as <-. constructor; eauto.
Qed.
Lemma combine_snd_Forall {A} (ls : list A) es : Forall okP es -> Forall okP (map snd (combine ls es)).
Proof. intros H. revert ls. induction H as [|x l Hx _ IH]; intros [|k ls]; cbn; auto. Qed.

Lemma fset_envP E f fd : envP E -> okP (f_expr fd) -> envP (fset E f fd).
Proof. intros HE Ho k kd. unfold fset. destruct (Nat.eqb k f); [intros H; now injection H as <-|apply HE]. Qed.

Lemma try_fuse_okP fuel rc : forall e E e' E', try_fuse fuel rc e E = Done (e', E') -> okP e -> envP E -> okP e' /\ envP E'.
Proof.
  induction fuel as [|k IHk].
  all: induction e using expr_ind'; intros E e' E' HT Ho HE; cbn [try_fuse] in HT.
  all: try (injection HT as <- <-; auto; fail); try discriminate.
  all: try (bd HT; destruct v as [x' E1]; cbn in Ho;
     first [ bd HT; destruct v as [y' E2]; first [bd HT; destruct v as [z' E3]; injection HT as <- <-;
               destruct (IHe1 _ _ _ D ltac:(tauto) HE) as [? ?]; destruct (IHe2 _ _ _ D0 ltac:(tauto) ltac:(tauto)) as [? ?];
               destruct (IHe3 _ _ _ D1 ltac:(tauto) ltac:(tauto)) as [? ?]; cbn; tauto
             | injection HT as <- <-; destruct (IHe1 _ _ _ D ltac:(tauto) HE) as [? ?]; destruct (IHe2 _ _ _ D0 ltac:(tauto) ltac:(tauto)) as [? ?]; cbn; tauto]
           | injection HT as <- <-; destruct (IHe _ _ _ D ltac:(tauto) HE) as [? ?]; cbn; tauto]; fail).
  bd HT. destruct (E f) as [fd|] eqn:Ef; [|discriminate]. injection D as <-.
  destruct (Nat.eqb (rc f) 0); [discriminate|].
  destruct (negb (fusable rc f (f_expr fd))).
  - bd HT. destruct v as [e1 E1]. injection HT as <- <-. destruct (IHk _ _ _ _ D (HE _ _ Ef) HE) as [H1 H2]. split; auto. apply fset_envP; auto.
  - bd HT. apply (IHk _ _ _ _ HT); auto. eapply replace_okP; [|apply (HE _ _ Ef)|exact D]. apply combine_snd_Forall, okPs_Forall. exact Ho.
Qed.
End Bufs.

Lemma conv_expr_bufs g a nd e : conv_expr g a nd = Done e -> forall n, In n (buf_refs e) -> n = a.
Proof.
  unfold conv_expr. destruct (n_op nd); intros H n Hn.
  all: try (injection H as <-; cbn in Hn; intuition; fail).
  all: try (repeat (bd H); try (unfold conv_sum, conv_pad, conv_dilate in H; repeat (bd H)); injection H as <-; cbn in Hn; tauto).
Qed.

Section Convert.
Context (L : lang) (HL : lang_ok L) (g : graph) (Hw : wf_graph g) (root : nat) (Hroot : (root < length g)%nat).

Lemma conv_scalar_reshape a nd : nth_error g a = Some nd -> n_op nd = OReshape [] -> conv_expr g a nd = Throw TypeErr.
Proof using Hw.
  intros Hn Hop. pose proof (Hw _ _ Hn) as HW. unfold wf_node in HW. rewrite Hop in HW. destruct HW as (i & x & H1 & H2 & H3 & H4 & H5).
  unfold conv_expr. rewrite Hop, H1. cbn [throw_none obind]. unfold get. rewrite H3. cbn [obind].
  assert (Hs : n_shape nd = []). { cbn in H4. now injection H4 as <-. }
  rewrite Hs. reflexivity.
Qed.
(* arrays already converted have all their inputs converted and are not reshapes to () *)
Definition KE (E : fenv) : Prop := forall n fd, E n = Some fd -> forall nd, nth_error g n = Some nd ->
  n_op nd <> OReshape [] /\ forall i, In i (n_in nd) -> E i <> None.
Lemma arr_to_func_cases fuel : forall a E, (a < fuel)%nat -> (a < length g)%nat -> KE E ->
  match arr_to_func fuel g a E with
  | Done E' => KE E' /\ (forall n, E n <> None -> E' n <> None) /\ E' a <> None
  | Throw e => e = TypeErr
  end.
Proof using HL Hw.
  clear Hroot. induction fuel as [|k IH]; intros a E Hf Hv HE; [lia|]. cbn [arr_to_func].
  destruct (E a) as [fd|] eqn:Ea; [split; auto; split; auto; congruence|].
  destruct (nth_error g a) as [nd|] eqn:Hnd; [|apply nth_error_None in Hnd; lia].
  unfold get. rewrite Hnd. cbn [obind].
  assert (Hlt : forall i, In i (n_in nd) -> (i < a)%nat).
  { intros i Hi. pose proof (wf_inputs_lt g a nd Hw Hnd) as H. rewrite Forall_forall in H. auto. }
  assert (HF : match fold_out (fun i => arr_to_func k g i) (n_in nd) E with
     | Done E' => KE E' /\ (forall n, E n <> None -> E' n <> None) /\ forall i, In i (n_in nd) -> E' i <> None
     | Throw e => e = TypeErr end).
  { clear Ea. revert E HE. induction (n_in nd) as [|i l IHl]; intros E HE; cbn [fold_out]; [split; [exact HE|split; [tauto|cbn; tauto]]|].
    assert (Hi : (i < a)%nat) by (apply Hlt; now left).
    pose proof (IH i E ltac:(lia) ltac:(lia) HE) as H1. destruct (arr_to_func k g i E) as [E1|e]; cbn [obind]; [|exact H1].
    destruct H1 as (K1 & M1 & N1). specialize (IHl ltac:(intros; apply Hlt; now right) E1 K1).
    change ((fix go (l0 : list nat) (s : fenv) {struct l0} : outcome fenv :=
       match l0 with [] => Done s | x :: r => s' <~ arr_to_func k g x s ;; go r s' end) l E1) with (fold_out (fun i => arr_to_func k g i) l E1).
    destruct (fold_out (fun i => arr_to_func k g i) l E1) as [E2|e]; [|exact IHl].
    destruct IHl as (K2 & M2 & N2). split; auto. split; auto. intros j [<-|Hj]; auto. }
  destruct (fold_out (fun i => arr_to_func k g i) (n_in nd) E) as [E1|e]; cbn [obind]; [|exact HF].
  destruct HF as (K1 & M1 & N1).
  assert (HD : n_op nd = OReshape [] \/ n_op nd <> OReshape []) by (destruct (n_op nd) as [| | | |[|? ?]| | | | | |]; auto; right; discriminate).
  destruct HD as [Hop|Hop]; [rewrite (conv_scalar_reshape a nd Hnd Hop); reflexivity|].
  destruct (conv_expr_ok L HL g Hw a nd Hnd Hop) as (e & He & _). rewrite He. cbn [obind].
  assert (HM : forall n x, E1 n <> None -> fset E1 a x n <> None) by (intros n x Hn; unfold fset; destruct (Nat.eqb n a); [discriminate|auto]).
  split; [|split].
  - intros n fd Hfd nd' Hn'. unfold fset in Hfd. destruct (Nat.eqb_spec n a) as [->|Hna].
    + assert (nd' = nd) by congruence. subst nd'. split; auto.
    + destruct (K1 _ _ Hfd nd' Hn') as [? Hin]. split; auto.
  - auto.
  - unfold fset. now rewrite Nat.eqb_refl.
Qed.
Lemma convert_cases : no_scalar_reshape g root \/ convert g root = Throw TypeErr.
Proof using HL Hw Hroot.
  pose proof (arr_to_func_cases (S (length g)) root (fun _ => None) ltac:(lia) Hroot ltac:(intros n fd H; discriminate)) as H.
  destruct (arr_to_func (S (length g)) g root (fun _ => None)) as [E|e] eqn:EA.
  - left. destruct H as (K & _ & HN).
    assert (Hall : forall n, cone g root n -> E n <> None).
    { induction 1 as [|n nd b Hc IH Hn Hb]; auto. destruct (E n) as [fd|] eqn:En; [|congruence]. destruct (K _ _ En nd Hn) as [_ Hin]. auto. }
    intros n nd Hc Hn. specialize (Hall n Hc). destruct (E n) as [fd|] eqn:En; [|congruence]. apply (K _ _ En nd Hn).
  - right. subst e. unfold convert. now rewrite EA.
Qed.

Lemma convert_bufs E fs : no_scalar_reshape g root -> convert g root = Done (E, fs) ->
  forall f fd n, E f = Some fd -> In n (buf_refs (f_expr fd)) -> cone g root n.
Proof using HL Hw Hroot.
  intros Hns HC. unfold convert in HC.
  destruct (arr_to_func_ok L HL g Hw root Hns (S (length g)) root (fun _ => None)) as (E0 & EE & CEE & _ & HEa & _); auto.
  { apply cone_self. } { intros n fd Hn. discriminate. }
  rewrite EE in HC. cbn [obind] in HC. bd HC. bd HC. bd HC. destruct v1 as [e E1]. bd HC. destruct v1 as [x fs']. injection HC as <- <-.
  assert (HP : envP (cone g root) E0).
  { intros f fd Hf. destruct (CEE _ _ Hf) as (Hcone & (nd & e0 & Hnd & Hce & ->) & _). cbn [f_expr].
    destruct (conv_expr_ok L HL g Hw f nd Hnd (Hns f nd Hcone Hnd)) as (e' & He' & W & _). assert (e' = e0) by congruence. subst.
    eapply wff_okP; eauto. intros n Hn. apply (conv_expr_bufs _ _ _ _ Hce) in Hn. now subst. }
  destruct (E0 root) as [fda|] eqn:Ea; [|congruence]. injection D as <-.
  destruct (try_fuse_okP (cone g root) _ _ _ _ _ _ D1 (HP _ _ Ea) HP) as [H1 H2].
  intros f fd n Hf Hn. eapply okP_refs; [|exact Hn]. eapply fset_envP in Hf; [exact Hf|exact H2|]. exact H1.
Qed.
End Convert.

(* conversion succeeded: no reshape to () in the expression *)
Lemma converted_ns g a E fs : reach g -> valid g a -> convert g a = Done (E, fs) -> no_scalar_reshape g a.
Proof.
  intros Hr Ha HC. destruct (convert_cases (py_lang no_libm) (py_lang_ok _) g (reach_wf g Hr) a Ha) as [H|H]; [exact H|congruence].
Qed.
Lemma not_converted g a : reach g -> valid g a -> ~ no_scalar_reshape g a -> convert g a = Throw TypeErr.
Proof. intros Hr Ha HN. destruct (convert_cases (py_lang no_libm) (py_lang_ok _) g (reach_wf g Hr) a Ha) as [H|H]; [contradiction|exact H]. Qed.
