(* The names declared by a generated kernel are pairwise distinct. *)
From Coq Require Import Permutation String Ascii.
From Verif Require Import Base BaseFacts Util UtilFacts Lang Spec Graph Algo AlgoSem AlgoConv Kernel Sched Codegen Backends KernelRun SchedFacts SchedUser SchedUser2 SchedUser3 SchedReach
  Text TextPrint TextParse TextName TextExpr TextStmt.
Open Scope list_scope.

(* ------------------------------------------------------------------ what a kernel declares *)
(* the names a kernel declares: loop variables, GPU coordinates, split variables, accumulator, temporaries *)
Fixpoint binders (c : code) : list name :=
  match c with
  | CNil | CRet => []
  | CDecl _ n _ k => n :: binders k
  | CAssign _ _ k | CStore _ _ _ k => binders k
  | CFor n _ _ body k => n :: binders body ++ binders k
  | CIf _ t f k => binders t ++ binders f ++ binders k
  | CGpu n _ _ k => n :: binders k
  end.
Lemma binders_capp a b : noret a -> binders (capp a b) = binders a ++ binders b.
Proof.
  induction a; cbn [capp binders noret]; intros H; auto; try (now rewrite IHa); try (now rewrite IHa by tauto).
  - rewrite IHa2 by tauto. now rewrite <- app_comm_cons, <- app_assoc.
  - rewrite IHa3 by tauto. now rewrite <- !app_assoc.
  - contradiction.
Qed.

(* ------------------------------------------------------------------ expressions *)
Fixpoint sumfree (e : expr) : Prop :=
  match e with
  | EIdx _ | EConst _ => True
  | EBin _ x y => sumfree x /\ sumfree y
  | EUn _ x => sumfree x
  | EWhere c t f => sumfree c /\ sumfree t /\ sumfree f
  | ESum _ _ => False
  | EFunc _ idx | EBuf _ idx => (fix all l := match l with [] => True | x :: r => sumfree x /\ all r end) idx
  end.
Lemma all_sumfree l : (fix all l := match l with [] => True | x :: r => sumfree x /\ all r end) l <-> Forall sumfree l.
Proof. induction l as [|x l IH]; split; intros H; auto; [destruct H; constructor; tauto|inversion H; subst; tauto]. Qed.
Lemma is_ix_sumfree P e : is_ix P e -> sumfree e.
Proof. induction e using expr_ind'; cbn; tauto. Qed.
Lemma wfe_sumfree shp ic lim P e : wfe shp ic lim P e -> sumfree e.
Proof.
  induction e using expr_ind'; cbn; try tauto.
  - intros (H1 & H2 & H3). repeat split; auto. eapply is_ix_sumfree; eauto.
  - intros (_ & _ & H2). apply all_sumfree. eapply Forall_impl; [|exact H2]. intros x. apply is_ix_sumfree.
  - intros (_ & _ & H2). apply all_sumfree. eapply Forall_impl; [|exact H2]. intros x. apply is_ix_sumfree.
Qed.

Definition tmps (k k1 : nat) (l : list name) : Prop := (k <= k1)%nat /\ NoDup l /\ forall n, In n l -> exists j, n = NTmp j /\ (k <= j < k1)%nat.
Lemma tmps_nil k : tmps k k [].
Proof. split; [lia|]. split; [constructor|]. intros n []. Qed.
Lemma tmps_app k k1 k2 a b : tmps k k1 a -> tmps k1 k2 b -> tmps k k2 (a ++ b).
Proof.
  intros (H1 & H2 & H3) (G1 & G2 & G3). split; [lia|]. split.
  - apply NoDup_app2; auto. intros n Ha Hb. destruct (H3 n Ha) as (j & -> & Hj). destruct (G3 _ Hb) as (j' & E & Hj'). injection E as ->. lia.
  - intros n H. apply in_app_or in H as [H|H]; [destruct (H3 n H) as (j & -> & Hj)|destruct (G3 n H) as (j & -> & Hj)]; exists j; split; auto; lia.
Qed.
Lemma tmps_one k : tmps k (S k) [NTmp k].
Proof. split; [lia|]. split; [constructor; [intros []|constructor]|]. intros n [<-|[]]. exists k. split; [reflexivity|lia]. Qed.

Section Render.
Context (g : graph) (E : fenv) (args : list arg).
Lemma render_tmps e : forall dt k c v k1, sumfree e -> render g E args e dt k = Done (c, v, k1) -> tmps k k1 (binders c).
Proof.
  assert (HM : forall l, Forall (fun e => forall dt k c v k1, sumfree e -> render g E args e dt k = Done (c, v, k1) -> tmps k k1 (binders c)) l ->
    forall k c vs k1, Forall sumfree l -> many_r g E args l k = Done (c, vs, k1) -> tmps k k1 (binders c)).
  { induction l as [|x l IH]; intros HF k c vs k1 HS HR; cbn [many_r] in HR; [injection HR as <- <- <-; apply tmps_nil|].
    destruct (render g E args x Int64 k) as [[[cx vx] kx]|] eqn:Ex; [|discriminate]. cbn [obind] in HR.
    destruct (many_r g E args l kx) as [[[cl vl] kl]|] eqn:El; [|discriminate]. cbn [obind] in HR. injection HR as <- <- <-.
    rewrite binders_capp by (eapply render_noret; eauto). inversion HF; inversion HS; subst. eapply tmps_app; eauto. }
  induction e using expr_ind'; intros dt k c v k1 HS HR; cbn [render] in HR.
  - injection HR as <- <- <-. apply tmps_nil.
  - injection HR as <- <- <-. apply tmps_nil.
  - destruct HS as [S1 S2]. destruct (render g E args e1 dt k) as [[[c1 v1] ka]|] eqn:E1; [|discriminate]. cbn [obind] in HR.
    destruct (render g E args e2 dt ka) as [[[c2 v2] kb]|] eqn:E2; [|discriminate]. cbn [obind] in HR. injection HR as <- <- <-.
    rewrite !binders_capp by (eapply render_noret; eauto). cbn [binders]. eapply tmps_app; [eauto|]. eapply tmps_app; [eauto|apply tmps_one].
  - destruct (render g E args e dt k) as [[[c1 v1] ka]|] eqn:E1; [|discriminate]. cbn [obind] in HR. injection HR as <- <- <-.
    rewrite !binders_capp by (eapply render_noret; eauto). cbn [binders]. eapply tmps_app; [eauto|apply tmps_one].
  - destruct HS as (S1 & S2 & S3). destruct (render g E args e1 Int64 (S k)) as [[[c1 v1] ka]|] eqn:E1; [|discriminate]. cbn [obind] in HR.
    destruct (render g E args e2 dt ka) as [[[c2 v2] kb]|] eqn:E2; [|discriminate]. cbn [obind] in HR.
    destruct (render g E args e3 dt kb) as [[[c3 v3] kc]|] eqn:E3; [|discriminate]. cbn [obind] in HR. injection HR as <- <- <-.
    cbn [binders]. rewrite binders_capp by (eapply render_noret; eauto). cbn [binders]. rewrite !binders_capp by (eapply render_noret; eauto). cbn [binders]. rewrite !app_nil_r.
    change (NTmp k :: binders c1 ++ binders c2 ++ binders c3) with ([NTmp k] ++ (binders c1 ++ binders c2 ++ binders c3)).
    eapply tmps_app; [apply tmps_one|]. eapply tmps_app; [eauto|]. eapply tmps_app; eauto.
  - contradiction.
  - apply all_sumfree in HS. destruct (arg_name args (AFnc f)); [|discriminate]. cbn [obind] in HR. destruct (throw_none InternalErr (E f)); [|discriminate]. cbn [obind] in HR.
    change (('(c0, vs, k2) <~ many_r g E args idx k;; Done (c0, KIdx a (arr_idx_calc (f_shape a0) vs), k2)) = Done (c, v, k1)) in HR.
    destruct (many_r g E args idx k) as [[[cl vl] kl]|] eqn:El; [|discriminate]. cbn [obind] in HR. injection HR as <- <- <-. eapply HM; eauto.
  - apply all_sumfree in HS. destruct (arg_name args (ABuf n)); [|discriminate]. cbn [obind] in HR. destruct (get g n); [|discriminate]. cbn [obind] in HR.
    change (('(c0, vs, k2) <~ many_r g E args idx k;; Done (c0, KIdx a (buf_idx_calc (n_offset a0) (n_strides a0) vs), k2)) = Done (c, v, k1)) in HR.
    destruct (many_r g E args idx k) as [[[cl vl] kl]|] eqn:El; [|discriminate]. cbn [obind] in HR. injection HR as <- <- <-. eapply HM; eauto.
Qed.
(* temporaries, the accumulator and reduction variables *)
Definition inner_name (n : name) : Prop := match n with NTmp _ | NAcc => True | NLoop true _ _ => True | _ => False end.
Lemma nest_binders inner red : binders (fold_right (fun l body => CFor (lname l) (l_ext l) XSeq body CNil) inner red) = map lname red ++ binders inner.
Proof. induction red as [|l red IH]; cbn [fold_right binders map app]; auto. now rewrite IH, app_nil_r. Qed.
Lemma lname_NoDup red : NoDup (map l_pos red) -> NoDup (map lname red).
Proof.
  induction red as [|l red IH]; cbn; intros H; [constructor|]. apply NoDup_cons_iff in H as [H1 H2]. constructor; auto.
  intros Hi. apply H1. apply in_map_iff in Hi as (l' & E1 & Hl). unfold lname in E1. injection E1 as _ E2. rewrite <- E2. now apply in_map.
Qed.
Lemma body_binders shp ic a loops e dt k c v k1 : wff shp ic a loops e -> render g E args e dt k = Done (c, v, k1) ->
  NoDup (binders c) /\ Forall inner_name (binders c).
Proof.
  intros HW HR.
  assert (HT : forall c, tmps k k1 (binders c) -> NoDup (binders c) /\ Forall inner_name (binders c)).
  { intros c' (H1 & H2 & H3). split; auto. apply Forall_forall. intros n Hn. destruct (H3 n Hn) as (j & -> & _). exact I. }
  destruct e; cbn [wff] in HW; try (apply HT; eapply render_tmps; [eapply wfe_sumfree; exact HW|exact HR]).
  destruct HW as (HW & HP & HF). cbn [render] in HR. destruct (render g E args e dt k) as [[[cx vx] kx]|] eqn:Ex; [|discriminate]. cbn [obind] in HR. injection HR as <- <- <-.
  assert (HB : tmps k kx (binders cx)) by (eapply render_tmps; [eapply wfe_sumfree; exact HW|exact Ex]). destruct HB as (_ & H2 & H3).
  cbn [binders]. rewrite nest_binders, binders_capp by (eapply render_noret; eauto). cbn [binders]. rewrite app_nil_r.
  assert (HR : forall n, In n (map lname reduced) -> exists p, n = NLoop true p []).
  { intros n Hn. apply in_map_iff in Hn as (l & <- & Hl). rewrite Forall_forall in HF. destruct (HF l Hl) as (_ & Hr & _). unfold lname. rewrite Hr. eauto. }
  split.
  - constructor.
    + intros Hi. apply in_app_or in Hi as [Hi|Hi]; [destruct (HR _ Hi) as (p & Ep); discriminate|destruct (H3 _ Hi) as (j & Ej & _); discriminate].
    + apply NoDup_app2; auto; [now apply lname_NoDup|]. intros n Ha Hb. destruct (HR _ Ha) as (p & ->). destruct (H3 _ Hb) as (j & Ej & _). discriminate.
  - constructor; [exact I|]. apply Forall_app. split; apply Forall_forall; intros n Hn; [destruct (HR n Hn) as (p & ->)|destruct (H3 n Hn) as (j & -> & _)]; exact I.
Qed.
(* parameters *)
Definition param_name (n : name) : Prop := match n with NOut | NArg _ _ => True | _ => False end.
Lemma params_names_ok l : forall i ps, arg_params g E l i = Done ps -> NoDup (map fst ps) /\ forall n, In n (map fst ps) -> exists bf j, n = NArg bf j /\ (i <= j)%nat.
Proof.
  induction l as [|a l IH]; intros i ps H; cbn [arg_params] in H; [injection H as <-; split; [constructor|intros n []]|].
  destruct (arg_dtype g E a) as [dt|]; [|discriminate]. cbn [obind] in H. destruct (arg_params g E l (S i)) as [ps'|] eqn:Ep; [|discriminate]. cbn [obind] in H. injection H as <-.
  destruct (IH _ _ Ep) as [H1 H2]. cbn [map fst]. split.
  - constructor; auto. intros Hi. destruct (H2 _ Hi) as (bf & j & Ej & Hj). injection Ej as _ <-. lia.
  - intros n [<-|Hn]; [eexists _, _; split; [reflexivity|lia]|]. destruct (H2 _ Hn) as (bf & j & -> & Hj). eexists _, _. split; [reflexivity|lia].
Qed.
End Render.

(* ------------------------------------------------------------------ schedules *)
Definition out_name (n : name) : Prop := match n with NLoop false _ _ => True | _ => False end.
Lemma splits_binders sps : binders (render_splits sps) = map (fun sp => lv_name (sp_orig sp)) sps.
Proof. induction sps as [|sp sps IH]; cbn; auto. now rewrite IH. Qed.
Lemma guards_binders sps : binders (render_guards sps) = [].
Proof. induction sps as [|sp sps IH]; cbn; auto. destruct (sp_guard sp); cbn; auto. Qed.
Lemma loops_binders loops inner : binders (render_loops loops inner) = names (filter is_spatial loops) ++ binders inner.
Proof.
  induction loops as [|l loops IH]; cbn [render_loops]; auto. cbn [filter]. destruct (is_spatial l); auto.
  destruct (ls_exec l); cbn [binders names map app]; unfold names in IH; rewrite IH, ?app_nil_r; reflexivity.
Qed.

(* calls of split on a spatial loop, reorder of distinct loops of one kind, and any annotation *)
Inductive kreach : schedule -> schedule -> Prop :=
| kr_refl s : kreach s s
| kr_split s0 s lv f s1 o i : kreach s0 s -> In lv (spatial_loops s) -> split s lv f = Done (s1, o, i) -> kreach s0 s1
| kr_reorder s0 s lvs s1 : kreach s0 s -> NoDup (map lv_name lvs) -> (forall lv, In lv lvs -> In lv (lvs_of is_spatial s)) \/ (forall lv, In lv lvs -> In lv (lvs_of is_reduce s)) ->
    reorder s lvs = Done s1 -> kreach s0 s1
| kr_exec s0 s lv x s1 : kreach s0 s -> set_exec s lv x = Done s1 -> kreach s0 s1.
Lemma lvs_of_in p s lv : In lv (lvs_of p s) -> In lv (map ls_lv (s_loops s)).
Proof. intros H. unfold lvs_of in H. apply in_map_iff in H as (l & <- & Hl). apply filter_In in Hl as [Hl _]. now apply in_map. Qed.
Record binv (s : schedule) : Prop := {
  bv_inv : sinv s;
  bv_kind : Forall (fun l => is_spatial l = true -> out_name (lv_name (ls_lv l))) (s_loops s);
  bv_orig : NoDup (map (fun sp => lv_name (sp_orig sp)) (s_splits s));
  bv_out : Forall (fun sp => out_name (lv_name (sp_orig sp))) (s_splits s);
  bv_new : forall n sp, In n (names (s_loops s)) -> In sp (s_splits s) -> ~ ext_of n (lv_name (sp_orig sp))
}.
Lemma refill_at mem : forall l q k x, nth_error (refill mem l q) k = Some x -> nth_error l k = Some x \/ exists y, nth_error l k = Some y /\ mem y = true /\ In x q.
Proof.
  induction l as [|y l IH]; intros q k x H; cbn [refill] in H; [destruct k; discriminate|]. destruct (mem y) eqn:Em; [destruct q as [|z q]|].
  - destruct k as [|k]; cbn in H |- *; auto. apply (IH [] k x H).
  - destruct k as [|k]; cbn in H |- *.
    + injection H as ->. right. exists y. repeat split; auto.
    + apply IH in H as [H|(y' & H1 & H2 & H3)]; [left; exact H|]. right. exists y'. repeat split; auto.
  - destruct k as [|k]; cbn in H |- *; auto.
Qed.
Lemma spatial_kind a b : ls_kind a = ls_kind b -> is_spatial a = is_spatial b.
Proof. unfold is_spatial. now intros ->. Qed.
Lemma kreach_binv s0 s : kreach s0 s -> binv s0 -> binv s.
Proof.
  induction 1 as [s|s0 s lv f s1 o i H IH Hin HS|s0 s lvs s1 H IH HN Hin HR|s0 s lv x s1 H IH HX]; intros HI; auto; specialize (IH HI); destruct IH as [I1 I2 I3 I4 I5].
  - assert (Hin' : In lv (map ls_lv (s_loops s))) by (eapply (lvs_of_in is_spatial); exact Hin).
    destruct (sinv_split _ _ _ _ _ _ I1 Hin' HS) as (J1 & l1 & l & l2 & E1 & E2 & E3 & Eo & Ei & E4).
    assert (Hlv : out_name (lv_name lv)).
    { unfold spatial_loops in Hin. apply in_map_iff in Hin as (l' & <- & Hl'). apply filter_In in Hl' as [A B]. rewrite Forall_forall in I2. auto. }
    assert (Hln : In (lv_name lv) (names (s_loops s))) by (unfold names; rewrite E1, map_app; cbn; rewrite E2; apply in_or_app; right; now left).
    constructor; auto.
    + rewrite E3. rewrite E1 in I2. apply Forall_app in I2 as [I2 I2']. apply Forall_app. split; auto. apply Forall_inv_tail in I2'.
      constructor; [|constructor; auto]; intros _; cbn [ls_lv]; subst o i; cbn [lv_name]; destruct (lv_name lv); auto.
    + rewrite E4, map_app. cbn [map sp_orig]. apply NoDup_app2; auto; [constructor; [intros []|constructor]|]. intros n Hn [<-|[]]. apply in_map_iff in Hn as (sp' & En & Hn).
      apply (I5 _ _ Hln Hn). rewrite En. apply ext_refl.
    + rewrite E4. apply Forall_app. split; auto.
    + intros n sp' Hn Hsp. rewrite E4 in Hsp. unfold names in Hn. rewrite E3, map_app in Hn. cbn [map ls_lv] in Hn.
      assert (Hcase : n = lv_name o \/ n = lv_name i \/ In n (names l1 ++ names l2)).
      { apply in_app_or in Hn as [Hn|[<-|[<-|Hn]]]; auto; right; right; apply in_or_app; auto. }
      assert (HL : is_loop (lv_name lv)) by (destruct (lv_name lv); cbn in *; auto).
      assert (Hsx : forall b, ~ ext_of (suffix b (lv_name lv)) (lv_name lv)).
      { intros b. destruct (lv_name lv); cbn; auto. intros (_ & _ & z & Ez). apply (f_equal (@length bool)) in Ez. rewrite !app_length in Ez. cbn in Ez. lia. }
      apply in_app_or in Hsp as [Hsp|[<-|[]]].
      * assert (HO : is_loop (lv_name (sp_orig sp'))) by (rewrite Forall_forall in I4; specialize (I4 _ Hsp); destruct (lv_name (sp_orig sp')); cbn in *; auto).
        destruct Hcase as [->|[->|Hn']].
        -- subst o. cbn [lv_name]. intros Hx. apply suffix_ext_l in Hx; auto. exact (I5 _ _ Hln Hsp Hx).
        -- subst i. cbn [lv_name]. intros Hx. apply suffix_ext_l in Hx; auto. exact (I5 _ _ Hln Hsp Hx).
        -- apply I5; auto. unfold names. rewrite E1, map_app. cbn [map]. apply in_app_or in Hn' as [Hn'|Hn']; apply in_or_app; [left|right; right]; exact Hn'.
      * cbn [sp_orig]. destruct Hcase as [->|[->|Hn']]; [subst o; apply Hsx|subst i; apply Hsx|].
        destruct I1 as [IA _]. unfold names in IA. rewrite E1, map_app in IA. cbn [map] in IA. rewrite E2 in IA. apply apart_app in IA as (_ & (A2 & _) & A4).
        apply in_app_or in Hn' as [Hn'|Hn'].
        -- apply (A4 n (lv_name lv)); [exact Hn'|now left].
        -- rewrite Forall_forall in A2. apply (A2 n). exact Hn'.
  - assert (Hall : forall lv, In lv lvs -> In lv (map ls_lv (s_loops s))) by (destruct Hin as [Hin|Hin]; intros; eapply lvs_of_in; eauto).
    destruct (reorder_ok s lvs (apart_NoDup _ (proj1 I1)) HN Hall) as (s' & Er & Hsp & Hk & Hx & Hlv & HP). rewrite HR in Er. injection Er as <-.
    assert (HS : sreach s s1) by (eapply sr_reorder; [apply sr_refl|exact HN|exact Hall|exact HR]).
    assert (HPn : Permutation (names (s_loops s)) (names (s_loops s1))) by (rewrite !names_lv; now apply Permutation_map).
    constructor; try (rewrite Hsp; assumption).
    + eapply sreach_inv; eauto.
    + apply Forall_forall. intros l Hl Hs. apply In_nth_error in Hl as [k Hk']. 
      assert (Hkk : nth_error (map ls_kind (s_loops s)) k = Some (ls_kind l)) by (rewrite <- Hk; now apply map_nth_error).
      rewrite nth_error_map in Hkk. destruct (nth_error (s_loops s) k) as [l0|] eqn:E0; [|discriminate]. injection Hkk as Hkk.
      assert (Hv : nth_error (map ls_lv (s_loops s1)) k = Some (ls_lv l)) by now apply map_nth_error. rewrite Hlv in Hv.
      rewrite (spatial_kind _ _ (eq_sym Hkk)) in Hs. rewrite Forall_forall in I2.
      apply refill_at in Hv as [Hv|(y & Hy & Hm & Hq)].
      * rewrite nth_error_map, E0 in Hv. injection Hv as <-. apply I2; auto. eapply nth_error_In; eauto.
      * rewrite nth_error_map, E0 in Hy. injection Hy as <-. apply memb_spec in Hm. apply in_rev in Hq.
        apply in_map_iff in Hm as (lv' & Ev & Hlv'). destruct Hin as [Hin|Hin].
        -- specialize (Hin _ Hq). unfold lvs_of in Hin. apply in_map_iff in Hin as (l3 & <- & Hl3). apply filter_In in Hl3 as [Hl3 Hs3]. auto.
        -- exfalso. specialize (Hin _ Hlv'). unfold lvs_of in Hin. apply in_map_iff in Hin as (l3 & <- & Hl3). apply filter_In in Hl3 as [Hl3 Hs3].
           assert (l3 = l0) by (eapply names_inj; eauto; [apply apart_NoDup, I1|eapply nth_error_In; eauto]). subst l3. unfold is_reduce in Hs3. now rewrite Hs in Hs3.
    + intros n sp' Hn Hs'. rewrite Hsp in Hs'. apply I5; auto. eapply Permutation_in; [symmetry; exact HPn|exact Hn].
  - destruct (set_exec_ok s lv x) as (s' & Ex & H1 & H2 & _).
    { unfold set_exec in HX. destruct (index_of (lv_name lv) (s_loops s)) as [j|] eqn:Ej; [|discriminate]. destruct (index_of_spec _ _ _ Ej) as (y & Hy & En).
      apply in_map_iff. exists y. split; auto. eapply nth_error_In; eauto. }
    rewrite HX in Ex. injection Ex as <-. constructor; try (rewrite H2; assumption).
    + unfold sinv, names in *. now rewrite (lvk_names _ _ H1).
    + clear - H1 I2. revert H1 I2. generalize (s_loops s) as a. induction (s_loops s1) as [|l b IH]; intros [|l0 a] H HF; cbn in H; try discriminate; constructor.
      * apply Forall_inv in HF. unfold lvk in H. injection H as Hl Hk _. rewrite Hl. rewrite (spatial_kind _ _ Hk). exact HF.
      * apply Forall_inv_tail in HF. apply (IH a); auto. now injection H.
    + intros n sp' Hn Hs'. rewrite H2 in Hs'. apply I5; auto. unfold names in *. now rewrite (lvk_names _ _ H1) in Hn.
Qed.
Lemma NoDup_names_filter (p : loopsched -> bool) l : NoDup (names l) -> NoDup (names (filter p l)).
Proof.
  induction l as [|x l IH]; cbn; intros H; auto. apply NoDup_cons_iff in H as [H1 H2]. destruct (p x); cbn; auto. constructor; auto.
  intros Hi. apply H1. apply in_map_iff in Hi as (y & <- & Hy). apply filter_In in Hy as [Hy _]. apply in_map_iff. eauto.
Qed.
Lemma init_binv g E f fd nd : kctx g E f fd nd -> binv (sched_init fd).
Proof.
  intros HK. pose proof (ui_names _ _ _ (uinv_init g E f fd nd HK)) as HN.
  assert (HF : Forall (fun n => exists r p, n = NLoop r p []) (names (s_loops (sched_init fd)))).
  { unfold names, sched_init. cbn [s_loops]. rewrite map_app, !map_map. cbn [ls_lv lv_name]. apply Forall_app. split; apply Forall_forall; intros n Hn; apply in_map_iff in Hn as (l & <- & _); unfold lname; eauto. }
  constructor.
  - split; [now apply apart_base|]. eapply Forall_impl; [|exact HF]. intros n (r & p & ->). exact I.
  - pose proof (kc_fd _ _ _ _ _ HK) as Hfd. unfold sched_init. cbn [s_loops]. apply Forall_app. split; apply Forall_forall; intros l Hl; apply in_map_iff in Hl as (x & <- & Hx); cbn; [|discriminate].
    intros _. rewrite Hfd in Hx. cbn [f_loops] in Hx. unfold out_loops in Hx. unfold lname.
    assert (Hr : l_red x = false); [|now rewrite Hr].
    match type of Hx with In _ ?l => assert (HG : Forall (fun y => l_red y = false) l) end; [|rewrite Forall_forall in HG; auto].
    clear. generalize 0%nat as i. induction (n_shape nd) as [|d s IH]; intros i; cbn; constructor; auto.
  - constructor.
  - constructor.
  - intros n sp' _ [].
Qed.

(* ------------------------------------------------------------------ whole kernels *)
Theorem kernel_names g E f fd nd s k kern k1 : kctx g E f fd nd -> kreach (sched_init fd) s ->
  codegen g E (func_args (f_expr fd)) fd s k = Done (kern, k1) -> NoDup (map fst (k_params kern) ++ binders (k_body kern)).
Proof.
  intros HK HS HC. pose proof (kreach_binv _ _ HS (init_binv _ _ _ _ _ HK)) as [I1 I2 I3 I4 I5].
  unfold codegen in HC. destruct (arg_params g E (func_args (f_expr fd)) 0) as [ps|] eqn:Ep; [|discriminate]. cbn [obind] in HC.
  destruct (render g E (func_args (f_expr fd)) (f_expr fd) (f_dtype fd) k) as [[[c v] kx]|] eqn:Er; [|discriminate]. cbn [obind] in HC. injection HC as <- <-.
  destruct (params_names_ok _ _ _ _ _ Ep) as [P1 P2]. destruct (body_binders _ _ _ _ _ _ _ _ _ _ _ _ _ (kc_wff _ _ _ _ _ HK) Er) as [B1 B2].
  cbn [k_params k_body map fst]. rewrite loops_binders, !binders_capp by (first [apply splits_noret|apply guards_noret|eapply render_noret; exact Er]).
  rewrite splits_binders, guards_binders. cbn [binders app]. rewrite app_nil_r.
  assert (HL : Forall out_name (names (filter is_spatial (s_loops s)))).
  { apply Forall_forall. intros n Hn. apply in_map_iff in Hn as (l & <- & Hl). apply filter_In in Hl as [Hl Hs]. rewrite Forall_forall in I2. auto. }
  assert (HO : Forall out_name (map (fun sp => lv_name (sp_orig sp)) (s_splits s))).
  { apply Forall_forall. intros n Hn. apply in_map_iff in Hn as (sp' & <- & Hn). rewrite Forall_forall in I4. auto. }
  assert (HI : NoDup (names (filter is_spatial (s_loops s)) ++ map (fun sp => lv_name (sp_orig sp)) (s_splits s) ++ binders c)).
  { apply NoDup_app2; [apply NoDup_names_filter, apart_NoDup, I1| |].
    - apply NoDup_app2; auto. intros n Ha Hb. rewrite Forall_forall in HO, B2. specialize (HO n Ha). specialize (B2 n Hb). destruct n; cbn in *; try contradiction. destruct red; contradiction.
    - intros n Ha Hb. apply in_app_or in Hb as [Hb|Hb].
      + apply in_map_iff in Ha as (l & El & Hl). apply filter_In in Hl as [Hl _]. apply in_map_iff in Hb as (sp' & Es & Hs).
        apply (I5 n sp'); auto; [unfold names; apply in_map_iff; eauto|]. rewrite Es. apply ext_refl.
      + rewrite Forall_forall in HL, B2. specialize (HL n Ha). specialize (B2 n Hb). destruct n; cbn in *; try contradiction. destruct red; contradiction. }
  assert (HP : forall n, In n (names (filter is_spatial (s_loops s)) ++ map (fun sp => lv_name (sp_orig sp)) (s_splits s) ++ binders c) -> ~ param_name n).
  { intros n Hn. rewrite Forall_forall in HL, HO, B2. apply in_app_or in Hn as [Hn|Hn]; [specialize (HL n Hn); destruct n; cbn in *; auto|].
    apply in_app_or in Hn as [Hn|Hn]; [specialize (HO n Hn); destruct n; cbn in *; auto|specialize (B2 n Hn); destruct n; cbn in *; auto]. }
  constructor.
  - intros Hi. apply in_app_or in Hi as [Hi|Hi]; [destruct (P2 _ Hi) as (? & ? & ? & _); discriminate|]. exact (HP _ Hi I).
  - apply NoDup_app2; auto. intros n Ha Hb. apply (HP n Hb). destruct (P2 _ Ha) as (? & ? & -> & _). exact I.
Qed.
Lemma NoDup_pname l : NoDup l -> NoDup (map pname l).
Proof. induction 1 as [|n l H _ IH]; cbn; constructor; auto. intros Hi. apply in_map_iff in Hi as (m & Em & Hm). apply pname_inj in Em. now subst. Qed.

(* the automatic schedules are made of such calls *)
Lemma obind_done {A B} (m : outcome A) (f : A -> outcome B) r : obind m f = Done r -> exists a, m = Done a /\ f a = Done r.
Proof. destruct m; cbn; intros H; [eauto|discriminate]. Qed.
Lemma auto_kreach gpu fd s : auto_schedule gpu fd = Done s -> kreach (sched_init fd) s.
Proof.
  unfold auto_schedule. generalize (sched_init fd) as s0. intros s0. destruct gpu.
  - unfold schedule_gpu. remember (spatial_loops s0) as sp eqn:Esp. intros H.
    assert (HS : forall lv s1 io ii, In lv sp -> split s0 lv block_size = Done (s1, io, ii) -> kreach s0 s1).
    { intros lv s1 io ii Hin HS. eapply kr_split; [apply kr_refl| |exact HS]. now rewrite <- Esp. }
    destruct sp as [|a [|b [|c [|d sp]]]].
    + injection H as <-. apply kr_refl.
    + apply obind_done in H as ([[s1 io] ii] & H1 & H). apply obind_done in H as (s2 & H2 & H). eapply kr_exec; [|exact H]. eapply kr_exec; [|exact H2]. eapply HS; [|exact H1]. cbn; auto.
    + apply obind_done in H as ([[s1 io] ii] & H1 & H). apply obind_done in H as (s2 & H2 & H). apply obind_done in H as (s3 & H3 & H).
      eapply kr_exec; [|exact H]. eapply kr_exec; [|exact H3]. eapply kr_exec; [|exact H2]. eapply HS; [|exact H1]. cbn; auto.
    + apply obind_done in H as ([[s1 io] ii] & H1 & H). apply obind_done in H as (s2 & H2 & H). apply obind_done in H as (s3 & H3 & H). apply obind_done in H as (s4 & H4 & H).
      eapply kr_exec; [|exact H]. eapply kr_exec; [|exact H4]. eapply kr_exec; [|exact H3]. eapply kr_exec; [|exact H2]. eapply HS; [|exact H1]. cbn; auto.
    + apply obind_done in H as ([[s1 io] ii] & H1 & H). apply obind_done in H as (s2 & H2 & H). eapply kr_exec; [|exact H]. eapply kr_exec; [|exact H2]. eapply HS; [|exact H1].
      destruct (exists_last (l := a :: b :: c :: d :: sp)) as (l' & x & ->); [discriminate|]. rewrite last_last. apply in_or_app. right. now left.
  - unfold schedule_cpu. intros H. apply obind_done in H as (s1 & H1 & H).
    assert (HK : kreach s0 s1) by (destruct (spatial_loops s0); [injection H1 as <-; apply kr_refl|eapply kr_exec; [apply kr_refl|exact H1]]).
    destruct (spatial_loops s0) as [|a [|b sp]]; try (injection H as <-; exact HK). eapply kr_exec; [exact HK|exact H].
Qed.

(* ------------------------------------------------------------------ the declarations seen in the source *)
(* C: names declared by a declaration or by a for statement *)
Fixpoint c_declares (s : stmt) : list string :=
  match s with
  | SDecl _ x _ => [x]
  | SForC _ x _ _ _ _ body => x :: flat_map c_declares body
  | SIf _ t f => flat_map c_declares t ++ flat_map c_declares f
  | _ => []
  end.
(* Python: loop variables, and names bound by assignment *)
Fixpoint py_loops (s : stmt) : list string :=
  match s with
  | SForIn x _ body => x :: flat_map py_loops body
  | SIf _ t f => flat_map py_loops t ++ flat_map py_loops f
  | _ => []
  end.
Fixpoint py_assigns (s : stmt) : list string :=
  match s with
  | SAssign (SVar x) _ => [x]
  | SForIn _ _ body => flat_map py_assigns body
  | SIf _ t f => flat_map py_assigns t ++ flat_map py_assigns f
  | _ => []
  end.
Lemma c_declares_eq b c : is_py b = false -> flat_map c_declares (stmts b c) = map pname (binders c).
Proof.
  intros Hb. induction c; cbn [stmts flat_map binders map]; auto; unfold decl_tree, for_tree; rewrite ?Hb; cbn [c_declares app]; rewrite ?map_app; try (f_equal; auto; fail).
  - f_equal. now rewrite IHc1, IHc2.
  - now rewrite IHc1, IHc2, IHc3, <- app_assoc.
Qed.
Fixpoint forvars (c : code) : list name :=
  match c with
  | CNil | CRet => []
  | CDecl _ _ _ k | CAssign _ _ k | CStore _ _ _ k | CGpu _ _ _ k => forvars k
  | CFor n _ _ body k => n :: forvars body ++ forvars k
  | CIf _ t f k => forvars t ++ forvars f ++ forvars k
  end.
Fixpoint sets (c : code) : list name :=
  match c with
  | CNil | CRet => []
  | CDecl _ n _ k | CAssign n _ k | CGpu n _ _ k => n :: sets k
  | CStore _ _ _ k => sets k
  | CFor n _ _ body k => sets body ++ sets k
  | CIf _ t f k => sets t ++ sets f ++ sets k
  end.
Lemma py_loops_eq c : flat_map py_loops (stmts Python c) = map pname (forvars c).
Proof.
  induction c; cbn [stmts flat_map forvars map decl_tree for_tree is_py py_loops app]; auto; rewrite ?map_app.
  - f_equal. now rewrite IHc1, IHc2.
  - now rewrite IHc1, IHc2, IHc3, <- app_assoc.
Qed.
Lemma py_assigns_eq c : flat_map py_assigns (stmts Python c) = map pname (sets c).
Proof.
  induction c; cbn [stmts flat_map sets map decl_tree for_tree is_py py_assigns app]; auto; rewrite ?map_app; try (f_equal; auto; fail).
  now rewrite IHc1, IHc2, IHc3, <- app_assoc.
Qed.
(* every assigned name is a declared one or a temporary / the accumulator; declared names are not loop variables *)
Fixpoint decls (c : code) : list name :=
  match c with
  | CNil | CRet => []
  | CDecl _ n _ k | CGpu n _ _ k => n :: decls k
  | CAssign _ _ k | CStore _ _ _ k => decls k
  | CFor _ _ _ body k => decls body ++ decls k
  | CIf _ t f k => decls t ++ decls f ++ decls k
  end.
Lemma binders_perm c : Permutation (binders c) (forvars c ++ decls c).
Proof.
  induction c; cbn [binders forvars decls]; auto.
  - now apply Permutation_cons_app.
  - cbn [app]. constructor. rewrite IHc1, IHc2. apply (Permutation_count_occ name_eq_dec). intros ?. rewrite !count_occ_app. lia.
  - rewrite IHc1, IHc2, IHc3. apply (Permutation_count_occ name_eq_dec). intros ?. rewrite !count_occ_app. lia.
  - now apply Permutation_cons_app.
Qed.
Definition scalar_name (n : name) : Prop := match n with NTmp _ | NAcc => True | _ => False end.
(* assignments are to temporaries and the accumulator, loops are over loop variables *)
Fixpoint tidy (c : code) : Prop :=
  match c with
  | CNil | CRet => True
  | CDecl _ _ _ k | CStore _ _ _ k | CGpu _ _ _ k => tidy k
  | CAssign n _ k => scalar_name n /\ tidy k
  | CFor n _ _ body k => is_loop n /\ tidy body /\ tidy k
  | CIf _ t f k => tidy t /\ tidy f /\ tidy k
  end.
Lemma tidy_capp a b : tidy a -> tidy b -> tidy (capp a b).
Proof. induction a; cbn; intuition. Qed.
Lemma tidy_sets c n : tidy c -> In n (sets c) -> In n (decls c) \/ scalar_name n.
Proof. induction c; cbn [tidy sets decls In]; rewrite ?in_app_iff; intuition (subst; auto). Qed.
Lemma tidy_for c n : tidy c -> In n (forvars c) -> is_loop n.
Proof. induction c; cbn; rewrite ?in_app_iff; try tauto; intuition. now subst. Qed.
Lemma render_tidy g E args e : forall dt k c v k1, render g E args e dt k = Done (c, v, k1) -> tidy c.
Proof.
  assert (HM : forall l, Forall (fun e => forall dt k c v k1, render g E args e dt k = Done (c, v, k1) -> tidy c) l ->
    forall k c vs k1, many_r g E args l k = Done (c, vs, k1) -> tidy c).
  { induction l as [|x l IH]; intros HF k c vs k1 HR; cbn [many_r] in HR; [injection HR as <- <- <-; exact I|].
    destruct (render g E args x Int64 k) as [[[cx vx] kx]|] eqn:Ex; [|discriminate]. cbn [obind] in HR.
    destruct (many_r g E args l kx) as [[[cl vl] kl]|] eqn:El; [|discriminate]. cbn [obind] in HR. injection HR as <- <- <-. inversion HF; subst. apply tidy_capp; eauto. }
  induction e using expr_ind'; intros dt k c v k1 HR; cbn [render] in HR.
  - injection HR as <- <- <-. exact I.
  - injection HR as <- <- <-. exact I.
  - destruct (render g E args e1 dt k) as [[[c1 v1] ka]|] eqn:E1; [|discriminate]. cbn [obind] in HR.
    destruct (render g E args e2 dt ka) as [[[c2 v2] kb]|] eqn:E2; [|discriminate]. cbn [obind] in HR. injection HR as <- <- <-. repeat apply tidy_capp; eauto. exact I.
  - destruct (render g E args e dt k) as [[[c1 v1] ka]|] eqn:E1; [|discriminate]. cbn [obind] in HR. injection HR as <- <- <-. apply tidy_capp; eauto. exact I.
  - destruct (render g E args e1 Int64 (S k)) as [[[c1 v1] ka]|] eqn:E1; [|discriminate]. cbn [obind] in HR.
    destruct (render g E args e2 dt ka) as [[[c2 v2] kb]|] eqn:E2; [|discriminate]. cbn [obind] in HR.
    destruct (render g E args e3 dt kb) as [[[c3 v3] kc]|] eqn:E3; [|discriminate]. cbn [obind] in HR. injection HR as <- <- <-.
    cbn [tidy]. apply tidy_capp; eauto. cbn [tidy]. split; [|split; auto]; apply tidy_capp; eauto; cbn; auto.
  - destruct (render g E args e dt k) as [[[c1 v1] ka]|] eqn:E1; [|discriminate]. cbn [obind] in HR. injection HR as <- <- <-. cbn [tidy].
    assert (HT : tidy (capp c1 (CAssign NAcc (KBin BAdd (KName NAcc) v1) CNil))) by (apply tidy_capp; eauto; cbn; auto).
    induction red as [|l red IH]; cbn [fold_right]; auto. cbn [tidy]. split; [exact I|]. split; auto.
  - destruct (arg_name args (AFnc f)); [|discriminate]. cbn [obind] in HR. destruct (throw_none InternalErr (E f)); [|discriminate]. cbn [obind] in HR.
    change (('(c0, vs, k2) <~ many_r g E args idx k;; Done (c0, KIdx a (arr_idx_calc (f_shape a0) vs), k2)) = Done (c, v, k1)) in HR.
    destruct (many_r g E args idx k) as [[[cl vl] kl]|] eqn:El; [|discriminate]. cbn [obind] in HR. injection HR as <- <- <-. eapply HM; eauto.
  - destruct (arg_name args (ABuf n)); [|discriminate]. cbn [obind] in HR. destruct (get g n); [|discriminate]. cbn [obind] in HR.
    change (('(c0, vs, k2) <~ many_r g E args idx k;; Done (c0, KIdx a (buf_idx_calc (n_offset a0) (n_strides a0) vs), k2)) = Done (c, v, k1)) in HR.
    destruct (many_r g E args idx k) as [[[cl vl] kl]|] eqn:El; [|discriminate]. cbn [obind] in HR. injection HR as <- <- <-. eapply HM; eauto.
Qed.
Lemma codegen_tidy g E args f s k kern k1 : Forall is_loop (names (s_loops s)) -> codegen g E args f s k = Done (kern, k1) -> tidy (k_body kern).
Proof.
  intros HL HC. unfold codegen in HC. destruct (arg_params g E args 0) as [ps|] eqn:Ep; [|discriminate]. cbn [obind] in HC.
  destruct (render g E args (f_expr f) (f_dtype f) k) as [[[c v] kx]|] eqn:Er; [|discriminate]. cbn [obind] in HC. injection HC as <- <-. cbn [k_body].
  assert (HI : tidy (capp (render_splits (s_splits s)) (capp (render_guards (s_splits s)) (capp c (CStore NOut (arr_idx_calc (f_shape f) (map (fun l => KName (lname l)) (f_loops f))) v CNil))))).
  { apply tidy_capp; [induction (s_splits s); cbn; auto|]. apply tidy_capp; [induction (s_splits s) as [|x l IH]; cbn; auto; destruct (sp_guard x); cbn; auto|]. apply tidy_capp; [eapply render_tidy; eauto|exact I]. }
  revert HI. match goal with |- tidy ?x -> _ => generalize x end. intros inner HI. induction (s_loops s) as [|l loops IH]; cbn [render_loops]; auto. inversion HL; subst.
  destruct (is_spatial l); auto. destruct (ls_exec l); cbn [tidy]; auto.
Qed.
