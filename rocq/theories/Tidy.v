(* Kernels whose cache key tells everything the code depends on, although they read other kernels' results. *)
From Verif Require Import Base BaseFacts Util UtilFacts Lang Spec Graph Api ApiFacts Denote SpecFacts DenoteFacts Reach
  Algo AlgoSem AlgoConv AlgoConv2 AlgoFuse AlgoFuse2 AlgoConvert AlgoConvert2
  Kernel Sched Codegen Backends CacheKey KernFacts RenderFacts KernelOk RunFacts SchedFacts SchedGpu KernelRun KernelRun2 BackendFacts AlgoTop AlgoMore Runtime RuntimeFacts RuntimeFacts2 Tolist TolistFacts LangInst CacheFacts.

(* ------------------------------------------------------------------ specification *)
(* loops an expression's key mentions; a producer's own expression speaks about its own loops *)
Fixpoint kidx (k : ekey) : list (name * Z) :=
  match k with
  | KyBin _ l r => kidx l ++ kidx r
  | KyUn _ x | KyRed _ x => kidx x
  | KyIdx n x => [(n, x)]
  | KyFnc _ idx => flat_map kidx idx
  | KyBuf _ _ _ _ _ idx => flat_map kidx idx
  | KyConst _ | KyNone => []
  end.
(* the leftmost leaf is a buffer: its dtype *)
Fixpoint kdt (k : ekey) : option dtype :=
  match k with
  | KyBin _ l _ => kdt l
  | KyUn _ x | KyRed _ x => kdt x
  | KyFnc x _ => kdt x
  | KyBuf _ _ _ _ d _ => Some d
  | KyIdx _ _ | KyConst _ | KyNone => None
  end.
(* the key of a producer, with every array known by its own identity *)
Definition own_key (g : graph) (E : fenv) (f : func) : outcome ekey :=
  '(k, _) <~ expr_key g E (length g) (f_expr f) (seq 0 (length g)) ;; Done k.
(* the key mentions every loop but the first, or the loop runs once; no pad or dilate hides the leftmost operand *)
Definition told (k : ekey) (f : func) : Prop :=
  kdt k <> None /\ forall l, In l (f_loops f) -> l_pos l = 0%nat \/ l_ext l = 1 \/ In (lname l, l_ext l) (kidx k).
Definition tidy (d : desc) : Prop :=
  no_where (f_expr (d_f d)) /\
  (forall p q fp fq, In p (func_refs (f_expr (d_f d))) -> In q (func_refs (f_expr (d_f d))) -> d_E d p = Some fp -> d_E d q = Some fq ->
     own_key (d_g d) (d_E d) fp = own_key (d_g d) (d_E d) fq -> p = q) /\
  (forall p fp k, In p (func_refs (f_expr (d_f d))) -> d_E d p = Some fp -> own_key (d_g d) (d_E d) fp = Done k -> told k fp).
Definition tidy_kernel (gp : bool) (d : desc) : Prop := (exists g a, reach g /\ valid g a /\ kernel_at gp g a d) /\ tidy d.

(* ------------------------------------------------------------------ renumbering buffers in a key *)
Fixpoint kmap (h : nat -> nat) (k : ekey) : ekey :=
  match k with
  | KyBin b l r => KyBin b (kmap h l) (kmap h r)
  | KyUn u x => KyUn u (kmap h x)
  | KyRed r x => KyRed r (kmap h x)
  | KyFnc x idx => KyFnc (kmap h x) (map (kmap h) idx)
  | KyBuf i s st o d idx => KyBuf (h i) s st o d (map (kmap h) idx)
  | k => k
  end.
Fixpoint ekey_ind' (P : ekey -> Prop) (H1 : forall b l r, P l -> P r -> P (KyBin b l r)) (H2 : forall u x, P x -> P (KyUn u x)) (H3 : forall r x, P x -> P (KyRed r x))
  (H4 : forall n x, P (KyIdx n x)) (H5 : forall z, P (KyConst z)) (H6 : forall x idx, P x -> Forall P idx -> P (KyFnc x idx))
  (H7 : forall i s st o d idx, Forall P idx -> P (KyBuf i s st o d idx)) (H8 : P KyNone) (k : ekey) {struct k} : P k.
Proof.
  set (go := ekey_ind' P H1 H2 H3 H4 H5 H6 H7 H8).
  destruct k as [b l r|u x|r x|n x|z|x idx|i s st o d idx|].
  - exact (H1 _ _ _ (go l) (go r)).
  - exact (H2 _ _ (go x)).
  - exact (H3 _ _ (go x)).
  - exact (H4 _ _).
  - exact (H5 _).
  - refine (H6 _ _ (go x) _). exact ((fix gos l : Forall P l := match l with [] => Forall_nil _ | y :: l' => Forall_cons _ (go y) (gos l') end) idx).
  - refine (H7 _ _ _ _ _ _ _). exact ((fix gos l : Forall P l := match l with [] => Forall_nil _ | y :: l' => Forall_cons _ (go y) (gos l') end) idx).
  - exact H8.
Defined.
Lemma kidx_kmap h k : kidx (kmap h k) = kidx k.
Proof.
  induction k using ekey_ind'; cbn; auto; try congruence.
  - clear IHk. induction H as [|x l Hx _ IH]; cbn; congruence.
  - induction H as [|x l Hx _ IH]; cbn; congruence.
Qed.
Lemma kdt_kmap h k : kdt (kmap h k) = kdt k.
Proof. induction k using ekey_ind'; cbn; auto. Qed.

Lemma key_bin_eq g E u b x y i k1 k2 p j : expr_key g E u x i = Done (k1, p) -> expr_key g E u y p = Done (k2, j) -> expr_key g E u (EBin b x y) i = Done (KyBin b k1 k2, j).
Proof. intros H1 H2. destruct u; cbn in *; rewrite H1; cbn; rewrite H2; reflexivity. Qed.
Lemma key_un_eq g E u b x i k1 p : expr_key g E u x i = Done (k1, p) -> expr_key g E u (EUn b x) i = Done (KyUn b k1, p).
Proof. intros H1. destruct u; cbn in *; rewrite H1; reflexivity. Qed.
Lemma key_sum_eq g E u red x i k1 p : expr_key g E u x i = Done (k1, p) -> expr_key g E u (ESum x red) i = Done (KyRed (map (fun l => (lname l, l_ext l)) red) k1, p).
Proof. intros H1. destruct u; cbn in *; rewrite H1; reflexivity. Qed.
Section Renum.
Context (g : graph) (E : fenv) (J : list nat) (h : nat -> nat) (I : list nat).
Context (HJ : forall n i, (n < length g)%nat -> npos n I = Some i -> npos n J = Some (h i)).
Definition pre (i : list nat) : Prop := exists x, I = i ++ x.
Lemma pre_ext i j x : pre j -> j = i ++ x -> pre i.
Proof using. intros [y Hy] ->. exists (x ++ y). now rewrite app_assoc. Qed.
Lemma nadd_in n l i : npos n l = Some i -> nadd n l = l.
Proof using. unfold nadd. now intros ->. Qed.
Lemma renums u es : Forall (fun e => forall i k j, expr_key g E u e i = Done (k, j) -> pre j -> expr_key g E u e J = Done (kmap h k, J)) es ->
  forall i ks j, expr_keys g E u es i = Done (ks, j) -> pre j -> expr_keys g E u es J = Done (map (kmap h) ks, J).
Proof using HJ.
  induction 1 as [|e es He _ IH]; intros i ks j HK HP; cbn in *; [injection HK as <- <-; reflexivity|].
  bd HK. destruct v as [k1 i1]. bd HK. destruct v as [k2 i2]. injection HK as <- <-.
  destruct (expr_keys_ids _ _ _ _ _ _ _ D0) as [x Hx].
  rewrite (He _ _ _ D (pre_ext _ _ _ HP Hx)). cbn. rewrite (IH _ _ _ D0 HP). reflexivity.
Qed.
Lemma renum u : forall e i k j, expr_key g E u e i = Done (k, j) -> pre j -> expr_key g E u e J = Done (kmap h k, J).
Proof using HJ.
  induction u as [|u IHu]; intros e; induction e using expr_ind'; intros i k j HK HP.
  all: try (cbn in HK; injection HK as <- <-; reflexivity).
  all: try (apply key_bin_inv in HK as (k1 & k2 & p & A1 & A2 & ->); destruct (expr_key_ext _ _ _ _ _ _ _ A2) as [x Hx];
            eapply key_bin_eq; [apply (IHe1 _ _ _ A1 (pre_ext _ _ _ HP Hx))|apply (IHe2 _ _ _ A2 HP)]; fail).
  all: try (apply key_un_inv in HK as (k1 & A1 & ->); apply key_un_eq, (IHe _ _ _ A1 HP); fail).
  all: try (apply key_sum_inv in HK as (k1 & A1 & ->); apply key_sum_eq, (IHe _ _ _ A1 HP); fail).
  all: try (rewrite expr_key_buf in HK |- *; bd HK; bd HK; match goal with v : list ekey * list nat |- _ => destruct v as [k2 i2] end; bd HK; injection HK as <- <-;
            assert (Hn : (n < length g)%nat) by (apply nth_error_Some; unfold get in D; destruct (nth_error g n); congruence);
            destruct (expr_keys_ids _ _ _ _ _ _ _ D0) as [x Hx]; destruct (pre_ext _ _ _ HP Hx) as [y Hy];
            destruct (npos n (nadd n i)) as [z|] eqn:Ez; [|discriminate]; injection D1 as ->;
            assert (HJn : npos n J = Some (h v0)) by (apply HJ; [exact Hn|rewrite Hy; now apply npos_ext]);
            rewrite D; cbn [obind]; rewrite (nadd_in _ _ _ HJn), (renums _ _ H _ _ _ D0 HP); cbn [obind]; rewrite HJn; reflexivity).
  - rewrite expr_key_func in HK. discriminate.
  - rewrite expr_key_func in HK |- *. bd HK. bd HK. destruct v0 as [k1 i1]. bd HK. destruct v0 as [k2 i2]. injection HK as <- <-.
    destruct (expr_keys_ids _ _ _ _ _ _ _ D1) as [x Hx]. rewrite D. cbn [obind]. rewrite (IHu _ _ _ _ D0 (pre_ext _ _ _ HP Hx)). cbn [obind].
    rewrite (renums _ _ H _ _ _ D1 HP). reflexivity.
Qed.
End Renum.
Lemma npos_nth n l i : npos n l = Some i -> nth_error l i = Some n.
Proof.
  revert i; induction l as [|y l IH]; cbn; intros i H; [discriminate|]. destruct (Nat.eqb_spec y n); [injection H as <-; subst; reflexivity|].
  destruct (npos n l) as [j|]; [|discriminate]. injection H as <-. cbn. auto.
Qed.
Lemma npos_seq n a m : (a <= n < a + m)%nat -> npos n (seq a m) = Some (n - a)%nat.
Proof.
  revert a; induction m as [|m IH]; intros a H; [lia|]. cbn. destruct (Nat.eqb_spec a n); [subst; f_equal; lia|].
  rewrite IH by lia. cbn. f_equal. lia.
Qed.
(* keys relative to a fixed numbering, and relative to identities *)
Lemma kmap_id k : kmap (fun x => x) k = k.
Proof.
  induction k using ekey_ind'; cbn; try congruence.
  - f_equal; auto. clear IHk. induction H as [|x l Hx _ IH]; cbn; congruence.
  - f_equal. induction H as [|x l Hx _ IH]; cbn; congruence.
Qed.
Lemma key_fixed g E u e i k j I : expr_key g E u e i = Done (k, j) -> pre I j -> expr_key g E u e I = Done (k, I).
Proof. intros H HP. rewrite <- (kmap_id k) at 1. eapply (renum g E I (fun x => x) I); eauto. Qed.
Lemma key_ident g E u e i k j I : expr_key g E u e i = Done (k, j) -> pre I j ->
  expr_key g E u e (seq 0 (length g)) = Done (kmap (fun x => nth x I 0%nat) k, seq 0 (length g)).
Proof.
  intros H HP. eapply (renum g E _ (fun x => nth x I 0%nat) I); eauto. intros n x Hn Hx.
  apply npos_nth in Hx. rewrite (nth_error_nth _ _ _ Hx), npos_seq by lia. f_equal. lia.
Qed.

(* ------------------------------------------------------------------ the dtype is that of the leftmost leaf *)
Section Ldt.
Context (g : graph) (Hw : wf_graph g).
Definition gdt (n : nat) : option dtype := option_map n_dtype (nth_error g n).
Fixpoint ldt (e : expr) : option dtype :=
  match e with
  | EBuf n _ | EFunc n _ => gdt n
  | EBin _ x _ | EUn _ x | ESum x _ => ldt x
  | EWhere _ t _ => ldt t
  | EIdx _ | EConst _ => None
  end.
Definition DT (E : fenv) : Prop := forall f fd, E f = Some fd -> gdt f = Some (f_dtype fd) /\ ldt (f_expr fd) = Some (f_dtype fd).
Lemma conv_ldt a nd e : nth_error g a = Some nd -> conv_expr g a nd = Done e -> ldt e = Some (n_dtype nd).
Proof using Hw.
  intros Hn HC. pose proof (Hw a nd Hn) as HW. unfold conv_expr in HC. unfold wf_node in HW.
  destruct (n_op nd) eqn:Eo.
  { injection HC as <-. cbn. unfold gdt. now rewrite Hn. }
  all: destruct HW as (i & x & Hi & _ & Hx & Hfw & _).
  all: assert (Hd : gdt i = Some (n_dtype nd)) by (unfold gdt; rewrite Hx; cbn; f_equal; symmetry; eapply forward_dtype; exact Hfw).
  all: rewrite Hi in HC; cbn in HC.
  all: try (bd HC; try bd HC; injection HC as <-; exact Hd).
  all: try (injection HC as <-; exact Hd).
  - bd HC. unfold conv_sum in HC. bd HC. bd HC. injection HC as <-. exact Hd.
  - bd HC. unfold conv_pad in HC. bd HC. bd HC. injection HC as <-. exact Hd.
Qed.
Lemma a2f_DT fuel : forall a E E', arr_to_func fuel g a E = Done E' -> DT E -> DT E'.
Proof using Hw.
  induction fuel as [|k IH]; intros a E E' HA HD; cbn in HA; [discriminate|]. destruct (E a); [injection HA as <-; exact HD|].
  bd HA. bd HA. bd HA. injection HA as <-. unfold get in D. destruct (nth_error g a) as [nd|] eqn:Hn; [|discriminate]. injection D as <-.
  assert (H1 : DT v0).
  { clear - IH D0 HD. revert E HD D0. induction (n_in nd) as [|x l IHl]; intros E HD D0; cbn in D0; [injection D0 as <-; exact HD|].
    bd D0. eapply IHl; [|exact D0]. eapply IH; eauto. }
  intros f fd Hf. unfold fset in Hf. destruct (Nat.eqb_spec f a); [|apply H1; exact Hf]. injection Hf as <-. subst f. cbn. unfold gdt. rewrite Hn. split; [reflexivity|]. eapply conv_ldt; eauto.
Qed.
Lemma replace_ldt r e : forall e' d, replace_index r e = Done e' -> ldt e = Some d -> ldt e' = Some d.
Proof using.
  induction e using expr_ind'; intros e' d HR HL; cbn in HR, HL; try discriminate.
  - bd HR. bd HR. injection HR as <-. cbn. eauto.
  - bd HR. injection HR as <-. cbn. eauto.
  - bd HR. bd HR. bd HR. injection HR as <-. cbn. eauto.
  - bd HR. injection HR as <-. cbn. eauto.
  - bd HR. injection HR as <-. cbn. exact HL.
  - bd HR. injection HR as <-. cbn. exact HL.
Qed.
Lemma fuse_DT fuel rc : forall e E e' E', try_fuse fuel rc e E = Done (e', E') -> DT E -> DT E' /\ forall d, ldt e = Some d -> ldt e' = Some d.
Proof using.
  induction fuel as [|k IHk]; intros e; induction e using expr_ind'; intros E e' E' HT HD.
  all: try (cbn in HT; injection HT as <- <-; auto; fail).
  all: try (cbn in HT; discriminate).
  all: try (cbn in HT; bd HT; match goal with v : expr * fenv |- _ => destruct v as [x1 E1] end; injection HT as <- <-; destruct (IHe _ _ _ D HD); cbn; auto; fail).
  all: try (cbn in HT; bd HT; match goal with v : expr * fenv |- _ => destruct v as [x1 E1] end; bd HT; match goal with v : expr * fenv |- _ => destruct v as [x2 E2] end; injection HT as <- <-;
            destruct (IHe1 _ _ _ D HD) as [A1 A2]; destruct (IHe2 _ _ _ D0 A1) as [B1 B2]; cbn; auto; fail).
  all: try (cbn in HT; bd HT; match goal with v : expr * fenv |- _ => destruct v as [x1 E1] end; bd HT; match goal with v : expr * fenv |- _ => destruct v as [x2 E2] end;
            bd HT; match goal with v : expr * fenv |- _ => destruct v as [x3 E3] end; injection HT as <- <-;
            destruct (IHe1 _ _ _ D HD) as [A1 A2]; destruct (IHe2 _ _ _ D0 A1) as [B1 B2]; destruct (IHe3 _ _ _ D1 B1) as [C1 C2]; cbn; auto; fail).
  cbn in HT. bd HT. destruct (E f) as [fd|] eqn:Ef; [|discriminate]. injection D as <-. destruct (Nat.eqb (rc f) 0); [discriminate|].
  destruct (HD f fd Ef) as [G1 G2].
  destruct (negb _).
  - bd HT. destruct v as [x1 E1]. injection HT as <- <-. destruct (IHk _ _ _ _ D HD) as [A1 A2]. split; [|cbn; auto].
    intros n nd Hn. unfold fset in Hn. destruct (Nat.eqb_spec n f); [|apply A1; exact Hn]. injection Hn as <-. subst n. cbn. split; auto.
  - bd HT. destruct (IHk _ _ _ _ HT HD) as [A1 A2]. split; [exact A1|]. intros d Hd. cbn in Hd. apply A2. assert (d = f_dtype fd) by congruence. subst d.
    eapply replace_ldt; eauto.
Qed.
Lemma convert_DT a E fs : convert g a = Done (E, fs) -> DT E.
Proof using Hw.
  intros HC. unfold convert in HC. bd HC. bd HC. bd HC. bd HC. destruct v2 as [e E1]. bd HC. destruct v2 as [se fs']. injection HC as <- <-.
  assert (H0 : DT v) by (eapply a2f_DT; [exact D|]; intros f fd Hf; discriminate). destruct (v a) as [fd|] eqn:Ea; [|discriminate]. injection D0 as <-.
  destruct (fuse_DT _ _ _ _ _ _ D2 H0) as [A1 A2]. intros f fd' Hf. unfold fset in Hf. destruct (Nat.eqb_spec f a); [|apply A1; exact Hf].
  injection Hf as <-. subst f. destruct (H0 a fd Ea). cbn. auto.
Qed.
Lemma key_dt E u : DT E -> forall e i k j, expr_key g E u e i = Done (k, j) -> kdt k = None \/ kdt k = ldt e.
Proof using.
  intros HD. induction u as [|u IHu]; intros e; induction e using expr_ind'; intros i k j HK.
  all: try (cbn in HK; injection HK as <- <-; auto; fail).
  all: try (apply key_bin_inv in HK as (k1 & k2 & p & A1 & A2 & ->); cbn; eauto; fail).
  all: try (apply key_un_inv in HK as (k1 & A1 & ->); cbn; eauto; fail).
  all: try (apply key_sum_inv in HK as (k1 & A1 & ->); cbn; eauto; fail).
  all: try (apply key_buf_inv in HK as (nd & ks & x & A1 & _ & _ & ->); cbn; unfold gdt; rewrite A1; auto; fail).
  - rewrite expr_key_func in HK. discriminate.
  - rewrite expr_key_func in HK. bd HK. bd HK. destruct v0 as [k1 i1]. bd HK. destruct v0 as [k2 i2]. injection HK as <- <-. cbn.
    destruct (E f) as [fd|] eqn:Ef; [|discriminate]. injection D as <-. destruct (HD f fd Ef) as [G1 G2]. destruct (IHu _ _ _ _ D0) as [H1|H1]; auto. right. congruence.
Qed.
End Ldt.

(* ------------------------------------------------------------------ loops the key mentions *)
Fixpoint leaves (P : lidx -> Prop) (e : expr) : Prop :=
  match e with
  | EIdx l => P l
  | EConst _ | EWhere _ _ _ => True
  | EBin _ x y => leaves P x /\ leaves P y
  | EUn _ x | ESum x _ => leaves P x
  | EFunc _ idx | EBuf _ idx => Forall (is_ix P) idx
  end.
Lemma wfe_leaves shp ic lim P e : wfe shp ic lim P e -> leaves P e.
Proof. induction e using expr_ind'; cbn; tauto. Qed.
Lemma leaves_mono (P Q : lidx -> Prop) e : (forall l, P l -> Q l) -> leaves P e -> leaves Q e.
Proof.
  intros H. induction e using expr_ind'; cbn; auto; try tauto; (intros HF; eapply Forall_impl; [|exact HF]; intros y Hy; eapply is_ix_mono; eauto).
Qed.
Section Mention.
Context (g : graph) (E : fenv) (P : lidx -> Prop).
Lemma ix_kidx u e : forall i k j, is_ix P e -> expr_key g E u e i = Done (k, j) -> forall n x, In (n, x) (kidx k) -> exists l, P l /\ lname l = n /\ l_ext l = x.
Proof using.
  induction e using expr_ind'; intros i k j HP HK n0 x Hin; cbn in HP; try contradiction.
  - apply key_idx_inv in HK as ->. cbn in Hin. destruct Hin as [Hin|[]]. injection Hin as <- <-. eauto.
  - apply key_const_inv in HK as ->. destruct Hin.
  - apply key_bin_inv in HK as (k1 & k2 & p & A1 & A2 & ->). cbn in Hin. apply in_app_iff in Hin as [Hin|Hin]; [eapply IHe1|eapply IHe2]; eauto; tauto.
Qed.
Lemma ixs_kidx u es : forall i ks j, Forall (is_ix P) es -> expr_keys g E u es i = Done (ks, j) -> forall n x, In (n, x) (flat_map kidx ks) -> exists l, P l /\ lname l = n /\ l_ext l = x.
Proof using.
  induction es as [|e es IH]; intros i ks j HP HK n x Hin; cbn in HK; [injection HK as <- <-; destruct Hin|].
  bd HK. destruct v as [k1 i1]. bd HK. destruct v as [k2 i2]. injection HK as <- <-. inversion HP; subst. cbn in Hin. apply in_app_iff in Hin as [Hin|Hin]; [eapply ix_kidx|eapply IH]; eauto.
Qed.
Lemma leaves_kidx u e : forall i k j, leaves P e -> expr_key g E u e i = Done (k, j) -> forall n x, In (n, x) (kidx k) -> exists l, P l /\ lname l = n /\ l_ext l = x.
Proof using.
  induction e using expr_ind'; intros i k j HP HK n0 x Hin; cbn in HP.
  - apply key_idx_inv in HK as ->. cbn in Hin. destruct Hin as [Hin|[]]. injection Hin as <- <-. eauto.
  - apply key_const_inv in HK as ->. destruct Hin.
  - apply key_bin_inv in HK as (k1 & k2 & p & A1 & A2 & ->). cbn in Hin. apply in_app_iff in Hin as [Hin|Hin]; [eapply IHe1|eapply IHe2]; eauto; tauto.
  - apply key_un_inv in HK as (k1 & A1 & ->). eauto.
  - destruct u; cbn in HK; injection HK as <- <-; destruct Hin.
  - apply key_sum_inv in HK as (k1 & A1 & ->). eauto.
  - apply key_func_inv in HK as (p & k1 & ks & A1 & ->). cbn in Hin. eapply ixs_kidx; eauto.
  - apply key_buf_inv in HK as (nd & ks & y & _ & _ & A1 & ->). cbn in Hin. eapply ixs_kidx; eauto.
Qed.
End Mention.
(* a mentioned loop of array f has the extent of that axis *)
Lemma wff_kidx shp ic g E u f s e i k j r p x : wff shp ic f (out_loops f s) e -> expr_key g E u e i = Done (k, j) -> r = false -> In (NLoop r p [], x) (kidx k) -> nth_error s p = Some x.
Proof.
  intros HW HK -> Hin.
  assert (HL : leaves (fun l => In l (out_loops f s) \/ l_red l = true) e).
  { destruct e; cbn [wff] in HW; try (apply wfe_leaves in HW; eapply leaves_mono; [|exact HW]; cbn; tauto).
    destruct HW as (HW & _ & HR). cbn. apply wfe_leaves in HW. eapply leaves_mono; [|exact HW]. cbn. rewrite Forall_forall in HR. intros l [Hl|Hl]; [tauto|]. right. now apply HR. }
  destruct (leaves_kidx g E _ u e i k j HL HK _ _ Hin) as (l & [Hl|Hl] & Hn & Hx); unfold lname in Hn; injection Hn as Hr Hp; [|congruence].
  apply out_loops_in in Hl as (_ & _ & Hl). congruence.
Qed.

(* ------------------------------------------------------------------ uses of other kernels correspond *)
Fixpoint lens (shp : nat -> list Z) (e : expr) : Prop :=
  match e with
  | EWhere _ _ _ => False
  | EBin _ x y => lens shp x /\ lens shp y
  | EUn _ x | ESum x _ => lens shp x
  | EFunc f idx => length idx = length (shp f)
  | EIdx _ | EConst _ | EBuf _ _ => True
  end.
Lemma wfe_lens shp ic lim P e : wfe shp ic lim P e -> no_where e -> lens shp e.
Proof. induction e using expr_ind'; cbn; tauto. Qed.
Lemma wff_lens shp ic a loops e : wff shp ic a loops e -> no_where e -> lens shp e.
Proof. destruct e; try apply wfe_lens. intros [H _]. cbn. eapply wfe_lens; eauto. Qed.
Lemma keys_length g E u es : forall i ks j, expr_keys g E u es i = Done (ks, j) -> length ks = length es.
Proof.
  induction es as [|e es IH]; intros i ks j H; cbn in H; [injection H as <- _; reflexivity|].
  bd H. destruct v as [k1 i1]. bd H. destruct v as [k2 i2]. injection H as <- _. cbn. f_equal. eauto.
Qed.
Lemma key_func_inv2 g E u f idx i k j : expr_key g E u (EFunc f idx) i = Done (k, j) ->
  exists n fd k1 ks p, u = S n /\ E f = Some fd /\ expr_key g E n (f_expr fd) i = Done (k1, p) /\ expr_keys g E u idx p = Done (ks, j) /\ k = KyFnc k1 ks.
Proof.
  intros K. rewrite expr_key_func in K. destruct u as [|n]; [discriminate|]. bd K. bd K. destruct v0 as [k1 p]. bd K. destruct v0 as [ks q]. injection K as <- <-.
  destruct (E f) as [fd|]; [|discriminate]. injection D as <-. exists n, fd, k1, ks, p. auto.
Qed.
Section Uses.
Context (g1 g2 : graph) (E1 E2 : fenv) (n1 n2 : nat) (I1 I2 : list nat) (s1 s2 : nat -> list Z).
Definition same_use (f f' : nat) : Prop := exists fd fd' k, E1 f = Some fd /\ E2 f' = Some fd' /\
  expr_key g1 E1 n1 (f_expr fd) I1 = Done (k, I1) /\ expr_key g2 E2 n2 (f_expr fd') I2 = Done (k, I2) /\ length (s1 f) = length (s2 f').
Ltac kinv K := match type of K with
  | expr_key _ _ _ (EIdx _) _ = _ => apply key_idx_inv in K; try discriminate K
  | expr_key _ _ _ (EConst _) _ = _ => apply key_const_inv in K; try discriminate K
  | expr_key _ _ _ (EBin _ _ _) _ = _ => let H := fresh in apply key_bin_inv in K as (?k & ?k & ?p & ?A & ?A & H); try discriminate H; try (injection H as ? ? ?; subst)
  | expr_key _ _ _ (EUn _ _) _ = _ => let H := fresh in apply key_un_inv in K as (?k & ?A & H); try discriminate H; try (injection H as ? ?; subst)
  | expr_key _ _ _ (ESum _ _) _ = _ => let H := fresh in apply key_sum_inv in K as (?k & ?A & H); try discriminate H; try (injection H as ? ?; subst)
  | expr_key _ _ _ (EFunc _ _) _ = _ => let H := fresh in apply key_func_inv2 in K as (?n & ?fd & ?k & ?ks & ?p & ?A & ?A & ?A & ?A & H); try discriminate H
  | expr_key _ _ _ (EBuf _ _) _ = _ => let H := fresh in apply key_buf_inv in K as (?nd & ?ks & ?x & ?A & ?A & ?A & H); try discriminate H
  end.
Lemma uses_sim e1 : forall e2 i1 i2 k j1 j2, lens s1 e1 -> lens s2 e2 -> expr_key g1 E1 (S n1) e1 i1 = Done (k, j1) -> expr_key g2 E2 (S n2) e2 i2 = Done (k, j2) ->
  pre I1 j1 -> pre I2 j2 -> Forall2 same_use (func_refs e1) (func_refs e2).
Proof.
  induction e1 using expr_ind'; intros e2 i1 i2 k j1 j2 P1 P2 K1 K2 X1 X2; cbn in P1; try contradiction.
  - kinv K1. subst. destruct e2; cbn in P2; try contradiction; kinv K2. constructor.
  - kinv K1. subst. destruct e2; cbn in P2; try contradiction; kinv K2. constructor.
  - apply key_bin_inv in K1 as (k1 & k2 & p & A1 & A2 & ->). destruct e2; cbn in P2; try contradiction; try (kinv K2; fail).
    apply key_bin_inv in K2 as (k3 & k4 & q & B1 & B2 & HH). injection HH as <- <- <-. cbn. apply Forall2_app.
    + destruct (expr_key_ext _ _ _ _ _ _ _ A2) as [x Hx], (expr_key_ext _ _ _ _ _ _ _ B2) as [y Hy]. eapply IHe1_1; [tauto|exact (proj1 P2)|exact A1|exact B1|eapply pre_ext; eauto|eapply pre_ext; eauto].
    + eapply IHe1_2; [tauto|exact (proj2 P2)|exact A2|exact B2|auto|auto].
  - apply key_un_inv in K1 as (k1 & A1 & ->). destruct e2; cbn in P2; try contradiction; try (kinv K2; fail).
    apply key_un_inv in K2 as (k2 & B1 & HH). injection HH as <- <-. cbn. eauto.
  - apply key_sum_inv in K1 as (k1 & A1 & ->). destruct e2; cbn in P2; try contradiction; try (kinv K2; fail).
    apply key_sum_inv in K2 as (k2 & B1 & HH). injection HH as _ <-. cbn. eauto.
  - apply key_func_inv2 in K1 as (m & fd & k1 & ks & p & Hm & A1 & A2 & A3 & ->). injection Hm as <-. destruct e2; cbn in P2; try contradiction; try (kinv K2; fail).
    apply key_func_inv2 in K2 as (m & fd' & k2 & ks2 & q & Hm & B1 & B2 & B3 & HH). injection Hm as <-. injection HH as <- <-. cbn. constructor; [|constructor].
    exists fd, fd', k1. split; [exact A1|]. split; [exact B1|].
    destruct (expr_keys_ids _ _ _ _ _ _ _ A3) as [x Hx], (expr_keys_ids _ _ _ _ _ _ _ B3) as [y Hy].
    split; [eapply key_fixed; [exact A2|eapply pre_ext; eauto]|]. split; [eapply key_fixed; [exact B2|eapply pre_ext; eauto]|].
    apply keys_length in A3, B3. congruence.
  - apply key_buf_inv in K1 as (nd & ks & x & A1 & A2 & A3 & ->). destruct e2; cbn in P2; try contradiction; try (kinv K2; fail). constructor.
Qed.
End Uses.

Lemma npos_sim (R : nat -> nat -> Prop) (HR : forall x y x' y', R x y -> R x' y' -> (x = x' <-> y = y')) x y l l' : R x y -> Forall2 R l l' -> npos x l = npos y l'.
Proof.
  intros Hxy. induction 1 as [|a b l l' Hab _ IH]; cbn; auto. pose proof (HR _ _ _ _ Hab Hxy) as Hiff.
  destruct (Nat.eqb_spec a x), (Nat.eqb_spec b y); auto; try (exfalso; tauto). now rewrite IH.
Qed.
Lemma strides_tl s s' : length s = length s' -> (forall p, p <> 0%nat -> nth_error s p = nth_error s' p) -> strides_from_shape s = strides_from_shape s'.
Proof.
  destruct s as [|x s], s' as [|y s']; cbn [length]; intros HL H; try discriminate; auto.
  assert (s = s'); [|subst; now rewrite !strides_cons].
  apply nth_error_ext'. intros p. exact (H (S p) ltac:(discriminate)).
Qed.

Lemma tidy_use_sig gp g1 a1 d1 g2 a2 d2 key : reach g1 -> valid g1 a1 -> kernel_at gp g1 a1 d1 -> reach g2 -> valid g2 a2 -> kernel_at gp g2 a2 d2 ->
  tidy d1 -> tidy d2 -> key_of d1 = Done key -> key_of d2 = Done key -> use_sig (d_E d1) (f_expr (d_f d1)) = use_sig (d_E d2) (f_expr (d_f d2)).
Proof.
  intros R1 V1 K1 R2 V2 K2 (T11 & T12 & T13) (T21 & T22 & T23) Y1 Y2.
  destruct (kernel_at_spec _ _ _ _ R1 V1 K1) as (b1 & fs1 & f1 & nd1 & G1 & Vb1 & Ns1 & C1 & CS1 & F1 & Ef1 & KC1 & _).
  destruct (kernel_at_spec _ _ _ _ R2 V2 K2) as (b2 & fs2 & f2 & nd2 & G2 & Vb2 & Ns2 & C2 & CS2 & F2 & Ef2 & KC2 & _).
  rewrite G1 in *. rewrite G2 in *. unfold key_of, cache_key in Y1, Y2. rewrite G1 in Y1. rewrite G2 in Y2.
  bd Y1. destruct v as [k1 I1]. bd Y2. destruct v as [k2 I2]. injection Y1 as <-. injection Y2 as _ _ _ Hk _ _. symmetry in Hk. subst k2.
  set (E1 := d_E d1) in *. set (E2 := d_E d2) in *. set (e1 := f_expr (d_f d1)) in *. set (e2 := f_expr (d_f d2)) in *.
  assert (HU : Forall2 (same_use g1 g2 E1 E2 (length g1) (length g2) I1 I2 (shape_of g1) (shape_of g2)) (func_refs e1) (func_refs e2)).
  { eapply uses_sim; [eapply wff_lens; [exact (kc_wff _ _ _ _ _ KC1)|exact T11]|eapply wff_lens; [exact (kc_wff _ _ _ _ _ KC2)|exact T21]|exact D|exact D0|exists []; now rewrite app_nil_r|exists []; now rewrite app_nil_r]. }
  apply Forall2_in_both in HU.
  set (R := fun f f' => same_use g1 g2 E1 E2 (length g1) (length g2) I1 I2 (shape_of g1) (shape_of g2) f f' /\ In f (func_refs e1) /\ In f' (func_refs e2)) in *.
  assert (P1 : pre I1 I1) by (exists []; now rewrite app_nil_r). assert (P2 : pre I2 I2) by (exists []; now rewrite app_nil_r).
  assert (HR : forall x y x' y', R x y -> R x' y' -> (x = x' <-> y = y')).
  { intros x y x' y' ((fx & fy & k & A1 & A2 & A3 & A4 & _) & I3 & I4) ((fx' & fy' & k' & B1 & B2 & B3 & B4 & _) & I5 & I6). split; intros ->.
    - assert (fx' = fx) by congruence. subst fx'. assert (k' = k) by congruence. subst k'. apply (T22 y y' fy fy'); auto. unfold own_key.
      rewrite (key_ident _ _ _ _ _ _ _ _ A4 P2), (key_ident _ _ _ _ _ _ _ _ B4 P2). reflexivity.
    - assert (fy' = fy) by congruence. subst fy'. assert (k' = k) by congruence. subst k'. apply (T12 x x' fx fx'); auto. unfold own_key.
      rewrite (key_ident _ _ _ _ _ _ _ _ A3 P1), (key_ident _ _ _ _ _ _ _ _ B3 P1). reflexivity. }
  assert (HDD : Forall2 R (dedup (func_refs e1) []) (dedup (func_refs e2) [])) by (apply (dedup_sim R HR); auto).
  unfold use_sig. fold e1 e2.
  assert (HG : forall l l', Forall2 R l l' -> map (fun f => (npos f (dedup (func_refs e1) []), option_map f_strides (E1 f), option_map f_dtype (E1 f))) l =
     map (fun f => (npos f (dedup (func_refs e2) []), option_map f_strides (E2 f), option_map f_dtype (E2 f))) l'); [|now apply HG].
  induction 1 as [|x y l l' Hxy _ IH]; auto. cbn [map]. f_equal; [|exact IH].
  rewrite (npos_sim R HR x y _ _ Hxy HDD). destruct Hxy as ((fx & fy & k & A1 & A2 & A3 & A4 & A5) & I3 & I4). rewrite A1, A2. cbn [option_map].
  pose proof (key_ident _ _ _ _ _ _ _ _ A3 P1) as O1. pose proof (key_ident _ _ _ _ _ _ _ _ A4 P2) as O2.
  assert (W1 : own_key g1 E1 fx = Done (kmap (fun x => nth x I1 0%nat) k)) by (unfold own_key; rewrite O1; reflexivity).
  assert (W2 : own_key g2 E2 fy = Done (kmap (fun x => nth x I2 0%nat) k)) by (unfold own_key; rewrite O2; reflexivity).
  destruct (T13 x fx _ I3 A1 W1) as [M1 M2]. destruct (T23 y fy _ I4 A2 W2) as [N1 N2]. rewrite kdt_kmap, ?kidx_kmap in M1, N1. setoid_rewrite kidx_kmap in M2. setoid_rewrite kidx_kmap in N2.
  assert (EN1 : entry g1 x fx).
  { pose proof (in_split _ _ F1) as (l1 & l2 & Hl). pose proof (cs_topo _ _ _ _ _ CS1 l1 f1 l2 Hl _ Ef1 x I3) as Hin.
    destruct (cs_entry _ _ _ _ _ CS1 x) as (fd & Hfd & He); [rewrite Hl; apply in_or_app; now left|]. congruence. }
  assert (EN2 : entry g2 y fy).
  { pose proof (in_split _ _ F2) as (l1 & l2 & Hl). pose proof (cs_topo _ _ _ _ _ CS2 l1 f2 l2 Hl _ Ef2 y I4) as Hin.
    destruct (cs_entry _ _ _ _ _ CS2 y) as (fd & Hfd & He); [rewrite Hl; apply in_or_app; now left|]. congruence. }
  destruct EN1 as (xd & X1 & X2 & X3 & _). destruct EN2 as (yd & Z1 & Z2 & Z3 & _).
  f_equal; [f_equal|]; f_equal.
  - unfold f_strides. rewrite X2, Z2. cbn [f_shape]. unfold shape_of in A5. rewrite X1, Z1 in A5. apply strides_tl; [exact A5|]. intros p Hp.
    destruct (nth_error (n_shape xd) p) as [ex|] eqn:Ex, (nth_error (n_shape yd) p) as [ey|] eqn:Ey; auto.
    2:{ apply nth_error_None in Ey. assert (p < length (n_shape xd))%nat by (apply nth_error_Some; congruence). lia. }
    2:{ apply nth_error_None in Ex. assert (p < length (n_shape yd))%nat by (apply nth_error_Some; congruence). lia. }
    assert (Lx : In (mkL x false p ex) (f_loops fx)) by (rewrite X2; cbn [f_loops]; apply (nth_error_In _ p); rewrite nth_error_out_loops, Ex; reflexivity).
    assert (Ly : In (mkL y false p ey) (f_loops fy)) by (rewrite Z2; cbn [f_loops]; apply (nth_error_In _ p); rewrite nth_error_out_loops, Ey; reflexivity).
    destruct (M2 _ Lx) as [H|[H|H]]; [cbn in H; contradiction| |].
    + cbn in H. subst ex. destruct (N2 _ Ly) as [H|[H|H]]; [cbn in H; contradiction|cbn in H; congruence|].
      pose proof (wff_kidx _ _ _ _ _ _ _ _ _ _ _ _ _ _ X3 A3 eq_refl H) as Hx. cbn in Hx. congruence.
    + pose proof (wff_kidx _ _ _ _ _ _ _ _ _ _ _ _ _ _ Z3 A4 eq_refl H) as Hx. cbn in Hx. congruence.
  - pose proof (convert_DT g1 (reach_wf g1 R1) _ _ _ C1) as DT1. pose proof (convert_DT g2 (reach_wf g2 R2) _ _ _ C2) as DT2.
    destruct (key_dt g1 E1 _ DT1 _ _ _ _ A3) as [H|H]; [contradiction|]. destruct (key_dt g2 E2 _ DT2 _ _ _ _ A4) as [H'|H']; [contradiction|].
    destruct (DT1 _ _ A1) as [_ Q1]. destruct (DT2 _ _ A2) as [_ Q2]. congruence.
Qed.
Theorem tidy_safe gp : key_safe (tidy_kernel gp).
Proof.
  intros d1 d2 key ((g1 & a1 & R1 & V1 & K1) & T1) ((g2 & a2 & R2 & V2 & K2) & T2) Y1 Y2.
  apply (key_code_at gp g1 a1 d1 g2 a2 d2 key); auto; [exact (proj1 T1)|exact (proj1 T2)|]. exact (tidy_use_sig gp g1 a1 d1 g2 a2 d2 key R1 V1 K1 R2 V2 K2 T1 T2 Y1 Y2).
Qed.
Lemma plain_tidy d : plain_kernel d -> tidy_kernel false d.
Proof. intros (H1 & H2 & H3). split; [exact H1|]. split; [exact H2|]. rewrite H3. split; [intros ? ? ? ? []|intros ? ? ? []]. Qed.
