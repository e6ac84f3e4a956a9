(* render_expr (codegen.py:121-254) computes what the expression denotes. *)
From Verif Require Import Base BaseFacts Util UtilFacts Lang Spec Graph Denote DenoteFacts Reach Algo AlgoSem AlgoConv AlgoFuse2 Kernel Sched Codegen KernFacts.

Lemma evalI_noraise L ρ e : evalI L ρ e <> Raise.
Proof.
  induction e; cbn; try discriminate.
  - destruct (ρ l); cbn; [unfold chk; destruct (inBb L z)|]; discriminate.
  - unfold chk. destruct (inBb L z); discriminate.
  - destruct (evalI L ρ e1); cbn; try congruence. destruct (evalI L ρ e2); cbn; try congruence.
    destruct b; cbn; try discriminate; unfold chk; try (destruct (0 <? a0)); try (destruct ((a <=? 1) && (a0 <=? 1))); try (destruct (inBb _ _)); discriminate.
Qed.
Lemma mapM_evalI_noraise L ρ es : mapM (evalI L ρ) es <> Raise.
Proof.
  induction es as [|e es IH]; cbn; [discriminate|]. pose proof (evalI_noraise L ρ e).
  destruct (evalI L ρ e); cbn; try congruence. destruct (mapM (evalI L ρ) es); cbn; congruence.
Qed.

Definition tmps (k k' : nat) (n : name) : Prop := match n with NTmp j => (k <= j < k')%nat | _ => False end.
Definition nb (k : nat) (n : name) : Prop := match n with NTmp j => (j < k)%nat | _ => True end.

Section Render.
Context (L : lang) (HL : lang_ok L) (scoped : bool) (gp : bool -> axis -> Z) (pty : name -> dtype).
Notation V := (val L).
Context (inp : name -> option (list V)).
Context (g : graph) (E : fenv) (args : list arg).
Context (shp : nat -> list Z) (F : nat -> list Z -> res V).
Notation exec := (exec L scoped gp pty).
Notation evals := (evals L inp).
Notation lk := (lk L).
Notation evolve := (evolve L).
Notation undecl := (undecl L scoped).
Notation render := (render g E args).

Fixpoint renders (l : list expr) (k : nat) : outcome (code * list kx * nat) :=
  match l with
  | [] => Done (CNil, [], k)
  | x :: l' => '(c, v, k1) <~ render x Int64 k ;; '(c', vs, k2) <~ renders l' k1 ;; Done (capp c c', v :: vs, k2)
  end.
Lemma render_buf n idx dt k : render (EBuf n idx) dt k =
  (nm <~ arg_name args (ABuf n) ;; nd <~ get g n ;; '(c, vs, k1) <~ renders idx k ;;
   Done (c, KIdx nm (buf_idx_calc (n_offset nd) (n_strides nd) vs), k1)).
Proof. reflexivity. Qed.
Lemma render_func f idx dt k : render (EFunc f idx) dt k =
  (nm <~ arg_name args (AFnc f) ;; fd <~ throw_none InternalErr (E f) ;; '(c, vs, k1) <~ renders idx k ;;
   Done (c, KIdx nm (arr_idx_calc (f_shape fd) vs), k1)).
Proof. reflexivity. Qed.

Definition agree (k : nat) (r r' : env L) : Prop := forall n, nb k n -> lk r' n = lk r n.
Lemma agree_refl k r : agree k r r.
Proof. intros n _. reflexivity. Qed.
Lemma agree_trans k k' r1 r2 r3 : (k <= k')%nat -> agree k r1 r2 -> agree k' r2 r3 -> agree k r1 r3.
Proof. intros Hk H1 H2 n Hn. rewrite H2, H1; auto. destruct n; cbn in *; auto. lia. Qed.
Lemma evolve_agree k k' r r' : evolve (tmps k k') r r' -> agree k r r'.
Proof. intros H n Hn. eapply lk_evolve; eauto. destruct n; cbn in *; auto. lia. Qed.
Lemma tmps_mono k1 k2 k1' k2' n : (k1' <= k1)%nat -> (k2 <= k2')%nat -> tmps k1 k2 n -> tmps k1' k2' n.
Proof. destruct n; cbn; auto. lia. Qed.
Lemma evolve_tmps k1 k2 k1' k2' r r' : (k1' <= k1)%nat -> (k2 <= k2')%nat -> evolve (tmps k1 k2) r r' -> evolve (tmps k1' k2') r r'.
Proof. intros H1 H2. apply evolve_mono. intros n. now apply tmps_mono. Qed.
Lemma evolve_one k r r' : evolve (eq (NTmp k)) r r' -> evolve (tmps k (S k)) r r'.
Proof. apply evolve_mono. intros n <-. cbn. lia. Qed.
Definition unt (k : nat) (r : env L) : Prop := forall j, (k <= j)%nat -> undecl r (NTmp j).
Lemma unt_evolve k k' r r' : evolve (tmps k k') r r' -> (k <= k')%nat -> unt k r -> unt k' r'.
Proof. intros H Hk Hu j Hj. eapply undecl_evolve; eauto; [cbn; lia|]. apply Hu. lia. Qed.
Lemma unt_mono k k' r : (k <= k')%nat -> unt k r -> unt k' r.
Proof. intros H Hu j Hj. apply Hu. lia. Qed.
Lemma unt_enter k k' r : (k <= k')%nat -> unt k r -> unt k' (enter L scoped r).
Proof. intros Hk Hu j Hj. unfold enter. specialize (Hu j ltac:(lia)). unfold KernFacts.undecl in *. destruct scoped; auto. Qed.

(* loop indices are held by the loop variables *)
Definition envrel (P : lidx -> Prop) (ρ : ienv) (r : env L) : Prop :=
  forall l z, P l -> ρ l = Some z -> exists dt v, lk r (lname l) = Some (dt, v) /\ (inB L z -> reps L v z).
Lemma envrel_agree P ρ k r r' : agree k r r' -> envrel P ρ r -> envrel P ρ r'.
Proof. intros HA H l z Hl Hz. destruct (H l z Hl Hz) as (dt & v & H1 & H2). exists dt, v. split; auto. rewrite HA; auto. cbn. auto. Qed.

(* ---------------------------------------------------------------- index expressions *)
Definition isval (r : env L) (v : kx) (z : Z) : Prop := exists w, evals r v w /\ reps L w z.
Definition ixspec (e : expr) (k : nat) (c : code) (v : kx) (k1 : nat) : Prop :=
  (k <= k1)%nat /\ forall P r ρ z, is_ix P e -> r <> [] -> envrel P ρ r -> unt k r -> evalI L ρ e = Ok z ->
    inB L z /\ exists r', ev inp (exec c r) = ([], OkO (FNorm, r')) /\ evolve (tmps k k1) r r' /\
      forall r'', agree k1 r' r'' -> isval r'' v z.

Lemma inB_b2z b : inB L (b2z b).
Proof. eapply inB_le; [apply (ok_bound _ HL)|]. destruct b; cbn; lia. Qed.
Lemma inB_nonneg z : inB L z -> 0 <= z.
Proof. unfold inB. tauto. Qed.
Lemma chk_inv z y : chk L z = Ok y -> y = z /\ inB L z.
Proof. unfold chk. destruct (inBb L z) eqn:E0; [|discriminate]. intros H. injection H as <-. split; auto. now apply inBb_spec. Qed.

Lemma ibin_ok b x y u w z : reps L u x -> reps L w y -> inB L x -> inB L y -> ibin L b x y = Ok z ->
  inB L z /\ exists v, bin L b u w = Some v /\ reps L v z.
Proof.
  intros Hu Hw Hx Hy H. pose proof (inB_nonneg _ Hx). pose proof (inB_nonneg _ Hy).
  destruct b; cbn in H; try discriminate.
  - apply chk_inv in H as [-> Hz]. split; auto. now apply (ok_add _ HL).
  - apply chk_inv in H as [-> Hz]. split; auto. now apply (ok_sub _ HL).
  - apply chk_inv in H as [-> Hz]. split; auto. now apply (ok_mul _ HL).
  - destruct (0 <? y) eqn:Ey; [|discriminate]. apply chk_inv in H as [-> Hz]. split; auto. apply (ok_floordiv _ HL); auto. lia.
  - destruct (0 <? y) eqn:Ey; [|discriminate]. apply chk_inv in H as [-> Hz]. split; auto. apply (ok_mod _ HL); auto. lia.
  - destruct ((x <=? 1) && (y <=? 1)) eqn:Exy; [|discriminate]. apply andb_prop in Exy as [E1 E2]. injection H as <-.
    split; [apply inB_b2z|]. apply (ok_and _ HL).
    + replace (b2z (x =? 1)) with x; auto. destruct (x =? 1) eqn:E0; cbn; lia.
    + replace (b2z (y =? 1)) with y; auto. destruct (y =? 1) eqn:E0; cbn; lia.
  - injection H as <-. split; [apply inB_b2z|]. now apply (ok_eq _ HL).
  - injection H as <-. split; [apply inB_b2z|]. now apply (ok_ge _ HL).
  - injection H as <-. split; [apply inB_b2z|]. now apply (ok_lt _ HL).
Qed.

(* index expressions are always rendered with Int64 (codegen.py:182,239,253), and never fail *)
Lemma render_ix (P : lidx -> Prop) e : is_ix P e -> forall k, exists c v k1, render e Int64 k = Done (c, v, k1) /\ ixspec e k c v k1.
Proof.
  induction e using expr_ind'; intros HP k; cbn in HP; try contradiction.
  - do 3 eexists. split; [reflexivity|]. split; [lia|]. intros P' r ρ z Hl Hr Henv Hu Hz. cbn in Hz.
    destruct (ρ l) as [z0|] eqn:El; [|discriminate]. cbn in Hz. apply chk_inv in Hz as [-> Hz].
    split; auto. exists r. split; [reflexivity|]. split; [now apply evolve_refl|].
    intros r'' HA. destruct (Henv l z0 Hl El) as (dt & v & H1 & H2). exists v. split; auto.
    eapply evals_name. rewrite HA; [exact H1|cbn; auto].
  - do 3 eexists. split; [reflexivity|]. split; [lia|]. intros P' r ρ z' _ Hr Henv Hu Hz. cbn in Hz.
    apply chk_inv in Hz as [-> Hz]. split; auto. exists r. split; [reflexivity|]. split; [now apply evolve_refl|].
    intros r'' HA. exists (lit L z). split; [apply evals_int|now apply (ok_lit _ HL)].
  - destruct HP as [HP1 HP2]. destruct (IHe1 HP1 k) as (c1 & v1 & k1 & E1 & Hk1 & S1).
    destruct (IHe2 HP2 k1) as (c2 & v2 & k2 & E2 & Hk2 & S2).
    cbn [Codegen.render]. rewrite E1. cbn [obind]. rewrite E2. cbn [obind].
    do 3 eexists. split; [reflexivity|]. split; [lia|].
    intros P' r ρ z HP' Hr Henv Hu Hz. cbn in HP', Hz. destruct HP' as [HP1' HP2'].
    apply rbind_ok in Hz as (x & Hx & Hz). apply rbind_ok in Hz as (y & Hy & Hz).
    destruct (S1 P' r ρ x HP1' Hr Henv Hu Hx) as (Bx & r1 & X1 & V1 & A1).
    destruct (S2 P' r1 ρ y HP2') as (By & r2 & X2 & V2 & A2); auto.
    { eapply evolve_nonempty; eauto. } { eapply envrel_agree; [eapply evolve_agree; eauto|assumption]. } { eapply unt_evolve; eauto. }
    destruct (A1 r2) as (u & Hu1 & Hu2). { eapply evolve_agree; eauto. }
    destruct (A2 r2) as (w & Hw1 & Hw2). { apply agree_refl. }
    destruct (ibin_ok b x y u w z) as (Bz & v & Hv1 & Hv2); auto. split; auto.
    assert (Hu2' : unt k2 r2) by (eapply unt_evolve; eauto; eapply unt_evolve; eauto).
    destruct (declare_ok L scoped r2 (NTmp k2) Int64 v) as (r3 & D1 & D2 & D3).
    { eapply evolve_nonempty; eauto. } { apply Hu2'. lia. }
    exists r3. split; [|split].
    + rewrite (exec_capp_norm _ _ _ _ _ _ _ _ _ X1), (exec_capp_norm _ _ _ _ _ _ _ _ _ X2).
      rewrite (exec_decl _ _ _ _ _ _ _ _ _ _ _ _ (evals_bin _ _ _ _ _ _ _ _ _ Hu1 Hw1 Hv1) D1). reflexivity.
    + eapply evolve_trans; [|eapply evolve_trans]; eapply evolve_tmps; [| |exact V1| | |exact V2| | |eapply evolve_one; exact D2]; lia.
    + intros r'' HA. exists (coerce L Int64 v). split; [|now apply (ok_coerce _ HL)].
      eapply evals_name. rewrite HA; [exact D3|cbn; lia].
Qed.

Definition ixsspec (es : list expr) (k : nat) (c : code) (vs : list kx) (k1 : nat) : Prop :=
  (k <= k1)%nat /\ length vs = length es /\ forall P r ρ zs, Forall (is_ix P) es -> r <> [] -> envrel P ρ r -> unt k r -> mapM (evalI L ρ) es = Ok zs ->
    Forall (inB L) zs /\ exists r', ev inp (exec c r) = ([], OkO (FNorm, r')) /\ evolve (tmps k k1) r r' /\
      forall r'', agree k1 r' r'' -> Forall2 (isval r'') vs zs.
Lemma renders_ok (P : lidx -> Prop) es : Forall (is_ix P) es -> forall k, exists c vs k1, renders es k = Done (c, vs, k1) /\ ixsspec es k c vs k1.
Proof.
  induction es as [|e es IH]; intros HP k; cbn [renders].
  - do 3 eexists. split; [reflexivity|]. split; [lia|]. split; [reflexivity|]. intros P' r ρ zs _ Hr _ _ H. cbn in H. injection H as <-.
    split; [constructor|]. exists r. split; [reflexivity|]. split; [now apply evolve_refl|]. intros; constructor.
  - inversion HP; subst. destruct (render_ix P e H1 k) as (c & v & k1 & E1 & Hk1 & S1). rewrite E1. cbn [obind].
    destruct (IH H2 k1) as (c' & vs & k2 & E2 & Hk2 & Hlen & S2). rewrite E2. cbn [obind].
    do 3 eexists. split; [reflexivity|]. split; [lia|]. split; [cbn; now rewrite Hlen|].
    intros P' r ρ zs HP' Hr Henv Hu Hz. inversion HP'; subst. cbn in Hz.
    apply rbind_ok in Hz as (x & Hx & Hz). apply rbind_ok in Hz as (ys & Hy & Hz). injection Hz as <-.
    destruct (S1 P' r ρ x H3 Hr Henv Hu Hx) as (Bx & r1 & X1 & V1 & A1).
    destruct (S2 P' r1 ρ ys H4) as (By & r2 & X2 & V2 & A2); auto.
    { eapply evolve_nonempty; eauto. } { eapply envrel_agree; [eapply evolve_agree; eauto|assumption]. } { eapply unt_evolve; eauto. }
    split; [constructor; auto|]. exists r2. split; [|split].
    + rewrite (exec_capp_norm _ _ _ _ _ _ _ _ _ X1). exact X2.
    + eapply evolve_trans; eapply evolve_tmps; [| |exact V1| | |exact V2]; lia.
    + intros r'' HA. constructor; [|now apply A2]. apply A1. eapply agree_trans; [|eapply evolve_agree; exact V2|exact HA]. lia.
Qed.

(* ---------------------------------------------------------------- flat positions *)
Lemma fold_kx_ok r ts vs x a : Forall2 (isval r) ts vs -> isval r x a -> 0 <= a -> Forall (fun v => 0 <= v) vs -> inB L (a + zsum vs) ->
  isval r (fold_left (fun p q => KBin BAdd p q) ts x) (a + zsum vs).
Proof.
  intros H; revert x a; induction H as [|t v ts vs Ht _ IH]; intros x a Hx Ha Hv Hb; cbn [fold_left zsum].
  - rewrite Z.add_0_r. assumption.
  - inversion Hv; subst. cbn [zsum] in Hb.
    assert (0 <= zsum vs) by (clear -H2; induction H2; cbn; lia).
    replace (a + (v + zsum vs)) with (a + v + zsum vs) in * by lia. apply IH; auto; try lia.
    destruct Hx as (u & U1 & U2). destruct Ht as (w & W1 & W2).
    destruct (ok_add _ HL u w a v U2 W2) as (p & P1 & P2); try (eapply inB_le; [exact Hb|lia]).
    exists p. split; auto. eapply evals_bin; eauto.
Qed.
Lemma mul_kx_ok r x z st : isval r x z -> inB L z -> inB L st -> inB L (z * st) -> isval r (KBin BMul x (KInt st)) (z * st).
Proof.
  intros (u & U1 & U2) Hz Hs Hzs. destruct (ok_mul _ HL u (lit L st) z st U2) as (p & P1 & P2); auto. { now apply (ok_lit _ HL). }
  exists p. split; auto. eapply evals_bin; eauto. apply evals_int.
Qed.
Lemma terms_kx_ok r s zs xs : in_range s zs -> ltB L (zprod s) -> Forall2 (isval r) xs zs ->
  exists vs, Forall2 (isval r) (map (fun '(n, st) => KBin BMul n (KInt st)) (combine xs (strides_from_shape s))) vs /\
    Forall (fun v => 0 <= v) vs /\ zsum vs = flat s zs.
Proof.
  unfold in_range. intros Hi; revert xs; induction Hi as [|z d zs s Hz Hi IH]; intros xs Hb HF; inversion HF as [|l0 z0 ls' zs' Hl0 HF']; subst.
  - exists []. repeat split; constructor.
  - pose proof (in_range_zprod_pos s zs Hi) as HP. rewrite zprod_cons in Hb.
    destruct (IH ls') as (vs & H1 & H2 & H3); [eapply ltB_le; [exact Hb|nia]|assumption|].
    exists (z * zprod s :: vs). rewrite strides_cons. cbn [combine map]. split; [|split].
    + constructor; [|exact H1]. apply mul_kx_ok; auto; (apply inB_intro; [nia|eapply ltB_le; [exact Hb|nia]]).
    + constructor; [nia|assumption].
    + cbn [zsum]. rewrite flat_cons. lia.
Qed.
Lemma arr_idx_ok r s zs xs : in_range s zs -> ltB L (zprod s) -> Forall2 (isval r) xs zs -> isval r (arr_idx_calc s xs) (flat s zs).
Proof.
  intros Hi Hb HF. pose proof (flat_bounds s zs Hi) as Hfb. destruct (terms_kx_ok r s zs xs Hi Hb HF) as (vs & H1 & H2 & H3).
  destruct s as [|d s].
  - inversion Hi; subst. cbn. exists (lit L 0). split; [apply evals_int|apply (ok_lit _ HL), (inB0 L HL)].
  - unfold arr_idx_calc. destruct (map _ _) as [|t ts] eqn:Et.
    + exfalso. inversion Hi; subst. inversion HF; subst. rewrite strides_cons in Et. discriminate.
    + inversion H1 as [|? v0 ? vs0 Hv0 Hvs0]; subst. inversion H2; subst. cbn [zsum] in H3. rewrite <- H3.
      cbn [sum_kx]. apply fold_kx_ok; auto. rewrite H3. apply inB_intro; [lia|eapply ltB_le; [exact Hb|lia]].
Qed.
Lemma strides_pos s zs : in_range s zs -> Forall (fun st => 0 < st) (strides_from_shape s).
Proof.
  unfold in_range. induction 1 as [|z d zs s Hz Hi IH]; [constructor|]. rewrite strides_cons. constructor; auto.
  pose proof (in_range_zprod_pos s zs Hi). lia.
Qed.
Lemma filter_combine_pos {A} (xs : list A) sts : Forall (fun st => 0 < st) sts ->
  filter (fun '(_, st) => negb (st =? 0)) (combine xs sts) = combine xs sts.
Proof.
  intros H; revert xs; induction H as [|st sts Hst _ IH]; intros [|x xs]; cbn; auto.
  replace (st =? 0) with false by lia. cbn. now rewrite IH.
Qed.
Lemma buf_idx_ok r s zs xs : in_range s zs -> ltB L (zprod s) -> Forall2 (isval r) xs zs ->
  isval r (buf_idx_calc 0 (strides_from_shape s) xs) (flat s zs).
Proof.
  intros Hi Hb HF. pose proof (flat_bounds s zs Hi) as Hfb. destruct (terms_kx_ok r s zs xs Hi Hb HF) as (vs & H1 & H2 & H3).
  unfold buf_idx_calc. rewrite filter_combine_pos by (eapply strides_pos; eauto). cbn [sum_kx].
  replace (flat s zs) with (0 + zsum vs) by lia. apply fold_kx_ok; auto.
  - exists (lit L 0). split; [apply evals_int|apply (ok_lit _ HL), (inB0 L HL)].
  - lia.
  - rewrite H3. apply inB_intro; [lia|eapply ltB_le; [exact Hb|lia]].
Qed.

(* ---------------------------------------------------------------- values *)
Definition arg_id (x : arg) : nat := match x with ABuf n => n | AFnc f => f end.
(* each argument's array holds the elements of the array it stands for *)
Definition filled (s : list Z) (f : list Z -> res V) (vs : list V) : Prop :=
  forall idx, in_range s idx -> exists v, f idx = Ok v /\ znth vs (flat s idx) = Some v.
Definition inputs_ok : Prop :=
  forall x nm, arg_name args x = Done nm -> ltB L (zprod (shp (arg_id x))) /\ exists vs, inp nm = Some vs /\ filled (shp (arg_id x)) (F (arg_id x)) vs.
Definition args_cover (e : expr) : Prop :=
  (forall n, In n (buf_refs e) -> In (ABuf n) args) /\ (forall f, In f (func_refs e) -> In (AFnc f) args).
Definition nodes_ok : Prop :=
  (forall n, In (ABuf n) args -> exists nd, nth_error g n = Some nd /\ n_offset nd = 0 /\ n_strides nd = strides_from_shape (shp n)) /\
  (forall f, In (AFnc f) args -> exists fd, E f = Some fd /\ f_shape fd = shp f).

Lemma arg_pos_in x l : In x l -> exists i, arg_pos x l = Some i.
Proof.
  induction l as [|y l IH]; cbn; [tauto|]. intros H. destruct (arg_eqb y x) eqn:Exy; [eauto|].
  destruct H as [->|H].
  - destruct x; cbn in Exy; rewrite Nat.eqb_refl in Exy; discriminate.
  - destruct (IH H) as [i ->]. cbn. eauto.
Qed.
Lemma arg_name_in x : In x args -> exists nm, arg_name args x = Done nm.
Proof. intros H. unfold arg_name. destruct (arg_pos_in x args H) as [i ->]. cbn. eauto. Qed.

Definition valspec (dt : dtype) (e : expr) (k : nat) (c : code) (v : kx) (k1 : nat) : Prop :=
  (k <= k1)%nat /\ forall ic lim P r ρ, wfe shp ic lim P e -> r <> [] -> envrel P ρ r -> unt k r ->
    match evalV L shp F dt e ρ with
    | Ok w => exists r', ev inp (exec c r) = ([], OkO (FNorm, r')) /\ evolve (tmps k k1) r r' /\
                forall r'', agree k1 r' r'' -> evals r'' v w
    | Raise => ev inp (exec c r) = ([], RaiseO)
    | Fault => True
    end.

Lemma render_val ic lim P e : nodes_ok -> inputs_ok -> wfe shp ic lim P e -> args_cover e -> forall dt k,
  exists c v k1, render e dt k = Done (c, v, k1) /\ valspec dt e k c v k1.
Proof.
  intros HN HI. induction e using expr_ind'; intros HW HC dt k; cbn [wfe] in HW; try contradiction.
  - (* constant *)
    do 3 eexists. split; [reflexivity|]. split; [lia|]. intros ic' lim' P' r ρ _ Hr Henv Hu. cbn.
    exists r. split; [reflexivity|]. split; [now apply evolve_refl|]. intros. apply evals_int.
  - (* binary *)
    destruct HW as [HW1 HW2]. destruct HC as [HC1 HC2]. cbn in HC1, HC2.
    destruct (IHe1 HW1 ltac:(split; intros; [apply HC1|apply HC2]; apply in_app_iff; auto) dt k) as (c1 & v1 & k1 & E1 & Hk1 & S1).
    destruct (IHe2 HW2 ltac:(split; intros; [apply HC1|apply HC2]; apply in_app_iff; auto) dt k1) as (c2 & v2 & k2 & E2 & Hk2 & S2).
    cbn [Codegen.render]. rewrite E1. cbn [obind]. rewrite E2. cbn [obind].
    do 3 eexists. split; [reflexivity|]. split; [lia|].
    intros ic' lim' P' r ρ HW' Hr Henv Hu. cbn in HW'. destruct HW' as [HW1' HW2'].
    specialize (S1 ic' lim' P' r ρ HW1' Hr Henv Hu). cbn [evalV].
    destruct (evalV L shp F dt e1 ρ) as [x| |]; cbn [rbind]; auto; [|now apply exec_capp_raise].
    destruct S1 as (r1 & X1 & V1 & A1).
    assert (Hr1 : r1 <> []) by (eapply evolve_nonempty; eauto).
    assert (Henv1 : envrel P' ρ r1) by (eapply envrel_agree; [eapply evolve_agree; eauto|assumption]).
    assert (Hu1 : unt k1 r1) by (eapply unt_evolve; eauto).
    specialize (S2 ic' lim' P' r1 ρ HW2' Hr1 Henv1 Hu1).
    destruct (evalV L shp F dt e2 ρ) as [y| |]; cbn [rbind]; auto.
    2:{ rewrite (exec_capp_norm _ _ _ _ _ _ _ _ _ X1). now apply exec_capp_raise. }
    destruct S2 as (r2 & X2 & V2 & A2).
    assert (Hx : evals r2 v1 x) by (apply A1; eapply evolve_agree; eauto).
    assert (Hy : evals r2 v2 y) by (apply A2; apply agree_refl).
    assert (Hu2 : unt k2 r2) by (eapply unt_evolve; eauto).
    unfold op2. destruct (bin L b x y) as [v|] eqn:Eb; cbn [of_opt rbind].
    + destruct (declare_ok L scoped r2 (NTmp k2) dt v) as (r3 & D1 & D2 & D3).
      { eapply evolve_nonempty; eauto. } { apply Hu2. lia. }
      exists r3. split; [|split].
      * rewrite (exec_capp_norm _ _ _ _ _ _ _ _ _ X1), (exec_capp_norm _ _ _ _ _ _ _ _ _ X2).
        rewrite (exec_decl _ _ _ _ _ _ _ _ _ _ _ _ (evals_bin _ _ _ _ _ _ _ _ _ Hx Hy Eb) D1). reflexivity.
      * eapply evolve_trans; [|eapply evolve_trans]; eapply evolve_tmps; [| |exact V1| | |exact V2| | |eapply evolve_one; exact D2]; lia.
      * intros r'' HA. eapply evals_name. rewrite HA; [exact D3|cbn; lia].
    + rewrite (exec_capp_norm _ _ _ _ _ _ _ _ _ X1), (exec_capp_norm _ _ _ _ _ _ _ _ _ X2).
      apply exec_decl_raise. eapply eval_bin_raise; eauto.
  - (* unary *)
    destruct (IHe HW HC dt k) as (c1 & v1 & k1 & E1 & Hk1 & S1).
    cbn [Codegen.render]. rewrite E1. cbn [obind]. do 3 eexists. split; [reflexivity|]. split; [lia|].
    intros ic' lim' P' r ρ HW' Hr Henv Hu. cbn in HW'. specialize (S1 ic' lim' P' r ρ HW' Hr Henv Hu). cbn [evalV].
    destruct (evalV L shp F dt e ρ) as [x| |]; cbn [rbind]; auto; [|now apply exec_capp_raise].
    destruct S1 as (r1 & X1 & V1 & A1).
    assert (Hx : evals r1 v1 x) by (apply A1; apply agree_refl).
    assert (Hu1 : unt k1 r1) by (eapply unt_evolve; eauto).
    unfold op1. destruct (un L u x) as [v|] eqn:Eb; cbn [of_opt rbind].
    + destruct (declare_ok L scoped r1 (NTmp k1) dt v) as (r3 & D1 & D2 & D3).
      { eapply evolve_nonempty; eauto. } { apply Hu1. lia. }
      exists r3. split; [|split].
      * rewrite (exec_capp_norm _ _ _ _ _ _ _ _ _ X1).
        rewrite (exec_decl _ _ _ _ _ _ _ _ _ _ _ _ (evals_un _ _ _ _ _ _ _ Hx Eb) D1). reflexivity.
      * eapply evolve_trans; eapply evolve_tmps; [| |exact V1| | |eapply evolve_one; exact D2]; lia.
      * intros r'' HA. eapply evals_name. rewrite HA; [exact D3|cbn; lia].
    + rewrite (exec_capp_norm _ _ _ _ _ _ _ _ _ X1). apply exec_decl_raise. eapply eval_un_raise; eauto.
  - (* where *)
    destruct HW as (HWc & HW1 & HW2). destruct HC as [HC1 HC2]. cbn in HC1, HC2.
    destruct (render_ix P e1 HWc (S k)) as (c1 & vc & k1 & E1 & Hk1 & S1).
    destruct (IHe2 HW1 ltac:(split; intros; [apply HC1|apply HC2]; rewrite !in_app_iff; auto) dt k1) as (c2 & vt & k2 & E2 & Hk2 & S2).
    destruct (IHe3 HW2 ltac:(split; intros; [apply HC1|apply HC2]; rewrite !in_app_iff; auto) dt k2) as (c3 & vf & k3 & E3 & Hk3 & S3).
    cbn [Codegen.render]. rewrite E1. cbn [obind]. rewrite E2. cbn [obind]. rewrite E3. cbn [obind].
    do 3 eexists. split; [reflexivity|]. split; [lia|].
    intros ic' lim' P' r ρ HW' Hr Henv Hu. cbn in HW'. destruct HW' as (HWc' & HW1' & HW2').
    cbn [evalV].
    assert (H0 : exists v0, evals r (if is_int dt then KInt 0 else KFlt0) v0).
    { destruct (is_int dt); eexists; reflexivity. }
    destruct H0 as [v0 H0].
    destruct (declare_ok L scoped r (NTmp k) dt v0) as (r0 & D1 & D2 & D3); [assumption|apply Hu; lia|].
    assert (V0 : evolve (tmps k (S k)) r r0) by now apply evolve_one.
    assert (Hr0 : r0 <> []) by (eapply evolve_nonempty; eauto).
    assert (Henv0 : envrel P' ρ r0) by (eapply envrel_agree; [eapply evolve_agree; eauto|assumption]).
    assert (Hu0 : unt (S k) r0) by (eapply unt_evolve; eauto).
    destruct (evalI L ρ e1) as [zc| |] eqn:Ec; cbn [rbind]; auto.
    2:{ exfalso. eapply evalI_noraise; eauto. }
    destruct (S1 P' r0 ρ zc HWc' Hr0 Henv0 Hu0 Ec) as (Bc & r1 & X1 & V1 & A1).
    assert (Hr1 : r1 <> []) by (eapply evolve_nonempty; eauto).
    assert (Henv1 : envrel P' ρ r1) by (eapply envrel_agree; [eapply evolve_agree; eauto|assumption]).
    assert (Hu1 : unt k1 r1) by (eapply unt_evolve; eauto).
    destruct (A1 r1 (agree_refl _ _)) as (wc & Hwc & Rwc).
    assert (Htr : truth L wc = negb (zc =? 0)) by (eapply (ok_truth _ HL); eauto).
    assert (Hk0 : lk r1 (NTmp k) = Some (dt, coerce L dt v0)).
    { rewrite <- D3. eapply evolve_agree; eauto. cbn. lia. }
    (* either branch *)
    assert (BR : forall e c v ka kb, (k1 <= ka)%nat -> (kb <= k3)%nat -> wfe shp ic' lim' P' e -> valspec dt e ka c v kb ->
       match evalV L shp F dt e ρ with
       | Ok w => exists r2, ev inp (exec (capp c (CAssign (NTmp k) v CNil)) (enter L scoped r1)) = ([], OkO (FNorm, r2)) /\
            evolve (tmps k k3) r1 (leave L scoped r2) /\ lk (leave L scoped r2) (NTmp k) = Some (dt, coerce L dt w)
       | Raise => ev inp (exec (capp c (CAssign (NTmp k) v CNil)) (enter L scoped r1)) = ([], RaiseO)
       | Fault => True
       end).
    { intros e c v ka kb Hka Hkb HWe [Hkab Se].
      specialize (Se ic' lim' P' (enter L scoped r1) ρ HWe (enter_nonempty _ _ _ Hr1)).
      specialize (Se ltac:(intros l z Hl Hz; rewrite lk_enter; auto) ltac:(eapply unt_enter; [exact Hka|exact Hu1])).
      destruct (evalV L shp F dt e ρ) as [w| |]; auto; [|now apply exec_capp_raise].
      destruct Se as (r2 & X2 & V2 & A2).
      assert (Hk2' : lk r2 (NTmp k) = Some (dt, coerce L dt v0)).
      { rewrite <- Hk0, <- (lk_enter L scoped r1). eapply evolve_agree; eauto. cbn. lia. }
      destruct (upd_ok L r2 (NTmp k) dt _ w Hk2') as (r3 & U1 & U2 & U3 & U4).
      exists r3. split; [|].
      - rewrite (exec_capp_norm _ _ _ _ _ _ _ _ _ X2). rewrite (exec_assign _ _ _ _ _ _ _ _ _ _ _ (A2 r2 (agree_refl _ _)) U1). reflexivity.
      - assert (V3 : evolve (tmps k k3) (enter L scoped r1) r3).
        { eapply evolve_trans; eapply evolve_tmps; [| |exact V2| | |eapply evolve_one; exact U2]; lia. }
        split; [now apply leave_enter|].
        unfold leave. destruct scoped eqn:Es; [|exact U3].
        (* the temporary lives in an enclosing scope *)
        destruct r3 as [|f3 t3]; [discriminate U3|]. cbn in U3 |- *.
        destruct (flook L f3 (NTmp k)) as [x|] eqn:Ef; [|exact U3]. exfalso.
        assert (Hun : flook L f3 (NTmp k) = None).
        { assert (Hun2 : undecl r2 (NTmp k)).
          { eapply undecl_evolve; [exact V2|cbn; lia|]. intros _. reflexivity. }
          inversion U4 as [|f2 ? t2 ? Hf2]; subst. eapply flook_feq_none; [exact Hf2|]. now apply Hun2. }
        congruence. }
    assert (Hstep : forall cc, ev inp (exec (CDecl dt (NTmp k) (if is_int dt then KInt 0 else KFlt0) (capp c1 cc)) r) = ev inp (exec cc r1)).
    { intros cc. rewrite (exec_decl _ _ _ _ _ _ _ _ _ _ _ _ H0 D1). now rewrite (exec_capp_norm _ _ _ _ _ _ _ _ _ X1). }
    rewrite Hstep. cbn [Kernel.exec]. rewrite (ev_bind_ok _ _ _ _ _ Hwc), Htr.
    assert (VV : evolve (tmps k k3) r r1).
    { eapply evolve_trans; eapply evolve_tmps; [| |exact V0| | |exact V1]; lia. }
    destruct (zc =? 0); cbn [negb].
    + specialize (BR e3 c3 vf k2 k3 ltac:(lia) ltac:(lia) HW2' (conj Hk3 S3)).
      destruct (evalV L shp F dt e3 ρ) as [w| |]; cbn [rbind]; auto; [|now apply ev_bind_raise].
      destruct BR as (r2 & X2 & V2 & K2). exists (leave L scoped r2). split; [|split].
      * rewrite (ev_bind_ok _ _ _ _ _ X2). reflexivity.
      * eapply evolve_trans; eauto.
      * intros r'' HA. eapply evals_name. rewrite HA; [exact K2|cbn; lia].
    + specialize (BR e2 c2 vt k1 k2 ltac:(lia) ltac:(lia) HW1' (conj Hk2 S2)).
      destruct (evalV L shp F dt e2 ρ) as [w| |]; cbn [rbind]; auto; [|now apply ev_bind_raise].
      destruct BR as (r2 & X2 & V2 & K2). exists (leave L scoped r2). split; [|split].
      * rewrite (ev_bind_ok _ _ _ _ _ X2). reflexivity.
      * eapply evolve_trans; eauto.
      * intros r'' HA. eapply evals_name. rewrite HA; [exact K2|cbn; lia].
  - (* producer *)
    destruct HW as (Hlt & Hlen & Hix). destruct HC as [_ HC]. specialize (HC f ltac:(cbn; auto)).
    destruct (arg_name_in _ HC) as [nm Hnm]. destruct (proj2 HN f HC) as (fd & Hfd & Hsh).
    destruct (renders_ok P idx Hix k) as (c & vs & k1 & E1 & Hk1 & Hlv & S1).
    rewrite render_func, Hnm. cbn [obind]. rewrite Hfd. cbn [obind throw_none]. rewrite E1. cbn [obind].
    do 3 eexists. split; [reflexivity|]. split; [lia|].
    intros ic' lim' P' r ρ HW' Hr Henv Hu. cbn in HW'. destruct HW' as (_ & _ & Hix').
    cbn [evalV]. destruct (mapM (evalI L ρ) idx) as [zs| |] eqn:Ez; cbn [rbind]; auto.
    2:{ exfalso. eapply mapM_evalI_noraise; eauto. }
    destruct (S1 P' r ρ zs Hix' Hr Henv Hu Ez) as (Bz & r1 & X1 & V1 & A1).
    unfold readF. destruct (in_rangeb (shp f) zs) eqn:Er; auto. apply in_rangeb_spec in Er.
    destruct (HI _ _ Hnm) as (Hb & l & Hl & Hfil). cbn in Hb, Hfil. destruct (Hfil zs Er) as (w & -> & Hw).
    exists r1. split; [assumption|]. split; [assumption|]. intros r'' HA.
    destruct (arr_idx_ok r'' (shp f) zs vs Er Hb (A1 r'' HA)) as (u & U1 & U2). rewrite Hsh.
    pose proof (flat_bounds _ _ Er).
    eapply evals_idx; eauto. eapply (ok_idx _ HL); eauto. apply inB_intro; [lia|eapply ltB_le; [exact Hb|lia]].
  - (* buffer *)
    destruct HW as (Hlt & Hlen & Hix). destruct HC as [HC _]. specialize (HC n ltac:(cbn; auto)).
    destruct (arg_name_in _ HC) as [nm Hnm]. destruct (proj1 HN n HC) as (nd & Hnd & Hoff & Hst).
    destruct (renders_ok P idx Hix k) as (c & vs & k1 & E1 & Hk1 & Hlv & S1).
    rewrite render_buf, Hnm. cbn [obind]. unfold get. rewrite Hnd. cbn [obind]. rewrite E1. cbn [obind].
    do 3 eexists. split; [reflexivity|]. split; [lia|].
    intros ic' lim' P' r ρ HW' Hr Henv Hu. cbn in HW'. destruct HW' as (_ & _ & Hix').
    cbn [evalV]. destruct (mapM (evalI L ρ) idx) as [zs| |] eqn:Ez; cbn [rbind]; auto.
    2:{ exfalso. eapply mapM_evalI_noraise; eauto. }
    destruct (S1 P' r ρ zs Hix' Hr Henv Hu Ez) as (Bz & r1 & X1 & V1 & A1).
    unfold readF. destruct (in_rangeb (shp n) zs) eqn:Er; auto. apply in_rangeb_spec in Er.
    destruct (HI _ _ Hnm) as (Hb & l & Hl & Hfil). cbn in Hb, Hfil. destruct (Hfil zs Er) as (w & -> & Hw).
    exists r1. split; [assumption|]. split; [assumption|]. intros r'' HA. rewrite Hoff, Hst.
    destruct (buf_idx_ok r'' (shp n) zs vs Er Hb (A1 r'' HA)) as (u & U1 & U2).
    pose proof (flat_bounds _ _ Er).
    eapply evals_idx; eauto. eapply (ok_idx _ HL); eauto. apply inB_intro; [lia|eapply ltB_le; [exact Hb|lia]].
Qed.
End Render.
