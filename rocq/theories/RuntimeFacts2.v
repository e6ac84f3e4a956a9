(* materialize: every kernel of the list, and whole histories of API calls. *)
From Verif Require Import Base BaseFacts Util UtilFacts Lang Spec Graph Api ApiFacts Denote SpecFacts DenoteFacts Reach Tolist TolistFacts
  Algo AlgoSem AlgoConv AlgoConv2 AlgoFuse AlgoFuse2 AlgoConvert AlgoConvert2
  Kernel Sched Codegen Backends KernFacts RenderFacts KernelOk RunFacts SchedFacts SchedGpu KernelRun KernelRun2 BackendFacts AlgoTop
  AlgoMore CacheKey Runtime RuntimeFacts.

(* ------------------------------------------------------------------ cache keys always exist *)
Section KeyTotal.
Context (g : graph) (E : fenv).
Definition expr_keys (fuel : nat) : list expr -> list nat -> outcome (list ekey * list nat) :=
  fix many (l : list expr) (ids : list nat) : outcome (list ekey * list nat) :=
  match l with
  | [] => Done ([], ids)
  | x :: l' => '(k, ids1) <~ expr_key g E fuel x ids ;; '(ks, ids2) <~ many l' ids1 ;; Done (k :: ks, ids2)
  end.
Lemma expr_key_func fuel f idx ids : expr_key g E fuel (EFunc f idx) ids =
  match fuel with
  | O => Throw InternalErr
  | S k => fd <~ throw_none InternalErr (E f) ;; '(k1, ids1) <~ expr_key g E k (f_expr fd) ids ;; '(ks, ids2) <~ expr_keys fuel idx ids1 ;; Done (KyFnc k1 ks, ids2)
  end.
Proof. destruct fuel; reflexivity. Qed.
Lemma expr_key_buf fuel n idx ids : expr_key g E fuel (EBuf n idx) ids =
  (nd <~ get g n ;;
   '(ks, ids2) <~ expr_keys fuel idx (nadd n ids) ;;
   i <~ throw_none InternalErr (npos n (nadd n ids)) ;;
   Done (KyBuf i (n_shape nd) (n_strides nd) (n_offset nd) (n_dtype nd) ks, ids2)).
Proof. destruct fuel; reflexivity. Qed.
Lemma npos_app n l x : npos n l = None -> npos n (l ++ [x]) = if Nat.eqb x n then Some (length l) else None.
Proof.
  induction l as [|y l IH]; cbn; [destruct (Nat.eqb x n); reflexivity|]. destruct (Nat.eqb y n); [discriminate|].
  destruct (npos n l); [discriminate|]. intros _. rewrite IH by reflexivity. destruct (Nat.eqb x n); reflexivity.
Qed.
Lemma npos_nadd n l : exists i, npos n (nadd n l) = Some i.
Proof. unfold nadd. destruct (npos n l) eqn:En; [eauto|]. rewrite npos_app by assumption. rewrite Nat.eqb_refl. eauto. Qed.
Lemma ix_keys_total P fuel l : Forall (is_ix P) l -> forall ids, exists ks, expr_keys fuel l ids = Done (ks, ids).
Proof.
  assert (HI : forall x, is_ix P x -> forall ids, exists k, expr_key g E fuel x ids = Done (k, ids)).
  { induction x using expr_ind'; intros HP ids; cbn in HP; try contradiction; try (destruct fuel; cbn; eauto; fail).
    destruct (IHx1 (proj1 HP) ids) as (k1 & E1). destruct (IHx2 (proj2 HP) ids) as (k2 & E2).
    exists (KyBin b k1 k2). destruct fuel; cbn in *; rewrite E1; cbn; rewrite E2; reflexivity. }
  induction 1 as [|x l Hx _ IH]; intros ids; cbn; [eauto|]. destruct (HI x Hx ids) as (k & ->). cbn. destruct (IH ids) as (ks & ->). cbn. eauto.
Qed.
(* all functions below lim have an entry whose references are smaller still *)
Context (fs : list nat)
  (HE : forall f, In f fs -> exists fd shp nd, E f = Some fd /\ wff shp (isc g) f (out_loops f (n_shape nd)) (f_expr fd) /\
           forall d, In d (func_refs (f_expr fd)) -> In d fs).
Lemma wfe_key_total fuel : forall lim shp P e ids, (lim <= fuel)%nat -> wfe shp (isc g) lim P e -> (forall d, In d (func_refs e) -> In d fs) ->
  exists k ids', expr_key g E fuel e ids = Done (k, ids').
Proof using HE.
  induction fuel as [|n IHn]; intros lim shp P e; induction e using expr_ind'; intros ids Hl HW Hin; cbn [wfe] in HW; try contradiction.
  all: try (cbn; eauto; fail).
  all: try (destruct HW as [W1 W2]; destruct (IHe1 ids Hl W1 ltac:(intros; apply Hin; cbn; apply in_or_app; auto)) as (k1 & i1 & E1);
            destruct (IHe2 i1 Hl W2 ltac:(intros; apply Hin; cbn; apply in_or_app; auto)) as (k2 & i2 & E2);
            cbn in *; rewrite E1; cbn; rewrite E2; cbn; eauto; fail).
  all: try (destruct (IHe ids Hl HW Hin) as (k1 & i1 & E1); cbn in *; rewrite E1; cbn; eauto; fail).
  all: try (destruct HW as ((nd & Hn & _) & _ & HF); rewrite expr_key_buf; unfold get; rewrite Hn; cbn [obind];
            match goal with |- context [expr_keys ?m ?ix ?b] => destruct (ix_keys_total P m ix HF b) as (ks & ->) end; cbn [obind];
            match goal with |- context [npos ?a (nadd ?a ?b)] => destruct (npos_nadd a b) as (i & ->) end; cbn; eauto; fail).
  - destruct HW as [? _]. lia.
  - destruct HW as (Hlt & _ & HF). rewrite expr_key_func. destruct (HE f) as (fd & shp' & nd & Hfd & HW' & Hrf); [apply Hin; now left|].
    rewrite Hfd. cbn [throw_none obind].
    assert (HK : exists k ids', expr_key g E n (f_expr fd) ids = Done (k, ids')).
    { destruct (f_expr fd) eqn:Ee; try (apply (IHn f shp' (fun l => In l (out_loops f (n_shape nd)))); [lia|exact HW'|exact Hrf]).
      destruct HW' as [HW' _]. destruct (IHn f shp' _ _ ids ltac:(lia) HW' Hrf) as (k & ids' & E1). exists (KyRed (map (fun l => (lname l, l_ext l)) reduced) k), ids'.
      destruct n; cbn in *; rewrite E1; reflexivity. }
    destruct HK as (k & ids' & ->). cbn [obind]. destruct (ix_keys_total P (S n) idx HF ids') as (ks & ->). cbn. eauto.
Qed.
Lemma cache_key_total f sc fd : In f fs -> E f = Some fd -> (f < length g)%nat -> exists key, cache_key g E fd sc = Done key.
Proof using HE.
  intros Hf Hfd Hlt. destruct (HE f Hf) as (fd' & shp & nd & Hfd' & HW & Hrf). assert (fd' = fd) by congruence. subst fd'.
  assert (HK : exists k ids', expr_key g E (S (length g)) (f_expr fd) [] = Done (k, ids')).
  { destruct (f_expr fd) eqn:Ee; try (apply (wfe_key_total (S (length g)) f shp (fun l => In l (out_loops f (n_shape nd)))); [lia|exact HW|exact Hrf]).
    destruct HW as [HW _]. destruct (wfe_key_total (S (length g)) f shp _ _ [] ltac:(lia) HW Hrf) as (k & ids' & E1). cbn in *. rewrite E1. cbn. eauto. }
  destruct HK as (k & ids' & HK). unfold cache_key. rewrite HK. cbn. eauto.
Qed.
End KeyTotal.

(* ------------------------------------------------------------------ one materialize *)
(* what C additionally needs (always true in Python): integers fit, and one dtype *)
Definition mat_ok (L : lang) (g : graph) (a : nat) : Prop := fits L g a /\ exists D, one_dtype L g a D.

Section Mat.
Context (B : cpu_backend).
Notation L := (b_lang B).
Context (HB : backend_ok B) (C : desc -> Prop) (HC : key_safe C).
Let HL : lang_ok L := bo_lang _ HB.

Lemma cone_lt_graph g a n : wf_graph g -> (a < length g)%nat -> cone g a n -> (n < length g)%nat.
Proof.
  intros Hw Ha. induction 1 as [|n nd b Hc IH Hn Hb]; auto. pose proof (wf_inputs_lt g n nd Hw Hn) as H. rewrite Forall_forall in H. specialize (H b Hb). lia.
Qed.

Section Run.
Context (g : graph) (a : nat) (nda : node) (Ha : nth_error g a = Some nda) (Hnc : is_const (n_op nda) = false)
  (Hns : no_scalar_reshape g a) (Hm : mat_ok L g a) (E : fenv) (fs : list nat) (Hcv : convert g a = Done (E, fs))
  (HCg : forall f fd sc, In f fs -> E f = Some fd -> auto_schedule false fd = Done sc -> C (mkD g E fd sc)).

Lemma fs_nonconst s f nd : inv B C s -> r_graph B s = g -> convert_spec L g a E fs -> In f fs -> nth_error g f = Some nd -> is_const (n_op nd) = false.
Proof using Ha Hnc.
  intros HI Hg HS Hf Hn. destruct (cs_keep _ _ _ _ _ HS f Hf) as [->|(nd' & H1 & H2 & _)]; congruence.
Qed.

Lemma run_func_ok s l1 f l2 fd sc : inv B C s -> r_graph B s = g -> fs = l1 ++ f :: l2 -> (forall d, In d l1 -> good B s d) ->
  E f = Some fd -> auto_schedule false fd = Done sc ->
  exists s' oc, run_func B E fd sc s = (s', oc) /\ inv B C s' /\ r_graph B s' = g /\ r_runs B s' = S (r_runs B s) /\
    (forall b, b <> f -> r_cpu B s' b = r_cpu B s b) /\ (forall n, good B s n -> good B s' n) /\
    match oc with
    | Done _ => good B s' f /\ forall x, In x (func_args (f_expr fd)) -> ~ refused B g (arg_id x)
    | Throw e => (e = ValueErr /\ exists idx, in_range (shape_of g f) idx /\ t_at (den L g f) idx = Raise) \/
                 (e = TypeErr /\ exists x, In x (func_args (f_expr fd)) /\ cone g a (arg_id x) /\ refused B g (arg_id x))
    end.
Proof using HB HC Ha Hnc Hns Hm Hcv HCg.
  intros HI Hg Hfs Hgood Hfd Hsc. pose proof (i_reach _ _ _ HI) as Hr. rewrite Hg in Hr. pose proof (reach_wf _ Hr) as Hw.
  assert (Hva : valid g a) by (unfold valid; apply nth_error_Some; congruence).
  pose proof (convert_inv L g a E fs HL Hr Hva Hns Hcv) as HS.
  assert (Hf : In f fs) by (rewrite Hfs; apply in_or_app; right; now left).
  destruct (convert_kctx L g a E fs f HS Hf) as (fd' & nd & Hfd' & HK). assert (fd' = fd) by congruence. subst fd'.
  pose proof (kc_nd _ _ _ _ _ HK) as Hnd.
  assert (Hlt : (f < length g)%nat) by (apply nth_error_Some; congruence).
  pose proof (fs_nonconst s f nd HI Hg HS Hf Hnd) as Hncf.
  destruct Hm as [Hfits (D & HD)].
  assert (Hcone : cone g a f) by (eapply cs_cone; eauto).
  assert (Hacone : forall x, In x (func_args (f_expr fd)) -> cone g a (arg_id x)).
  { intros x Hx. apply (in_args g f) in Hx. destruct x as [n|d]; cbn.
    - eapply convert_bufs; eauto.
    - eapply cs_cone; [exact HS|]. rewrite Hfs. apply in_or_app. left. exact (cs_topo _ _ _ _ _ HS l1 f l2 Hfs fd Hfd d Hx). }
  assert (Hfit : forall x, In x (func_args (f_expr fd)) -> ltB L (zprod (shape_of g (arg_id x)))).
  { intros x Hx. destruct (arg_node g Hw E f fd nd HK x Hx) as (xd & H1 & _ & H2). rewrite H2. apply (Hfits _ _ (Hacone x Hx) H1). }
  assert (HfitO : ltB L (zprod (n_shape nd))) by (apply (Hfits _ _ Hcone Hnd)).
  assert (Hval : forall idx, in_range (n_shape nd) idx -> evalV L (shape_of g) (Fden L g) (n_dtype nd) (f_expr fd) (lenv f (n_shape nd) idx) = Fden L g f idx).
  { intros idx Hi. rewrite (evalV_dt L (shape_of g) (Fden L g) (n_dtype nd) D).
    - eapply cs_value; eauto.
    - exact (proj1 (cs_bufs _ _ _ _ _ HS D f fd nd HD Hf Hfd Hnd)). }
  assert (Hready : forall x, In x (func_args (f_expr fd)) -> (exists xd vals, nth_error g (arg_id x) = Some xd /\ n_op xd = OConst vals) \/ good B s (arg_id x)).
  { intros x Hx. pose proof Hx as Hx'. apply (in_args g f) in Hx. destruct x as [n|d]; cbn [arg_id].
    - left. destruct (wff_bufs _ _ _ _ _ _ (kc_wff g E f fd nd HK) Hx) as (bd & H1 & H2). exists bd. destruct (n_op bd); try discriminate. eauto.
    - right. apply Hgood. exact (cs_topo _ _ _ _ _ HS l1 f l2 Hfs fd Hfd d Hx). }
  (* key *)
  assert (Hkey : exists key, cache_key g E fd sc = Done key).
  { eapply (cache_key_total g E fs); eauto. intros f0 Hf0. destruct (convert_kctx L g a E fs f0 HS Hf0) as (fd0 & nd0 & H1 & HK0).
    exists fd0, (shape_of g), nd0. split; auto. split; [exact (kc_wff g E f0 fd0 nd0 HK0)|]. intros d Hd.
    apply in_split in Hf0 as (k1 & k2 & Hk). rewrite Hk. apply in_or_app. left. exact (cs_topo _ _ _ _ _ HS k1 f0 k2 Hk fd0 H1 d Hd). }
  destruct Hkey as [key Hkey]. subst g.
  unfold run_func. rewrite (arg_buffers B C s HI E f fd nd HK), Hkey.
  assert (Hout : f_out fd = f) by (rewrite (kc_fd _ _ _ _ _ HK); reflexivity). rewrite Hout.
  (* which kernel runs, and in which state *)
  assert (HX : exists s0 kern k0 k1, codegen (r_graph B s) E (func_args (f_expr fd)) fd sc k0 = Done (kern, k1) /\
     (match cache_get (r_cache B s) key with
      | Some kern => invoke B s kern (f :: map arg_id (func_args (f_expr fd)))
      | None => match codegen (r_graph B s) E (func_args (f_expr fd)) fd sc (r_tmp B s) with
                | Throw e => (s, Throw e)
                | Done (kern, k') => invoke B (mkRt B (r_graph B s) (r_cpu B s) ((key, kern) :: r_cache B s) k' (r_runs B s)) kern (f :: map arg_id (func_args (f_expr fd)))
                end
      end = invoke B s0 kern (f :: map arg_id (func_args (f_expr fd)))) /\
     r_graph B s0 = r_graph B s /\ r_cpu B s0 = r_cpu B s /\ r_runs B s0 = r_runs B s /\
     forall key' kern', cache_get (r_cache B s0) key' = Some kern' -> exists d k0 k1, C d /\ key_of d = Done key' /\ code_of d k0 = Done (kern', k1)).
  { destruct (cache_get (r_cache B s) key) as [kern|] eqn:Ec.
    - destruct (i_cache _ _ _ HI _ _ Ec) as (d & k0 & k1 & Hd & Hdk & Hdc). exists s, kern, k0, k1. split.
      + rewrite <- Hdc. symmetry. exact (HC d (mkD (r_graph B s) E fd sc) key Hd (HCg f fd sc Hf Hfd Hsc) Hdk Hkey k0).
      + split; auto. split; auto. split; auto. split; auto. apply (i_cache _ _ _ HI).
    - destruct (codegen_ok (r_graph B s) Hw E f fd nd HK sc (r_tmp B s)) as (ps & c & v & k1 & HCG & _). rewrite HCG.
      eexists _, _, _, _. split; [exact HCG|]. split; [reflexivity|]. split; auto. split; auto. split; auto.
      cbn [r_cache cache_get]. intros key' kern'. destruct (kkey_eq_dec key key') as [->|]; [|apply (i_cache _ _ _ HI)].
      intros Hk. injection Hk as <-. exists (mkD (r_graph B s) E fd sc), (r_tmp B s), k1. split; [apply (HCg f); auto|]. split; auto. }
  destruct HX as (s0 & kern & k0 & k1 & HCG & HX & Hg0 & Hc0 & Hr0 & Hcache). rewrite HX. clear HX.
  destruct (invoke_ok B HB C s HI E f fd nd HK Hncf Hfit HfitO Hval Hready sc k0 k1 kern s0 Hsc HCG Hg0 Hc0)
    as (s' & oc & HIV & G1 & G2 & G3 & G4 & G5 & G6 & G7 & G8).
  exists s', oc. split; [exact HIV|].
  assert (HI' : inv B C s').
  { split.
    - rewrite G1. exact Hr.
    - intros n nd' vals Hn Hop. rewrite G1 in Hn. destruct (Nat.eq_dec n f) as [->|Hne].
      + assert (nd' = nd) by congruence. subst. rewrite Hop in Hncf. discriminate.
      + rewrite G5 by assumption. eapply i_const; eauto.
    - intros n nd' vs Hn Hc Hvs. rewrite G1 in Hn. destruct (Nat.eq_dec n f) as [->|Hne].
      + assert (nd' = nd) by congruence. subst. auto.
      + rewrite G5 in Hvs by assumption. eapply i_buf; eauto.
    - intros n Hn. rewrite G1 in Hn. destruct (Nat.eq_dec n f) as [->|Hne]; [congruence|]. rewrite G5 by assumption. eapply i_new; eauto.
    - intros key' kern' Hk. rewrite G2 in Hk. auto. }
  split; [exact HI'|]. split; [exact G1|]. split; [congruence|]. split; [exact G5|]. split.
  - intros n (nd' & vs & H1 & H2 & H3 & H4). destruct (Nat.eq_dec n f) as [->|Hne].
    + assert (nd' = nd) by congruence. subst nd'. destruct oc as [u|e]; [exact (proj1 G8)|].
      destruct G8 as [[-> (idx & Hi & Hraise)]|[-> (x & Hx & Hrf)]].
      * exfalso. destruct (H4 idx Hi) as (v & Hv & _). congruence.
      * exists nd, vs. rewrite G1. repeat split; auto.
    + exists nd', vs. rewrite G1. repeat split; auto. now rewrite G5.
  - destruct oc as [u|e]; [exact G8|]. destruct G8 as [[-> (idx & Hi & Hraise)]|[-> (x & Hx & Hrf)]].
    + left. split; auto. exists idx. split; auto. unfold shape_of. now rewrite Hnd.
    + right. split; auto. exists x. auto.
Qed.

Lemma run_funcs_ok l2 : forall l1 s l, inv B C s -> r_graph B s = g -> fs = l1 ++ l2 -> (forall d, In d l1 -> good B s d) ->
  mapOut (schedule_one B E) l2 = Done l ->
  exists s' oc, run_funcs B E l s = (s', oc) /\ inv B C s' /\ r_graph B s' = g /\
    (forall b, ~ In b l2 -> r_cpu B s' b = r_cpu B s b) /\ (forall n, good B s n -> good B s' n) /\
    match oc with
    | Done _ => r_runs B s' = (r_runs B s + length l2)%nat /\ (forall d, In d l2 -> good B s' d) /\
                forall f fd x, In f l2 -> E f = Some fd -> In x (func_args (f_expr fd)) -> ~ refused B g (arg_id x)
    | Throw e => (e = ValueErr /\ exists f idx, In f l2 /\ in_range (shape_of g f) idx /\ t_at (den L g f) idx = Raise) \/
                 (e = TypeErr /\ exists f fd x, In f l2 /\ E f = Some fd /\ In x (func_args (f_expr fd)) /\ cone g a (arg_id x) /\ refused B g (arg_id x))
    end.
Proof using HB HC Ha Hnc Hns Hm Hcv HCg.
  induction l2 as [|f l2 IH]; intros l1 s l HI Hg Hfs Hgood HM.
  - injection HM as <-. cbn. exists s, (Done tt). split; auto. split; auto. split; auto. split; auto. split; auto. split; [cbn; lia|]. split; cbn; tauto.
  - cbn [mapOut] in HM. bd HM. destruct v as [fd sc]. bd HM. injection HM as <-. cbn [run_funcs].
    unfold schedule_one in D. bd D. destruct (E f) as [fd'|] eqn:Ef; [|discriminate]. injection D1 as <-. bd D.
    destruct (forallb _ _) in D; [|discriminate]. injection D as <- <-.
    destruct (run_func_ok s l1 f l2 fd' v0 HI Hg Hfs Hgood Ef D1) as (s1 & oc & HR & HI1 & Hg1 & Hr1 & Hfr & Hmono & Hoc). rewrite HR.
    destruct oc as [u|e].
    + destruct Hoc as [Hoc Href]. destruct (IH (l1 ++ [f]) s1 v HI1 Hg1) as (s2 & oc & HR2 & HI2 & Hg2 & Hfr2 & Hmono2 & Hoc2).
      { rewrite <- app_assoc. exact Hfs. }
      { intros d Hd. apply in_app_iff in Hd as [Hd|[<-|[]]]; auto. }
      { exact D0. }
      exists s2, oc. split; auto. split; auto. split; auto. split.
      { intros b Hb. rewrite Hfr2 by (intros H; apply Hb; now right). apply Hfr. intros ->. apply Hb. now left. }
      split; auto. destruct oc as [u2|e].
      * destruct Hoc2 as (Q1 & Q2 & Q3). split; [cbn; lia|]. split.
        -- intros d [<-|Hd]; auto.
        -- intros f0 fd0 x [<-|Hf0] Hfd0 Hx; [|eauto]. assert (fd0 = fd') by congruence. subst. auto.
      * destruct Hoc2 as [[-> (f' & idx & Q1 & Q2)]|(-> & f' & fd2 & x & Q1 & Q2 & Q3)].
        -- left. split; auto. exists f', idx. split; [now right|auto].
        -- right. split; auto. exists f', fd2, x. split; [now right|auto].
    + exists s1, (Throw e). split; auto. split; auto. split; auto. split.
      { intros b Hb. apply Hfr. intros ->. apply Hb. now left. }
      split; auto. destruct Hoc as [[-> (idx & Q1 & Q2)]|(-> & x & Q1 & Q2)].
      * left. split; auto. exists f, idx. split; [now left|auto].
      * right. split; auto. exists f, fd', x. split; [now left|auto].
Qed.
End Run.
End Mat.
