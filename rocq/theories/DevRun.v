(* Launches, materialize() and whole histories on a GPU keep the device invariant. *)
From Verif Require Import Base BaseFacts Util UtilFacts Lang Spec Graph Api ApiFacts Denote SpecFacts DenoteFacts Reach Tolist TolistFacts
  Algo AlgoSem AlgoConv AlgoConv2 AlgoFuse AlgoFuse2 AlgoConvert AlgoConvert2
  Kernel Sched Codegen Backends CacheKey KernFacts RenderFacts KernelOk RunFacts SchedFacts SchedGpu KernelRun KernelRun2 BackendFacts AlgoTop AlgoMore
  Runtime RuntimeFacts RuntimeFacts2 History HistFacts Safety Nest NestSched NestBody Parallel ParKernel ParCpu ParTop ParGpu Device DevFacts.

Section D.
Context (B : cpu_backend).
Notation L := (b_lang B).
Notation V := (val (b_lang B)).
Notation dev := (dev B).
Context (HB : backend_ok B) (C : desc -> Prop) (HC : key_safe C).
Let HL : lang_ok L := bo_lang _ HB.
Notation nobody := (fun _ : nat => False).
Notation dinv := (dinv B C nobody).

(* a launch wrote the elements of n to its memory *)
Lemma dinv_launch s n p ns ps m' vs : dinv s -> dv_ptr B s n = Some p -> ~ In n ns -> Forall2 (ready B s) ns ps ->
  m' p = Some vs -> dfilled B (dv_graph B s) n vs -> (forall q, q <> p -> m' q = dv_mem B s q) ->
  dinv (set_mem B s m' (EvLaunch B n p (inputs_at B s ns ps))).
Proof.
  intros HI Hp Hn Hr Hm Hd Hfr. pose proof (di_held _ _ _ _ HI _ _ Hp) as Hheld. pose proof (di_ptr _ _ _ _ HI _ _ Hp) as (Hal & nd & vs0 & Hnd & Hm0 & Hl0).
  assert (Hlt : (n < length (dv_graph B s))%nat) by (now apply (di_alive _ _ _ _ HI)).
  assert (Hins : forall m q ws, In (m, q, ws) (inputs_at B s ns ps) -> In m ns /\ ready B s m q /\ dv_mem B s q = Some ws).
  { clear - Hr. unfold inputs_at. induction Hr as [|a q ns ps H _ IH]; intros m q' ws Hin; cbn in Hin; [destruct Hin|]. destruct Hin as [Hin|Hin].
    - injection Hin as <- <- <-. destruct H as (R1 & (vs & R2 & R3) & R4). rewrite R2. split; [now left|]. split; auto. split; auto. split; eauto.
    - destruct (IH _ _ _ Hin) as (H1 & H2). split; [now right|auto]. }
  destruct HI as [I1 I2 I3 I4 I5 I6 I7 I8 I9 I10 I11 I12 I13 I14 I15].
  split; cbn [set_mem dv_graph dv_host dv_cache dv_alive dv_ptr dv_mem dv_log]; auto.
  - intros m q Hq. destruct (I8 m q Hq) as (A1 & nd' & ws & A2 & A3 & A4). split; auto. destruct (Nat.eq_dec q p) as [->|Hne].
    + assert (m = n) by eauto. subst m. exists nd', vs. split; auto. split; auto. destruct Hd as (nd'' & D1 & D2 & _). congruence.
    + exists nd', ws. rewrite Hfr; auto.
  - intros q ws Hq. destruct (Nat.eq_dec q p) as [->|Hne]; [eauto|]. rewrite Hfr in Hq by assumption. eauto.
  - intros m q Hq. destruct (I11 m q Hq) as [A1 A2]. split; [now right|]. intros [Hx|Hx]; [discriminate|auto].
  - intros m q [Hx|Hx]; [discriminate|]. destruct (I12 m q Hx) as [A1 [A2|[A2 A3]]]; split; auto. right. split; auto. now right.
  - intros m q [Hx|Hx]; [discriminate|eauto].
  - intros m q ins [Hx|Hx].
    + injection Hx as <- <- _. split; auto. intros _. split; auto. eauto.
    + destruct (I14 m q ins Hx) as [A1 A2]. split; auto. intros Hm'. destruct (A2 Hm') as (A3 & ws & A4 & A5). split; auto.
      destruct (Nat.eq_dec q p) as [->|Hne]; [assert (m = n) by eauto; subst m; eauto|]. exists ws. rewrite Hfr; auto.
  - constructor; auto. cbn. split; auto. intros m q ws Hin. destruct (Hins _ _ _ Hin) as (A1 & A2 & A3). destruct A2 as (R1 & (ws' & R2 & R3) & R4).
    split; [intros ->; assert (m = n) by eauto; congruence|]. split; auto. split; auto. assert (ws' = ws) by congruence. now subst.
Qed.

(* ------------------------------------------------------------------ one launch *)
Section Launch.
Context (g : graph) (Hw : wf_graph g) (E : fenv) (f : nat) (fd : func) (nd : node) (HK : kctx g E f fd nd).
Let args := func_args (f_expr fd).
Context (Hfit : forall x, In x args -> ltB L (zprod (shape_of g (arg_id x)))) (HfitO : ltB L (zprod (n_shape nd)))
  (HBG : n_shape nd <> [] -> ltB L (last (n_shape nd) 0 + 256)).
Context (Hval : forall idx, in_range (n_shape nd) idx ->
  evalV L (shape_of g) (Fden L g) (n_dtype nd) (f_expr fd) (lenv f (n_shape nd) idx) = Fden L g f idx).
Context (Hdef : forall idx, in_range (n_shape nd) idx -> exists v, t_at (den L g f) idx = Ok v).
Lemma gkval_den idx : in_range (n_shape nd) idx -> kval L g f fd nd (Fden L g) idx = t_at (den L g f) idx.
Proof using HB Hw HK Hval.
  intros Hi. unfold kval. rewrite Hval by assumption. unfold Fden. destruct (t_at (den L g f) idx) eqn:Ed; cbn; auto. f_equal.
  eapply den_coerced; eauto; [apply (ok_idem _ HL)|apply (kc_nd _ _ _ _ _ HK)].
Qed.
Lemma args_ready s ns ps kern p out : dv_graph B s = g -> dinv s -> ns = map arg_id args -> ~ In f ns -> dv_ptr B s f = Some p -> Forall2 (ready B s) ns ps ->
  dv_mem B s p = Some out -> Z.of_nat (length out) = zprod (n_shape nd) -> placed L g fd nd (Fden L g) kern p ps (dv_mem B s) out.
Proof using Hw HK Hfit.
  intros Hg HI Hns Hnin Hp HR Hm Hlen.
  split; [|split; [|split; [exact Hm|split; [exact Hlen|]]]].
  - assert (Hl := Forall2_len _ _ _ HR). rewrite Hns, map_length in Hl. fold args. congruence.
  - intros Hin. apply In_nth_error in Hin as [i Hi].
    assert (Hrn : exists n, In n ns /\ ready B s n p).
    { clear - HR Hi. revert i Hi. induction HR as [|n q ns ps H _ IH]; intros [|i] Hi; try discriminate; cbn in Hi.
      - injection Hi as ->. exists n. split; [now left|auto].
      - destruct (IH i Hi) as (m & H1 & H2). exists m. split; [now right|auto]. }
    destruct Hrn as (n & Hn & Hrd). assert (n = f) by (eapply (di_inj _ _ _ _ HI); [apply Hrd|exact Hp]). subst n. contradiction.
  - intros i x l Hx Hl. fold args in Hx. assert (Hxin : In x args) by (eapply nth_error_In; eauto). split; [now apply Hfit|].
    assert (Hrd : ready B s (arg_id x) l).
    { assert (Hi : nth_error ns i = Some (arg_id x)) by (rewrite Hns, nth_error_map, Hx; reflexivity). clear - HR Hi Hl. revert i Hi Hl.
      induction HR as [|n q ns ps H _ IH]; intros [|i] Hi Hl; try discriminate; cbn in *; [congruence|eauto]. }
    destruct Hrd as (_ & (vs & R1 & xd & R2 & R3 & R4) & _). rewrite Hg in *. exists vs. split; auto.
    unfold shape_of. rewrite R2. exact R4.
Qed.
Lemma glaunch_ok s sc k0 k1 kern ns p ps s' oc : dv_graph B s = g -> dinv s -> ns = map arg_id args -> ~ In f ns -> dv_ptr B s f = Some p -> Forall2 (ready B s) ns ps ->
  auto_schedule true fd = Done sc -> codegen g E args fd sc k0 = Done (kern, k1) -> glaunch B s sc kern f ns p ps s' oc ->
  dinv s' /\ same B s s' /\ (forall m, launched B s' m -> launched B s m \/ m = f) /\
  match oc with Done _ => launched B s' f | Throw e => e = RuntimeErr /\ s' = s /\ launchable (launch_dims sc) = false end.
Proof using HB Hw HK Hfit HfitO HBG Hval Hdef.
  intros Hg HI Hns Hnin Hp HR Hsc HCG HGL.
  destruct (di_ptr _ _ _ _ HI _ _ Hp) as (Hal & nd' & out & Hnd & Hm & Hlen). rewrite Hg in Hnd. assert (nd' = nd) by (rewrite (kc_nd _ _ _ _ _ HK) in Hnd; congruence). subst nd'.
  pose proof (args_ready s ns ps kern p out Hg HI Hns Hnin Hp HR Hm Hlen) as HPl.
  assert (Hok : forall idx, in_range (n_shape nd) idx -> exists v, kval L g f fd nd (Fden L g) idx = Ok v) by (intros idx Hi; rewrite gkval_den; auto).
  destruct (gpu_launch L HL true g Hw E f fd nd HK HfitO HBG (Fden L g) Hok sc k0 kern k1 p ps (dv_mem B s) out Hsc HCG HPl) as (_ & N & HSe).
  inversion HGL as [Hla E1 E2|k ts m' Hla Hst Hfin E1 E2|k ts m' m'' Hla Hst Hbad E1 E2]; subst s' oc.
  - split; auto. split; [apply same_refl|]. split; auto.
  - destruct (HSe k ts m' Hst) as (_ & _ & _ & Hf). destruct (Hf Hfin) as (out' & O1 & O2 & O3 & O4).
    assert (Hdf : dfilled B (dv_graph B s) f out').
    { rewrite Hg. exists nd. split; auto. split; [congruence|]. intros idx Hi. destruct (O3 idx Hi) as (v & V1 & V2). exists v. split; auto. rewrite <- V1. symmetry. now apply gkval_den. }
    split; [eapply dinv_launch; eauto|]. split; [split; cbn; auto|]. split.
    + intros m (q & ins & [Hx|Hx]); [injection Hx as <- _ _; now right|]. left. exists q, ins. exact Hx.
    + exists p, (inputs_at B s ns ps). now left.
  - exfalso. destruct (HSe k ts m' Hst) as (_ & Hnr & Hprog & _). destruct Hbad as [Hr|[H1 H2]]; [contradiction|]. destruct Hprog as [|[st Hst']]; [contradiction|]. eapply H2; eauto.
Qed.
End Launch.

(* ------------------------------------------------------------------ one materialize *)
Lemma cone_alive s a n : dinv s -> dv_alive B s a = true -> cone (dv_graph B s) a n -> dv_alive B s n = true.
Proof. intros HI Ha. induction 1 as [|n nd b Hc IH Hn Hb]; auto. eapply (di_in _ _ _ _ HI); eauto. Qed.

Section Run.
Context (g : graph) (a : nat) (nda : node) (Ha : nth_error g a = Some nda) (Hnc : is_const (n_op nda) = false)
  (Hns : no_scalar_reshape g a) (Hm : gmat_ok B g a) (E : fenv) (fs : list nat) (Hcv : convert g a = Done (E, fs))
  (HCg : forall f fd sc, In f fs -> E f = Some fd -> auto_schedule true fd = Done sc -> C (mkD g E fd sc)).
(* what a failing materialize may report: the driver refused memory or the launch, or ctypes refused a value *)
Definition gfailure (e : exn) : Prop :=
  e = RuntimeErr \/ (e = TypeErr /\ exists n nd vals, cone g a n /\ nth_error g n = Some nd /\ n_op nd = OConst vals /\ forallb (b_accept B (n_dtype nd)) (map (of_num L) vals) = false).

Lemma grun_func_ok s l1 f l2 fd sc s' oc : dinv s -> dv_graph B s = g -> dv_alive B s a = true -> fs = l1 ++ f :: l2 -> (forall d, In d l1 -> launched B s d) ->
  E f = Some fd -> auto_schedule true fd = Done sc -> grun_func B E fd sc s s' oc ->
  dinv s' /\ dv_graph B s' = g /\ dv_alive B s' = dv_alive B s /\ dv_host B s' = dv_host B s /\ (forall e, In e (dv_log B s) -> In e (dv_log B s')) /\
  (forall m, launched B s' m -> launched B s m \/ m = f) /\
  match oc with Done _ => launched B s' f | Throw e => gfailure e end.
Proof using HB HC Ha Hnc Hns Hm Hcv HCg.
  intros HI Hg Hal Hfs Hgood Hfd Hsc HRun. pose proof (di_reach _ _ _ _ HI) as Hr. rewrite Hg in Hr. pose proof (reach_wf _ Hr) as Hw.
  assert (Hva : valid g a) by (unfold valid; apply nth_error_Some; congruence).
  pose proof (convert_inv L g a E fs HL Hr Hva Hns Hcv) as HS.
  assert (Hf : In f fs) by (rewrite Hfs; apply in_or_app; right; now left).
  destruct (convert_kctx L g a E fs f HS Hf) as (fd' & nd & Hfd' & HK). assert (fd' = fd) by congruence. subst fd'.
  pose proof (kc_nd _ _ _ _ _ HK) as Hnd.
  assert (Hlt : (f < length g)%nat) by (apply nth_error_Some; congruence).
  assert (Hncf : is_const (n_op nd) = false) by (destruct (cs_keep _ _ _ _ _ HS f Hf) as [->|(nd' & H1 & H2 & _)]; congruence).
  destruct Hm as [[Hfits (D & HD)] Hdef].
  assert (Hcone : cone g a f) by (eapply cs_cone; eauto).
  assert (Hacone : forall x, In x (func_args (f_expr fd)) -> cone g a (arg_id x)).
  { intros x Hx. apply (in_args g f) in Hx. destruct x as [n|d]; cbn.
    - eapply convert_bufs; eauto.
    - eapply cs_cone; [exact HS|]. rewrite Hfs. apply in_or_app. left. exact (cs_topo _ _ _ _ _ HS l1 f l2 Hfs fd Hfd d Hx). }
  assert (Hfit : forall x, In x (func_args (f_expr fd)) -> ltB L (zprod (shape_of g (arg_id x)))).
  { intros x Hx. destruct (arg_node g Hw E f fd nd HK x Hx) as (xd & H1 & _ & H2). rewrite H2. apply (Hfits _ _ (Hacone x Hx) H1). }
  assert (HfitO : ltB L (zprod (n_shape nd))) by (apply (Hfits _ _ Hcone Hnd)).
  assert (Hval : forall idx, in_range (n_shape nd) idx -> evalV L (shape_of g) (Fden L g) (n_dtype nd) (f_expr fd) (lenv f (n_shape nd) idx) = Fden L g f idx).
  { intros idx Hi. rewrite (evalV_dt L (shape_of g) (Fden L g) (n_dtype nd) D).
    - eapply cs_value; eauto.
    - exact (proj1 (cs_bufs _ _ _ _ _ HS D f fd nd HD Hf Hfd Hnd)). }
  assert (Hready : forall t x, same B s t -> In x (func_args (f_expr fd)) -> input B t (arg_id x)).
  { intros t x HSm Hx. split; [rewrite (sm_alive _ _ _ HSm); apply (cone_alive s a); auto; rewrite Hg; auto|]. rewrite (sm_graph _ _ _ HSm), Hg.
    pose proof Hx as Hx'. apply (in_args g f) in Hx. destruct x as [n|d]; cbn [arg_id].
    - left. destruct (wff_bufs _ _ _ _ _ _ (kc_wff g E f fd nd HK) Hx) as (bd & H1 & H2). exists bd. destruct (n_op bd) eqn:Eop; try discriminate. exists vals. auto.
    - right. eapply launched_same; eauto. apply Hgood. exact (cs_topo _ _ _ _ _ HS l1 f l2 Hfs fd Hfd d Hx). }
  assert (Hkey : exists key, cache_key g E fd sc = Done key).
  { eapply (cache_key_total g E fs); eauto. intros f0 Hf0. destruct (convert_kctx L g a E fs f0 HS Hf0) as (fd0 & nd0 & H1 & HK0).
    exists fd0, (shape_of g), nd0. split; auto. split; [exact (kc_wff g E f0 fd0 nd0 HK0)|]. intros d Hd.
    apply in_split in Hf0 as (k1 & k2 & Hk). rewrite Hk. apply in_or_app. left. exact (cs_topo _ _ _ _ _ HS k1 f0 k2 Hk fd0 H1 d Hd). }
  destruct Hkey as [key Hkey].
  set (ns := map arg_id (func_args (f_expr fd))).
  assert (Hbufs : mapOut (arg_buffer E) (func_args (f_expr fd)) = Done ns).
  { assert (H : forall x, In x (func_args (f_expr fd)) -> arg_buffer E x = Done (arg_id x)).
    { intros x Hx. apply (in_args g f fd) in Hx. destruct x as [n|d]; cbn; auto.
      destruct (kc_deps _ _ _ _ _ HK d Hx) as (fd' & nd' & H1 & H2 & _). rewrite H1. cbn. f_equal. exact (kc_out _ _ _ _ _ HK d Hx fd' H1). }
    unfold ns. clear - H. revert H. generalize (func_args (f_expr fd)). intros l0. induction l0 as [|x l IH]; intros H; cbn; auto. rewrite (H x) by (now left). cbn. rewrite IH; auto. intros; apply H; now right. }
  assert (Hout : f_out fd = f) by (rewrite (kc_fd _ _ _ _ _ HK); reflexivity).
  assert (Hnin : ~ In f ns).
  { intros H. apply in_map_iff in H as (x & Hx & Hin). exact (arg_neq g E f fd nd HK x Hncf Hin Hx). }
  assert (Hdefd : forall idx, in_range (n_shape nd) idx -> exists v, t_at (den L g f) idx = Ok v) by (apply (proj2 (Hdef f nd Hcone Hnd))).
  assert (HBG : n_shape nd <> [] -> ltB L (last (n_shape nd) 0 + 256)) by (apply (proj1 (Hdef f nd Hcone Hnd))).
  (* one invocation, from a state that differs only in the cache *)
  assert (HInv : forall s0 kern k0 k1, dinv s0 -> same B s s0 -> (forall m, launched B s0 m -> launched B s m) -> codegen g E (func_args (f_expr fd)) fd sc k0 = Done (kern, k1) -> ginvoke B s0 sc kern f ns s' oc ->
    dinv s' /\ dv_graph B s' = g /\ dv_alive B s' = dv_alive B s /\ dv_host B s' = dv_host B s /\ (forall e, In e (dv_log B s) -> In e (dv_log B s')) /\
    (forall m, launched B s' m -> launched B s m \/ m = f) /\ match oc with Done _ => launched B s' f | Throw e => gfailure e end).
  { intros s0 kern k0 k1 HI0 HS0 HL0 HCG HIV. assert (Hg0 : dv_graph B s0 = g) by (now rewrite (sm_graph _ _ _ HS0)).
    assert (Hal0 : dv_alive B s0 f = true) by (rewrite (sm_alive _ _ _ HS0); apply (cone_alive s a); auto; rewrite Hg; auto).
    assert (Hin0 : forall m, In m ns -> input B s0 m) by (intros m Hin; apply in_map_iff in Hin as (x & <- & Hx); apply Hready; auto).
    inversion HIV as [s1 e Hpr E1 E2|s1 p ps s2 oc' Hpr Hgl E1 E2]; [subst s1 oc|subst s2 oc'].
    - destruct (prep_ok B HB C nobody s0 _ ns s' (Throw e) HI0 Hal0 Hin0 Hpr) as (A1 & A2 & A3 & A4). pose proof (same_trans _ _ _ _ HS0 A2) as A5.
      split; auto. split; [now rewrite (sm_graph _ _ _ A5)|]. split; [apply (sm_alive _ _ _ A5)|]. split; [apply (sm_host _ _ _ A5)|]. split; [apply (sm_log _ _ _ A5)|]. split; [auto|].
      destruct A4 as [A4|(A4 & m & md & vals & M1 & M2 & M3 & M4)]; [now left|right]. split; [exact A4|]. exists m, md, vals. rewrite Hg0 in M2.
      split; auto. apply in_map_iff in M1 as (x & <- & Hx). auto.
    - destruct (prep_ok B HB C nobody s0 _ ns s1 (Done (p :: ps)) HI0 Hal0 Hin0 Hpr) as (A1 & A2 & A3 & p' & qs & A4 & A5 & A6). injection A4 as <- <-.
      pose proof (same_trans _ _ _ _ HS0 A2) as A7.
      assert (Hg1 : dv_graph B s1 = g) by (rewrite <- Hg; apply (sm_graph _ _ _ A7)).
      destruct (glaunch_ok g Hw E _ fd nd HK Hfit HfitO HBG Hval Hdefd s1 sc k0 k1 kern ns p ps s' oc Hg1 A1 eq_refl Hnin A5 A6 Hsc HCG Hgl) as (G1 & G2 & G3 & G4).
      pose proof (same_trans _ _ _ _ A7 G2) as A8.
      split; auto. split; [rewrite <- Hg; apply (sm_graph _ _ _ A8)|]. split; [apply (sm_alive _ _ _ A8)|]. split; [apply (sm_host _ _ _ A8)|]. split; [apply (sm_log _ _ _ A8)|]. split.
      + intros m Hl. destruct (G3 m Hl) as [H|H]; auto.
      + destruct oc as [u|e]; auto. left. apply G4. }
  inversion HRun as [e H1 E1 E2|bufs e H1 H2 E1 E2|bufs key' kern s2 oc' H1 H2 H3 H4 E1 E2|bufs key' e H1 H2 H3 H4 E1 E2|bufs key' kern k' s2 oc' H1 H2 H3 H4 H5 E1 E2];
    try rewrite Hg in H2; try rewrite Hg in H4; try congruence.
  - subst s2 oc'. rewrite Hbufs in H1. injection H1 as <-. rewrite Hkey in H2. injection H2 as <-. rewrite Hout in H4.
    destruct (di_cache _ _ _ _ HI _ _ H3) as (d & k0 & k1 & Hd & Hdk & Hdc).
    apply (HInv s kern k0 k1); auto; [apply same_refl|]. rewrite <- Hdc. symmetry. exact (HC d (mkD g E fd sc) key Hd (HCg f fd sc Hf Hfd Hsc) Hdk Hkey k0).
  - destruct (codegen_ok g Hw E f fd nd HK sc (dv_tmp B s)) as (ps & c & v & k1 & HCG & _). congruence.
  - subst s2 oc'. rewrite Hbufs in H1. injection H1 as <-. rewrite Hkey in H2. injection H2 as <-. rewrite Hout in H5.
    apply (HInv (set_cache B s ((key, kern) :: dv_cache B s) k') kern (dv_tmp B s) k'); auto.
    + destruct HI as [I1 I2 I3 I4 I5 I6 I7 I8 I9 I10 I11 I12 I13 I14 I15]. split; cbn; auto.
      intros key2 kern2. destruct (kkey_eq_dec key key2) as [->|]; [|apply I5].
      intros Hk. injection Hk as <-. exists (mkD g E fd sc), (dv_tmp B s), k'. split; [apply (HCg f); auto|]. split; auto.
    + split; auto.
Qed.

Lemma grun_funcs_ok l2 : forall l1 s l s' oc, dinv s -> dv_graph B s = g -> dv_alive B s a = true -> fs = l1 ++ l2 -> (forall d, In d l1 -> launched B s d) ->
  mapOut (gschedule_one E) l2 = Done l -> grun_funcs B E l s s' oc ->
  dinv s' /\ dv_graph B s' = g /\ dv_alive B s' = dv_alive B s /\ dv_host B s' = dv_host B s /\ (forall e, In e (dv_log B s) -> In e (dv_log B s')) /\
  match oc with Done _ => forall d, In d l2 -> launched B s' d | Throw e => gfailure e end.
Proof using HB HC Ha Hnc Hns Hm Hcv HCg.
  induction l2 as [|f l2 IH]; intros l1 s l s' oc HI Hg Hal Hfs Hgood HM HR.
  - injection HM as <-. clear Hfs. inversion HR as [s0 E1 E2 E3| |]. subst s0 s' oc. repeat (split; auto). intros d [].
  - cbn [mapOut] in HM. bd HM. destruct v as [fd sc]. bd HM. injection HM as <-.
    unfold gschedule_one in D. bd D. destruct (E f) as [fd'|] eqn:Ef; [|discriminate]. injection D1 as <-. bd D.
    destruct (forallb _ _) in D; [|discriminate]. injection D as <- <-.
    revert Hfs Hg. inversion HR as [|fd0 sc0 r s0 s1 e Hrf|fd0 sc0 r s0 s1 s2 oc' Hrf Hrr]; subst; intros Hfs Hg.
    + destruct (grun_func_ok s l1 f l2 fd' v0 s' (Throw e) HI Hg Hal Hfs Hgood Ef D1 Hrf) as (A1 & A2 & A3 & A4 & A5 & A6 & A7). repeat (split; auto).
    + destruct (grun_func_ok s l1 f l2 fd' v0 s1 (Done tt) HI Hg Hal Hfs Hgood Ef D1 Hrf) as (A1 & A2 & A3 & A4 & A5 & A6 & A7).
      destruct (IH (l1 ++ [f]) s1 v s' oc A1 A2) as (B1 & B2 & B3 & B4 & B5 & B6); auto.
      { now rewrite A3. } { rewrite <- app_assoc. exact Hfs. }
      { intros d Hd. apply in_app_iff in Hd as [Hd|[<-|[]]]; auto. destruct (Hgood d Hd) as (p & ins & Hin). exists p, ins. auto. }
      split; auto. split; [congruence|]. split; [congruence|]. split; [congruence|]. split; auto. destruct oc; auto.
      intros d [<-|Hd]; auto. destruct A7 as (p & ins & Hin). exists p, ins. auto.
Qed.
End Run.

Lemma gmat_base s a b bd s' oc : view_of (dv_graph B s) false a b -> nth_error (dv_graph B s) b = Some bd -> gmat B s a s' oc ->
  if is_const (n_op bd) then s' = s /\ oc = Done tt else gcompute B s b s' oc.
Proof.
  intros Hv Hbd. induction Hv as [b nd Hn Hnv|a nd p pd b Hn Hvw Hp Hpd _ Hv IH]; intros HM.
  - assert (bd = nd) by congruence. subst bd. inversion HM as [a0 nd0 H1 H2|a0 nd0 b0 r0 s0 oc0 H1 H2 H3 H4|a0 nd0 s0 oc0 H1 H2 H3 H4]; assert (nd0 = nd) by congruence; subst nd0.
    + rewrite H2. split; congruence.
    + congruence.
    + rewrite H2. congruence.
  - inversion HM as [a0 nd0 H1 H2|a0 nd0 b0 r0 s0 oc0 H1 H2 H3 H4|a0 nd0 s0 oc0 H1 H2 H3 H4]; assert (nd0 = nd) by congruence; subst nd0.
    + destruct (n_op nd); discriminate.
    + rewrite H3 in Hp. cbn in Hp. injection Hp as Hp. subst b0 s0 oc0. apply IH; assumption.
    + congruence.
Qed.
Lemma view_al_false g a b : view_of g true a b -> view_of g false a b.
Proof. induction 1; econstructor; eauto. Qed.
Lemma base_view g a b : wf_graph g -> base g a = Some b -> (a < length g)%nat -> view_of g false a b.
Proof.
  intros Hw Hb Ha. destruct (base_total g a Hw Ha) as (b' & Hb' & _ & Hv). assert (b' = b) by congruence. now subst.
Qed.
Lemma view_cone g a b : view_of g false a b -> cone g a b.
Proof.
  induction 1 as [|a nd p pd b Hn Hvw Hp Hpd _ Hv IH]; [constructor|].
  assert (G : forall n, cone g p n -> cone g a n).
  { induction 1 as [|n nd' c Hc IH' Hn' Hin]; [eapply cone_step; [apply cone_self|exact Hn|eapply nth_error_In; eauto]|eapply cone_step; eauto]. }
  auto.
Qed.

Lemma gmat_top s a b bd s' oc : dinv s -> dv_alive B s a = true -> base (dv_graph B s) a = Some b -> nth_error (dv_graph B s) b = Some bd ->
  gmat_ok B (dv_graph B s) b -> (forall d, gkernel_of (dv_graph B s) a d -> C d) -> gmat B s a s' oc ->
  dinv s' /\ dv_graph B s' = dv_graph B s /\ dv_alive B s' = dv_alive B s /\ dv_host B s' = dv_host B s /\ (forall e, In e (dv_log B s) -> In e (dv_log B s')) /\
  match oc with
  | Done _ => is_const (n_op bd) = true \/ launched B s' b
  | Throw e => is_const (n_op bd) = false /\ (gfailure (dv_graph B s) b e \/ (e = TypeErr /\ s' = s /\ convert (dv_graph B s) b = Throw TypeErr))
  end.
Proof using HB HC.
  intros HI Hal Hb Hbd Hm HCd HM. pose proof (reach_wf _ (di_reach _ _ _ _ HI)) as Hw.
  pose proof (di_alive _ _ _ _ HI _ Hal) as Hlt. pose proof (base_view _ _ _ Hw Hb Hlt) as Hv.
  pose proof (gmat_base s a b bd s' oc Hv Hbd HM) as HG. destruct (is_const (n_op bd)) eqn:Ec.
  { destruct HG as [-> ->]. repeat (split; auto). }
  assert (Halb : dv_alive B s b = true) by (apply (cone_alive s a); auto; now apply view_cone).
  assert (Hbl : (b < length (dv_graph B s))%nat) by (apply nth_error_Some; congruence).
  destruct (convert_cases L HL (dv_graph B s) Hw b Hbl) as [Hns|HT].
  2:{ inversion HG; subst; try congruence. assert (e = TypeErr) by congruence. subst. repeat (split; auto). }
  destruct (convert_ok L HL (dv_graph B s) Hw b bd Hbd Hns) as (E & fs & HCv & HS).
  inversion HG as [e Hc E1 E2|E' fs' e Hc Hsch E1 E2|E' fs' l s1 oc1 Hc Hsch Hrun E1 E2]; subst; try congruence.
  { exfalso. rewrite HCv in Hc. injection Hc as <- <-.
    assert (H1 : forall f, In f fs -> exists y, gschedule_one E f = Done y).
    { intros f Hf. destruct (convert_kctx L _ b E fs f HS Hf) as (fd & nd & Hfd & HK). unfold gschedule_one. rewrite Hfd. cbn [throw_none obind].
      unfold auto_schedule. rewrite (kc_fd _ _ _ _ _ HK). destruct (schedule_gpu_ok f (n_shape nd) (n_dtype nd) (f_expr fd) f) as (sc & E1 & E2 & _). rewrite E1. cbn [obind].
      rewrite E2, gpu_handles. eauto. }
    clear - H1 Hsch. revert e Hsch. induction fs as [|f fs IH]; intros e Hsch; cbn in Hsch; [discriminate|].
    destruct (H1 f (or_introl eq_refl)) as (y & Hy). rewrite Hy in Hsch. cbn in Hsch.
    destruct (mapOut (gschedule_one E) fs) as [ys|e'] eqn:Em; cbn in Hsch; [discriminate|]. eapply IH; eauto. intros; apply H1; now right. }
  rewrite HCv in Hc. injection Hc as <- <-.
  destruct (grun_funcs_ok (dv_graph B s) b bd Hbd Ec Hns Hm E fs HCv) with (l2 := fs) (l1 := @nil nat) (s := s) (l := l) (s' := s') (oc := oc)
    as (A1 & A2 & A3 & A4 & A5 & A6); auto.
  { intros f fd sc Hf Hfd Hsc. apply HCd. exists b, bd, E, fs, f, fd, sc. auto 10. }
  { intros d []. }
  repeat (split; auto). destruct oc as [u|e]; [right|auto]. apply A6. destruct (cs_last _ _ _ _ _ HS) as [l' ->]. apply in_or_app. right. now left.
Qed.
End D.
