(* A GPU materialize() can succeed: with enough memory and extents the launch limits allow, there is a
   run (and by DevRun.gmat_top every run that ends, ends well). *)
From Verif Require Import Base BaseFacts Util UtilFacts Lang Spec Graph Api ApiFacts Denote SpecFacts DenoteFacts Reach Tolist TolistFacts
  Algo AlgoSem AlgoConv AlgoConv2 AlgoFuse AlgoFuse2 AlgoConvert AlgoConvert2
  Kernel Sched Codegen Backends CacheKey KernFacts RenderFacts KernelOk RunFacts SchedFacts SchedGpu KernelRun KernelRun2 BackendFacts AlgoTop AlgoMore
  Runtime RuntimeFacts RuntimeFacts2 History HistFacts Safety Nest NestSched NestBody Parallel ParKernel ParCpu ParTop ParGpu Device DevFacts DevRun.

Lemma launch_ok f sh dt e o s : schedule_gpu (sched_init (mkF (out_loops f sh) sh dt e o)) = Done s -> Forall (fun d => 1 <= d <= 65535) sh -> launchable (launch_dims s) = true.
Proof.
  intros HS2 Hd. rewrite (launch_closed _ _ _ _ _ _ HS2).
  assert (Hc : forall d, 1 <= d <= 65535 -> 1 <= ceildiv d 256 <= 65535).
  { intros d H. pose proof (NestSched.ceildiv_bounds d 256 ltac:(lia)). lia. }
  destruct sh as [|d0 [|d1 [|d2 [|d3 r]]]]; [reflexivity| | | |].
  - apply Forall_inv in Hd. specialize (Hc d0 Hd). cbn [launchable]. repeat (apply andb_true_intro; split); lia.
  - pose proof (Forall_inv Hd). pose proof (Forall_inv (Forall_inv_tail Hd)) as H1. specialize (Hc d1 H1). cbn beta in *. cbn [launchable]. repeat (apply andb_true_intro; split); lia.
  - pose proof (Forall_inv Hd). pose proof (Forall_inv (Forall_inv_tail Hd)) as H1. pose proof (Forall_inv (Forall_inv_tail (Forall_inv_tail Hd))) as H2.
    specialize (Hc d2 H2). cbn beta in *. cbn [launchable]. repeat (apply andb_true_intro; split); lia.
  - assert (Hl : 1 <= last (d0 :: d1 :: d2 :: d3 :: r) 0 <= 65535).
    { rewrite Forall_forall in Hd. apply Hd. clear. assert (G : forall (x : Z) l, In (last (x :: l) 0) (x :: l)).
      { intros x l; revert x; induction l as [|y l IH]; intros x; [now left|]. right. apply IH. } apply G. }
    specialize (Hc _ Hl). cbn [launchable]. repeat (apply andb_true_intro; split); lia.
Qed.

Lemma settles_run L A loc (ts : list (prog L A)) m F : settles L loc ts m F -> exists k ts' m', psteps L loc k (ts, m) (ts', m') /\ finished L ts'.
Proof.
  intros (N & H).
  assert (G : forall j n ts' m', (N - n <= j)%nat -> psteps L loc n (ts, m) (ts', m') -> exists k ts'' m'', psteps L loc k (ts, m) (ts'', m'') /\ finished L ts'').
  { induction j as [|j IH]; intros n ts' m' Hj Hs; destruct (H n ts' m' Hs) as (Hn & _ & [Hf|[[ts2 m2] Hst]] & _); eauto.
    - assert (Hs2 : psteps L loc (S n) (ts, m) (ts2, m2)).
      { clear - Hs Hst. remember (ts, m) as x eqn:Ex. clear Ex. remember (ts', m') as y eqn:Ey. induction Hs as [x|n x y z H _ IH]; [subst; econstructor; [exact Hst|constructor]|]. econstructor; [exact H|]. now apply IH. }
      destruct (H (S n) ts2 m2 Hs2) as (Hn2 & _). lia.
    - apply (IH (S n) ts2 m2); [lia|].
      clear - Hs Hst. remember (ts, m) as x eqn:Ex. clear Ex. remember (ts', m') as y eqn:Ey. induction Hs as [x|n x y z H _ IH]; [subst; econstructor; [exact Hst|constructor]|]. econstructor; [exact H|]. now apply IH. }
  apply (G N 0%nat ts m); [lia|constructor].
Qed.

Section D.
Context (B : cpu_backend).
Notation L := (b_lang B).
Notation V := (val (b_lang B)).
Notation dev := (dev B).
Context (HB : backend_ok B) (C : desc -> Prop) (HC : key_safe C).
Let HL : lang_ok L := bo_lang _ HB.
Notation nobody := (fun _ : nat => False).
Notation dinv := (dinv B C nobody).

(* some address is not in use *)
Fixpoint addr_bound (l : list (event B)) : nat :=
  match l with [] => 0 | EvAlloc _ _ p :: r => Nat.max (S p) (addr_bound r) | _ :: r => addr_bound r end.
Lemma addr_bound_ok l n p : In (EvAlloc B n p) l -> (p < addr_bound l)%nat.
Proof.
  induction l as [|e l IH]; [intros []|]. intros [->|H]; [cbn -[Nat.max]; lia|]. specialize (IH H). destruct e; cbn -[Nat.max]; lia.
Qed.
Lemma fresh_addr s : dinv s -> dv_mem B s (addr_bound (dv_log B s)) = None.
Proof.
  intros HI. destruct (dv_mem B s _) as [vs|] eqn:Em; auto. exfalso. destruct (di_own _ _ _ _ HI _ _ Em) as (n & Hn).
  destruct (di_held _ _ _ _ HI _ _ Hn) as [Ha _]. apply addr_bound_ok in Ha. lia.
Qed.
Lemma zprod_pos s : Forall (fun d => 1 <= d) s -> 0 < zprod s.
Proof. induction 1 as [|d s H _ IH]; [reflexivity|]. change (zprod (d :: s)) with (d * zprod s). nia. Qed.
Lemma pointer_run s n nd : dinv s -> dv_alive B s n = true -> nth_error (dv_graph B s) n = Some nd -> 0 < zprod (n_shape nd) -> exists s1 p, pointer B s n s1 (Done p).
Proof.
  intros HI Ha Hn Hpos. destruct (dv_ptr B s n) as [p|] eqn:Hp; [exists s, p; now constructor|].
  pose proof (wf_shape_facts L _ n nd (reach_wf _ (di_reach _ _ _ _ HI)) Hn) as [_ _ _ Hl].
  eexists _, (addr_bound (dv_log B s)). apply (pt_alloc B s n _ nd (repeat (of_num L (NInt 0)) (Z.to_nat (n_len nd)))); auto.
  - lia.
  - now apply fresh_addr.
  - rewrite repeat_length. lia.
Qed.
Definition accepted (g : graph) (n : nat) : Prop := forall nd vals, nth_error g n = Some nd -> n_op nd = OConst vals -> forallb (b_accept B (n_dtype nd)) (map (of_num L) vals) = true.
Definition big_enough (g : graph) (n : nat) : Prop := forall nd, nth_error g n = Some nd -> 0 < zprod (n_shape nd).
Lemma prep1_run s n : dinv s -> input B s n -> accepted (dv_graph B s) n -> big_enough (dv_graph B s) n -> exists s1 p, prep1 B false s n s1 (Done p).
Proof using HB.
  intros HI Hin Hacc Hbig. pose proof (proj1 Hin) as Ha. pose proof (di_alive _ _ _ _ HI _ Ha) as Hlt.
  destruct (nth_error (dv_graph B s) n) as [nd|] eqn:Hn; [|apply nth_error_None in Hn; lia].
  destruct (pointer_run s n nd HI Ha Hn (Hbig nd Hn)) as (s1 & p & Hp). destruct (pointer_ok B C nobody s n s1 (Done p) HI Ha Hp) as (A1 & A2 & A3 & A4 & A5).
  destruct (copy_htod B s1 n p) as [s2 oc] eqn:Ec. destruct (copy_ok B HB C nobody s1 n p s2 oc A1 A5 Ec) as (_ & _ & _ & _ & _ & Hoc). destruct oc as [[]|e].
  - exists s2, p. eapply p1_in; eauto.
  - exfalso. destruct Hoc as (_ & _ & nd' & vals & H1 & H2 & H3). rewrite (sm_graph _ _ _ A2) in H1. rewrite (Hacc nd' vals H1 H2) in H3. discriminate.
Qed.
Lemma prep_run ns : forall s, dinv s -> (forall n, In n ns -> input B s n /\ accepted (dv_graph B s) n /\ big_enough (dv_graph B s) n) -> exists s1 ps, prep B false s ns s1 (Done ps).
Proof using HB.
  induction ns as [|n ns IH]; intros s HI H.
  - exists s, []. constructor.
  - destruct (H n (or_introl eq_refl)) as (H1 & H2 & H3). destruct (prep1_run s n HI H1 H2 H3) as (s1 & p & Hp).
    destruct (prep1_in B HB C nobody s n s1 (Done p) HI H1 Hp) as (A1 & A2 & _).
    destruct (IH s1 A1) as (s2 & ps & Hps).
    { intros m Hm. destruct (H m (or_intror Hm)) as (M1 & M2 & M3). split; [eapply input_same; eauto|]. now rewrite (sm_graph _ _ _ A2). }
    exists s2, (p :: ps). exact (pr_cons B false s n ns s1 p s2 (Done ps) Hp Hps).
Qed.

Section Run.
Context (g : graph) (a : nat) (nda : node) (Ha : nth_error g a = Some nda) (Hnc : is_const (n_op nda) = false)
  (Hns : no_scalar_reshape g a) (Hm : gmat_ok B g a) (E : fenv) (fs : list nat) (Hcv : convert g a = Done (E, fs))
  (HCg : forall f fd sc, In f fs -> E f = Some fd -> auto_schedule true fd = Done sc -> C (mkD g E fd sc)).
Context (Hacc : forall n, cone g a n -> accepted g n) (Hext : forall n nd, cone g a n -> nth_error g n = Some nd -> Forall (fun d => 1 <= d <= 65535) (n_shape nd)).

Lemma big_cone n : cone g a n -> big_enough g n.
Proof using Hext. clear - Hext. intros Hc nd Hn. apply zprod_pos. eapply Forall_impl; [|exact (Hext n nd Hc Hn)]. cbn. lia. Qed.
Lemma grun_func_run s l1 f l2 fd sc : dinv s -> dv_graph B s = g -> dv_alive B s a = true -> fs = l1 ++ f :: l2 -> (forall d, In d l1 -> launched B s d) ->
  E f = Some fd -> auto_schedule true fd = Done sc -> exists s', grun_func B E fd sc s s' (Done tt).
Proof using HB HC Ha Hnc Hns Hm Hcv HCg Hacc Hext.
  intros HI Hg Hal Hfs Hgood Hfd Hsc. pose proof (di_reach _ _ _ _ HI) as Hr. rewrite Hg in Hr. pose proof (reach_wf _ Hr) as Hw.
  assert (Hva : valid g a) by (unfold valid; apply nth_error_Some; congruence).
  pose proof (convert_inv L g a E fs HL Hr Hva Hns Hcv) as HS.
  assert (Hf : In f fs) by (rewrite Hfs; apply in_or_app; right; now left).
  destruct (convert_kctx L g a E fs f HS Hf) as (fd' & nd & Hfd' & HK). assert (fd' = fd) by congruence. subst fd'.
  pose proof (kc_nd _ _ _ _ _ HK) as Hnd.
  assert (Hlt : (f < length g)%nat) by (apply nth_error_Some; congruence).
  assert (Hncf : is_const (n_op nd) = false) by (destruct (cs_keep _ _ _ _ _ HS f Hf) as [->|(nd' & H1 & H2 & _)]; congruence).
  destruct Hm as [[Hfits (D & HD)] Hdef].
  assert (Hcone : cone g a f) by (eapply cs_cone; eauto).
  assert (Hacone : forall x, In x (func_args (f_expr fd)) -> cone g a (arg_id x)).
  { intros x Hx. apply (in_args g f) in Hx. destruct x as [n|d]; cbn.
    - eapply convert_bufs; eauto.
    - eapply cs_cone; [exact HS|]. rewrite Hfs. apply in_or_app. left. exact (cs_topo _ _ _ _ _ HS l1 f l2 Hfs fd Hfd d Hx). }
  assert (Hfit : forall x, In x (func_args (f_expr fd)) -> ltB L (zprod (shape_of g (arg_id x)))).
  { intros x Hx. destruct (arg_node g Hw E f fd nd HK x Hx) as (xd & H1 & _ & H2). rewrite H2. apply (Hfits _ _ (Hacone x Hx) H1). }
  assert (HfitO : ltB L (zprod (n_shape nd))) by (apply (Hfits _ _ Hcone Hnd)).
  assert (Hval : forall idx, in_range (n_shape nd) idx -> evalV L (shape_of g) (Fden L g) (n_dtype nd) (f_expr fd) (lenv f (n_shape nd) idx) = Fden L g f idx).
  { intros idx Hi. rewrite (evalV_dt L (shape_of g) (Fden L g) (n_dtype nd) D).
    - eapply cs_value; eauto.
    - exact (proj1 (cs_bufs _ _ _ _ _ HS D f fd nd HD Hf Hfd Hnd)). }
  assert (Hready : forall t x, same B s t -> In x (func_args (f_expr fd)) -> input B t (arg_id x)).
  { intros t x HSm Hx. split; [rewrite (sm_alive _ _ _ HSm); apply (cone_alive B C s a); auto; rewrite Hg; auto|]. rewrite (sm_graph _ _ _ HSm), Hg.
    pose proof Hx as Hx'. apply (in_args g f) in Hx. destruct x as [n|d]; cbn [arg_id].
    - left. destruct (wff_bufs _ _ _ _ _ _ (kc_wff g E f fd nd HK) Hx) as (bd & H1 & H2). exists bd. destruct (n_op bd) eqn:Eop; try discriminate. exists vals. auto.
    - right. eapply launched_same; eauto. apply Hgood. exact (cs_topo _ _ _ _ _ HS l1 f l2 Hfs fd Hfd d Hx). }
  assert (Hkey : exists key, cache_key g E fd sc = Done key).
  { eapply (cache_key_total g E fs); eauto. intros f0 Hf0. destruct (convert_kctx L g a E fs f0 HS Hf0) as (fd0 & nd0 & H1 & HK0).
    exists fd0, (shape_of g), nd0. split; auto. split; [exact (kc_wff g E f0 fd0 nd0 HK0)|]. intros d Hd.
    apply in_split in Hf0 as (k1 & k2 & Hk). rewrite Hk. apply in_or_app. left. exact (cs_topo _ _ _ _ _ HS k1 f0 k2 Hk fd0 H1 d Hd). }
  destruct Hkey as [key Hkey].
  set (ns := map arg_id (func_args (f_expr fd))).
  assert (Hbufs : mapOut (arg_buffer E) (func_args (f_expr fd)) = Done ns).
  { assert (H : forall x, In x (func_args (f_expr fd)) -> arg_buffer E x = Done (arg_id x)).
    { intros x Hx. apply (in_args g f fd) in Hx. destruct x as [n|d]; cbn; auto.
      destruct (kc_deps _ _ _ _ _ HK d Hx) as (fd' & nd' & H1 & H2 & _). rewrite H1. cbn. f_equal. exact (kc_out _ _ _ _ _ HK d Hx fd' H1). }
    unfold ns. clear - H. revert H. generalize (func_args (f_expr fd)). intros l0. induction l0 as [|x l IH]; intros H; cbn; auto. rewrite (H x) by (now left). cbn. rewrite IH; auto. intros; apply H; now right. }
  assert (Hout : f_out fd = f) by (rewrite (kc_fd _ _ _ _ _ HK); reflexivity).
  assert (Hnin : ~ In f ns).
  { intros H. apply in_map_iff in H as (x & Hx & Hin). exact (arg_neq g E f fd nd HK x Hncf Hin Hx). }
  assert (Hdefd : forall idx, in_range (n_shape nd) idx -> exists v, t_at (den L g f) idx = Ok v) by (apply (proj2 (Hdef f nd Hcone Hnd))).
  assert (HBG : n_shape nd <> [] -> ltB L (last (n_shape nd) 0 + 256)) by (apply (proj1 (Hdef f nd Hcone Hnd))).
  assert (Hla : launchable (launch_dims sc) = true).
  { apply (launch_ok f (n_shape nd) (n_dtype nd) (f_expr fd) f); [|eauto]. rewrite <- (kc_fd _ _ _ _ _ HK). exact Hsc. }
  assert (HInv : forall s0 kern k0 k1, dinv s0 -> same B s s0 -> codegen g E (func_args (f_expr fd)) fd sc k0 = Done (kern, k1) -> exists s', ginvoke B s0 sc kern f ns s' (Done tt)).
  { intros s0 kern k0 k1 HI0 HS0 HCG. assert (Hg0 : dv_graph B s0 = g) by (now rewrite (sm_graph _ _ _ HS0)).
    assert (Hal0 : dv_alive B s0 f = true) by (rewrite (sm_alive _ _ _ HS0); apply (cone_alive B C s a); auto; rewrite Hg; auto).
    destruct (pointer_run s0 f nd HI0 Hal0 ltac:(now rewrite Hg0) (big_cone f Hcone nd Hnd)) as (s1 & p & Hp).
    destruct (pointer_ok B C nobody s0 f s1 (Done p) HI0 Hal0 Hp) as (A1 & A2 & A3 & A4 & A5).
    destruct (prep_run ns s1 A1) as (s2 & ps & Hps).
    { intros m Hin. apply in_map_iff in Hin as (x & <- & Hx). split; [apply Hready; auto; eapply same_trans; eauto|]. rewrite (sm_graph _ _ _ A2), Hg0. split; [now apply Hacc, Hacone|now apply big_cone, Hacone]. }
    assert (Hpr : prep B true s0 (f :: ns) s2 (Done (p :: ps))).
    { apply (pr_cons B true s0 f ns s1 p s2 (Done ps)); [|exact Hps]. now apply p1_out. }
    assert (Hin0 : forall m, In m ns -> input B s0 m) by (intros m Hin; apply in_map_iff in Hin as (x & <- & Hx); apply Hready; auto).
    destruct (prep_ok B HB C nobody s0 f ns s2 (Done (p :: ps)) HI0 Hal0 Hin0 Hpr) as (B1 & B2 & B3 & p' & qs & B4 & B5 & B6). injection B4 as <- <-.
    pose proof (same_trans _ _ _ _ HS0 B2) as B7. assert (Hg2 : dv_graph B s2 = g) by (rewrite <- Hg; apply (sm_graph _ _ _ B7)).
    destruct (di_ptr _ _ _ _ B1 _ _ B5) as (_ & nd' & out & Hnd' & Hmm & Hlen). rewrite Hg2 in Hnd'. assert (nd' = nd) by congruence. subst nd'.
    pose proof (args_ready B C g Hw E f fd nd HK Hfit s2 ns ps kern p out Hg2 B1 eq_refl Hnin B5 B6 Hmm Hlen) as HPl.
    assert (Hok : forall idx, in_range (n_shape nd) idx -> exists v, kval L g f fd nd (Fden L g) idx = Ok v).
    { intros idx Hi. rewrite (gkval_den B HB g Hw E f fd nd HK Hval idx Hi). auto. }
    destruct (gpu_launch L HL true g Hw E f fd nd HK HfitO HBG (Fden L g) Hok sc k0 kern k1 p ps (dv_mem B s2) out Hsc HCG HPl) as (_ & HSe).
    destruct (settles_run _ _ _ _ _ _ HSe) as (k & ts' & m' & Hst & Hfin).
    eexists. eapply gi_launch; [exact Hpr|]. eapply gl_run; eauto. }
  destruct (cache_get (dv_cache B s) key) as [kern|] eqn:Ecg.
  - destruct (di_cache _ _ _ _ HI _ _ Ecg) as (d & k0 & k1 & Hd & Hdk & Hdc).
    destruct (HInv s kern k0 k1 HI (same_refl _ _)) as (s' & Hs').
    { rewrite <- Hdc. symmetry. exact (HC d (mkD g E fd sc) key Hd (HCg f fd sc Hf Hfd Hsc) Hdk Hkey k0). }
    exists s'. apply (gf_hit B E fd sc s ns key kern s' (Done tt)); auto; [rewrite Hg; exact Hkey|]. now rewrite Hout.
  - destruct (codegen_ok g Hw E f fd nd HK sc (dv_tmp B s)) as (ps & c & v & k1 & HCG & _). set (kern := mkK _ _) in HCG.
    destruct (HInv (set_cache B s ((key, kern) :: dv_cache B s) k1) kern (dv_tmp B s) k1) as (s' & Hs'); auto.
    + destruct HI as [I1 I2 I3 I4 I5 I6 I7 I8 I9 I10 I11 I12 I13 I14 I15]. split; cbn; auto.
      intros key2 kern2. destruct (kkey_eq_dec key key2) as [->|]; [|apply I5].
      intros Hk. injection Hk as <-. exists (mkD g E fd sc), (dv_tmp B s), k1. split; [apply (HCg f); auto|]. split; auto.
    + split; auto.
    + exists s'. apply (gf_miss B E fd sc s ns key kern k1 s' (Done tt)); auto; [now rewrite Hg|now rewrite Hg|]. now rewrite Hout.
Qed.

Lemma grun_funcs_run l2 : forall l1 s l, dinv s -> dv_graph B s = g -> dv_alive B s a = true -> fs = l1 ++ l2 -> (forall d, In d l1 -> launched B s d) ->
  mapOut (gschedule_one E) l2 = Done l -> exists s', grun_funcs B E l s s' (Done tt).
Proof using HB HC Ha Hnc Hns Hm Hcv HCg Hacc Hext.
  induction l2 as [|f l2 IH]; intros l1 s l HI Hg Hal Hfs Hgood HM.
  - injection HM as <-. exists s. constructor.
  - cbn [mapOut] in HM. bd HM. destruct v as [fd sc]. bd HM. injection HM as <-.
    unfold gschedule_one in D. bd D. destruct (E f) as [fd'|] eqn:Ef; [|discriminate]. injection D1 as <-. bd D.
    destruct (forallb _ _) in D; [|discriminate]. injection D as <- <-.
    destruct (grun_func_run s l1 f l2 fd' v0 HI Hg Hal Hfs Hgood Ef D1) as (s1 & Hrf).
    destruct (grun_func_ok B HB C HC g a nda Ha Hnc Hns Hm E fs Hcv HCg s l1 f l2 fd' v0 s1 (Done tt) HI Hg Hal Hfs Hgood Ef D1 Hrf) as (A1 & A2 & A3 & A4 & A5 & A6 & A7).
    destruct (IH (l1 ++ [f]) s1 v A1 A2) as (s' & Hs'); auto.
    { now rewrite A3. } { rewrite <- app_assoc. exact Hfs. }
    { intros d Hd. apply in_app_iff in Hd as [Hd|[<-|[]]]; auto. destruct (Hgood d Hd) as (p & ins & Hin). exists p, ins. auto. }
    exists s'. eapply gr_cons; eauto.
Qed.
End Run.

Lemma gmat_run_base s a b s' oc : view_of (dv_graph B s) false a b -> gmat B s b s' oc -> gmat B s a s' oc.
Proof.
  induction 1 as [b nd Hn Hnv|a nd p pd b Hn Hvw Hp Hpd _ Hv IH]; auto. intros HM. destruct (n_in nd) as [|q r] eqn:Ein; [discriminate|].
  cbn in Hp. injection Hp as ->. eapply gm_view; eauto.
Qed.
Theorem gmat_runs s a b : dinv s -> dv_alive B s a = true -> base (dv_graph B s) a = Some b ->
  gmat_ok B (dv_graph B s) b -> (forall d, gkernel_of (dv_graph B s) a d -> C d) -> no_scalar_reshape (dv_graph B s) b ->
  (forall n, cone (dv_graph B s) b n -> accepted (dv_graph B s) n) ->
  (forall n nd, cone (dv_graph B s) b n -> nth_error (dv_graph B s) n = Some nd -> Forall (fun d => 1 <= d <= 65535) (n_shape nd)) ->
  exists s', gmat B s a s' (Done tt).
Proof using HB HC.
  intros HI Hal Hb Hm HCd Hns Hacc Hext. pose proof (reach_wf _ (di_reach _ _ _ _ HI)) as Hw.
  pose proof (di_alive _ _ _ _ HI _ Hal) as Hlt. pose proof (base_view _ _ _ Hw Hb Hlt) as Hv.
  assert (exists bd, nth_error (dv_graph B s) b = Some bd /\ is_view (n_op bd) = false) as (bd & Hbd & Hvw).
  { clear - Hv. induction Hv; eauto. }
  assert (Halb : dv_alive B s b = true) by (apply (cone_alive B C s a); auto; now apply view_cone).
  destruct (is_const (n_op bd)) eqn:Ec.
  { exists s. eapply gmat_run_base; eauto. eapply gm_const; eauto. }
  destruct (convert_ok L HL (dv_graph B s) Hw b bd Hbd Hns) as (E & fs & HCv & HS).
  assert (exists l, mapOut (gschedule_one E) fs = Done l) as (l & Hl).
  { assert (H1 : forall f, In f fs -> exists y, gschedule_one E f = Done y).
    { intros f Hf. destruct (convert_kctx L _ b E fs f HS Hf) as (fd & nd & Hfd & HK). unfold gschedule_one. rewrite Hfd. cbn [throw_none obind].
      unfold auto_schedule. rewrite (kc_fd _ _ _ _ _ HK). destruct (schedule_gpu_ok f (n_shape nd) (n_dtype nd) (f_expr fd) f) as (sc & E1 & E2 & _). rewrite E1. cbn [obind].
      rewrite E2, gpu_handles. eauto. }
    clear - H1. induction fs as [|f fs IH]; [exists []; reflexivity|]. destruct (H1 f (or_introl eq_refl)) as (y & Hy).
    destruct IH as (ys & Hys); [intros; apply H1; now right|]. exists (y :: ys). cbn. now rewrite Hy, Hys. }
  destruct (grun_funcs_run (dv_graph B s) b bd Hbd Ec Hns Hm E fs HCv) with (l2 := fs) (l1 := @nil nat) (s := s) (l := l) as (s' & Hs'); auto.
  { intros f fd sc Hf Hfd Hsc. apply HCd. exists b, bd, E, fs, f, fd, sc. auto 10. }
  { intros d []. }
  exists s'. eapply gmat_run_base; eauto. eapply gm_comp; eauto. eapply gc_run; eauto.
Qed.
End D.
