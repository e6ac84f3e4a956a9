(* Facts about interrupted materialize() calls. *)
From Verif Require Import Base BaseFacts Util UtilFacts Lang Spec Graph Api ApiFacts Denote SpecFacts DenoteFacts Reach Tolist TolistFacts
  Algo AlgoSem AlgoConv AlgoConv2 AlgoFuse AlgoFuse2 AlgoConvert AlgoConvert2
  Kernel Sched Codegen Backends KernFacts RenderFacts KernelOk RunFacts SchedFacts SchedGpu KernelRun KernelRun2 BackendFacts AlgoTop
  AlgoMore CacheKey Runtime RuntimeFacts RuntimeFacts2 History HistFacts Frame HistFacts2 Interrupt.

(* ------------------------------------------------------------------ a kernel stopped half-way has done some of its writes *)
Section Run.
Context (B : cpu_backend).
Notation L := (b_lang B).
Notation V := (val L).
Lemma stopped_ev {A} loc o (p : prog L A) m m' : stopped_run B loc p m m' -> forall out w oc, loc NOut = Some o -> m o = Some out ->
  ev (inp_of L loc m o) p = (w, oc) -> oc <> FaultO -> out_writes L (Z.of_nat (length out)) w ->
  exists w1 w2, w = w1 ++ w2 /\ forall b, m' b = if Nat.eqb b o then Some (apply_w L w1 out) else m b.
Proof.
  induction 1 as [p m|n i k m b l v m' Hb Hl Hv _ IH|n i v k m b l l' m' Hb Hl Hu _ IH]; intros out w oc Ho Hm Hev Hnf Hw.
  - exists [], w. split; auto. intros b. destruct (Nat.eqb_spec b o) as [->|]; auto.
  - cbn [ev] in Hev. unfold inp_of in Hev at 1. rewrite Hb in Hev. destruct (Nat.eqb b o) eqn:Hbo; [injection Hev as <- <-; congruence|].
    rewrite Hl, Hv in Hev. eapply IH; eauto.
  - cbn [ev] in Hev. destruct (ev (inp_of L loc m o) k) as [w0 o0] eqn:E0. injection Hev as <- <-.
    inversion Hw as [|? ? Hx Hw']; subst. destruct Hx as [-> Hi]. assert (b = o) by congruence. subst b. assert (l = out) by congruence. subst l.
    unfold zupd in Hu. replace ((0 <=? i) && (i <? Z.of_nat (length out))) with true in Hu by lia. injection Hu as <-.
    destruct (IH (upd out (Z.to_nat i) v) w0 o0) as (w1 & w2 & -> & Hm'); auto.
    + unfold sset. now rewrite Nat.eqb_refl.
    + rewrite <- E0. apply ev_ext. intros n. unfold inp_of, sset. destruct (loc n); auto. destruct (Nat.eqb_spec n0 o); auto.
      destruct (Nat.eqb_spec o n0); auto. congruence.
    + unfold out_writes. now rewrite upd_length.
    + exists ((NOut, i, v) :: w1), w2. split; auto. intros b. rewrite Hm'. unfold sset. destruct (Nat.eqb_spec b o) as [->|]; cbn; auto.
      destruct (Nat.eqb_spec o b); auto. congruence.
Qed.
Lemma stopped_wr_out {A} loc (p : prog L A) m m' : stopped_run B loc p m m' -> wr_out L p ->
  (forall b, loc NOut <> Some b -> m' b = m b) /\ (forall b, option_map (@length _) (m' b) = option_map (@length _) (m b)).
Proof.
  induction 1 as [p m|n i k m b l v m' Hb Hl Hv _ IH|n i v k m b l l' m' Hb Hl Hu _ IH]; intros HW; auto.
  destruct HW as [-> HW]. destruct (IH HW) as [I1 I2]. split.
  - intros b' Hb'. rewrite I1 by assumption. unfold sset. destruct (Nat.eqb_spec b b'); congruence.
  - intros b'. rewrite I2. unfold sset. destruct (Nat.eqb_spec b b') as [<-|]; auto. rewrite Hl. cbn. f_equal. unfold zupd in Hu. destruct (_ && _); [|discriminate]. injection Hu as <-. apply upd_length.
Qed.
(* writes of right values over right values *)
Lemma apply_filled s f out : Z.of_nat (length out) = zprod s -> filled L s f out -> forall w, (forall n i v, In (n, i, v) w -> exists ix, in_range s ix /\ i = flat s ix /\ f ix = Ok v) ->
  filled L s f (apply_w L w out).
Proof.
  intros Hlen HF w Hw idx Hi. destruct (HF idx Hi) as (v & Hv & Hz). exists v. split; auto.
  pose proof (flat_bounds _ _ Hi) as Hb.
  unfold znth in *. destruct (flat s idx <? 0) eqn:E; [lia|].
  revert out Hlen HF Hz. induction w as [|[[n i] x] w IH]; intros out Hlen HF Hz; cbn; auto.
  apply IH; auto.
  - intros. eapply Hw. right; eauto.
  - now rewrite upd_length.
  - destruct (Hw n i x (or_introl eq_refl)) as (ix & Hx & -> & Hfx). intros j Hj. destruct (HF j Hj) as (u & Hu & Hz'). exists u. split; auto.
    unfold znth in *. pose proof (flat_bounds _ _ Hj). pose proof (flat_bounds _ _ Hx). destruct (flat s j <? 0) eqn:E2; [lia|].
    destruct (Nat.eq_dec (Z.to_nat (flat s ix)) (Z.to_nat (flat s j))) as [Heq|Hne].
    + assert (ix = j) by (apply (flat_inj s); auto; lia). subst. rewrite nth_upd_same by lia. congruence.
    + now rewrite nth_upd_other.
  - destruct (Hw n i x (or_introl eq_refl)) as (ix & Hx & -> & Hfx). pose proof (flat_bounds _ _ Hx).
    destruct (Nat.eq_dec (Z.to_nat (flat s ix)) (Z.to_nat (flat s idx))) as [Heq|Hne].
    + assert (ix = idx) by (apply (flat_inj s); auto; lia). subst. rewrite nth_upd_same by lia. congruence.
    + now rewrite nth_upd_other.
Qed.
End Run.

Section KStop.
Context (B : cpu_backend) (HB : backend_ok B).
Notation L := (b_lang B).
Notation V := (val L).
Let HL : lang_ok L := bo_lang _ HB.
Context (g : graph) (Hw : wf_graph g) (E : fenv) (f : nat) (fd : func) (nd : node) (HK : kctx g E f fd nd).
Let args := func_args (f_expr fd).
Context (HBd : ltB L (zprod (n_shape nd))) (F : nat -> list Z -> res V) (Hnf : forall idx, in_range (n_shape nd) idx -> kval L g f fd nd F idx <> Fault).
Lemma kernel_stop sc k kern k1 lo ls (m : store L) out m' :
  schedule_cpu (sched_init fd) = Done sc -> codegen g E args fd sc k = Done (kern, k1) ->
  length ls = length args -> ~ In lo ls -> m lo = Some out -> Z.of_nat (length out) = zprod (n_shape nd) ->
  (forall i x l, nth_error args i = Some x -> nth_error ls i = Some l -> ltB L (zprod (shape_of g (arg_id x))) /\
     exists vs, m l = Some vs /\ filled L (shape_of g (arg_id x)) (F (arg_id x)) vs) ->
  stopped_run B (bind_params (k_params kern) (lo :: ls)) (exec L false no_gpu (pty_of (k_params kern)) (k_body kern) [[]]) m m' ->
  exists out', (forall b, m' b = if Nat.eqb b lo then Some out' else m b) /\ length out' = length out /\
    (filled L (n_shape nd) (kval L g f fd nd F) out -> filled L (n_shape nd) (kval L g f fd nd F) out').
Proof using HB Hw HK HBd Hnf.
  intros HS HC Hlen Hlo Hm Hout Hin HR.
  set (loc := bind_params (k_params kern) (lo :: ls)) in *.
  pose proof (kernel_ev L HL false no_gpu g Hw E f fd nd HK HBd F Hnf sc k kern k1 lo ls (inp_of L loc m lo) HS HC Hlen) as HE.
  assert (Hin' : forall i x l, nth_error args i = Some x -> nth_error ls i = Some l -> ltB L (zprod (shape_of g (arg_id x))) /\
     exists vs, (forall nm, loc nm = Some l -> nm <> NOut -> inp_of L loc m lo nm = Some vs) /\ filled L (shape_of g (arg_id x)) (F (arg_id x)) vs).
  { intros i x l H1 H2. destruct (Hin i x l H1 H2) as (Hb & vs & H3 & H4). split; auto. exists vs. split; auto.
    intros nm Hnm _. unfold inp_of. rewrite Hnm. destruct (Nat.eqb_spec l lo) as [->|]; auto. exfalso. apply Hlo. eapply nth_error_In; eauto. }
  specialize (HE Hin').
  assert (Hlo2 : loc NOut = Some lo).
  { destruct (codegen_ok g Hw E f fd nd HK sc k) as (ps & c & v & k1' & HC' & _). fold args in HC'. rewrite HC in HC'. injection HC' as -> <-. reflexivity. }
  destruct (wseq L (n_shape nd) (kval L g f fd nd F) (all_idx (n_shape nd))) as [w oc] eqn:Ew.
  assert (HW : out_writes L (Z.of_nat (length out)) w).
  { rewrite Hout. eapply wseq_writes; eauto. apply Forall_forall. intros i Hi. now apply in_all_idx. }
  assert (HX : exists w1 w2, w = w1 ++ w2 /\ forall b, m' b = if Nat.eqb b lo then Some (apply_w L w1 out) else m b).
  { destruct oc as [[]| |]; [destruct HE as (r' & HE)| |contradiction]; eapply (stopped_ev B loc lo _ m m' HR out w); eauto; discriminate. }
  destruct HX as (w1 & w2 & -> & HX). exists (apply_w L w1 out). split; auto. split; [apply apply_w_length|].
  intros HF. apply apply_filled; auto. intros n i v Hiv. destruct (wseq_in _ _ _ _ _ _ _ _ _ Ew (in_or_app _ _ _ (or_introl Hiv))) as (ix & H1 & H2 & H3 & _).
  exists ix. split; auto. now apply in_all_idx.
Qed.
End KStop.

(* ------------------------------------------------------------------ one invocation *)
Section SInvoke.
Context (B : cpu_backend) (HB : backend_ok B).
Notation L := (b_lang B).
Let HL : lang_ok L := bo_lang _ HB.
Context (C : desc -> Prop) (s : rt B) (HI : inv B C s).
Let g := r_graph B s.
Context (E : fenv) (f : nat) (fd : func) (nd : node) (HK : kctx g E f fd nd) (Hnc : is_const (n_op nd) = false).
Let args := func_args (f_expr fd).
Context (Hfit : forall x, In x args -> ltB L (zprod (shape_of g (arg_id x)))) (HfitO : ltB L (zprod (n_shape nd))).
Context (Hval : forall idx, in_range (n_shape nd) idx ->
  evalV L (shape_of g) (Fden L g) (n_dtype nd) (f_expr fd) (lenv f (n_shape nd) idx) = Fden L g f idx).
Context (Hready : forall x, In x args -> (exists xd vals, nth_error g (arg_id x) = Some xd /\ n_op xd = OConst vals) \/ good B s (arg_id x)).
Let Hw : wf_graph g := reach_wf _ (i_reach _ _ _ HI).

Lemma fill_prefix ps1 ps2 m : f :: map arg_id args = ps1 ++ ps2 -> zero_fill B g ps1 (r_cpu B s) = Done m ->
  forall b, m b = r_cpu B s b \/ (b = f /\ r_cpu B s f = None /\ m f = Some (repeat (lit L 0) (Z.to_nat (n_len nd)))).
Proof using HI HK Hready Hnc HB.
  intros Hps HZ.
  assert (Hf : nth_error g f = Some nd) by apply (kc_nd _ _ _ _ _ HK).
  assert (Hnin : ~ In f (map arg_id args)).
  { intros H. apply in_map_iff in H as (x & Hx & Hin). eapply (arg_neq g E f fd nd HK); eauto. }
  destruct ps1 as [|p ps1]; [injection HZ as <-; auto|]. injection Hps as <- Hps.
  assert (Hps1 : forall p, In p ps1 -> exists pd vs, nth_error g p = Some pd /\ r_cpu B s p = Some vs).
  { intros p Hp. assert (Hin : In p (map arg_id args)) by (rewrite Hps; apply in_or_app; now left). apply in_map_iff in Hin as (x & <- & Hx).
    destruct (arg_node g Hw E f fd nd HK x Hx) as (xd & H1 & _ & H2). destruct (arg_value B HB C s (arg_id x) xd HI H1) as (vs & V1 & _).
    - destruct (Hready x Hx) as [(xd' & vals & H3 & H4)|H3]; auto. left. exists vals. congruence.
    - eauto. }
  destruct (zero_fill_ok B g f nd ps1 (r_cpu B s) Hf) as (m1 & Hz & Hm1); auto.
  { intros H. apply Hnin. rewrite Hps. apply in_or_app. now left. }
  rewrite HZ in Hz. injection Hz as <-. intros b. rewrite Hm1. destruct (Nat.eqb_spec b f) as [->|]; auto.
  destruct (r_cpu B s f) eqn:Ef; auto. right. repeat split; auto. now rewrite Hm1, Nat.eqb_refl.
Qed.

Lemma sinvoke_ok sc k0 k1 kern s0 s' : auto_schedule false fd = Done sc -> codegen g E args fd sc k0 = Done (kern, k1) ->
  r_graph B s0 = g -> r_cpu B s0 = r_cpu B s -> stopped_invoke B s0 kern (f :: map arg_id args) s' ->
  r_graph B s' = g /\ r_cache B s' = r_cache B s0 /\
  (forall b, b <> f -> r_cpu B s' b = r_cpu B s b) /\
  (forall vs, r_cpu B s' f = Some vs -> Z.of_nat (length vs) = zprod (n_shape nd) /\ forallb (b_accept B (n_dtype nd)) vs = true) /\
  (good B s f -> good B s' f).
Proof using HB HI HK Hnc Hfit HfitO Hval Hready.
  intros Hsc Hcg Hg0 Hc0 HS.
  assert (Hf : nth_error g f = Some nd) by apply (kc_nd _ _ _ _ _ HK).
  assert (Hnn : Forall (fun d => 0 <= d) (n_shape nd)) by apply (wf_shape_facts L g f nd Hw Hf).
  assert (Hlen : Z.to_nat (n_len nd) = Z.to_nat (zprod (n_shape nd))) by (f_equal; apply (wf_shape_facts L g f nd Hw Hf)).
  assert (Hz0 : Z.of_nat (length (repeat (lit L 0) (Z.to_nat (n_len nd)))) = zprod (n_shape nd)).
  { rewrite repeat_length, Hlen. assert (0 <= zprod (n_shape nd)) by (now apply zprod_nonneg). lia. }
  assert (Ha0 : forallb (b_accept B (n_dtype nd)) (repeat (lit L 0) (Z.to_nat (n_len nd))) = true).
  { apply forallb_forall. intros v Hv. apply repeat_spec in Hv. subst. apply (bo_acc0 _ HB). }
  (* nothing but zero-filling happened *)
  assert (HZ : forall m, (forall b, m b = r_cpu B s b \/ (b = f /\ r_cpu B s f = None /\ m f = Some (repeat (lit L 0) (Z.to_nat (n_len nd))))) ->
     (forall b, b <> f -> m b = r_cpu B s b) /\
     (forall vs, m f = Some vs -> Z.of_nat (length vs) = zprod (n_shape nd) /\ forallb (b_accept B (n_dtype nd)) vs = true) /\
     forall s1, r_graph B s1 = g -> r_cpu B s1 = m -> good B s f -> good B s1 f).
  { intros m Hm. split; [|split].
    - intros b Hb. destruct (Hm b) as [H|(H & _)]; congruence.
    - intros vs Hvs. destruct (Hm f) as [H|(_ & _ & H)]; rewrite H in Hvs; [eapply i_buf; eauto|injection Hvs as <-; auto].
    - intros s1 G1 G2 (nd' & vs & N1 & N2 & N3 & N4). exists nd', vs. rewrite G1, G2. split; auto. split; auto. split; auto.
      destruct (Hm f) as [H|(_ & H & _)]; congruence. }
  destruct HS as [ps1 ps2 m Hps HF|m Hcp HF|m m' Hcp HF Hpl HR|s' HV].
  - rewrite Hg0, Hc0 in HF. destruct (HZ m (fill_prefix ps1 ps2 m Hps HF)) as (Z1 & Z2 & Z3). cbn [set_cpu r_graph r_cache r_cpu].
    split; [assumption|]. split; [reflexivity|]. split; [assumption|]. split; [assumption|]. apply Z3; auto.
  - rewrite Hg0, Hc0 in HF. destruct (HZ m (fill_prefix _ [] m (eq_sym (app_nil_r _)) HF)) as (Z1 & Z2 & Z3). cbn [r_graph r_cache r_cpu].
    split; [assumption|]. split; [reflexivity|]. split; [assumption|]. split; [assumption|]. apply Z3; auto.
  - rewrite Hg0, Hc0 in HF. pose proof (fill_prefix _ [] m (eq_sym (app_nil_r _)) HF) as HP. destruct (HZ m HP) as (Z1 & Z2 & Z3). cbn [r_graph r_cache r_cpu].
    pose proof (bo_ref _ HB Hcp) as Hid.
    assert (Hnin : ~ In f (map arg_id args)).
    { intros H. apply in_map_iff in H as (x & Hx & Hin). eapply (arg_neq g E f fd nd HK); eauto. }
    assert (Hfo : exists out, m f = Some out).
    { cbn [zero_fill] in HF. destruct (get g f) as [nf|] eqn:Egf; [|discriminate]. cbn [obind] in HF. destruct (r_cpu B s f) as [vs|] eqn:Ec.
      - destruct (HP f) as [H|(_ & H & _)]; [rewrite H; eauto|congruence].
      - destruct (HP f) as [H|(_ & _ & H)]; eauto. exfalso.
        assert (HM : m f = Some (repeat (lit L 0) (Z.to_nat (n_len nf)))); [|congruence].
        rewrite (zero_fill_other B _ _ _ _ HF f Hnin). unfold sset. now rewrite Nat.eqb_refl. }
    destruct Hfo as (out & Hout). destruct (Z2 out Hout) as [HL0 HA0].
    destruct (kernel_stop B HB g Hw E f fd nd HK HfitO (Fden L g)) with (sc := sc) (k := k0) (kern := kern) (k1 := k1) (lo := f) (ls := map arg_id args) (m := m) (out := out) (m' := m')
      as (out' & Hm' & HL' & HF'); auto.
    { intros idx Hi. eapply kval_nf; eauto. }
    { apply map_length. }
    { intros i x l Hx Hl. fold args in Hx. rewrite nth_error_map, Hx in Hl. cbn in Hl. injection Hl as <-.
      assert (Hxin : In x args) by (eapply nth_error_In; eauto).
      destruct (arg_node g Hw E f fd nd HK x Hxin) as (xd & X1 & _ & X2).
      destruct (arg_value B HB C s (arg_id x) xd HI X1) as (vs & V1 & V2 & V3 & _).
      { destruct (Hready x Hxin) as [(xd' & vals & H3 & H4)|H3]; auto. left. exists vals. congruence. }
      split; [now apply Hfit|]. exists vs. split.
      - rewrite Z1; auto. intros Heq. apply Hnin. rewrite <- Heq. now apply in_map.
      - fold g in V3. rewrite X2. rewrite (map_ext _ (fun v => v)), map_id in V3 by (intros; apply Hid). exact V3. }
    assert (Hacc : forall vs, forallb (b_accept B (n_dtype nd)) vs = true).
    { intros vs. apply forallb_forall. intros v _. rewrite <- (Hid (n_dtype nd) v). apply (bo_acc _ HB). }
    split; auto. split; auto. split; [|split].
    + intros b Hb. rewrite Hm'. destruct (Nat.eqb_spec b f); [congruence|auto].
    + intros vs Hvs. rewrite Hm', Nat.eqb_refl in Hvs. injection Hvs as <-. split; auto. congruence.
    + intros (nd' & vs & N1 & N2 & N3 & N4). assert (nd' = nd) by (fold g in N1; congruence). subst nd'.
      assert (vs = out) by (destruct (HP f) as [H|(_ & H & _)]; congruence). subst vs.
      exists nd, out'. cbn [r_graph r_cpu]. rewrite Hg0. split; auto. split; auto. split; [now rewrite Hm', Nat.eqb_refl|].
      assert (HKD : forall idx, in_range (n_shape nd) idx -> kval L g f fd nd (Fden L g) idx = Fden L g f idx) by (intros; eapply kval_den; eauto).
      intros idx Hi. destruct (HF') with (idx := idx) as (v & Hv1 & Hv2); auto.
      * intros j Hj. destruct (N4 j Hj) as (v & Q1 & Q2). exists v. split; auto. rewrite HKD by assumption. exact Q1.
      * exists v. split; auto. rewrite HKD in Hv1 by assumption. exact Hv1.
  - destruct (invoke_ok B HB C s HI E f fd nd HK Hnc Hfit HfitO Hval Hready sc k0 k1 kern s0 Hsc Hcg Hg0 Hc0)
      as (s1 & oc & HIV & G1 & G2 & G3 & G4 & G5 & G6 & G7 & G8). fold args in HIV. rewrite HV in HIV. injection HIV as <- <-.
    split; auto. split; auto. split; auto. split; auto. intros _. exact (proj1 G8).
Qed.
End SInvoke.

(* ------------------------------------------------------------------ one materialize *)
Section SMat.
Context (B : cpu_backend).
Notation L := (b_lang B).
Context (HB : backend_ok B) (C : desc -> Prop) (HC : key_safe C).
Let HL : lang_ok L := bo_lang _ HB.
Section SRun.
Context (g : graph) (a : nat) (nda : node) (Ha : nth_error g a = Some nda) (Hnc : is_const (n_op nda) = false)
  (Hns : no_scalar_reshape g a) (Hm : mat_ok L g a) (E : fenv) (fs : list nat) (Hcv : convert g a = Done (E, fs))
  (HCg : forall f fd sc, In f fs -> E f = Some fd -> auto_schedule false fd = Done sc -> C (mkD g E fd sc)).

Definition step_ok (s s' : rt B) (F : nat -> Prop) : Prop :=
  inv B C s' /\ r_graph B s' = r_graph B s /\ (forall b, ~ F b -> r_cpu B s' b = r_cpu B s b) /\ (forall n, good B s n -> good B s' n).

Lemma sfunc_ok s l1 f l2 fd sc s' : inv B C s -> r_graph B s = g -> fs = l1 ++ f :: l2 -> (forall d, In d l1 -> good B s d) ->
  E f = Some fd -> auto_schedule false fd = Done sc -> stopped_func B E fd sc s s' -> step_ok s s' (eq f).
Proof using HB HC Ha Hnc Hns Hm Hcv HCg.
  intros HI Hg Hfs Hgood Hfd Hsc HS0. pose proof (i_reach _ _ _ HI) as Hr. rewrite Hg in Hr. pose proof (reach_wf _ Hr) as Hw.
  assert (Hva : valid g a) by (unfold valid; apply nth_error_Some; congruence).
  pose proof (convert_inv L g a E fs HL Hr Hva Hns Hcv) as HS.
  assert (Hf : In f fs) by (rewrite Hfs; apply in_or_app; right; now left).
  destruct (convert_kctx L g a E fs f HS Hf) as (fd' & nd & Hfd' & HK). assert (fd' = fd) by congruence. subst fd'.
  pose proof (kc_nd _ _ _ _ _ HK) as Hnd.
  pose proof (fs_nonconst B C g a nda Ha Hnc E fs s f nd HI Hg HS Hf Hnd) as Hncf.
  destruct Hm as [Hfits (D & HD)].
  assert (Hcone : cone g a f) by (eapply cs_cone; eauto).
  assert (Hacone : forall x, In x (func_args (f_expr fd)) -> cone g a (arg_id x)).
  { intros x Hx. apply (in_args g f) in Hx. destruct x as [n|d]; cbn.
    - eapply convert_bufs; eauto.
    - eapply cs_cone; [exact HS|]. rewrite Hfs. apply in_or_app. left. exact (cs_topo _ _ _ _ _ HS l1 f l2 Hfs fd Hfd d Hx). }
  assert (Hfit : forall x, In x (func_args (f_expr fd)) -> ltB L (zprod (shape_of g (arg_id x)))).
  { intros x Hx. destruct (arg_node g Hw E f fd nd HK x Hx) as (xd & H1 & _ & H2). rewrite H2. apply (Hfits _ _ (Hacone x Hx) H1). }
  assert (HfitO : ltB L (zprod (n_shape nd))) by (apply (Hfits _ _ Hcone Hnd)).
  assert (Hval : forall idx, in_range (n_shape nd) idx -> evalV L (shape_of g) (Fden L g) (n_dtype nd) (f_expr fd) (lenv f (n_shape nd) idx) = Fden L g f idx).
  { intros idx Hi. rewrite (evalV_dt L (shape_of g) (Fden L g) (n_dtype nd) D).
    - eapply cs_value; eauto.
    - exact (proj1 (cs_bufs _ _ _ _ _ HS D f fd nd HD Hf Hfd Hnd)). }
  assert (Hready : forall x, In x (func_args (f_expr fd)) -> (exists xd vals, nth_error g (arg_id x) = Some xd /\ n_op xd = OConst vals) \/ good B s (arg_id x)).
  { intros x Hx. pose proof Hx as Hx'. apply (in_args g f) in Hx. destruct x as [n|d]; cbn [arg_id].
    - left. destruct (wff_bufs _ _ _ _ _ _ (kc_wff g E f fd nd HK) Hx) as (bd & H1 & H2). exists bd. destruct (n_op bd); try discriminate. eauto.
    - right. apply Hgood. exact (cs_topo _ _ _ _ _ HS l1 f l2 Hfs fd Hfd d Hx). }
  subst g.
  assert (Hout : f_out fd = f) by (rewrite (kc_fd _ _ _ _ _ HK); reflexivity).
  assert (HIV : forall s0 kern k0 k1 bufs, mapOut (arg_buffer E) (func_args (f_expr fd)) = Done bufs -> codegen (r_graph B s) E (func_args (f_expr fd)) fd sc k0 = Done (kern, k1) ->
     r_graph B s0 = r_graph B s -> r_cpu B s0 = r_cpu B s ->
     (forall key' kern', cache_get (r_cache B s0) key' = Some kern' -> exists d k0 k1, C d /\ key_of d = Done key' /\ code_of d k0 = Done (kern', k1)) ->
     stopped_invoke B s0 kern (f_out fd :: bufs) s' -> step_ok s s' (eq f)).
  { intros s0 kern k0 k1 bufs Hbufs HCG Hg0 Hc0 Hcache HST. rewrite Hout in HST.
    rewrite (arg_buffers B C s HI E f fd nd HK) in Hbufs. injection Hbufs as <-.
    destruct (sinvoke_ok B HB C s HI E f fd nd HK Hncf Hfit HfitO Hval Hready sc k0 k1 kern s0 s' Hsc HCG Hg0 Hc0 HST) as (G1 & G2 & G5 & G6 & G8).
    split; [|split; [exact G1|split; [intros b Hb; apply G5; congruence|]]].
    - split.
      + rewrite G1. exact Hr.
      + intros n nd' vals Hn Hop. rewrite G1 in Hn. destruct (Nat.eq_dec n f) as [->|Hne].
        * assert (nd' = nd) by congruence. subst. rewrite Hop in Hncf. discriminate.
        * rewrite G5 by assumption. eapply i_const; eauto.
      + intros n nd' vs Hn Hc Hvs. rewrite G1 in Hn. destruct (Nat.eq_dec n f) as [->|Hne].
        * assert (nd' = nd) by congruence. subst. auto.
        * rewrite G5 in Hvs by assumption. eapply i_buf; eauto.
      + intros n Hn. rewrite G1 in Hn. destruct (Nat.eq_dec n f) as [->|Hne]; [congruence|]. rewrite G5 by assumption. eapply i_new; eauto.
      + intros key' kern' Hk. rewrite G2 in Hk. auto.
    - intros n Hgn. destruct (Nat.eq_dec n f) as [->|Hne]; [auto|]. destruct Hgn as (nd' & vs & H1 & H2 & H3 & H4). exists nd', vs. rewrite G1. repeat split; auto. now rewrite G5. }
  destruct HS0 as [|bufs key kern k' Hb Hkey Hmiss HCG|bufs key k' _ _ _ _ _|bufs key kern k' s' Hb Hkey Hmiss HCG HST|bufs key kern s' Hb Hkey Hhit HST].
  - split; auto.
  - split; [|split; [reflexivity|split; auto]]. destruct HI as [I1 I2 I3 I4 I5]. split; cbn; auto.
  - split; [|split; [reflexivity|split; auto]]. destruct HI as [I1 I2 I3 I4 I5]. split; cbn; auto.
  - eapply HIV; [exact Hb|exact HCG| | | |exact HST]; cbn [r_graph r_cpu r_cache cache_get]; [reflexivity|reflexivity|].
    intros key' kern'. destruct (kkey_eq_dec key key') as [->|]; [|apply (i_cache _ _ _ HI)].
    intros Hk. assert (kern' = kern) by congruence. subst kern'. exists (mkD (r_graph B s) E fd sc), (r_tmp B s), k'. split; [apply (HCg f); auto|]. split; auto.
  - destruct (i_cache _ _ _ HI _ _ Hhit) as (d & k0 & k1 & Hd & Hdk & Hdc). eapply (HIV s kern k0 k1); eauto; [|apply (i_cache _ _ _ HI)].
    rewrite <- Hdc. symmetry. exact (HC d (mkD (r_graph B s) E fd sc) key Hd (HCg f fd sc Hf Hfd Hsc) Hdk Hkey k0).
Qed.

Lemma sfuncs_inv E' fd sc l s s' : stopped_funcs B E' ((fd, sc) :: l) s s' ->
  s' = s \/ stopped_func B E' fd sc s s' \/ exists s1, run_func B E' fd sc s = (s1, Done tt) /\ stopped_funcs B E' l s1 s'.
Proof. intros HS. inversion HS; subst; eauto. Qed.
Lemma sfuncs_nil E' s s' : stopped_funcs B E' [] s s' -> s' = s.
Proof. intros HS. inversion HS; auto. Qed.
Lemma sfuncs_ok l2 : forall l1 s l s', inv B C s -> r_graph B s = g -> fs = l1 ++ l2 -> (forall d, In d l1 -> good B s d) ->
  mapOut (schedule_one B E) l2 = Done l -> stopped_funcs B E l s s' -> step_ok s s' (fun n => In n l2).
Proof using HB HC Ha Hnc Hns Hm Hcv HCg.
  induction l2 as [|f l2 IH]; intros l1 s l s' HI Hg Hfs Hgood HM HS.
  - injection HM as <-. apply sfuncs_nil in HS. subst s'. split; auto.
  - cbn [mapOut] in HM. bd HM. destruct v as [fd sc]. bd HM. injection HM as <-.
    unfold schedule_one in D. bd D. destruct (E f) as [fd'|] eqn:Ef; [|discriminate]. injection D1 as <-. bd D.
    destruct (forallb _ _) in D; [|discriminate]. injection D as <- <-.
    destruct (sfuncs_inv _ _ _ _ _ _ HS) as [->|[HF|(s1 & HRF & HS')]].
    + split; auto.
    + destruct (sfunc_ok s l1 f l2 fd' v0 s' HI Hg Hfs Hgood Ef D1 HF) as (Q1 & Q2 & Q3 & Q4). split; auto. split; auto. split; auto.
      intros b Hb. apply Q3. intros <-. apply Hb. now left.
    + destruct (run_func_ok B HB C HC g a nda Ha Hnc Hns Hm E fs Hcv HCg s l1 f l2 fd' v0 HI Hg Hfs Hgood Ef D1) as (s2 & oc & HR & HI1 & Hg1 & Hr1 & Hfr & Hmono & Hoc).
      rewrite HRF in HR. injection HR as <- <-. destruct Hoc as [Hoc _].
      destruct (IH (l1 ++ [f]) s1 v s' HI1 Hg1) as (Q1 & Q2 & Q3 & Q4); auto.
      { rewrite <- app_assoc. exact Hfs. }
      { intros d Hd. apply in_app_iff in Hd as [Hd|[<-|[]]]; auto. }
      split; auto. split; [congruence|]. split; auto. intros b Hb. rewrite Q3 by (intros H; apply Hb; now right). apply Hfr. intros ->. apply Hb. now left.
Qed.
End SRun.

Lemma stopped_base s a b bd s' : wf_graph (r_graph B s) -> base (r_graph B s) a = Some b -> (a < length (r_graph B s))%nat -> nth_error (r_graph B s) b = Some bd ->
  stopped B s a s' -> s' = s \/ (is_const (n_op bd) = false /\ stopped B s b s').
Proof.
  intros Hw Hb Ha Hbd HS. destruct (base_total _ a Hw Ha) as (b' & Hb' & _ & Hv). assert (b' = b) by congruence. subst b'. clear Hb Hb' Ha.
  revert HS. induction Hv as [b nd Hn Hnv|a nd p pd b Hn Hvw Hp Hpd _ Hv IH]; intros HS.
  - assert (bd = nd) by congruence. subst. destruct (is_const (n_op nd)) eqn:Ec; [|right; auto]. left. inversion HS; subst; auto; congruence.
  - inversion HS as [a'|a' nd' q r s1 H1 H2 H3 H4|a' nd' E fs l s1 H1 H2 H3]; subst; auto; [|congruence].
    assert (nd' = nd) by congruence. subst. rewrite H3 in Hp. cbn in Hp. injection Hp as ->. auto.
Qed.
Lemma stopped_ok s a b s' : inv B C s -> valid (r_graph B s) a -> base (r_graph B s) a = Some b -> mat_ok L (r_graph B s) b ->
  (forall d, kernel_of (r_graph B s) a d -> C d) -> stopped B s a s' -> step_ok s s' (cone (r_graph B s) b).
Proof using HB HC.
  intros HI Hv Hb Hm HCd HS. pose proof (reach_wf _ (i_reach _ _ _ HI)) as Hw.
  destruct (base_total _ a Hw Hv) as (b' & Hb' & Hle & _). assert (b' = b) by congruence. subst b'.
  assert (Hlt : (b < length (r_graph B s))%nat) by (unfold valid in Hv; lia).
  destruct (nth_error (r_graph B s) b) as [bd|] eqn:Hbd; [|apply nth_error_None in Hbd; lia].
  assert (H0 : step_ok s s (cone (r_graph B s) b)) by (split; auto; split; auto).
  destruct (stopped_base s a b bd s' Hw Hb Hv Hbd HS) as [->|[Ec HSb]]; auto.
  inversion HSb as [a'|a' nd' q r s1 H1 H2 H3 H4|a' nd' E fs l s1 H1 H2 H3 H4 H5 H6]; subst; auto.
  { exfalso. assert (nd' = bd) by congruence. subst. destruct (base_total _ a Hw Hv) as (b' & Hb'' & _ & Hvw). assert (b' = b) by congruence. subst b'.
    clear - Hvw H1 H2. induction Hvw as [b nd Hn Hnv|]; [congruence|auto]. }
  destruct (convert_cases L HL (r_graph B s) Hw b Hlt) as [Hns|HT]; [|congruence].
  destruct (convert_ok L HL (r_graph B s) Hw b bd Hbd Hns) as (E' & fs' & HCv & HSp). rewrite H4 in HCv. injection HCv as <- <-.
  destruct (sfuncs_ok (r_graph B s) b bd Hbd Ec Hns Hm E fs H4) with (l2 := fs) (l1 := @nil nat) (s := s) (l := l) (s' := s') as (Q1 & Q2 & Q3 & Q4); auto.
  { intros f fd sc Hf Hfd Hsc. apply HCd. exists b, bd, E, fs, f, fd, sc. auto 10. }
  { intros d []. }
  split; auto. split; auto. split; auto. intros n Hn. apply Q3. intros Hin. apply Hn. eapply cs_cone; eauto.
Qed.

(* ------------------------------------------------------------------ histories *)
Lemma stop_hist_inv s : stop_hist B C s -> inv B C s.
Proof using HB HC.
  induction 1 as [|s c Hs IH Hc|s a Hs IH Ha Hm Hk|s a s' Hs IH Ha Hm Hk HS|s Hs IH].
  - apply inv_init.
  - now apply api_call_ok.
  - destruct (base_total _ a (reach_wf _ (i_reach _ _ _ IH)) Ha) as (b & Hb & Hle & _).
    destruct (nth_error (r_graph B s) b) as [bd|] eqn:Hbd; [|apply nth_error_None in Hbd; unfold valid in Ha; lia].
    destruct (materialize_ok B HB C HC s a b bd IH Ha Hb Hbd (Hm b Hb) Hk) as (s' & oc & -> & HI & _). exact HI.
  - destruct (base_total _ a (reach_wf _ (i_reach _ _ _ IH)) Ha) as (b & Hb & Hle & _). eapply stopped_ok; eauto.
  - now apply reset_ok.
Qed.
Lemma stop_hist_later s t : stop_hist B C s -> stop_later B C s t -> stop_hist B C t.
Proof. intros Hs. induction 1; auto; [eapply th_call|eapply th_mat|eapply th_stop|eapply th_reset]; eauto. Qed.
Lemma stop_later_grow s t : stop_hist B C s -> stop_later B C s t -> (exists e, r_graph B t = r_graph B s ++ e) /\ forall n, good B s n -> good B t n.
Proof using HB HC.
  intros Hs. induction 1 as [|t c Ht IH Hc|t a Ht IH Ha Hm Hk|t a t' Ht IH Ha Hm Hk HS|t Ht IH].
  - split; auto. exists []. now rewrite app_nil_r.
  - destruct IH as [(e & He) IH]. pose proof (stop_hist_inv t (stop_hist_later s t Hs Ht)) as HI.
    destruct (api_call_ok B C t c HI Hc) as (_ & (e2 & He2) & _). split; [exists (e ++ e2); now rewrite He2, He, app_assoc|].
    intros n Hn. eapply good_call; eauto.
  - destruct IH as [(e & He) IH]. pose proof (stop_hist_inv t (stop_hist_later s t Hs Ht)) as HI.
    destruct (base_total _ a (reach_wf _ (i_reach _ _ _ HI)) Ha) as (b & Hb & Hle & _).
    destruct (nth_error (r_graph B t) b) as [bd|] eqn:Hbd; [|apply nth_error_None in Hbd; unfold valid in Ha; lia].
    destruct (materialize_ok B HB C HC t a b bd HI Ha Hb Hbd (Hm b Hb) Hk) as (s' & oc & -> & _ & Hg & _ & Hgd & _). cbn [fst]. split; auto. rewrite Hg. eauto.
  - destruct IH as [(e & He) IH]. pose proof (stop_hist_inv t (stop_hist_later s t Hs Ht)) as HI.
    destruct (base_total _ a (reach_wf _ (i_reach _ _ _ HI)) Ha) as (b & Hb & Hle & _).
    destruct (stopped_ok t a b t' HI Ha Hb (Hm b Hb) Hk HS) as (_ & Hg & _ & Hgd). split; auto. rewrite Hg. eauto.
  - destruct IH as [(e & He) IH]. split; [exists e; exact He|]. intros n Hn. exact (IH n Hn).
Qed.
End SMat.
