(* Kernels never go out of bounds, whatever the contents of the buffers. *)
From Verif Require Import Base BaseFacts Util UtilFacts Lang Spec Graph Api ApiFacts Denote SpecFacts DenoteFacts Reach
  Algo AlgoSem AlgoConv AlgoConv2 AlgoFuse AlgoFuse2 AlgoConvert AlgoConvert2
  Kernel Sched Codegen Backends KernFacts RenderFacts KernelOk RunFacts SchedFacts SchedGpu KernelRun KernelRun2 BackendFacts AlgoTop AlgoMore.

Lemma fold_res_noraise {V} (h : V -> V -> res V) xs acc : (forall x y, h x y <> Raise) -> Forall (fun x => x <> Raise) xs -> fold_res h acc xs <> Raise.
Proof.
  intros Hh HF. revert acc. induction HF as [|x xs Hx _ IH]; intros acc; cbn; [discriminate|].
  destruct x as [v| |]; cbn; try congruence. pose proof (Hh acc v). destruct (h acc v); cbn; try congruence; auto.
Qed.
Lemma den_total (A : valg) g n nd idx : (forall u x, un A u x <> None) -> (forall b x y, bin A b x y <> None) ->
  wf_graph g -> nth_error g n = Some nd -> t_at (den A g n) idx <> Raise.
Proof.
  intros Hu Hb Hw. assert (O1 : forall dt u x, op1 A dt u x <> Raise) by (intros dt u x; unfold op1; specialize (Hu u x); destruct (un A u x); cbn; congruence).
  assert (O2 : forall dt b x y, op2 A dt b x y <> Raise) by (intros dt b x y; unfold op2; specialize (Hb b x y); destruct (bin A b x y); cbn; congruence).
  revert nd idx. induction n as [n IH] using lt_wf_ind. intros nd idx Hn.
  pose proof (Hw _ _ Hn) as Hwn. pose proof (den_wf_eq A g n nd Hw Hn) as Hd.
  unfold wf_node in Hwn. rewrite Hd. unfold den_node.
  destruct (n_op nd) eqn:Eop.
  { cbn. destruct (znth _ _); discriminate. }
  all: destruct Hwn as (a & x & Ha & Hlt & Hx & Hf & Hok); rewrite (tin_den A g nd 0 a Ha);
       pose proof (fun idx => IH a Hlt x idx Hx) as IHa; cbn.
  all: try apply IHa.
  - specialize (IHa idx). destruct (t_at (den A g a) idx); cbn; congruence.
  - destruct Hok as (b' & y & Hb' & _ & Hbl & Hy & Hsy). rewrite (tin_den A g nd 1 b' Hb').
    specialize (IHa idx). destruct (t_at (den A g a) idx); cbn; try congruence.
    pose proof (IH b' Hbl y idx Hy) as IHb. destruct (t_at (den A g b') idx); cbn; congruence.
  - apply fold_res_noraise; auto. apply Forall_forall. intros r Hr. apply in_map_iff in Hr as (p & <- & _). auto.
  - destruct (_ && _); [auto|discriminate].
  - destruct (_ =? 0); [auto|discriminate].
Qed.

Section Safe.
Context (L : lang) (HL : lang_ok L) (g : graph) (Hr : reach g) (a : nat) (Ha : valid g a) (Hns : no_scalar_reshape g a) (Hfit : fits L g a)
  (E : fenv) (fs : list nat) (Hcv : convert g a = Done (E, fs)) (f : nat) (fd : func) (Hf : In f fs) (Hfd : E f = Some fd).
Let Hw : wf_graph g := reach_wf g Hr.

Lemma kval_any F nd dt idx : nth_error g f = Some nd -> (forall n i, F n i <> Fault) -> in_range (n_shape nd) idx ->
  evalV L (shape_of g) F dt (f_expr fd) (lenv f (n_shape nd) idx) <> Fault.
Proof using HL Hr Ha Hns Hfit Hcv Hf Hfd.
  intros Hnd HF Hi. pose proof (zlang_ok L HL) as HZ. set (Z0 := zlang (ibound L)) in *.
  pose proof (convert_inv Z0 g a E fs HZ Hr Ha Hns Hcv) as HS.
  assert (HfZ : fits Z0 g a) by (intros n nd' Hc Hn; exact (Hfit n nd' Hc Hn)).
  assert (HdZ : one_dtype Z0 g a Int64) by (intros n nd' _ _ _ v; reflexivity).
  pose proof (cs_value _ _ _ _ _ HS Int64 f fd nd idx HdZ HfZ Hf Hfd Hnd Hi) as HV.
  assert (H1 : Fden Z0 g f idx <> Fault) by (eapply den_nofault; eauto).
  assert (H2 : Fden Z0 g f idx <> Raise) by (eapply den_total; eauto; intros; discriminate).
  destruct (Fden Z0 g f idx) as [v| |] eqn:Ev; try congruence.
  eapply (evalV_nofault L Z0 (shape_of g) F (Fden Z0 g)); [reflexivity| |exact HV]. intros n i _. apply HF.
Qed.

(* arguments of one kernel are different arrays *)
Lemma arg_cone : forall x, convert_spec L g a E fs -> In x (func_args (f_expr fd)) -> cone g a (arg_id x).
Proof using Hr Ha Hns Hcv Hf Hfd HL.
  intros x HS Hx. apply (in_args g f) in Hx. destruct x as [n|d]; cbn.
  - eapply convert_bufs; eauto.
  - apply in_split in Hf as (l1 & l2 & Hfs). eapply cs_cone; [exact HS|]. rewrite Hfs. apply in_or_app. left. exact (cs_topo _ _ _ _ _ HS l1 f l2 Hfs fd Hfd d Hx).
Qed.
Lemma args_distinct : convert_spec L g a E fs -> NoDup (map arg_id (func_args (f_expr fd))).
Proof using Hr Ha Hns Hcv Hf Hfd HL.
  intros HSp. destruct (convert_kctx L g a E fs f HSp Hf) as (fd' & nd' & Hfd' & HK). assert (fd' = fd) by congruence. subst fd'.
  unfold func_args. rewrite map_app, !map_map. cbn. rewrite !map_id. apply NoDup_app_intro; try apply dedup_NoDup.
  intros d H1 H2. apply dedup_in in H1 as [H1 _]. apply dedup_in in H2 as [H2 _].
  destruct (wff_bufs _ _ _ _ _ _ (kc_wff _ _ _ _ _ HK) H1) as (bd & Hbd & Hc).
  apply in_split in Hf as (l1 & l2 & Hfs).
  pose proof (cs_topo _ _ _ _ _ HSp l1 f l2 Hfs fd Hfd d H2) as Hd.
  assert (Hdf : In d fs) by (rewrite Hfs; apply in_or_app; now left).
  destruct (cs_keep _ _ _ _ _ HSp d Hdf) as [->|(nd & Hnd & Hk & _)]; [|congruence].
  destruct (cs_last _ _ _ _ _ HSp) as [l Hl]. pose proof (cs_nodup _ _ _ _ _ HSp) as HN.
  assert (Hfa : (f <= a)%nat) by (apply (cone_le g); [exact Hw|]; apply (cs_cone _ _ _ _ _ HSp); rewrite Hfs; apply in_elt).
  destruct (kc_deps _ _ _ _ _ HK a H2) as (? & ? & _ & _ & _ & _ & Hlt). lia.
Qed.
Fixpoint loc_of (xs : list arg) (ls : list nat) (n : nat) : option nat :=
  match xs, ls with x :: xs', l :: ls' => if Nat.eqb (arg_id x) n then Some l else loc_of xs' ls' n | _, _ => None end.
Lemma loc_of_nth xs : forall ls i x l, NoDup (map arg_id xs) -> nth_error xs i = Some x -> nth_error ls i = Some l -> loc_of xs ls (arg_id x) = Some l.
Proof.
  induction xs as [|y xs IH]; intros [|l0 ls] [|i] x l HN H1 H2; cbn in *; try discriminate.
  - injection H1 as ->. injection H2 as ->. now rewrite Nat.eqb_refl.
  - inversion HN as [|? ? Hy HN']; subst. destruct (Nat.eqb_spec (arg_id y) (arg_id x)) as [Heq|]; [|eauto].
    exfalso. apply Hy. rewrite Heq. apply in_map. eapply nth_error_In; eauto.
Qed.

(* the memory a kernel is run on: any contents, but the right number of elements *)
Theorem kernel_safe scoped gp nd sc k kern k1 lo ls (m : store L) out :
  nth_error g f = Some nd -> schedule_cpu (sched_init fd) = Done sc -> codegen g E (func_args (f_expr fd)) fd sc k = Done (kern, k1) ->
  length ls = length (func_args (f_expr fd)) -> ~ In lo ls -> m lo = Some out -> Z.of_nat (length out) = zprod (n_shape nd) ->
  (forall i x l, nth_error (func_args (f_expr fd)) i = Some x -> nth_error ls i = Some l ->
     exists vs, m l = Some vs /\ Z.of_nat (length vs) = zprod (shape_of g (arg_id x))) ->
  exists m' oc out', run (bind_params (k_params kern) (lo :: ls)) (exec L scoped gp (pty_of (k_params kern)) (k_body kern) [[]]) m = (m', oc) /\
    oc <> FaultO /\ (forall b, m' b = if Nat.eqb b lo then Some out' else m b) /\ length out' = length out.
Proof using HL Hr Ha Hns Hfit Hcv Hf Hfd.
  intros Hnd HS HC Hlen Hlo Hm Hout Hin.
  pose proof (convert_inv L g a E fs HL Hr Ha Hns Hcv) as HSp.
  destruct (convert_kctx L g a E fs f HSp Hf) as (fd' & nd' & Hfd' & HK). assert (fd' = fd) by congruence. subst fd'.
  assert (nd' = nd) by (pose proof (kc_nd _ _ _ _ _ HK); congruence). subst nd'.
  set (args := func_args (f_expr fd)) in *.
  assert (Hex : forall i x, nth_error args i = Some x -> exists l vs, nth_error ls i = Some l /\ m l = Some vs /\ Z.of_nat (length vs) = zprod (shape_of g (arg_id x))).
  { intros i x Hi. destruct (nth_error ls i) as [l|] eqn:El; [|apply nth_error_None in El; assert (i < length args)%nat by (apply nth_error_Some; congruence); lia].
    destruct (Hin i x l Hi El) as (vs & V1 & V2). eauto. }
  (* element values as the kernel sees them *)
  set (F := fun n idx => match loc_of args ls n with
     | Some l => match m l with Some vs => match znth vs (flat (shape_of g n) idx) with Some v => Ok v | None => Raise end | None => Raise end
     | None => Raise end).
  pose proof (args_distinct HSp) as HND. fold args in HND.
  assert (HF : forall n i, F n i <> Fault).
  { intros n i. unfold F. destruct (loc_of args ls n); [|discriminate]. destruct (m n0); [|discriminate]. destruct (znth l _); discriminate. }
  assert (Hfitf : ltB L (zprod (n_shape nd))) by (apply (Hfit f nd (cs_cone _ _ _ _ _ HSp f Hf) Hnd)).
  destruct (kernel_run L HL scoped gp g Hw E f fd nd HK Hfitf F) with (s := sc) (k := k) (kern := kern) (k1 := k1) (lo := lo) (ls := ls) (m := m) (out := out)
    as (m' & oc & out' & R & Hm' & Hl & Hoc); auto.
  - intros idx Hi. unfold kval. pose proof (kval_any F nd (n_dtype nd) idx Hnd HF Hi) as HN. destruct (evalV _ _ _ _ _ _); cbn; congruence.
  - intros i x l H1 H2. fold args in H1. destruct (Hin i x l H1 H2) as (vs & V1 & V2). assert (Hx : In x args) by (eapply nth_error_In; eauto).
    split.
    + destruct (arg_node g Hw E f fd nd HK x Hx) as (xd & X1 & _ & X2). rewrite X2. apply (Hfit (arg_id x) xd); auto. eapply arg_cone; eauto.
    + exists vs. split; auto. intros idx Hi. unfold F. rewrite (loc_of_nth args ls i x l HND H1 H2), V1.
      destruct (znth vs (flat (shape_of g (arg_id x)) idx)) as [v|] eqn:Ev; eauto. exfalso.
      pose proof (flat_bounds (shape_of g (arg_id x)) idx Hi) as HFB. destruct (znth_in_range vs (flat (shape_of g (arg_id x)) idx)) as [v Hv]; [lia|congruence].
  - exists m', oc, out'. repeat split; auto. intros ->. exact Hoc.
Qed.
End Safe.
