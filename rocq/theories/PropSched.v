(* Properties C08, C09, C10: user schedules. *)
From Coq Require Import Permutation Sorted.
From Verif Require Import Base Util Lang Spec Graph Api Denote ArrayLit Reach Algo AlgoSem Kernel Sched Codegen Backends LangInst Prog
  BaseFacts ApiFacts AlgoConv AlgoConv2 AlgoFuse2 AlgoConvert AlgoConvert2 RunFacts SchedFacts KernelRun BackendFacts AlgoTop AlgoMore Nest NestSched Parallel ParCpu ParTop ParGpu
  PropAlgo PropPar SchedUser SchedUser2 SchedUser3 SchedReach FloatDiv.

(* the schedules a user can reach: calls on the schedule of any kernel of any conversion *)
Definition user_schedule (s : schedule) : Prop :=
  exists g a E fs f fd, reach g /\ valid g a /\ convert g a = Done (E, fs) /\ In f fs /\ E f = Some fd /\ sreach (sched_init fd) s.

Lemma init_sinv g E f fd nd : kctx g E f fd nd -> sinv (sched_init fd).
Proof.
  intros HK. pose proof (ui_names _ _ _ (uinv_init g E f fd nd HK)) as HN. destruct (wff_red _ _ _ _ _ (kc_wff _ _ _ _ _ HK)) as [_ HR].
  assert (HF : Forall (fun n => exists r p, n = NLoop r p []) (names (s_loops (sched_init fd)))).
  { unfold names, sched_init. cbn [s_loops]. rewrite map_app, !map_map. cbn [ls_lv lv_name]. apply Forall_app. split; apply Forall_forall; intros n Hn; apply in_map_iff in Hn as (l & <- & _); unfold lname; eauto. }
  split; [now apply apart_base|]. eapply Forall_impl; [|exact HF]. intros n (r & p & ->). exact I.
Qed.
Lemma user_sinv s : user_schedule s -> sinv s.
Proof.
  intros (g & a & E & fs & f & fd & Hr & Ha & Hcv & Hf & Hfd & HS). pose proof (converted_ns _ _ _ _ Hr Ha Hcv) as Hns.
  pose proof (convert_inv (py_lang no_libm) g a E fs (py_lang_ok _) Hr Ha Hns Hcv) as HSp.
  destruct (convert_kctx (py_lang no_libm) g a E fs f HSp Hf) as (fd' & nd & Hfd' & HK). assert (fd' = fd) by congruence. subst fd'.
  eapply sreach_inv; [exact HS|]. eapply init_sinv; eauto.
Qed.

(* ------------------------------------------------------------------ C08 *)
(* positions visited by the two loops, outer first *)
Definition visited (outer inner factor : Z) : list Z := flat_map (fun o => map (fun i => o * factor + i) (zrange inner)) (zrange outer).
Lemma visited_order o i f : visited o i f = split_order o i f.
Proof.
  unfold visited, split_order. rewrite map_flat_map. apply flat_map_ext_in. intros x _. rewrite map_map. reflexivity.
Qed.
(* C08.  On any schedule a user can reach, split(lv, factor) of a loop of the schedule by a positive factor
   succeeds; it replaces exactly that loop, in place, by an outer and an inner loop of the same kind, and
   records one split.  The positions outer*factor+inner, visited in loop order and filtered by the tail guard
   (when one is emitted), are 0, 1, ..., extent-1 in this order; the guard is emitted iff some visited position
   is outside the extent. *)
Theorem C08_split : forall s lv factor, user_schedule s -> In lv (map ls_lv (s_loops s)) -> 0 <= lv_ext lv -> 0 < factor ->
  exists s' o i l1 l l2 sp, split s lv factor = Done (s', o, i) /\
    s_loops s = l1 ++ l :: l2 /\ ls_lv l = lv /\
    s_loops s' = l1 ++ mkLS o (ls_kind l) XSeq :: mkLS i (ls_kind l) XSeq :: l2 /\
    s_splits s' = s_splits s ++ [sp] /\ sp_orig sp = lv /\ sp_o sp = o /\ sp_i sp = i /\ sp_factor sp = factor /\
    filter (fun p => negb (sp_guard sp) || (p <? lv_ext lv)) (visited (lv_ext o) (lv_ext i) factor) = zrange (lv_ext lv) /\
    (sp_guard sp = true <-> exists p, In p (visited (lv_ext o) (lv_ext i) factor) /\ lv_ext lv <= p).
Proof.
  intros s lv f HU Hin He Hf. pose proof (user_sinv s HU) as HI.
  destruct (split s lv f) as [[[s' o] i]|ex] eqn:ES.
  2:{ exfalso. unfold split in ES. rewrite (proj2 (Z.eqb_neq f 0)) in ES by lia. apply in_map_iff in Hin as (l & Hl & Hin). apply In_nth_error in Hin as [k Hk].
      assert (Hix : index_of (lv_name lv) (s_loops s) = Some k) by (apply index_of_name; [apply apart_NoDup, HI|exists l; now rewrite Hl]).
      rewrite Hix, Hk in ES. discriminate. }
  destruct (sinv_split s lv f s' o i HI Hin ES) as (_ & l1 & l & l2 & H1 & H2 & H3 & -> & -> & H4).
  eexists s', _, _, l1, l, l2, _. split; [reflexivity|]. split; [exact H1|]. split; [exact H2|]. split; [exact H3|]. split; [exact H4|]. cbn [sp_orig sp_o sp_i sp_factor sp_guard lv_ext].
  repeat (split; [reflexivity|]). rewrite visited_order. split; [|now apply guard_iff].
  rewrite split_order_ok by lia. pose proof (ceildiv_bounds (lv_ext lv) f Hf) as HC. destruct (Z.eqb_spec (lv_ext lv mod f) 0) as [Em|Em]; cbn [negb orb].
  - assert (Heq : ceildiv (lv_ext lv) f * f = lv_ext lv).
    { unfold ceildiv. pose proof (Z.div_mod (- lv_ext lv) f ltac:(lia)) as HD. rewrite Z.mod_opp_l_z in HD by lia. lia. }
    rewrite Heq. apply filter_all_true. auto.
  - apply filter_zrange; [lia|]. pose proof (ceildiv_nonneg (lv_ext lv) f He Hf). nia.
Qed.
Print Assumptions C08_split.
(* the extent of the outer loop, computed in floating point by the code, is exact for every extent below 2^53 *)
Theorem C08_float_extent : forall extent factor, 0 <= extent < 2 ^ 53 -> 0 < factor -> fl_ceil_div extent factor = ceildiv extent factor.
Proof. exact fl_ceil_div_exact. Qed.
Print Assumptions C08_float_extent.
(* a kernel with two loops and a reduction: (2,3,4) summed over the last axis *)
Definition exSum : graph := prog [CFull [2; 3; 4] (NInt 1); CSum 0 (Some [2]) false].
Lemma exSum_init : exists E fd, convert exSum 1 = Done (E, [1%nat]) /\ E 1%nat = Some fd /\
  s_loops (sched_init fd) = [mkLS (mkLV (NLoop false 0 []) 2) Spatial XSeq; mkLS (mkLV (NLoop false 1 []) 3) Spatial XSeq; mkLS (mkLV (NLoop true 0 []) 4) Reduce XSeq].
Proof. eexists _, _. split; [vm_compute; reflexivity|]. split; vm_compute; reflexivity. Qed.
Example C08_nonvacuous : exists s, user_schedule s /\ In (mkLV (NLoop false 1 []) 3) (map ls_lv (s_loops s)) /\ length (s_splits s) = 1%nat /\
  visited 2 2 2 = [0; 1; 2; 3].
Proof.
  destruct exSum_init as (E & fd & Hc & Hfd & Hl).
  assert (HS : exists s1 o i, split (sched_init fd) (mkLV (NLoop false 0 []) 2) 5 = Done (s1, o, i) /\ In (mkLV (NLoop false 1 []) 3) (map ls_lv (s_loops s1)) /\ length (s_splits s1) = 1%nat).
  { destruct (sched_init fd) as [loops spls] eqn:Ei. unfold sched_init in Ei. injection Ei as Ei Es. cbn [s_loops] in Hl. subst spls loops. rewrite Hl. cbn. eexists _, _, _. split; [reflexivity|]. cbn. auto. }
  destruct HS as (s1 & o & i & HS & H1 & H2). exists s1. split; [|split; [exact H1|split; [exact H2|reflexivity]]].
  exists exSum, 1%nat, E, [1%nat], 1%nat, fd. split; [apply prog_reach|]. split; [vm_compute; lia|].
  split; [exact Hc|]. split; [now left|]. split; [exact Hfd|]. eapply sr_split; [apply sr_refl| |exact HS]. rewrite Hl. now left.
Qed.

(* ------------------------------------------------------------------ C09 *)
Lemma refill_other mem : forall l q k lv, nth_error l k = Some lv -> mem lv = false -> nth_error (refill mem l q) k = Some lv.
Proof.
  induction l as [|x l IH]; intros q k lv Hk Hm; [destruct k; discriminate|]. cbn [refill]. destruct k as [|k]; cbn in Hk.
  - injection Hk as ->. rewrite Hm. reflexivity.
  - destruct (mem x); [destruct q|]; cbn; auto.
Qed.
Lemma refill_filter mem : forall l q, length q = length (filter mem l) -> (forall x, In x q -> mem x = true) -> filter mem (refill mem l q) = q.
Proof.
  induction l as [|x l IH]; intros q Hl Hq; cbn in *; [destruct q; [auto|discriminate]|]. destruct (mem x) eqn:Em; cbn [filter].
  - destruct q as [|y q]; [discriminate|]. cbn. rewrite (Hq y) by now left. f_equal. apply IH; [cbn in Hl; lia|]. intros; apply Hq; now right.
  - rewrite Em. auto.
Qed.
Lemma filter_order {A} (p : A -> bool) : forall (l : list A) i1 i2 k1 k2 a b, NoDup l -> nth_error (filter p l) i1 = Some a -> nth_error (filter p l) i2 = Some b -> (i2 < i1)%nat ->
  nth_error l k1 = Some a -> nth_error l k2 = Some b -> (k2 < k1)%nat.
Proof.
  induction l as [|x l IH]; intros i1 i2 k1 k2 a b HN H1 H2 Hi K1 K2; [destruct k1; discriminate|]. apply NoDup_cons_iff in HN as [Hx HN].
  cbn [filter] in H1, H2. destruct (p x) eqn:Ep.
  - destruct i1 as [|i1]; [lia|]. cbn in H1. assert (Ha : In a l) by (apply nth_error_In in H1; now apply filter_In in H1).
    destruct k1 as [|k1]; [cbn in K1; injection K1 as ->; contradiction|]. destruct k2 as [|k2]; [lia|]. cbn in K1, K2.
    destruct i2 as [|i2]; [cbn in H2; injection H2 as ->; apply nth_error_In in K2; contradiction|]. cbn in H2.
    assert (k2 < k1)%nat; [|lia]. apply (IH i1 i2 k1 k2 a b); auto. lia.
  - assert (Ha : In a l) by (apply nth_error_In in H1; now apply filter_In in H1). assert (Hb : In b l) by (apply nth_error_In in H2; now apply filter_In in H2).
    destruct k1 as [|k1]; [cbn in K1; injection K1 as ->; contradiction|]. destruct k2 as [|k2]; [lia|]. cbn in K1, K2.
    assert (k2 < k1)%nat; [|lia]. apply (IH i1 i2 k1 k2 a b); auto.
Qed.
(* C09.  On any schedule a user can reach, reorder(l1, ..., lk) of distinct loops of the schedule succeeds;
   the new order is a permutation of the old one, every other loop stays at its place, and the listed loops
   appear, from the outermost to the innermost, as lk, ..., l1 (first argument innermost).
   PARTIAL: only the loop variables move; kind and execution mode stay at their positions (stated here, and
   shown to be harmful below). *)
Theorem C09_reorder_partial : forall s lvs, user_schedule s -> NoDup lvs -> (forall lv, In lv lvs -> In lv (map ls_lv (s_loops s))) ->
  exists s', reorder s lvs = Done s' /\ s_splits s' = s_splits s /\
    Permutation (map ls_lv (s_loops s)) (map ls_lv (s_loops s')) /\
    (forall k lv, nth_error (map ls_lv (s_loops s)) k = Some lv -> ~ In lv lvs -> nth_error (map ls_lv (s_loops s')) k = Some lv) /\
    (forall j1 j2 k1 k2 a b, (j1 < j2)%nat -> nth_error lvs j1 = Some a -> nth_error lvs j2 = Some b ->
       nth_error (map ls_lv (s_loops s')) k1 = Some a -> nth_error (map ls_lv (s_loops s')) k2 = Some b -> (k2 < k1)%nat) /\
    map ls_kind (s_loops s') = map ls_kind (s_loops s) /\ map ls_exec (s_loops s') = map ls_exec (s_loops s).
Proof.
  intros s lvs HU HD Hin. pose proof (user_sinv s HU) as [HA _]. apply apart_NoDup in HA.
  assert (Hnl : forall x y, In x (map ls_lv (s_loops s)) -> In y (map ls_lv (s_loops s)) -> lv_name x = lv_name y -> x = y).
  { intros x y Hx Hy He. apply in_map_iff in Hx as (lx & <- & Hx). apply in_map_iff in Hy as (ly & <- & Hy). f_equal. eapply names_inj; eauto. }
  assert (HDn : NoDup (map lv_name lvs)).
  { clear - HD Hin Hnl. induction HD as [|x l Hx _ IH]; cbn; constructor; [|apply IH; intros; apply Hin; now right].
    intros H. apply in_map_iff in H as (y & E & Hy). apply Hx. replace x with y; auto. apply Hnl; auto; apply Hin; [now right|now left]. }
  destruct (reorder_ok s lvs HA HDn Hin) as (s' & HR & Hsp & Hk & Hx & Hlv & HP). exists s'. split; auto. split; auto. split; auto.
  assert (Hmb : forall lv, In lv (map ls_lv (s_loops s)) -> memb lvs lv = true <-> In lv lvs).
  { intros lv Hl. rewrite memb_spec. split; [|apply in_map]. intros H. apply in_map_iff in H as (y & E & Hy). replace lv with y; auto. }
  split; [|split; [|split; auto]].
  - intros k lv Hkk Hn. rewrite Hlv. apply refill_other; auto. destruct (memb lvs lv) eqn:E; auto. exfalso. apply Hn, Hmb; auto. eapply nth_error_In; eauto.
  - intros j1 j2 k1 k2 a b Hj J1 J2 K1 K2.
    assert (HND : NoDup (map ls_lv (s_loops s'))) by (eapply Permutation_NoDup; [exact HP|]; eapply NoDup_map_inv with (f := lv_name); rewrite <- names_lv; exact HA).
    assert (HF : filter (memb lvs) (map ls_lv (s_loops s')) = rev lvs).
    { rewrite Hlv. apply refill_filter.
      - rewrite rev_length. apply Permutation_length. apply NoDup_Permutation; auto.
        + apply NoDup_filter. eapply Permutation_NoDup; [symmetry; exact HP|exact HND].
        + intros lv. rewrite filter_In. split; [intros H; split; auto; apply Hmb; auto|]. intros [H1 H2]. now apply Hmb.
      - intros lv Hl. apply in_rev in Hl. apply Hmb; auto. }
    assert (L1 : (j1 < length lvs)%nat) by (apply nth_error_Some; congruence). assert (L2 : (j2 < length lvs)%nat) by (apply nth_error_Some; congruence).
    assert (HRv : forall j x, nth_error lvs j = Some x -> nth_error (rev lvs) (length lvs - S j) = Some x).
    { intros j x Hj'. assert (j < length lvs)%nat by (apply nth_error_Some; congruence). rewrite <- Hj'.
      rewrite (nth_error_nth' _ x) by (rewrite rev_length; lia). rewrite (nth_error_nth' lvs x) by lia. f_equal. rewrite rev_nth by lia. f_equal. lia. }
    eapply (filter_order (memb lvs) (map ls_lv (s_loops s')) (length lvs - S j1) (length lvs - S j2) k1 k2 a b HND); rewrite ?HF; auto. lia.
Qed.
Print Assumptions C09_reorder_partial.
(* a variable that is not a loop of the schedule is rejected *)
Theorem C09_unknown_loop : forall s lvs lv, In lv lvs -> ~ In (lv_name lv) (map (fun l => lv_name (ls_lv l)) (s_loops s)) -> reorder s lvs = Throw RuntimeErr.
Proof.
  intros s lvs lv Hin Hn. unfold reorder. assert (HI : indices_of (s_loops s) lvs = Throw RuntimeErr); [|now rewrite HI].
  induction lvs as [|x lvs IH]; [destruct Hin|]. cbn.
  assert (G : forall n l, ~ In n (map (fun l => lv_name (ls_lv l)) l) -> index_of n l = None).
  { clear. induction l as [|y l IH]; cbn; intros H; auto. destruct (name_eqb (lv_name (ls_lv y)) n) eqn:E; [apply name_eqb_eq in E; tauto|]. rewrite IH; tauto. }
  destruct Hin as [->|Hin]; [now rewrite (G _ _ Hn)|]. destruct (index_of (lv_name x) (s_loops s)); cbn; auto. now rewrite IH.
Qed.
Print Assumptions C09_unknown_loop.
Lemma exSum_reach : exists fd, user_schedule (sched_init fd) /\
  s_loops (sched_init fd) = [mkLS (mkLV (NLoop false 0 []) 2) Spatial XSeq; mkLS (mkLV (NLoop false 1 []) 3) Spatial XSeq; mkLS (mkLV (NLoop true 0 []) 4) Reduce XSeq].
Proof.
  destruct exSum_init as (E & fd & Hc & Hfd & Hl). exists fd. split; [|exact Hl].
  exists exSum, 1%nat, E, [1%nat], 1%nat, fd. split; [apply prog_reach|]. split; [vm_compute; lia|].
  split; [exact Hc|]. split; [now left|]. split; [exact Hfd|apply sr_refl].
Qed.
Example C09_nonvacuous : exists s, user_schedule s /\ NoDup [mkLV (NLoop false 0 []) 2; mkLV (NLoop false 1 []) 3] /\
  forall lv, In lv [mkLV (NLoop false 0 []) 2; mkLV (NLoop false 1 []) 3] -> In lv (map ls_lv (s_loops s)).
Proof.
  destruct exSum_reach as (fd & HU & Hl). exists (sched_init fd). split; auto. split; [repeat constructor; cbn; intuition discriminate|]. rewrite Hl. cbn. intuition.
Qed.
(* parallel(i); reorder(i, j): the annotation stays at the outermost place, now loop j, and i has lost it *)
Theorem C09_annotation_lost_refuted : exists s i j s1 s2, user_schedule s /\ set_exec s i XPar = Done s1 /\ reorder s1 [i; j] = Done s2 /\
  (exists l, In l (s_loops s1) /\ ls_lv l = i /\ ls_exec l = XPar) /\
  (forall l, In l (s_loops s2) -> ls_lv l = i -> ls_exec l = XSeq) /\ (exists l, In l (s_loops s2) /\ ls_lv l = j /\ ls_exec l = XPar).
Proof.
  destruct exSum_reach as (fd & HU & Hl). exists (sched_init fd), (mkLV (NLoop false 0 []) 2), (mkLV (NLoop false 1 []) 3).
  unfold set_exec, reorder. rewrite Hl. cbn. eexists _, _. split; auto. split; [reflexivity|]. split; [reflexivity|]. cbn. split; [eexists; split; [left; reflexivity|]; auto|].
  split; [|eexists; split; [left; reflexivity|]; auto]. intros l [<-|[<-|[<-|[]]]]; cbn; congruence.
Qed.
Print Assumptions C09_annotation_lost_refuted.
(* reorder(i, r) of a spatial and a reduction loop: the loop of i is now a reduction loop, of which no code is
   generated, and r is looped over instead *)
Theorem C09_kinds_swapped_refuted : exists s i r s1, user_schedule s /\ reorder s [i; r] = Done s1 /\ In i (spatial_loops s) /\ ~ In i (spatial_loops s1) /\ In r (spatial_loops s1).
Proof.
  destruct exSum_reach as (fd & HU & Hl). exists (sched_init fd), (mkLV (NLoop false 0 []) 2), (mkLV (NLoop true 0 []) 4).
  unfold reorder, spatial_loops. rewrite Hl. cbn. eexists. split; auto. split; [reflexivity|]. cbn. split; [now left|]. split; [|now left]. intros [H|[H|[]]]; discriminate.
Qed.
Print Assumptions C09_kinds_swapped_refuted.

(* ------------------------------------------------------------------ C10 *)
(* C10.  Take any kernel of any array on a CPU backend and any memory whose buffers have the right sizes on
   which it ends normally in ms.  The kernel generated from any legal user schedule - spatial loops split (each
   at most once, any positive factors), loops reordered within their kind, any sequential / parallel /
   vectorize / unroll annotation - ends normally in the same memory.
   PARTIAL: a loop with a tail guard must have its two halves outermost (tail_ok), a half may not be split
   again, reduction loops may not be split, reorder may not mix the kinds: each is refuted below.  Parallel
   execution, and the additional restriction in C that the compiler rejects "return" inside a loop annotated parallel:
   C57. *)
Theorem C10_user_schedule_partial : forall (L : lang) b g a E fs f fd k s kern k1 scoped gp lo ls (m ms : store L) fl cs su k' kern' k1',
  lang_ok L -> b <> CUDA -> reach g -> valid g a -> fits L g a ->
  convert g a = Done (E, fs) -> In f fs -> E f = Some fd -> gen b g E fd k = Done (s, kern, k1) -> kernel_memory g f fd lo ls m ->
  run (bind_params (k_params kern) (lo :: ls)) (exec L scoped gp (pty_of (k_params kern)) (k_body kern) [[]]) m = (ms, OkO fl) ->
  ulegals (sched_init fd) cs -> urun (sched_init fd) cs = Done su -> tail_ok su -> split_fits L su ->
  codegen g E (func_args (f_expr fd)) fd su k' = Done (kern', k1') ->
  exists mu fl', run (bind_params (k_params kern') (lo :: ls)) (exec L scoped gp (pty_of (k_params kern')) (k_body kern') [[]]) m = (mu, OkO fl') /\
    forall x, mu x = ms x.
Proof. intros; eapply user_same; eauto using converted_ns. Qed.
Print Assumptions C10_user_schedule_partial.
(* and the calls and the code generation never fail *)
Theorem C10_legal_calls_succeed : forall g a E fs f fd cs k, reach g -> valid g a -> 
  convert g a = Done (E, fs) -> In f fs -> E f = Some fd -> ulegals (sched_init fd) cs ->
  exists s kern k1, urun (sched_init fd) cs = Done s /\ codegen g E (func_args (f_expr fd)) fd s k = Done (kern, k1).
Proof. intros g a E fs f fd cs k Hr Ha Hcv Hf Hfd HU. pose proof (converted_ns _ _ _ _ Hr Ha Hcv) as Hns. exact (user_total (py_lang no_libm) (py_lang_ok _) g Hr a Ha Hns E fs Hcv f fd Hf Hfd cs k HU). Qed.
Print Assumptions C10_legal_calls_succeed.

(* -x for x of shape (2,3), on Python; memory: output zeros, input 1..6 *)
Definition exNeg : graph := prog
  [CArray (Nest [Nest [Leaf (NInt 1); Leaf (NInt 2); Leaf (NInt 3)]; Nest [Leaf (NInt 4); Leaf (NInt 5); Leaf (NInt 6)]]); CUnary UNeg 0].
Definition exNegMem : store (py_lang no_libm) := fun l => match l with
  | 0%nat => Some (map PI [0; 0; 0; 0; 0; 0]) | 1%nat => Some (map PI [1; 2; 3; 4; 5; 6]) | _ => None end.
Definition axI := mkLV (NLoop false 0 []) 2.
Definition axJ := mkLV (NLoop false 1 []) 3.
(* what a schedule obtained by the calls leaves in the output buffer *)
Definition try_schedule (g : graph) (a : nat) (m : store (py_lang no_libm)) (cs : list ucall) : option (option (list (val (py_lang no_libm)))) :=
  match convert g a with
  | Done (E, _) => match E a with
    | Some fd => match urun (sched_init fd) cs with
      | Done su => match codegen g E (func_args (f_expr fd)) fd su 0 with
        | Done (kern, _) => match run (bind_params (k_params kern) [0; 1]%nat) (exec (py_lang no_libm) false (fun _ _ => 0) (pty_of (k_params kern)) (k_body kern) [[]]) m with
                            | (m', OkO _) => Some (m' 0%nat) | (_, _) => Some None end
        | _ => None end
      | _ => None end
    | None => None end
  | _ => None end.
Example C10_nonvacuous : exists E fd s kern k1 su cs, let outer := mkLV (NLoop false 1 [true]) 2 in let inner := mkLV (NLoop false 1 [false]) 2 in
  cs = [USplit axJ 2; UReorder [axI; inner; outer]; UExec axI XVec] /\
  reach exNeg /\ valid exNeg 1 /\ no_scalar_reshape exNeg 1 /\ fits (py_lang no_libm) exNeg 1 /\
  convert exNeg 1 = Done (E, [1%nat]) /\ E 1%nat = Some fd /\ gen Python exNeg E fd 0 = Done (s, kern, k1) /\ kernel_memory exNeg 1 fd 0 [1%nat] exNegMem /\
  ulegals (sched_init fd) cs /\ urun (sched_init fd) cs = Done su /\ tail_ok su /\ split_fits (py_lang no_libm) su /\
  spatial_loops su = [outer; inner; axI] /\ existsb sp_guard (s_splits su) = true /\
  try_schedule exNeg 1 exNegMem cs = Some (Some (map PI [-1; -2; -3; -4; -5; -6])).
Proof.
  eexists _, _, _, _, _, _, _. cbn zeta. split; [reflexivity|]. split; [apply prog_reach|]. split; [vm_compute; lia|]. split; [apply no_scalar_reshape_all; vm_compute; reflexivity|].
  split; [apply fits_all; vm_compute; reflexivity|]. split; [vm_compute; reflexivity|]. split; [vm_compute; reflexivity|]. split; [vm_compute; reflexivity|]. split.
  { split; [vm_compute; reflexivity|]. split; [intros [H|[]]; discriminate|]. split; [eexists; split; [reflexivity|vm_compute; reflexivity]|].
    intros [|i] x l H1 H2; cbn in H2; [|destruct i; discriminate]. injection H2 as <-. vm_compute in H1. injection H1 as <-.
    eexists. split; [reflexivity|vm_compute; reflexivity]. }
  split.
  { cbn [ulegals_x]. split; [split; [lia|split; [right; left; reflexivity|exists 1%nat; reflexivity]]|]. intros s1 H1. vm_compute in H1. injection H1 as <-.
    split; [split; [repeat constructor; cbn; intuition discriminate|left; apply Forall_forall; intros y Hy; cbn in Hy; destruct Hy as [<-|[<-|[<-|[]]]]; cbn; auto]|]. intros s2 H2. vm_compute in H2. injection H2 as <-.
    split; [split; [cbn; auto|exact I]|]. intros; exact I. }
  split; [vm_compute; reflexivity|]. split; [intros x [<-|[]] _; eexists; reflexivity|]. split; [intros x [<-|[]]; vm_compute; reflexivity|].
  split; [reflexivity|]. split; [reflexivity|]. vm_compute. reflexivity.
Qed.
(* the same split with the loops left in place: the tail guard of the first row returns from the kernel, the
   second row is never computed *)
Theorem C10_tail_guard_returns_refuted : exists g a m cs, reach g /\ valid g a /\
  try_schedule g a m [] = Some (Some (map PI [-1; -2; -3; -4; -5; -6])) /\ try_schedule g a m cs = Some (Some (map PI [-1; -2; -3; 0; 0; 0])) /\ cs = [USplit axJ 2].
Proof. exists exNeg, 1%nat, exNegMem, [USplit axJ 2]. split; [apply prog_reach|]. split; [vm_compute; lia|]. split; [vm_compute; reflexivity|]. split; [vm_compute; reflexivity|reflexivity]. Qed.
Print Assumptions C10_tail_guard_returns_refuted.
(* splitting the outer half again (no tail in either split): the reconstruction of the first variable is
   emitted before its outer half exists *)
Theorem C10_nested_split_refuted : exists g a m cs, reach g /\ valid g a /\
  try_schedule g a m cs = Some None /\ cs = [USplit axI 1; USplit (mkLV (NLoop false 0 [true]) 2) 1].
Proof. exists exNeg, 1%nat, exNegMem. eexists. split; [apply prog_reach|]. split; [vm_compute; lia|]. split; [|reflexivity]. vm_compute. reflexivity. Qed.
Print Assumptions C10_nested_split_refuted.
(* splitting the inner half again fails in the same way *)
Theorem C10_nested_inner_split_refuted : exists g a m cs, reach g /\ valid g a /\
  try_schedule g a m cs = Some None /\ cs = [USplit axI 2; USplit (mkLV (NLoop false 0 [false]) 2) 1].
Proof. exists exNeg, 1%nat, exNegMem. eexists. split; [apply prog_reach|]. split; [vm_compute; lia|]. split; [|reflexivity]. vm_compute. reflexivity. Qed.
Print Assumptions C10_nested_inner_split_refuted.
(* splitting a reduction loop: its variable is reconstructed outside the reduction from loops that are never
   generated *)
Definition exSumMem : store (py_lang no_libm) := fun l => match l with
  | 0%nat => Some (map PI [0; 0; 0; 0; 0; 0]) | 1%nat => Some (repeat (PI 1) 24) | _ => None end.
Theorem C10_split_reduction_refuted : exists g a m cs, reach g /\ valid g a /\
  try_schedule g a m [] = Some (Some (map PI [4; 4; 4; 4; 4; 4])) /\ try_schedule g a m cs = Some None /\ cs = [USplit (mkLV (NLoop true 0 []) 4) 2].
Proof. exists exSum, 1%nat, exSumMem. eexists. split; [apply prog_reach|]. split; [vm_compute; lia|]. split; [vm_compute; reflexivity|]. split; [|reflexivity]. vm_compute. reflexivity. Qed.
Print Assumptions C10_split_reduction_refuted.
(* swapping a spatial loop with a reduction loop *)
Theorem C10_reorder_mixed_refuted : exists g a m cs, reach g /\ valid g a /\
  try_schedule g a m cs = Some None /\ cs = [UReorder [axI; mkLV (NLoop true 0 []) 4]].
Proof. exists exSum, 1%nat, exSumMem. eexists. split; [apply prog_reach|]. split; [vm_compute; lia|]. split; [|reflexivity]. vm_compute. reflexivity. Qed.
Print Assumptions C10_reorder_mixed_refuted.
