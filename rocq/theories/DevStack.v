(* materialize() on CUDA with a recursion limit in all its phases: Stack.v's conversion, StackGen.v's keys and generator, and the driver of
   Device.v.  The process is that of Device.v and the indentation of the generator object. *)
From Coq Require Import String.
From Verif Require Import Base BaseFacts Util UtilFacts Lang Spec Graph Api ApiFacts Denote DenoteFacts Reach Algo AlgoSem AlgoConv AlgoConvert AlgoConvert2 AlgoTop AlgoMore LangInst Kernel Sched Codegen Backends CacheKey CopyKey KernelRun
  Runtime RuntimeFacts RuntimeFacts2 Frame Text TextPrint Generator Stack StackFacts PropStack StackGen Parallel ParGpu Device DevFacts DevStop PrintFacts PrintDev CacheFacts HistFacts BackendFacts TolistFacts HistFacts2.
From Verif Require DevKey.
Open Scope Z_scope.

Section Run.
Context (B : cpu_backend) (nm : kkey -> string).
Notation dev := (dev B).
(* materialize.py:45-68, with L frames left; nm: the name of the kernel, from its key.  The outcome None is RecursionError.  A C text with a
   raised indentation is the same program (c_shift, C46) *)
Inductive gfunc_l (L : nat) (E : fenv) (fd : func) (sc : schedule) (s : dev) (ind : Z) : dev -> Z -> lim unit -> Prop :=
| gfl_args e : mapOut (arg_buffer E) (func_args (f_expr fd)) = Throw e -> gfunc_l L E fd sc s ind s ind (Some (Throw e))
| gfl_keydeep bufs : mapOut (arg_buffer E) (func_args (f_expr fd)) = Done bufs -> expr_key_l (dv_graph B s) E L (f_expr fd) [] = None ->
    gfunc_l L E fd sc s ind s ind None
| gfl_key bufs v e : mapOut (arg_buffer E) (func_args (f_expr fd)) = Done bufs -> expr_key_l (dv_graph B s) E L (f_expr fd) [] = Some v ->
    cache_key (dv_graph B s) E fd sc = Throw e -> gfunc_l L E fd sc s ind s ind (Some (Throw e))
| gfl_hit bufs v key kern s' oc : mapOut (arg_buffer E) (func_args (f_expr fd)) = Done bufs -> expr_key_l (dv_graph B s) E L (f_expr fd) [] = Some v ->
    cache_key (dv_graph B s) E fd sc = Done key -> cache_get (dv_cache B s) key = Some kern ->
    ginvoke B s sc kern (f_out fd) bufs s' oc -> gfunc_l L E fd sc s ind s' ind (Some oc)
| gfl_gendeep bufs v key o : mapOut (arg_buffer E) (func_args (f_expr fd)) = Done bufs -> expr_key_l (dv_graph B s) E L (f_expr fd) [] = Some v ->
    cache_key (dv_graph B s) E fd sc = Done key -> cache_get (dv_cache B s) key = None ->
    o_codegen_l CUDA (dv_graph B s) E L (nm key) (func_args (f_expr fd)) fd sc (mkOb [] ind (dv_tmp B s)) = (o, None) ->
    gfunc_l L E fd sc s ind (set_cache B s (dv_cache B s) (ob_tmp o)) (ob_ind o) None
| gfl_nogen bufs v key o e : mapOut (arg_buffer E) (func_args (f_expr fd)) = Done bufs -> expr_key_l (dv_graph B s) E L (f_expr fd) [] = Some v ->
    cache_key (dv_graph B s) E fd sc = Done key -> cache_get (dv_cache B s) key = None ->
    o_codegen_l CUDA (dv_graph B s) E L (nm key) (func_args (f_expr fd)) fd sc (mkOb [] ind (dv_tmp B s)) = (o, Some (Throw e)) ->
    gfunc_l L E fd sc s ind s (ob_ind o) (Some (Throw e))
| gfl_miss bufs v key o text kern k' s' oc : mapOut (arg_buffer E) (func_args (f_expr fd)) = Done bufs -> expr_key_l (dv_graph B s) E L (f_expr fd) [] = Some v ->
    cache_key (dv_graph B s) E fd sc = Done key -> cache_get (dv_cache B s) key = None ->
    o_codegen_l CUDA (dv_graph B s) E L (nm key) (func_args (f_expr fd)) fd sc (mkOb [] ind (dv_tmp B s)) = (o, Some (Done text)) ->
    codegen (dv_graph B s) E (func_args (f_expr fd)) fd sc (dv_tmp B s) = Done (kern, k') ->
    ginvoke B (set_cache B s ((key, kern) :: dv_cache B s) k') sc kern (f_out fd) bufs s' oc -> gfunc_l L E fd sc s ind s' (ob_ind o) (Some oc).
(* materialize.py:44 *)
Inductive gfuncs_l (L : nat) (E : fenv) : list (func * schedule) -> dev -> Z -> dev -> Z -> lim unit -> Prop :=
| gsl_nil s ind : gfuncs_l L E [] s ind s ind (Some (Done tt))
| gsl_deep fd sc r s ind s' ind' : gfunc_l L E fd sc s ind s' ind' None -> gfuncs_l L E ((fd, sc) :: r) s ind s' ind' None
| gsl_fail fd sc r s ind s' ind' e : gfunc_l L E fd sc s ind s' ind' (Some (Throw e)) -> gfuncs_l L E ((fd, sc) :: r) s ind s' ind' (Some (Throw e))
| gsl_cons fd sc r s ind s1 ind1 s' ind' x : gfunc_l L E fd sc s ind s1 ind1 (Some (Done tt)) -> gfuncs_l L E r s1 ind1 s' ind' x -> gfuncs_l L E ((fd, sc) :: r) s ind s' ind' x.
(* materialize.py:15-71 *)
Inductive gmat_l (s : dev) (ind : Z) : nat -> nat -> dev -> Z -> lim unit -> Prop :=
| gml_deep a : gmat_l s ind 0 a s ind None
| gml_const k a nd : nth_error (dv_graph B s) a = Some nd -> is_const (n_op nd) = true -> gmat_l s ind (S k) a s ind (Some (Done tt))
| gml_view k a nd b r s' ind' x : nth_error (dv_graph B s) a = Some nd -> is_view (n_op nd) = true -> n_in nd = b :: r -> gmat_l s ind k b s' ind' x -> gmat_l s ind (S k) a s' ind' x
| gml_convdeep k a nd : nth_error (dv_graph B s) a = Some nd -> is_const (n_op nd) = false -> is_view (n_op nd) = false ->
    convert_l k (dv_graph B s) a = None -> gmat_l s ind (S k) a s ind None
| gml_conv k a nd e : nth_error (dv_graph B s) a = Some nd -> is_const (n_op nd) = false -> is_view (n_op nd) = false ->
    convert_l k (dv_graph B s) a = Some (Throw e) -> gmat_l s ind (S k) a s ind (Some (Throw e))
| gml_sched k a nd E fs e : nth_error (dv_graph B s) a = Some nd -> is_const (n_op nd) = false -> is_view (n_op nd) = false ->
    convert_l k (dv_graph B s) a = Some (Done (E, fs)) -> mapOut (gschedule_one E) fs = Throw e -> gmat_l s ind (S k) a s ind (Some (Throw e))
| gml_run k a nd E fs l s' ind' x : nth_error (dv_graph B s) a = Some nd -> is_const (n_op nd) = false -> is_view (n_op nd) = false ->
    convert_l k (dv_graph B s) a = Some (Done (E, fs)) -> mapOut (gschedule_one E) fs = Done l -> gfuncs_l k E l s ind s' ind' x -> gmat_l s ind (S k) a s' ind' x.

(* ------------------------------------------------------------------ facts *)
Lemma gen_agree_cuda g E name args fd sc tmp ind : handled CUDA (s_loops sc) = true -> 0 <= ind ->
  match codegen g E args fd sc tmp with
  | Done (kern, k') => exists o t, o_codegen CUDA g E name args fd sc (mkOb [] ind tmp) = (o, Done t) /\ ob_ind o = ind /\ ob_tmp o = k'
  | Throw e => exists o, o_codegen CUDA g E name args fd sc (mkOb [] ind tmp) = (o, Throw e) /\ ind <= ob_ind o
  end.
Proof.
  intros Hh Hi. pose proof (codegen_sim CUDA g E name args fd sc (Z.to_nat ind) (mkOb [] ind tmp) ltac:(cbn; lia)) as HX. cbn [ob_tmp ob_ind] in HX.
  rewrite t_codegen_eq in HX by exact Hh. destruct (codegen g E args fd sc tmp) as [[kern k']|e]; cbn [obind] in HX.
  - destruct HX as (o & t & H1 & _ & H2 & H3). eauto.
  - destruct HX as (o & H1 & H2 & _). eauto.
Qed.
Lemma gfunc_l_some L E fd sc s ind s' ind' oc : handled CUDA (s_loops sc) = true -> 0 <= ind -> gfunc_l L E fd sc s ind s' ind' (Some oc) ->
  grun_func B E fd sc s s' oc /\ (oc = Done tt -> ind' = ind).
Proof.
  intros Hh Hi H. inversion H; subst.
  - split; [now constructor|auto].
  - split; [eapply gf_key; eauto|auto].
  - split; [eapply gf_hit; eauto|auto].
  - match goal with HO : o_codegen_l _ _ _ _ ?name _ _ _ _ = _ |- _ => apply codegen_agr in HO; pose proof (gen_agree_cuda (dv_graph B s') E name (func_args (f_expr fd)) fd sc (dv_tmp B s') ind Hh Hi) as HG end.
    destruct (codegen _ _ _ _ _ _) as [[kern k']|e2] eqn:EC.
    + destruct HG as (o2 & t & H5 & _). congruence.
    + destruct HG as (o2 & H5 & _). split; [eapply gf_nogen; eauto; congruence|discriminate].
  - match goal with HO : o_codegen_l _ _ _ _ ?name _ _ _ _ = _, HC : codegen _ _ _ _ _ _ = _ |- _ => apply codegen_agr in HO; pose proof (gen_agree_cuda (dv_graph B s) E name (func_args (f_expr fd)) fd sc (dv_tmp B s) ind Hh Hi) as HG; rewrite HC in HG end.
    destruct HG as (o2 & t & H7 & H8 & _). split; [eapply gf_miss; eauto|]. intros _. congruence.
Qed.
Lemma gfunc_l_none L E fd sc s ind s' ind' : gfunc_l L E fd sc s ind s' ind' None -> gstopped_func B E fd sc s s'.
Proof. intros H. inversion H; subst; constructor. Qed.
(* no execution is lost: RecursionError, or the execution without a limit *)
Lemma gfunc_l_total L E fd sc s ind s' oc : handled CUDA (s_loops sc) = true -> 0 <= ind -> grun_func B E fd sc s s' oc ->
  (exists ind', gfunc_l L E fd sc s ind s' ind' (Some oc)) \/ (exists s2 ind', gfunc_l L E fd sc s ind s2 ind' None).
Proof.
  intros Hh Hi H. destruct (mapOut (arg_buffer E) (func_args (f_expr fd))) as [bufs|e] eqn:EM; [|left; exists ind; inversion H; subst; try congruence; rewrite EM in *; match goal with X : Throw _ = Throw _ |- _ => injection X as -> end; now constructor].
  destruct (expr_key_l (dv_graph B s) E L (f_expr fd) []) as [v|] eqn:EK; [|right; do 2 eexists; eapply gfl_keydeep; eauto].
  inversion H; subst.
  - congruence.
  - left. eexists. eapply gfl_key; eauto.
  - left. eexists. eapply gfl_hit; eauto.
  - destruct (o_codegen_l CUDA (dv_graph B s') E L (nm key) (func_args (f_expr fd)) fd sc (mkOb [] ind (dv_tmp B s'))) as [o [x|]] eqn:EO; [|right; do 2 eexists; eapply gfl_gendeep; eauto].
    left. pose proof (codegen_agr _ _ _ _ _ _ _ _ _ _ _ EO) as HA. pose proof (gen_agree_cuda (dv_graph B s') E (nm key) (func_args (f_expr fd)) fd sc (dv_tmp B s') ind Hh Hi) as HG.
    match goal with HC : codegen _ _ _ _ _ _ = _ |- _ => rewrite HC in HG end. destruct HG as (o2 & H5 & _). assert (x = Throw e) by congruence. subst x. eexists. eapply gfl_nogen; eauto.
  - destruct (o_codegen_l CUDA (dv_graph B s) E L (nm key) (func_args (f_expr fd)) fd sc (mkOb [] ind (dv_tmp B s))) as [o [x|]] eqn:EO; [|right; do 2 eexists; eapply gfl_gendeep; eauto].
    left. pose proof (codegen_agr _ _ _ _ _ _ _ _ _ _ _ EO) as HA. pose proof (gen_agree_cuda (dv_graph B s) E (nm key) (func_args (f_expr fd)) fd sc (dv_tmp B s) ind Hh Hi) as HG.
    match goal with HC : codegen _ _ _ _ _ _ = _ |- _ => rewrite HC in HG end. destruct HG as (o2 & t & H5 & _). assert (x = Done t) by congruence. subst x. eexists. eapply gfl_miss; eauto.
Qed.
(* enough frames for one kernel *)
Lemma gfunc_l_ev E fd sc g : handled CUDA (s_loops sc) = true -> (exists key, cache_key g E fd sc = Done key) ->
  exists L0, forall L s ind s' ind', (L0 <= L)%nat -> dv_graph B s = g -> 0 <= ind -> ~ gfunc_l L E fd sc s ind s' ind' None.
Proof.
  intros Hh (key & HK). pose proof HK as HK2. unfold cache_key in HK2. apply obind_Done in HK2 as ([ky ids] & HK2 & _). apply key_ev in HK2 as (L1 & HL1).
  exists (Nat.max L1 (frames (f_expr fd))). intros L s ind s' ind' HL Hg Hi H. subst g. inversion H; subst.
  - rewrite HL1 in * by lia. discriminate.
  - rewrite codegen_full in * by lia. destruct (o_codegen _ _ _ _ _ _ _ _). discriminate.
Qed.

Notation hall := (Forall (fun x : func * schedule => handled CUDA (s_loops (snd x)) = true)).
Lemma gfuncs_l_some L E l : hall l -> forall s ind s' ind' oc, 0 <= ind -> gfuncs_l L E l s ind s' ind' (Some oc) -> grun_funcs B E l s s' oc /\ (oc = Done tt -> ind' = ind).
Proof.
  induction 1 as [|[fd sc] l Hx _ IH]; intros s ind s' ind' oc Hi H; inversion H; subst.
  - split; [constructor|auto].
  - match goal with HF : gfunc_l _ _ _ _ _ _ _ _ _ |- _ => apply gfunc_l_some in HF as [HF _]; auto end. split; [now apply gr_fail|discriminate].
  - match goal with HF : gfunc_l _ _ _ _ _ _ _ _ _ |- _ => apply gfunc_l_some in HF as [HF HE]; auto end. rewrite (HE eq_refl) in *.
    match goal with HR : gfuncs_l _ _ _ _ _ _ _ _ |- _ => apply IH in HR as [HR HE2]; auto end. split; [eapply gr_cons; eauto|auto].
Qed.
Lemma gfuncs_l_none L E l : hall l -> forall s ind s' ind', 0 <= ind -> gfuncs_l L E l s ind s' ind' None -> gstopped_funcs B E l s s'.
Proof.
  induction 1 as [|[fd sc] l Hx _ IH]; intros s ind s' ind' Hi H; inversion H; subst.
  - apply gss_in. eapply gfunc_l_none; eauto.
  - match goal with HF : gfunc_l _ _ _ _ _ _ _ _ _ |- _ => apply gfunc_l_some in HF as [HF HE]; auto end. rewrite (HE eq_refl) in *. eapply gss_next; eauto.
Qed.
Lemma gfuncs_l_total L E l : hall l -> forall s ind s' oc, 0 <= ind -> grun_funcs B E l s s' oc ->
  (exists ind', gfuncs_l L E l s ind s' ind' (Some oc)) \/ (exists s2 ind', gfuncs_l L E l s ind s2 ind' None).
Proof.
  induction 1 as [|[fd sc] l Hx _ IH]; intros s ind s' oc Hi H; inversion H; subst.
  - left. eexists. constructor.
  - match goal with HF : grun_func _ _ _ _ _ _ _ |- _ => destruct (gfunc_l_total L _ _ _ _ ind _ _ Hx Hi HF) as [(i' & HT)|(s2 & i' & HT)] end; [left; eexists; eapply gsl_fail; eauto|right; do 2 eexists; apply gsl_deep; eauto].
  - match goal with HF : grun_func _ _ _ _ _ _ _ |- _ => destruct (gfunc_l_total L _ _ _ _ ind _ _ Hx Hi HF) as [(i1 & HT)|(s2 & i' & HT)] end; [|right; do 2 eexists; apply gsl_deep; eauto].
    pose proof (gfunc_l_some _ _ _ _ _ _ _ _ _ Hx Hi HT) as [_ HE]. rewrite (HE eq_refl) in *. match goal with HR : grun_funcs _ _ _ _ _ _ |- _ => destruct (IH _ _ _ _ Hi HR) as [(i' & HT2)|(s2 & i' & HT2)] end; [left; eexists|right; do 2 eexists]; eapply gsl_cons; eauto.
Qed.
Lemma grun_func_graph E fd sc s s' oc : grun_func B E fd sc s s' oc -> dv_graph B s' = dv_graph B s.
Proof.
  intros H. inversion H; subst; auto; match goal with HI : ginvoke _ _ _ _ _ _ _ _ |- _ => apply (DevKey.ginvoke_nocache B _ _ _ _ _ _ _ [] 0%nat) in HI as (_ & _ & _ & HG) end; exact HG.
Qed.
Lemma gfuncs_l_ev E g l : hall l -> (forall fd sc, In (fd, sc) l -> exists key, cache_key g E fd sc = Done key) ->
  exists L0, forall L s ind s' ind', (L0 <= L)%nat -> dv_graph B s = g -> 0 <= ind -> ~ gfuncs_l L E l s ind s' ind' None.
Proof.
  induction 1 as [|[fd sc] l Hx _ IH]; intros HK; [exists 0%nat; intros L s ind s' ind' _ _ _ H; inversion H|].
  destruct (gfunc_l_ev E fd sc g Hx) as (L1 & H1); [apply HK; now left|]. destruct IH as (L2 & H2); [intros; apply HK; now right|].
  exists (Nat.max L1 L2). intros L s ind s' ind' HL Hg Hi H. inversion H; subst.
  - eapply H1; [| | |eassumption]; auto; lia.
  - match goal with HF : gfunc_l _ _ _ _ _ _ _ _ _ |- _ => apply gfunc_l_some in HF as [HF HE]; auto end. rewrite (HE eq_refl) in *.
    eapply H2; [| | |eassumption]; auto; [lia|]. eapply grun_func_graph; eauto.
Qed.

Lemma gmat_l_some k : forall a s ind s' ind' oc, reach (dv_graph B s) -> valid (dv_graph B s) a -> 0 <= ind -> gmat_l s ind k a s' ind' (Some oc) ->
  gmat B s a s' oc /\ (oc = Done tt -> ind' = ind).
Proof.
  induction k as [|k IH]; intros a s ind s' ind' oc Hr Ha Hi H; inversion H; subst; pose proof (reach_wf _ Hr) as Hw.
  - split; [eapply gm_const; eauto|auto].
  - match goal with Hn : nth_error _ _ = Some ?nd, Ei : n_in ?nd = _ |- _ => pose proof (wf_inputs_lt _ a nd Hw Hn) as HI; rewrite Ei in HI; inversion HI; subst end.
    match goal with HM : gmat_l _ _ _ _ _ _ _ |- _ => apply IH in HM as [HM HE]; auto; [|unfold valid in *; lia] end. split; [eapply gm_view; eauto|auto].
  - match goal with HC : convert_l _ _ _ = _ |- _ => apply (convert_agree _ _ _ _ Hr Ha) in HC end. split; [eapply gm_comp; eauto; apply gc_conv; auto|discriminate].
  - match goal with HC : convert_l _ _ _ = _ |- _ => apply (convert_agree _ _ _ _ Hr Ha) in HC end. split; [eapply gm_comp; eauto; eapply gc_sched; eauto|discriminate].
  - match goal with HC : convert_l _ _ _ = _ |- _ => apply (convert_agree _ _ _ _ Hr Ha) in HC end.
    match goal with HF : gfuncs_l _ _ _ _ _ _ _ _ |- _ => apply gfuncs_l_some in HF as [HF HE]; [|eapply gscheduled_handled; eauto|auto] end. split; [eapply gm_comp; eauto; eapply gc_run; eauto|auto].
Qed.
Lemma gmat_l_none k : forall a s ind s' ind', reach (dv_graph B s) -> valid (dv_graph B s) a -> 0 <= ind -> gmat_l s ind k a s' ind' None -> gstopped B s a s'.
Proof.
  induction k as [|k IH]; intros a s ind s' ind' Hr Ha Hi H; inversion H; subst; pose proof (reach_wf _ Hr) as Hw; try apply gsm_here.
  - match goal with Hn : nth_error _ _ = Some ?nd, Ei : n_in ?nd = _ |- _ => pose proof (wf_inputs_lt _ a nd Hw Hn) as HI; rewrite Ei in HI; inversion HI; subst end.
    eapply gsm_view; eauto. eapply IH; eauto. unfold valid in *. lia.
  - match goal with HC : convert_l _ _ _ = _ |- _ => apply (convert_agree _ _ _ _ Hr Ha) in HC end. eapply gsm_compute; eauto. eapply gfuncs_l_none; eauto. eapply gscheduled_handled; eauto.
Qed.
Lemma gmat_l_total k : forall a s ind s' oc, reach (dv_graph B s) -> valid (dv_graph B s) a -> 0 <= ind -> gmat B s a s' oc ->
  (exists ind', gmat_l s ind k a s' ind' (Some oc)) \/ (exists s2 ind', gmat_l s ind k a s2 ind' None).
Proof.
  induction k as [|k IH]; intros a s ind s' oc Hr Ha Hi H; [right; do 2 eexists; constructor|]. pose proof (reach_wf _ Hr) as Hw. inversion H; subst; clear H.
  - left. eexists. eapply gml_const; eauto.
  - match goal with Hn : nth_error _ _ = Some ?nd, Ei : n_in ?nd = _ |- _ => pose proof (wf_inputs_lt _ a nd Hw Hn) as HI; rewrite Ei in HI; inversion HI; subst end.
    match goal with HM : gmat _ _ _ _ _ |- _ => assert (Hb : valid (dv_graph B s) b) by (unfold valid in *; lia); destruct (IH _ _ ind _ _ Hr Hb Hi HM) as [(i' & HT)|(s2 & i' & HT)] end; [left; eexists|right; do 2 eexists]; eapply gml_view; eauto.
  - destruct (convert_l k (dv_graph B s) a) as [cv|] eqn:EC; [|right; do 2 eexists; eapply gml_convdeep; eauto]. pose proof (convert_agree _ _ _ _ Hr Ha EC) as HC.
    match goal with HM : gcompute _ _ _ _ _ |- _ => inversion HM; subst end.
    + left. eexists. eapply gml_conv; eauto. congruence.
    + left. eexists. eapply gml_sched; eauto. congruence.
    + match goal with HF : grun_funcs _ _ _ _ _ _ , HS : mapOut _ _ = Done ?l |- _ => destruct (gfuncs_l_total k _ _ (gscheduled_handled _ _ _ HS) _ ind _ _ Hi HF) as [(i' & HT)|(s2 & i' & HT)] end; [left; eexists|right; do 2 eexists]; eapply gml_run; eauto; congruence.
Qed.
Lemma gmat_l_ev : forall n a g, (a < n)%nat -> reach g -> valid g a ->
  exists L0, forall L s ind s' ind', (L0 <= L)%nat -> dv_graph B s = g -> 0 <= ind -> ~ gmat_l s ind L a s' ind' None.
Proof.
  induction n as [|n IH]; intros a g Hn Hr Ha; [lia|]. pose proof (reach_wf _ Hr) as Hw.
  destruct (nth_error g a) as [nd|] eqn:Hnd; [|unfold valid in Ha; apply nth_error_None in Hnd; lia].
  assert (HV : exists L1, is_view (n_op nd) = true -> forall b r, n_in nd = b :: r -> forall L s ind s' ind', (L1 <= L)%nat -> dv_graph B s = g -> 0 <= ind -> ~ gmat_l s ind L b s' ind' None).
  { destruct (n_in nd) as [|b r] eqn:Ei; [exists 0%nat; discriminate|]. pose proof (wf_inputs_lt _ a nd Hw Hnd) as HI. rewrite Ei in HI. inversion HI; subst.
    destruct (IH b g ltac:(lia) Hr ltac:(unfold valid in *; lia)) as (L0 & HL0). exists L0. intros _ b' r' E. injection E as <- <-. exact HL0. }
  destruct HV as (L1 & HV). destruct (convert_ev g a Hr Ha) as (L2 & HL2).
  assert (HF : exists L3, forall E fs l, convert g a = Done (E, fs) -> mapOut (gschedule_one E) fs = Done l -> forall L s ind s' ind', (L3 <= L)%nat -> dv_graph B s = g -> 0 <= ind -> ~ gfuncs_l L E l s ind s' ind' None).
  { destruct (convert g a) as [[E fs]|e] eqn:EC; [|exists 0%nat; discriminate]. destruct (mapOut (gschedule_one E) fs) as [l|e] eqn:EM; [|exists 0%nat; intros ? ? ? X; injection X as <- <-; congruence].
    assert (HK : forall fd sc, In (fd, sc) l -> exists key, cache_key g E fd sc = Done key).
    { assert (Hns : no_scalar_reshape g a).
      { unfold convert in EC. apply obind_Done in EC as (E0 & EA & _). eapply arr_done_ns; eauto. }
      pose proof (convert_inv _ _ _ _ _ any_lang_ok Hr Ha Hns EC) as HS.
      intros fd sc Hin. assert (HF : exists f, In f fs /\ gschedule_one E f = Done (fd, sc)).
      { clear - EM Hin. revert l EM Hin. induction fs as [|x fs IH]; intros l EM Hin; cbn in EM; [injection EM as <-; destruct Hin|]. apply obind_Done in EM as (y & H1 & EM). apply obind_Done in EM as (ys & H2 & EM). injection EM as <-.
        destruct Hin as [->|Hin]; [exists x; split; [now left|exact H1]|]. destruct (IH _ H2 Hin) as (f & ? & ?). exists f. split; [now right|assumption]. }
      destruct HF as (f & Hf & Hso). unfold gschedule_one in Hso. apply obind_Done in Hso as (fd0 & Hfd & Hso). apply obind_Done in Hso as (sc0 & _ & Hso). destruct (forallb _ _); [|discriminate]. injection Hso as -> ->.
      unfold throw_none in Hfd. destruct (E f) as [fd1|] eqn:Efd; [|discriminate]. injection Hfd as ->. eapply (cache_key_total g E fs) with (f := f); eauto.
      - intros f0 Hf0. destruct (convert_kctx _ g a E fs f0 HS Hf0) as (fd0 & nd0 & H1 & HK0).
        exists fd0, (shape_of g), nd0. split; auto. split; [exact (kc_wff g E f0 fd0 nd0 HK0)|]. intros d Hd.
        apply in_split in Hf0 as (k1 & k2 & Hk). rewrite Hk. apply in_or_app. left. exact (cs_topo _ _ _ _ _ HS k1 f0 k2 Hk fd0 H1 d Hd).
      - destruct (convert_kctx _ g a E fs f HS Hf) as (fd0 & nd0 & _ & HK0). pose proof (kc_nd _ _ _ _ _ HK0) as Hx. apply nth_error_Some. congruence. }
    destruct (gfuncs_l_ev E g l (gscheduled_handled E fs l EM) HK) as (L3 & HL3). exists L3. intros E' fs' l' X1 X2. injection X1 as <- <-. assert (l' = l) by congruence. subst. exact HL3. }
  destruct HF as (L3 & HF).
  exists (S (Nat.max L1 (Nat.max L2 L3))). intros L s ind s' ind' HL Hg Hi H. subst g. inversion H; subst.
  - lia.
  - assert (nd0 = nd) by congruence. subst nd0. eapply HV; [eassumption|eassumption| | | |eassumption]; auto; lia.
  - rewrite HL2 in * by lia. discriminate.
  - rewrite HL2 in * by lia. match goal with X : Some (convert _ _) = Some _ |- _ => injection X as X end. eapply HF; [eassumption|eassumption| | | |eassumption]; auto; lia.
Qed.
(* ------------------------------------------------------------------ device memory after RecursionError *)
(* a kernel gives device pointers only to its parameters, and when it has run it is in the log *)
Lemma pointer_ptr s n s' oc m : pointer B s n s' oc -> dv_ptr B s' m <> None -> dv_ptr B s m <> None \/ m = n.
Proof. intros H HP. inversion H; subst; auto. cbn in HP. unfold upd1 in HP. destruct (Nat.eq_dec m n); auto. left. destruct (Nat.eqb_spec n m); congruence || auto. Qed.
Lemma htod_ptr s n p s' oc : copy_htod B s n p = (s', oc) -> dv_ptr B s' = dv_ptr B s.
Proof. unfold copy_htod. destruct (dv_host B s n); [|congruence]. destruct (nth_error _ _); [|congruence]. destruct (forallb _ _); [|congruence]. destruct (dv_mem B s p); intros H; injection H as <- _; reflexivity. Qed.
Lemma prep1_ptr out s n s' oc m : prep1 B out s n s' oc -> dv_ptr B s' m <> None -> dv_ptr B s m <> None \/ m = n.
Proof. intros H HP. inversion H; subst; try (eapply pointer_ptr; eauto; fail); match goal with HC : copy_htod _ _ _ _ = _ |- _ => apply htod_ptr in HC; rewrite HC in HP end; eapply pointer_ptr; eauto. Qed.
Lemma prep_ptr out s ns s' oc m : prep B out s ns s' oc -> dv_ptr B s' m <> None -> dv_ptr B s m <> None \/ In m ns.
Proof.
  induction 1 as [out s|out s n r s1 e H|out s n r s1 p s2 oc H1 H2 IH]; intros HP; auto.
  - destruct (prep1_ptr _ _ _ _ _ _ H HP) as [| ->]; cbn; auto.
  - destruct (IH HP) as [HQ|HQ]; [|right; now right]. destruct (prep1_ptr _ _ _ _ _ _ H1 HQ) as [| ->]; cbn; auto.
Qed.
Lemma pointer_log s n s' oc e : pointer B s n s' oc -> In e (dv_log B s) -> In e (dv_log B s').
Proof. intros H. inversion H; subst; auto. cbn. auto. Qed.
Lemma htod_log s n p s' oc e : copy_htod B s n p = (s', oc) -> In e (dv_log B s) -> In e (dv_log B s').
Proof. unfold copy_htod. destruct (dv_host B s n); [|congruence]. destruct (nth_error _ _); [|congruence]. destruct (forallb _ _); [|congruence]. destruct (dv_mem B s p); intros H; injection H as <- _; cbn; auto. Qed.
Lemma prep1_log out s n s' oc e : prep1 B out s n s' oc -> In e (dv_log B s) -> In e (dv_log B s').
Proof. intros H HI. inversion H; subst; try (eapply pointer_log; eauto; fail); (eapply htod_log; [eassumption|]); eapply pointer_log; eauto. Qed.
Lemma prep_log out s ns s' oc e : prep B out s ns s' oc -> In e (dv_log B s) -> In e (dv_log B s').
Proof. induction 1; intros; auto; [eapply prep1_log; eauto|]. apply IHprep. eapply prep1_log; eauto. Qed.
Lemma ginvoke_done s sc kern n ns s' : ginvoke B s sc kern n ns s' (Done tt) ->
  (forall m, dv_ptr B s' m <> None -> dv_ptr B s m <> None \/ m = n \/ In m ns) /\ (forall e, In e (dv_log B s) -> In e (dv_log B s')) /\ (exists p ins, In (EvLaunch B n p ins) (dv_log B s')).
Proof.
  intros H. inversion H as [|s1 p ps s2 oc HP HL]; subst. inversion HL; subst. split; [|split].
  - intros m Hm. cbn in Hm. destruct (prep_ptr _ _ _ _ _ _ HP Hm) as [|[<-|]]; auto.
  - intros e He. cbn. right. eapply prep_log; eauto.
  - do 2 eexists. cbn. now left.
Qed.
Notation launched := (DevFacts.launched B).
Lemma grun_func_done E fd sc s s' : grun_func B E fd sc s s' (Done tt) ->
  (forall m, dv_ptr B s' m <> None -> dv_ptr B s m <> None \/ m = f_out fd \/ exists bufs, mapOut (arg_buffer E) (func_args (f_expr fd)) = Done bufs /\ In m bufs) /\
  (forall m, launched s m -> launched s' m) /\ launched s' (f_out fd).
Proof.
  intros H. inversion H; subst; match goal with HI : ginvoke _ _ _ _ _ _ _ _ |- _ => apply ginvoke_done in HI as (F1 & F2 & F3) end.
  - split; [|split; [|exact F3]]; [intros m Hm; destruct (F1 m Hm) as [|[|]]; eauto|]. intros m (p & ins & Hp). exists p, ins. auto.
  - split; [|split; [|exact F3]]; [intros m Hm; destruct (F1 m Hm) as [|[|]]; cbn in *; eauto|]. intros m (p & ins & Hp). exists p, ins. auto.
Qed.
Section Conv.
Context (g : graph) (a : nat) (E : fenv) (Hr : reach g) (Ha : valid g a).
Lemma args_known fs l1 f l2 fd bufs m : convert g a = Done (E, fs) -> fs = l1 ++ f :: l2 -> E f = Some fd -> mapOut (arg_buffer E) (func_args (f_expr fd)) = Done bufs -> In m bufs ->
  f_out fd = f /\ ((exists nd vals, nth_error g m = Some nd /\ n_op nd = OConst vals) \/ In m l1).
Proof using Hr Ha.
  intros HCV Hfs Hfd HM Hm. assert (Hns : no_scalar_reshape g a).
  { unfold convert in HCV. apply obind_Done in HCV as (E0 & EA & _). eapply arr_done_ns; eauto. }
  pose proof (convert_inv _ _ _ _ _ any_lang_ok Hr Ha Hns HCV) as HS. assert (Hf : In f fs) by (rewrite Hfs; apply in_or_app; right; now left).
  destruct (convert_kctx _ g a E fs f HS Hf) as (fd' & nd & Hfd' & HK). assert (fd' = fd) by congruence. subst fd'.
  split; [rewrite (kc_fd _ _ _ _ _ HK); reflexivity|].
  assert (HX : exists x, In x (func_args (f_expr fd)) /\ arg_buffer E x = Done m).
  { clear - HM Hm. revert bufs HM Hm. induction (func_args (f_expr fd)) as [|x l IH]; intros bufs HM Hm; cbn in HM; [injection HM as <-; destruct Hm|]. apply obind_Done in HM as (y & H1 & HM). apply obind_Done in HM as (ys & H2 & HM). injection HM as <-.
    destruct Hm as [->|Hm]; [exists x; split; [now left|exact H1]|]. destruct (IH _ H2 Hm) as (x' & ? & ?). exists x'. split; [now right|assumption]. }
  destruct HX as (x & Hx & HA). pose proof Hx as Hx'. apply (in_args g f) in Hx. destruct x as [n|d]; cbn in HA.
  - injection HA as ->. left. destruct (wff_bufs _ _ _ _ _ _ (kc_wff g E f fd nd HK) Hx) as (bd & H1 & H2). exists bd. destruct (n_op bd) eqn:Eop; try discriminate. exists vals. auto.
  - right. destruct (kc_deps _ _ _ _ _ HK d Hx) as (fd' & nd' & H1 & H2 & _). rewrite H1 in HA. cbn in HA. injection HA as <-. rewrite (kc_out _ _ _ _ _ HK d Hx fd' H1). exact (cs_topo _ _ _ _ _ HS l1 f l2 Hfs fd Hfd d Hx).
Qed.
Lemma gfuncs_l_ptr fs L l2 : convert g a = Done (E, fs) -> forall l1 l s ind s' ind', fs = l1 ++ l2 -> (forall d, In d l1 -> launched s d) -> 0 <= ind -> mapOut (gschedule_one E) l2 = Done l -> gfuncs_l L E l s ind s' ind' None ->
  (forall m, launched s m -> launched s' m) /\ forall m, dv_ptr B s' m <> None -> dv_ptr B s m <> None \/ (exists nd vals, nth_error g m = Some nd /\ n_op nd = OConst vals) \/ launched s' m.
Proof using Hr Ha.
  intros HCV. induction l2 as [|f l2 IH]; intros l1 l s ind s' ind' Hfs Hl Hi HM H; cbn [mapOut] in HM.
  - injection HM as <-. inversion H.
  - pose proof (gscheduled_handled E (f :: l2) l HM) as Hh. apply obind_Done in HM as ([fd sc] & H1 & HM). apply obind_Done in HM as (r & H2 & HM). injection HM as <-.
    assert (Hfd : E f = Some fd).
    { unfold gschedule_one in H1. apply obind_Done in H1 as (fd0 & Hfd & H1). apply obind_Done in H1 as (sc0 & _ & H1). destruct (forallb _ _); [|discriminate]. injection H1 as -> ->. unfold throw_none in Hfd. destruct (E f); congruence. }
    inversion Hh as [|? ? Hx _]; subst. inversion H; subst.
    + match goal with HF : gfunc_l _ _ _ _ _ _ _ _ None |- _ => inversion HF; subst end; (split; [auto|cbn; auto]).
    + match goal with HF : gfunc_l _ _ _ _ _ _ _ _ _ |- _ => apply gfunc_l_some in HF as [HF HE]; auto end. rewrite (HE eq_refl) in *.
      match goal with HF : grun_func _ _ _ _ _ _ _ |- _ => apply grun_func_done in HF as (F1 & F2 & F3) end.
      assert (Hfo : f_out fd = f).
      { assert (Hns : no_scalar_reshape g a).
        { unfold convert in HCV. apply obind_Done in HCV as (E0 & EA & _). eapply arr_done_ns; eauto. }
        pose proof (convert_inv _ _ _ _ _ any_lang_ok Hr Ha Hns HCV) as HS. destruct (convert_kctx _ g a E _ f HS ltac:(apply in_or_app; right; now left)) as (fd' & nd & Hfd' & HK). assert (fd' = fd) by congruence. subst fd'. rewrite (kc_fd _ _ _ _ _ HK); reflexivity. }
      rewrite Hfo in *. match goal with HR : gfuncs_l _ _ _ ?s1 _ _ _ None |- _ => destruct (IH (l1 ++ [f]) r s1 ind s' ind') as [G1 G2]; auto end.
      { rewrite <- app_assoc. reflexivity. }
      { intros d Hd. apply in_app_or in Hd as [Hd|[<-|[]]]; auto. }
      split; [auto|]. intros m Hm. destruct (G2 m Hm) as [Hm1|[|]]; auto. destruct (F1 m Hm1) as [|[ ->|(bufs & HB1 & HB2)]]; auto.
      destruct (args_known _ l1 f l2 fd bufs m HCV eq_refl Hfd HB1 HB2) as [_ [|Hin]]; auto 10.
Qed.
End Conv.
(* after RecursionError a device pointer that is new belongs to a literal or to an array whose kernel has run *)
Lemma gmat_l_ptr k : forall a s ind s' ind', reach (dv_graph B s) -> valid (dv_graph B s) a -> 0 <= ind -> gmat_l s ind k a s' ind' None ->
  (forall m, launched s m -> launched s' m) /\
  forall m, dv_ptr B s' m <> None -> dv_ptr B s m <> None \/ (exists nd vals, nth_error (dv_graph B s) m = Some nd /\ n_op nd = OConst vals) \/ launched s' m.
Proof.
  induction k as [|k IH]; intros a s ind s' ind' Hr Ha Hi H; inversion H; subst; pose proof (reach_wf _ Hr) as Hw; try (split; auto; fail).
  - match goal with Hn : nth_error _ _ = Some ?nd, Ei : n_in ?nd = _ |- _ => pose proof (wf_inputs_lt _ a nd Hw Hn) as HI; rewrite Ei in HI; inversion HI; subst end.
    eapply (IH b); eauto. unfold valid in *. lia.
  - match goal with HC : convert_l _ _ _ = _ |- _ => apply (convert_agree _ _ _ _ Hr Ha) in HC; symmetry in HC end. eapply (gfuncs_l_ptr (dv_graph B s) a E Hr Ha fs) with (l1 := []); try eassumption; [reflexivity|intros d []].
Qed.
End Run.
