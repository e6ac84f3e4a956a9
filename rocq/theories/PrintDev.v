(* WHALE_DEBUG=1 on the CUDA backend: materialize() with the lines it prints (debug.py, the DEBUG branches of materialize.py:15-71),
   as in Print.v but over the process states and the nondeterministic driver of Device.v. *)
From Coq Require Import String Ascii ZifyBool.
From Verif Require Import Base BaseFacts Util UtilFacts Lang Spec SpecFacts Graph Api ApiFacts Denote DenoteFacts Reach Tolist TolistFacts
  Algo AlgoSem AlgoConv AlgoFuse2 AlgoConvert AlgoConvert2 Kernel Sched Codegen Backends CacheKey KernelRun AlgoTop AlgoMore LangInst Runtime RuntimeFacts RuntimeFacts2 Frame
  Parallel ParGpu Device ViewExact Text TextPrint PropText Print PrintFacts.
Local Open Scope Z_scope.

Section Dbg.
Context (B : cpu_backend) (repr : val (b_lang B) -> string) (hash : kkey -> string).
Notation dev := (dev B).
(* buffer.py:13-18: does the buffer hold a device pointer *)
Definition on_dev (s : dev) (n : nat) : bool := match dv_ptr B s n with Some _ => true | None => false end.

(* materialize.py:44-71, loop number i (from 0); h = len(kern_invoke_hist) before.  Relates the start to the state, the result, the
   new length of kern_invoke_hist and the lines printed; what has been printed when the call raises stays printed *)
Inductive grun_func_dbg (E : fenv) (i : nat) (fd : func) (sc : schedule) (s : dev) (h : nat) : dev -> outcome unit -> nat -> list string -> Prop :=
| gfd_args e : mapOut (arg_buffer E) (func_args (f_expr fd)) = Throw e -> grun_func_dbg E i fd sc s h s (Throw e) h []
| gfd_key bufs e : mapOut (arg_buffer E) (func_args (f_expr fd)) = Done bufs -> cache_key (dv_graph B s) E fd sc = Throw e ->
    grun_func_dbg E i fd sc s h s (Throw e) h []
| gfd_hit bufs key kern s' oc : mapOut (arg_buffer E) (func_args (f_expr fd)) = Done bufs -> cache_key (dv_graph B s) E fd sc = Done key ->
    cache_get (dv_cache B s) key = Some kern -> ginvoke B s sc kern (f_out fd) bufs s' oc ->
    grun_func_dbg E i fd sc s h s' oc h [dbg "kernel cache hit"]
| gfd_nogen bufs key e : mapOut (arg_buffer E) (func_args (f_expr fd)) = Done bufs -> cache_key (dv_graph B s) E fd sc = Done key ->
    cache_get (dv_cache B s) key = None ->
    codegen (dv_graph B s) E (func_args (f_expr fd)) fd sc (dv_tmp B s) = Throw e -> grun_func_dbg E i fd sc s h s (Throw e) h []
| gfd_notext bufs key r e : mapOut (arg_buffer E) (func_args (f_expr fd)) = Done bufs -> cache_key (dv_graph B s) E fd sc = Done key ->
    cache_get (dv_cache B s) key = None -> codegen (dv_graph B s) E (func_args (f_expr fd)) fd sc (dv_tmp B s) = Done r ->
    t_codegen CUDA (dv_graph B s) E (kernel_name (hash key)) (func_args (f_expr fd)) fd sc (dv_tmp B s) = Throw e ->
    grun_func_dbg E i fd sc s h s (Throw e) h []
| gfd_miss bufs key kern k' text k2 s' oc : mapOut (arg_buffer E) (func_args (f_expr fd)) = Done bufs -> cache_key (dv_graph B s) E fd sc = Done key ->
    cache_get (dv_cache B s) key = None -> codegen (dv_graph B s) E (func_args (f_expr fd)) fd sc (dv_tmp B s) = Done (kern, k') ->
    t_codegen CUDA (dv_graph B s) E (kernel_name (hash key)) (func_args (f_expr fd)) fd sc (dv_tmp B s) = Done (text, k2) ->
    ginvoke B (set_cache B s ((key, kern) :: dv_cache B s) k') sc kern (f_out fd) bufs s' oc ->
    grun_func_dbg E i fd sc s h s' oc (match oc with Done _ => S h | Throw _ => h end)
      (dbg "kernel codegen:" :: dbg (decn (S i) +++ ":") :: dbg_kernel text ++
       match oc with Done _ => [dbg ("kernel invocation count: " +++ decn (S h))] | Throw _ => [] end)%list.
Inductive grun_funcs_dbg (E : fenv) : nat -> list (func * schedule) -> dev -> nat -> dev -> outcome unit -> nat -> list string -> Prop :=
| grd_nil i s h : grun_funcs_dbg E i [] s h s (Done tt) h []
| grd_fail i fd sc r s h s' e h' out : grun_func_dbg E i fd sc s h s' (Throw e) h' out -> grun_funcs_dbg E i ((fd, sc) :: r) s h s' (Throw e) h' out
| grd_cons i fd sc r s h s1 h1 out s' oc h' out' : grun_func_dbg E i fd sc s h s1 (Done tt) h1 out -> grun_funcs_dbg E (S i) r s1 h1 s' oc h' out' ->
    grun_funcs_dbg E i ((fd, sc) :: r) s h s' oc h' (out ++ out')%list.
(* materialize.py:37-42: the Funcs and their schedules, the device flags as they are before the first kernel; simplification as in
   Print.dbg_funcs: if printing one of them raised, the lines already printed are dropped *)
Fixpoint gdbg_funcs (s : dev) (E : fenv) (i : nat) (fs : list (nat * schedule)) : outcome (list string) :=
  match fs with
  | [] => Done []
  | (f, sc) :: r =>
      t <~ func_tree repr (dv_host B s) (on_dev s) (S (length (dv_graph B s))) E f ;;
      rest <~ gdbg_funcs s E (S i) r ;;
      Done (dbg (decn (S i) +++ ":") :: dbg_tree t ++ dbg_schedule sc ++ rest)%list
  end.
Inductive gcompute_dbg (s : dev) (a h : nat) : dev -> outcome unit -> nat -> list string -> Prop :=
| gcd_conv e : convert (dv_graph B s) a = Throw e -> gcompute_dbg s a h s (Throw e) h []
| gcd_sched E fs e : convert (dv_graph B s) a = Done (E, fs) -> mapOut (gschedule_one E) fs = Throw e -> gcompute_dbg s a h s (Throw e) h []
| gcd_print E fs l e : convert (dv_graph B s) a = Done (E, fs) -> mapOut (gschedule_one E) fs = Done l ->
    gdbg_funcs s E 0 (combine fs (map snd l)) = Throw e -> gcompute_dbg s a h s (Throw e) h []
| gcd_run E fs l lines s' oc h' out : convert (dv_graph B s) a = Done (E, fs) -> mapOut (gschedule_one E) fs = Done l ->
    gdbg_funcs s E 0 (combine fs (map snd l)) = Done lines -> grun_funcs_dbg E 0 l s h s' oc h' out ->
    gcompute_dbg s a h s' oc h' (dbg (decn (length fs) +++ " funcs and schedules:") :: lines ++ out)%list.
(* materialize.py:15-33 *)
Definition gdbg_start : list string := [dbg "materialization start"; dbg "backend: CUDA"; dbg "materializing ndarray:"].
Inductive gmat_dbg (s : dev) : nat -> nat -> dev -> outcome unit -> nat -> list string -> Prop :=
| gmd_print a nd h e : nth_error (dv_graph B s) a = Some nd ->
    arr_tree repr (dv_graph B s) (dv_host B s) (on_dev s) (S (length (dv_graph B s))) a = Throw e -> gmat_dbg s a h s (Throw e) h gdbg_start
| gmd_const a nd h t : nth_error (dv_graph B s) a = Some nd ->
    arr_tree repr (dv_graph B s) (dv_host B s) (on_dev s) (S (length (dv_graph B s))) a = Done t -> is_const (n_op nd) = true ->
    gmat_dbg s a h s (Done tt) h (gdbg_start ++ dbg_tree t ++ [dbg "materialization did not happend as it's constant"])%list
| gmd_view a nd h t b r s' oc h' out : nth_error (dv_graph B s) a = Some nd ->
    arr_tree repr (dv_graph B s) (dv_host B s) (on_dev s) (S (length (dv_graph B s))) a = Done t -> is_view (n_op nd) = true -> n_in nd = b :: r ->
    gmat_dbg s b h s' oc h' out ->
    gmat_dbg s a h s' oc h' (gdbg_start ++ dbg_tree t ++ dbg "as it's view op, materializing the source ndarray..." :: out)%list
| gmd_comp a nd h t s' oc h' out : nth_error (dv_graph B s) a = Some nd ->
    arr_tree repr (dv_graph B s) (dv_host B s) (on_dev s) (S (length (dv_graph B s))) a = Done t -> is_const (n_op nd) = false -> is_view (n_op nd) = false ->
    gcompute_dbg s a h s' oc h' out -> gmat_dbg s a h s' oc h' (gdbg_start ++ dbg_tree t ++ out)%list.

(* ------------------------------------------------------------------ printing changes nothing *)
Lemma gfunc_dbg_sound E i fd sc s h s' oc h' out : handled CUDA (s_loops sc) = true -> grun_func_dbg E i fd sc s h s' oc h' out -> grun_func B E fd sc s s' oc.
Proof.
  intros HH H. inversion H; subst; try (econstructor; eassumption).
  exfalso. rewrite t_codegen_eq in * by exact HH. match goal with H1 : codegen _ _ _ _ _ _ = Done ?r, H2 : obind _ _ = Throw _ |- _ => rewrite H1 in H2; destruct r; discriminate end.
Qed.
Lemma gfunc_dbg_complete E i fd sc s h s' oc : handled CUDA (s_loops sc) = true -> grun_func B E fd sc s s' oc -> exists h' out, grun_func_dbg E i fd sc s h s' oc h' out.
Proof.
  intros HH H. inversion H; subst; try (do 2 eexists; econstructor; eassumption).
  do 2 eexists. eapply gfd_miss; try eassumption. rewrite t_codegen_eq by exact HH.
  match goal with H1 : codegen _ _ _ _ _ _ = Done _ |- _ => rewrite H1 end. reflexivity.
Qed.
Lemma gfuncs_dbg_sound E l : Forall (fun x => handled CUDA (s_loops (snd x)) = true) l -> forall i s h s' oc h' out,
  grun_funcs_dbg E i l s h s' oc h' out -> grun_funcs B E l s s' oc.
Proof.
  induction 1 as [|[fd sc] l Hx _ IH]; intros i s h s' oc h' out H; inversion H; subst; [constructor|..].
  - apply gr_fail. eapply gfunc_dbg_sound; eassumption.
  - eapply gr_cons; [eapply gfunc_dbg_sound; eassumption|eapply IH; eassumption].
Qed.
Lemma gfuncs_dbg_complete E l : Forall (fun x => handled CUDA (s_loops (snd x)) = true) l -> forall i s h s' oc,
  grun_funcs B E l s s' oc -> exists h' out, grun_funcs_dbg E i l s h s' oc h' out.
Proof.
  induction 1 as [|[fd sc] l Hx _ IH]; intros i s h s' oc H; inversion H; subst; [do 2 eexists; constructor|..].
  - edestruct gfunc_dbg_complete as (h' & out & HD); [exact Hx|eassumption|]. do 2 eexists. apply grd_fail. exact HD.
  - edestruct gfunc_dbg_complete as (h1 & out & HD); [exact Hx|eassumption|]. edestruct IH as (h' & out' & HR); [eassumption|]. do 2 eexists. eapply grd_cons; eassumption.
Qed.
Lemma gscheduled_handled E fs l : mapOut (gschedule_one E) fs = Done l -> Forall (fun x => handled CUDA (s_loops (snd x)) = true) l.
Proof.
  intros HS. apply mapOut_done in HS. induction HS as [|f [fd sc] fs l Hx _ IH]; constructor; auto. unfold gschedule_one in Hx.
  bd Hx. bd Hx. destruct (forallb _ _) eqn:EF in Hx; [|discriminate]. injection Hx as <- <-. exact EF.
Qed.
Lemma gdbg_funcs_total s E fs : (forall f, In f fs -> exists t, func_tree repr (dv_host B s) (on_dev s) (S (length (dv_graph B s))) E f = Done t) ->
  forall i scs, exists lines, gdbg_funcs s E i (combine fs scs) = Done lines.
Proof.
  induction fs as [|f fs IH]; intros Hf i scs; [cbn; eauto|]. destruct scs as [|sc scs]; [cbn; eauto|]. cbn [combine gdbg_funcs].
  destruct (Hf f (or_introl eq_refl)) as [t ->]. cbn [obind]. destruct (IH (fun f' Hf' => Hf f' (or_intror Hf')) (S i) scs) as [ls ->]. cbn. eauto.
Qed.
Lemma gprints s a E fs scs : reach (dv_graph B s) -> valid (dv_graph B s) a -> convert (dv_graph B s) a = Done (E, fs) ->
  exists lines, gdbg_funcs s E 0 (combine fs scs) = Done lines.
Proof.
  intros Hr Ha HC. pose proof (converted_refs _ _ _ _ Hr Ha HC) as HR. apply gdbg_funcs_total.
  intros f Hf. apply (func_tree_total repr (dv_host B s) _ E fs); auto; [intros f' Hf'; apply HR, Hf'|]. destruct (HR f Hf); lia.
Qed.
Lemma gcompute_dbg_sound s a h s' oc h' out : reach (dv_graph B s) -> valid (dv_graph B s) a -> gcompute_dbg s a h s' oc h' out -> gcompute B s a s' oc.
Proof.
  intros Hr Ha H. inversion H; subst; try (econstructor; eassumption).
  - exfalso. match goal with H1 : convert _ _ = Done (?E, ?fs), H2 : gdbg_funcs ?s _ _ (combine _ ?scs) = Throw _ |- _ => destruct (gprints s a E fs scs Hr Ha H1) as [lines HP] end.
    congruence.
  - eapply gc_run; try eassumption. eapply gfuncs_dbg_sound; [eapply gscheduled_handled|]; eassumption.
Qed.
Lemma gcompute_dbg_complete s a h s' oc : reach (dv_graph B s) -> valid (dv_graph B s) a -> gcompute B s a s' oc -> exists h' out, gcompute_dbg s a h s' oc h' out.
Proof.
  intros Hr Ha H. inversion H; subst; try (do 2 eexists; econstructor; eassumption).
  match goal with H1 : convert (dv_graph B ?s) _ = Done (?E, ?fs), H2 : mapOut _ _ = Done ?l |- _ => destruct (gprints s a E fs (map snd l) Hr Ha H1) as [lines HP] end.
  edestruct gfuncs_dbg_complete as (h' & out & HD); [eapply gscheduled_handled|..]; try eassumption.
  do 2 eexists. eapply gcd_run; eassumption.
Qed.
Section State.
Context (s : dev) (Hr : reach (dv_graph B s))
  (Hlen : forall n nd vs, nth_error (dv_graph B s) n = Some nd -> dv_host B s n = Some vs -> Z.of_nat (length vs) = zprod (n_shape nd)).
Lemma gtree a : valid (dv_graph B s) a -> exists t, arr_tree repr (dv_graph B s) (dv_host B s) (on_dev s) (S (length (dv_graph B s))) a = Done t.
Proof using Hr Hlen. intros Ha. apply arr_tree_total; auto; first [now apply reach_wf|unfold valid in Ha; lia]. Qed.
Lemma gmat_dbg_sound a h s' oc h' out : gmat_dbg s a h s' oc h' out -> valid (dv_graph B s) a -> gmat B s a s' oc.
Proof using Hr Hlen.
  induction 1 as [a nd h e Hn Ht|a nd h t Hn Ht Hc|a nd h t b r s' oc h' out Hn Ht Hv Hin _ IH|a nd h t s' oc h' out Hn Ht Hc Hv HC]; intros Ha.
  - destruct (gtree a Ha); congruence.
  - eapply gm_const; eassumption.
  - eapply gm_view; try eassumption. apply IH. pose proof (wf_inputs_lt _ _ _ (reach_wf _ Hr) Hn) as HI. rewrite Hin in HI. inversion HI; subst. unfold valid in *; lia.
  - eapply gm_comp; try eassumption. eapply gcompute_dbg_sound; eassumption.
Qed.
Lemma gmat_dbg_complete a s' oc : gmat B s a s' oc -> valid (dv_graph B s) a -> forall h, exists h' out, gmat_dbg s a h s' oc h' out.
Proof using Hr Hlen.
  induction 1 as [a nd Hn Hc|a nd b r s' oc Hn Hv Hin _ IH|a nd s' oc Hn Hc Hv HC]; intros Ha h; destruct (gtree a Ha) as [t Ht].
  - do 2 eexists. eapply gmd_const; eassumption.
  - assert (Hb : valid (dv_graph B s) b) by (pose proof (wf_inputs_lt _ _ _ (reach_wf _ Hr) Hn) as HI; rewrite Hin in HI; inversion HI; subst; unfold valid in *; lia).
    destruct (IH Hb h) as (h' & out & HD). do 2 eexists. eapply gmd_view; eassumption.
  - edestruct (gcompute_dbg_complete s a h) as (h' & out & HD); try eassumption. do 2 eexists. eapply gmd_comp; eassumption.
Qed.
End State.
End Dbg.
