(* Printing never fails on arrays of a real history, and debug output does not interfere. *)
From Coq Require Import String Ascii ZifyBool.
From Verif Require Import Base BaseFacts Util UtilFacts Lang Spec SpecFacts Graph Api ApiFacts Denote DenoteFacts Reach Tolist TolistFacts
  Algo AlgoSem AlgoConv AlgoFuse2 AlgoConvert AlgoConvert2 Kernel Sched Codegen Backends CacheKey KernelRun AlgoTop AlgoMore LangInst Runtime Frame
  ViewExact Text TextPrint PropText Print.
Local Open Scope Z_scope.

Lemma mapO_total {A B} (f : A -> outcome B) l : (forall x, In x l -> exists y, f x = Done y) -> exists ys, mapO f l = Done ys.
Proof.
  induction l as [|x l IH]; intros H; [eexists; reflexivity|]. destruct (H x (or_introl eq_refl)) as [y Hy]. destruct IH as [ys Hys]; [intros; apply H; now right|].
  cbn. rewrite Hy. cbn. rewrite Hys. eexists; reflexivity.
Qed.

Section Arr.
Context {V : Type} (repr : V -> string) (g : graph) (m : mem V) (dev : nat -> bool) (Hw : wf_graph g)
  (Hlen : forall n nd vs, nth_error g n = Some nd -> m n = Some vs -> Z.of_nat (length vs) = zprod (n_shape nd)).

Lemma arr_text_cases a nd b : nth_error g a = Some nd -> base g a = Some b ->
  (exists l, tolist g m a = Done l /\ arr_text repr g m dev a = Done (nest_text repr l)) \/
  (m b = None /\ tolist g m a = Throw AttrErr /\ arr_text repr g m dev a = Done (summary_text nd "None" (dev_text (dev b)))).
Proof using Hw Hlen.
  intros Hnd Hb. unfold arr_text, tolist. rewrite Hnd, Hb. destruct (m b) as [data|] eqn:Hm; [left|right; auto].
  assert (Ha : (a < length g)%nat) by (apply nth_error_Some; congruence).
  destruct (base_total g a Hw Ha) as (b' & Hb' & Hle & Hv). assert (b' = b) by congruence. subst b'.
  destruct (nth_error g b) as [bd|] eqn:Hbd; [|apply nth_error_None in Hbd; lia]. destruct (view_lost g a b Hv) as (k & Hk).
  destruct (tolist_exact g m a b k data nd bd Hw Hv Hk Hnd Hbd Hm (Hlen _ _ _ Hbd Hm)) as (l & Hl & _).
  exists l. unfold tolist in Hl. rewrite Hnd, Hb, Hm in Hl. rewrite Hl. auto.
Qed.
Lemma arr_text_total a : (a < length g)%nat -> exists t, arr_text repr g m dev a = Done t.
Proof using Hw Hlen.
  intros Ha. destruct (nth_error g a) as [nd|] eqn:Hnd; [|apply nth_error_None in Hnd; lia]. destruct (base_total g a Hw Ha) as (b & Hb & _).
  destruct (arr_text_cases a nd b Hnd Hb) as [(l & _ & ->)|(_ & _ & ->)]; eauto.
Qed.
Lemma arr_tree_total fuel : forall a, (a < fuel)%nat -> (a < length g)%nat -> exists t, arr_tree repr g m dev fuel a = Done t.
Proof using Hw Hlen.
  induction fuel as [|k IH]; intros a Hf Ha; [lia|]. cbn [arr_tree]. unfold get.
  destruct (nth_error g a) as [nd|] eqn:Hnd; [|apply nth_error_None in Hnd; lia]. cbn [obind].
  destruct (arr_text_total a Ha) as [t ->]. cbn [obind].
  pose proof (wf_inputs_lt g a nd Hw Hnd) as HI. rewrite Forall_forall in HI.
  destruct (mapO_total (arr_tree repr g m dev k) (n_in nd)) as [ys ->]; [|cbn; eauto].
  intros x Hx. specialize (HI x Hx). apply IH; lia.
Qed.

Lemma expr_tree_total ft e : (forall i, In i (func_refs e) -> exists t, ft i = Done t) -> exists t, expr_tree repr m dev ft e = Done t.
Proof using.
  clear Hlen Hw. induction e using expr_ind'; intros Hr; cbn [expr_tree func_refs] in *; eauto;
  repeat match goal with IH : (forall i, In i (func_refs ?x) -> _) -> exists t, expr_tree _ _ _ _ ?x = Done t |- _ =>
    destruct IH as [? ->]; [intros; apply Hr; rewrite ?in_app_iff; tauto|]; cbn [obind] end; eauto.
  destruct (Hr f (or_introl eq_refl)) as [t ->]. cbn. eauto.
Qed.
Lemma func_tree_total E (fs : list nat) : (forall f, In f fs -> exists fd, E f = Some fd /\ forall i, In i (func_refs (f_expr fd)) -> In i fs /\ (i < f)%nat) ->
  forall fuel f, (f < fuel)%nat -> In f fs -> exists t, func_tree repr m dev fuel E f = Done t.
Proof using.
  clear Hlen Hw. intros HE. induction fuel as [|k IH]; intros f Hf Hi; [lia|]. cbn [func_tree]. destruct (HE f Hi) as (fd & -> & Hr). cbn [throw_none obind].
  destruct (expr_tree_total (func_tree repr m dev k E) (f_expr fd)) as [t ->]; [|cbn; eauto].
  intros i Hii. destruct (Hr i Hii). apply IH; auto; lia.
Qed.
End Arr.

Lemma converted_refs g a E fs : reach g -> valid g a -> convert g a = Done (E, fs) ->
  forall f, In f fs -> (f < length g)%nat /\ exists fd, E f = Some fd /\ forall i, In i (func_refs (f_expr fd)) -> In i fs /\ (i < f)%nat.
Proof.
  intros Hr Ha HC f Hf. pose proof (converted_ns _ _ _ _ Hr Ha HC) as Hns.
  destruct (convert_inv _ g a E fs any_lang_ok Hr Ha Hns HC) as [C1 C2 C3 C4 C5 C6 C7 C8].
  destruct (C5 f Hf) as (fd & HE & nd & Hnd & _ & HW & _). split; [apply nth_error_Some; congruence|]. exists fd. split; [exact HE|]. intros i Hi. split.
  - destruct (in_split _ _ Hf) as (l1 & l2 & ->). apply in_app_iff. left. eapply C4; eauto.
  - eapply wff_refs; eauto.
Qed.

Section Debug.
Context (B : cpu_backend) (repr : val (b_lang B) -> string) (hash : kkey -> string).
Notation effect := (effect B).

Lemma run_func_dbg_effect E i fd sc s h : handled (b_id B) (s_loops sc) = true ->
  effect (run_func_dbg B hash E i fd sc s h) = run_func B E fd sc s.
Proof.
  intros HH. unfold run_func_dbg, run_func, effect. destruct (mapOut (arg_buffer E) _); [|reflexivity]. destruct (cache_key _ _ _ _); [|reflexivity].
  destruct (cache_get _ _); [reflexivity|]. rewrite t_codegen_eq by exact HH. destruct (codegen _ _ _ _ _ _) as [[kern k']|]; [|reflexivity]. cbn [obind].
  destruct (invoke _ _ _ _) as [s' [[]|e]]; reflexivity.
Qed.
Lemma run_funcs_dbg_effect E l : Forall (fun x => handled (b_id B) (s_loops (snd x)) = true) l -> forall i s h,
  effect (run_funcs_dbg B hash E i l s h) = run_funcs B E l s.
Proof.
  induction 1 as [|[fd sc] l Hx _ IH]; intros i s h; [reflexivity|]. cbn [run_funcs_dbg run_funcs]. cbn [snd] in Hx.
  pose proof (run_func_dbg_effect E i fd sc s h Hx) as HE. unfold effect in HE.
  destruct (run_func_dbg B hash E i fd sc s h) as [[[s' [[]|e]] h'] out]; cbn [fst] in HE; rewrite <- HE; [|reflexivity].
  specialize (IH (S i) s' h'). destruct (run_funcs_dbg B hash E (S i) l s' h') as [[res h2] out2]. exact IH.
Qed.
Lemma dbg_funcs_total g m E fs : (forall f, In f fs -> exists t, func_tree repr m (fun _ => false) (S (length g)) E f = Done t) ->
  forall i scs, exists lines, dbg_funcs B repr g m E i (combine fs scs) = Done lines.
Proof.
  induction fs as [|f fs IH]; intros Hf i scs; [cbn; eauto|]. destruct scs as [|sc scs]; [cbn; eauto|]. cbn [combine dbg_funcs].
  destruct (Hf f (or_introl eq_refl)) as [t ->]. cbn [obind]. destruct (IH (fun f' Hf' => Hf f' (or_intror Hf')) (S i) scs) as [ls ->]. cbn. eauto.
Qed.
Lemma compute_dbg_effect s a h : reach (r_graph B s) -> valid (r_graph B s) a -> effect (compute_dbg B repr hash s a h) = compute B s a.
Proof.
  intros Hr Ha. unfold compute_dbg, compute. destruct (convert (r_graph B s) a) as [[E fs]|] eqn:HC; [|reflexivity].
  destruct (mapOut (schedule_one B E) fs) as [l|] eqn:HS; [|reflexivity].
  pose proof (converted_refs _ _ _ _ Hr Ha HC) as HR.
  destruct (dbg_funcs_total (r_graph B s) (r_cpu B s) E fs) with (i := 0%nat) (scs := map snd l) as [lines ->].
  { intros f Hf. apply (func_tree_total repr (r_cpu B s) _ E fs); auto; [intros f' Hf'; apply HR, Hf'|]. destruct (HR f Hf); lia. }
  assert (HH : Forall (fun x => handled (b_id B) (s_loops (snd x)) = true) l).
  { apply mapOut_done in HS. clear - HS. induction HS as [|f [fd sc] fs l Hx _ IH]; constructor; auto. unfold schedule_one in Hx.
    bd Hx. bd Hx. destruct (forallb _ _) eqn:EF in Hx; [|discriminate]. injection Hx as <- <-. exact EF. }
  pose proof (run_funcs_dbg_effect E l HH 0%nat s h) as HE. destruct (run_funcs_dbg B hash E 0 l s h) as [[res h'] out]. exact HE.
Qed.
Lemma mat_dbg_effect s (Hr : reach (r_graph B s))
  (Hlen : forall n nd vs, nth_error (r_graph B s) n = Some nd -> r_cpu B s n = Some vs -> Z.of_nat (length vs) = zprod (n_shape nd)) :
  forall fuel a h, valid (r_graph B s) a -> effect (mat_dbg B repr hash fuel s a h) = mat B fuel s a.
Proof.
  pose proof (reach_wf _ Hr) as Hw. induction fuel as [|k IH]; intros a h Ha; [reflexivity|]. cbn [mat_dbg mat].
  destruct (nth_error (r_graph B s) a) as [nd|] eqn:Hnd; [|reflexivity].
  destruct (arr_tree_total repr (r_graph B s) (r_cpu B s) (fun _ => false) Hw Hlen (S (length (r_graph B s))) a) as [t ->]; [unfold valid in Ha; lia|exact Ha|].
  destruct (is_const (n_op nd)); [reflexivity|]. destruct (is_view (n_op nd)).
  - destruct (n_in nd) as [|b r] eqn:Hin; [reflexivity|]. pose proof (wf_inputs_lt _ _ _ Hw Hnd) as HI. rewrite Hin in HI. inversion HI; subst.
    assert (Hb : valid (r_graph B s) b) by (unfold valid in *; lia). specialize (IH b h Hb). destruct (mat_dbg B repr hash k s b h) as [[res h'] out]. exact IH.
  - pose proof (compute_dbg_effect s a h Hr Ha) as HE. destruct (compute_dbg B repr hash s a h) as [[res h'] out]. exact HE.
Qed.
End Debug.
