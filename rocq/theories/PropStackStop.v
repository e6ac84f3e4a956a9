(* C54/C59: a RecursionError anywhere in materialize(). *)
From Coq Require Import String.
From Verif Require Import Base BaseFacts Util UtilFacts Lang Spec SpecFacts Graph Api Denote DenoteFacts Reach ApiFacts LangInst Prog ArrayLit Tolist TolistFacts Algo AlgoSem AlgoConv AlgoConvert AlgoConvert2 AlgoTop AlgoMore Kernel Sched Codegen Backends KernelRun
  CacheKey CopyKey Runtime RuntimeFacts RuntimeFacts2 History HistFacts RtInst CacheFacts Frame HistTools CopyRun HistFacts2 Safety RuntimeTop PropRuntime Interrupt InterruptFacts PropStop
  Stack StackFacts PropStack Text TextPrint Generator StackGen StackRun.
Open Scope Z_scope.

Section Facts.
Context (B : cpu_backend) (nm : kkey -> string).
Lemma gen_agree g E name args fd sc tmp ind : handled (b_id B) (s_loops sc) = true -> 0 <= ind ->
  match codegen g E args fd sc tmp with
  | Done (kern, k') => exists o t, o_codegen (b_id B) g E name args fd sc (mkOb [] ind tmp) = (o, Done t) /\ ob_ind o = ind /\ ob_tmp o = k'
  | Throw e => exists o, o_codegen (b_id B) g E name args fd sc (mkOb [] ind tmp) = (o, Throw e) /\ ind <= ob_ind o
  end.
Proof.
  intros Hh Hi. pose proof (codegen_sim (b_id B) g E name args fd sc (Z.to_nat ind) (mkOb [] ind tmp) ltac:(cbn; lia)) as HX. cbn [ob_tmp ob_ind] in HX.
  rewrite t_codegen_eq in HX by exact Hh. destruct (codegen g E args fd sc tmp) as [[kern k']|e]; cbn [obind] in HX.
  - destruct HX as (o & t & H1 & _ & H2 & H3). eauto.
  - destruct HX as (o & H1 & H2 & _). eauto.
Qed.
(* a usable generator: Python's only without indentation *)
Definition usable (ind : Z) : Prop := 0 <= ind /\ (b_copies B = false -> ind = 0).
Lemma run_func_l_some L E fd sc s ind s' ind' r : handled (b_id B) (s_loops sc) = true -> usable ind ->
  run_func_l B nm L E fd sc (s, ind) = (s', ind', Some r) -> run_func B E fd sc s = (s', r) /\ (r = Done tt -> ind' = ind).
Proof.
  intros Hh [Hi Hp]. unfold run_func_l, run_func. destruct (mapOut _ _) as [bufs|e]; [|intros H; injection H as <- <- <-; now split]. destruct (expr_key_l _ _ _ _ _); [|discriminate].
  destruct (cache_key _ _ _ _) as [key|e]; [|intros H; injection H as <- <- <-; now split]. destruct (cache_get _ _) as [kern|].
  - destruct (invoke B s kern _) as [s1 r1]. intros H. injection H as <- <- <-. now split.
  - destruct (o_codegen_l _ _ _ _ _ _ _ _ _) as [ob1 [x|]] eqn:EO; [|discriminate]. apply codegen_agr in EO.
    pose proof (gen_agree (r_graph B s) E (nm key) (func_args (f_expr fd)) fd sc (r_tmp B s) ind Hh Hi) as HG. destruct (codegen _ _ _ _ _ _) as [[kern k']|e].
    + destruct HG as (ob2 & t & H1 & H2 & H3). rewrite H1 in EO. injection EO as -> <-. rewrite H2.
      replace (negb (b_copies B) && (0 <? ind)) with false by (destruct (b_copies B); [reflexivity|rewrite Hp by reflexivity; reflexivity]).
      destruct (invoke B _ kern _) as [s1 r1]. intros H. injection H as <- <- <-. now split.
    + destruct HG as (ob2 & H1 & H2). rewrite H1 in EO. injection EO as -> <-. intros H. injection H as <- <- <-. now split.
Qed.
Lemma run_func_l_none L E fd sc s ind s' ind' : b_copies B = true -> run_func_l B nm L E fd sc (s, ind) = (s', ind', None) -> stopped_func B E fd sc s s'.
Proof.
  intros Hc. unfold run_func_l. destruct (mapOut _ _) as [bufs|e] eqn:EM; [|discriminate]. destruct (expr_key_l _ _ _ _ _); [|intros H; injection H as <- <-; constructor].
  destruct (cache_key _ _ _ _) as [key|e] eqn:EK; [|discriminate]. destruct (cache_get _ _) as [kern|] eqn:EG.
  - destruct (invoke B s kern _) as [s1 r1]. discriminate.
  - destruct (o_codegen_l _ _ _ _ _ _ _ _ _) as [ob1 [[x|x]|]] eqn:EO; [|discriminate|].
    + rewrite Hc. cbn [negb andb]. destruct (codegen _ _ _ _ _ _) as [[kern k']|e]; [|discriminate]. destruct (invoke B _ kern _) as [s1 r1]. discriminate.
    + intros H. injection H as <- <-. apply codegen_exhausted in EO as [_ HT]. cbn [ob_tmp] in HT. eapply sf_codegen; eauto.
Qed.
Definition handled_all (l : list (func * schedule)) : Prop := forall fd sc, In (fd, sc) l -> handled (b_id B) (s_loops sc) = true.
Lemma scheduled_handled E fs l : mapOut (schedule_one B E) fs = Done l -> handled_all l.
Proof.
  revert l. induction fs as [|x fs IH]; intros l EM; cbn in EM; [injection EM as <-; intros fd sc []|]. apply obind_Done in EM as ([fd0 sc0] & H1 & EM). apply obind_Done in EM as (ys & H2 & EM). injection EM as <-.
  intros fd sc [Hin|Hin]; [|eapply IH; eauto]. injection Hin as -> ->. unfold schedule_one in H1. apply obind_Done in H1 as (fd1 & _ & H1). apply obind_Done in H1 as (sc1 & _ & H1).
  destruct (forallb _ _) eqn:EH; [|discriminate]. injection H1 as -> ->. exact EH.
Qed.
Lemma run_funcs_l_some L E l : handled_all l -> forall s ind s' ind' r, usable ind -> run_funcs_l B nm L E l (s, ind) = (s', ind', Some r) -> run_funcs B E l s = (s', r) /\ (r = Done tt -> ind' = ind).
Proof.
  induction l as [|[fd sc] l IH]; intros Hh s ind s' ind' r Hu H; cbn [run_funcs_l run_funcs] in *; [injection H as <- <- <-; now split|].
  assert (Hh0 : handled (b_id B) (s_loops sc) = true) by (apply (Hh fd); now left). assert (Hhl : handled_all l) by (intros f0 s0 H0; apply (Hh f0); now right).
  destruct (run_func_l B nm L E fd sc (s, ind)) as [[s1 i1] [[[]|e]|]] eqn:EF; [|injection H as <- <- <-|discriminate]; apply run_func_l_some in EF as [EF Hi]; auto; rewrite EF; [|split; [reflexivity|discriminate]].
  rewrite (Hi eq_refl) in H. now apply IH.
Qed.
Lemma run_funcs_l_none L E l : b_copies B = true -> handled_all l -> forall s ind s' ind', usable ind -> run_funcs_l B nm L E l (s, ind) = (s', ind', None) -> stopped_funcs B E l s s'.
Proof.
  intros Hc. induction l as [|[fd sc] l IH]; intros Hh s ind s' ind' Hu H; cbn [run_funcs_l] in *; [discriminate|].
  assert (Hh0 : handled (b_id B) (s_loops sc) = true) by (apply (Hh fd); now left). assert (Hhl : handled_all l) by (intros f0 s0 H0; apply (Hh f0); now right).
  destruct (run_func_l B nm L E fd sc (s, ind)) as [[s1 i1] [[[]|e]|]] eqn:EF; [|discriminate|].
  - apply run_func_l_some in EF as [EF Hi]; auto. rewrite (Hi eq_refl) in H. eapply ss_next; eauto.
  - injection H as <- _. apply ss_in. eapply run_func_l_none; eauto.
Qed.
Lemma mat_run_some L : forall a s ind s' ind' r, reach (r_graph B s) -> valid (r_graph B s) a -> usable ind -> mat_run_l B nm L (s, ind) a = (s', ind', Some r) ->
  mat B (S a) s a = (s', r) /\ (r = Done tt -> ind' = ind).
Proof.
  induction L as [|k IH]; intros a s ind s' ind' r Hr Ha Hu H; cbn [mat_run_l fst] in H; [discriminate|]. cbn [mat]. pose proof (reach_wf _ Hr) as Hw.
  destruct (nth_error (r_graph B s) a) as [nd|] eqn:Hn; [|injection H as <- <- <-; now split]. destruct (is_const (n_op nd)); [injection H as <- <- <-; now split|].
  destruct (is_view (n_op nd)).
  - destruct (n_in nd) as [|b l] eqn:Ei; [injection H as <- <- <-; now split|]. pose proof (wf_inputs_lt _ a nd Hw Hn) as HI. rewrite Ei in HI. inversion HI; subst.
    unfold valid in *. rewrite (mat_fuel B s Hw a (S b)) by lia. eapply IH; [exact Hr| |exact Hu|exact H]. unfold valid. lia.
  - unfold compute. destruct (convert_l k (r_graph B s) a) as [cv|] eqn:EC; [|discriminate]. rewrite <- (convert_agree _ _ _ _ Hr Ha EC).
    destruct cv as [[E fs]|e]; [|injection H as <- <- <-; now split]. destruct (mapOut (schedule_one B E) fs) as [l|e] eqn:EM; [|injection H as <- <- <-; now split].
    eapply run_funcs_l_some; eauto. eapply scheduled_handled; eauto.
Qed.
Lemma mat_run_none L : b_copies B = true -> forall a s ind s' ind', reach (r_graph B s) -> valid (r_graph B s) a -> usable ind -> mat_run_l B nm L (s, ind) a = (s', ind', None) -> stopped B s a s'.
Proof.
  intros Hc. induction L as [|k IH]; intros a s ind s' ind' Hr Ha Hu H; cbn [mat_run_l fst] in H; [injection H as <- _; apply sm_here|]. pose proof (reach_wf _ Hr) as Hw.
  destruct (nth_error (r_graph B s) a) as [nd|] eqn:Hn; [|discriminate]. destruct (is_const (n_op nd)) eqn:Ec; [discriminate|].
  destruct (is_view (n_op nd)) eqn:Ev.
  - destruct (n_in nd) as [|b l] eqn:Ei; [discriminate|]. pose proof (wf_inputs_lt _ a nd Hw Hn) as HI. rewrite Ei in HI. inversion HI; subst.
    eapply sm_view; eauto. eapply IH; [exact Hr| |exact Hu|exact H]. unfold valid in *. lia.
  - destruct (convert_l k (r_graph B s) a) as [cv|] eqn:EC; [|injection H as <- _; apply sm_here]. pose proof (convert_agree _ _ _ _ Hr Ha EC) as HC.
    destruct cv as [[E fs]|e]; [|discriminate]. destruct (mapOut (schedule_one B E) fs) as [l|e] eqn:EM; [|discriminate]. eapply sm_compute; eauto. eapply run_funcs_l_none; eauto. eapply scheduled_handled; eauto.
Qed.
(* the indentation never goes down *)
Lemma run_func_l_up L E fd sc s ind s' ind' r : handled (b_id B) (s_loops sc) = true -> 0 <= ind -> run_func_l B nm L E fd sc (s, ind) = (s', ind', r) ->
  ind <= ind' /\ (b_copies B = false -> 0 < ind -> r_cache B s' = r_cache B s).
Proof.
  intros Hh Hi. unfold run_func_l. destruct (mapOut _ _) as [bufs|e]; [|intros H; injection H as <- <- <-; split; [lia|auto]]. destruct (expr_key_l _ _ _ _ _); [|intros H; injection H as <- <- <-; split; [lia|auto]].
  destruct (cache_key _ _ _ _) as [key|e]; [|intros H; injection H as <- <- <-; split; [lia|auto]]. destruct (cache_get _ _) as [kern|].
  - destruct (invoke B s kern _) as [s1 r1] eqn:EI. intros H. injection H as <- <- <-. split; [lia|]. intros _ _. now apply (invoke_fix B) in EI.
  - destruct (o_codegen_l _ _ _ _ _ _ _ _ _) as [ob1 [x|]] eqn:EO.
    + apply codegen_agr in EO. pose proof (gen_agree (r_graph B s) E (nm key) (func_args (f_expr fd)) fd sc (r_tmp B s) ind Hh Hi) as HG. destruct (codegen _ _ _ _ _ _) as [[kern k']|e].
      * destruct HG as (ob2 & t & H1 & H2 & H3). rewrite H1 in EO. injection EO as -> <-. rewrite H2. destruct (negb (b_copies B) && (0 <? ind)) eqn:EB; [intros H; injection H as <- <- <-; split; [lia|auto]|].
        destruct (invoke B _ kern _) as [s1 r1]. intros H. injection H as <- <- <-. split; [lia|]. intros Hc H0. rewrite Hc in EB. cbn in EB. apply Z.ltb_ge in EB. lia.
      * destruct HG as (ob2 & H1 & H2). rewrite H1 in EO. injection EO as -> <-. intros H. injection H as <- <- <-. split; [lia|auto].
    + apply codegen_exhausted in EO as [HE _]. cbn [ob_ind] in HE. intros H. injection H as <- <- <-. split; [lia|auto].
Qed.
Lemma run_funcs_l_up L E l : handled_all l -> forall s ind s' ind' r, 0 <= ind -> run_funcs_l B nm L E l (s, ind) = (s', ind', r) -> ind <= ind' /\ (b_copies B = false -> 0 < ind -> r_cache B s' = r_cache B s).
Proof.
  induction l as [|[fd sc] l IH]; intros Hh s ind s' ind' r Hu H; cbn [run_funcs_l] in *; [injection H as <- <- <-; split; [lia|auto]|].
  assert (Hh0 : handled (b_id B) (s_loops sc) = true) by (apply (Hh fd); now left). assert (Hhl : handled_all l) by (intros f0 s0 H0; apply (Hh f0); now right).
  destruct (run_func_l B nm L E fd sc (s, ind)) as [[s1 i1] x] eqn:EF. apply run_func_l_up in EF as [H1 H2]; auto.
  destruct x as [[[]|e]|]; [|injection H as <- <- <-; auto|injection H as <- <- <-; auto].
  apply IH in H as [H3 H4]; auto; [|lia]. split; [lia|]. intros Hc H0. rewrite H4 by (auto; lia). auto.
Qed.
Lemma mat_run_up L : forall a s ind s' ind' r, 0 <= ind -> mat_run_l B nm L (s, ind) a = (s', ind', r) -> ind <= ind' /\ (b_copies B = false -> 0 < ind -> r_cache B s' = r_cache B s).
Proof.
  induction L as [|k IH]; intros a s ind s' ind' r Hi H; cbn [mat_run_l fst] in H; [injection H as <- <- <-; split; [lia|auto]|].
  destruct (nth_error (r_graph B s) a) as [nd|]; [|injection H as <- <- <-; split; [lia|auto]]. destruct (is_const (n_op nd)); [injection H as <- <- <-; split; [lia|auto]|].
  destruct (is_view (n_op nd)); [destruct (n_in nd) as [|b l]; [injection H as <- <- <-; split; [lia|auto]|eauto]|].
  destruct (convert_l k (r_graph B s) a) as [[[E fs]|e]|]; [|injection H as <- <- <-; split; [lia|auto]|injection H as <- <- <-; split; [lia|auto]].
  destruct (mapOut (schedule_one B E) fs) as [l|e] eqn:EM; [|injection H as <- <- <-; split; [lia|auto]]. eapply run_funcs_l_up; eauto. eapply scheduled_handled; eauto.
Qed.

(* enough frames *)
Lemma run_func_l_ev E fd sc g : handled (b_id B) (s_loops sc) = true -> (exists key, cache_key g E fd sc = Done key) ->
  exists L0, forall L s ind, (L0 <= L)%nat -> usable ind -> r_graph B s = g -> exists ind', run_func_l B nm L E fd sc (s, ind) = (fst (run_func B E fd sc s), ind', Some (snd (run_func B E fd sc s))).
Proof.
  intros Hh (key & HK). pose proof HK as HK2. unfold cache_key in HK2. apply obind_Done in HK2 as ([ky ids] & HK2 & _). apply key_ev in HK2 as (L1 & HL1).
  exists (Nat.max L1 (frames (f_expr fd))). intros L s ind HL [Hi Hp] Hg. subst g. unfold run_func_l, run_func. destruct (mapOut _ _) as [bufs|e]; [|eauto].
  rewrite HL1 by lia. rewrite HK. destruct (cache_get _ _) as [kern|].
  - destruct (invoke B s kern _) as [s1 r1]. cbn [fst snd]. eauto.
  - rewrite codegen_full by lia. pose proof (gen_agree (r_graph B s) E (nm key) (func_args (f_expr fd)) fd sc (r_tmp B s) ind Hh Hi) as HG. destruct (codegen _ _ _ _ _ _) as [[kern k']|e].
    + destruct HG as (ob2 & t & H1 & H2 & H3). rewrite H1. cbn [fst snd]. rewrite H2. replace (negb (b_copies B) && (0 <? ind)) with false by (destruct (b_copies B); [reflexivity|rewrite Hp by reflexivity; reflexivity]).
      destruct (invoke B _ kern _) as [s1 r1]. cbn [fst snd]. eauto.
    + destruct HG as (ob2 & H1 & H2). rewrite H1. cbn [fst snd]. eauto.
Qed.
Lemma run_funcs_l_ev E g l : handled_all l -> (forall fd sc, In (fd, sc) l -> exists key, cache_key g E fd sc = Done key) ->
  exists L0, forall L s ind, (L0 <= L)%nat -> usable ind -> r_graph B s = g -> exists ind', run_funcs_l B nm L E l (s, ind) = (fst (run_funcs B E l s), ind', Some (snd (run_funcs B E l s))).
Proof.
  induction l as [|[fd sc] l IH]; intros Hh HK; [exists 0%nat; intros; cbn; eauto|].
  destruct (run_func_l_ev E fd sc g) as (L1 & H1); [apply (Hh fd); now left|apply HK; now left|]. destruct IH as (L2 & H2); [intros f0 s0 H0; apply (Hh f0); now right|intros; apply HK; now right|].
  exists (Nat.max L1 L2). intros L s ind HL Hu Hg. cbn [run_funcs_l run_funcs]. destruct (H1 L s ind ltac:(lia) Hu Hg) as (i1 & HE). pose proof HE as HE2. apply run_func_l_some in HE2 as [_ HE2]; [|apply (Hh fd); now left|exact Hu]. rewrite HE. clear HE. destruct (run_func B E fd sc s) as [s1 [[]|e]] eqn:EF; cbn [fst snd]; [|eauto].
  cbn [snd] in HE2. rewrite (HE2 eq_refl). apply (H2 L s1 ind); [lia|exact Hu|]. rewrite (run_func_graph B _ _ _ _ _ _ EF). exact Hg.
Qed.
Lemma mat_run_ev : forall n a g, (a < n)%nat -> reach g -> valid g a ->
  exists L0, forall L s ind, (L0 <= L)%nat -> usable ind -> r_graph B s = g -> exists ind', mat_run_l B nm L (s, ind) a = (fst (mat B (S a) s a), ind', Some (snd (mat B (S a) s a))).
Proof.
  induction n as [|n IH]; intros a g Hn Hr Ha; [lia|]. pose proof (reach_wf _ Hr) as Hw.
  destruct (nth_error g a) as [nd|] eqn:Hnd; [|unfold valid in Ha; apply nth_error_None in Hnd; lia].
  destruct (is_const (n_op nd)) eqn:Ec; [exists 1%nat; intros [|L] s ind HL Hu Hg; [lia|]; subst g; cbn [mat_run_l mat fst]; rewrite Hnd, Ec; cbn; eauto|].
  destruct (is_view (n_op nd)) eqn:Ev.
  - destruct (n_in nd) as [|b l] eqn:Ei; [exists 1%nat; intros [|L] s ind HL Hu Hg; [lia|]; subst g; cbn [mat_run_l mat fst]; rewrite Hnd, Ec, Ev, Ei; cbn; eauto|].
    pose proof (wf_inputs_lt _ a nd Hw Hnd) as HI. rewrite Ei in HI. inversion HI; subst. destruct (IH b g) as (L0 & HL0); [lia|exact Hr|unfold valid in *; lia|].
    exists (S L0). intros [|L] s ind HL Hu Hg; [lia|]. destruct (HL0 L s ind ltac:(lia) Hu Hg) as (i' & HE). exists i'. subst g. cbn [mat_run_l fst]. rewrite Hnd, Ec, Ev, Ei, HE.
    assert (HM : mat B (S a) s a = mat B (S b) s b) by (rewrite <- (mat_fuel B s Hw a (S b) b) by lia; cbn [mat]; rewrite Hnd, Ec, Ev, Ei; reflexivity). now rewrite HM.
  - destruct (convert_ev g a Hr Ha) as (L0 & HL0). destruct (convert g a) as [[E fs]|e] eqn:EC.
    + destruct (mapOut (schedule_one B E) fs) as [l|e] eqn:EM.
      * assert (HK : forall fd sc, In (fd, sc) l -> exists key, cache_key g E fd sc = Done key).
        { assert (Hns : no_scalar_reshape g a).
          { unfold convert in EC. apply obind_Done in EC as (E0 & EA & _). eapply arr_done_ns; eauto. }
          pose proof (convert_inv _ _ _ _ _ any_lang_ok Hr Ha Hns EC) as HS.
          intros fd sc Hin. assert (HF : exists f, In f fs /\ schedule_one B E f = Done (fd, sc)).
          { clear - EM Hin. revert l EM Hin. induction fs as [|x fs IH]; intros l EM Hin; cbn in EM; [injection EM as <-; destruct Hin|]. apply obind_Done in EM as (y & H1 & EM). apply obind_Done in EM as (ys & H2 & EM). injection EM as <-.
            destruct Hin as [->|Hin]; [exists x; split; [now left|exact H1]|]. destruct (IH _ H2 Hin) as (f & ? & ?). exists f. split; [now right|assumption]. }
          destruct HF as (f & Hf & Hso). unfold schedule_one in Hso. apply obind_Done in Hso as (fd0 & Hfd & Hso). apply obind_Done in Hso as (sc0 & _ & Hso). destruct (forallb _ _); [|discriminate]. injection Hso as -> ->.
          unfold throw_none in Hfd. destruct (E f) as [fd1|] eqn:Efd; [|discriminate]. injection Hfd as ->. eapply (cache_key_total g E fs) with (f := f); eauto.
          - intros f0 Hf0. destruct (convert_kctx _ g a E fs f0 HS Hf0) as (fd0 & nd0 & H1 & HK0).
            exists fd0, (shape_of g), nd0. split; auto. split; [exact (kc_wff g E f0 fd0 nd0 HK0)|]. intros d Hd.
            apply in_split in Hf0 as (k1 & k2 & Hk). rewrite Hk. apply in_or_app. left. exact (cs_topo _ _ _ _ _ HS k1 f0 k2 Hk fd0 H1 d Hd).
          - destruct (convert_kctx _ g a E fs f HS Hf) as (fd0 & nd0 & _ & HK0). pose proof (kc_nd _ _ _ _ _ HK0) as Hx. apply nth_error_Some. congruence. }
        destruct (run_funcs_l_ev E g l (scheduled_handled E fs l EM) HK) as (L1 & HL1). exists (S (Nat.max L0 L1)). intros [|L] s ind HL Hu Hg; [lia|]. destruct (HL1 L s ind ltac:(lia) Hu Hg) as (i' & HE). exists i'. subst g.
        cbn [mat_run_l mat fst]. rewrite Hnd, Ec, Ev, HL0 by lia. unfold compute. rewrite EC, EM. exact HE.
      * exists (S L0). intros [|L] s ind HL Hu Hg; [lia|]. exists ind. subst g. cbn [mat_run_l mat fst]. rewrite Hnd, Ec, Ev, HL0 by lia. unfold compute. rewrite EC, EM. reflexivity.
    + exists (S L0). intros [|L] s ind HL Hu Hg; [lia|]. exists ind. subst g. cbn [mat_run_l mat fst]. rewrite Hnd, Ec, Ev, HL0 by lia. unfold compute. rewrite EC. reflexivity.
Qed.
End Facts.

(* The whole of materialize() with L frames, on any state of a process with a reachable graph (on Python: whose generator's indentation is 0):
   the outcome is RecursionError or exactly the outcome without a limit, after which the generator is as it was; and a large enough limit - which
   depends on the array only, not on what the process did before - always gives it. *)
Theorem C54_materialize_all_phases : forall B nm g a, is_cpu_backend B -> reach g -> valid g a ->
  (forall L s ind s' ind' r, r_graph B s = g -> 0 <= ind -> (b_copies B = false -> ind = 0) ->
     mat_run_l B nm L (s, ind) a = (s', ind', Some r) -> materialize B s a = (s', r) /\ (r = Done tt -> ind' = ind)) /\
  (exists L0, forall L s ind, (L0 <= L)%nat -> 0 <= ind -> (b_copies B = false -> ind = 0) -> r_graph B s = g ->
     exists ind', mat_run_l B nm L (s, ind) a = (fst (materialize B s a), ind', Some (snd (materialize B s a)))).
Proof.
  intros B nm g a _ Hr Ha. pose proof (reach_wf _ Hr) as Hw.
  assert (HM : forall s, r_graph B s = g -> materialize B s a = mat B (S a) s a) by (intros s Hg; subst g; unfold materialize, valid in *; apply mat_fuel; auto; lia). split.
  - intros L s ind s' ind' r Hg Hi Hp H. rewrite HM by assumption. subst g. eapply mat_run_some; eauto. now split.
  - destruct (mat_run_ev B nm (S a) a g ltac:(lia) Hr Ha) as (L0 & HL0). exists L0. intros L s ind HL Hi Hp Hg. rewrite HM by assumption. apply HL0; auto. now split.
Qed.
Print Assumptions C54_materialize_all_phases.
(* Python with a raised indentation - after any RecursionError inside codegen(): no materialize() call, of any array, at any depth, ever
   compiles a kernel again, whatever its outcome *)
Theorem C54_python_compiles_nothing : forall nm lm s ind L a s' ind' r, let B := py_backend lm in 0 < ind -> mat_run_l B nm L (s, ind) a = (s', ind', r) ->
  0 < ind' /\ r_cache B s' = r_cache B s.
Proof. intros nm lm s ind L a s' ind' r B Hi H. apply (mat_run_up B nm) in H as [H1 H2]; [|lia]. split; [lia|]. now apply H2. Qed.
Print Assumptions C54_python_compiles_nothing.
(* Clang: wherever the RecursionError strikes - conversion, key, code generation, in the first kernel or a later one - it leaves a state that
   C59 covers ([stopped]): the same call with enough frames gives the right list, kept afterwards. *)
Lemma stop_hist_any B C s : stop_hist B C s -> stop_any B s.
Proof. induction 1; [apply ta_init|apply ta_call|apply ta_mat|eapply ta_stop|apply ta_reset]; eauto. Qed.
Theorem C54_clang_recovers_partial : forall nm lm C s a b L ind s' ind' s2 t, let B := c_backend lm in key_safe C -> stop_hist B C s -> valid (r_graph B s) a ->
  view_of (r_graph B s) true a b -> computed (r_graph B s) b -> mat_ok (b_lang B) (r_graph B s) b -> (forall d, kernel_of (r_graph B s) a d -> C d) ->
  0 <= ind -> mat_run_l B nm L (s, ind) a = (s', ind', None) ->
  stopped B s a s' /\ stop_hist B C s' /\ r_graph B s' = r_graph B s /\
  (materialize B s' a = (s2, Done tt) -> stop_later B C s2 t ->
   exists l, t_tolist (den (b_lang B) (r_graph B s) a) = Ok l /\ tolist (r_graph B s2) (r_cpu B s2) a = Done l /\ tolist (r_graph B t) (r_cpu B t) a = Done l).
Proof.
  intros nm lm C s a b L ind s' ind' s2 t B HC Hs Ha Hv Hcm Hm Hk Hi HN. assert (HB : is_cpu_backend B) by (right; exists lm; reflexivity).
  pose proof (stop_hist_inv B (cpu_ok B HB) C HC s Hs) as HI. pose proof (reach_wf _ (i_reach _ _ _ HI)) as Hw. pose proof (view_of_base _ _ _ _ Hw Hv) as Hb.
  assert (HST : stopped B s a s') by (apply (mat_run_none B nm L eq_refl a s ind s' ind'); [apply HI|exact Ha|split; [exact Hi|discriminate]|exact HN]).
  assert (Hs' : stop_hist B C s') by (eapply th_stop; eauto; intros b' Hb'; assert (b' = b) by congruence; now subst).
  destruct (C59_others_kept B s a s' HB (stop_hist_any _ _ _ Hs) Ha HST) as [Hg _]. split; [exact HST|]. split; [exact Hs'|]. split; [exact Hg|].
  intros HM Ht. destruct (C59_retry_partial B C s' a b s2 t HB HC Hs') as (l & H1 & H2 & H3); rewrite ?Hg; auto. exists l. rewrite Hg in H1. auto.
Qed.
Print Assumptions C54_clang_recovers_partial.

(* concrete: x = arange(2), three reshapes, a negation; Clang.  With 10 frames conversion and key succeed and the generator runs out, its
   indentation stays at 2; the second attempt has enough *)
Definition exDeep : rt cB := sc_state cB (map Call [CArange 2; CReshape 0 [2]; CReshape 1 [2]; CReshape 2 [2]; CUnary UNeg 3]).
Definition exNm : kkey -> string := fun _ => "kern_0a1b"%string.
Definition exOut : rt cB * Z * lim unit := mat_run_l cB exNm 10 (exDeep, 0) 4.
Example C54_nonvacuous_clang : let g := r_graph cB exDeep in let C := kernel_of g 4 in
  key_safe C /\ stop_hist cB C exDeep /\ valid g 4 /\ view_of g true 4 4 /\ computed g 4 /\ mat_ok (c_lang no_libm) g 4 /\
  snd (mat_run_l cB exNm 6 (exDeep, 0) 4) = None /\ snd (fst (mat_run_l cB exNm 6 (exDeep, 0) 4)) = 0 /\
  snd exOut = None /\ snd (fst exOut) = 2 /\ length (r_cache cB (fst (fst exOut))) = 0%nat /\
  snd (mat_run_l cB exNm 12 (fst exOut) 4) = Some (Done tt) /\ snd (materialize cB (fst (fst exOut)) 4) = Done tt /\
  tolist g (r_cpu cB (fst (materialize cB (fst (fst exOut)) 4))) 4 = Done (Nest [Leaf (CI64 0); Leaf (CI64 (-1))]).
Proof.
  cbn zeta. split; [apply own_safeb_ok; vm_compute; reflexivity|]. split; [apply hist_stop, calls_state_hist|]. split; [vm_compute; lia|].
  split; [eapply vo_self; vm_compute; reflexivity|]. split; [eexists; split; vm_compute; reflexivity|].
  split. { split; [apply fits_all; vm_compute; reflexivity|]. exists Int64. intros n nd _ Hn Hc. destruct n as [|[|[|[|[|[|n]]]]]]; vm_compute in Hn; try discriminate; injection Hn as <-; reflexivity. }
  split; [vm_compute; reflexivity|]. split; [vm_compute; reflexivity|]. split; [vm_compute; reflexivity|]. split; [vm_compute; reflexivity|].
  split; [vm_compute; reflexivity|]. split; [vm_compute; reflexivity|]. split; vm_compute; reflexivity.
Qed.
(* the same on Python: afterwards not even -x of the array itself can be computed, with any number of frames; before it could *)
Definition exDeepPy : rt pyB := sc_state pyB (map Call [CArange 2; CReshape 0 [2]; CReshape 1 [2]; CReshape 2 [2]; CUnary UNeg 3; CUnary UNeg 0]).
Definition exOutPy : rt pyB * Z * lim unit := mat_run_l pyB exNm 10 (exDeepPy, 0) 4.
Example C54_nonvacuous_python : snd exOutPy = None /\ snd (fst exOutPy) = 2 /\ snd (mat_run_l pyB exNm 100 (fst exOutPy) 5) = Some (Throw RuntimeErr) /\
  snd (mat_run_l pyB exNm 10 (exDeepPy, 0) 5) = Some (Done tt) /\ snd (mat_run_l pyB exNm 12 (exDeepPy, 0) 4) = Some (Done tt).
Proof. split; [vm_compute; reflexivity|]. split; [vm_compute; reflexivity|]. split; [vm_compute; reflexivity|]. split; vm_compute; reflexivity. Qed.
