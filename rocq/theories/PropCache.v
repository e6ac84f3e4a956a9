(* Property C44 (the kernel cache avoids recompilation) and its consequences for C01 and C11. *)
From Verif Require Import Base BaseFacts Util UtilFacts Lang Spec Graph Api ApiFacts Denote SpecFacts DenoteFacts Reach Tolist TolistFacts Prog
  Algo AlgoSem Kernel Sched Codegen Backends CacheKey AlgoMore Runtime RuntimeFacts RuntimeFacts2 History HistFacts RtInst LangInst CacheFacts Frame HistFacts2 HistTools RuntimeTop Safety PropRuntime
  Copy CopyConv CopyKey CopyRun CopyApi CopySafe.

(* ---------------------------------------------------------------- C44 *)
(* whatever happens after s, except kernel cache resets; any arguments *)
Inductive unreset (B : cpu_backend) (s : rt B) : rt B -> Prop :=
| ur_here : unreset B s s
| ur_call t c : unreset B s t -> unreset B s (fst (api_call B t c))
| ur_mat t a : unreset B s t -> unreset B s (fst (materialize B t a)).
Lemma unreset_grow B s t : unreset B s t -> cache_le B s t /\ exists e, r_graph B t = r_graph B s ++ e.
Proof.
  induction 1 as [|t c Ht [IH1 (e & IH2)]|t a Ht [IH1 (e & IH2)]].
  - split; [apply cache_le_refl|]. exists []. now rewrite app_nil_r.
  - split.
    + unfold cache_le. rewrite (proj1 (api_call_grow B t c)). exact IH1.
    + unfold api_call. destruct (run_call (r_graph B t) c) as [[g' n]|] eqn:E; cbn [fst r_graph]; [|eauto]. destruct (run_call_appends _ _ _ _ E) as (e2 & -> & _). rewrite IH2, <- app_assoc. eauto.
  - destruct (materialize B t a) as [t' o] eqn:E. destruct (materialize_grow _ _ _ _ _ E) as [G L]. cbn [fst]. split; [eapply cache_le_trans; eauto|]. rewrite G. eauto.
Qed.

(* x.materialize() succeeded once; then, in any later state reached without a cache reset, materializing
   any array y that is the same expression (same operations with the same parameters on arrays of the
   same shapes, strides and dtypes; the arrays and the constants' numbers may be others) compiles
   nothing: no kernel enters the cache and the code generator does not run (its counter of temporaries
   is untouched).  Whether or not y's materialize() raises.  No side condition. *)
Theorem C44_no_recompile : forall B s x s1 t y t' o, materialize B s x = (s1, Done tt) -> unreset B s1 t ->
  same_expr (r_graph B s) x (r_graph B t) y -> materialize B t y = (t', o) ->
  r_cache B t' = r_cache B t /\ r_tmp B t' = r_tmp B t.
Proof.
  intros B s x s1 t y t' o H1 HU HS H2. destruct (unreset_grow _ _ _ HU) as [HL (e & He)]. destruct (materialize_grow _ _ _ _ _ H1) as [G1 _].
  eapply materialize_copy; eauto. rewrite He, G1, app_length. lia.
Qed.
Print Assumptions C44_no_recompile.

(* in particular x itself, any number of times *)
Lemma same_expr_later g e x : reach g -> valid g x -> same_expr g x (g ++ e) x.
Proof.
  intros Hr Hx. exists (seq 0 (length g)), (fun n => n). split; [apply in_seq; unfold valid in Hx; lia|]. split; auto. split; auto.
  intros n Hn. apply in_seq in Hn. destruct (nth_error g n) as [nd|] eqn:E; [|apply nth_error_None in E; lia]. exists nd, nd. rewrite nth_error_app1 by lia. repeat split; auto.
  - destruct (n_op nd); cbn; auto.
  - now rewrite map_id.
  - intros i Hi. pose proof (wf_inputs_lt _ n nd (reach_wf _ Hr) E) as HF. rewrite Forall_forall in HF. specialize (HF i Hi). apply in_seq. lia.
Qed.
Theorem C44_same_array : forall B s x s1 t t' o, any_hist B s -> lang_ok (b_lang B) -> valid (r_graph B s) x -> materialize B s x = (s1, Done tt) -> unreset B s1 t ->
  materialize B t x = (t', o) -> r_cache B t' = r_cache B t /\ r_tmp B t' = r_tmp B t.
Proof.
  intros B s x s1 t t' o Hs HL Hx H1 HU H2. eapply C44_no_recompile; eauto. destruct (unreset_grow _ _ _ HU) as [_ (e & He)]. destruct (materialize_grow _ _ _ _ _ H1) as [G1 _].
  rewrite He, G1. apply same_expr_later; auto. exact (j_reach _ _ (any_hist_inv B HL s Hs)).
Qed.
Print Assumptions C44_same_array.

(* A program fragment that ran once to completion, run again with arrays that are copies of the ones
   it was given (one correspondence r for all of them) and any other numbers in its literals:
   compiles nothing, and what it makes are copies of what it made. *)
Theorem C44_fragment : forall B l l' env s s1 env1 t dom r t' o, run_body B l env s = (s1, Done env1) -> unreset B s1 t ->
  Forall2 same_step l l' -> copies dom r (r_graph B s) (r_graph B t) -> incl env dom -> run_body B l' (map r env) t = (t', o) ->
  r_cache B t' = r_cache B t /\ r_tmp B t' = r_tmp B t /\
  forall env2, o = Done env2 -> Forall2 (fun x y => same_expr (r_graph B s1) x (r_graph B t') y) env1 env2.
Proof.
  intros B l l' env s s1 env1 t dom r t' o H1 HU HS HC Hin H2. destruct (unreset_grow _ _ _ HU) as [HL (e & He)].
  destruct (run_body_copy B l l' HS dom r env s s1 env1 t t' o HC Hin H1 HL ltac:(rewrite He, app_length; lia) H2) as [[C1 T1] K]. split; auto. split; auto.
  intros env2 E2. destruct (K env2 E2) as (dom' & r' & HC' & Hi' & ->). clear - HC' Hi'. induction env1 as [|x l IH]; constructor.
  - exists dom', r'. split; [apply Hi'; now left|auto].
  - apply IH. intros z Hz. apply Hi'. now right.
Qed.
Print Assumptions C44_fragment.

(* A loop: after the first iteration has completed, no number of further iterations compiles
   anything, whatever numbers each iteration puts in its literals. *)
Section Loop.
Context (B : cpu_backend).
Fixpoint run_loop (bodies : list (list bstep)) (env : list nat) (s : rt B) : rt B * outcome unit :=
  match bodies with
  | [] => (s, Done tt)
  | l :: r => match run_body B l env s with (s', Done _) => run_loop r env s' | (s', Throw e) => (s', Throw e) end
  end.
End Loop.
Lemma run_body_appends B l : forall env s s' o, run_body B l env s = (s', o) -> exists e, r_graph B s' = r_graph B s ++ e.
Proof.
  induction l as [|[c|i] l IH]; intros env s s' o H; cbn [run_body] in H.
  - injection H as <- <-. exists []. now rewrite app_nil_r.
  - destruct (forallb _ _); [|injection H as <- <-; exists []; now rewrite app_nil_r].
    destruct (api_call B s _) as [s1 o1] eqn:E1.
    assert (A1 : exists e, r_graph B s1 = r_graph B s ++ e).
    { unfold api_call in E1. destruct (run_call (r_graph B s) _) as [[g' n]|] eqn:E; injection E1 as <- <-; cbn [r_graph]; [destruct (run_call_appends _ _ _ _ E) as (e2 & -> & _); eauto|exists []; now rewrite app_nil_r]. }
    destruct o1; [|injection H as <- <-; auto]. destruct (IH _ _ _ _ H) as (e2 & ->). destruct A1 as (e1 & ->). rewrite <- app_assoc. eauto.
  - destruct (Nat.ltb _ _); [|injection H as <- <-; exists []; now rewrite app_nil_r].
    destruct (materialize B s _) as [s1 o1] eqn:E1. apply materialize_grow in E1 as [E1 _]. rewrite <- E1. destruct o1; [|injection H as <- <-; exists []; now rewrite app_nil_r]. eauto.
Qed.
Theorem C44_loop : forall B s env l bodies s1 env1 s' o, any_hist B s -> lang_ok (b_lang B) -> Forall (valid (r_graph B s)) env -> Forall (Forall2 same_step l) bodies ->
  run_body B l env s = (s1, Done env1) -> run_loop B bodies env s1 = (s', o) ->
  r_cache B s' = r_cache B s1 /\ r_tmp B s' = r_tmp B s1.
Proof.
  intros B s env l bodies s1 env1 s' o Hs HL Henv Hb H1 H2. pose proof (j_reach _ _ (any_hist_inv B HL s Hs)) as Hr.
  assert (GEN : forall bodies t t' o, Forall (Forall2 same_step l) bodies -> r_cache B t = r_cache B s1 -> (exists e, r_graph B t = r_graph B s1 ++ e) -> run_loop B bodies env t = (t', o) ->
     r_cache B t' = r_cache B t /\ r_tmp B t' = r_tmp B t).
  { clear bodies Hb H2. induction bodies as [|l' bodies IH]; intros t t' o' Hb HC (e & He) H2; cbn [run_loop] in H2; [injection H2 as <- <-; auto|].
    inversion Hb as [|? ? Hl Hb']; subst. destruct (run_body B l' env t) as [t1 o1] eqn:E1.
    destruct (run_body_appends _ _ _ _ _ _ H1) as (e1 & He1).
    assert (SC : r_cache B t1 = r_cache B t /\ r_tmp B t1 = r_tmp B t).
    { rewrite <- (map_id env) in E1. destruct (run_body_copy B l l' Hl (seq 0 (length (r_graph B s))) (fun n => n) env s s1 env1 t t1 o1) as [HX _]; auto.
      - split; auto. intros n Hn. apply in_seq in Hn. destruct (nth_error (r_graph B s) n) as [nd|] eqn:En; [|apply nth_error_None in En; lia]. exists nd, nd.
        rewrite He, He1, <- app_assoc, nth_error_app1 by lia. repeat split; auto; [destruct (n_op nd); cbn; auto|now rewrite map_id|].
        intros i Hi. pose proof (wf_inputs_lt _ n nd (reach_wf _ Hr) En) as HF. rewrite Forall_forall in HF. specialize (HF i Hi). apply in_seq. lia.
      - intros i Hi. rewrite Forall_forall in Henv. specialize (Henv i Hi). unfold valid in Henv. apply in_seq. lia.
      - unfold cache_le. now rewrite HC.
      - rewrite He, app_length. lia. }
    destruct (run_body_appends _ _ _ _ _ _ E1) as (e2 & He2). destruct SC as [C1 T1]. destruct o1; [|injection H2 as <- <-; auto].
    destruct (IH t1 t' o' Hb') as [C2 T2]; auto; [congruence|rewrite He2, He, <- app_assoc; eauto|]. split; congruence. }
  eapply GEN; eauto. exists []. now rewrite app_nil_r.
Qed.
Print Assumptions C44_loop.

(* the cache never holds two kernels under one key: a kernel is compiled again only after a reset *)
Theorem C44_one_entry_per_key : forall B s, any_hist B s -> NoDup (map fst (r_cache B s)).
Proof.
  intros B. assert (MEM : forall c k, cache_get c k = None -> ~ In k (map fst c)).
  { induction c as [|[k' x] c IH]; intros k H Hin; [destruct Hin|]. cbn in H, Hin. destruct (kkey_eq_dec k' k); [discriminate|]. destruct Hin as [|Hin]; [auto|]. exact (IH k H Hin). }
  assert (RF : forall E fd sc s s' o, run_func B E fd sc s = (s', o) -> NoDup (map fst (r_cache B s)) -> NoDup (map fst (r_cache B s'))).
  { intros E fd sc s s' o H HN. unfold run_func in H. destruct (mapOut _ _) as [bufs|]; [|injection H as <- <-; auto].
    destruct (cache_key (r_graph B s) E fd sc) as [key|]; [|injection H as <- <-; auto]. destruct (cache_get (r_cache B s) key) as [kern|] eqn:EG.
    - apply invoke_fix in H as (_ & -> & _). auto.
    - destruct (codegen _ _ _ _ _ _) as [[kern k']|]; [|injection H as <- <-; auto]. apply invoke_fix in H as (_ & -> & _). cbn. constructor; auto. }
  assert (RS : forall E l s s' o, run_funcs B E l s = (s', o) -> NoDup (map fst (r_cache B s)) -> NoDup (map fst (r_cache B s'))).
  { intros E. induction l as [|[fd sc] l IH]; intros s s' o H HN; cbn [run_funcs] in H; [injection H as <- <-; auto|].
    destruct (run_func B E fd sc s) as [s1 [u|e]] eqn:E1; [eauto|]. injection H as <- <-. eauto. }
  assert (MT : forall k s a s' o, mat B k s a = (s', o) -> NoDup (map fst (r_cache B s)) -> NoDup (map fst (r_cache B s'))).
  { induction k as [|k IH]; intros s a s' o H HN; cbn [mat] in H; [injection H as <- <-; auto|]. destruct (nth_error _ _) as [nd|]; [|injection H as <- <-; auto].
    destruct (is_const _); [injection H as <- <-; auto|]. destruct (is_view _); [destruct (n_in nd); [injection H as <- <-; auto|eauto]|].
    unfold compute in H. destruct (convert _ _) as [[E fs]|]; [|injection H as <- <-; auto]. destruct (mapOut _ _) as [l|]; [|injection H as <- <-; auto]. eauto. }
  induction 1 as [|s c Hs IH Hc|s a Hs IH Ha|s Hs IH].
  - constructor.
  - now rewrite (proj1 (api_call_grow B s c)).
  - destruct (materialize B s a) as [s' o] eqn:E. cbn [fst]. eapply MT; eauto.
  - constructor.
Qed.
Print Assumptions C44_one_entry_per_key.

(* x = arange(4).reshape(2,2); the body: y = array([[..],[..]]); z = (x*y).sum(0); z.materialize(); (z+z).materialize() *)
Definition exLit (k : Z) : nest num := Nest [Nest [Leaf (NInt k); Leaf (NInt 2)]; Nest [Leaf (NInt 3); Leaf (NInt (k + 4))]].
Definition exBody (k : Z) : list bstep :=
  [DoCall (CArray (exLit k)); DoCall (CBinary BMul 0 1); DoCall (CSum 2 (Some [0]) false); DoMat 3; DoCall (CBinary BAdd 3 3); DoMat 4].
Example C44_nonvacuous : let s := sc_state pyB (map Call [CArange 4; CReshape 0 [2; 2]]) in
  any_hist pyB s /\ Forall (valid (r_graph pyB s)) [1%nat] /\ Forall (Forall2 same_step (exBody 5)) [exBody 7; exBody (-3)] /\
  exists s1 env1 s2, run_body pyB (exBody 5) [1%nat] s = (s1, Done env1) /\ length (r_cache pyB s1) = 2%nat /\
    run_loop pyB [exBody 7; exBody (-3)] [1%nat] s1 = (s2, Done tt) /\ r_runs pyB s2 = 9%nat /\ length (r_cache pyB s2) = 2%nat /\
    tolist (r_graph pyB s2) (r_cpu pyB s2) 13 = Done (Nest [Leaf (PI 12); Leaf (PI 10)]).
Proof.
  cbn zeta. split; [apply sc_state_any|]. split; [constructor; [vm_compute; lia|constructor]|].
  split. { repeat constructor. }
  eexists _, _, _. split; [apply pair_snd; vm_compute; reflexivity|]. split; [vm_compute; reflexivity|]. split; [apply pair_snd; vm_compute; reflexivity|]. repeat split; vm_compute; reflexivity.
Qed.

(* ---------------------------------------------------------------- C11, C01 again *)
(* Kernels of arrays that are the same expressions as arrays of one graph collide in the cache only if
   kernels of that graph do: for a program that repeats a computation, one round of it is all there
   is to check. *)
Theorem C11_copies_safe : forall g (refs : nat -> Prop), reach g -> key_safe (fun d => exists a, refs a /\ kernel_of g a d) -> key_safe (copied_kernel g refs).
Proof. exact copied_safe. Qed.
Print Assumptions C11_copies_safe.
(* C01 for such programs.  PARTIAL: as C01_value_partial, but the cache condition is about the arrays
   [refs] of the one graph g only. *)
Theorem C01_repeated_partial : forall B g (refs : nat -> Prop) s a b s', is_cpu_backend B -> reach g -> key_safe (fun d => exists a, refs a /\ kernel_of g a d) ->
  hist B (copied_kernel g refs) s -> valid (r_graph B s) a ->
  view_of (r_graph B s) true a b -> computed (r_graph B s) b -> mat_ok (b_lang B) (r_graph B s) b ->
  (exists x, refs x /\ same_expr g x (r_graph B s) a) ->
  materialize B s a = (s', Done tt) ->
  exists l, tolist (r_graph B s') (r_cpu B s') a = Done l /\ t_tolist (den (b_lang B) (r_graph B s) a) = Ok l.
Proof.
  intros B g refs s a b s' HB Hg HK Hs Ha Hv Hc Hm (x & Hx & HS) H. eapply (C01_value_partial B (copied_kernel g refs)); eauto.
  - now apply copied_safe.
  - intros d Hd. exists x, (r_graph B s), a. split; auto. split; auto. exact (i_reach _ _ _ (hist_inv B (cpu_ok B HB) _ (copied_safe g refs Hg HK) s Hs)).
Qed.
Print Assumptions C01_repeated_partial.

(* the body above without its first materialize(), in two rounds with different numbers *)
Fixpoint body_okb (B : cpu_backend) (l : list bstep) (env : list nat) (s : rt B) : bool :=
  match l with
  | DoCall c :: l' => let c' := rename_call (fun i => nth i env 0%nat) c in
      call_okb (r_graph B s) c' && match api_call B s c' with (s', Done n) => body_okb B l' (env ++ [n]) s' | _ => true end
  | DoMat _ :: _ => false
  | [] => true
  end.
Lemma body_hist B C l : forall env s, hist B C s -> body_okb B l env s = true -> hist B C (fst (run_body B l env s)).
Proof.
  induction l as [|[c|i] l IH]; intros env s Hs H; cbn [run_body body_okb] in *; auto; [|discriminate]. apply andb_prop in H as [H1 H2].
  destruct (forallb _ _); [|exact Hs]. pose proof (h_call B C s _ Hs (call_okb_ok _ _ H1)) as Hs'. destruct (api_call B s _) as [s' [n|e]]; cbn [fst] in *; auto.
Qed.
Definition exRound (k : Z) : list bstep := [DoCall (CArray (exLit k)); DoCall (CBinary BMul 0 1); DoCall (CSum 2 (Some [0]) false); DoCall (CBinary BAdd 3 3)].
Definition exR0 : rt pyB := sc_state pyB (map Call [CArange 4; CReshape 0 [2; 2]]).
Definition exR1 : rt pyB := fst (run_body pyB (exRound 5) [1%nat] exR0).
Definition exRt : rt pyB := fst (materialize pyB exR1 5).
Definition exR2 : rt pyB := fst (run_body pyB (exRound 7) [1%nat] exRt).
Example C01_repeated_nonvacuous : let g := r_graph pyB exR1 in let refs := fun n => n = 5%nat in
  reach g /\ key_safe (fun d => exists a, refs a /\ kernel_of g a d) /\ hist pyB (copied_kernel g refs) exR2 /\ valid (r_graph pyB exR2) 9 /\ same_expr g 5 (r_graph pyB exR2) 9 /\
  view_of (r_graph pyB exR2) true 9 9 /\ computed (r_graph pyB exR2) 9 /\
  exists s', materialize pyB exR2 9 = (s', Done tt) /\ tolist (r_graph pyB s') (r_cpu pyB s') 9 = Done (Nest [Leaf (PI 12); Leaf (PI 70)]).
Proof.
  cbn zeta. set (C := copied_kernel (r_graph pyB exR1) (fun n => n = 5%nat)).
  assert (H1 : hist pyB C exR1) by (apply body_hist; [apply calls_state_hist|vm_compute; reflexivity]).
  assert (H1' : any_hist pyB exR1).
  { pose proof (body_hist pyB (fun _ => True) (exRound 5) [1%nat] exR0 (calls_state_hist _ _ _) ltac:(vm_compute; reflexivity)) as HX. fold exR1 in HX. clear - HX. induction HX; constructor; auto. }
  pose proof (j_reach _ _ (any_hist_inv pyB (py_lang_ok no_libm) _ H1')) as R1.
  pose proof (j_reach _ _ (any_hist_inv pyB (py_lang_ok no_libm) _ (sc_state_any pyB (map Call [CArange 4; CReshape 0 [2; 2]])))) as R0. fold exR0 in R0.
  split; [exact R1|]. split.
  { pose proof (own_safeb_ok (r_graph pyB exR1) 5 ltac:(vm_compute; reflexivity)) as HK. intros d1 d2 key (a1 & -> & K1) (a2 & -> & K2). apply HK; auto. }
  assert (Ht : hist pyB C exRt).
  { apply h_mat; [exact H1|vm_compute; lia|intros b _; apply py_mat_ok|]. intros d Hd. exists 5%nat, (r_graph pyB exR1), 5%nat. repeat split; auto.
    rewrite <- (app_nil_r (r_graph pyB exR1)) at 2. apply same_expr_later; auto. vm_compute. lia. }
  split; [apply body_hist; [exact Ht|vm_compute; reflexivity]|]. split; [vm_compute; lia|]. split.
  { assert (B1 : run_body pyB (exRound 5) [1%nat] exR0 = (exR1, Done [1; 2; 3; 4; 5]%nat)) by (apply pair_snd; vm_compute; reflexivity).
    assert (B2 : run_body pyB (exRound 7) [1%nat] exRt = (exR2, Done [1; 6; 7; 8; 9]%nat)) by (apply pair_snd; vm_compute; reflexivity).
    destruct (same_expr_later (r_graph pyB exR0) (skipn 2 (r_graph pyB exRt)) 1 R0 ltac:(vm_compute; lia)) as (dom & r & Hi & Hr & HC).
    assert (Eg : r_graph pyB exR0 ++ skipn 2 (r_graph pyB exRt) = r_graph pyB exRt) by (vm_compute; reflexivity). rewrite Eg in HC.
    assert (B3 : run_body pyB (exRound 7) (map r [1%nat]) exRt = (exR2, Done [1; 6; 7; 8; 9]%nat)) by (cbn [map]; rewrite Hr; exact B2).
    assert (BS : Forall2 same_step (exRound 5) (exRound 7)) by (repeat constructor).
    destruct (C44_fragment pyB (exRound 5) (exRound 7) [1%nat] exR0 exR1 _ exRt dom r exR2 _ B1 (ur_mat pyB exR1 exR1 5%nat (ur_here pyB exR1)) BS HC ltac:(intros ? [<-|[]]; auto) B3) as (_ & _ & HF).
    specialize (HF _ eq_refl). do 4 (inversion HF as [|? ? ? ? ? HF']; subst; clear HF; rename HF' into HF). inversion HF; subst. assumption. }
  split; [eapply vo_self; vm_compute; reflexivity|]. split; [eexists; split; vm_compute; reflexivity|].
  eexists. split; [apply pair_snd; vm_compute; reflexivity|vm_compute; reflexivity].
Qed.
