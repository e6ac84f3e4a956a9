(* C54, second half of materialize(): cache keys and code generation under Python's recursion limit. *)
From Coq Require Import String Ascii.
From Verif Require Import Base BaseFacts Util UtilFacts Lang Spec SpecFacts Graph Api Denote DenoteFacts Reach ApiFacts LangInst Prog Algo AlgoSem AlgoConv AlgoConvert AlgoConvert2 AlgoTop AlgoMore Kernel Sched Codegen Backends
  Stack StackFacts Cost CacheKey CopyKey PropAlgo PropSched Text TextPrint TextParse TextLex TextName TextExpr TextStmt TextRead TextMono TextTop Generator PropText PropGen StackGen.
Open Scope string_scope.
Open Scope Z_scope.
Open Scope list_scope.

(* func_cache_key() with L frames left: it raises RecursionError or gives the key it gives without a limit; a limit that suffices exists *)
Theorem C54_key_limit_only_raises : forall g E e fuel v, expr_key g E fuel e [] = Done v ->
  (forall L r, expr_key_l g E L e [] = Some r -> r = Done v) /\ (exists L0, forall L, (L0 <= L)%nat -> expr_key_l g E L e [] = Some (Done v)).
Proof. intros g E e fuel v H. split; [intros L r; now apply (key_agree g E fuel)|now apply (key_ev g E fuel)]. Qed.
Print Assumptions C54_key_limit_only_raises.

(* what a rendering that returns has used *)
Lemma done_lseq {A B} (m : lmeth A) (f : A -> lmeth B) o o' v : lseq m f o = (o', Some (Done v)) -> exists o1 x, m o = (o1, Some (Done x)) /\ f x o1 = (o', Some (Done v)).
Proof. unfold lseq. destruct (m o) as [o1 [[x|e]|]]; intros H; [eauto|discriminate|discriminate]. Qed.
Lemma lmany_needs k (f : expr -> lmeth string) l : (forall x o o' v, f x o = (o', Some (Done v)) -> (frames x <= k)%nat) ->
  forall o o' v, lmany f l o = (o', Some (Done v)) -> (list_max (map frames l) <= k)%nat.
Proof.
  intros Hf. induction l as [|x l IH]; intros o o' v H; cbn [map list_max fold_right]; [lia|]. cbn [lmany] in H.
  apply done_lseq in H as (o1 & y & H1 & H). apply done_lseq in H as (o2 & ys & H2 & _). apply Hf in H1. apply IH in H2. unfold list_max in H2. lia.
Qed.
Lemma render_needs b g E args : forall L e dt o o' v, o_render_l b g E L args e dt o = (o', Some (Done v)) -> (frames e <= L)%nat.
Proof.
  induction L as [L IH] using lt_wf_ind. intros e dt o o' v H. destruct L as [|k0]; [discriminate|]. cbn [o_render_l] in H.
  destruct e; try (cbn; lia); (destruct k0 as [|k]; [discriminate|]); assert (IHk : forall e dt o o' v, o_render_l b g E k args e dt o = (o', Some (Done v)) -> (frames e <= k)%nat) by (intros; eapply IH; [|eassumption]; lia); clear IH; cbn [frames];
    repeat match goal with
    | H : lseq (lmany _ _) _ _ = _ |- _ => apply done_lseq in H as (? & ? & ?H1 & H)
    | H : lseq _ _ _ = _ |- _ => apply done_lseq in H as (? & ? & ?H1 & H)
    end;
    repeat match goal with
    | H : o_render_l _ _ _ k _ _ _ _ = _ |- _ => apply IHk in H
    | H : lmany _ _ _ = _ |- _ => eapply (lmany_needs k) in H; [|intros; eapply IHk; eassumption]
    end; lia.
Qed.
Lemma codegen_needs b g E L kname inputs f sc o o' v : o_codegen_l b g E L kname inputs f sc o = (o', Some (Done v)) -> (frames (f_expr f) <= L)%nat.
Proof.
  unfold o_codegen_l. intros H. repeat match goal with H : lseq _ _ _ = _ |- _ => apply done_lseq in H as (? & ? & ?H1 & H) end.
  match goal with H : o_render_l _ _ _ L _ _ _ _ = _ |- _ => now apply render_needs in H end.
Qed.
(* codegen() on a generator in any state, with L frames left: it raises RecursionError or does exactly what it does without a limit;
   if it would return a text, it returns it if and only if L is at least the number of frames its expression needs *)
Theorem C54_codegen_limit_only_raises : forall b q L o,
  (forall o' x, answer_l L b q o = (o', Some x) -> answer b q o = (o', x)) /\
  ((frames (f_expr (q_func q)) <= L)%nat -> answer_l L b q o = (fst (answer b q o), Some (snd (answer b q o)))) /\
  (forall o' t, answer b q o = (o', Done t) -> (L < frames (f_expr (q_func q)))%nat -> exists o2, answer_l L b q o = (o2, None)).
Proof.
  intros b q L o. split; [intros o' x; apply codegen_agr|]. split; [intros HL; now apply codegen_full|]. intros o' t HA HL.
  destruct (answer_l L b q o) as [o2 [[x|e]|]] eqn:HX; [|apply codegen_agr in HX; unfold answer in *; congruence|eauto].
  apply codegen_needs in HX. lia.
Qed.
Print Assumptions C54_codegen_limit_only_raises.

(* one call, at any point of the life of the object: the indentation never goes down *)
Lemma step_l b L q d o : ob_ind o = Z.of_nat d -> named q -> exists o' x, answer_l L b q o = (o', x) /\ exists d', ob_ind o' = Z.of_nat d' /\ (d <= d')%nat /\ (x = None -> (d < d')%nat).
Proof.
  intros Hd Hq. destruct (answer_l L b q o) as [o' [x|]] eqn:HA.
  - pose proof HA as HB. apply codegen_agr in HB. destruct (answer_step b q d o Hd Hq) as (o2 & y & HC & (d' & Hd' & Hle) & _). exists o', (Some x). split; [reflexivity|].
    exists d'. unfold answer in HC. rewrite HB in HC. injection HC as -> _. repeat split; auto. discriminate.
  - exists o', None. split; [reflexivity|]. apply codegen_exhausted in HA as [HI _]. exists (Z.to_nat (ob_ind o')). repeat split; try lia.
Qed.
(* Clang and CUDA: calls that ran out of frames do not disturb the calls after them *)
Theorem C54_c_generator_survives : forall b qs o xs, b <> Python -> Forall (fun p => named (snd p)) qs -> session_l b qs new_generator = (o, xs) ->
  Forall2 (fun p x => match x with Some x => right_answer b (snd p) x | None => True end) qs xs.
Proof.
  intros b qs o xs Hb HN. assert (HG : forall d o0, ob_ind o0 = Z.of_nat d -> session_l b qs o0 = (o, xs) -> Forall2 (fun p x => match x with Some x => right_answer b (snd p) x | None => True end) qs xs); [|apply (HG 0%nat); reflexivity].
  revert o xs. induction HN as [|[L q] qs Hq HN IH]; intros o xs d o0 Hd HS; cbn [session_l] in HS; [injection HS as <- <-; constructor|]. cbn [snd] in Hq.
  destruct (step_l b L q d o0 Hd Hq) as (o1 & x & HA & d' & Hd' & Hle & _). rewrite HA in HS. destruct (session_l b qs o1) as [o2 ys] eqn:ES. injection HS as <- <-.
  constructor; [|eapply IH; eauto]. cbn [snd]. destruct x as [x|]; [|exact I]. apply codegen_agr in HA.
  destruct (answer_step b q d o0 Hd Hq) as (o3 & y & HC & _ & HF & HX). unfold answer in HC. rewrite HA in HC. injection HC as <- <-. apply fails_right; [exact HF|]. destruct x as [t|e]; [|exact I].
  destruct HX as (_ & k & kern & k1 & t0 & HK & HR & HSh & _). exists k, kern, k1. split; [exact HK|]. intros p. rewrite (c_shift b d t0 t p ltac:(destruct b; [congruence|reflexivity|reflexivity]) HSh). apply HR.
Qed.
Print Assumptions C54_c_generator_survives.

(* Python: after one of them no text the generator returns is a Python program *)
Lemma python_ruined : forall qs L q rs o xs, Forall (fun p => named (snd p)) qs -> named q -> Forall (fun p => named (snd p)) rs ->
  (forall o d, ob_ind o = Z.of_nat d -> exists o', answer_l L Python q o = (o', None)) ->
  session_l Python (qs ++ (L, q) :: rs) new_generator = (o, xs) ->
  nth_error xs (length qs) = Some None /\ forall i text, (length qs < i)%nat -> nth_error xs i = Some (Some (Done text)) -> forall p, ~ reads Python text p.
Proof.
  intros qs L q rs o xs HQ Hq HR HL HS.
  assert (H0 : exists d, ob_ind new_generator = Z.of_nat d) by (exists 0%nat; reflexivity). revert H0 HS. generalize new_generator as o0. revert xs.
  induction HQ as [|[L0 q0] qs Hq0 HQ IH]; intros xs o0 (d & Hd) HS; cbn [app session_l length] in *.
  - destruct (step_l Python L q d o0 Hd Hq) as (o1 & x & HA & d' & Hd' & _ & Hn). destruct (HL o0 d Hd) as (o1' & HL'). rewrite HL' in HA. injection HA as <- <-.
    rewrite HL' in HS. destruct (session_l Python rs o1') as [o2 ys] eqn:ES. injection HS as <- <-. split; [reflexivity|].
    specialize (Hn eq_refl). assert (Hd1 : (0 < d')%nat) by lia. clear - HR ES Hd' Hd1. intros i text Hi. destruct i as [|i]; [lia|]. cbn [nth_error]. clear Hi. revert ys o1' d' Hd' Hd1 ES i text.
    induction HR as [|[L q] qs Hq HR IH]; intros ys o1 d Hd Hd1 ES i text Hx; cbn [session_l] in ES; [injection ES as <- <-; destruct i; discriminate|]. cbn [snd] in Hq.
    destruct (step_l Python L q d o1 Hd Hq) as (o3 & x & HA & d' & Hd' & Hle & _). rewrite HA in ES. destruct (session_l Python qs o3) as [o4 zs] eqn:ES2. injection ES as <- <-.
    destruct i as [|i]; [|eapply (IH zs o3 d'); eauto; lia]. injection Hx as ->. apply codegen_agr in HA.
    destruct (answer_step Python q d o1 Hd Hq) as (o5 & y & HC & _ & _ & HX). unfold answer in HC. rewrite HA in HC. injection HC as <- <-. destruct HX as (_ & k & kern & k1 & t0 & _ & _ & HSh & Et).
    eapply shifted_unreadable; [exact Hd1| |exact HSh]. rewrite Et. unfold kernel_text, kernel_lines. reflexivity.
  - destruct (step_l Python L0 q0 d o0 Hd Hq0) as (o1 & x & HA & d' & Hd' & _). rewrite HA in HS. destruct (session_l Python (qs ++ (L, q) :: rs) o1) as [o2 ys] eqn:ES. injection HS as <- <-.
    destruct (IH ys o1 (ex_intro _ d' Hd') ES) as [H1 H2]. split; [exact H1|]. intros i text Hi Hx. destruct i as [|i]; [lia|]. apply (H2 i text); [lia|exact Hx].
Qed.

(* ------------------------------------------------------------------ x.reshape(2), n times, and its negation *)
Definition chains (n : nat) : list call := CArange 2 :: map (fun k => CReshape k [2]) (List.seq 0 n) ++ [CUnary UNeg n].
Definition vnode (k : nat) : node := mkNode Int64 [2] [1] 0 (OReshape [2]) [k] 2.
Definition vneg (n : nat) : node := mkNode Int64 [2] [1] 0 (OUn UNeg) [n] 2.
Definition vviews (n : nat) : graph := dn0 :: map vnode (List.seq 0 n).
Definition vgraph (n : nat) : graph := vviews n ++ [vneg n].
Lemma vviews_len n : length (vviews n) = S n.
Proof. cbn. now rewrite map_length, seq_length. Qed.
Lemma vgraph_len n : length (vgraph n) = S (S n).
Proof. unfold vgraph. rewrite app_length, vviews_len. cbn. lia. Qed.
Lemma vviews_S n : vviews (S n) = vviews n ++ [vnode n].
Proof. unfold vviews. rewrite seq_S, map_app. reflexivity. Qed.
Lemma vviews_nth n k : (k < n)%nat -> nth_error (vviews n) (S k) = Some (vnode k).
Proof. intros H. cbn. rewrite nth_error_map. rewrite (nth_error_nth' _ 0%nat) by (rewrite seq_length; lia). rewrite seq_nth by lia. reflexivity. Qed.
Lemma vviews_top n : exists nd, nth_error (vviews n) n = Some nd /\ n_shape nd = [2] /\ n_strides nd = [1] /\ n_dtype nd = Int64 /\ n_len nd = 2 /\ n_offset nd = 0.
Proof. destruct n; [eexists; split; [reflexivity|cbn; auto]|]. exists (vnode n). split; [apply vviews_nth; lia|cbn; auto]. Qed.
Lemma chains_step n : run_prog (vviews n) [CReshape n [2]] = Some (vviews (S n)).
Proof.
  destruct (vviews_top n) as (nd & Hnd & Hs & Ht & Hd & Hl & Ho). cbn [run_prog call_okb]. unfold validb.
  replace (Nat.ltb n (length (vviews n))) with true by (symmetry; apply Nat.ltb_lt; rewrite vviews_len; lia). cbn [andb run_call nonnegb forallb Z.leb Z.compare].
  unfold api_reshape, api_contiguous, is_contiguous, get. rewrite Hnd. cbn [obind]. rewrite Hs, Ht. cbn. unfold forward, get. rewrite Hnd. cbn [obind forward_node]. unfold fwd_reshape.
  rewrite ?Hs, ?Hd, ?Hl, ?Ho, vviews_S. reflexivity.
Qed.
Lemma chains_views n : run_prog [] (CArange 2 :: map (fun k => CReshape k [2]) (List.seq 0 n)) = Some (vviews n).
Proof. induction n as [|n IH]; [reflexivity|]. rewrite seq_S, map_app, app_comm_cons, run_prog_app, IH. exact (chains_step n). Qed.
Lemma chains_run n : run_prog [] (chains n) = Some (vgraph n).
Proof.
  unfold chains. rewrite app_comm_cons, run_prog_app, chains_views. destruct (vviews_top n) as (nd & Hnd & Hs & Ht & Hd & Hl & Ho). cbn [run_prog call_okb]. unfold validb.
  replace (Nat.ltb n (length (vviews n))) with true by (symmetry; apply Nat.ltb_lt; rewrite vviews_len; lia). cbn [run_call]. unfold api_unary, forward, get. rewrite Hnd. cbn [obind forward_node].
  unfold fwd_elemwise. rewrite Hs, Hd. reflexivity.
Qed.
Lemma vgraph_reach n : reach (vgraph n).
Proof. eapply run_prog_reach; [constructor|apply chains_run]. Qed.
Lemma vgraph_view n k : (k < n)%nat -> nth_error (vgraph n) (S k) = Some (vnode k).
Proof. intros H. unfold vgraph. rewrite nth_error_app1 by (rewrite vviews_len; lia). now apply vviews_nth. Qed.
Lemma vgraph_last n : nth_error (vgraph n) (S n) = Some (vneg n).
Proof. unfold vgraph. rewrite nth_error_app2 by (rewrite vviews_len; lia). now rewrite vviews_len, Nat.sub_diag. Qed.
Lemma vgraph_in n k nd : nth_error (vgraph n) k = Some nd -> (k = 0%nat /\ nd = dn0) \/ (exists j, k = S j /\ (j < n)%nat /\ nd = vnode j) \/ (k = S n /\ nd = vneg n).
Proof.
  intros H. assert (HL : (k < length (vgraph n))%nat) by (apply nth_error_Some; congruence). rewrite vgraph_len in HL. destruct k as [|j]; [left; cbn in H; split; congruence|]. right.
  destruct (Nat.eq_dec j n) as [->|Hne]; [right; rewrite vgraph_last in H; split; congruence|]. left. exists j. rewrite vgraph_view in H by lia. repeat split; [lia|congruence].
Qed.
Lemma vgraph_ns n a : no_scalar_reshape (vgraph n) a.
Proof. intros k nd _ H. apply vgraph_in in H as [[_ ->]|[(j & _ & _ & ->)|[_ ->]]]; discriminate. Qed.
Lemma vgraph_cone n k : (k <= S n)%nat -> cone (vgraph n) (S n) k.
Proof.
  intros Hk. replace k with (S n - (S n - k))%nat by lia. assert (Hd : (S n - k <= S n)%nat) by lia. revert Hd. generalize (S n - k)%nat. intros d. induction d as [|d IH]; intros Hd.
  - replace (S n - 0)%nat with (S n) by lia. constructor.
  - destruct (Nat.eq_dec d 0) as [->|Hd0].
    + eapply cone_step; [constructor|apply vgraph_last|]. cbn. left. lia.
    + eapply cone_step; [apply IH; lia| |]; [replace (S n - d)%nat with (S (S n - S d)) by lia; apply vgraph_view; lia|cbn; auto].
Qed.
Lemma vgraph_chain n a m : chain (vgraph n) a m -> (a <= S n)%nat -> (m <= S a)%nat.
Proof.
  induction 1 as [a|a nd i m Hn Hi Hc IH]; intros Ha; [lia|]. apply vgraph_in in Hn as [[-> ->]|[(j & -> & Hj & ->)|[-> ->]]]; cbn in Hi; [contradiction| |];
    destruct Hi as [<-|[]]; specialize (IH ltac:(lia)); lia.
Qed.
Section Chains.
Context (n : nat).
Definition vi (k : nat) : expr := EIdx (mkL k false 0 2).
Definition vexpr (k : nat) : expr := match k with O => EBuf 0 [vi 0] | S j => if Nat.eqb j n then EUn UNeg (EFunc n [vi k]) else EFunc j [EBin BMul (vi k) (EConst 1)] end.
Definition vfunc (k : nat) : func := mkF [mkL k false 0 2] [2] Int64 (vexpr k) k.
Lemma vconv k fd : cfunc (vgraph n) k fd -> fd = vfunc k.
Proof.
  intros (nd & e & Hn & He & ->). apply vgraph_in in Hn as [[-> ->]|[(j & -> & Hj & ->)|[-> ->]]].
  - cbn in He. injection He as <-. reflexivity.
  - assert (HG : exists x, get (vgraph n) j = Done x /\ n_shape x = [2]).
    { unfold get. destruct j as [|j]; [eexists; split; reflexivity|]. rewrite vgraph_view by lia. eexists; split; reflexivity. }
    destruct HG as (x & HG & Hx). unfold conv_expr in He. cbn [vnode n_op n_in n_shape nth_error throw_none obind] in He. rewrite HG in He. cbn [obind] in He. rewrite Hx in He. cbn in He. injection He as <-.
    unfold vfunc, vexpr. replace (Nat.eqb j n) with false by (symmetry; apply Nat.eqb_neq; lia). reflexivity.
  - cbn in He. injection He as <-. unfold vfunc, vexpr. rewrite Nat.eqb_refl. reflexivity.
Qed.
Context (E : fenv) (HE : forall k, (k <= S n)%nat -> E k = Some (vfunc k)).
Lemma vcount : forall b i L rc, (b <= n)%nat -> (b + 2 <= L)%nat -> (forall c, (c <= b)%nat -> rc c = 0%nat) ->
  exists rc', count_refs_l L E (EFunc b i) rc = Some (Done rc') /\ (forall c, (c <= b)%nat -> rc' c = 1%nat) /\ (forall c, (b < c)%nat -> rc' c = rc c).
Proof.
  induction b as [|b IH]; intros i L rc Hb HL H0; destruct L as [|[|L]]; try lia; cbn [count_refs_l]; cbv zeta; rewrite rinc_same, H0 by lia; cbn [Nat.eqb]; rewrite HE by lia;
    cbn [throw_none lbind vfunc f_expr vexpr].
  - exists (rinc rc 0). split; [reflexivity|]. split; [|intros c Hc; apply rinc_other; lia]. intros c Hc. assert (c = 0%nat) by lia. subst c. rewrite rinc_same, H0 by lia. reflexivity.
  - replace (Nat.eqb b n) with false by (symmetry; apply Nat.eqb_neq; lia). destruct (IH [EBin BMul (vi (S b)) (EConst 1)] (S L) (rinc rc (S b))) as (rc' & H1 & H2 & H3); [lia|lia|intros c Hc; rewrite rinc_other by lia; apply H0; lia|].
    exists rc'. split; [exact H1|]. split.
    + intros c Hc. destruct (Nat.eq_dec c (S b)) as [->|Hne]; [|apply H2; lia]. rewrite H3 by lia. rewrite rinc_same, H0 by lia. reflexivity.
    + intros c Hc. rewrite H3 by lia. apply rinc_other. lia.
Qed.
Fixpoint wrap (k : nat) (x : expr) : expr := match k with O => x | S j => EBin BMul (wrap j x) (EConst 1) end.
Lemma wrap_in k x : wrap k (EBin BMul x (EConst 1)) = wrap (S k) x.
Proof. induction k as [|k IH]; [reflexivity|]. cbn [wrap]. now rewrite IH. Qed.
Context (rc : refs) (Hrc : forall c, (c <= n)%nat -> rc c = 1%nat).
Lemma fuse_l_func k f idx E0 : try_fuse_l (S k) rc (EFunc f idx) E0 = lbind (Some (throw_none InternalErr (E0 f))) (fun fd => lbind (has_reduce_l k (f_expr fd)) (fun hr =>
  if Nat.eqb (rc f) 0 then Some (Throw KeyErr)
  else if negb (is_buf (f_expr fd) || (negb hr && Nat.eqb (rc f) 1)) then lbind (try_fuse_l k rc (f_expr fd) E0) (fun '(e', E1) => Some (Done (EFunc f idx, fset E1 f (set_expr fd e'))))
  else lbind (replace_index_l k (combine (f_loops fd) idx) (f_expr fd)) (fun fused => try_fuse_l k rc fused E0))).
Proof. reflexivity. Qed.
Lemma vfuse : forall b L x, (b <= n)%nat -> (b + 4 <= L)%nat -> try_fuse_l L rc (EFunc b [x]) E = Some (Done (EBuf 0 [wrap b x], E)).
Proof.
  induction b as [|b IH]; intros L x Hb HL; destruct L as [|[|[|[|L]]]]; try lia; rewrite fuse_l_func, HE by lia; cbn [throw_none lbind vfunc f_expr vexpr f_loops]; rewrite Hrc by lia.
  - cbn [has_reduce_l lbind Nat.eqb is_buf orb negb andb combine replace_index_l map_lim ilookup vi lidx_eqb]. unfold lidx_eqb. cbn. reflexivity.
  - replace (Nat.eqb b n) with false by (symmetry; apply Nat.eqb_neq; lia). cbn [has_reduce_l lbind Nat.eqb is_buf orb negb andb combine].
    assert (HR : forall k, replace_index_l (S (S (S k))) [(mkL (S b) false 0 2, x)] (EFunc b [EBin BMul (vi (S b)) (EConst 1)]) = Some (Done (EFunc b [EBin BMul x (EConst 1)]))).
    { intros k. cbn. unfold lidx_eqb. cbn. rewrite Nat.eqb_refl. reflexivity. }
    rewrite HR. cbn [lbind]. rewrite IH by lia. now rewrite wrap_in.
Qed.
End Chains.
Lemma wrap_key g E k : forall L l, (k + 1 <= L)%nat -> exists ky, expr_key_l g E L (wrap k (EIdx l)) [0%nat] = Some (Done (ky, [0%nat])).
Proof.
  induction k as [|k IH]; intros L l HL; (destruct L as [|L]; [lia|]); cbn [wrap expr_key_l]; [eauto|]. destruct (IH L l) as (ky & ->); [lia|]. cbn [lbind].
  destruct L as [|L]; [lia|]. cbn [expr_key_l lbind]. eauto.
Qed.
Lemma wrap_frames k l : frames (wrap k (EIdx l)) = (2 * k + 1)%nat.
Proof. induction k as [|k IH]; cbn [wrap frames]; [reflexivity|]. rewrite IH. lia. Qed.
Lemma chains_convert n : exists E fd, convert_l (n + 5) (vgraph n) (S n) = Some (Done (E, [S n])) /\ E (S n) = Some fd /\
  f_expr fd = EUn UNeg (EBuf 0 [wrap n (vi (S n))]).
Proof.
  assert (Hv : valid (vgraph n) (S n)) by (unfold valid; rewrite vgraph_len; lia).
  destruct (compilation_total Python _ _ (vgraph_reach n) Hv (vgraph_ns n (S n))) as (E2 & fs & HC & _).
  destruct (arr_to_func_ok _ any_lang_ok (vgraph n) (reach_wf _ (vgraph_reach n)) (S n) (vgraph_ns n (S n)) (S (length (vgraph n))) (S n) (fun _ => None)) as (E & HA & HE & _ & Ha & _); [unfold valid in Hv; lia|exact Hv|constructor|intros k fd Hk; discriminate|].
  assert (HK : forall k, (k <= S n)%nat -> E k = Some (vfunc n k)).
  { intros k Hk. assert (HkE : E k <> None) by (eapply CE_cone; eauto; apply vgraph_cone; lia). destruct (E k) as [fk|] eqn:Ek; [|congruence]. destruct (HE k fk Ek) as (_ & HC' & _). f_equal. now apply (vconv n). }
  unfold convert_l. rewrite (arr_enough _ (reach_wf _ (vgraph_reach n)) (S (length (vgraph n)))); [|unfold valid in Hv; lia|intros m Hm; apply vgraph_chain in Hm; lia].
  rewrite HA. cbn [lbind]. rewrite HK by lia. cbn [throw_none lbind vfunc f_expr vexpr]. rewrite Nat.eqb_refl.
  destruct (vcount n E HK n [vi (S n)] (n + 4) (fun _ => 0%nat)) as (rc & H1 & H2 & H3); [lia|lia|auto|].
  replace (n + 5)%nat with (S (n + 4)) by lia. cbn [count_refs_l]. rewrite H1. cbn [lbind try_fuse_l]. rewrite (vfuse n E HK rc H2 n (n + 4)) by lia. cbn [lbind].
  eexists _, _. split; [|split].
  - replace (n + 4)%nat with (S (S (S (n + 1)))) by lia. cbn [order_l nmem existsb]. unfold fset at 1. rewrite Nat.eqb_refl. cbn [throw_none lbind set_expr f_expr func_refs_l dedup fold_lim app]. reflexivity.
  - unfold fset. rewrite Nat.eqb_refl. reflexivity.
  - reflexivity.
Qed.

(* The claim is false of Python's generator.  Any chain of n reshapes and a negation goes through conversion and func_cache_key() with
   n + 5 frames; without a limit its text is a kernel; but with fewer than 2 n + 5 frames codegen() raises RecursionError - and then no text
   the generator returns, whatever is asked of it, is a Python program. *)
Theorem C54_python_generator_refuted : forall n key, all_chars hex_digit key = true -> exists g E fd sc ky t,
  let q := mkReq g E (kernel_name key) (func_args (f_expr fd)) fd sc in
  run_prog [] (chains n) = Some g /\ reach g /\ valid g (S n) /\ length (chains n) = (n + 2)%nat /\
  convert_l (n + 5) g (S n) = Some (Done (E, [S n])) /\ E (S n) = Some fd /\ expr_key_l g E (n + 5) (f_expr fd) [] = Some (Done ky) /\
  auto_schedule false fd = Done sc /\ snd (answer Python q new_generator) = Done t /\
  forall L qs rs o xs, (L < 2 * n + 5)%nat -> Forall (fun p => named (snd p)) qs -> Forall (fun p => named (snd p)) rs ->
    session_l Python (qs ++ (L, q) :: rs) new_generator = (o, xs) ->
    nth_error xs (length qs) = Some None /\ forall i text, (length qs < i)%nat -> nth_error xs i = Some (Some (Done text)) -> forall p, ~ reads Python text p.
Proof.
  intros n key Hkey. destruct (chains_convert n) as (E & fd & HC & Hfd & He).
  assert (Hv : valid (vgraph n) (S n)) by (unfold valid; rewrite vgraph_len; lia).
  pose proof (convert_agree _ _ _ _ (vgraph_reach n) Hv HC) as HC2. symmetry in HC2.
  destruct (compilation_total Python _ _ (vgraph_reach n) Hv (vgraph_ns n (S n))) as (E2 & fs & HC3 & HG).
  rewrite HC2 in HC3. injection HC3 as <- <-. destruct (HG (S n) (or_introl eq_refl)) as (fd2 & Hfd2 & HT). assert (fd2 = fd) by congruence. subst fd2.
  assert (HK : exists ky, expr_key_l (vgraph n) E (n + 5) (f_expr fd) [] = Some (Done ky)).
  { rewrite He. replace (n + 5)%nat with (S (S (S (n + 2)))) by lia. destruct (wrap_key (vgraph n) E n (n + 2) (mkL (S n) false 0 2)) as (ky & Hw); [lia|]. cbn [expr_key_l]. unfold vgraph, vviews, get. cbn [app nth_error throw_none lbind nadd npos keys_l Nat.eqb existsb].
    fold (vviews n). fold (vgraph n). unfold keys_l, nadd, nmem. cbn [existsb app]. unfold vgraph, vviews, vi in *. cbn [app] in *. rewrite Hw. cbn [lbind npos]. eexists. cbn. reflexivity. }
  destruct HK as (ky & HK).
  set (sc := match auto_schedule false fd with Done sc => sc | Throw _ => sched_init fd end).
  assert (Hsc : forall k, exists text k1, auto_schedule false fd = Done sc /\ t_codegen Python (vgraph n) E (kernel_name key) (func_args (f_expr fd)) fd sc k = Done (text, k1)).
  { intros k. destruct (HT k) as (s0 & kern & k1 & Hgen). destruct (C40_text_exists Python _ _ E [S n] (S n) fd k key (vgraph_reach n) Hv HC2 (or_introl eq_refl) Hfd _ _ _ Hgen) as (text & Htext).
    unfold gen in Hgen. apply obind_Done in Hgen as (s' & H1 & Hgen). destruct (forallb _ _); [|discriminate]. apply obind_Done in Hgen as ([? ?] & _ & Hgen). injection Hgen as <- _ _.
    exists text, k1. change (is_gpu Python) with false in H1. unfold sc. rewrite H1. split; [reflexivity|exact Htext]. }
  destruct (Hsc 0%nat) as (_ & _ & HS & _).
  assert (HA : forall d o, ob_ind o = Z.of_nat d -> exists o' t, answer Python (mkReq (vgraph n) E (kernel_name key) (func_args (f_expr fd)) fd sc) o = (o', Done t)).
  { intros d o Hd. pose proof (codegen_sim Python (vgraph n) E (kernel_name key) (func_args (f_expr fd)) fd sc d o Hd) as HX. destruct (Hsc (ob_tmp o)) as (text & k1 & _ & Htext). rewrite Htext in HX.
    destruct HX as (o' & t' & HX & _). exists o', t'. exact HX. }
  destruct (HA 0%nat new_generator eq_refl) as (o0 & t & Ht). exists (vgraph n), E, fd, sc, ky, t. cbv zeta. split; [apply chains_run|]. split; [apply vgraph_reach|]. split; [exact Hv|].
  split; [unfold chains; cbn [length]; rewrite app_length, map_length, seq_length; cbn; lia|]. split; [exact HC|]. split; [exact Hfd|]. split; [exact HK|]. split; [exact HS|]. split; [now rewrite Ht|].
  intros L qs rs o xs HL HQ HR. apply python_ruined; auto; [exists key; split; [exact Hkey|reflexivity]|].
  intros o1 d Hd. destruct (HA d o1 Hd) as (o2 & t2 & Ht2). apply (C54_codegen_limit_only_raises Python _ L o1) in Ht2; [exact Ht2|].
  cbn [q_func]. rewrite He. cbn [frames map list_max fold_right]. unfold vi. rewrite wrap_frames. lia.
Qed.
Print Assumptions C54_python_generator_refuted.
(* concrete: an ordinary kernel; ten reshapes and a negation with 20 frames left (conversion and key go through, 25 are needed); the ordinary kernel again *)
Definition ex_deep : option request :=
  match convert_l 20 (vgraph 10) 11 with
  | Some (Done (E, _)) => match E 11%nat with
    | Some fd => match expr_key_l (vgraph 10) E 20 (f_expr fd) [], auto_schedule false fd with
      | Some (Done _), Done s => Some (mkReq (vgraph 10) E (kernel_name "0a1b") (func_args (f_expr fd)) fd s)
      | _, _ => None end
    | None => None end
  | _ => None end.
Definition ex_exhausted (b : backend) (L : nat) : option (list (lim string)) :=
  match ex_good, ex_deep with Some q, Some q' => Some (snd (session_l b [(20%nat, q); (L, q'); (20%nat, q)] new_generator)) | _, _ => None end.
Definition first_line (x : lim string) : string := match x with Some (Done t) => substring 0 14 t | Some (Throw _) => "exception" | None => "RecursionError" end.
Example C54_nonvacuous_generator :
  option_map (map first_line) (ex_exhausted Python 24) = Some ["import math" +++ nl +++ "de"; "RecursionError"; "        import"] /\
  option_map (map first_line) (ex_exhausted Python 25) = Some ["import math" +++ nl +++ "de"; "import math" +++ nl +++ "de"; "import math" +++ nl +++ "de"] /\
  option_map (map first_line) (ex_exhausted Clang 24) = Some ["#include <stdi"; "RecursionError"; "        #inclu"].
Proof. vm_compute. auto. Qed.
