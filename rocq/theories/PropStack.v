(* C54: expressions of any depth. *)
From Verif Require Import Base BaseFacts Util UtilFacts Lang Spec SpecFacts Graph Api Denote DenoteFacts Reach ApiFacts LangInst Prog Algo AlgoSem AlgoConvert AlgoTop AlgoMore Backends Runtime Stack StackFacts Cost.
From Verif Require Backward BackOrder.
Local Open Scope Z_scope.

(* With L frames left, conversion to kernels either raises RecursionError (None) or gives exactly what it gives without a
   limit; and every array has a limit that suffices.  The first pass is safe as soon as every chain of inputs fits. *)
Theorem C54_limit_only_raises : forall g a, reach g -> valid g a ->
  (forall L r, convert_l L g a = Some r -> r = convert g a) /\
  (exists L0, forall L, (L0 <= L)%nat -> convert_l L g a = Some (convert g a)) /\
  (forall L, (forall n, chain g a n -> (n <= L)%nat) -> arr_to_func_l L g a (fun _ => None) = Some (arr_to_func (S (length g)) g a (fun _ => None))).
Proof.
  intros g a Hr Ha. split; [|split].
  - intros L r. now apply convert_agree.
  - exact (convert_ev g a Hr Ha).
  - intros L HL. apply arr_enough; [now apply reach_wf|unfold valid in Ha; lia|exact HL].
Qed.
Print Assumptions C54_limit_only_raises.

Lemma mat_fuel B (s : rt B) : wf_graph (r_graph B s) -> forall k m a, (a < k)%nat -> (a < m)%nat -> mat B k s a = mat B m s a.
Proof.
  intros Hw. induction k as [|k IH]; intros [|m] a Hk Hm; try lia. cbn [mat]. destruct (nth_error (r_graph B s) a) as [nd|] eqn:Hn; [|reflexivity].
  destruct (is_const (n_op nd)); [reflexivity|]. destruct (is_view (n_op nd)); [|reflexivity]. destruct (n_in nd) as [|b l] eqn:Ei; [reflexivity|].
  pose proof (wf_inputs_lt _ a nd Hw Hn) as HI. rewrite Ei in HI. inversion HI; subst. apply IH; lia.
Qed.
(* materialize() with L frames: RecursionError leaves the process as it was; any other outcome is that of materialize()
   without a limit; a large enough limit gives that outcome. *)
Theorem C54_materialize : forall B (s : rt B) a, reach (r_graph B s) -> valid (r_graph B s) a ->
  (forall L s', mat_l B L s a = (s', None) -> s' = s) /\
  (forall L s' r, mat_l B L s a = (s', Some r) -> materialize B s a = (s', r)) /\
  (exists L0, forall L, (L0 <= L)%nat -> mat_l B L s a = (fst (materialize B s a), Some (snd (materialize B s a)))).
Proof.
  intros B s a Hr Ha. pose proof (reach_wf _ Hr) as Hw.
  assert (H1 : forall L a s', mat_l B L s a = (s', None) -> s' = s).
  { clear a Ha. induction L as [|k IH]; intros a s' H; cbn [mat_l] in H; [now injection H as <-|].
    destruct (nth_error (r_graph B s) a) as [nd|]; [|discriminate]. destruct (is_const (n_op nd)); [discriminate|].
    destruct (is_view (n_op nd)); [destruct (n_in nd); [discriminate|eauto]|].
    destruct (convert_l k (r_graph B s) a) as [[[E fs]|e]|]; [|discriminate|now injection H as <-].
    destruct (mapOut (schedule_one B E) fs); [|discriminate]. destruct (run_funcs B E a0 s); discriminate. }
  assert (H2 : forall L a, valid (r_graph B s) a -> forall s' r, mat_l B L s a = (s', Some r) -> mat B (S a) s a = (s', r)).
  { clear a Ha. induction L as [|k IH]; intros a Ha s' r H; cbn [mat_l] in H; [discriminate|]. cbn [mat].
    destruct (nth_error (r_graph B s) a) as [nd|] eqn:Hn; [|now injection H as <- <-]. destruct (is_const (n_op nd)); [now injection H as <- <-|].
    destruct (is_view (n_op nd)).
    - destruct (n_in nd) as [|b l] eqn:Ei; [now injection H as <- <-|]. pose proof (wf_inputs_lt _ a nd Hw Hn) as HI. rewrite Ei in HI. inversion HI; subst.
      unfold valid in *. rewrite (mat_fuel B s Hw a (S b)) by lia. apply IH; [unfold valid; lia|exact H].
    - unfold compute. destruct (convert_l k (r_graph B s) a) as [cv|] eqn:EC; [|discriminate]. rewrite <- (convert_agree _ _ _ _ Hr Ha EC).
      destruct cv as [[E fs]|e]; [|now injection H as <- <-]. destruct (mapOut (schedule_one B E) fs); [|now injection H as <- <-].
      destruct (run_funcs B E a0 s) as [s1 r1]. now injection H as <- <-. }
  assert (HM : materialize B s a = mat B (S a) s a) by (unfold materialize, valid in *; apply mat_fuel; auto; lia).
  split; [intros; eapply H1; eauto|]. split.
  - intros L s' r H. rewrite HM. eapply H2; eauto.
  - rewrite HM. clear H1 H2 HM. assert (HG : forall n a, (a < n)%nat -> valid (r_graph B s) a -> exists L0, forall L, (L0 <= L)%nat -> mat_l B L s a = (fst (mat B (S a) s a), Some (snd (mat B (S a) s a)))).
    { clear a Ha. induction n as [|n IH]; intros a Hn Ha; [lia|]. cbn [mat]. destruct (nth_error (r_graph B s) a) as [nd|] eqn:Hnd; [|unfold valid in Ha; apply nth_error_None in Hnd; lia].
      destruct (is_const (n_op nd)) eqn:Ec; [exists 1%nat; intros [|L] HL; [lia|]; cbn [mat_l]; now rewrite Hnd, Ec|].
      destruct (is_view (n_op nd)) eqn:Ev.
      - destruct (n_in nd) as [|b l] eqn:Ei; [exists 1%nat; intros [|L] HL; [lia|]; cbn [mat_l]; now rewrite Hnd, Ec, Ev, Ei|].
        pose proof (wf_inputs_lt _ a nd Hw Hnd) as HI. rewrite Ei in HI. inversion HI; subst. destruct (IH b) as (L0 & HL0); [lia|unfold valid in *; lia|].
        exists (S L0). intros [|L] HL; [lia|]. cbn [mat_l]. rewrite Hnd, Ec, Ev, Ei, HL0 by lia. now rewrite (mat_fuel B s Hw a (S b)) by lia.
      - destruct (convert_ev _ a Hr Ha) as (L0 & HL0). exists (S L0). intros [|L] HL; [lia|]. cbn [mat_l]. rewrite Hnd, Ec, Ev, HL0 by lia. unfold compute.
        destruct (convert (r_graph B s) a) as [[E fs]|e]; [|reflexivity]. destruct (mapOut (schedule_one B E) fs); [|reflexivity]. now destruct (run_funcs B E a0 s). }
    exact (HG (S a) a ltac:(lia) Ha).
Qed.
Print Assumptions C54_materialize.

(* backward() searches first: with room for every chain of inputs it is backward() without a limit; a RecursionError leaves
   nothing behind but the seed y.grad (and the array of ones) *)
Theorem C54_backward : forall g gs y L, reach g -> valid g y ->
  (forall g' gs', backward_l L g gs y = (g', gs', None) -> (exists more, g' = g ++ more) /\ forall x, x <> y -> gs' x = gs x) /\
  (forall g' gs', backward_l L g gs y = (g', gs', Some (Done tt)) -> Backward.backward g gs y = Done (g', gs')) /\
  ((forall n, chain g y n -> (n <= L)%nat) -> snd (backward_l L g gs y) <> None).
Proof.
  intros g gs y L Hr Hv.
  assert (HS : exists more gs1, (match gs y with Some _ => Done (g, gs) | None => '(g1, o) <~ api_ones_like g y ;; Done (g1, Backward.set_grad gs y o) end) = Done (g ++ more, gs1) /\
     wf_graph (g ++ more) /\ forall x, x <> y -> gs1 x = gs x).
  { destruct (gs y) as [o|] eqn:Eg; [exists [], gs; rewrite app_nil_r; split; [reflexivity|]; split; [now apply reach_wf|auto]|].
    assert (HC : reach (fst (match api_ones_like g y with Done x => x | Throw _ => (g, 0%nat) end))).
    { destruct (api_ones_like g y) as [[g1 r1]|e] eqn:Eo; [|exact Hr]. cbn. eapply (reach_call g (COnesLike y)); [exact Hr|exact Hv|exact Eo]. }
    unfold api_ones_like, api_full_like, get in *. pose proof Hv as Hv'. unfold valid in Hv'. destruct (nth_error g y) as [nd|] eqn:Hn; [|apply nth_error_None in Hn; lia].
    cbn [obind] in *. unfold api_full, api_const in *. cbn [fst] in HC. eexists _, _. split; [reflexivity|]. split; [now apply reach_wf|].
    intros x Hx. unfold Backward.set_grad. destruct (Nat.eqb_spec x y); [contradiction|reflexivity]. }
  destruct HS as (more & gs1 & HE & Hw1 & Hgs). unfold backward_l. rewrite HE.
  destruct (dfs_l L (g ++ more) y ([], [])) as [d|] eqn:Ed.
  - split; [|split].
    + intros g' gs' H. destruct (Backward.backward g gs y) as [[g2 gs2]|e]; discriminate.
    + intros g' gs' H. destruct (Backward.backward g gs y) as [[g2 gs2]|e]; [now injection H as <- <-|discriminate].
    + intros _. destruct (Backward.backward g gs y) as [[g2 gs2]|e]; discriminate.
  - split; [|split].
    + intros g' gs' H. injection H as <- <-. eauto.
    + discriminate.
    + intros HL. exfalso. rewrite (dfs_enough _ Hw1 (S y)) in Ed; [discriminate|lia|]. intros n Hc. apply HL. clear - Hc Hr Hv. unfold valid in Hv. revert Hv.
      induction Hc as [|a nd i n Hn Hi Hc IH]; intros Hv; [constructor|]. rewrite nth_error_app1 in Hn by assumption.
      pose proof (wf_inputs_lt g a nd (reach_wf g Hr) Hn) as HI. rewrite Forall_forall in HI. specialize (HI i Hi). eapply chain_more; eauto. apply IH. lia.
Qed.
Print Assumptions C54_backward.

(* The claim itself is false: whatever the limit, there is a program of that many calls, all valid, whose result could be
   converted without a limit, but materialize() and backward() raise RecursionError. *)
Definition towers (n : nat) : list call := CArange 2 :: map (CUnary UNeg) (seq 0 n).
Definition tnode (k : nat) : node := new_node Int64 [2] [1] 0 (OUn UNeg) [k].
Definition tgraph (n : nat) : graph := dn0 :: map tnode (seq 0 n).
Lemma tgraph_len n : length (tgraph n) = S n.
Proof. cbn. now rewrite map_length, seq_length. Qed.
Lemma tgraph_S n : tgraph (S n) = tgraph n ++ [tnode n].
Proof. unfold tgraph. rewrite seq_S, map_app. reflexivity. Qed.
Lemma tgraph_nth n k : (k < n)%nat -> nth_error (tgraph n) (S k) = Some (tnode k).
Proof. intros H. cbn. rewrite nth_error_map. rewrite (nth_error_nth' _ 0%nat) by (rewrite seq_length; lia). rewrite seq_nth by lia. reflexivity. Qed.
Lemma tower_run n : run_prog [] (towers n) = Some (tgraph n).
Proof.
  induction n as [|n IH]; [reflexivity|]. unfold towers in *. rewrite seq_S, map_app, app_comm_cons, run_prog_app, IH.
  assert (exists nd, nth_error (tgraph n) n = Some nd /\ n_shape nd = [2] /\ n_dtype nd = Int64) as (nd & Hnd & Hs & Hd).
  { destruct n; [eexists; split; [reflexivity|auto]|]. exists (tnode n). split; [apply tgraph_nth; lia|auto]. }
  cbn [map run_prog call_okb Nat.add]. unfold validb. replace (Nat.ltb n (length (tgraph n))) with true by (symmetry; apply Nat.ltb_lt; rewrite tgraph_len; lia).
  cbn [run_call]. unfold api_unary, forward, get. rewrite Hnd. cbn [obind forward_node]. unfold fwd_elemwise. rewrite Hs, Hd, tgraph_S. reflexivity.
Qed.
Lemma tgraph_tower n : forall k, (k <= n)%nat -> tower (tgraph n) k (S k).
Proof. induction k as [|k IH]; intros Hk; [constructor|]. eapply tower_more; [apply tgraph_nth; lia|reflexivity|apply IH; lia]. Qed.

Theorem C54_depth_refuted : forall L, exists g, let n := S L in
  run_prog [] (towers n) = Some g /\ reach g /\ valid g n /\ (exists E fs, convert g n = Done (E, fs)) /\
  (forall B (s : rt B), r_graph B s = g -> mat_l B L s n = (s, None)) /\
  (exists g' gs', backward_l L g Backward.no_grads n = (g', gs', None)).
Proof.
  intros L. exists (tgraph (S L)). cbv zeta. assert (Hr : reach (tgraph (S L))) by (eapply run_prog_reach; [constructor|apply tower_run]).
  assert (Hv : valid (tgraph (S L)) (S L)) by (unfold valid; rewrite tgraph_len; lia).
  assert (Hns : no_scalar_reshape (tgraph (S L)) (S L)).
  { intros k nd _ H. destruct k as [|j]; [cbn in H; injection H as <-; discriminate|]. assert (Hj : (j < S L)%nat).
    { assert (HL : nth_error (tgraph (S L)) (S j) <> None) by congruence. apply nth_error_Some in HL. rewrite tgraph_len in HL. lia. }
    rewrite tgraph_nth in H by assumption. injection H as <-. discriminate. }
  split; [apply tower_run|]. split; [exact Hr|]. split; [exact Hv|]. split.
  { destruct (compilation_total Python _ _ Hr Hv Hns) as (E & fs & HC & _). eauto. }
  split.
  - intros B s Hs. destruct L as [|k]; [reflexivity|]. cbn [mat_l]. rewrite Hs, (tgraph_nth (S (S k)) (S k)) by lia. cbn [tnode new_node n_op is_const is_view].
    unfold convert_l. rewrite (arr_tower _ _ _ (tgraph_tower (S (S k)) (S (S k)) (le_n _))) by lia. reflexivity.
  - unfold backward_l. cbn [Backward.no_grads].
    assert (Ho : api_ones_like (tgraph (S L)) (S L) = Done (tgraph (S L) ++ [const_node [2] [NInt 1; NInt 1]], length (tgraph (S L)))).
    { unfold api_ones_like, api_full_like, get. rewrite (tgraph_nth (S L) L) by lia. reflexivity. }
    rewrite Ho. cbn [obind].
    rewrite (dfs_tower _ (S L) (S (S L))); [eauto| | |lia|intros s []].
    + apply reach_wf. exact (reach_call _ (COnesLike (S L)) _ _ Hr Hv Ho).
    + assert (HT : forall k, (k <= S L)%nat -> tower (tgraph (S L) ++ [const_node [2] [NInt 1; NInt 1]]) k (S k)).
      { induction k as [|k IH]; intros Hk; [constructor|]. apply (tower_more _ _ (tnode k) k); [|reflexivity|apply IH; lia]. rewrite nth_error_app1 by (rewrite tgraph_len; lia). apply tgraph_nth. lia. }
      apply HT. lia.
Qed.
Print Assumptions C54_depth_refuted.
(* with room, the same program goes through *)
Example C54_nonvacuous : let g := tgraph 3 in reach g /\ valid g 3 /\ chain g 3 4 /\ convert_l 3 g 3 = None /\
  (exists r, convert_l 20 g 3 = Some (Done r)) /\ snd (backward_l 3 g Backward.no_grads 3) = None /\ snd (backward_l 4 g Backward.no_grads 3) = Some (Done tt).
Proof.
  cbv zeta. split; [eapply run_prog_reach; [constructor|apply tower_run]|]. split; [unfold valid; rewrite tgraph_len; lia|].
  split. { eapply chain_more; [reflexivity|left; reflexivity|]. eapply chain_more; [reflexivity|left; reflexivity|]. eapply chain_more; [reflexivity|left; reflexivity|]. constructor. }
  split; [reflexivity|]. split; [|split; vm_compute; reflexivity].
  eexists. unfold convert_l. cbn. reflexivity.
Qed.
