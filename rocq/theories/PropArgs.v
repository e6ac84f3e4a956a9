(* Property C51: invalid arguments are rejected when the call is made.
   Reference: the documentation-level rules of each call; [raises] lists, per call, which exception it can raise and when. *)
From Verif Require Import Base BaseFacts Util Lang Spec Graph Api Denote DenoteFacts ArrayLit ArrayFacts Reach ApiFacts Tolist FrontSpec FrontFacts FrontFacts2 FrontFacts4 Kernel LangInst Prog Runtime RuntimeFacts RtInst
  HistTools Copy RuntimeTop PropRuntime PropLang PropPad.

(* the exceptions of each call, for any arguments whatever (operands are existing arrays) *)
Definition raises (g : graph) (c : call) (e : exn) : Prop :=
  match c with
  | CArray v => e = ValueErr /\ ~ rectangular v
  | CSum a ax _ => e = ZeroDivErr /\ shape_of g a = [] /\ ax <> None /\ ax <> Some []
  | CBinary _ l r => e = RuntimeErr /\ np_broadcast (shape_of g l) (shape_of g r) = None
  | CGetitem a subs => e = RuntimeErr /\ ~ subs_legal subs (shape_of g a)
  | CReshape a s => e = RuntimeErr /\ zprod s <> zprod (shape_of g a)
  | CTranspose a axes => e = RuntimeErr /\ ~ Permutation axes (zrange (Z.of_nat (length (shape_of g a))))
  | CPad a d _ _ | CDilate a d _ => let n := Z.of_nat (length (shape_of g a)) in e = RuntimeErr /\ n <= d \/ e = IndexErr /\ d < - n
  | CArange _ | CFull _ _ | CFullLike _ _ | COnesLike _ | CZerosLike _ | CUnary _ _ | CBinaryScalar _ _ _ | CBroadcastTo _ _ | CT _ | CContiguous _ => False
  end.

Lemma array_dfs_throws v : forall dim fl sh e, (dim <= length sh)%nat -> array_dfs v dim fl sh = Throw e -> e = ValueErr.
Proof.
  induction v as [x|l IH] using nest_ind'; intros dim fl sh e Hd H; [discriminate|].
  rewrite array_dfs_nest in H. unfold array_len in H. destruct (Nat.eqb_spec (length sh) dim) as [E|E].
  - cbn [obind] in H. assert (Hs : (S dim <= length (sh ++ [Z.of_nat (length l)]))%nat) by (rewrite app_length; cbn; lia).
    revert H Hs. generalize (sh ++ [Z.of_nat (length l)]). revert fl. clear sh Hd E.
    induction l as [|v l IHl]; intros fl sh H Hs; [discriminate|]. cbn in H.
    destruct (array_dfs v (S dim) fl sh) as [[fl1 sh1]|e1] eqn:E; cbn in H; [|injection H as <-; eapply (IH v); [now left|exact Hs|exact E]].
    destruct (array_dfs_fits _ _ _ _ _ _ E) as (_ & ext & ->). apply (IHl (fun w Hw => IH w (or_intror Hw)) fl1 (sh ++ ext)); [exact H|rewrite app_length; lia].
  - destruct (nth_error sh dim) as [x|] eqn:En; [|apply nth_error_None in En; lia].
    destruct (_ =? x); cbn [obind] in H; [|congruence]. assert (Hs : (S dim <= length sh)%nat) by lia.
    clear Hd E En. revert fl sh H Hs. induction l as [|v l IHl]; intros fl sh H Hs; [discriminate|]. cbn in H.
    destruct (array_dfs v (S dim) fl sh) as [[fl1 sh1]|e1] eqn:E; cbn in H; [|injection H as <-; eapply (IH v); [now left|exact Hs|exact E]].
    destruct (array_dfs_fits _ _ _ _ _ _ E) as (_ & ext & ->). apply (IHl (fun w Hw => IH w (or_intror Hw)) fl1 (sh ++ ext)); [exact H|rewrite app_length; lia].
Qed.
Lemma unary_done g op a nd : nth_error g a = Some nd -> (exists x, forward_node op [a] nd = Done x) -> forall e, forward g op [a] = Throw e -> False.
Proof. intros Hn (x & Hx) e H. unfold forward, get in H. rewrite Hn in H. cbn [obind] in H. rewrite Hx in H. discriminate. Qed.

(* Every exception any call can raise, and when.  In particular no call fails in any other way. *)
Theorem C51_exceptions : forall g c e, reach g -> (forall a, In a (call_args c) -> valid g a) -> run_call g c = Throw e -> raises g c e.
Proof.
  intros g c e Hr Ha H. assert (HN : forall a, In a (call_args c) -> exists nd, nth_error g a = Some nd) by (intros a Hin; apply valid_nth; auto).
  destruct c; cbn [run_call raises call_args] in *.
  - unfold api_array in H. destruct (array_dfs v 0 [] []) as [[fl sh]|e1] eqn:E; cbn in H; [discriminate|]. injection H as <-. split; [eapply array_dfs_throws; [|exact E]; cbn; lia|].
    intros Hrect. destruct (array_accepts g v Hrect) as (g' & r & HD). unfold api_array in HD. rewrite E in HD. discriminate.
  - unfold api_arange in H. destruct (array_accepts g (Nest (map (fun i => Leaf (NInt i)) (zrange stop)))) as (g' & r & HD); [|rewrite HD in H; discriminate].
    eexists. constructor; [reflexivity|]. intros v Hv. apply in_map_iff in Hv as (z & <- & _). constructor.
  - discriminate.
  - destruct (HN _ (or_introl eq_refl)) as (nd & Hn). unfold api_full_like, get in H. rewrite Hn in H. discriminate.
  - destruct (HN _ (or_introl eq_refl)) as (nd & Hn). unfold api_ones_like, api_full_like, get in H. rewrite Hn in H. cbn [obind] in H. discriminate.
  - destruct (HN _ (or_introl eq_refl)) as (nd & Hn). unfold api_zeros_like, api_full_like, get in H. rewrite Hn in H. discriminate.
  - destruct (HN _ (or_introl eq_refl)) as (nd & Hn). apply (unary_done _ _ _ _ Hn) in H; [exact H|eexists; reflexivity].
  - destruct (binary_accepts g b l r Hr (Ha _ (or_introl eq_refl)) (Ha _ (or_intror (or_introl eq_refl)))) as [[_ HA] HE]. split; [now apply HE|].
    destruct (np_broadcast (shape_of g l) (shape_of g r)) eqn:E; [|reflexivity]. destruct HA as (g' & x & HD); [discriminate|]. congruence.
  - unfold api_binary_scalar in H. destruct (api_array g (Leaf v)) as [[g1 r]|] eqn:E; [|discriminate]. cbn [obind] in H.
    assert (HR1 : reach g1) by (eapply (reach_call g (CArray (Leaf v))); [exact Hr|exists []; constructor|exact E]).
    destruct (run_call_appends g (CArray (Leaf v)) g1 r E) as (h & -> & Hrl).
    assert (Hl : valid (g ++ h) l) by (unfold valid; rewrite app_length; specialize (Ha l (or_introl eq_refl)); unfold valid in Ha; lia).
    destruct (binary_accepts (g ++ h) b l r HR1 Hl Hrl) as [[_ HA] _]. destruct HA as (g' & x & HD); [|congruence].
    unfold api_array, api_const in E. cbn in E. injection E as <- <-. assert (Es : shape_of (g ++ [const_node [] [v]]) (length g) = []). { unfold shape_of. now rewrite nth_error_app2, Nat.sub_diag by lia. }
    rewrite Es. clear. unfold np_broadcast. cbn [rev]. destruct (rev (shape_of (g ++ [const_node [] [v]]) l)); discriminate.
  - destruct (HN _ (or_introl eq_refl)) as (nd & Hn). unfold api_sum, get in H. rewrite Hn in H. cbn [obind] in H. unfold shape_of. rewrite Hn.
    unfold norm_axis in H. destruct (n_shape nd) as [|d s] eqn:Es.
    + destruct axis as [[|x ax]|]; cbn in H.
      * unfold forward, get in H. rewrite Hn in H. discriminate.
      * injection H as <-. split; [reflexivity|]. split; [reflexivity|]. split; discriminate.
      * unfold forward, get in H. rewrite Hn in H. discriminate.
    + exfalso. destruct (Z.eqb_spec (Z.of_nat (length (d :: s))) 0) as [E0|E0]; [cbn [length] in E0; lia|].
      assert (HF : forall l, forward g (OSum l keepdims) [a] = Throw e -> False) by (intros l; unfold forward, get; rewrite Hn; discriminate).
      destruct (match axis with Some [] => zrange (Z.of_nat (length (d :: s))) | Some l => l | None => zrange (Z.of_nat (length (d :: s))) end); cbn [obind] in H; exact (HF _ H).
  - destruct (getitem_accepts unit_valg g a subs Hr (Ha _ (or_introl eq_refl))) as [[_ HA] HE]. split; [now apply HE|]. intros HL. destruct (HA HL) as (g' & r & HD). congruence.
  - destruct (HN _ (or_introl eq_refl)) as (nd & Hn). apply (unary_done _ _ _ _ Hn) in H; [exact H|eexists; reflexivity].
  - destruct (reshape_accepts g a shape (Ha _ (or_introl eq_refl))) as [[_ HA] HE]. split; [now apply HE|]. intros HL. destruct (HA HL) as (g' & r & HD). congruence.
  - destruct (transpose_accepts g a axes (Ha _ (or_introl eq_refl))) as [[_ HA] HE]. split; [now apply HE|]. intros HL. destruct (HA HL) as (g' & r & HD). congruence.
  - destruct (HN _ (or_introl eq_refl)) as (nd & Hn). unfold api_T, get in H. rewrite Hn in H. cbn [obind] in H. destruct (Nat.leb _ _); [discriminate|].
    destruct (transpose_accepts g a (rev (zrange (Z.of_nat (length (n_shape nd))))) (Ha _ (or_introl eq_refl))) as [[_ HA] _]. destruct HA as (g' & r & HD); [|congruence].
    unfold shape_of. rewrite Hn. symmetry. apply Permutation_rev.
  - destruct (HN _ (or_introl eq_refl)) as (nd & Hn). unfold api_contiguous, get in H. rewrite Hn in H. cbn [obind] in H. destruct (is_contiguous nd); [discriminate|].
    apply (unary_done _ _ _ _ Hn) in H; [exact H|eexists; reflexivity].
  - destruct (HN _ (or_introl eq_refl)) as (nd & Hn). destruct (C24_rejects g a nd dim before after Hn) as (P1 & P2 & P3 & P4). unfold shape_of. rewrite Hn.
    destruct (Z_le_gt_dec (Z.of_nat (length (n_shape nd))) dim) as [L|L]; [rewrite (P1 L) in H; left; split; [congruence|exact L]|].
    destruct (Z.eq_dec before 0) as [B0|B0]; [destruct (Z.eq_dec after 0) as [F0|F0]; [rewrite P2 in H by (auto; lia); discriminate|]|];
      (destruct (Z_lt_ge_dec dim (- Z.of_nat (length (n_shape nd)))) as [M|M]; [rewrite P3 in H by (auto; lia || intros []; auto); right; split; [congruence|exact M]|destruct P4 as (nd' & HD); [lia|intros []; auto|lia|congruence]]).
  - destruct (HN _ (or_introl eq_refl)) as (nd & Hn). destruct (C25_rejects g a nd dim step Hn) as (P1 & P2 & P3 & P4). unfold shape_of. rewrite Hn.
    destruct (Z_le_gt_dec (Z.of_nat (length (n_shape nd))) dim) as [L|L]; [rewrite (P1 L) in H; left; split; [congruence|exact L]|].
    destruct (Z.eq_dec step 1) as [S1|S1]; [rewrite P2 in H by (auto; lia); discriminate|].
    destruct (Z_lt_ge_dec dim (- Z.of_nat (length (n_shape nd)))) as [M|M]; [rewrite P3 in H by (auto; lia); right; split; [congruence|exact M]|destruct P4 as (nd' & HD); [lia|auto|lia|congruence]].
Qed.
Print Assumptions C51_exceptions.
(* The rules that are checked: these arguments always raise *)
Definition forbidden (g : graph) (c : call) : Prop :=
  match c with
  | CSum a ax _ => shape_of g a = [] /\ ax <> None /\ ax <> Some []
  | CBinary _ l r => np_broadcast (shape_of g l) (shape_of g r) = None
  | CGetitem a subs => ~ subs_legal subs (shape_of g a)
  | CReshape a s => zprod s <> zprod (shape_of g a)
  | CTranspose a axes => ~ Permutation axes (zrange (Z.of_nat (length (shape_of g a))))
  | CPad a d b f => Z.of_nat (length (shape_of g a)) <= d \/ d < - Z.of_nat (length (shape_of g a)) /\ ~ (b = 0 /\ f = 0)
  | CDilate a d st => Z.of_nat (length (shape_of g a)) <= d \/ d < - Z.of_nat (length (shape_of g a)) /\ st <> 1
  | _ => False
  end.
Theorem C51_rejects : forall g c, reach g -> (forall a, In a (call_args c) -> valid g a) -> forbidden g c -> exists e, run_call g c = Throw e /\ raises g c e.
Proof.
  intros g c Hr Ha H. destruct (run_call g c) as [[g' r]|e] eqn:E; [exfalso|exists e; split; [reflexivity|now apply C51_exceptions]].
  destruct c; cbn [forbidden run_call call_args] in *; try contradiction.
  - destruct (binary_accepts g b l r0 Hr (Ha _ (or_introl eq_refl)) (Ha _ (or_intror (or_introl eq_refl)))) as [[HA _] _]. apply HA; eauto.
  - destruct H as (Hs & H1 & H2). destruct (valid_nth _ _ (Ha _ (or_introl eq_refl))) as (nd & Hn). unfold api_sum, get in E. rewrite Hn in E. unfold shape_of in Hs. rewrite Hn in Hs. cbn [obind] in E. rewrite Hs in E.
    destruct axis as [[|x ax]|]; [now apply H2|discriminate|now apply H1].
  - destruct (getitem_accepts unit_valg g a subs Hr (Ha _ (or_introl eq_refl))) as [[HA _] _]. apply H, HA. eauto.
  - destruct (reshape_accepts g a shape (Ha _ (or_introl eq_refl))) as [[HA _] _]. apply H, HA. eauto.
  - destruct (transpose_accepts g a axes (Ha _ (or_introl eq_refl))) as [[HA _] _]. apply H, HA. eauto.
  - destruct (valid_nth _ _ (Ha _ (or_introl eq_refl))) as (nd & Hn). destruct (C24_rejects g a nd dim before after Hn) as (P1 & P2 & P3 & P4). unfold shape_of in H. rewrite Hn in H.
    destruct H as [H|(H & H')]; [rewrite (P1 H) in E; discriminate|]. rewrite P3 in E by (auto; lia). discriminate.
  - destruct (valid_nth _ _ (Ha _ (or_introl eq_refl))) as (nd & Hn). destruct (C25_rejects g a nd dim step Hn) as (P1 & P2 & P3 & P4). unfold shape_of in H. rewrite Hn in H.
    destruct H as [H|(H & H')]; [rewrite (P1 H) in E; discriminate|]. rewrite P3 in E by (auto; lia). discriminate.
Qed.
Print Assumptions C51_rejects.
(* a call that raises changes nothing *)
Theorem C51_unchanged : forall B s c s' e, api_call B s c = (s', Throw e) -> s' = s.
Proof. intros B s c s' e H. unfold api_call in H. destruct (run_call (r_graph B s) c) as [[g' r]|]; congruence. Qed.
Print Assumptions C51_unchanged.

(* PARTIAL: what is accepted is sound - the result is an array whose every element lies inside the buffer it is read
   from (with the value theorems C15-C26 applying to it) - for all calls whose arguments the code checks completely, and
   for the others under the conditions of call_ok *)
Definition checked (c : call) : Prop :=
  match c with CArray _ | CFull _ _ | CBroadcastTo _ _ | CReshape _ _ | CPad _ _ _ _ | CDilate _ _ _ => False | _ => True end.
Theorem C51_accepted_partial : forall g c g' r, reach g -> (forall a, In a (call_args c) -> valid g a) -> checked c \/ call_ok g c -> run_call g c = Done (g', r) ->
  reach g' /\ exists nd, nth_error g' r = Some nd /\ nonneg (n_shape nd) /\ length (n_strides nd) = length (n_shape nd) /\
   exists b bd, base g' r = Some b /\ nth_error g' b = Some bd /\ forall idx, in_range (n_shape nd) idx -> 0 <= n_offset nd + dot idx (n_strides nd) < n_len bd.
Proof.
  intros g c g' r Hr Ha HC H. assert (Hok : call_ok g c).
  { destruct HC as [HC|HC]; [|exact HC]. destruct c; cbn [checked call_ok call_args] in *; try contradiction; try exact I; auto using or_introl.
    all: try (apply Ha; now left). split; apply Ha; cbn; auto. }
  assert (Hr' : reach g') by (econstructor; eauto). split; [exact Hr'|].
  destruct (run_call_appends _ _ _ _ H) as (h & -> & Hl). destruct (valid_nth (g ++ h) r Hl) as (nd & Hn). exists nd. split; [exact Hn|].
  destruct (extents_ok _ _ _ Hr' Hn) as (E1 & E2 & _ & E3). auto.
Qed.
Print Assumptions C51_accepted_partial.

(* concrete cases *)
Example C51_nonvacuous : let g := Prog.prog [CArange 6; CReshape 0 [2; 3]; CSum 0 None false] in
  reach g /\ (forall a, (a <= 2)%nat -> valid g a) /\
  forbidden g (CGetitem 1 [SInt 0; SInt 3]) /\ run_call g (CGetitem 1 [SInt 0; SInt 3]) = Throw RuntimeErr /\
  forbidden g (CSum 2 (Some [0]) false) /\ run_call g (CSum 2 (Some [0]) false) = Throw ZeroDivErr /\
  forbidden g (CDilate 1 (-3) 2) /\ run_call g (CDilate 1 (-3) 2) = Throw IndexErr /\
  checked (CGetitem 1 [SInt (-1)]) /\ exists g', run_call g (CGetitem 1 [SInt (-1)]) = Done (g', 3%nat).
Proof.
  cbv zeta. split; [apply prog_reach|]. split; [intros a H; vm_compute; lia|].
  assert (HG : forall a, In a [1%nat] -> valid (Prog.prog [CArange 6; CReshape 0 [2; 3]; CSum 0 None false]) a) by (intros a [<-|[]]; vm_compute; lia).
  split. { intros HL. destruct (getitem_accepts unit_valg _ 1%nat [SInt 0; SInt 3] (prog_reach [CArange 6; CReshape 0 [2; 3]; CSum 0 None false]) (HG _ (or_introl eq_refl))) as [[_ HA] _].
    destruct (HA HL) as (g' & r & HD). vm_compute in HD. discriminate. }
  split; [vm_compute; reflexivity|]. split; [split; [vm_compute; reflexivity|split; discriminate]|]. split; [vm_compute; reflexivity|].
  split; [right; split; [vm_compute; reflexivity|discriminate]|]. split; [vm_compute; reflexivity|]. split; [exact I|]. eexists. vm_compute. reflexivity.
Qed.

(* The full claim is false.  broadcast_to() checks nothing (used directly by the user, and the only way to enlarge a view):
   arange(3).broadcast_to((2,)) drops an element; arange(2).broadcast_to((3,)) is accepted, tolist() raises IndexError and
   a computation with it reads outside the buffer (undefined behaviour in C); a target with fewer dimensions is accepted *)
Theorem C51_broadcast_refuted :
  (let s := prun [CArange 3] in let s1 := fst (api_call pyB s (CBroadcastTo 0 [2])) in
     snd (api_call pyB s (CBroadcastTo 0 [2])) = Done 1%nat /\ tolist (r_graph pyB s1) (r_cpu pyB s1) 1 = Done (Nest [Leaf (PI 0); Leaf (PI 1)])) /\
  (let s := prun [CArange 2] in let s1 := fst (api_call pyB s (CBroadcastTo 0 [3])) in let s2 := fst (api_call pyB s1 (CUnary UNeg 1)) in
     snd (api_call pyB s (CBroadcastTo 0 [3])) = Done 1%nat /\ tolist (r_graph pyB s1) (r_cpu pyB s1) 1 = Throw IndexErr /\
     snd (api_call pyB s1 (CUnary UNeg 1)) = Done 2%nat /\ snd (materialize pyB s2 2) = Throw InternalErr) /\
  (let s := crun [CArange 2] in let s1 := fst (api_call cB s (CBroadcastTo 0 [3])) in let s2 := fst (api_call cB s1 (CUnary UNeg 1)) in
     snd (materialize cB s2 2) = Throw InternalErr) /\
  (let s := prun [CArange 6; CReshape 0 [2; 3]] in let s1 := fst (api_call pyB s (CBroadcastTo 1 [3])) in
     snd (api_call pyB s (CBroadcastTo 1 [3])) = Done 2%nat /\ shape_of (r_graph pyB s1) 2 = [3] /\ tolist (r_graph pyB s1) (r_cpu pyB s1) 2 = Throw IndexErr).
Proof. cbv zeta. repeat match goal with |- _ /\ _ => split end; vm_compute; reflexivity. Qed.
Print Assumptions C51_broadcast_refuted.
(* dilate(dim, 0) and dilate(dim, -1) are accepted: the first cannot be materialized, the second has a negative extent;
   full((-1,), 1) and pad(0, -2, -2) give arrays of extent -1 *)
Theorem C51_sizes_refuted :
  (let s := prun [CArange 3] in let s1 := fst (api_call pyB s (CDilate 0 0 0)) in
     snd (api_call pyB s (CDilate 0 0 0)) = Done 1%nat /\ exists e, snd (materialize pyB s1 1) = Throw e) /\
  (forall c, In c [CDilate 0 0 (-1); CPad 0 0 (-2) (-2); CFull [-1] (NInt 1)] ->
     exists g', run_call (Prog.prog [CArange 3]) c = Done (g', 1%nat) /\ shape_of g' 1 = [-1]).
Proof.
  cbv zeta. split; [split; [vm_compute; reflexivity|eexists; vm_compute; reflexivity]|].
  intros c [<-|[<-|[<-|[]]]]; eexists; split; vm_compute; reflexivity.
Qed.
Print Assumptions C51_sizes_refuted.
