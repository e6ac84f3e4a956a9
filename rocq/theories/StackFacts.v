(* A recursion limit only ever turns a result into a RecursionError, and a large enough limit does not do even that. *)
From Verif Require Import Base BaseFacts Util UtilFacts Lang Spec Graph Api Denote SpecFacts DenoteFacts Reach ApiFacts Algo AlgoSem AlgoMore Runtime LangInst Stack.
From Verif Require Backward.

(* ---- monotone in the limit *)
Definition le_lim {A} (x y : lim A) : Prop := forall r, x = Some r -> y = Some r.
Lemma le_refl {A} (x : lim A) : le_lim x x. Proof. intros r H; exact H. Qed.
Lemma le_bind {A B} (x y : lim A) (f h : A -> lim B) : le_lim x y -> (forall v, le_lim (f v) (h v)) -> le_lim (lbind x f) (lbind y h).
Proof. intros H1 H2 r H. unfold lbind in *. destruct x as [[v|e]|]; [|  |discriminate]; rewrite (H1 _ eq_refl); [now apply H2|exact H]. Qed.
Lemma le_fold {A S} (f h : A -> S -> lim S) : (forall a s, le_lim (f a s) (h a s)) -> forall l s, le_lim (fold_lim f l s) (fold_lim h l s).
Proof. intros H. induction l as [|x l IH]; intros s; cbn; [apply le_refl|]. apply le_bind; auto. Qed.
Lemma le_map {A B} (f h : A -> lim B) : (forall a, le_lim (f a) (h a)) -> forall l, le_lim (map_lim f l) (map_lim h l).
Proof. intros H. induction l as [|x l IH]; cbn; [apply le_refl|]. repeat (apply le_bind; auto; intros). apply le_refl. Qed.
Ltac lestep := first
  [ apply le_refl | assumption
  | match goal with
    | IH : forall _, _ |- _ => apply IH
    | |- le_lim (lbind _ _) (lbind _ _) => apply le_bind; [|intros]
    | |- le_lim (fold_lim _ _ _) (fold_lim _ _ _) => apply le_fold; intros
    | |- le_lim (map_lim _ _) (map_lim _ _) => apply le_map; intros
    | |- le_lim (if ?b then _ else _) (if ?b then _ else _) => destruct b
    | |- le_lim (match ?p with (_, _) => _ end) _ => destruct p
    | |- le_lim (match ?p with _ => _ end) _ => destruct p
    end ].
Ltac mono := let k := fresh "k" in let m := fresh "m" in let Em := fresh "Em" in let IH := fresh "IH" in
  match goal with |- forall L : nat, _ => induction L as [|k IH]; intros; [intros ? HH; discriminate HH|] end;
  remember (S k) as m eqn:Em; rewrite Em at 1.
Lemma has_reduce_S : forall L e, le_lim (has_reduce_l L e) (has_reduce_l (S L) e).
Proof. mono. cbn [has_reduce_l]. destruct e; repeat lestep. Qed.
Lemma arr_S : forall L g a E, le_lim (arr_to_func_l L g a E) (arr_to_func_l (S L) g a E).
Proof. mono. cbn [arr_to_func_l]. repeat lestep. Qed.
Lemma replace_S : forall L r e, le_lim (replace_index_l L r e) (replace_index_l (S L) r e).
Proof. mono. cbn [replace_index_l]. destruct e; repeat lestep. Qed.
Lemma count_S : forall L E e rc, le_lim (count_refs_l L E e rc) (count_refs_l (S L) E e rc).
Proof. mono. cbn [count_refs_l]. destruct e; cbv zeta; repeat lestep. Qed.
Lemma func_refs_S : forall L e, le_lim (func_refs_l L e) (func_refs_l (S L) e).
Proof. mono. cbn [func_refs_l]. destruct e; repeat lestep. Qed.
Lemma fuse_S : forall L rc e E, le_lim (try_fuse_l L rc e E) (try_fuse_l (S L) rc e E).
Proof.
  mono. cbn [try_fuse_l]. pose proof (fun e => has_reduce_S k e) as H1. pose proof (fun r e => replace_S k r e) as H2. rewrite <- Em in H1, H2.
  destruct e; repeat lestep.
Qed.
Lemma order_S : forall L E f st, le_lim (order_l L E f st) (order_l (S L) E f st).
Proof. mono. cbn [order_l]. pose proof (fun e => func_refs_S k e) as H1. rewrite <- Em in H1. repeat lestep. Qed.
Lemma dfs_S : forall L g t st, le_lim (dfs_l L g t st) (dfs_l (S L) g t st).
Proof. mono. cbn [dfs_l]. repeat lestep. Qed.
Lemma mono_le {A} (F : nat -> lim A) : (forall L, le_lim (F L) (F (S L))) -> forall L L', (L <= L')%nat -> le_lim (F L) (F L').
Proof. intros H L L' HL. induction HL; [apply le_refl|]. intros r Hr. apply H. now apply IHHL. Qed.
Lemma convert_S : forall L g a, le_lim (convert_l L g a) (convert_l (S L) g a).
Proof.
  intros L g a. unfold convert_l. repeat (first [apply arr_S|apply count_S|apply fuse_S|apply order_S|lestep]).
Qed.

(* ---- eventually, with enough frames *)
Definition ev {A} (F : nat -> lim A) (r : outcome A) : Prop := exists L0, forall L, (L0 <= L)%nat -> F L = Some r.
Lemma ev_ret {A} (r : outcome A) : ev (fun _ => Some r) r. Proof. exists 0%nat. auto. Qed.
Lemma ev_S {A} (F : nat -> lim A) r : ev (fun k => F (S k)) r -> ev F r.
Proof. intros (L0 & H). exists (S L0). intros [|L] HL; [lia|]. apply H. lia. Qed.
Lemma ev_bind {A B} (F : nat -> lim A) (G : nat -> A -> lim B) x k : ev F x -> (forall v, x = Done v -> ev (fun L => G L v) (k v)) ->
  ev (fun L => lbind (F L) (G L)) (obind x k).
Proof.
  intros (L1 & H1) H2. destruct x as [v|e]; cbn.
  - destruct (H2 v eq_refl) as (L2 & H3). exists (Nat.max L1 L2). intros L HL. rewrite H1 by lia. cbn. apply H3. lia.
  - exists L1. intros L HL. now rewrite H1.
Qed.
Lemma ev_fold {A S} (F : nat -> A -> S -> lim S) (f : A -> S -> outcome S) l : forall s r,
  (forall a s' r', In a l -> f a s' = Done r' -> ev (fun L => F L a s') (Done r')) -> fold_out f l s = Done r -> ev (fun L => fold_lim (F L) l s) (Done r).
Proof.
  induction l as [|x l IH]; intros s r H Hr; cbn in *; [injection Hr as <-; apply ev_ret|].
  apply obind_Done in Hr as (v & H1 & H2).
  change (Done r) with (obind (Done v) (fun _ => Done r)). apply (ev_bind (fun L => F L x s) (fun L s' => fold_lim (F L) l s')); [apply H; auto|].
  intros v' Hv'. injection Hv' as <-. apply IH; auto.
Qed.
Lemma ev_if {A} (b : bool) (F G : nat -> lim A) (x y : outcome A) : (b = true -> ev F x) -> (b = false -> ev G y) -> ev (fun L => if b then F L else G L) (if b then x else y).
Proof. destruct b; auto. Qed.

Lemma has_reduce_ev e : ev (fun L => has_reduce_l L e) (Done (has_reduce e)).
Proof.
  induction e; apply ev_S; cbn [has_reduce_l has_reduce]; try apply ev_ret; auto.
  - replace (Done (has_reduce e1 || has_reduce e2)) with (obind (Done (has_reduce e1)) (fun b => if b then Done true else Done (has_reduce e2))) by (cbn; now destruct (has_reduce e1)).
    apply (ev_bind (fun L => has_reduce_l L e1) (fun L b => if b then Some (Done true) else has_reduce_l L e2)); auto. intros v _. apply (ev_if v (fun _ => Some (Done true)) (fun L => has_reduce_l L e2)); auto. intros _. apply ev_ret.
  - replace (Done (has_reduce e1 || has_reduce e2 || has_reduce e3)) with (obind (Done (has_reduce e1)) (fun b => if b then Done true else obind (Done (has_reduce e2)) (fun b => if b then Done true else Done (has_reduce e3)))) by (cbn; destruct (has_reduce e1), (has_reduce e2); reflexivity).
    apply (ev_bind (fun L => has_reduce_l L e1) (fun L b => if b then Some (Done true) else lbind (has_reduce_l L e2) (fun b => if b then Some (Done true) else has_reduce_l L e3))); auto. intros v _.
    apply (ev_if v (fun _ => Some (Done true)) (fun L => lbind (has_reduce_l L e2) (fun b => if b then Some (Done true) else has_reduce_l L e3))); [intros _; apply ev_ret|]. intros _.
    apply (ev_bind (fun L => has_reduce_l L e2) (fun L b => if b then Some (Done true) else has_reduce_l L e3)); auto. intros w _. apply (ev_if w (fun _ => Some (Done true)) (fun L => has_reduce_l L e3)); auto. intros _. apply ev_ret.
Qed.
Lemma ev_done {A B} (F : nat -> lim A) (G : nat -> A -> lim B) v r : ev F (Done v) -> ev (fun L => G L v) r -> ev (fun L => lbind (F L) (G L)) r.
Proof. intros H1 H2. change r with (obind (Done v) (fun _ => r)). apply ev_bind; auto. intros v' Hv. now injection Hv as <-. Qed.
Lemma replace_ev r e : forall e', replace_index r e = Done e' -> ev (fun L => replace_index_l L r e) (Done e').
Proof.
  assert (HM : forall idx, Forall (fun e => forall e', replace_index r e = Done e' -> ev (fun L => replace_index_l L r e) (Done e')) idx -> forall idx',
    (fix many (l : list expr) : outcome (list expr) := match l with [] => Done [] | x :: l' => y <~ replace_index r x ;; ys <~ many l' ;; Done (y :: ys) end) idx = Done idx' ->
    ev (fun L => map_lim (replace_index_l L r) idx) (Done idx')).
  { induction 1 as [|x l Hx Hl IH]; intros idx' HI; [injection HI as <-; apply ev_ret|]. bd HI. bd HI. injection HI as <-. cbn [map_lim].
    eapply ev_done; [apply Hx; eassumption|]. eapply ev_done; [apply IH; eassumption|]. apply ev_ret. }
  induction e using expr_ind'; intros e' He; apply ev_S; cbn [replace_index_l replace_index] in *.
  - rewrite He. apply ev_ret.
  - injection He as <-. apply ev_ret.
  - bd He. bd He. injection He as <-. eapply ev_done; [apply IHe1; eassumption|]. eapply ev_done; [apply IHe2; eassumption|]. apply ev_ret.
  - bd He. injection He as <-. eapply ev_done; [apply IHe; eassumption|]. apply ev_ret.
  - bd He. bd He. bd He. injection He as <-. eapply ev_done; [apply IHe1; eassumption|]. eapply ev_done; [apply IHe2; eassumption|]. eapply ev_done; [apply IHe3; eassumption|]. apply ev_ret.
  - bd He. injection He as <-. eapply ev_done; [apply IHe; eassumption|]. apply ev_ret.
  - bd He. injection He as <-. eapply ev_done; [apply HM; eassumption|]. apply ev_ret.
  - bd He. injection He as <-. eapply ev_done; [apply HM; eassumption|]. apply ev_ret.
Qed.
Lemma func_refs_ev e : ev (fun L => func_refs_l L e) (Done (func_refs e)).
Proof.
  induction e using expr_ind'; apply ev_S; cbn [func_refs_l func_refs]; try apply ev_ret; auto.
  - eapply ev_done; [eassumption|]. eapply ev_done; [eassumption|]. apply ev_ret.
  - eapply ev_done; [eassumption|]. eapply ev_done; [eassumption|]. eapply ev_done; [eassumption|]. apply ev_ret.
Qed.
Lemma count_ev E fuel : forall e rc r, count_refs fuel E e rc = Done r -> ev (fun L => count_refs_l L E e rc) (Done r).
Proof.
  induction fuel as [|k IHf]; induction e using expr_ind'; intros rc r0 Hc; apply ev_S; cbn [count_refs_l count_refs] in *; cbv zeta in *;
    try (injection Hc as <-; apply ev_ret); auto.
  - bd Hc. eapply ev_done; [apply IHe1; eassumption|]. now apply IHe2.
  - bd Hc. bd Hc. eapply ev_done; [apply IHe1; eassumption|]. eapply ev_done; [apply IHe2; eassumption|]. now apply IHe3.
  - destruct (Nat.eqb (rinc rc f f) 1); [discriminate|]. injection Hc as <-. apply ev_ret.
  - bd Hc. eapply ev_done; [apply IHe1; eassumption|]. now apply IHe2.
  - bd Hc. bd Hc. eapply ev_done; [apply IHe1; eassumption|]. eapply ev_done; [apply IHe2; eassumption|]. now apply IHe3.
  - destruct (Nat.eqb (rinc rc f f) 1); [|injection Hc as <-; apply ev_ret]. bd Hc. eapply ev_done; [rewrite D; apply ev_ret|]. now apply IHf.
Qed.
Lemma fuse_ev rc fuel : forall e E r, try_fuse fuel rc e E = Done r -> ev (fun L => try_fuse_l L rc e E) (Done r).
Proof.
  induction fuel as [|k IHf]; induction e using expr_ind'; intros E r0 Hc; apply ev_S; cbn [try_fuse_l try_fuse] in *;
    try (injection Hc as <-; apply ev_ret); try discriminate.
  all: try (bd Hc; destruct v as [x1 E1]; injection Hc as <-; eapply ev_done; [apply IHe; eassumption|]; apply ev_ret).
  all: try (bd Hc; destruct v as [x1 E1]; bd Hc; destruct v as [x2 E2]; injection Hc as <-; eapply ev_done; [apply IHe1; eassumption|]; eapply ev_done; [apply IHe2; eassumption|]; apply ev_ret).
  all: try (bd Hc; destruct v as [x1 E1]; bd Hc; destruct v as [x2 E2]; bd Hc; destruct v as [x3 E3]; injection Hc as <-; eapply ev_done; [apply IHe1; eassumption|]; eapply ev_done; [apply IHe2; eassumption|]; eapply ev_done; [apply IHe3; eassumption|]; apply ev_ret).
  bd Hc. eapply ev_done; [rewrite D; apply ev_ret|]. eapply ev_done; [apply has_reduce_ev|]. cbv beta.
  destruct (Nat.eqb (rc f) 0); [discriminate|]. fold (fusable rc f (f_expr v)). destruct (fusable rc f (f_expr v)); cbn [negb] in *.
  - bd Hc. eapply ev_done; [apply replace_ev; eassumption|]. now apply IHf.
  - bd Hc. destruct v0 as [e' E1]. injection Hc as <-. eapply ev_done; [apply IHf; eassumption|]. apply ev_ret.
Qed.
Lemma order_ev E fuel : forall f st r, order fuel E f st = Done r -> ev (fun L => order_l L E f st) (Done r).
Proof.
  induction fuel as [|k IHf]; intros f [seen out] r Hc; apply ev_S; cbn [order_l order] in *; (destruct (nmem f seen); [injection Hc as <-; apply ev_ret|]); [discriminate|].
  bd Hc. bd Hc. destruct v0 as [seen' out']. injection Hc as <-. eapply ev_done; [rewrite D; apply ev_ret|]. eapply ev_done; [apply func_refs_ev|]. cbv beta.
  apply (ev_done _ _ (seen', out')); [|apply ev_ret]. eapply (ev_fold (fun L d => order_l L E d)); [|exact D0]. intros a s' r' _ Ha. now apply IHf.
Qed.
Lemma arr_ev g (Hw : wf_graph g) : forall k a E, (a < k)%nat -> ev (fun L => arr_to_func_l L g a E) (arr_to_func k g a E).
Proof.
  intros k a E Ha. enough (H : forall L a E, (a < k)%nat -> (a < L)%nat -> arr_to_func_l L g a E = Some (arr_to_func k g a E)) by (exists (S a); intros; apply H; lia).
  clear a E Ha. induction k as [|k IH]; intros [|L] a E Ha HL; try lia. cbn [arr_to_func arr_to_func_l].
  destruct (E a); [reflexivity|]. destruct (get g a) as [nd|e] eqn:Hg; [|reflexivity]. cbn [lbind obind].
  assert (Hnd : nth_error g a = Some nd) by (unfold get in Hg; destruct (nth_error g a); [now injection Hg as ->|discriminate]).
  assert (HF : forall l, (forall i, In i l -> (i < a)%nat) -> forall E, fold_lim (fun i => arr_to_func_l L g i) l E = Some (fold_out (fun i => arr_to_func k g i) l E)).
  { induction l as [|i l IHl]; intros Hl E0; [reflexivity|]. pose proof (Hl i (or_introl eq_refl)). cbn [fold_lim fold_out]. rewrite IH by lia.
    destruct (arr_to_func k g i E0) as [E1|e]; [|reflexivity]. cbn [lbind obind]. apply IHl. intros j Hj. apply Hl. now right. }
  pose proof (wf_inputs_lt g a nd Hw Hnd) as HI. rewrite Forall_forall in HI.
  change (match fold_lim (fun i => arr_to_func_l L g i) (n_in nd) E with x => x end) with (fold_lim (fun i => arr_to_func_l L g i) (n_in nd) E).
  rewrite (HF _ HI). destruct (fold_out _ _ _) as [E1|e]; [|reflexivity]. cbn [lbind obind]. now destruct (conv_expr g a nd).
Qed.
Lemma arr_done_ns g a E : reach g -> valid g a -> arr_to_func (S (length g)) g a (fun _ => None) = Done E -> no_scalar_reshape g a.
Proof.
  intros Hr Ha EA. pose proof (reach_wf g Hr) as Hw. unfold valid in Ha.
  pose proof (arr_to_func_cases (py_lang no_libm) (py_lang_ok _) g Hw (S (length g)) a (fun _ => None) ltac:(lia) Ha ltac:(intros n fd H; discriminate)) as H.
  rewrite EA in H. destruct H as (K & _ & HN).
  assert (Hall : forall n, cone g a n -> E n <> None).
  { induction 1 as [|n nd b Hc IH Hn Hb]; auto. destruct (E n) as [fd|] eqn:En; [|congruence]. destruct (K _ _ En nd Hn) as [_ Hin]. auto. }
  intros n nd Hc Hn. specialize (Hall n Hc). destruct (E n) as [fd|] eqn:En; [|congruence]. apply (K _ _ En nd Hn).
Qed.
Lemma convert_ev g a : reach g -> valid g a -> ev (fun L => convert_l L g a) (convert g a).
Proof.
  intros Hr Ha. pose proof (reach_wf g Hr) as Hw. unfold convert_l.
  assert (HA : (a < S (length g))%nat) by (unfold valid in Ha; lia).
  pose proof (arr_ev g Hw (S (length g)) a (fun _ => None) HA) as HE.
  destruct (arr_to_func (S (length g)) g a (fun _ => None)) as [E|e] eqn:EA.
  - assert (HD : exists r, convert g a = Done r).
    { destruct (AlgoTop.compilation_total Backends.Python g a Hr Ha (arr_done_ns g a E Hr Ha EA)) as (E' & fs & HC & _). eauto. }
    destruct HD as (r & HC). rewrite HC. unfold convert in HC. rewrite EA in HC. cbn [obind] in HC. bd HC. bd HC. bd HC. destruct v1 as [e E1]. bd HC. destruct v1 as [x fs]. injection HC as <-.
    eapply ev_done; [exact HE|]. eapply ev_done; [rewrite D; apply ev_ret|]. eapply ev_done; [eapply count_ev; eassumption|].
    apply (ev_done _ _ (e, E1)); [eapply fuse_ev; eassumption|]. cbv beta zeta iota. apply (ev_done _ _ (x, fs)); [eapply order_ev; eassumption|]. apply ev_ret.
  - unfold convert. rewrite EA. cbn [obind]. change (Throw e) with (obind (@Throw fenv e) (fun _ : fenv => @Throw (fenv * list nat) e)). apply ev_bind; [exact HE|]. discriminate.
Qed.
(* a limit never changes a result *)
Lemma convert_agree g a L r : reach g -> valid g a -> convert_l L g a = Some r -> r = convert g a.
Proof.
  intros Hr Ha H. destruct (convert_ev g a Hr Ha) as (L0 & HL). specialize (HL (Nat.max L0 L) ltac:(lia)).
  pose proof (mono_le (fun L => convert_l L g a) (fun L => convert_S L g a) L (Nat.max L0 L) ltac:(lia) r H) as H2. cbn in H2. congruence.
Qed.

(* ---- the first recursion needs as many frames as the longest chain of inputs *)
Inductive chain (g : graph) : nat -> nat -> Prop :=
| chain_one a : chain g a 1
| chain_more a nd i n : nth_error g a = Some nd -> In i (n_in nd) -> chain g i n -> chain g a (S n).
Lemma arr_enough g (Hw : wf_graph g) : forall k L a E, (a < k)%nat -> (forall n, chain g a n -> (n <= L)%nat) -> arr_to_func_l L g a E = Some (arr_to_func k g a E).
Proof.
  induction k as [|k IH]; intros L a E Ha HL; [lia|]. destruct L as [|L]; [specialize (HL 1%nat (chain_one g a)); lia|]. cbn [arr_to_func arr_to_func_l].
  destruct (E a); [reflexivity|]. destruct (get g a) as [nd|e] eqn:Hg; [|reflexivity]. cbn [lbind obind].
  assert (Hnd : nth_error g a = Some nd) by (unfold get in Hg; destruct (nth_error g a); [now injection Hg as ->|discriminate]).
  pose proof (wf_inputs_lt g a nd Hw Hnd) as HI. rewrite Forall_forall in HI.
  assert (HF : forall l, (forall i, In i l -> In i (n_in nd)) -> forall E, fold_lim (fun i => arr_to_func_l L g i) l E = Some (fold_out (fun i => arr_to_func k g i) l E)).
  { induction l as [|i l IHl]; intros Hl E0; [reflexivity|]. pose proof (HI i (Hl i (or_introl eq_refl))). cbn [fold_lim fold_out].
    rewrite IH; [|lia|intros n Hn; enough (S n <= S L)%nat by lia; apply HL; eapply chain_more; eauto; apply Hl; now left].
    destruct (arr_to_func k g i E0) as [E1|e]; [|reflexivity]. cbn [lbind obind]. apply IHl. intros j Hj. apply Hl. now right. }
  rewrite (HF _ (fun i h => h)). destruct (fold_out _ _ _) as [E1|e]; [|reflexivity]. cbn [lbind obind]. now destruct (conv_expr g a nd).
Qed.

(* ---- the search of backward() *)
Lemma dfs_enough g (Hw : wf_graph g) : forall k L t st, (t < k)%nat -> (forall n, chain g t n -> (n <= L)%nat) -> dfs_l L g t st = Some (Done (Backward.dfs k g t st)).
Proof.
  induction k as [|k IH]; intros L t st Ht HL; [lia|]. destruct L as [|L]; [specialize (HL 1%nat (chain_one g t)); lia|]. cbn [dfs_l Backward.dfs].
  destruct (nth_error g t) as [nd|] eqn:Hnd; [|reflexivity]. pose proof (wf_inputs_lt g t nd Hw Hnd) as HI. rewrite Forall_forall in HI.
  assert (HF : forall l, (forall i, In i l -> In i (n_in nd)) -> forall s, fold_lim (fun i s => dfs_l L g i s) l s = Some (Done (fold_left (fun s i => Backward.dfs k g i s) l s))).
  { induction l as [|i l IHl]; intros Hl s; [reflexivity|]. pose proof (HI i (Hl i (or_introl eq_refl))). cbn [fold_lim fold_left].
    rewrite IH; [|lia|intros n Hn; enough (S n <= S L)%nat by lia; apply HL; eapply chain_more; eauto; apply Hl; now left].
    cbn [lbind]. apply IHl. intros j Hj. apply Hl. now right. }
  destruct (n_in nd) as [|i0 l0] eqn:Ein; [reflexivity|]. destruct (Backward.nmem t (fst st)); [reflexivity|].
  rewrite (HF _ (fun i h => h)). reflexivity.
Qed.
Lemma chain_le g (Hw : wf_graph g) a n : chain g a n -> (n <= S a)%nat.
Proof. induction 1 as [|a nd i n Hn Hi Hc IH]; [lia|]. pose proof (wf_inputs_lt g a nd Hw Hn) as HI. rewrite Forall_forall in HI. specialize (HI i Hi). lia. Qed.

(* ---- a path of operations with one input each needs a frame per operation *)
Inductive tower (g : graph) : nat -> nat -> Prop :=
| tower_one a : tower g a 1
| tower_more a nd i n : nth_error g a = Some nd -> n_in nd = [i] -> tower g i n -> tower g a (S n).
Lemma arr_tower g a n : tower g a n -> forall L, (L < n)%nat -> arr_to_func_l L g a (fun _ => None) = None.
Proof.
  induction 1 as [|a nd i n Hnd Hi Ht IH]; intros [|L] HL; try lia; [reflexivity|reflexivity|]. cbn [arr_to_func_l].
  unfold get. rewrite Hnd. cbn [lbind]. rewrite Hi. cbn [fold_lim]. rewrite IH by lia. reflexivity.
Qed.
Lemma dfs_tower g a n : wf_graph g -> tower g a n -> forall L st, (L < n)%nat -> (forall s, In s (fst st) -> (a < s)%nat) -> dfs_l L g a st = None.
Proof.
  intros Hw. induction 1 as [|a nd i n Hnd Hi Ht IH]; intros [|L] st HL Hs; try lia; [reflexivity|reflexivity|]. cbn [dfs_l].
  rewrite Hnd, Hi. assert (HM : Backward.nmem a (fst st) = false).
  { unfold Backward.nmem. apply Bool.not_true_iff_false. intros H. apply existsb_exists in H as (x & Hx & E). apply Nat.eqb_eq in E. subst x. specialize (Hs a Hx). lia. }
  rewrite HM. cbn [fold_lim]. pose proof (wf_inputs_lt g a nd Hw Hnd) as HI. rewrite Hi in HI. inversion HI; subst.
  rewrite IH; [reflexivity|lia|]. cbn [fst]. intros s [<-|Hs']; [assumption|]. specialize (Hs s Hs'). lia.
Qed.
