(* backward() in a process on the GPU: the arrays it builds are made by API calls that use only arrays that are alive. *)
From Verif Require Import Base BaseFacts Util UtilFacts Lang Spec SpecFacts Graph Api Denote DenoteFacts ArrayLit Reach ApiFacts FrontSpec FrontFacts FrontFacts2 FrontFacts3 FrontFacts4
  Tolist Algo AlgoSem AlgoConvert Kernel Sched Codegen Backends CacheKey Runtime RuntimeFacts RuntimeFacts2 History Backward BackSpec BackOrder BackSteps BackRun BackTop BackScalar Grow
  Parallel ParGpu Device DevFacts DevRun DevHist DevAny.

(* which arrays the arrays of a graph are computed from: n0 = number of old arrays, Al = the old arrays that may be used *)
Section Uses.
Context (n0 : nat) (Al : nat -> Prop).
Definition inA (a : nat) : Prop := (a < n0)%nat -> Al a.
Definition okg (g : graph) : Prop := (n0 <= length g)%nat /\ forall n nd, inA n -> nth_error g n = Some nd -> Forall inA (n_in nd).
Lemma okg_snoc g nd : okg g -> Forall inA (n_in nd) -> okg (g ++ [nd]) /\ inA (length g).
Proof using.
  intros (H1 & H2) Hi. split; [|unfold inA; lia]. split; [rewrite app_length; lia|]. intros n md Ha Hn.
  destruct (Nat.lt_ge_cases n (length g)) as [L|L]; [rewrite nth_error_app1 in Hn by exact L; eauto|].
  rewrite nth_error_app2 in Hn by exact L. destruct (n - length g)%nat as [|[|k]]; cbn in Hn; try discriminate. now injection Hn as <-.
Qed.
Definition good (o : outcome (graph * nat)) : Prop := forall g' r, o = Done (g', r) -> okg g' /\ inA r.
Lemma u_forward g op ins : okg g -> Forall inA ins -> good (forward g op ins).
Proof using.
  intros Hg Hi g' r H. unfold forward in H. destruct ins as [|a ins]; [discriminate|]. destruct (get g a) as [x|]; cbn [obind] in H; [|discriminate].
  destruct (forward_node op (a :: ins) x) as [nd|] eqn:Ef; cbn [obind] in H; [|discriminate]. injection H as <- <-.
  apply okg_snoc; auto. now rewrite (forward_in _ _ _ _ Ef).
Qed.
Lemma u_const g s v : okg g -> good (api_const g s v).
Proof using. intros Hg g' r H. unfold api_const in H. injection H as <- <-. apply okg_snoc; auto. constructor. Qed.
Ltac u1 := repeat match goal with
  | H : Throw _ = Done _ |- _ => discriminate H
  | H : Done _ = Done _ |- _ => injection H as; subst
  | H : obind ?o _ = Done _ |- _ => destruct o eqn:?; cbn [obind] in H
  | H : (let '(_, _) := ?p in _) = Done _ |- _ => destruct p
  | H : (if ?b then _ else _) = Done _ |- _ => destruct b
  end.
Lemma u_unary g u a : okg g -> inA a -> good (api_unary g u a).
Proof using. intros. apply u_forward; auto. Qed.
Lemma u_broadcast g a s : okg g -> inA a -> good (api_broadcast_to g a s).
Proof using. intros. apply u_forward; auto. Qed.
Lemma u_binary g b x y : okg g -> inA x -> inA y -> good (api_binary g b x y).
Proof using.
  intros Hg Hx Hy g' r H. unfold api_binary in H. destruct (api_broadcasted g x y) as [[[g1 l1] r1]|] eqn:E; cbn [obind] in H; [|discriminate].
  unfold api_broadcasted in E. destruct (get g x) as [nl|]; cbn [obind] in E; [|discriminate]. destruct (get g y) as [nr|]; cbn [obind] in E; [|discriminate].
  destruct (bshape _ _) as [ns|]; cbn [obind] in E; [|discriminate].
  destruct (if list_zeqb (n_shape nl) ns then Done (g, x) else api_broadcast_to g x ns) as [[ga la]|] eqn:E1; cbn [obind] in E; [|discriminate].
  destruct (if list_zeqb (n_shape nr) ns then Done (ga, y) else api_broadcast_to ga y ns) as [[gb lb]|] eqn:E2; cbn [obind] in E; [|discriminate].
  injection E as <- <- <-.
  assert (okg ga /\ inA la) as (A1 & A2) by (destruct (list_zeqb (n_shape nl) ns); [injection E1 as <- <-; auto|exact (u_broadcast g x ns Hg Hx _ _ E1)]).
  assert (okg gb /\ inA lb) as (B1 & B2) by (destruct (list_zeqb (n_shape nr) ns); [injection E2 as <- <-; auto|exact (u_broadcast ga y ns A1 Hy _ _ E2)]).
  eapply u_forward; [exact B1| |exact H]. auto.
Qed.
Lemma u_binary_scalar g b x v : okg g -> inA x -> good (api_binary_scalar g b x v).
Proof using.
  intros Hg Hx g' r H. unfold api_binary_scalar, api_array in H. cbn [array_dfs obind] in H.
  destruct (api_const g [] ([] ++ [v])) as [[g1 c]|] eqn:E; cbn [obind] in H; [|discriminate]. destruct (u_const g _ _ Hg _ _ E) as (A1 & A2).
  eapply u_binary; [exact A1| | |exact H]; auto.
Qed.
Lemma u_contiguous g a : okg g -> inA a -> good (api_contiguous g a).
Proof using. intros Hg Ha g' r H. unfold api_contiguous in H. u1; [auto|]. exact (u_forward _ _ _ Hg (Forall_cons _ Ha (Forall_nil _)) _ _ H). Qed.
Lemma u_reshape g a s : okg g -> inA a -> good (api_reshape g a s).
Proof using.
  intros Hg Ha g' r H. unfold api_reshape in H. destruct (get g a) as [nd|]; cbn [obind] in H; [|discriminate]. destruct (negb _); [discriminate|].
  destruct (api_contiguous g a) as [[g1 c]|] eqn:E; cbn [obind] in H; [|discriminate]. destruct (u_contiguous g a Hg Ha _ _ E) as (A1 & A2). exact (u_forward _ _ _ A1 (Forall_cons _ A2 (Forall_nil _)) _ _ H).
Qed.
Lemma u_sum g a ax kd : okg g -> inA a -> good (api_sum g a ax kd).
Proof using. intros Hg Ha g' r H. unfold api_sum in H. u1. exact (u_forward _ _ _ Hg (Forall_cons _ Ha (Forall_nil _)) _ _ H). Qed.
Lemma u_getitem g a s : okg g -> inA a -> good (api_getitem g a s).
Proof using. intros Hg Ha g' r H. unfold api_getitem in H. u1. exact (u_forward _ _ _ Hg (Forall_cons _ Ha (Forall_nil _)) _ _ H). Qed.
Lemma u_transpose g a s : okg g -> inA a -> good (api_transpose g a s).
Proof using. intros Hg Ha g' r H. unfold api_transpose in H. u1. exact (u_forward _ _ _ Hg (Forall_cons _ Ha (Forall_nil _)) _ _ H). Qed.
Lemma u_pad g a d p q : okg g -> inA a -> good (api_pad g a d p q).
Proof using. intros Hg Ha g' r H. unfold api_pad in H. u1; auto. exact (u_forward _ _ _ Hg (Forall_cons _ Ha (Forall_nil _)) _ _ H). Qed.
Lemma u_dilate g a d p : okg g -> inA a -> good (api_dilate g a d p).
Proof using. intros Hg Ha g' r H. unfold api_dilate in H. u1; auto. exact (u_forward _ _ _ Hg (Forall_cons _ Ha (Forall_nil _)) _ _ H). Qed.
Lemma u_ones_like g a : okg g -> good (api_ones_like g a).
Proof using. intros Hg g' r H. unfold api_ones_like, api_full_like, api_full in H. u1. eapply u_const; eauto. Qed.
Lemma u_slice : forall subs ish g gr gd, okg g -> inA gr -> good (bw_slice g gr gd subs ish).
Proof using.
  induction subs as [|[s|a b st] subs IH]; intros [|n ish] g gr gd Hg Ha g' r H; cbn [bw_slice] in H.
  1,2,3,5 : injection H as <- <-; auto.
  - destruct (get g gr) as [nd|]; cbn [obind] in H; [|discriminate].
    destruct (api_reshape _ _ _) as [[g1 r1]|] eqn:E1; cbn [obind] in H; [|discriminate].
    destruct (api_pad _ _ _ _ _) as [[g2 r2]|] eqn:E2; cbn [obind] in H; [|discriminate].
    destruct (u_reshape _ _ _ Hg Ha _ _ E1). edestruct u_pad as (A & A'); [| |exact E2|]; auto. eapply IH; eauto.
  - destruct (if st >? 1 then _ else _) as [[g1 r1]|] eqn:E1; cbn [obind] in H; [|discriminate].
    assert (okg g1 /\ inA r1) as (A1 & A2) by (destruct (st >? 1); [exact (u_dilate _ _ _ _ Hg Ha _ _ E1)|injection E1 as <- <-; auto]).
    destruct (get g1 r1) as [nd|]; cbn [obind] in H; [|discriminate].
    destruct (nth_error (n_shape nd) gd) as [len|]; cbn [obind] in H; [|discriminate].
    destruct (if _ || _ then _ else _) as [[g2 r2]|] eqn:E2; cbn [obind] in H; [|discriminate].
    assert (okg g2 /\ inA r2) as (B1 & B2) by (destruct ((a >? 0) || (n - a - len >? 0)); [exact (u_pad _ _ _ _ _ A1 A2 _ _ E2)|injection E2 as <- <-; auto]).
    eapply IH; eauto.
Qed.
Ltac one_step := match goal with
    | E : api_unary ?g ?u ?a = Done _ |- _ => destruct (u_unary g u a ltac:(assumption) ltac:(assumption) _ _ E) as (? & ?); clear E
    | E : api_binary ?g ?b ?x ?y = Done _ |- _ => destruct (u_binary g b x y ltac:(assumption) ltac:(assumption) ltac:(assumption) _ _ E) as (? & ?); clear E
    | E : api_binary_scalar ?g ?b ?x ?y = Done _ |- _ => destruct (u_binary_scalar g b x y ltac:(assumption) ltac:(assumption) _ _ E) as (? & ?); clear E
    | E : api_broadcast_to ?g ?a ?x = Done _ |- _ => destruct (u_broadcast g a x ltac:(assumption) ltac:(assumption) _ _ E) as (? & ?); clear E
    | E : api_reshape ?g ?a ?x = Done _ |- _ => destruct (u_reshape g a x ltac:(assumption) ltac:(assumption) _ _ E) as (? & ?); clear E
    | E : api_sum ?g ?a ?x ?y = Done _ |- _ => destruct (u_sum g a x y ltac:(assumption) ltac:(assumption) _ _ E) as (? & ?); clear E
    | E : api_transpose ?g ?a ?x = Done _ |- _ => destruct (u_transpose g a x ltac:(assumption) ltac:(assumption) _ _ E) as (? & ?); clear E
    | E : api_getitem ?g ?a ?x = Done _ |- _ => destruct (u_getitem g a x ltac:(assumption) ltac:(assumption) _ _ E) as (? & ?); clear E
    | E : bw_slice ?g ?b ?x ?y ?z = Done _ |- _ => destruct (u_slice y z g b x ltac:(assumption) ltac:(assumption) _ _ E) as (? & ?); clear E
    end.
(* one backward rule *)
Lemma u_rule g nd o gr g' rs : okg g -> Forall inA (n_in nd) -> inA o -> inA gr -> bw_rule g nd o gr = Done (g', rs) -> okg g' /\ Forall inA rs.
Proof using.
  intros Hg Hi Ho Hgr H.
  assert (HI : forall k a, inp nd k = Done a -> inA a).
  { intros k a E. unfold inp in E. destruct (nth_error (n_in nd) k) eqn:Ek; [|discriminate]. injection E as <-. rewrite Forall_forall in Hi. apply Hi. eapply nth_error_In; eauto. }
  assert (HD : forall (G : graph) x, okg G -> inA x -> good (Done (G, x))) by (intros G x Q1 Q2 ? ? E; injection E as <- <-; auto).
  unfold bw_rule in H. destruct (n_op nd) as [vals|u|b|ax kd|t|t|axes|subs| |d bf af|d st]; try discriminate; try (destruct u); try (destruct b); try discriminate; cbn [obind] in H; u1.
  all: repeat match goal with E : inp _ _ = Done _ |- _ => apply HI in E end.
  all: try (repeat one_step; split; [assumption|repeat constructor; assumption]).
Qed.
Definition okgs (gs : grads) : Prop := forall n r, gs n = Some r -> inA r.
Lemma okgs_set gs x r : okgs gs -> inA r -> okgs (set_grad gs x r).
Proof using. intros H Hr n q. unfold set_grad. destruct (Nat.eqb n x); [intros [= <-]; auto|apply H]. Qed.
Lemma u_add_grads : forall xs g gs g' gs', okg g -> okgs gs -> Forall (fun p => inA (snd p)) xs -> add_grads g gs xs = Done (g', gs') -> okg g' /\ okgs gs'.
Proof using.
  induction xs as [|[x gx] xs IH]; intros g gs g' gs' Hg Hs HF H; cbn [add_grads] in H; [injection H as <- <-; auto|]. inversion HF; subst. cbn [snd] in *.
  unfold add_grad in H. destruct (gs x) as [old|] eqn:Ex.
  - destruct (api_binary g BAdd old gx) as [[g1 r1]|] eqn:E1; cbn [obind] in H; [|discriminate]. apply u_binary in E1 as (A1 & A2); eauto.
    eapply IH; [exact A1| |eassumption|exact H]. now apply okgs_set.
  - cbn [obind] in H. eapply IH; [exact Hg| |eassumption|exact H]. now apply okgs_set.
Qed.
Lemma u_funcs : forall fs g gs g' gs' tr, okg g -> okgs gs -> Forall inA fs -> run_funcs g gs fs = Done (g', gs', tr) -> okg g' /\ okgs gs'.
Proof using.
  induction fs as [|f fs IH]; intros g gs g' gs' tr Hg Hs HF H; cbn [run_funcs] in H; [injection H as <- <- <-; auto|]. inversion HF; subst.
  unfold get in H. destruct (nth_error g f) as [nd|] eqn:En; cbn [obind] in H; [|discriminate]. destruct (gs f) as [gr|] eqn:Eg; cbn [obind] in H; [|discriminate].
  destruct (bw_rule g nd f gr) as [[g1 gxs]|] eqn:E1; cbn [obind] in H; [|discriminate]. destruct (add_grads g1 gs (combine (n_in nd) gxs)) as [[g2 gs2]|] eqn:E2; cbn [obind] in H; [|discriminate].
  destruct (run_funcs g2 gs2 fs) as [[[g3 gs3] tr']|] eqn:E3; cbn [obind] in H; [|discriminate]. injection H as <- <- <-.
  apply u_rule in E1 as (A1 & A2); eauto; [|eapply (proj2 Hg); eauto].
  apply u_add_grads in E2 as (B1 & B2); auto.
  - eapply IH; eauto.
  - apply Forall_forall. intros [x gx] Hi. cbn. apply in_combine_r in Hi. rewrite Forall_forall in A2. auto.
Qed.
Lemma depends_inA g y n : okg g -> inA y -> depends g y n -> inA n.
Proof using.
  intros Hg Hy H. induction H; auto. apply IHdepends. pose proof (proj2 Hg _ _ Hy H) as HF. rewrite Forall_forall in HF. auto.
Qed.
Lemma u_backward g gs y g' gs' : reach g -> valid g y -> okg g -> okgs gs -> inA y -> backward g gs y = Done (g', gs') -> okg g' /\ okgs gs'.
Proof using.
  intros Hr Hv Hg Hs Hy H. unfold backward, backward_trace in H.
  assert (HX : forall g1 gs1, reach g1 -> valid g1 y -> okg g1 -> okgs gs1 -> forall tr, run_funcs g1 gs1 (order g1 y) = Done (g', gs', tr) -> okg g' /\ okgs gs').
  { intros g1 gs1 R1 V1 G1 S1 tr E. eapply u_funcs; [exact G1|exact S1| |exact E]. apply Forall_forall. intros f Hf.
    destruct (order_spec g1 (reach_inputs_lt _ R1) y V1) as (_ & O2 & _). apply O2 in Hf as (Hd & _). now apply (depends_inA g1 y). }
  destruct (gs y) as [o|] eqn:Eo; cbn [obind] in H.
  - destruct (run_funcs g gs (order g y)) as [[[G GS] tr]|] eqn:E; cbn [obind] in H; [|discriminate]. injection H as <- <-. eapply HX; eauto.
  - destruct (api_ones_like g y) as [[g1 o]|] eqn:E1; cbn [obind] in H; [|discriminate].
    destruct (run_funcs g1 (set_grad gs y o) (order g1 y)) as [[[G GS] tr]|] eqn:E; cbn [obind] in H; [|discriminate]. injection H as <- <-.
    destruct (call_steps g (COnesLike y) g1 o Hr Hv E1) as (R1 & X1 & V1). destruct (u_ones_like g y Hg _ _ E1) as (A1 & A2).
    eapply HX; [exact R1|eapply ext_valid; eauto|exact A1|apply (okgs_set gs y o Hs A2)|exact E].
Qed.
End Uses.

(* any extension of the graph that uses only living arrays is a sequence of API calls of the process *)
Section H.
Context (B : cpu_backend) (C : desc -> Prop).
Lemma glater_steps s0 n0 g' : okg n0 (fun n => dv_alive B s0 n = true) g' -> forall s, glater B C s0 s -> steps1 (dv_graph B s) g' ->
  (n0 <= length (dv_graph B s))%nat -> (forall n, dv_alive B s n = if Nat.ltb n n0 then dv_alive B s0 n else Nat.ltb n (length (dv_graph B s))) ->
  exists s', glater B C s0 s' /\ dv_graph B s' = g' /\ dv_cache B s' = dv_cache B s /\ dv_ptr B s' = dv_ptr B s /\ dv_mem B s' = dv_mem B s /\ dv_log B s' = dv_log B s /\
    (forall n, (n < length (dv_graph B s))%nat -> dv_host B s' n = dv_host B s n) /\
    forall n, dv_alive B s' n = if Nat.ltb n n0 then dv_alive B s0 n else Nat.ltb n (length g').
Proof.
  intros HO s Hs H. remember (dv_graph B s) as g eqn:Eg. revert s Hs Eg. induction H as [g|g c g1 r g' H1 H2 H3 H IH]; intros s Hs Eg Hn Ha.
  - exists s. rewrite <- Eg. repeat (split; [auto; fail|]). exact Ha.
  - subst g. destruct (run_call_appends _ _ _ _ H2) as (h & Eh & _). destruct (steps1_appends _ _ H) as (h' & Eh').
    assert (HU : uses_alive B s c).
    { intros g2 r2 n nd i E2 Hl Hnn Hi Hil. rewrite H2 in E2. injection E2 as <- <-. rewrite Ha.
      destruct (Nat.ltb i n0) eqn:Ei; [|now apply Nat.ltb_lt]. apply Nat.ltb_lt in Ei.
      assert (Hng : nth_error g' n = Some nd) by (rewrite Eh', nth_error_app1; [exact Hnn|apply nth_error_Some; congruence]).
      pose proof (proj2 HO n nd ltac:(unfold inA; lia) Hng) as HF. rewrite Forall_forall in HF. exact (HF i Hi Ei). }
    pose proof (gla_call B C s0 s c Hs H1 HU) as Hs1. unfold gcall in Hs1. rewrite H2 in Hs1. cbn [fst] in Hs1.
    match type of Hs1 with glater _ _ _ ?t => destruct (IH HO t Hs1 eq_refl) as (s' & A1 & A2 & A3 & A4 & A5 & A6 & A7 & A8) end.
    + cbn [dv_graph]. rewrite Eh, app_length. lia.
    + intros n. cbn [dv_alive dv_graph]. destruct (Nat.ltb n (length (dv_graph B s))) eqn:El; [rewrite Ha; destruct (Nat.ltb n n0); [reflexivity|]; rewrite El; symmetry; apply Nat.ltb_lt; apply Nat.ltb_lt in El; rewrite Eh, app_length; lia|].
      apply Nat.ltb_ge in El. destruct (Nat.ltb_spec n n0); [lia|reflexivity].
    + exists s'. repeat (split; [assumption|]). split; [|exact A8]. intros n Hl. cbn [dv_graph dv_host] in A7. rewrite A7 by (rewrite Eh, app_length; lia). now rewrite (proj2 (Nat.ltb_lt _ _) Hl).
Qed.
Lemma ghist_later safe s t : ghist B safe C s -> glater B C s t -> safe = true -> ghist B safe C t.
Proof. intros Hs H ->. induction H; [assumption|now apply gh_call|eapply gh_mat; eauto|apply gh_tolist; auto|now apply gh_die|now apply gh_reset]. Qed.
End H.
