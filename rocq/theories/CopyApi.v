(* Running the same API calls again, on copies, makes copies. *)
From Verif Require Import Base BaseFacts Util UtilFacts Lang Spec SpecFacts Graph Api Algo Kernel Sched Codegen Backends CacheKey Runtime ArrayLit ArrayFacts Copy CopyConv CopyKey CopyRun.

Definition agree (dom : list nat) (r r' : nat -> nat) : Prop := forall m, In m dom -> r' m = r m.
(* [dom, r] extended to the arrays added to g1 and g2; n in g1 corresponds to n2 in g2 *)
Definition grown (dom : list nat) (r : nat -> nat) (g1' g2' : graph) (n n2 : nat) : Prop :=
  exists dom' r', copies dom' r' g1' g2' /\ incl dom dom' /\ agree dom r r' /\ In n dom' /\ r' n = n2.

Lemma nth_lt {A} (l : list A) n x : nth_error l n = Some x -> (n < length l)%nat.
Proof. intros H. apply nth_error_Some. congruence. Qed.

Lemma copies_app dom r g1 g2 x y : copies dom r g1 g2 -> same_node r x y -> incl (n_in x) dom ->
  grown dom r (g1 ++ [x]) (g2 ++ [y]) (length g1) (length g2).
Proof.
  intros [Hi Hc] HS Hin. exists (length g1 :: dom), (fun n => if Nat.eqb n (length g1) then length g2 else r n).
  assert (LT : forall n, In n dom -> (n < length g1)%nat /\ (r n < length g2)%nat).
  { intros n Hn. destruct (Hc n Hn) as (a & b & H1 & H2 & _). split; eapply nth_lt; eauto. }
  assert (EQ : forall n, In n dom -> (if Nat.eqb n (length g1) then length g2 else r n) = r n).
  { intros n Hn. destruct (LT n Hn). destruct (Nat.eqb n (length g1)) eqn:E; auto. apply Nat.eqb_eq in E. lia. }
  assert (SN : forall u v, incl (n_in u) dom -> same_node r u v -> same_node (fun n => if Nat.eqb n (length g1) then length g2 else r n) u v).
  { intros u v Hu (S1 & S2 & S3 & S4 & S5 & S6). repeat split; auto. rewrite S6. apply map_ext_in. intros m Hm. symmetry. apply EQ. auto. }
  split; [split|].
  - intros n m [<-|Hn] [<-|Hm] H; auto.
    + rewrite Nat.eqb_refl, (EQ m Hm) in H. destruct (LT m Hm). lia.
    + rewrite Nat.eqb_refl, (EQ n Hn) in H. destruct (LT n Hn). lia.
    + rewrite (EQ n Hn), (EQ m Hm) in H. auto.
  - intros n [<-|Hn].
    + exists x, y. rewrite Nat.eqb_refl, !nth_error_app2, !Nat.sub_diag by lia. repeat split; auto. 1-6: apply SN; auto. apply incl_tl. auto.
    + destruct (Hc n Hn) as (a & b & H1 & H2 & H3 & H4). destruct (LT n Hn). exists a, b. rewrite EQ by auto. rewrite !nth_error_app1 by auto. repeat split; auto. 1-6: apply SN; auto. apply incl_tl. auto.
  - split; [apply incl_tl, incl_refl|]. split; [intros m Hm; now apply EQ|]. split; [now left|]. now rewrite Nat.eqb_refl.
Qed.
Lemma grown_here dom r g1 g2 n : copies dom r g1 g2 -> In n dom -> grown dom r g1 g2 n (r n).
Proof. intros H Hn. exists dom, r. repeat split; auto; try apply H. apply incl_refl. Qed.

Lemma forward_copy dom r g1 g2 op ins g1' n : copies dom r g1 g2 -> incl ins dom -> forward g1 op ins = Done (g1', n) ->
  exists g2' n2, forward g2 op (map r ins) = Done (g2', n2) /\ grown dom r g1' g2' n n2.
Proof.
  intros HC Hin H. unfold forward in *. destruct ins as [|a l]; [discriminate|]. cbn [map]. destruct (proj2 HC a (Hin a (or_introl eq_refl))) as (x & y & N1 & N2 & (S1 & S2 & S3 & S4 & _) & _).
  unfold get in *. rewrite N1 in H. rewrite N2. cbn [obind] in *. destruct (forward_node op (a :: l) x) as [nd|] eqn:EF; cbn [obind] in H; [|discriminate]. injection H as <- <-.
  assert (HX : exists nd2, forward_node op (r a :: map r l) y = Done nd2 /\ same_node r nd nd2 /\ n_in nd = a :: l).
  { unfold forward_node in *. destruct op; try discriminate; unfold fwd_elemwise, fwd_reduce, fwd_reshape, fwd_broadcast, fwd_transpose, fwd_slice, fwd_contiguous, fwd_pad, fwd_dilate, new_node in *;
      rewrite ?S1, ?S2, ?S3, ?S4 in *.
    all: try (match type of EF with context [slice_loop ?a ?b] => destruct (slice_loop a b) as [[o sh] ss] end).
    all: try (destruct (pyupdate _ _ _); [|discriminate]).
    all: injection EF as <-; eexists; split; [reflexivity|]; split; [|reflexivity]; repeat split; reflexivity. }
  destruct HX as (nd2 & -> & HS & Hn). cbn [obind]. eexists _, _. split; [reflexivity|]. apply copies_app; auto. rewrite Hn. exact Hin.
Qed.

(* literals *)
Lemma same_nest_ind' (P : nest num -> nest num -> Prop) : (forall x y, same_num x y -> P (Leaf x) (Leaf y)) ->
  (forall l k, Forall2 same_nest l k -> Forall2 P l k -> P (Nest l) (Nest k)) -> forall v w, same_nest v w -> P v w.
Proof.
  intros H1 H2. fix go 3. intros v w [x y H|l k H]; [auto|]. apply H2; [exact H|]. induction H as [|a b l k Hab Hlk IH]; constructor; [apply go; exact Hab|exact IH].
Qed.
Lemma array_dfs_copy v w : same_nest v w -> forall dim fl fl' sh fl1 sh1, Forall2 same_num fl fl' -> array_dfs v dim fl sh = Done (fl1, sh1) ->
  exists fl1', array_dfs w dim fl' sh = Done (fl1', sh1) /\ Forall2 same_num fl1 fl1'.
Proof.
  induction 1 as [x y Hxy|l k Hlk IH] using same_nest_ind'; intros dim fl fl' sh fl1 sh1 HF H; cbn [array_dfs] in *.
  - injection H as <- <-. eexists. split; [reflexivity|]. apply Forall2_app; auto.
  - assert (LEN : length k = length l) by (clear - Hlk; induction Hlk; cbn; auto). rewrite LEN.
    match type of H with obind ?q _ = _ => destruct q as [sh'|] eqn:Q; cbn [obind] in *; [|discriminate] end. clear Q LEN Hlk.
    revert fl fl' sh' HF H. induction IH as [|a b l k Hab Hlk IHl]; intros fl fl' sh' HF H.
    + injection H as <- <-. eauto.
    + destruct (array_dfs a (S dim) fl sh') as [[f2 s2]|] eqn:E1; cbn [obind] in H; [|discriminate].
      destruct (Hab _ _ _ _ _ _ HF E1) as (f2' & -> & HF2). cbn [obind]. eauto.
Qed.
Lemma const_copy dom r g1 g2 sh fl fl' : copies dom r g1 g2 -> Forall2 same_num fl fl' ->
  grown dom r (g1 ++ [const_node sh fl]) (g2 ++ [const_node sh fl']) (length g1) (length g2).
Proof.
  intros HC HF. apply copies_app; auto; [|intros ? []]. repeat split; auto. cbn. destruct HF as [|x y l k Hxy _]; auto. unfold same_num in Hxy. now rewrite Hxy.
Qed.
Lemma array_copy dom r g1 g2 v w g1' n : copies dom r g1 g2 -> same_nest v w -> api_array g1 v = Done (g1', n) ->
  exists g2' n2, api_array g2 w = Done (g2', n2) /\ grown dom r g1' g2' n n2.
Proof.
  intros HC HS H. unfold api_array in *. destruct (array_dfs v 0 [] []) as [[fl sh]|] eqn:E1; cbn [obind] in H; [|discriminate].
  destruct (array_dfs_copy v w HS _ _ [] _ _ _ (Forall2_nil _) E1) as (fl' & -> & HF). cbn [obind]. unfold api_const in *. injection H as <- <-. eexists _, _. split; [reflexivity|]. now apply const_copy.
Qed.
Lemma same_nest_refl v : same_nest v v.
Proof. induction v using nest_ind'; constructor; [reflexivity|]. induction l as [|x l IH]; constructor; auto. - apply H. now left. - apply IH. intros; apply H. now right. Qed.
Lemma full_copy dom r g1 g2 s v w g1' n : copies dom r g1 g2 -> same_num v w -> api_full g1 s v = Done (g1', n) ->
  exists g2' n2, api_full g2 s w = Done (g2', n2) /\ grown dom r g1' g2' n n2.
Proof.
  intros HC HS H. unfold api_full, api_const in *. injection H as <- <-. eexists _, _. split; [reflexivity|]. apply const_copy; auto.
  induction (Z.to_nat (zprod s)); cbn; constructor; auto.
Qed.
Lemma get_copy dom r g1 g2 a x : copies dom r g1 g2 -> In a dom -> get g1 a = Done x -> exists y, get g2 (r a) = Done y /\ same_node r x y.
Proof. intros HC Ha H. destruct (proj2 HC a Ha) as (x' & y & N1 & N2 & HS & _). unfold get in *. rewrite N1 in H. injection H as <-. rewrite N2. eauto. Qed.
Lemma grown_trans dom r g1 g2 dom1 r1 g3 g4 n m : copies dom1 r1 g1 g2 -> incl dom dom1 -> agree dom r r1 -> grown dom1 r1 g3 g4 n m -> grown dom r g3 g4 n m.
Proof.
  intros _ HI HA (dom2 & r2 & HC2 & HI2 & HA2 & Hn & Hm). exists dom2, r2. split; auto. split; [eapply incl_tran; eauto|]. split; auto. intros k Hk. rewrite HA2; auto.
Qed.
Lemma binary_copy dom r g1 g2 b l rr g1' n : copies dom r g1 g2 -> In l dom -> In rr dom -> api_binary g1 b l rr = Done (g1', n) ->
  exists g2' n2, api_binary g2 b (r l) (r rr) = Done (g2', n2) /\ grown dom r g1' g2' n n2.
Proof.
  intros HC Hl Hr H. unfold api_binary, api_broadcasted in *.
  destruct (get g1 l) as [xl|] eqn:Gl; cbn [obind] in H; [|discriminate]. destruct (get g1 rr) as [xr|] eqn:Gr; cbn [obind] in H; [|discriminate].
  destruct (get_copy _ _ _ _ _ _ HC Hl Gl) as (yl & -> & Sl). destruct (get_copy _ _ _ _ _ _ HC Hr Gr) as (yr & -> & Sr). cbn [obind].
  replace (n_shape yl) with (n_shape xl) by (symmetry; apply Sl). replace (n_shape yr) with (n_shape xr) by (symmetry; apply Sr).
  destruct (bshape (n_shape xl) (n_shape xr)) as [ns|]; cbn [obind] in *; [|discriminate].
  assert (ST : forall dom r g1 g2 a cond g3 m, copies dom r g1 g2 -> In a dom -> (if cond : bool then Done (g1, a) else api_broadcast_to g1 a ns) = Done (g3, m) ->
     exists g4 m2, (if cond then Done (g2, r a) else api_broadcast_to g2 (r a) ns) = Done (g4, m2) /\ grown dom r g3 g4 m m2).
  { clear. intros dom r g1 g2 a [] g3 m HC Ha H.
    - injection H as <- <-. eexists _, _. split; [reflexivity|]. now apply grown_here.
    - apply (forward_copy dom r g1 g2 _ [a]); auto. intros ? [<-|[]]; auto. }
  destruct (if list_zeqb (n_shape xl) ns then Done (g1, l) else api_broadcast_to g1 l ns) as [[g3 l1]|] eqn:B1; cbn [obind] in H; [|discriminate].
  destruct (ST dom r g1 g2 l _ g3 l1 HC Hl B1) as (g4 & l2 & B2 & dom1 & r1 & HC1 & HI1 & HA1 & Hl1 & E1). rewrite B2. cbn [obind].
  destruct (if list_zeqb (n_shape xr) ns then Done (g3, rr) else api_broadcast_to g3 rr ns) as [[g5 rr1]|] eqn:B3; cbn [obind] in H; [|discriminate].
  destruct (ST dom1 r1 g3 g4 rr _ g5 rr1 HC1 (HI1 _ Hr) B3) as (g6 & rr2 & B4 & dom2 & r2 & HC2 & HI2 & HA2 & Hr1 & E2).
  rewrite (HA1 rr Hr) in B4. rewrite B4. cbn [obind].
  destruct (forward_copy dom2 r2 g5 g6 (OBin b) [l1; rr1] g1' n HC2) as (g7 & n2 & F & HG); auto.
  { intros ? [<-|[<-|[]]]; auto. }
  cbn [map] in F. rewrite (HA2 l1 Hl1), E1, E2 in F. exists g7, n2. split; auto.
  eapply grown_trans; [exact HC1|auto|auto|]. eapply grown_trans; [exact HC2|auto|auto|]. exact HG.
Qed.
Lemma contiguous_copy dom r g1 g2 a g1' n : copies dom r g1 g2 -> In a dom -> api_contiguous g1 a = Done (g1', n) ->
  exists g2' n2, api_contiguous g2 (r a) = Done (g2', n2) /\ grown dom r g1' g2' n n2.
Proof.
  intros HC Ha H. unfold api_contiguous in *. destruct (get g1 a) as [x|] eqn:G; cbn [obind] in H; [|discriminate]. destruct (get_copy _ _ _ _ _ _ HC Ha G) as (y & -> & (S1 & S2 & S3 & S4 & _)). cbn [obind].
  unfold is_contiguous in *. rewrite S2, S3. destruct (list_zeqb _ _).
  - injection H as <- <-. eexists _, _. split; [reflexivity|]. now apply grown_here.
  - apply (forward_copy dom r g1 g2 _ [a]); auto. intros ? [<-|[]]; auto.
Qed.

Lemma run_call_copy dom r g1 g2 c c' g1' n : copies dom r g1 g2 -> incl (call_args c) dom -> same_call r c c' -> run_call g1 c = Done (g1', n) ->
  exists g2' n2, run_call g2 c' = Done (g2', n2) /\ grown dom r g1' g2' n n2.
Proof.
  intros HC Hin HS H.
  assert (ONE : forall op a g3 m, In a dom -> forward g1 op [a] = Done (g3, m) -> exists g4 m2, forward g2 op [r a] = Done (g4, m2) /\ grown dom r g3 g4 m m2).
  { intros op a g3 m Ha HF. apply (forward_copy dom r g1 g2 op [a]); auto. intros ? [<-|[]]; auto. }
  assert (A1 : forall a, call_args c = [a] -> In a dom) by (intros a E; apply Hin; rewrite E; now left).
  destruct c, c'; cbn [same_call rename_call] in HS; try contradiction; try discriminate; try (injection HS as; subst); cbn [run_call call_args] in *.
  all: try match goal with H : ?c = ?d |- _ => first [discriminate H | injection H; intros; subst; clear H] end.
  all: repeat match goal with H : _ /\ _ |- _ => destruct H; subst end.
  - eapply array_copy; eauto.
  - eapply array_copy; eauto. apply same_nest_refl.
  - eapply full_copy; eauto.
  - unfold api_full_like in *. specialize (A1 t eq_refl). destruct (get g1 t) as [x|] eqn:G; cbn [obind] in H; [|discriminate]. destruct (get_copy _ _ _ _ _ _ HC A1 G) as (y & -> & (S1 & S2 & S3 & S4 & _)). cbn [obind].
    rewrite S2. eapply full_copy; eauto.
  - unfold api_ones_like, api_full_like in *. specialize (A1 t eq_refl). destruct (get g1 t) as [x|] eqn:G; cbn [obind] in H; [|discriminate]. destruct (get_copy _ _ _ _ _ _ HC A1 G) as (y & -> & (S1 & S2 & S3 & S4 & _)). cbn [obind].
    rewrite S1, S2. eapply full_copy; eauto. reflexivity.
  - unfold api_zeros_like, api_full_like in *. specialize (A1 t eq_refl). destruct (get g1 t) as [x|] eqn:G; cbn [obind] in H; [|discriminate]. destruct (get_copy _ _ _ _ _ _ HC A1 G) as (y & -> & (S1 & S2 & S3 & S4 & _)). cbn [obind].
    rewrite S2. eapply full_copy; eauto. reflexivity.
  - apply ONE; auto.
  - eapply binary_copy; eauto; apply Hin; cbn; auto.
  - unfold api_binary_scalar in *. specialize (A1 l eq_refl). destruct (api_array g1 (Leaf v)) as [[g3 k]|] eqn:E1; cbn [obind] in H; [|discriminate].
    destruct (array_copy dom r g1 g2 (Leaf v) (Leaf v0) _ _ HC ltac:(apply sn_leaf; assumption) E1) as (g4 & k2 & -> & dom1 & r1 & HC1 & HI1 & HA1 & Hk & Ek). cbn [obind].
    destruct (binary_copy dom1 r1 g3 g4 b l k g1' n HC1 (HI1 _ A1) Hk H) as (g5 & n2 & F & HG). rewrite (HA1 l A1), Ek in F.
    exists g5, n2. split; auto. eapply grown_trans; eauto.
  - unfold api_sum in *. specialize (A1 a eq_refl). destruct (get g1 a) as [x|] eqn:G; cbn [obind] in H; [|discriminate]. destruct (get_copy _ _ _ _ _ _ HC A1 G) as (y & -> & (S1 & S2 & S3 & S4 & _)). cbn [obind].
    rewrite S2. destruct (norm_axis _ _); cbn [obind] in *; [|discriminate]. apply ONE; auto.
  - unfold api_getitem in *. specialize (A1 a eq_refl). destruct (get g1 a) as [x|] eqn:G; cbn [obind] in H; [|discriminate]. destruct (get_copy _ _ _ _ _ _ HC A1 G) as (y & -> & (S1 & S2 & S3 & S4 & _)). cbn [obind].
    rewrite S2. destruct (Nat.ltb _ _); [discriminate|]. destruct (norm_subs _ _); cbn [obind] in *; [|discriminate]. apply ONE; auto.
  - apply ONE; auto.
  - unfold api_reshape in *. specialize (A1 a eq_refl). destruct (get g1 a) as [x|] eqn:G; cbn [obind] in H; [|discriminate]. destruct (get_copy _ _ _ _ _ _ HC A1 G) as (y & -> & (S1 & S2 & S3 & S4 & _)). cbn [obind].
    rewrite S2. destruct (negb _); [discriminate|]. destruct (api_contiguous g1 a) as [[g3 k]|] eqn:E1; cbn [obind] in H; [|discriminate].
    destruct (contiguous_copy dom r g1 g2 a g3 k HC A1 E1) as (g4 & k2 & -> & dom1 & r1 & HC1 & HI1 & HA1 & Hk & Ek). cbn [obind].
    destruct (forward_copy dom1 r1 g3 g4 (OReshape shape) [k] g1' n HC1) as (g5 & n2 & F & HG); auto. { intros ? [<-|[]]; auto. }
    cbn [map] in F. rewrite Ek in F. exists g5, n2. split; auto. eapply grown_trans; eauto.
  - unfold api_transpose in *. specialize (A1 a eq_refl). destruct (get g1 a) as [x|] eqn:G; cbn [obind] in H; [|discriminate]. destruct (get_copy _ _ _ _ _ _ HC A1 G) as (y & -> & (S1 & S2 & S3 & S4 & _)). cbn [obind].
    rewrite S2. destruct (negb _); [discriminate|]. apply ONE; auto.
  - unfold api_T, api_transpose in *. specialize (A1 a eq_refl). destruct (get g1 a) as [x|] eqn:G; cbn [obind] in H; [|discriminate]. destruct (get_copy _ _ _ _ _ _ HC A1 G) as (y & G2 & (S1 & S2 & S3 & S4 & _)). rewrite G2. cbn [obind].
    rewrite S2. destruct (Nat.leb _ _); [injection H as <- <-; eexists _, _; split; [reflexivity|now apply grown_here]|]. destruct (negb _); [discriminate|]. apply ONE; auto.
  - eapply contiguous_copy; eauto.
  - unfold api_pad in *. specialize (A1 a eq_refl). destruct (get g1 a) as [x|] eqn:G; cbn [obind] in H; [|discriminate]. destruct (get_copy _ _ _ _ _ _ HC A1 G) as (y & -> & (S1 & S2 & S3 & S4 & _)). cbn [obind].
    rewrite S2. destruct (_ <=? _); [discriminate|]. destruct (_ && _); [injection H as <- <-; eexists _, _; split; [reflexivity|now apply grown_here]|]. apply ONE; auto.
  - unfold api_dilate in *. specialize (A1 a eq_refl). destruct (get g1 a) as [x|] eqn:G; cbn [obind] in H; [|discriminate]. destruct (get_copy _ _ _ _ _ _ HC A1 G) as (y & -> & (S1 & S2 & S3 & S4 & _)). cbn [obind].
    rewrite S2. destruct (_ <=? _); [discriminate|]. destruct (_ =? _); [injection H as <- <-; eexists _, _; split; [reflexivity|now apply grown_here]|]. apply ONE; auto.
Qed.

(* ---- running a fragment again *)
Section Body.
Context (B : cpu_backend).

Lemma run_body_grow l : forall env s s' o, run_body B l env s = (s', o) -> cache_le B s s'.
Proof.
  induction l as [|[c|i] l IH]; intros env s s' o H; cbn [run_body] in H.
  - injection H as <- <-. apply cache_le_refl.
  - destruct (forallb _ _); [|injection H as <- <-; apply cache_le_refl].
    destruct (api_call B s _) as [s1 o1] eqn:E1. pose proof (api_call_grow B s (rename_call (fun i => nth i env 0%nat) c)) as [HX _]. rewrite E1 in HX. cbn [fst] in HX.
    assert (L1 : cache_le B s s1) by (unfold cache_le; now rewrite HX).
    destruct o1; [|injection H as <- <-; auto]. eapply cache_le_trans; eauto.
  - destruct (Nat.ltb _ _); [|injection H as <- <-; apply cache_le_refl].
    destruct (materialize B s _) as [s1 o1] eqn:E1. apply materialize_grow in E1 as [_ L1]. destruct o1; [|injection H as <- <-; auto]. eapply cache_le_trans; eauto.
Qed.
Lemma forward_len g op ins g' n : forward g op ins = Done (g', n) -> (length g <= length g')%nat.
Proof. unfold forward. destruct ins; [discriminate|]. destruct (get g n0); cbn; [|discriminate]. destruct (forward_node _ _ _); cbn; [|discriminate]. intros H. injection H as <- <-. rewrite app_length. lia. Qed.
Lemma array_len g v g' n : api_array g v = Done (g', n) -> (length g <= length g')%nat.
Proof. unfold api_array. destruct (array_dfs _ _ _ _) as [[fl sh]|]; cbn; [|discriminate]. intros H. injection H as <- <-. rewrite app_length. lia. Qed.
Lemma full_len g s v g' n : api_full g s v = Done (g', n) -> (length g <= length g')%nat.
Proof. unfold api_full, api_const. intros H. injection H as <- <-. rewrite app_length. lia. Qed.
Lemma binary_len g b l r g' n : api_binary g b l r = Done (g', n) -> (length g <= length g')%nat.
Proof.
  unfold api_binary, api_broadcasted. destruct (get g l); cbn [obind]; [|discriminate]. destruct (get g r); cbn [obind]; [|discriminate]. destruct (bshape _ _) as [ns|]; cbn [obind]; [|discriminate].
  assert (ST : forall (c : bool) g a g3 m, (if c then Done (g, a) else api_broadcast_to g a ns) = Done (g3, m) -> (length g <= length g3)%nat).
  { intros [] g0 x g3 m H; [injection H as <- <-; lia|]. eapply forward_len; exact H. }
  destruct (if list_zeqb (n_shape a) ns then _ else _) as [[g1 l1]|] eqn:E1; cbn [obind]; [|discriminate].
  destruct (if list_zeqb (n_shape a0) ns then _ else _) as [[g2 l2]|] eqn:E2; cbn [obind]; [|discriminate].
  intros H. apply ST in E1, E2. apply forward_len in H. lia.
Qed.
Lemma contiguous_len g a g' n : api_contiguous g a = Done (g', n) -> (length g <= length g')%nat.
Proof. unfold api_contiguous. destruct (get g a); cbn [obind]; [|discriminate]. destruct (is_contiguous _); intros H; [injection H as <- <-; lia|eapply forward_len; exact H]. Qed.
Lemma run_call_len g c g' n : run_call g c = Done (g', n) -> (length g <= length g')%nat.
Proof.
  destruct c; cbn [run_call]; intros H.
  all: try (eapply array_len; eassumption). all: try (eapply full_len; eassumption). all: try (eapply forward_len; eassumption).
  all: try (eapply binary_len; eassumption). all: try (eapply contiguous_len; eassumption).
  all: unfold api_full_like, api_ones_like, api_zeros_like, api_full_like, api_binary_scalar, api_sum, api_getitem, api_reshape, api_transpose, api_T, api_transpose, api_pad, api_dilate in H.
  all: try (destruct (get g _) as [nd|] eqn:EG; cbn [obind] in H; [|discriminate]).
  all: try rewrite EG in H; cbn [obind] in H.
  all: try (eapply full_len; eassumption).
  all: try (match type of H with obind (norm_axis _ _) _ = _ => destruct (norm_axis _ _); cbn [obind] in H; [|discriminate] end).
  all: try (match type of H with (if ?c then _ else _) = _ => destruct c; try discriminate end).
  all: try (match type of H with (if ?c then _ else _) = _ => destruct c; try discriminate end).
  all: try (injection H as <- <-; lia).
  all: try (eapply forward_len; exact H).
  - destruct (api_array g (Leaf v)) as [[g1 k]|] eqn:E1; cbn [obind] in H; [|discriminate]. apply array_len in E1. apply binary_len in H. lia.
  - destruct (norm_subs _ _); cbn [obind] in H; [|discriminate]. eapply forward_len; eassumption.
  - destruct (api_contiguous g a) as [[g1 k]|] eqn:E1; cbn [obind] in H; [|discriminate]. apply contiguous_len in E1. apply forward_len in H. lia.
Qed.
Lemma api_call_len s c s' o : api_call B s c = (s', o) -> (length (r_graph B s) <= length (r_graph B s'))%nat.
Proof. unfold api_call. destruct (run_call _ _) as [[g' n]|] eqn:E; intros H; injection H as <- <-; cbn; [eapply run_call_len; eauto|lia]. Qed.
Lemma run_body_len l : forall env s s' o, run_body B l env s = (s', o) -> (length (r_graph B s) <= length (r_graph B s'))%nat.
Proof.
  induction l as [|[c|i] l IH]; intros env s s' o H; cbn [run_body] in H.
  - injection H as <- <-. lia.
  - destruct (forallb _ _); [|injection H as <- <-; lia].
    destruct (api_call B s _) as [s1 o1] eqn:E1. apply api_call_len in E1. destruct o1; [|injection H as <- <-; auto]. apply IH in H. lia.
  - destruct (Nat.ltb _ _); [|injection H as <- <-; lia].
    destruct (materialize B s _) as [s1 o1] eqn:E1. apply materialize_grow in E1 as [E1 _]. rewrite <- E1. destruct o1; [|injection H as <- <-; auto]. eauto.
Qed.

Lemma same_call_env r env c c' : forallb (fun i => Nat.ltb i (length env)) (call_args c) = true -> same_call (fun i => i) c c' ->
  call_args c' = call_args c /\ same_call r (rename_call (fun i => nth i env 0%nat) c) (rename_call (fun i => nth i (map r env) 0%nat) c') /\
  incl (call_args (rename_call (fun i => nth i env 0%nat) c)) env.
Proof.
  intros HA HS. rewrite forallb_forall in HA.
  assert (NT : forall i, In i (call_args c) -> nth i (map r env) 0%nat = r (nth i env 0%nat) /\ In (nth i env 0%nat) env).
  { intros i Hi. specialize (HA i Hi). apply Nat.ltb_lt in HA. split; [|now apply nth_In]. rewrite (nth_indep _ 0%nat (r 0%nat)) by (rewrite map_length; auto). apply map_nth. }
  destruct c, c'; cbn [same_call rename_call call_args] in *; try contradiction; try discriminate.
  all: try match goal with H : ?c = ?d |- _ => first [discriminate H | injection H; intros; subst; clear H] end.
  all: repeat match goal with H : _ /\ _ |- _ => destruct H; subst end.
  all: try (split; [reflexivity|]; split; [assumption|intros ? []]).
  all: try (split; [reflexivity|]; split; [reflexivity|intros ? []]).
  all: try (split; [reflexivity|]; split; [split; auto|intros ? []]; fail).
  all: try (match type of NT with context [In _ [?k]] => destruct (NT k (or_introl eq_refl)) as [N1 N2] end; split; [reflexivity|]; split; [rewrite ?N1; auto|intros ? [<-|[]]; auto]; fail).
  - destruct (NT l (or_introl eq_refl)) as [N1 N2]. destruct (NT r0 (or_intror (or_introl eq_refl))) as [N3 N4]. split; auto. split; [now rewrite N1, N3|]. intros ? [<-|[<-|[]]]; auto.
Qed.

(* first run: from s, succeeded at s1; the second from t *)
Lemma run_body_copy l l' : Forall2 same_step l l' -> forall dom r env s s1 env1 t t' o, copies dom r (r_graph B s) (r_graph B t) -> incl env dom ->
  run_body B l env s = (s1, Done env1) -> cache_le B s1 t -> (length (r_graph B s1) <= length (r_graph B t))%nat ->
  run_body B l' (map r env) t = (t', o) ->
  same_code B t t' /\ forall env2, o = Done env2 -> exists dom' r', copies dom' r' (r_graph B s1) (r_graph B t') /\ incl env1 dom' /\ env2 = map r' env1.
Proof.
  induction 1 as [|x y l l' Hxy Hl IH]; intros dom r env s s1 env1 t t' o HC Hin H1 HL Hlen H2.
  { cbn in H1, H2. injection H1 as <- <-. injection H2 as <- <-. split; [split; auto|]. intros env2 H. injection H as <-. eauto. }
  destruct x as [c|i], y as [c'|j]; cbn in Hxy; try contradiction.
  - cbn [run_body] in H1, H2. destruct (forallb _ (call_args c)) eqn:HA; [|discriminate].
    destruct (same_call_env r env c c' HA Hxy) as (EA & HS & HI). rewrite EA, map_length, HA in H2.
    destruct (api_call B s _) as [s2 o2] eqn:E1. destruct o2 as [n|]; [|discriminate]. unfold api_call in E1, H2.
    destruct (run_call (r_graph B s) _) as [[g1' n']|] eqn:R1; [|discriminate]. injection E1 as <- ->.
    destruct (run_call_copy dom r _ _ _ _ _ _ HC ltac:(eapply incl_tran; eauto) HS R1) as (g2' & n2 & R2 & dom1 & r1 & HC1 & HI1 & HA1 & Hn & En).
    rewrite R2 in H2. subst n2.
    assert (EV : map r env ++ [r1 n] = map r1 (env ++ [n])).
    { rewrite map_app. cbn. f_equal. apply map_ext_in. intros m Hm. symmetry. apply HA1. auto. }
    rewrite EV in H2. match type of H2 with run_body _ _ _ ?u = _ => set (t1 := u) in * end. match type of H1 with run_body _ _ _ ?u = _ => set (s2 := u) in * end.
    destruct (IH dom1 r1 (env ++ [n]) s2 s1 env1 t1 t' o HC1 ltac:(intros m Hm; apply in_app_or in Hm as [Hm|[<-|[]]]; auto) H1) as [[C1 T1] K]; auto.
    { cbn [t1 r_graph]. apply run_call_len in R2. lia. }
    split; auto. split; [exact C1|exact T1].
  - subst j. cbn [run_body] in H1, H2. rewrite map_length in H2. destruct (Nat.ltb i (length env)) eqn:Hi; [|discriminate]. apply Nat.ltb_lt in Hi.
    rewrite (nth_indep _ 0%nat (r 0%nat)) in H2 by (rewrite map_length; auto). rewrite map_nth in H2.
    destruct (materialize B s _) as [s2 o2] eqn:E1. destruct o2 as [u|]; [|discriminate]. destruct u.
    pose proof (run_body_grow _ _ _ _ _ H1) as L1. pose proof (run_body_len _ _ _ _ _ H1) as N1. destruct (materialize_grow _ _ _ _ _ E1) as [G1 _].
    destruct (materialize B t _) as [t2 o3] eqn:E2.
    assert (SC : same_code B t t2).
    { eapply materialize_copy; [|rewrite <- G1; lia|exact E1|eapply cache_le_trans; eauto|exact E2]. exists dom, r. split; auto. apply Hin, nth_In. auto. }
    destruct (materialize_grow _ _ _ _ _ E2) as [G2 _]. destruct o3 as [u|e].
    + destruct SC as [C1 T1]. destruct (IH dom r env s2 s1 env1 t2 t' o) as [[C2 T2] K]; auto.
      * rewrite G1, G2. exact HC.
      * unfold cache_le. rewrite C1. exact HL.
      * rewrite G2. lia.
      * split; auto. split; congruence.
    + injection H2 as <- <-. split; auto. discriminate.
Qed.
End Body.
