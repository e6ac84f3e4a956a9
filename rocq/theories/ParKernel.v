(* A kernel run by several threads. *)
From Coq Require Import Permutation.
From Verif Require Import Base BaseFacts Util UtilFacts Lang Spec Graph Denote DenoteFacts Reach Algo AlgoSem AlgoConv AlgoFuse2
  Kernel Sched Codegen KernFacts RenderFacts KernelOk RunFacts SchedFacts SchedGpu Nest NestSched NestBody Parallel.

Lemma filled_unique (L : lang) s (f : list Z -> res (val L)) l1 l2 : Forall (fun d => 0 <= d) s ->
  Z.of_nat (length l1) = zprod s -> Z.of_nat (length l2) = zprod s -> filled L s f l1 -> filled L s f l2 -> l1 = l2.
Proof.
  intros Hs H1 H2 F1 F2. apply nth_error_ext'. intros k. destruct (Nat.lt_ge_cases k (length l1)) as [Hk|Hk].
  - assert (Hi : 0 <= Z.of_nat k < zprod s) by lia.
    destruct (F1 _ (unflat_in_range s _ Hs Hi)) as (v1 & E1 & N1). destruct (F2 _ (unflat_in_range s _ Hs Hi)) as (v2 & E2 & N2).
    rewrite flat_unflat in N1, N2 by assumption. unfold znth in *. destruct (Z.of_nat k <? 0) eqn:E; [lia|]. rewrite Nat2Z.id in N1, N2. congruence.
  - rewrite !(proj2 (nth_error_None _ _)); auto; lia.
Qed.
Lemma in_tuples gp ls zs : In zs (tuples gp ls) <-> Forall2 (fun l z => In z (lvals gp l)) ls zs.
Proof.
  revert zs. induction ls as [|l ls IH]; intros zs; cbn.
  - split; [intros [<-|[]]; constructor|inversion 1; now left].
  - rewrite in_flat_map. split.
    + intros (z & Hz & Hin). apply in_map_iff in Hin as (t & <- & Ht). constructor; auto. now apply IH.
    + inversion 1; subst. eexists. split; [eassumption|]. apply in_map. now apply IH.
Qed.
Lemma NoDup_lvals gp l : NoDup (lvals gp l).
Proof. unfold lvals. destruct (ls_exec l); try apply NoDup_zrange; repeat constructor; auto. Qed.
Lemma NoDup_prod (zs : list Z) (ts : list (list Z)) : NoDup zs -> NoDup ts -> NoDup (flat_map (fun z => map (cons z) ts) zs).
Proof.
  intros Hz Ht. apply NoDup_flat_map; auto.
  - intros i _. apply FinFun.Injective_map_NoDup; [|assumption]. intros a b H. congruence.
  - intros i j b _ _ Hi Hj. apply in_map_iff in Hi as (? & <- & _). apply in_map_iff in Hj as (? & E & _). congruence.
Qed.
Lemma NoDup_tuples gp ls : NoDup (tuples gp ls).
Proof. induction ls as [|l ls IH]; cbn; [repeat constructor; auto|]. apply NoDup_prod; auto. apply NoDup_lvals. Qed.
Lemma NoDup_filter_map {A B} (h : A -> B) (p : A -> bool) l : NoDup l -> (forall x y, In x l -> In y l -> p x = true -> p y = true -> h x = h y -> x = y) ->
  NoDup (map h (filter p l)).
Proof.
  induction 1 as [|x l Hx _ IH]; intros Hi; cbn; [constructor|]. destruct (p x) eqn:Ep; [|apply IH; intros; apply Hi; auto; now right].
  cbn. constructor; [|apply IH; intros; apply Hi; auto; now right].
  intros H. apply in_map_iff in H as (y & Hy & Hin). apply filter_In in Hin as [Hin Hp]. apply Hx.
  replace x with y; auto. apply Hi; auto; [now right|now left].
Qed.

Section Pool.
Context (L : lang).
Notation V := (val L).
Context (s : list Z) (Hs0 : Forall (fun d => 0 <= d) s) (f : list Z -> res V) (Hok : forall idx, in_range s idx -> exists v, f idx = Ok v).
Context (fac : nat -> option Z) (loops : list loopsched) (spls : list splitloop) (HN : nestok s fac loops spls).
Notation nms := (map lnm loops).
Notation crd := (coords s fac nms).
Notation ibeh := (ibeh L s f fac loops).

Definition fv (idx : list Z) : V := match f idx with Ok v => v | _ => lit L 0 end.
Definition wof (zs : list Z) : wr L := (NOut, flat s (crd zs), fv (crd zs)).
Definition live (zs : list Z) : bool := in_rangeb s (crd zs).

Lemma ibeh_live zs : live zs = true -> ibeh zs = ([wof zs], OkO FNorm).
Proof using Hok.
  intros H. unfold NestBody.ibeh, live in *. cbn zeta. rewrite H. apply in_rangeb_spec in H. destruct (Hok _ H) as [v Hv].
  unfold wof, fv. now rewrite Hv.
Qed.
(* iterations that are all live, or all dead *)
Lemma nseq_uniform ts : (forall t, In t ts -> live t = true) \/ (forall t, In t ts -> live t = false) ->
  exists fl, nseq L ibeh ts = (map wof (filter live ts), OkO fl).
Proof using Hok.
  intros [H|H].
  - exists FNorm. induction ts as [|t ts IH]; cbn; auto. rewrite (ibeh_live t) by (apply H; now left). rewrite H by now left. cbn.
    rewrite IH by (intros; apply H; now right). reflexivity.
  - destruct ts as [|t ts]; [exists FNorm; reflexivity|]. exists FReturn.
    rewrite filter_all_false by exact H. cbn [nseq]. unfold NestBody.ibeh at 1. specialize (H t (or_introl eq_refl)). unfold live in H. cbn zeta. rewrite H. reflexivity.
Qed.

(* threads that run the iterations [tss], which visit every element exactly once *)
Theorem pool_fill {A} (loc : name -> option nat) (m : store L) (o : nat) (out : list V) (ts : list (prog L A)) (tss : list (list (list Z))) :
  loc NOut = Some o -> m o = Some out -> Z.of_nat (length out) = zprod s ->
  Forall2 (fun p zss => does L (inp_of L loc m o) p (map wof (filter live zss))) ts tss ->
  NoDup (concat tss) -> Forall (lrange loops) (concat tss) -> (forall idx, in_range s idx -> In (slices fac loops idx) (concat tss)) ->
  NoDup (map (pos L) (map wof (filter live (concat tss)))) /\
  exists N, forall n ts' m', psteps L loc n (ts, m) (ts', m') ->
    (n <= N)%nat /\ ~ race L loc ts' /\ (finished L ts' \/ exists st, pstep L loc (ts', m') st) /\
    (finished L ts' -> exists out', m' o = Some out' /\ length out' = length out /\ filled L s f out' /\ forall b, b <> o -> m' b = m b).
Proof using Hok HN Hs0.
  intros Ho Hm Hlen HT HND HR Hcov. rewrite Forall_forall in HR.
  assert (HN1 : NoDup (map (pos L) (map wof (filter live (concat tss))))).
  { rewrite map_map. apply NoDup_filter_map; auto. intros x y Hx Hy Px Py He. unfold wof, pos in He. cbn in He.
    unfold live in Px, Py. apply in_rangeb_spec in Px. apply in_rangeb_spec in Py.
    eapply coords_inj; eauto. apply (flat_inj s); auto. }
  split; auto.
  set (ws := map (fun zss => map wof (filter live zss)) tss).
  assert (HC : concat ws = map wof (filter live (concat tss))).
  { unfold ws. clear. induction tss as [|t tss IH]; cbn; auto. now rewrite filter_app, map_app, IH. }
  destruct (par_run L loc ts ws m o out Ho Hm) as (N & HP).
  - unfold ws. clear - HT. induction HT; cbn; constructor; auto.
  - now rewrite HC.
  - rewrite HC. apply Forall_forall. intros w Hw. apply in_map_iff in Hw as (z & <- & Hz). apply filter_In in Hz as [_ Hz]. unfold live in Hz. apply in_rangeb_spec in Hz.
    unfold wof. split; auto. rewrite Hlen. now apply flat_bounds.
  - exists N. intros n ts' m' Hst. destruct (HP n ts' m' Hst) as (H1 & H0 & H2 & H3). split; auto. split; auto. split; auto. intros HF.
    destruct (H3 HF) as [H4 H5]. exists (apply_w L (concat ws) out). split; auto. rewrite apply_w_length. split; auto. split; auto.
    rewrite HC. intros idx Hi. destruct (Hok idx Hi) as [v Hv]. exists v. split; auto.
    assert (HI : In (wof (slices fac loops idx)) (map wof (filter live (concat tss)))).
    { apply in_map. apply filter_In. split; auto. unfold live. rewrite (coords_slices s fac loops spls HN idx Hi). now apply in_rangeb_spec. }
    unfold wof in HI at 1. rewrite (coords_slices s fac loops spls HN idx Hi) in HI.
    assert (Hfv : fv idx = v) by (unfold fv; now rewrite Hv). rewrite Hfv in HI.
    eapply apply_in; [exact HI|rewrite Hlen; now apply flat_bounds|].
    intros n' i' v' Hin He. apply in_map_iff in Hin as (z & Hz1 & Hz2). apply filter_In in Hz2 as [_ Hz2]. unfold live in Hz2. apply in_rangeb_spec in Hz2.
    unfold wof in Hz1. injection Hz1 as <- <- <-. pose proof (flat_bounds _ _ Hz2). pose proof (flat_bounds _ _ Hi).
    assert (crd z = idx) by (apply (flat_inj s); auto; lia). congruence.
Qed.
End Pool.
