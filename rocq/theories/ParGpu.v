(* GPU launches: the threads of a grid of blocks run the kernel body, each with its own coordinates. *)
From Coq Require Import Permutation.
From Verif Require Import Base BaseFacts Util UtilFacts Lang Spec Graph Api Denote SpecFacts DenoteFacts Reach ApiFacts FrontFacts
  Algo AlgoSem AlgoConv AlgoConv2 AlgoFuse AlgoFuse2 AlgoConvert AlgoConvert2
  Kernel Sched Codegen Backends KernFacts RenderFacts KernelOk RunFacts SchedFacts SchedGpu KernelRun KernelRun2 BackendFacts AlgoTop AlgoMore Safety
  Nest NestSched NestBody Parallel ParKernel ParCpu ParTop.

(* position of a coordinate in (grid.x, grid.y, grid.z, block.x, block.y, block.z) *)
Definition axpos (b : bool) (ax : axis) : nat := ((if b then 0 else 3) + match ax with AX => 0 | AY => 1 | AZ => 2 end)%nat.
(* backend.py:53-62: grid and block extents; starts from (1,1,1),(1,1,1), later loops overwrite *)
Definition launch_step (d : list Z) (l : loopsched) : list Z :=
  match ls_exec l with
  | XBlock ax => upd d (axpos true ax) (lv_ext (ls_lv l))
  | XThread ax => upd d (axpos false ax) (lv_ext (ls_lv l))
  | _ => d
  end.
Definition launch_dims (s : schedule) : list Z := fold_left launch_step (s_loops s) [1; 1; 1; 1; 1; 1].
(* CUDA: blockIdx/threadIdx of the thread with coordinates c *)
Definition gp_of (c : list Z) : bool -> axis -> Z := fun b ax => nth (axpos b ax) c 0.
(* backend_cuda.py:73-79 cuLaunchKernel: one thread per coordinate *)
Definition gpu_threads (L : lang) (scoped : bool) (s : schedule) (kern : kernel) : list (prog L (flow * env L)) :=
  map (fun c => exec L scoped (gp_of c) (pty_of (k_params kern)) (k_body kern) [[]]) (all_idx (launch_dims s)).
(* CUDA's launch limits (compute capability >= 3.0): positive extents, grid.x < 2^31, grid.y and grid.z
   below 2^16, at most 1024 threads per block; otherwise cuLaunchKernel fails with an error code, which
   backend_cuda.py:33-36 turns into RuntimeError *)
Definition launchable (d : list Z) : bool :=
  match d with
  | [gx; gy; gz; bx; by_; bz] => (1 <=? gx) && (gx <? 2147483648) && (1 <=? gy) && (gy <=? 65535) && (1 <=? gz) && (gz <=? 65535) &&
       (1 <=? bx) && (1 <=? by_) && (1 <=? bz) && (bx <=? 1024) && (by_ <=? 1024) && (bz <=? 64) && (bx * by_ * bz <=? 1024)
  | _ => false
  end.

Definition owner (l : loopsched) (b : bool) (ax : axis) : Prop := ls_exec l = if b then XBlock ax else XThread ax.
Lemma axpos_inj b b' ax ax' : axpos b ax = axpos b' ax' -> b = b' /\ ax = ax'.
Proof. destruct b, b', ax, ax'; cbn; intros; try discriminate; auto. Qed.
Lemma axpos_lt b ax : (axpos b ax < 6)%nat. Proof. destruct b, ax; cbn; lia. Qed.
Lemma axpos_surj p : (p < 6)%nat -> exists b ax, p = axpos b ax.
Proof.
  intros H. destruct p as [|[|[|[|[|[|]]]]]]; [exists true, AX|exists true, AY|exists true, AZ|exists false, AX|exists false, AY|exists false, AZ|lia]; reflexivity.
Qed.
Lemma upd_length {A} (l : list A) i x : length (upd l i x) = length l.
Proof. revert i; induction l; intros [|i]; cbn; auto. Qed.
Lemma nth_upd_same (l : list Z) i x : (i < length l)%nat -> nth i (upd l i x) 0 = x.
Proof. revert i; induction l as [|y l IH]; intros [|i] H; cbn in *; try lia; auto. apply IH. lia. Qed.
Lemma nth_upd_other (l : list Z) i j x : i <> j -> nth j (upd l i x) 0 = nth j l 0.
Proof. revert i j; induction l as [|y l IH]; intros [|i] [|j] H; cbn; auto; try congruence. Qed.
Lemma launch_step_length d l : length (launch_step d l) = length d.
Proof. unfold launch_step. destruct (ls_exec l); auto; apply upd_length. Qed.
Lemma fold_step_length loops : forall d, length (fold_left launch_step loops d) = length d.
Proof. induction loops as [|l ls IH]; intros d; cbn; auto. now rewrite IH, launch_step_length. Qed.
Lemma launch_length s : length (launch_dims s) = 6%nat.
Proof. unfold launch_dims. now rewrite fold_step_length. Qed.
Lemma owner_step d l b ax : length d = 6%nat -> owner l b ax -> nth (axpos b ax) (launch_step d l) 0 = lv_ext (ls_lv l).
Proof. intros Hd H. unfold launch_step. rewrite H. pose proof (axpos_lt b ax). destruct b; apply nth_upd_same; rewrite Hd; assumption. Qed.
Lemma owner_skip d l b ax : ~ owner l b ax -> nth (axpos b ax) (launch_step d l) 0 = nth (axpos b ax) d 0.
Proof.
  intros H. unfold launch_step, owner in *. destruct (ls_exec l) as [| | | |x|x]; auto; apply nth_upd_other; intros He; apply H;
    apply axpos_inj in He as [<- <-]; reflexivity.
Qed.
Definition ownerb (b : bool) (ax : axis) (l : loopsched) : bool :=
  match ls_exec l, b with XBlock x, true | XThread x, false => match x, ax with AX, AX | AY, AY | AZ, AZ => true | _, _ => false end | _, _ => false end.
Lemma ownerb_spec l b ax : ownerb b ax l = true <-> owner l b ax.
Proof. unfold ownerb, owner. destruct (ls_exec l) as [| | | |[]|[]], b, ax; split; intros; try discriminate; auto. Qed.
Lemma dim_spec loops b ax : forall d, length d = 6%nat ->
  (exists l, In l loops /\ owner l b ax /\ nth (axpos b ax) (fold_left launch_step loops d) 0 = lv_ext (ls_lv l)) \/
  ((forall l, In l loops -> ~ owner l b ax) /\ nth (axpos b ax) (fold_left launch_step loops d) 0 = nth (axpos b ax) d 0).
Proof.
  induction loops as [|l ls IH]; intros d Hd; cbn [fold_left].
  - right. split; [intros ? []|reflexivity].
  - destruct (IH (launch_step d l) ltac:(rewrite launch_step_length; exact Hd)) as [(x & Hx & Ho & He)|[Hno He]].
    + left. exists x. split; [now right|auto].
    + destruct (ownerb b ax l) eqn:Eb.
      * left. exists l. apply ownerb_spec in Eb. split; [now left|]. split; auto. rewrite He. now apply owner_step.
      * right. assert (Hl : ~ owner l b ax) by (intros H; apply ownerb_spec in H; congruence). split.
        -- intros x [<-|Hx]; auto.
        -- rewrite He. now apply owner_skip.
Qed.

(* ------------------------------------------------------------------ launches of a loop nest *)
Section Launch.
Context (s : list Z) (fac : nat -> option Z) (loops : list loopsched) (spls : list splitloop) (HN : nestok s fac loops spls).
(* at most one loop per coordinate; both halves of a split loop with a tail are GPU loops *)
Context (HU : forall l l' b ax, In l loops -> In l' loops -> owner l b ax -> owner l' b ax -> l = l').
Context (HG : forall l k d q, In l loops -> nth_error s k = Some d -> fac k = Some q -> d mod q <> 0 -> lnm l = NLoop false k [true] \/ lnm l = NLoop false k [false] -> exists b ax, owner l b ax).
Context (dims : list Z) (Hdl : length dims = 6%nat).
Context (Hown : forall l b ax, In l loops -> owner l b ax -> nth (axpos b ax) dims 0 = lv_ext (ls_lv l)).
Context (Hfree : forall b ax, (forall l, In l loops -> ~ owner l b ax) -> nth (axpos b ax) dims 0 = 1).
Notation nms := (map lnm loops).
Notation tup c := (tuples (gp_of c) loops).

Lemma owner_lvals gp l b ax : owner l b ax -> lvals gp l = [gp b ax].
Proof. unfold owner, lvals. intros ->. destruct b; reflexivity. Qed.
Lemma nonowner_lvals gp l : (forall b ax, ~ owner l b ax) -> lvals gp l = zrange (lv_ext (ls_lv l)).
Proof. unfold owner, lvals. intros H. destruct (ls_exec l) as [| | | |x|x]; auto; [destruct (H true x)|destruct (H false x)]; reflexivity. Qed.
Lemma owner_dec l : (exists b ax, owner l b ax) \/ (forall b ax, ~ owner l b ax).
Proof. unfold owner. destruct (ls_exec l) as [| | | |x|x]; try (right; intros [] ax; discriminate); left; [exists true, x|exists false, x]; reflexivity. Qed.
Lemma dims_nth c b ax : in_range dims c -> 0 <= gp_of c b ax < nth (axpos b ax) dims 0.
Proof using All.
  intros H. unfold gp_of. apply in_range_nth in H as [Hl H]. pose proof (axpos_lt b ax) as Hp.
  destruct (nth_error dims (axpos b ax)) as [d|] eqn:Ed; [|apply nth_error_None in Ed; lia].
  destruct (nth_error c (axpos b ax)) as [i|] eqn:Ei; [|apply nth_error_None in Ei; lia].
  rewrite (nth_error_nth _ _ 0 Ed), (nth_error_nth _ _ 0 Ei). eauto.
Qed.
Lemma tup_range c : in_range dims c -> forall t, In t (tup c) -> lrange loops t.
Proof using All.
  intros Hc t Ht. apply in_tuples in Ht. unfold lrange.
  assert (G : forall l z, In l loops -> In z (lvals (gp_of c) l) -> 0 <= z < lv_ext (ls_lv l)).
  { intros l z Hl Hz. destruct (owner_dec l) as [(b & ax & Ho)|Hno].
    - rewrite (owner_lvals _ _ _ _ Ho) in Hz. destruct Hz as [<-|[]]. rewrite <- (Hown l b ax Hl Ho). now apply dims_nth.
    - rewrite (nonowner_lvals _ _ Hno) in Hz. now apply in_zrange. }
  clear - Ht G. induction Ht as [|l z ls zs Hz _ IH]; constructor; [apply G; auto; now left|]. apply IH. intros; apply G; auto; now right.
Qed.
Lemma tget_owner c t l b ax : In t (tup c) -> In l loops -> owner l b ax -> tget nms t (lnm l) = gp_of c b ax.
Proof using HN.
  intros Ht Hl Ho. apply in_tuples in Ht. pose proof (nk_nodup _ _ _ _ HN) as HND. clear - Ht Hl Ho HND.
  induction Ht as [|l' z ls zs Hz _ IH]; [destruct Hl|]. cbn [map tget] in *. apply NoDup_cons_iff in HND as [Hn HND]. destruct Hl as [->|Hl].
  - rewrite name_eqb_refl. rewrite (owner_lvals _ _ _ _ Ho) in Hz. destruct Hz as [<-|[]]. reflexivity.
  - destruct (name_eqb (lnm l') (lnm l)) eqn:En; [|auto]. apply name_eqb_eq in En. exfalso. apply Hn. rewrite En. now apply in_map.
Qed.
(* all iterations of one thread pass the guards, or none does *)
Lemma tup_uniform c : in_range dims c ->
  (forall t, In t (tup c) -> live s fac loops t = true) \/ (forall t, In t (tup c) -> live s fac loops t = false).
Proof using All.
  intros Hc. destruct (tup c) as [|t0 ts] eqn:Et; [left; intros ? []|].
  assert (H0 : In t0 (tup c)) by (rewrite Et; now left).
  assert (G : forall t, In t (tup c) -> live s fac loops t = live s fac loops t0).
  { intros t Ht. unfold live. apply eq_true_iff_eq. rewrite !in_rangeb_spec.
    rewrite (coords_in_range _ _ _ _ HN t (tup_range c Hc t Ht)), (coords_in_range _ _ _ _ HN t0 (tup_range c Hc t0 H0)).
    assert (Hco : forall k d q, nth_error s k = Some d -> fac k = Some q -> d mod q <> 0 -> coord fac nms t k = coord fac nms t0 k).
    { intros k d q Hd Hq Hm. unfold coord. rewrite Hq. pose proof (nk_loop _ _ _ _ HN k d Hd) as Hlp. rewrite Hq in Hlp. destruct Hlp as [Ho Hi].
      apply in_map_iff in Ho as (l1 & E1 & I1). apply in_map_iff in Hi as (l2 & E2 & I2).
      assert (N1 : lnm l1 = NLoop false k [true]) by (unfold lnm; now rewrite E1). assert (N2 : lnm l2 = NLoop false k [false]) by (unfold lnm; now rewrite E2).
      destruct (HG l1 k d q I1 Hd Hq Hm (or_introl N1)) as (b1 & a1 & O1). destruct (HG l2 k d q I2 Hd Hq Hm (or_intror N2)) as (b2 & a2 & O2).
      rewrite <- N1, <- N2. rewrite (tget_owner c t l1 b1 a1 Ht I1 O1), (tget_owner c t0 l1 b1 a1 H0 I1 O1), (tget_owner c t l2 b2 a2 Ht I2 O2), (tget_owner c t0 l2 b2 a2 H0 I2 O2).
      reflexivity. }
    assert (Hex : forall t' k d q, In t' (tup c) -> nth_error s k = Some d -> fac k = Some q -> d mod q = 0 -> coord fac nms t' k < d).
    { intros t' k d q Ht' Hd Hq Hm. pose proof (coord_bounds s fac loops spls HN t' k d (tup_range c Hc t' Ht') Hd) as Hcb. rewrite Hq in Hcb. tauto. }
    split; intros H k d q Hd Hq; (destruct (Z.eq_dec (d mod q) 0) as [Hm|Hm]; [eauto|]); [rewrite <- (Hco k d q Hd Hq Hm)|rewrite (Hco k d q Hd Hq Hm)]; eauto. }
  rewrite <- Et. destruct (live s fac loops t0) eqn:E0; [left|right]; intros t Ht; rewrite (G t Ht); auto.
Qed.
Lemma tup_disjoint c c' t : in_range dims c -> in_range dims c' -> In t (tup c) -> In t (tup c') -> c = c'.
Proof using All.
  intros Hc Hc' Ht Ht'. apply in_range_nth in Hc as Hc1. apply in_range_nth in Hc' as Hc1'. destruct Hc1 as [L1 _], Hc1' as [L2 _].
  apply nth_error_ext'. intros p. destruct (Nat.lt_ge_cases p 6) as [Hp|Hp].
  2:{ rewrite !(proj2 (nth_error_None _ _)); auto; lia. }
  rewrite !(nth_error_nth' _ 0) by lia. f_equal. destruct (axpos_surj p Hp) as (b & ax & ->). change (gp_of c b ax = gp_of c' b ax).
  destruct (find (ownerb b ax) loops) as [l|] eqn:Ef.
  - apply find_some in Ef as [Hl Ho]. apply ownerb_spec in Ho. now rewrite <- (tget_owner c t l b ax Ht Hl Ho), <- (tget_owner c' t l b ax Ht' Hl Ho).
  - assert (Hno : forall l, In l loops -> ~ owner l b ax) by (intros l Hl H; apply ownerb_spec in H; pose proof (find_none _ _ Ef l Hl); congruence).
    pose proof (dims_nth c b ax Hc). pose proof (dims_nth c' b ax Hc'). rewrite (Hfree b ax Hno) in *. lia.
Qed.
Definition cell (idx : list Z) (b : bool) (ax : axis) : Z := match find (ownerb b ax) loops with Some l => slice fac idx l | None => 0 end.
Definition thread_of (idx : list Z) : list Z := [cell idx true AX; cell idx true AY; cell idx true AZ; cell idx false AX; cell idx false AY; cell idx false AZ].
Lemma gp_thread idx b ax : gp_of (thread_of idx) b ax = cell idx b ax.
Proof. destruct b, ax; reflexivity. Qed.
Lemma thread_cover idx : in_range s idx -> in_range dims (thread_of idx) /\ In (slices fac loops idx) (tup (thread_of idx)).
Proof using All.
  intros Hi. pose proof (slices_range _ _ _ _ HN idx Hi) as Hr. unfold lrange, slices in Hr.
  assert (Hsl : forall l, In l loops -> 0 <= slice fac idx l < lv_ext (ls_lv l)).
  { clear - Hr. intros l Hl. induction loops as [|x ls IH]; [destruct Hl|]. cbn in Hr. inversion Hr; subst. destruct Hl as [<-|Hl]; auto. }
  split.
  - apply in_range_nth. split; [rewrite Hdl; reflexivity|]. intros p d i Hd Hp.
    assert (Hp6 : (p < 6)%nat) by (rewrite <- Hdl; apply nth_error_Some; congruence). destruct (axpos_surj p Hp6) as (b & ax & ->).
    assert (Hv : i = cell idx b ax) by (rewrite <- gp_thread; unfold gp_of; symmetry; now apply nth_error_nth).
    assert (Hdv : d = nth (axpos b ax) dims 0) by (symmetry; now apply nth_error_nth). subst i d. unfold cell.
    destruct (find (ownerb b ax) loops) as [l|] eqn:Ef.
    + apply find_some in Ef as [Hl Ho]. apply ownerb_spec in Ho. rewrite (Hown l b ax Hl Ho). auto.
    + rewrite (Hfree b ax); [lia|]. intros l Hl H. apply ownerb_spec in H. pose proof (find_none _ _ Ef l Hl). congruence.
  - apply in_tuples. unfold slices. assert (G : forall l, In l loops -> In (slice fac idx l) (lvals (gp_of (thread_of idx)) l)).
    { intros l Hl. destruct (owner_dec l) as [(b & ax & Ho)|Hno].
      - rewrite (owner_lvals _ _ _ _ Ho), gp_thread. left. unfold cell. destruct (find (ownerb b ax) loops) as [l'|] eqn:Ef.
        + apply find_some in Ef as [Hl' Ho']. apply ownerb_spec in Ho'. now rewrite (HU l' l b ax Hl' Hl Ho' Ho).
        + apply ownerb_spec in Ho. pose proof (find_none _ _ Ef l Hl). congruence.
      - rewrite (nonowner_lvals _ _ Hno). apply in_zrange. auto. }
    clear - G. assert (H : forall ls, incl ls loops -> Forall2 (fun l z => In z (lvals (gp_of (thread_of idx)) l)) ls (map (slice fac idx) ls)).
    { induction ls as [|l ls IH]; intros Hinc; cbn; constructor; [apply G, Hinc; now left|apply IH; intros x Hx; apply Hinc; now right]. }
    apply H, incl_refl.
Qed.
Lemma launch_tuples : let tss := map (fun c => tup c) (all_idx dims) in
  NoDup (concat tss) /\ Forall (lrange loops) (concat tss) /\ forall idx, in_range s idx -> In (slices fac loops idx) (concat tss).
Proof using All.
  intros tss. assert (Hc : concat tss = flat_map (fun c => tup c) (all_idx dims)) by (unfold tss; now rewrite flat_map_concat_map). rewrite Hc. split; [|split].
  - apply NoDup_flat_map; [apply NoDup_all_idx|intros; apply NoDup_tuples|].
    intros c c' t H1 H2 T1 T2. eapply tup_disjoint; eauto; now apply in_all_idx.
  - apply Forall_forall. intros t Ht. apply in_flat_map in Ht as (c & H1 & H2). eapply tup_range; eauto. now apply in_all_idx.
  - intros idx Hi. destruct (thread_cover idx Hi) as [H1 H2]. apply in_flat_map. eexists. split; [apply in_all_idx; exact H1|exact H2].
Qed.
End Launch.

(* ------------------------------------------------------------------ the automatic GPU schedule *)
Definition gfac (sh : list Z) (k : nat) : option Z := if Nat.eqb (Datatypes.S k) (length sh) then Some block_size else None.
Lemma gpu_lvs init d : map ls_lv (gpu_spatial (init ++ [d])) = mapi_from 0 (fun k d => lvar k d) init ++ [lo (length init) d block_size; li (length init) block_size].
Proof.
  assert (G : forall l k, map ls_lv (mapi_from k (fun i d => sp (lvar i d) XSeq) l) = mapi_from k (fun k d => lvar k d) l).
  { induction l as [|x l IH]; intros k; cbn; auto. now rewrite IH. }
  destruct init as [|a [|b [|c init]]]; try reflexivity.
  assert (Hg : gpu_spatial ((a :: b :: c :: init) ++ [d]) = mapi_from 0 (fun i d => sp (lvar i d) XSeq) (removelast ((a :: b :: c :: init) ++ [d])) ++
     [sp (lvar_o (length ((a :: b :: c :: init) ++ [d]) - 1) (last ((a :: b :: c :: init) ++ [d]) 0)) (XBlock AX); sp (lvar_i (length ((a :: b :: c :: init) ++ [d]) - 1)) (XThread AX)]).
  { cbn [app]. destruct (init ++ [d]) eqn:E2; [destruct init; discriminate|]. reflexivity. }
  rewrite Hg, removelast_last, last_last, app_length. cbn [length]. rewrite map_app, G. cbn [map sp ls_lv].
  replace (Datatypes.S (Datatypes.S (Datatypes.S (length init))) + 1 - 1)%nat with (length (a :: b :: c :: init)) by (cbn; lia). reflexivity.
Qed.
Lemma gpu_nestok init d loops spls : let sh := init ++ [d] in let n := length init in
  map ls_lv loops = mapi_from 0 (fun k d => lvar k d) init ++ [lo n d block_size; li n block_size] -> spls = [spl n d block_size] ->
  nestok sh (gfac sh) loops spls.
Proof.
  intros sh n Hlv ->.
  assert (Hlen : length sh = Datatypes.S n) by (unfold sh, n; rewrite app_length; cbn; lia).
  assert (Hf : forall k, gfac sh k = if Nat.eqb k n then Some block_size else None).
  { intros k. unfold gfac. rewrite Hlen. reflexivity. }
  assert (Hn : map lnm loops = mapi_from 0 (fun k _ => NLoop false k []) init ++ [NLoop false n [true]; NLoop false n [false]]).
  { unfold lnm. rewrite <- (map_map ls_lv lv_name), Hlv, map_app. cbn. f_equal. generalize 0%nat. clear. induction init as [|x l IH]; intros k; cbn; auto. now rewrite IH. }
  assert (Hsh : forall k x, nth_error sh k = Some x -> (k < n)%nat /\ nth_error init k = Some x \/ k = n /\ x = d).
  { intros k x H. unfold sh in H. destruct (Nat.lt_ge_cases k n) as [Hk|Hk].
    - left. rewrite nth_error_app1 in H by exact Hk. auto.
    - right. rewrite nth_error_app2 in H by exact Hk. destruct (k - length init)%nat as [|j] eqn:Ej; cbn in H; [|destruct j; discriminate]. split; [unfold n in *; lia|congruence]. }
  assert (Hd : nth_error sh n = Some d) by (unfold sh, n; rewrite nth_error_app2, Nat.sub_diag by lia; reflexivity).
  constructor.
  - rewrite Hn. apply NoDup_app_intro.
    + clear. generalize 0%nat as k. induction init as [|x l IH]; intros k; cbn; constructor; auto. intros H.
      assert (G : forall (s : list Z) j, In (NLoop false k []) (mapi_from j (fun i _ => NLoop false i []) s) -> (j <= k)%nat).
      { clear. induction s as [|y s IH]; intros j H; cbn in H; [destruct H|]. destruct H as [H|H]; [injection H; lia|]. apply IH in H. lia. }
      apply G in H. lia.
    + repeat constructor; cbn; intuition discriminate.
    + intros x H1 H2. assert (G : forall (s : list Z) j, In x (mapi_from j (fun i _ => NLoop false i []) s) -> exists i, x = NLoop false i []).
      { clear. induction s as [|y s IH]; intros j H; cbn in H; [destruct H|]. destruct H as [<-|H]; eauto. }
      destruct (G _ _ H1) as [i ->]. destruct H2 as [H2|[H2|[]]]; discriminate.
  - intros k f H. rewrite Hf in H. destruct (Nat.eqb k n); [|discriminate]. injection H as <-. reflexivity.
  - intros l Hl. apply (in_map ls_lv) in Hl. rewrite Hlv in Hl. apply in_app_iff in Hl as [Hl|Hl].
    + apply In_nth_error in Hl as [k Hk]. rewrite nth_mapi in Hk. destruct (nth_error init k) as [x|] eqn:Ex; [|discriminate]. cbn in Hk.
      assert (Hkn : (k < n)%nat) by (apply nth_error_Some; congruence). exists k, x. split; [unfold sh; now rewrite nth_error_app1|].
      rewrite Hf. destruct (Nat.eqb_spec k n); [lia|]. congruence.
    + exists n, d. split; auto. rewrite Hf, Nat.eqb_refl. destruct Hl as [<-|[<-|[]]]; auto.
  - intros k x Hx. rewrite Hf, Hlv. destruct (Hsh k x Hx) as [[Hk Hx']|[-> ->]].
    + destruct (Nat.eqb_spec k n); [lia|]. apply in_or_app. left. eapply nth_error_In with (n := k). rewrite nth_mapi, Hx'. reflexivity.
    + rewrite Nat.eqb_refl. split; apply in_or_app; right; cbn; auto.
  - intros x [<-|[]]. exists n, d, block_size. split; auto. split; auto. rewrite Hf, Nat.eqb_refl. reflexivity.
  - intros k x q Hx Hq. rewrite Hf in Hq. destruct (Nat.eqb_spec k n) as [->|]; [|discriminate]. injection Hq as <-.
    rewrite Hd in Hx. injection Hx as <-. now left.
  - repeat constructor; auto.
Qed.
Lemma gpu_splits_spl init d : gpu_splits (init ++ [d]) = [spl (length init) d block_size].
Proof.
  unfold gpu_splits. destruct (init ++ [d]) eqn:E; [destruct init; discriminate|]. rewrite <- E, last_last, app_length. cbn [length].
  replace (length init + 1 - 1)%nat with (length init) by lia. reflexivity.
Qed.
Lemma gpu_auto_nestok sh : nestok sh (gfac sh) (gpu_spatial sh) (gpu_splits sh).
Proof.
  destruct (list_eq_dec Z.eq_dec sh []) as [->|Hne].
  - cbn. constructor; cbn; try (intros; destruct k; discriminate); try (intros ? []); constructor.
  - destruct (exists_last Hne) as (init & d & ->). apply gpu_nestok; [apply gpu_lvs|apply gpu_splits_spl].
Qed.
Lemma gpu_tail init d : exists lead ax, gpu_spatial (init ++ [d]) = lead ++ [sp (lvar_o (length init) d) (XBlock ax); sp (lvar_i (length init)) (XThread AX)] /\
  (forall l b a, In l lead -> owner l b a -> b = true /\ a <> ax) /\
  (forall l l' b a, In l lead -> In l' lead -> owner l b a -> owner l' b a -> l = l').
Proof.
  destruct init as [|a0 [|a1 [|a2 init]]].
  - exists [], AX. split; [reflexivity|]. split; intros; contradiction.
  - exists [sp (lvar 0 a0) (XBlock AX)], AY. split; [reflexivity|]. split.
    + intros l b a [<-|[]] H. unfold owner in H. cbn in H. destruct b; [injection H as <-; split; auto; discriminate|discriminate].
    + intros l l' b a [<-|[]] [<-|[]]; auto.
  - exists [sp (lvar 0 a0) (XBlock AX); sp (lvar 1 a1) (XBlock AY)], AZ. split; [reflexivity|]. split.
    + intros l b a [<-|[<-|[]]] H; unfold owner in H; cbn in H; (destruct b; [injection H as <-; split; auto; discriminate|discriminate]).
    + intros l l' b a [<-|[<-|[]]] [<-|[<-|[]]] H1 H2; auto; unfold owner in H1, H2; cbn in H1, H2; destruct b; congruence.
  - exists (mapi_from 0 (fun i d => sp (lvar i d) XSeq) (a0 :: a1 :: a2 :: init)), AX. split.
    + assert (Hg : gpu_spatial ((a0 :: a1 :: a2 :: init) ++ [d]) = mapi_from 0 (fun i d => sp (lvar i d) XSeq) (removelast ((a0 :: a1 :: a2 :: init) ++ [d])) ++
        [sp (lvar_o (length ((a0 :: a1 :: a2 :: init) ++ [d]) - 1) (last ((a0 :: a1 :: a2 :: init) ++ [d]) 0)) (XBlock AX); sp (lvar_i (length ((a0 :: a1 :: a2 :: init) ++ [d]) - 1)) (XThread AX)]).
      { cbn [app]. destruct (init ++ [d]) eqn:E2; [destruct init; discriminate|]. reflexivity. }
      rewrite Hg, removelast_last, last_last, app_length. cbn [length].
      replace (Datatypes.S (Datatypes.S (Datatypes.S (length init))) + 1 - 1)%nat with (Datatypes.S (Datatypes.S (Datatypes.S (length init)))) by lia. reflexivity.
    + assert (G : forall s k l, In l (mapi_from k (fun i d => sp (lvar i d) XSeq) s) -> ls_exec l = XSeq).
      { clear. induction s as [|x s IH]; intros k l H; cbn in H; [tauto|]. destruct H as [<-|H]; [reflexivity|eauto]. }
      split; intros; exfalso; match goal with X : In ?l _, Y : owner ?l ?b _ |- _ => unfold owner in Y; rewrite (G _ _ _ X) in Y; destruct b; discriminate end.
Qed.
Lemma gpu_owners sh : (forall l l' b ax, In l (gpu_spatial sh) -> In l' (gpu_spatial sh) -> owner l b ax -> owner l' b ax -> l = l') /\
  (forall l k q, In l (gpu_spatial sh) -> gfac sh k = Some q -> lnm l = NLoop false k [true] \/ lnm l = NLoop false k [false] -> exists b ax, owner l b ax).
Proof.
  destruct (list_eq_dec Z.eq_dec sh []) as [->|Hne]; [split; intros; contradiction|].
  destruct (exists_last Hne) as (init & d & ->). destruct (gpu_tail init d) as (lead & ax & Hg & H1 & H2). split.
  - rewrite Hg. intros l l' b a Hl Hl' Ho Ho'. apply in_app_iff in Hl. apply in_app_iff in Hl'.
    destruct Hl as [Hl|Hl], Hl' as [Hl'|Hl'].
    + eauto.
    + destruct (H1 l b a Hl Ho) as [-> Ha]. destruct Hl' as [<-|[<-|[]]]; unfold owner in Ho'; cbn in Ho'; [|discriminate]. congruence.
    + destruct (H1 l' b a Hl' Ho') as [-> Ha]. destruct Hl as [<-|[<-|[]]]; unfold owner in Ho; cbn in Ho; [|discriminate]. congruence.
    + unfold owner in *. destruct Hl as [<-|[<-|[]]], Hl' as [<-|[<-|[]]]; auto; cbn in *; destruct b; congruence.
  - intros l k q Hl Hq Hn. rewrite Hg in Hl. apply in_app_iff in Hl as [Hl|[<-|[<-|[]]]]; [|exists true, ax; reflexivity|exists false, AX; reflexivity].
    exfalso. assert (Hlv : map ls_lv lead = mapi_from 0 (fun k d => lvar k d) init).
    { pose proof (gpu_lvs init d) as HL. rewrite Hg, map_app in HL. cbn [map sp ls_lv] in HL. 
      assert (Hl2 : length (map ls_lv lead) = length (mapi_from 0 (fun k d => lvar k d) init)).
      { apply (f_equal (@length _)) in HL. rewrite !app_length in HL. cbn in HL. lia. }
      revert HL Hl2. generalize (map ls_lv lead) (mapi_from 0 (fun k d => lvar k d) init). clear.
      induction l as [|x l IH]; intros [|y l0] HL Hl2; try discriminate; auto. cbn in HL. injection HL as -> HL. f_equal. apply IH; auto. }
    apply (in_map ls_lv) in Hl. rewrite Hlv in Hl. apply In_nth_error in Hl as [j Hj]. rewrite nth_mapi in Hj. destruct (nth_error init j); [|discriminate].
    cbn in Hj. unfold lnm in Hn. assert (E : ls_lv l = lvar j z) by congruence. rewrite E in Hn. destruct Hn; discriminate.
Qed.
Lemma fold_no_owner (loops : list loopsched) d : Forall (fun l => ls_exec l = XSeq) loops -> fold_left launch_step loops d = d.
Proof. intros H. revert d; induction H as [|l ls Hl _ IH]; intros d; cbn; auto. rewrite IH. unfold launch_step. now rewrite Hl. Qed.
Section Kern.
Context (L : lang) (HL : lang_ok L) (scoped : bool).
Notation V := (val L).
Context (g : graph) (Hw : wf_graph g) (E : fenv) (f : nat) (fd : func) (nd : node) (HK : kctx g E f fd nd).
Let e := f_expr fd.
Let args := func_args e.
Let shp := shape_of g.
Notation sh := (n_shape nd).
Context (HB : ltB L (zprod sh)) (HBG : sh <> [] -> ltB L (last sh 0 + block_size)) (F : nat -> list Z -> res V).
Notation kval := (kval L g f fd nd F).
Context (Hok : forall idx, in_range sh idx -> exists v, kval idx = Ok v).

(* the launch of any schedule whose spatial loops form a nest of the output's axes *)
Theorem gpu_launch_any s fac k kern k1 lo ls m out : nestok sh fac (filter is_spatial (s_loops s)) (s_splits s) ->
  (forall l l' b ax, In l (s_loops s) -> In l' (s_loops s) -> owner l b ax -> owner l' b ax -> l = l') ->
  (forall l b ax, In l (s_loops s) -> owner l b ax -> is_spatial l = true) ->
  (forall l k d q, In l (filter is_spatial (s_loops s)) -> nth_error sh k = Some d -> fac k = Some q -> d mod q <> 0 -> lnm l = NLoop false k [true] \/ lnm l = NLoop false k [false] -> exists b ax, owner l b ax) ->
  (forall k d q, nth_error sh k = Some d -> fac k = Some q -> ltB L (d + q)) ->
  codegen g E args fd s k = Done (kern, k1) ->
  placed L g fd nd F kern lo ls m out ->
  let loc := bind_params (k_params kern) (lo :: ls) in
  let ts := gpu_threads L scoped s kern in
  (exists wss, Forall2 (does L (inp_of L loc m lo)) ts wss /\ Permutation (map (pos L) (concat wss)) (zrange (zprod sh)) /\
     Forall (fun w => fst (fst w) = NOut) (concat wss)) /\
  settles L loc ts m (fun m' => exists out', m' lo = Some out' /\ length out' = length out /\ filled L sh kval out' /\ forall b, b <> lo -> m' b = m b).
Proof using HL Hw HK HB Hok.
  intros HN HU0 HSP HG HBk HC HP loc ts.
  destruct (kern_parts L HL g Hw E f fd nd HK F s k kern k1 lo ls m out HC HP) as (c & v & Hbody & Hren & HNo & HI & Hpt & Hloc).
  assert (Hspat : Forall (fun l => is_spatial l = true) (filter is_spatial (s_loops s))).
  { apply Forall_forall. intros l Hl. now apply filter_In in Hl. }
  assert (HU : forall l l' b ax, In l (filter is_spatial (s_loops s)) -> In l' (filter is_spatial (s_loops s)) -> owner l b ax -> owner l' b ax -> l = l').
  { intros l l' b ax H1 H2. apply filter_In in H1 as [H1 _]. apply filter_In in H2 as [H2 _]. eauto. }
  assert (Hown : forall l b ax, In l (filter is_spatial (s_loops s)) -> owner l b ax -> nth (axpos b ax) (launch_dims s) 0 = lv_ext (ls_lv l)).
  { intros l b ax Hl Ho. apply filter_In in Hl as [Hl _]. unfold launch_dims.
    destruct (dim_spec (s_loops s) b ax [1; 1; 1; 1; 1; 1] eq_refl) as [(l' & Hl' & Ho' & ->)|[Hno _]]; [now rewrite (HU0 l l' b ax Hl Hl' Ho Ho')|].
    exfalso. eapply Hno; eauto. }
  assert (Hfree : forall b ax, (forall l, In l (filter is_spatial (s_loops s)) -> ~ owner l b ax) -> nth (axpos b ax) (launch_dims s) 0 = 1).
  { intros b ax Hno. unfold launch_dims. destruct (dim_spec (s_loops s) b ax [1; 1; 1; 1; 1; 1] eq_refl) as [(l' & Hl' & Ho' & _)|[_ ->]].
    - exfalso. eapply Hno; [apply filter_In; split; eauto|eauto].
    - destruct b, ax; reflexivity. }
  pose proof (launch_length s) as Hdl.
  set (spls := s_splits s) in *. set (loops := filter is_spatial (s_loops s)) in *. set (dims := launch_dims s) in *.
  pose proof (launch_tuples sh fac loops spls HN HU HG dims Hdl Hown Hfree) as (T1 & T2 & T3).
  set (tss := map (fun c => tuples (gp_of c) loops) (all_idx dims)) in *.
  assert (Hval : forall idx, in_range sh idx -> (w <- evalV L shp F (n_dtype nd) e (lenv f sh idx) ;; Ok (coerce L (pty_of (k_params kern) NOut) w)) = kval idx).
  { intros idx _. rewrite Hpt. reflexivity. }
  assert (HD : Forall2 (fun p zss => does L (inp_of L loc m lo) p (map (wof L sh kval fac loops) (filter (live sh fac loops) zss))) ts tss).
  { unfold ts, tss, gpu_threads. fold dims. assert (G : forall cs, (forall c, In c cs -> in_range dims c) ->
      Forall2 (fun p zss => does L (inp_of L loc m lo) p (map (wof L sh kval fac loops) (filter (live sh fac loops) zss)))
        (map (fun c => exec L scoped (gp_of c) (pty_of (k_params kern)) (k_body kern) [[]]) cs) (map (fun c => tuples (gp_of c) loops) cs)).
    { induction cs as [|x cs IH]; intros Hcs; cbn [map]; constructor; [|apply IH; intros; apply Hcs; now right].
      assert (Hx : in_range dims x) by (apply Hcs; now left).
      assert (Hnf : forall idx, in_range sh idx -> kval idx <> Fault) by (intros idx Hi; destruct (Hok idx Hi) as [? ->]; discriminate).
      pose proof (sched_behaves L HL scoped (gp_of x) (pty_of (k_params kern)) (inp_of L loc m lo) g E args shp F HNo HI f sh HB (isc g) e (n_dtype nd) k k1 c v kval
        (kc_wff g E f fd nd HK) (kc_cover g f fd) Hren Hval Hnf fac loops spls HN HBk Hspat
        (tup_range sh fac loops spls HN HU HG dims Hdl Hown Hfree x Hx)) as HSB.
      destruct (nseq_uniform L sh kval Hok fac loops (tuples (gp_of x) loops)
        (tup_uniform sh fac loops spls HN HU HG dims Hdl Hown Hfree x Hx)) as [fl Hns].
      rewrite Hns in HSB. cbn [behaves] in HSB. destruct HSB as (r' & HSB & _). rewrite Hbody. unfold does. eauto. }
    apply G. intros c0 Hc0. now apply in_all_idx. }
  destruct HP as (_ & _ & Hm & Hout & _).
  destruct (pool_fill L sh (sh_nonneg g Hw E f fd nd HK) kval Hok fac loops spls HN loc m lo out ts tss Hloc Hm Hout HD T1 T2 T3) as (HND & N & HPF).
  split.
  - exists (map (fun zss => map (wof L sh kval fac loops) (filter (live sh fac loops) zss)) tss).
    assert (Hcc : concat (map (fun zss => map (wof L sh kval fac loops) (filter (live sh fac loops) zss)) tss) = map (wof L sh kval fac loops) (filter (live sh fac loops) (concat tss))).
    { clear. induction tss as [|t tss IH]; cbn; auto. now rewrite filter_app, map_app, IH. }
    rewrite Hcc. split; [|split].
    + clear - HD. induction HD; cbn; constructor; auto.
    + apply NoDup_Permutation; [exact HND|apply NoDup_zrange|]. intros p. rewrite in_zrange. split.
      * intros Hp. rewrite map_map in Hp. apply in_map_iff in Hp as (z & <- & Hz). apply filter_In in Hz as [_ Hz]. unfold live in Hz. apply in_rangeb_spec in Hz.
        unfold wof, pos. cbn. now apply flat_bounds.
      * intros Hp. pose proof (sh_nonneg g Hw E f fd nd HK) as Hs0. pose proof (unflat_in_range sh p Hs0 Hp) as Hi.
        rewrite map_map. apply in_map_iff. exists (slices fac loops (unflat sh p)). unfold wof, pos. cbn.
        rewrite (coords_slices sh fac loops spls HN _ Hi). split; [now apply flat_unflat|]. apply filter_In. split; auto.
        unfold live. rewrite (coords_slices sh fac loops spls HN _ Hi). now apply in_rangeb_spec.
    + apply Forall_forall. intros w Hw0. apply in_map_iff in Hw0 as (z & <- & _). reflexivity.
  - exists N. intros n ts' m' Hst. destruct (HPF n ts' m' Hst) as (H1 & H2 & H3 & H4). auto.
Qed.
Theorem gpu_launch s k kern k1 lo ls m out : schedule_gpu (sched_init fd) = Done s -> codegen g E args fd s k = Done (kern, k1) ->
  placed L g fd nd F kern lo ls m out ->
  let loc := bind_params (k_params kern) (lo :: ls) in
  let ts := gpu_threads L scoped s kern in
  (exists wss, Forall2 (does L (inp_of L loc m lo)) ts wss /\ Permutation (map (pos L) (concat wss)) (zrange (zprod sh)) /\
     Forall (fun w => fst (fst w) = NOut) (concat wss)) /\
  settles L loc ts m (fun m' => exists out', m' lo = Some out' /\ length out' = length out /\ filled L sh kval out' /\ forall b, b <> lo -> m' b = m b).
Proof using HL Hw HK HB HBG Hok.
  intros HS HC HP loc ts.
  assert (Hs : s_loops s = gpu_spatial sh ++ red_loops (reduced_vars e) /\ s_splits s = gpu_splits sh).
  { pose proof (kc_fd g E f fd nd HK) as Hfd. rewrite Hfd in HS.
    destruct (schedule_gpu_ok f sh (n_dtype nd) e f) as (s' & H1 & H2 & H3). fold e in HS. rewrite HS in H1. injection H1 as <-. auto. }
  destruct Hs as [Hlo Hsp].
  assert (Hflt : filter is_spatial (s_loops s) = gpu_spatial sh).
  { rewrite Hlo, filter_app.
    rewrite (filter_all_false _ (red_loops _)) by (intros l Hl; unfold red_loops in Hl; apply in_map_iff in Hl as (x & <- & _); reflexivity). rewrite app_nil_r.
    apply filter_all_true. intros l Hl. destruct (list_eq_dec Z.eq_dec sh []) as [E0|Hne]; [rewrite E0 in Hl; destruct Hl|].
    destruct sh as [|d0 [|d1 [|d2 [|d3 r]]]]; cbn in Hl; repeat (destruct Hl as [<-|Hl]; [reflexivity|]); try contradiction.
    apply in_app_iff in Hl as [Hl|[<-|[<-|[]]]]; try reflexivity.
    assert (G : forall s k, In l (mapi_from k (fun i d => sp (lvar i d) XSeq) s) -> is_spatial l = true).
    { clear. induction s as [|d s IH]; intros k H; cbn in H; [tauto|]. destruct H as [<-|H]; [reflexivity|eauto]. }
    change (d3 :: r) with ([d3] ++ r) in Hl. now rewrite (G _ _ Hl). }
  destruct (gpu_owners sh) as [HU HG'].
  assert (Hred : forall l b ax, In l (s_loops s) -> owner l b ax -> In l (gpu_spatial sh)).
  { intros l b ax Hl Ho. rewrite Hlo in Hl. apply in_app_iff in Hl as [Hl|Hl]; auto. exfalso.
    unfold red_loops in Hl. apply in_map_iff in Hl as (x & <- & _). unfold owner in Ho. cbn in Ho. destruct b; discriminate. }
  apply (gpu_launch_any s (gfac sh) k kern k1 lo ls m out); auto.
  - rewrite Hflt, Hsp. apply gpu_auto_nestok.
  - intros l l' b ax Hl Hl' Ho Ho'. eapply HU; eauto.
  - intros l b ax Hl Ho. pose proof (Hred l b ax Hl Ho) as H. rewrite <- Hflt in H. now apply filter_In in H.
  - rewrite Hflt. intros l j d q Hl Hd Hq Hm. eapply HG'; eauto.
  - intros j d q Hd Hq. unfold gfac in Hq. destruct (Nat.eqb_spec (Datatypes.S j) (length sh)) as [Ej|]; [|discriminate]. injection Hq as <-.
    assert (Hne : sh <> []) by (intros E0; rewrite E0 in Hd; destruct j; discriminate).
    destruct (exists_last Hne) as (init & x & Ex). rewrite Ex in *. rewrite app_length in Ej. cbn in Ej.
    rewrite nth_error_app2 in Hd by lia. replace (j - length init)%nat with 0%nat in Hd by lia. cbn in Hd. injection Hd as <-.
    specialize (HBG Hne). now rewrite last_last in HBG.
Qed.
End Kern.

Section Top.
Context (L : lang) (HL : lang_ok L) (g : graph) (Hr : reach g) (a : nat) (Ha : valid g a) (Hns : no_scalar_reshape g a) (Hfit : fits L g a)
  (E : fenv) (fs : list nat) (Hcv : convert g a = Done (E, fs)) (f : nat) (fd : func) (Hf : In f fs) (Hfd : E f = Some fd).
Let Hw : wf_graph g := reach_wf g Hr.
Theorem gpu_top b scoped gp k0 sc kernc k01 k s kern k1 lo ls (m ms : store L) fl : b <> CUDA -> gen b g E fd k0 = Done (sc, kernc, k01) ->
  gen CUDA g E fd k = Done (s, kern, k1) -> kernel_memory g f fd lo ls m ->
  (shape_of g f <> [] -> ltB L (last (shape_of g f) 0 + 256)) ->
  run (bind_params (k_params kernc) (lo :: ls)) (exec L scoped gp (pty_of (k_params kernc)) (k_body kernc) [[]]) m = (ms, OkO fl) ->
  let loc := bind_params (k_params kern) (lo :: ls) in
  let ts := gpu_threads L true s kern in
  (exists wss, Forall2 (does L (inp_of L loc m lo)) ts wss /\ Permutation (map (pos L) (concat wss)) (zrange (zprod (shape_of g f))) /\
     Forall (fun w => fst (fst w) = NOut) (concat wss)) /\
  settles L loc ts m (fun m' => forall x, m' x = ms x).
Proof using HL Hr Ha Hns Hfit Hcv Hf Hfd.
  intros Hb HG0 HG HM HBG R loc ts. destruct (gen_inv _ _ _ _ _ _ _ _ HG) as (HS & HC). destruct (gen_inv _ _ _ _ _ _ _ _ HG0) as (HS0 & HC0).
  assert (Hsc : schedule_cpu (sched_init fd) = Done sc) by (destruct b; try congruence; exact HS0).
  assert (Hsg : schedule_gpu (sched_init fd) = Done s) by exact HS.
  destruct (kernel_contents L HL g Hr a Ha Hns Hfit E fs Hcv f fd Hf Hfd kern lo ls m HM) as (nd & F & out & HK & Hs & HB & Hm & HPl & Hnf). rewrite Hs in *.
  pose proof (seq_all_ok L HL g Hr E f fd scoped gp nd F sc k0 kernc k01 lo ls m out ms fl HK HB HPl Hnf Hsc HC0 R) as Hok.
  destruct (gpu_launch L HL true g Hw E f fd nd HK HB HBG F Hok s k kern k1 lo ls m out Hsg HC HPl) as (HW & N & HSe).
  split; [exact HW|]. exists N. intros n ts' m' Hst. destruct (HSe n ts' m' Hst) as (H1 & H2 & H3 & H4). split; auto. split; auto. split; auto.
  intros HF x. destruct (H4 HF) as (out' & O1 & O2 & O3 & O4).
  destruct (seq_run L HL scoped g Hw E f fd nd HK HB F Hok gp sc k0 kernc k01 lo ls m out Hsc HC0 HPl) as (ms' & fl' & outs & R' & Hms & Hmo & Hlo & Hfo).
  rewrite R in R'. injection R' as <- <-.
  destruct (Nat.eq_dec x lo) as [->|Hne]; [|rewrite O4, Hmo; auto]. rewrite O1, Hms. f_equal.
  assert (Hol : Z.of_nat (length out) = zprod (n_shape nd)) by (destruct HPl as (_ & _ & _ & Ho & _); exact Ho).
  eapply filled_unique; [exact (sh_nonneg g Hw E f fd nd HK)| | |exact O3|exact Hfo]; congruence.
Qed.
End Top.
(* the launch extents of the automatic schedule, in closed form *)
Lemma launch_closed f sh dt e o s : schedule_gpu (sched_init (mkF (out_loops f sh) sh dt e o)) = Done s ->
  launch_dims s = match sh with
    | [] => [1; 1; 1; 1; 1; 1]
    | [d] => [ceildiv d 256; 1; 1; 256; 1; 1]
    | [d; d'] => [d; ceildiv d' 256; 1; 256; 1; 1]
    | [d; d'; d''] => [d; d'; ceildiv d'' 256; 256; 1; 1]
    | _ => [ceildiv (last sh 0) 256; 1; 1; 256; 1; 1]
    end.
Proof.
  intros HS. destruct (schedule_gpu_ok f sh dt e o) as (s' & H1 & H2 & _). rewrite HS in H1. injection H1 as <-.
  unfold launch_dims. rewrite H2, fold_left_app, fold_no_owner.
  2:{ unfold red_loops. apply Forall_forall. intros l Hl. apply in_map_iff in Hl as (x & <- & _). reflexivity. }
  destruct sh as [|d0 [|d1 [|d2 [|d3 r]]]]; try reflexivity.
  unfold gpu_spatial. rewrite fold_left_app. rewrite (fold_no_owner (mapi_from _ _ _)); [reflexivity|].
  assert (G : forall s k, Forall (fun l => ls_exec l = XSeq) (mapi_from k (fun i d => sp (lvar i d) XSeq) s)).
  { clear. induction s as [|d s IH]; intros k; cbn; constructor; auto. }
  apply G.
Qed.
