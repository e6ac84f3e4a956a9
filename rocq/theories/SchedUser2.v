(* Kernels of user schedules on a CPU: every axis split at most once, loops reordered. *)
From Coq Require Import Permutation.
From Verif Require Import Base BaseFacts Util UtilFacts Lang Spec Graph Api Denote SpecFacts DenoteFacts Reach ApiFacts FrontFacts
  Algo AlgoSem AlgoConv AlgoConv2 AlgoFuse AlgoFuse2 AlgoConvert AlgoConvert2
  Kernel Sched Codegen KernFacts RenderFacts KernelOk RunFacts SchedFacts SchedGpu KernelRun KernelRun2 Nest NestSched NestBody Parallel ParKernel ParCpu SchedUser.

(* calls a user makes on a SchedulerFunc; sched.py:73-122 *)
Inductive ucall := USplit (lv : loopvar) (f : Z) | UReorder (lvs : list loopvar) | UExec (lv : loopvar) (x : lexec).
Definition ustep (s : schedule) (c : ucall) : outcome schedule :=
  match c with
  | USplit lv f => '(s1, _, _) <~ split s lv f ;; Done s1
  | UReorder lvs => reorder s lvs
  | UExec lv x => set_exec s lv x
  end.
Fixpoint urun (s : schedule) (cs : list ucall) : outcome schedule :=
  match cs with [] => Done s | c :: r => s1 <~ ustep s c ;; urun s1 r end.
Definition lvs_of (p : loopsched -> bool) (s : schedule) : list loopvar := map ls_lv (filter p (s_loops s)).
Definition is_reduce (l : loopsched) : bool := negb (is_spatial l).
(* calls covered: split a spatial loop that was not split before, by a positive factor; reorder distinct
   loops of one kind; any annotation allowed by P (cpu_exec: those of a CPU; cuda_exec: those of CUDA) *)
Definition ulegal_x (P : lexec -> Prop) (s : schedule) (c : ucall) : Prop :=
  match c with
  | USplit lv f => 0 < f /\ In lv (lvs_of is_spatial s) /\ exists k, lv_name lv = NLoop false k []
  | UReorder lvs => NoDup (map lv_name lvs) /\ (Forall (fun lv => In lv (lvs_of is_spatial s)) lvs \/ Forall (fun lv => In lv (lvs_of is_reduce s)) lvs)
  | UExec lv x => In lv (map ls_lv (s_loops s)) /\ P x
  end.
Fixpoint ulegals_x (P : lexec -> Prop) (s : schedule) (cs : list ucall) : Prop :=
  match cs with [] => True | c :: r => ulegal_x P s c /\ forall s1, ustep s c = Done s1 -> ulegals_x P s1 r end.
Notation ulegal := (ulegal_x cpu_exec).
Notation ulegals := (ulegals_x cpu_exec).

Record uinv_x (P : lexec -> Prop) (sh : list Z) (fac : nat -> option Z) (s : schedule) : Prop := {
  ui_names : NoDup (names (s_loops s));
  ui_nest : nestok sh fac (filter is_spatial (s_loops s)) (s_splits s);
  ui_red : Forall (fun lv => exists k b, lv_name lv = NLoop true k b) (lvs_of is_reduce s);
  ui_cpu : Forall (fun l => P (ls_exec l)) (s_loops s)
}.
Arguments ui_names {P}. Arguments ui_nest {P}. Arguments ui_red {P}. Arguments ui_cpu {P}.
Notation uinv := (uinv_x cpu_exec).

Lemma lnm_names loops : map lnm loops = map lv_name (map ls_lv loops).
Proof. rewrite map_map. reflexivity. Qed.
Lemma nestok_perm sh fac l1 l2 spls : Permutation (map ls_lv l1) (map ls_lv l2) -> nestok sh fac l1 spls -> nestok sh fac l2 spls.
Proof.
  intros HP [A B C D E F G]. constructor; auto.
  - rewrite lnm_names in *. eapply Permutation_NoDup; [apply Permutation_map; exact HP|exact A].
  - intros l Hl. apply (in_map ls_lv) in Hl. apply (Permutation_in _ (Permutation_sym HP)) in Hl. apply in_map_iff in Hl as (l' & E' & Hl').
    destruct (C l' Hl') as (k & d & H1 & H2). exists k, d. split; auto. rewrite <- E'. exact H2.
  - intros k d Hd. specialize (D k d Hd). destruct (fac k).
    + split; eapply Permutation_in; eauto; tauto.
    + eapply Permutation_in; eauto.
Qed.
Lemma filter_kind_same (p : loopsched -> bool) mem : (forall l l', ls_kind l = ls_kind l' -> p l = p l') -> forall loops loops' q,
  map ls_kind loops' = map ls_kind loops -> map ls_lv loops' = refill mem (map ls_lv loops) q ->
  (forall l, In l loops -> mem (ls_lv l) = true -> p l = false) -> map ls_lv (filter p loops') = map ls_lv (filter p loops).
Proof.
  intros Hp. induction loops as [|l loops IH]; intros [|l' loops'] q Hk Hl Hm; try discriminate; auto.
  cbn [map refill] in Hk, Hl. injection Hk as Hk1 Hk. cbn [filter]. rewrite (Hp l' l Hk1). destruct (mem (ls_lv l)) eqn:Em.
  - rewrite (Hm l ltac:(now left) Em). destruct q as [|y q]; injection Hl as Hl1 Hl; eapply IH; eauto; intros; apply Hm; auto; now right.
  - injection Hl as Hl1 Hl. assert (H : map ls_lv (filter p loops') = map ls_lv (filter p loops)) by (eapply IH; eauto; intros; apply Hm; auto; now right).
    destruct (p l); cbn; congruence.
Qed.
Lemma spatial_split (l : list loopsched) : Permutation (map ls_lv l) (map ls_lv (filter is_spatial l) ++ map ls_lv (filter is_reduce l)).
Proof.
  induction l as [|x l IH]; cbn; auto. unfold is_reduce at 1. destruct (is_spatial x); cbn.
  - constructor. exact IH.
  - apply Permutation_cons_app. exact IH.
Qed.
Lemma names_inj l x y : NoDup (names l) -> In x l -> In y l -> lv_name (ls_lv x) = lv_name (ls_lv y) -> x = y.
Proof.
  unfold names. induction l as [|z l IH]; intros HN I1 I2 E; [destruct I1|]. cbn in HN. apply NoDup_cons_iff in HN as [Hz HN].
  destruct I1 as [->|I1], I2 as [->|I2]; auto.
  - exfalso. apply Hz. rewrite E. apply in_map_iff. eauto.
  - exfalso. apply Hz. rewrite <- E. apply in_map_iff. eauto.
Qed.
Lemma names_lv l : names l = map lv_name (map ls_lv l).
Proof. unfold names. now rewrite map_map. Qed.

Lemma Forall_perm {A} (P : A -> Prop) l l' : Permutation l l' -> Forall P l -> Forall P l'.
Proof. intros HP H. rewrite Forall_forall in *. intros x Hx. apply H. eapply Permutation_in; [symmetry|]; eauto. Qed.
Lemma ustep_reorder P sh fac s lvs : uinv_x P sh fac s -> ulegal_x P s (UReorder lvs) -> exists s', reorder s lvs = Done s' /\ uinv_x P sh fac s'.
Proof.
  intros [HN HS HX HC] [HD HK].
  assert (Hsub : forall p lv, In lv (lvs_of p s) -> In lv (map ls_lv (s_loops s))).
  { intros p lv H. unfold lvs_of in H. apply in_map_iff in H as (l & <- & Hl). apply filter_In in Hl as [Hl _]. now apply in_map. }
  assert (Hin : forall lv, In lv lvs -> In lv (map ls_lv (s_loops s))).
  { intros lv H. destruct HK as [HK|HK]; rewrite Forall_forall in HK; eauto. }
  destruct (reorder_ok s lvs HN HD Hin) as (s' & HR & Hsp & Hk & He & Hl & HP). exists s'. split; auto.
  assert (Hmem : forall p, Forall (fun lv => In lv (lvs_of p s)) lvs -> forall l, In l (s_loops s) -> memb lvs (ls_lv l) = true -> p l = true).
  { intros p Hp l Hl1 Hm. apply memb_spec in Hm. apply in_map_iff in Hm as (lv & E & Hlv). rewrite Forall_forall in Hp. specialize (Hp lv Hlv).
    unfold lvs_of in Hp. apply in_map_iff in Hp as (l2 & <- & Hl2). apply filter_In in Hl2 as [Hl2 Hp2]. rewrite <- (names_inj _ l2 l HN Hl2 Hl1 E). exact Hp2. }
  assert (HPs : Permutation (map ls_lv (filter is_spatial (s_loops s))) (map ls_lv (filter is_spatial (s_loops s'))) /\
                Permutation (map ls_lv (filter is_reduce (s_loops s))) (map ls_lv (filter is_reduce (s_loops s')))).
  { destruct HK as [HK|HK].
    - assert (Hr : map ls_lv (filter is_reduce (s_loops s')) = map ls_lv (filter is_reduce (s_loops s))).
      { eapply (filter_kind_same is_reduce (memb lvs)); eauto.
        - intros l l' E. unfold is_reduce, is_spatial. now rewrite E.
        - intros l Hl1 Hm. unfold is_reduce. now rewrite (Hmem is_spatial HK l Hl1 Hm). }
      split; [|now rewrite Hr].
      eapply Permutation_app_inv_r with (l := map ls_lv (filter is_reduce (s_loops s))). rewrite <- Hr at 2.
      etransitivity; [symmetry; apply spatial_split|]. etransitivity; [exact HP|apply spatial_split].
    - assert (Hr : map ls_lv (filter is_spatial (s_loops s')) = map ls_lv (filter is_spatial (s_loops s))).
      { eapply (filter_kind_same is_spatial (memb lvs)); eauto.
        - intros l l' E. unfold is_spatial. now rewrite E.
        - intros l Hl1 Hm. pose proof (Hmem is_reduce HK l Hl1 Hm) as H. unfold is_reduce in H. now apply negb_true_iff in H. }
      split; [now rewrite Hr|].
      eapply Permutation_app_inv_l with (l := map ls_lv (filter is_spatial (s_loops s))). rewrite <- Hr at 2.
      etransitivity; [symmetry; apply spatial_split|]. etransitivity; [exact HP|apply spatial_split]. }
  destruct HPs as [HPs HPr]. constructor.
  - rewrite names_lv in *. eapply Permutation_NoDup; [apply Permutation_map; exact HP|exact HN].
  - rewrite Hsp. eapply nestok_perm; eauto.
  - unfold lvs_of in *. eapply Forall_perm; eauto.
  - assert (G : forall l l', map ls_exec l' = map ls_exec l -> Forall (fun l => P (ls_exec l)) l -> Forall (fun l => P (ls_exec l)) l').
    { clear. induction l as [|x l IH]; intros [|y l'] H HF; try discriminate; constructor; cbn in H; injection H as H1 H2.
      - rewrite H1. now apply Forall_inv in HF. - apply IH; auto. now apply Forall_inv_tail in HF. }
    eapply G; eauto.
Qed.
Lemma lvk_filter p l l' : (forall a b, ls_kind a = ls_kind b -> p a = p b) -> map lvk l = map lvk l' -> map ls_lv (filter p l) = map ls_lv (filter p l').
Proof.
  intros Hp. revert l'. induction l as [|a l IH]; intros [|b l'] H; try discriminate; auto.
  cbn [map] in H. unfold lvk at 1 3 in H. injection H as E1 E2 H. cbn [filter]. rewrite (Hp a b E2). specialize (IH l' H). destruct (p b); cbn; congruence.
Qed.
Lemma is_spatial_kind a b : ls_kind a = ls_kind b -> is_spatial a = is_spatial b.
Proof. unfold is_spatial. now intros ->. Qed.
Lemma is_reduce_kind a b : ls_kind a = ls_kind b -> is_reduce a = is_reduce b.
Proof. unfold is_reduce. intros H. now rewrite (is_spatial_kind _ _ H). Qed.
Lemma ustep_exec P sh fac s lv x : uinv_x P sh fac s -> ulegal_x P s (UExec lv x) -> exists s', set_exec s lv x = Done s' /\ uinv_x P sh fac s'.
Proof.
  intros [HN HS HX HC] [Hin Hx]. destruct (set_exec_ok s lv x) as (s' & E & H1 & H2 & H3).
  { apply in_map_iff in Hin as (l & <- & Hl). apply in_map_iff. eauto. }
  exists s'. split; auto. constructor.
  - unfold names in *. rewrite (lvk_names _ _ H1). exact HN.
  - rewrite H2. eapply nestok_perm; [|exact HS]. rewrite (lvk_filter is_spatial _ _ is_spatial_kind H1). reflexivity.
  - unfold lvs_of in *. rewrite (lvk_filter is_reduce _ _ is_reduce_kind H1). exact HX.
  - apply H3; auto.
Qed.
Lemma ustep_split (P : lexec -> Prop) (HP0 : P XSeq) sh fac s lv f : uinv_x P sh fac s -> ulegal_x P s (USplit lv f) ->
  exists s' o i k d, split s lv f = Done (s', o, i) /\ nth_error sh k = Some d /\ lv = lvar k d /\ uinv_x P sh (fun j => if Nat.eqb j k then Some f else fac j) s'.
Proof.
  intros [HN HS HX HC] (Hf & Hin & (k & Hk)). unfold lvs_of in Hin. apply in_map_iff in Hin as (l & Elv & Hl). apply filter_In in Hl as [Hl Hsp].
  destruct (nk_in _ _ _ _ HS l) as (k' & d & Hd & Hlv); [apply filter_In; auto|].
  assert (Hfk : k' = k /\ fac k = None /\ lv = lvar k d).
  { rewrite Elv in Hlv. destruct (fac k') eqn:Ef; [destruct Hlv as [-> | ->]; discriminate|]. rewrite Hlv in Hk. cbn in Hk. injection Hk as ->. auto. }
  destruct Hfk as (-> & Hfk & ->).
  apply in_split in Hl as (l1 & l2 & Hls).
  assert (Hix : index_of (lv_name (lvar k d)) (s_loops s) = Some (length l1)).
  { apply index_of_name; auto. exists l. rewrite Hls. split; [apply nth_error_mid|now rewrite Elv]. }
  unfold split. rewrite (proj2 (Z.eqb_neq f 0)) by lia. rewrite Hix, Hls, nth_error_mid, firstn_mid, skipn_mid.
  eexists _, _, _, k, d. split; [reflexivity|]. split; [exact Hd|]. split; [reflexivity|].
  change (suffix true (lv_name (lvar k d))) with (NLoop false k [true]). change (suffix false (lv_name (lvar k d))) with (NLoop false k [false]). cbn [lvar lv_ext].
  assert (Hkd : ls_kind l = Spatial) by (unfold is_spatial in Hsp; destruct (ls_kind l); auto; discriminate). rewrite Hkd.
  change (mkLV (NLoop false k [true]) (ceildiv d f)) with (lo k d f). change (mkLV (NLoop false k [false]) f) with (li k f).
  change (mkLV (NLoop false k []) d) with (lvar k d).
  change (mkSp (lvar k d) (lo k d f) (li k f) f (negb (d mod f =? 0))) with (spl k d f).
  assert (Hno : forall x b, In x (s_loops s) -> lv_name (ls_lv x) <> NLoop false k [b]).
  { intros x b Hx E. destruct (is_spatial x) eqn:Exs.
    - destruct (nk_in _ _ _ _ HS x) as (k2 & d2 & Hd2 & Hx2); [apply filter_In; auto|].
      destruct (fac k2) eqn:E2; [|rewrite Hx2 in E; discriminate]. destruct Hx2 as [Hx2|Hx2]; rewrite Hx2 in E; cbn in E; injection E as E _; subst k2; congruence.
    - unfold lvs_of in HX. rewrite Forall_forall in HX. destruct (HX (ls_lv x)) as (k2 & b2 & E2).
      + apply in_map, filter_In. split; auto. unfold is_reduce. now rewrite Exs.
      + congruence. }
  assert (Hnn : forall b, ~ In (NLoop false k [b]) (names (l1 ++ l2))).
  { intros b Hb. unfold names in Hb. apply in_map_iff in Hb as (x & Ex & Hx). apply (Hno x b); auto. rewrite Hls. apply in_app_or in Hx. apply in_or_app. cbn. tauto. }
  assert (HN1 : NoDup (names (l1 ++ mkLS (lo k d f) Spatial XSeq :: mkLS (li k f) Spatial XSeq :: l2))).
  { rewrite Hls in HN. unfold names in HN, Hnn |- *. rewrite map_app in HN, Hnn |- *. cbn [map] in HN |- *. apply NoDup_remove_1 in HN.
    cbn [ls_lv lo li lv_name].
    apply NoDup_Add with (a := NLoop false k [true]) (l := map (fun l => lv_name (ls_lv l)) l1 ++ NLoop false k [false] :: map (fun l => lv_name (ls_lv l)) l2); [apply Add_app|]. split.
    - apply NoDup_Add with (a := NLoop false k [false]) (l := map (fun l => lv_name (ls_lv l)) l1 ++ map (fun l => lv_name (ls_lv l)) l2); [apply Add_app|]. split; [exact HN|apply Hnn].
    - intros H. apply in_app_or in H. destruct H as [H|[H|H]]; [|discriminate|]; apply (Hnn true); apply in_or_app; tauto. }
  assert (Hfil : forall p, filter p (l1 ++ mkLS (lo k d f) Spatial XSeq :: mkLS (li k f) Spatial XSeq :: l2) = filter p l1 ++ filter p [mkLS (lo k d f) Spatial XSeq; mkLS (li k f) Spatial XSeq] ++ filter p l2).
  { intros p. rewrite filter_app. f_equal. cbn. destruct (p _), (p _); reflexivity. }
  assert (Hfil0 : filter is_spatial (s_loops s) = filter is_spatial l1 ++ l :: filter is_spatial l2).
  { rewrite Hls, filter_app. cbn. now rewrite Hsp. }
  constructor; cbn [s_loops s_splits app].
  - exact HN1.
  - rewrite (Hfil is_spatial). cbn [filter is_spatial ls_kind app]. rewrite Hfil0 in HS.
    destruct HS as [A B C D E F G]. constructor.
    + clear - HN1 Hfil. unfold names in HN1.
      pose proof (Hfil is_spatial) as Hx. cbn [filter is_spatial ls_kind app] in Hx. rewrite <- Hx. clear Hx Hfil.
      revert HN1. generalize (l1 ++ mkLS (lo k d f) Spatial XSeq :: mkLS (li k f) Spatial XSeq :: l2). clear.
      induction l as [|x l IH]; cbn; intros H; [constructor|]. apply NoDup_cons_iff in H as [H1 H2]. destruct (is_spatial x); auto. cbn. constructor; auto.
      intros H. apply H1. apply in_map_iff in H as (y & Ey & Hy). apply filter_In in Hy as [Hy _]. apply in_map_iff. exists y. split; auto.
    + intros j q. destruct (Nat.eqb j k); [intros H; injection H; lia|apply B].
    + intros x Hx.
      assert (Hx' : x = mkLS (lo k d f) Spatial XSeq \/ x = mkLS (li k f) Spatial XSeq \/ In x (filter is_spatial l1 ++ filter is_spatial l2)).
      { apply in_app_or in Hx. destruct Hx as [Hx|[Hx|[Hx|Hx]]]; auto; right; right; apply in_or_app; tauto. }
      destruct Hx' as [->|[->|Hx']]; [exists k, d; rewrite Nat.eqb_refl; auto|exists k, d; rewrite Nat.eqb_refl; auto|].
      destruct (C x) as (k2 & d2 & Hd2 & Hx2); [apply in_app_or in Hx'; apply in_or_app; cbn; tauto|].
      exists k2, d2. split; auto. destruct (Nat.eqb_spec k2 k) as [->|]; auto. exfalso. rewrite Hfk in Hx2.
      rewrite map_app in A. cbn [map] in A. apply NoDup_remove_2 in A. apply A. unfold lnm at 1. rewrite Elv.
      rewrite Hd in Hd2. injection Hd2 as <-. rewrite <- map_app. apply in_map_iff. exists x. split; auto. unfold lnm. now rewrite Hx2.
    + intros j d2 Hd2. specialize (D j d2 Hd2). destruct (Nat.eqb_spec j k) as [->|Hjk].
      * rewrite Hd in Hd2. injection Hd2 as <-. rewrite map_app. split; apply in_or_app; right; [left|right; left]; reflexivity.
      * assert (HH : forall lv, lv_name lv <> NLoop false k [] -> In lv (map ls_lv (filter is_spatial l1 ++ l :: filter is_spatial l2)) ->
                     In lv (map ls_lv (filter is_spatial l1 ++ mkLS (lo k d f) Spatial XSeq :: mkLS (li k f) Spatial XSeq :: filter is_spatial l2))).
        { intros lv Hlv0. rewrite !map_app. cbn [map]. intros H. apply in_app_or in H. apply in_or_app. destruct H as [H|[H|H]]; [tauto| |right; right; right; exact H].
          exfalso. apply Hlv0. rewrite <- H, Elv. reflexivity. }
        destruct (fac j); [split; apply HH; try tauto; discriminate|]. apply HH; auto. cbn. intros H. injection H as H. congruence.
    + intros x Hx. apply in_app_or in Hx as [Hx|[<-|[]]].
      * destruct (E x Hx) as (k2 & d2 & f2 & H1 & H2 & H3). exists k2, d2, f2. repeat split; auto. destruct (Nat.eqb_spec k2 k) as [->|]; congruence.
      * exists k, d, f. rewrite Nat.eqb_refl. auto.
    + intros j d2 f2 Hd2. destruct (Nat.eqb_spec j k) as [->|Hjk].
      * intros H. injection H as <-. rewrite Hd in Hd2. injection Hd2 as <-. apply in_or_app. right. now left.
      * intros H. apply in_or_app. left. now apply F.
    + rewrite map_app. cbn [map spl sp_orig lvar lv_name].
      apply NoDup_Add with (a := NLoop false k []) (l := map (fun x => lv_name (sp_orig x)) (s_splits s)).
      * rewrite <- (app_nil_r (map (fun x => lv_name (sp_orig x)) (s_splits s))) at 1. apply Add_app.
      * split; auto. intros H. apply in_map_iff in H as (x & Ex & Hx). destruct (E x Hx) as (k2 & d2 & f2 & H1 & H2 & ->). cbn in Ex. injection Ex as ->. congruence.
  - unfold lvs_of in *. cbn [s_loops]. rewrite (Hfil is_reduce). cbn [filter is_reduce is_spatial ls_kind negb app].
    rewrite Hls, filter_app in HX. cbn [filter] in HX. replace (is_reduce l) with false in HX by (unfold is_reduce; now rewrite Hsp). exact HX.
  - rewrite Hls in HC. apply Forall_app in HC as [C1 C2]. apply Forall_app. split; auto. apply Forall_inv_tail in C2. repeat constructor; auto.
Qed.
