(* Schedules reachable by any sequence of calls on a SchedulerFunc: loop names stay distinct. *)
From Coq Require Import Permutation.
From Verif Require Import Base BaseFacts Util UtilFacts Lang Spec Graph Algo AlgoSem AlgoConv Kernel Sched Codegen SchedFacts SchedGpu Nest NestSched SchedUser SchedUser2.

(* the calls of sched.py:73-122 with loop variables of the schedule; reorder with distinct variables *)
Inductive sreach : schedule -> schedule -> Prop :=
| sr_refl s : sreach s s
| sr_split s0 s lv f s1 o i : sreach s0 s -> In lv (map ls_lv (s_loops s)) -> split s lv f = Done (s1, o, i) -> sreach s0 s1
| sr_reorder s0 s lvs s1 : sreach s0 s -> NoDup (map lv_name lvs) -> (forall lv, In lv lvs -> In lv (map ls_lv (s_loops s))) -> reorder s lvs = Done s1 -> sreach s0 s1
| sr_exec s0 s lv x s1 : sreach s0 s -> In lv (map ls_lv (s_loops s)) -> set_exec s lv x = Done s1 -> sreach s0 s1.

(* no name extends another: i__o and i__o__i cannot both be loops *)
Definition ext_of (a b : name) : Prop := match a, b with NLoop r p q, NLoop r' p' q' => r = r' /\ p = p' /\ exists z, q' = q ++ z | _, _ => a = b end.
Definition is_loop (n : name) : Prop := match n with NLoop _ _ _ => True | _ => False end.
Fixpoint apart (l : list name) : Prop := match l with [] => True | n :: r => Forall (fun m => ~ ext_of n m /\ ~ ext_of m n) r /\ apart r end.
Lemma ext_refl n : ext_of n n.
Proof. destruct n; cbn; auto. repeat split; auto. exists []. now rewrite app_nil_r. Qed.
Lemma apart_NoDup l : apart l -> NoDup l.
Proof.
  induction l as [|n l IH]; cbn; intros H; constructor; [|tauto]. destruct H as [H _]. rewrite Forall_forall in H. intros Hn. destruct (H n Hn) as [H1 _]. apply H1, ext_refl.
Qed.
Lemma apart_app a b : apart (a ++ b) <-> apart a /\ apart b /\ forall x y, In x a -> In y b -> ~ ext_of x y /\ ~ ext_of y x.
Proof.
  induction a as [|n a IH]; cbn; [intuition|]. rewrite Forall_app, IH, !Forall_forall. split.
  - intros ((H1 & H2) & H3 & H4 & H5). split; [split; auto|]. split; auto. intros x y [<-|Hx] Hy; auto.
  - intros ((H1 & H2) & H3 & H4). split; [split; auto|]. split; auto.
Qed.
Lemma apart_perm l l' : Permutation l l' -> apart l -> apart l'.
Proof.
  induction 1; cbn; auto.
  - intros [H1 H2]. split; auto. rewrite Forall_forall in *. intros m Hm. apply H1. eapply Permutation_in; [symmetry|]; eauto.
  - intros (H1 & H2 & H3). pose proof (Forall_inv H1) as [A B]. apply Forall_inv_tail in H1. split; [constructor; auto|]. split; auto.
Qed.
Lemma suffix_ext_l b n m : is_loop n -> is_loop m -> ext_of (suffix b n) m -> ext_of n m.
Proof. destruct n, m; cbn; try tauto. intros _ _ (-> & -> & (z & ->)). repeat split; auto. exists (b :: z). now rewrite <- app_assoc. Qed.
Lemma suffix_ext_r b n m : is_loop n -> is_loop m -> ext_of m (suffix b n) -> ext_of m n \/ ext_of n m.
Proof.
  destruct n as [| | | |r p q], m as [| | | |r2 p2 q2]; cbn; try tauto. intros _ _ (-> & -> & (z & E)).
  destruct z as [|x z] using rev_ind.
  - right. rewrite app_nil_r in E. subst q2. repeat split; auto. exists [b]. reflexivity.
  - left. clear IHz. rewrite app_assoc in E. apply app_inj_tail in E as [E _]. subst q. repeat split; auto. exists z. reflexivity.
Qed.
Definition sinv (s : schedule) : Prop := apart (names (s_loops s)) /\ Forall is_loop (names (s_loops s)).

Lemma sinv_split s lv f s1 o i : sinv s -> In lv (map ls_lv (s_loops s)) -> split s lv f = Done (s1, o, i) -> sinv s1 /\
  exists l1 l l2, s_loops s = l1 ++ l :: l2 /\ ls_lv l = lv /\ s_loops s1 = l1 ++ mkLS o (ls_kind l) XSeq :: mkLS i (ls_kind l) XSeq :: l2 /\
    o = mkLV (suffix true (lv_name lv)) (ceildiv (lv_ext lv) f) /\ i = mkLV (suffix false (lv_name lv)) f /\
    s_splits s1 = s_splits s ++ [mkSp lv o i f (negb (lv_ext lv mod f =? 0))].
Proof.
  intros [HA HL] Hin HS. apply in_map_iff in Hin as (l & Hl & Hin). apply in_split in Hin as (l1 & l2 & Hls).
  assert (Hix : index_of (lv_name lv) (s_loops s) = Some (length l1)).
  { apply index_of_name; [now apply apart_NoDup|]. exists l. rewrite Hls. split; [apply nth_error_mid|now rewrite Hl]. }
  unfold split in HS. destruct (f =? 0); [discriminate|]. rewrite Hix, Hls, nth_error_mid, firstn_mid, skipn_mid in HS. injection HS as <- <- <-.
  split; [|exists l1, l, l2; cbn; auto 10].
  unfold sinv, names in *. rewrite Hls in HA, HL. cbn [s_loops app]. rewrite !map_app in *. cbn [map ls_lv lv_name] in *. rewrite Hl in *.
  apply Forall_app in HL as [L1 L2]. pose proof (Forall_inv L2) as Ln. apply Forall_inv_tail in L2.
  apply apart_app in HA as (A1 & (A2 & A3) & A4). rewrite Forall_forall in A2.
  assert (Hsl : forall b, is_loop (suffix b (lv_name lv))) by (intros b; destruct (lv_name lv); cbn in *; auto).
  assert (HB : forall b m, is_loop m -> (~ ext_of (lv_name lv) m /\ ~ ext_of m (lv_name lv)) -> ~ ext_of (suffix b (lv_name lv)) m /\ ~ ext_of m (suffix b (lv_name lv))).
  { intros b m Hm [H1 H2]. split; intros H; [apply (suffix_ext_l b) in H; auto|]. apply suffix_ext_r in H; auto. tauto. }
  split.
  - apply apart_app. split; auto. split.
    + cbn [apart]. split; [|split; auto].
      * constructor; [destruct (lv_name lv); cbn in *; try tauto; split; intros (_ & _ & (z & E)); rewrite <- app_assoc in E; apply app_inv_head in E; discriminate|].
        apply Forall_forall. intros m Hm. apply HB; [rewrite Forall_forall in L2; auto|apply A2; auto].
      * apply Forall_forall. intros m Hm. apply HB; [rewrite Forall_forall in L2; auto|apply A2; auto].
    + intros x y Hx Hy. rewrite Forall_forall in L1, L2. cbn in Hy. destruct Hy as [<-|[<-|Hy]].
      * destruct (HB true x (L1 x Hx)); [|auto]. destruct (A4 x (lv_name lv) Hx (or_introl eq_refl)). auto.
      * destruct (HB false x (L1 x Hx)); [|auto]. destruct (A4 x (lv_name lv) Hx (or_introl eq_refl)). auto.
      * apply A4; auto. now right.
  - apply Forall_app. split; auto.
Qed.
Lemma sreach_inv s0 s : sreach s0 s -> sinv s0 -> sinv s.
Proof.
  induction 1 as [s|s0 s lv f s1 o i H IH Hin HS|s0 s lvs s1 H IH HN Hin HR|s0 s lv x s1 H IH Hin HX]; intros HI; auto.
  - now destruct (sinv_split _ _ _ _ _ _ (IH HI) Hin HS).
  - specialize (IH HI). destruct IH as [HA HL]. destruct (reorder_ok s lvs (apart_NoDup _ HA) HN Hin) as (s' & E & _ & _ & _ & _ & HP). rewrite HR in E. injection E as <-.
    unfold sinv. rewrite !names_lv in *. pose proof (Permutation_map lv_name HP) as HP'. split; [eapply apart_perm; eauto|eapply Forall_perm; eauto].
  - specialize (IH HI). destruct (set_exec_ok s lv x) as (s' & E & H1 & _ & _).
    { apply in_map_iff in Hin as (l & <- & Hl). apply in_map_iff. eauto. }
    rewrite HX in E. injection E as <-. unfold sinv, names in *. now rewrite (lvk_names _ _ H1).
Qed.
(* distinct unsplit names are apart *)
Lemma apart_base l : NoDup l -> Forall (fun n => exists r p, n = NLoop r p []) l -> apart l.
Proof.
  induction 1 as [|n l Hn _ IH]; cbn; intros HF; auto. destruct (Forall_inv HF) as (r & p & ->). apply Forall_inv_tail in HF. split; auto.
  rewrite Forall_forall in *. intros m Hm. destruct (HF m Hm) as (r' & p' & ->). split; intros (E1 & E2 & _); subst; contradiction.
Qed.
