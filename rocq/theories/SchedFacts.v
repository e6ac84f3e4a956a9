(* The CPU schedule keeps the loops; codegen then emits one plain loop per output axis. *)
From Verif Require Import Base BaseFacts Util UtilFacts Lang Spec Graph Algo AlgoSem AlgoConv Kernel Sched Codegen KernFacts RenderFacts KernelOk.

Lemma filter_all_true {A} (p : A -> bool) l : (forall y, In y l -> p y = true) -> filter p l = l.
Proof. induction l as [|x l IH]; cbn; intros H; auto. rewrite H by auto. f_equal. auto. Qed.
Lemma filter_all_false {A} (p : A -> bool) l : (forall y, In y l -> p y = false) -> filter p l = [].
Proof. induction l as [|x l IH]; cbn; intros H; auto. rewrite H by auto. auto. Qed.

Lemma in_last {A} (l : list A) d : l <> [] -> In (last l d) l.
Proof. induction l as [|x l IH]; intros H; [congruence|]. destruct l; [now left|]. right. apply IH. discriminate. Qed.
Definition cpu_exec (x : lexec) : Prop := match x with XBlock _ | XThread _ => False | _ => True end.
(* loops of the schedule: the output loops in order, then the reduction loops *)
Definition lvk (l : loopsched) : loopvar * lkind := (ls_lv l, ls_kind l).
Definition init_lvk (f : func) : list (loopvar * lkind) :=
  map (fun l => (mkLV (lname l) (l_ext l), Spatial)) (f_loops f) ++ map (fun l => (mkLV (lname l) (l_ext l), Reduce)) (reduced_vars (f_expr f)).

Lemma index_of_spec n l i : index_of n l = Some i -> exists x, nth_error l i = Some x /\ lv_name (ls_lv x) = n.
Proof.
  revert i; induction l as [|y l IH]; intros i H; cbn in H; [discriminate|].
  destruct (name_eqb (lv_name (ls_lv y)) n) eqn:E.
  - injection H as <-. exists y. split; auto. now apply name_eqb_eq.
  - destruct (index_of n l) as [j|]; [|discriminate]. injection H as <-. destruct (IH j eq_refl) as (x & H1 & H2). eauto.
Qed.
Lemma index_of_in n l : In n (map (fun x => lv_name (ls_lv x)) l) -> exists i, index_of n l = Some i.
Proof.
  induction l as [|y l IH]; cbn; [tauto|]. intros H. destruct (name_eqb (lv_name (ls_lv y)) n) eqn:E; [eauto|].
  destruct H as [H|H]; [rewrite H, name_eqb_refl in E; discriminate|]. destruct (IH H) as [i ->]. cbn. eauto.
Qed.
Lemma map_upd_same {A B} (h : A -> B) l i x y : nth_error l i = Some y -> h x = h y -> map h (upd l i x) = map h l.
Proof. revert i; induction l as [|z l IH]; intros [|i] H Hx; cbn in *; try discriminate; [injection H as ->; congruence|]. f_equal. eauto. Qed.
Lemma Forall_upd {A} (P : A -> Prop) l i x : Forall P l -> P x -> Forall P (upd l i x).
Proof. intros H; revert i; induction H; intros [|i] Hx; cbn; constructor; auto. Qed.

Lemma set_exec_ok s lv x : In (lv_name lv) (map (fun y => lv_name (ls_lv y)) (s_loops s)) ->
  exists s', set_exec s lv x = Done s' /\ map lvk (s_loops s') = map lvk (s_loops s) /\ s_splits s' = s_splits s /\
    (forall P : lexec -> Prop, P x -> Forall (fun l => P (ls_exec l)) (s_loops s) -> Forall (fun l => P (ls_exec l)) (s_loops s')).
Proof.
  intros H. destruct (index_of_in _ _ H) as [i Hi]. destruct (index_of_spec _ _ _ Hi) as (y & Hy & _).
  unfold set_exec. rewrite Hi. cbn. rewrite Hy. eexists. split; [reflexivity|]. cbn. split; [|split; [reflexivity|]].
  - eapply map_upd_same; eauto.
  - intros P Hx HF. apply Forall_upd; auto.
Qed.

Lemma lvk_names l1 l2 : map lvk l1 = map lvk l2 -> map (fun x => lv_name (ls_lv x)) l1 = map (fun x => lv_name (ls_lv x)) l2.
Proof. intros H. rewrite <- (map_map lvk (fun p => lv_name (fst p))), H, map_map. reflexivity. Qed.

Lemma init_lvk_eq f : map lvk (s_loops (sched_init f)) = init_lvk f.
Proof. unfold sched_init, init_lvk. cbn. rewrite map_app, !map_map. reflexivity. Qed.
Lemma spatial_init f : spatial_loops (sched_init f) = map (fun l => mkLV (lname l) (l_ext l)) (f_loops f).
Proof.
  unfold spatial_loops, sched_init. cbn. rewrite filter_app, map_app.
  rewrite (filter_all_true _ (map _ (f_loops f))) by (intros y Hy; apply in_map_iff in Hy as (l & <- & _); reflexivity).
  rewrite (filter_all_false _ (map _ (reduced_vars _))) by (intros y Hy; apply in_map_iff in Hy as (l & <- & _); reflexivity).
  rewrite map_map, app_nil_r. reflexivity.
Qed.
Lemma spatial_names f lv : In lv (spatial_loops (sched_init f)) -> In (lv_name lv) (map (fun y => lv_name (ls_lv y)) (s_loops (sched_init f))).
Proof.
  rewrite spatial_init. intros H. apply in_map_iff in H as (l & <- & Hl). cbn. rewrite map_app, in_app_iff, !map_map. left.
  apply in_map_iff. exists l. auto.
Qed.

Lemma schedule_cpu_ok f : exists s, schedule_cpu (sched_init f) = Done s /\ map lvk (s_loops s) = init_lvk f /\
  s_splits s = [] /\ Forall (fun l => cpu_exec (ls_exec l)) (s_loops s).
Proof.
  assert (H0 : Forall (fun l => cpu_exec (ls_exec l)) (s_loops (sched_init f))).
  { unfold sched_init. cbn. apply Forall_app. split; apply Forall_forall; intros y Hy; apply in_map_iff in Hy as (l & <- & _); exact I. }
  pose proof (spatial_names f) as HN. unfold schedule_cpu. destruct (spatial_loops (sched_init f)) as [|lv sp] eqn:Esp.
  - cbn. eexists. split; [reflexivity|]. rewrite init_lvk_eq. auto.
  - destruct (set_exec_ok (sched_init f) lv XPar) as (s1 & E1 & A1 & B1 & C1); [apply HN; now left|].
    rewrite E1. cbn [obind]. assert (C1' := C1 cpu_exec I H0).
    destruct sp as [|lv2 sp].
    + exists s1. rewrite A1, init_lvk_eq, B1. auto.
    + destruct (set_exec_ok s1 (last (lv :: lv2 :: sp) (mkLV NOut 0)) XVec) as (s2 & E2 & A2 & B2 & C2).
      { rewrite (lvk_names _ _ A1). apply HN.
        apply in_last. discriminate. }
      exists s2. rewrite E2. split; auto. rewrite A2, A1, init_lvk_eq, B2, B1. split; auto. split; auto. apply C2; auto. exact I.
Qed.

Lemma render_loops_reduce l inner : Forall (fun x => ls_kind x = Reduce) l -> render_loops l inner = inner.
Proof. induction 1 as [|x l Hx _ IH]; cbn; auto. unfold is_spatial. now rewrite Hx. Qed.
Lemma render_loops_forn loops a s k0 red inner : Forall (fun l => cpu_exec (ls_exec l)) loops ->
  map lvk loops = map (fun l => (mkLV (lname l) (l_ext l), Spatial)) (mapi_from k0 (fun i d => mkL a false i d) s) ++ map (fun l => (mkLV (lname l) (l_ext l), Reduce)) red ->
  exists ls, render_loops loops inner = forn k0 ls inner /\ map fst ls = s.
Proof.
  revert k0 loops. induction s as [|d s IH]; intros k0 loops HF H.
  - exists []. cbn in H. split; auto. cbn. apply render_loops_reduce.
    apply Forall_forall. intros x Hx. apply (in_map lvk) in Hx. rewrite H in Hx. apply in_map_iff in Hx as (l & Hl & _).
    unfold lvk in Hl. congruence.
  - destruct loops as [|x loops]; [discriminate|]. cbn in H. injection H as H1 H2 H3. inversion HF as [|? ? H4 H5]; subst.
    destruct (IH (S k0) loops H5 H3) as (ls & E & Hm).
    destruct x as [[nm ext] kd ex]. cbn in *. injection H1 as -> ->. subst kd.
    exists ((d, ex) :: ls). cbn. split; [|now rewrite Hm]. rewrite E. destruct ex; cbn in *; try contradiction; reflexivity.
Qed.
