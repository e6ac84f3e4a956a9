(* One kernel invocation preserves the runtime invariant. *)
From Verif Require Import Base BaseFacts Util UtilFacts Lang Spec Graph Api ApiFacts Denote SpecFacts DenoteFacts Reach
  Algo AlgoSem AlgoConv AlgoConv2 AlgoFuse AlgoFuse2 AlgoConvert AlgoConvert2
  Kernel Sched Codegen Backends CacheKey KernFacts RenderFacts KernelOk RunFacts SchedFacts SchedGpu KernelRun KernelRun2 BackendFacts AlgoTop Runtime.

(* ------------------------------------------------------------------ compiled kernels and cache keys *)
(* everything code generation and the cache key look at *)
Record desc := mkD { d_g : graph; d_E : fenv; d_f : func; d_s : schedule }.
Definition code_of (d : desc) (k : nat) : outcome (kernel * nat) :=
  codegen (d_g d) (d_E d) (func_args (f_expr (d_f d))) (d_f d) (d_s d) k.
Definition key_of (d : desc) : outcome kkey := cache_key (d_g d) (d_E d) (d_f d) (d_s d).
(* a kernel that materializing a may need *)
Definition kernel_of (g : graph) (a : nat) (d : desc) : Prop :=
  exists b bd E fs f fd sc, base g a = Some b /\ nth_error g b = Some bd /\ is_const (n_op bd) = false /\
    convert g b = Done (E, fs) /\ In f fs /\ E f = Some fd /\ auto_schedule false fd = Done sc /\ d = mkD g E fd sc.
(* no two kernels of the collection share a key without sharing their code *)
Definition key_safe (C : desc -> Prop) : Prop :=
  forall d1 d2 key, C d1 -> C d2 -> key_of d1 = Done key -> key_of d2 = Done key -> forall k, code_of d1 k = code_of d2 k.

Section RT.
Context (B : cpu_backend).
Notation L := (b_lang B).
Notation V := (val (b_lang B)).

Record backend_ok : Prop := {
  bo_lang : lang_ok L;
  bo_ref : b_copies B = false -> forall dt v, coerce L dt v = v;
  bo_acc : forall dt v, b_accept B dt (coerce L dt v) = true;
  bo_acc0 : forall dt, b_accept B dt (lit L 0) = true
}.
Context (HB : backend_ok) (C : desc -> Prop) (HC : key_safe C).
Let HL : lang_ok L := bo_lang HB.

Record inv (s : rt B) : Prop := {
  i_reach : reach (r_graph B s);
  i_const : forall n nd vals, nth_error (r_graph B s) n = Some nd -> n_op nd = OConst vals -> r_cpu B s n = Some (map (of_num L) vals);
  i_buf : forall n nd vs, nth_error (r_graph B s) n = Some nd -> is_const (n_op nd) = false -> r_cpu B s n = Some vs ->
     Z.of_nat (length vs) = zprod (n_shape nd) /\ forallb (b_accept B (n_dtype nd)) vs = true;
  i_new : forall n, nth_error (r_graph B s) n = None -> r_cpu B s n = None;
  i_cache : forall key kern, cache_get (r_cache B s) key = Some kern -> exists d k0 k1, C d /\ key_of d = Done key /\ code_of d k0 = Done (kern, k1)
}.
(* array n was computed: its buffer holds its elements *)
Definition good (s : rt B) (n : nat) : Prop :=
  exists nd vs, nth_error (r_graph B s) n = Some nd /\ is_const (n_op nd) = false /\ r_cpu B s n = Some vs /\
    filled L (n_shape nd) (fun idx => t_at (den L (r_graph B s) n) idx) vs.

(* a constant array the executor refuses to convert (ctypes: a float in an int64 array) *)
Definition refused (g : graph) (n : nat) : Prop :=
  exists nd vals, nth_error g n = Some nd /\ n_op nd = OConst vals /\ b_copies B = true /\
    forallb (b_accept B (n_dtype nd)) (map (of_num L) vals) = false.

(* ------------------------------------------------------------------ small facts *)
Lemma filled_forallb_nth dt s f vs idx : forallb (b_accept B dt) vs = true -> filled L s f vs -> in_range s idx -> exists v, f idx = Ok v /\ znth vs (flat s idx) = Some v /\ b_accept B dt v = true.
Proof.
  intros HA HF Hi. destruct (HF idx Hi) as (v & H1 & H2). exists v. split; auto. split; auto. rewrite forallb_forall in HA. apply HA.
  unfold znth in H2. destruct (_ <? 0); [discriminate|]. eapply nth_error_In; eauto.
Qed.
Lemma znth_map {A1 A2} (h : A1 -> A2) l z : znth (map h l) z = option_map h (znth l z).
Proof. unfold znth. destruct (z <? 0); auto. apply nth_error_map. Qed.
Lemma filled_map (h : V -> V) s f vs : (forall idx v, in_range s idx -> f idx = Ok v -> h v = v) -> filled L s f vs -> filled L s f (map h vs).
Proof.
  intros Hh HF idx Hi. destruct (HF idx Hi) as (v & H1 & H2). exists v. split; auto. rewrite znth_map, H2. cbn. f_equal. eauto.
Qed.
Lemma const_filled g n nd vals : wf_graph g -> nth_error g n = Some nd -> n_op nd = OConst vals ->
  filled L (n_shape nd) (fun idx => t_at (den L g n) idx) (map (coerce L (n_dtype nd)) (map (of_num L) vals)).
Proof.
  intros Hw Hn Hop idx Hi. rewrite (den_wf_eq L g n nd Hw Hn). unfold den_node. rewrite Hop. cbn [t_at t_data].
  pose proof (Hw _ _ Hn) as HW. unfold wf_node in HW. rewrite Hop in HW. destruct HW as (_ & _ & Hlen & _).
  rewrite map_map. destruct (znth_in_range (map (fun x => coerce L (n_dtype nd) (of_num L x)) vals) (flat (n_shape nd) idx)) as [v Hv].
  - rewrite map_length, Hlen. now apply flat_bounds.
  - exists v. rewrite Hv. auto.
Qed.

(* what an argument's buffer gives the kernel *)
Lemma arg_value s n nd : inv s -> nth_error (r_graph B s) n = Some nd ->
  (exists vals, n_op nd = OConst vals) \/ good s n ->
  exists vs, r_cpu B s n = Some vs /\ Z.of_nat (length vs) = zprod (n_shape nd) /\
    filled L (n_shape nd) (fun idx => t_at (den L (r_graph B s) n) idx) (map (coerce L (n_dtype nd)) vs) /\
    (forallb (b_accept B (n_dtype nd)) vs = false -> b_copies B = true -> refused (r_graph B s) n).
Proof.
  intros HI Hn [[vals Hop]|Hg].
  - exists (map (of_num L) vals). split; [eapply i_const; eauto|]. split; [|split].
    + pose proof (reach_wf _ (i_reach _ HI) _ _ Hn) as HW. unfold wf_node in HW. rewrite Hop in HW. rewrite map_length. tauto.
    + apply const_filled; auto. apply reach_wf, i_reach, HI.
    + intros Hf Hc. exists nd, vals. auto.
  - destruct Hg as (nd' & vs & H1 & H2 & H3 & H4). assert (nd' = nd) by congruence. subst nd'.
    destruct (i_buf _ HI _ _ _ Hn H2 H3) as [H5 H6]. exists vs. split; auto. split; auto. split.
    + apply filled_map; auto. intros idx v Hi Hv. eapply den_coerced; eauto; [apply (ok_idem _ HL)|apply reach_wf, i_reach, HI].
    + intros Hf. congruence.
Qed.

(* ------------------------------------------------------------------ parameter passing *)
Lemma zero_fill_ok g f nd ps (m : store L) : nth_error g f = Some nd -> ~ In f ps ->
  (forall p, In p ps -> exists pd vs, nth_error g p = Some pd /\ m p = Some vs) ->
  exists m1, zero_fill B g (f :: ps) m = Done m1 /\
    forall b, m1 b = if Nat.eqb b f then Some (match m f with Some vs => vs | None => repeat (lit L 0) (Z.to_nat (n_len nd)) end) else m b.
Proof.
  intros Hf Hni Hp. cbn [zero_fill]. unfold get. rewrite Hf. cbn [obind].
  set (m0 := match m f with Some _ => m | None => sset m f (repeat (lit L 0) (Z.to_nat (n_len nd))) end).
  exists m0. split.
  - assert (Hp' : forall p, In p ps -> exists pd vs, nth_error g p = Some pd /\ m0 p = Some vs).
    { intros p Hin. destruct (Hp p Hin) as (pd & vs & H1 & H2). exists pd, vs. split; auto. unfold m0. destruct (m f); auto.
      unfold sset. destruct (Nat.eqb_spec f p) as [->|]; auto. contradiction. }
    clear - Hp'. clearbody m0. induction ps as [|p ps IH]; cbn; auto. destruct (Hp' p (or_introl eq_refl)) as (pd & vs & H1 & H2).
    unfold get. rewrite H1. cbn. rewrite H2. apply IH. intros. apply Hp'. now right.
  - intros b. unfold m0. destruct (m f) eqn:E.
    + destruct (Nat.eqb_spec b f); congruence.
    + unfold sset. rewrite Nat.eqb_sym. destruct (Nat.eqb_spec b f); auto.
Qed.
Lemma zero_fill_length vs nd (m : store L) g n : wf_graph g -> nth_error g n = Some nd ->
  (forall vs, m n = Some vs -> Z.of_nat (length vs) = zprod (n_shape nd)) ->
  vs = match m n with Some vs => vs | None => repeat (lit L 0) (Z.to_nat (n_len nd)) end -> Z.of_nat (length vs) = zprod (n_shape nd).
Proof.
  intros Hw Hn Hm ->. destruct (m n); auto. rewrite repeat_length.
  pose proof (wf_shape_facts L g n nd Hw Hn) as [_ Hnn _ Hlen]. rewrite Hlen. assert (0 <= zprod (n_shape nd)) by (now apply zprod_nonneg). lia.
Qed.

Lemma copy_in_ok g (m : store L) ps : (forall p, In p ps -> exists pd vs, nth_error g p = Some pd /\ m p = Some vs) ->
  match copy_in B g ps m with
  | Done cs => length cs = length ps /\ (forall i p, nth_error ps i = Some p -> exists pd vs, nth_error g p = Some pd /\ m p = Some vs /\ nth_error cs i = Some (map (coerce L (n_dtype pd)) vs) /\ forallb (b_accept B (n_dtype pd)) vs = true)
  | Throw e => e = TypeErr /\ exists p pd vs, In p ps /\ nth_error g p = Some pd /\ m p = Some vs /\ forallb (b_accept B (n_dtype pd)) vs = false
  end.
Proof.
  induction ps as [|p ps IH]; intros Hp; cbn [copy_in].
  - split; auto. intros [|i] p H; discriminate.
  - destruct (Hp p (or_introl eq_refl)) as (pd & vs & H1 & H2). unfold get. rewrite H1. cbn [obind]. rewrite H2. cbn [throw_none obind].
    destruct (forallb (b_accept B (n_dtype pd)) vs) eqn:EA.
    + specialize (IH ltac:(intros; apply Hp; now right)). destruct (copy_in B g ps m) as [cs|e]; cbn [obind].
      * destruct IH as [I1 I2]. split; [cbn; lia|]. intros [|i] q Hq; cbn in Hq; [injection Hq as <-; exists pd, vs; auto|eauto].
      * destruct IH as (-> & q & qd & ws & H3 & H4). split; auto. exists q, qd, ws. split; [now right|auto].
    + split; auto. exists p, pd, vs. split; [now left|auto].
Qed.

(* ------------------------------------------------------------------ one invocation *)
Section Invoke.
Context (s : rt B) (HI : inv s).
Let g := r_graph B s.
Context (E : fenv) (f : nat) (fd : func) (nd : node) (HK : kctx g E f fd nd) (Hnc : is_const (n_op nd) = false).
Let args := func_args (f_expr fd).
Context (Hfit : forall x, In x args -> ltB L (zprod (shape_of g (arg_id x)))) (HfitO : ltB L (zprod (n_shape nd))).
Context (Hval : forall idx, in_range (n_shape nd) idx ->
  evalV L (shape_of g) (Fden L g) (n_dtype nd) (f_expr fd) (lenv f (n_shape nd) idx) = Fden L g f idx).
Context (Hready : forall x, In x args -> (exists xd vals, nth_error g (arg_id x) = Some xd /\ n_op xd = OConst vals) \/ good s (arg_id x)).

Let Hw : wf_graph g := reach_wf _ (i_reach _ HI).

Lemma kval_den idx : in_range (n_shape nd) idx -> kval L g f fd nd (Fden L g) idx = Fden L g f idx.
Proof using HB HI HK Hval.
  intros Hi. unfold kval. rewrite Hval by assumption. unfold Fden. destruct (t_at (den L g f) idx) eqn:Ed; cbn; auto. f_equal.
  eapply den_coerced; eauto; [apply (ok_idem _ HL)|apply (kc_nd _ _ _ _ _ HK)].
Qed.
Lemma kval_nf idx : in_range (n_shape nd) idx -> kval L g f fd nd (Fden L g) idx <> Fault.
Proof using HB HI HK Hval. intros Hi. rewrite kval_den by assumption. eapply den_nofault; eauto. apply (kc_nd _ _ _ _ _ HK). Qed.

Lemma arg_buffers : mapOut (arg_buffer E) args = Done (map arg_id args).
Proof using HK HI.
  assert (H : forall x, In x args -> arg_buffer E x = Done (arg_id x)).
  { intros x Hx. apply (in_args g f fd) in Hx. destruct x as [n|d]; cbn; auto.
    destruct (kc_deps _ _ _ _ _ HK d Hx) as (fd' & nd' & H1 & H2 & _). rewrite H1. cbn. f_equal.
    (* out buffer of a dependency *)
    exact (kc_out _ _ _ _ _ HK d Hx fd' H1). }
  clear - H. revert H. generalize args. intros l0. induction l0 as [|x l IH]; intros H; cbn; auto. rewrite (H x) by (now left). cbn. rewrite IH; auto. intros; apply H; now right.
Qed.

Lemma invoke_ok sc k0 k1 kern s0 : auto_schedule false fd = Done sc -> codegen g E args fd sc k0 = Done (kern, k1) ->
  r_graph B s0 = g -> r_cpu B s0 = r_cpu B s ->
  exists s' oc, invoke B s0 kern (f :: map arg_id args) = (s', oc) /\
    r_graph B s' = g /\ r_cache B s' = r_cache B s0 /\ r_tmp B s' = r_tmp B s0 /\ r_runs B s' = S (r_runs B s0) /\
    (forall b, b <> f -> r_cpu B s' b = r_cpu B s b) /\
    (forall vs, r_cpu B s' f = Some vs -> Z.of_nat (length vs) = zprod (n_shape nd) /\ forallb (b_accept B (n_dtype nd)) vs = true) /\
    (forall vs, oc = Throw TypeErr -> r_cpu B s f = Some vs -> r_cpu B s' f = Some vs) /\
    match oc with
    | Done _ => good s' f /\ forall x, In x args -> ~ refused g (arg_id x)
    | Throw e => (e = ValueErr /\ exists idx, in_range (n_shape nd) idx /\ t_at (den L g f) idx = Raise) \/
                 (e = TypeErr /\ exists x, In x args /\ refused g (arg_id x))
    end.
Proof using HB HI HK Hnc Hfit HfitO Hval Hready.
  intros Hsc Hcg Hg0 Hc0.
  assert (Hf : nth_error g f = Some nd) by apply (kc_nd _ _ _ _ _ HK).
  assert (Hnin : ~ In f (map arg_id args)).
  { intros H. apply in_map_iff in H as (x & Hx & Hin). eapply (arg_neq g E f fd nd HK); eauto. }
  assert (Hargs : forall x, In x args -> exists xd vs, nth_error g (arg_id x) = Some xd /\ shape_of g (arg_id x) = n_shape xd /\ r_cpu B s (arg_id x) = Some vs /\
     Z.of_nat (length vs) = zprod (n_shape xd) /\
     filled L (n_shape xd) (fun idx => t_at (den L g (arg_id x)) idx) (map (coerce L (n_dtype xd)) vs) /\
     (forallb (b_accept B (n_dtype xd)) vs = false -> b_copies B = true -> refused g (arg_id x))).
  { intros x Hx. destruct (arg_node g Hw E f fd nd HK x Hx) as (xd & H1 & _ & H2).
    destruct (arg_value s (arg_id x) xd HI H1) as (vs & V1 & V2 & V3 & V4).
    - destruct (Hready x Hx) as [(xd' & vals & H3 & H4)|H3]; auto. left. exists vals. congruence.
    - exists xd, vs. repeat split; auto. }
  assert (Hps : forall p, In p (map arg_id args) -> exists pd vs, nth_error g p = Some pd /\ r_cpu B s p = Some vs).
  { intros p Hp. apply in_map_iff in Hp as (x & <- & Hx). destruct (Hargs x Hx) as (xd & vs & H1 & _ & H2 & _). eauto. }
  destruct (zero_fill_ok g f nd (map arg_id args) (r_cpu B s) Hf Hnin Hps) as (m1 & Hz & Hm1).
  set (out0 := match r_cpu B s f with Some vs => vs | None => repeat (lit L 0) (Z.to_nat (n_len nd)) end) in *.
  assert (Hout0 : Z.of_nat (length out0) = zprod (n_shape nd)).
  { eapply zero_fill_length with (m := r_cpu B s) (g := g); eauto. intros vs Hvs. eapply i_buf in Hvs; eauto. tauto. }
  assert (Hacc0 : forallb (b_accept B (n_dtype nd)) out0 = true).
  { unfold out0. destruct (r_cpu B s f) eqn:Ec; [eapply i_buf in Ec; eauto; tauto|].
    apply forallb_forall. intros v Hv. apply repeat_spec in Hv. subst. apply (bo_acc0 HB). }
  unfold invoke. cbn [r_graph r_cpu r_cache r_tmp r_runs]. rewrite Hg0, Hc0, Hz.
  assert (Hplen : length (k_params kern) = S (length args)).
  { destruct (codegen_ok g Hw E f fd nd HK sc k0) as (ps & c & v & k1' & HC' & Hps' & _). fold args in HC', Hps'. rewrite Hcg in HC'. injection HC' as -> <-. cbn. f_equal.
    destruct (arg_params_ok g Hw E f fd nd HK args ltac:(auto) 0) as (ps' & E1 & E2 & _). rewrite Hps' in E1. now injection E1 as <-. }
  rewrite Hplen. cbn [length]. rewrite map_length, Nat.eqb_refl. cbn [negb].
  
  destruct (b_copies B) eqn:Ecp.
  - (* copies *)
    assert (Hps1 : forall p, In p (f :: map arg_id args) -> exists pd vs, nth_error g p = Some pd /\ m1 p = Some vs).
    { intros p [<-|Hp].
      - exists nd, out0. split; auto. rewrite Hm1, Nat.eqb_refl. reflexivity.
      - destruct (Hps p Hp) as (pd & vs & H1 & H2). exists pd, vs. split; auto. rewrite Hm1. destruct (Nat.eqb_spec p f) as [->|]; [contradiction|auto]. }
    pose proof (copy_in_ok g m1 (f :: map arg_id args) Hps1) as HCI.
    destruct (copy_in B g (f :: map arg_id args) m1) as [cs|e].
    + destruct HCI as [Hlcs Hcs].
      destruct (Hcs 0%nat f eq_refl) as (nd' & vs' & N1 & N2 & N3 & _). assert (nd' = nd) by congruence. subst nd'.
      rewrite Hm1, Nat.eqb_refl in N2. injection N2 as <-.
      assert (HR := kernel_run L HL true (no_gpu) g Hw E f fd nd HK HfitO (Fden L g) kval_nf sc k0 kern k1 0%nat (seq 1 (length args)) (fun i => nth_error cs i) (map (coerce L (n_dtype nd)) out0) Hsc Hcg).
      destruct HR as (m' & oc & out' & HR & Hm' & Hlen' & Hoc).
      * now rewrite seq_length.
      * rewrite in_seq. lia.
      * exact N3.
      * rewrite map_length. exact Hout0.
      * intros i x l Hx Hl. fold args in Hx. assert (Hi : (i < length args)%nat) by (apply nth_error_Some; congruence).
        assert (l = S i). { assert (H := nth_error_nth _ _ 0%nat Hl). rewrite seq_nth in H by assumption. lia. } subst l.
        destruct (Hcs (S i) (arg_id x)) as (xd & vs & X1 & X2 & X3 & _); [cbn; now rewrite nth_error_map, Hx|].
        assert (Hxin : In x args) by (eapply nth_error_In; eauto).
        destruct (Hargs x Hxin) as (xd' & vs' & Y1 & Y2 & Y3 & Y4 & Y5 & _). assert (xd' = xd) by congruence. subst xd'.
        split; [now apply Hfit|]. exists (map (coerce L (n_dtype xd)) vs). split; auto.
        rewrite Hm1 in X2. destruct (Nat.eqb_spec (arg_id x) f) as [Heq|_]; [exfalso; apply Hnin; rewrite <- Heq; now apply in_map|].
        assert (vs' = vs) by congruence. subst vs'. fold g in Y2. rewrite Y2. exact Y5.
      * cbn [seq]. cbn [seq] in HR. rewrite HR. destruct oc as [r| |]; [|..].
        -- rewrite (Hm' 0%nat). cbn [Nat.eqb]. eexists _, _. split; [reflexivity|]. cbn [set_cpu r_graph r_cpu r_cache r_tmp r_runs].
           repeat split.
           ++ intros b Hb. unfold sset. destruct (Nat.eqb_spec f b); [congruence|]. rewrite Hm1. destruct (Nat.eqb_spec b f); congruence.
           ++ unfold sset in H. rewrite Nat.eqb_refl in H. injection H as <-. rewrite Hlen', map_length. exact Hout0.
           ++ unfold sset in H. rewrite Nat.eqb_refl in H. injection H as <-.
              apply forallb_forall. intros v Hv. apply In_nth_error in Hv as [j Hj].
              assert (Hjlt : (j < length out')%nat) by (apply nth_error_Some; congruence).
              rewrite Hlen', map_length in Hjlt. assert (Hj0 : 0 <= Z.of_nat j < zprod (n_shape nd)) by lia.
              pose (idx := unflat (n_shape nd) (Z.of_nat j)). assert (Hnn : Forall (fun d => 0 <= d) (n_shape nd)) by apply (wf_shape_facts L g f nd Hw Hf).
              assert (Hidx : in_range (n_shape nd) idx) by (apply unflat_in_range; auto). assert (Hfl : flat (n_shape nd) idx = Z.of_nat j) by (apply flat_unflat; auto).
              destruct (Hoc idx Hidx) as (w & Hw1 & Hw2). rewrite Hfl in Hw2. unfold znth in Hw2. destruct (Z.of_nat j <? 0) eqn:Ej; [lia|]. rewrite Nat2Z.id in Hw2.
              assert (v = w) by congruence. subst w. unfold kval in Hw1. destruct (evalV _ _ _ _ _ _); try discriminate. cbn in Hw1. injection Hw1 as <-. apply (bo_acc HB).
           ++ intros vs Hx. discriminate.
           ++ exists nd, out'. cbn [set_cpu r_graph r_cpu]. split; auto. split; auto. split; [unfold sset; now rewrite Nat.eqb_refl|].
              intros idx Hi. destruct (Hoc idx Hi) as (v & H1 & H2). exists v. split; auto. rewrite kval_den in H1 by assumption. exact H1.
           ++ intros x Hx (xd & vals & R1 & R2 & R3 & R4). destruct (In_nth_error _ _ Hx) as [i Hi].
              destruct (Hcs (S i) (arg_id x)) as (xd' & vs & X1 & X2 & _ & X3); [cbn; now rewrite nth_error_map, Hi|].
              assert (xd' = xd) by congruence. subst xd'. rewrite Hm1 in X2.
              destruct (Nat.eqb_spec (arg_id x) f) as [Heq|_]; [exfalso; apply Hnin; rewrite <- Heq; now apply in_map|].
              rewrite (i_const _ HI _ _ _ R1 R2) in X2. injection X2 as <-. congruence.
        -- eexists _, _. split; [reflexivity|]. cbn [set_cpu r_graph r_cpu r_cache r_tmp r_runs]. split; auto. split; auto. split; auto. split; auto. split; [|split; [|split]].
           ++ intros b Hb. rewrite Hm1. destruct (Nat.eqb_spec b f); congruence.
           ++ intros vs Hvs. rewrite Hm1, Nat.eqb_refl in Hvs. injection Hvs as <-. auto.
           ++ intros vs Hx. discriminate.
           ++ left. split; auto. destruct Hoc as (idx & H1 & H2). exists idx. split; auto. rewrite kval_den in H2 by assumption. exact H2.
        -- contradiction.
    + destruct HCI as (-> & p & pd & vs & Hp & P1 & P2 & P3).
      eexists _, _. split; [reflexivity|]. cbn [set_cpu r_graph r_cpu r_cache r_tmp r_runs]. split; auto. split; auto. split; auto. split; auto. split; [|split; [|split]].
      * intros b Hb. rewrite Hm1. destruct (Nat.eqb_spec b f); congruence.
      * intros ws Hvs. rewrite Hm1, Nat.eqb_refl in Hvs. injection Hvs as <-. auto.
      * intros ws _ Hvs. rewrite Hm1, Nat.eqb_refl. unfold out0. now rewrite Hvs.
      * right. split; auto. destruct Hp as [<-|Hp].
        -- rewrite Hm1, Nat.eqb_refl in P2. injection P2 as <-. assert (pd = nd) by congruence. subst. congruence.
        -- apply in_map_iff in Hp as (x & <- & Hx). exists x. split; auto. destruct (Hargs x Hx) as (xd & ws & X1 & _ & X2 & _ & _ & X3).
           assert (xd = pd) by congruence. subst. apply X3; auto. rewrite Hm1 in P2. destruct (Nat.eqb_spec (arg_id x) f) as [Heq|_]; [exfalso; apply Hnin; rewrite <- Heq; now apply in_map|].
           congruence.
  - (* by reference *)
    pose proof (bo_ref HB Ecp) as Hid.
    destruct (kernel_run L HL false (no_gpu) g Hw E f fd nd HK HfitO (Fden L g) kval_nf sc k0 kern k1 f (map arg_id args) m1 out0 Hsc Hcg) as (m' & oc & out' & HR & Hm' & Hlen' & Hoc); auto.
    + apply map_length.
    + now rewrite Hm1, Nat.eqb_refl.
    + intros i x l Hx Hl. fold args in Hx. rewrite nth_error_map, Hx in Hl. cbn in Hl. injection Hl as <-.
      assert (Hxin : In x args) by (eapply nth_error_In; eauto).
      destruct (Hargs x Hxin) as (xd & vs & X1 & X2 & X3 & _ & X4 & _). split; [now apply Hfit|]. exists vs. split.
      * rewrite Hm1. destruct (Nat.eqb_spec (arg_id x) f) as [Heq|_]; [exfalso; apply Hnin; rewrite <- Heq; now apply in_map|exact X3].
      * fold g in X2. rewrite X2. rewrite (map_ext _ (fun v => v)), map_id in X4 by (intros; apply Hid). exact X4.
    + fold args in HR. rewrite HR.
      assert (Hacc : forall vs, forallb (b_accept B (n_dtype nd)) vs = true).
      { intros vs. apply forallb_forall. intros v _. rewrite <- (Hid (n_dtype nd) v). apply (bo_acc HB). }
      assert (Hframe : forall b, b <> f -> m' b = r_cpu B s b).
      { intros b Hb. rewrite Hm', Hm1. destruct (Nat.eqb_spec b f); congruence. }
      assert (Hlens : forall vs, m' f = Some vs -> Z.of_nat (length vs) = zprod (n_shape nd) /\ forallb (b_accept B (n_dtype nd)) vs = true).
      { intros vs Hvs. rewrite Hm', Nat.eqb_refl in Hvs. injection Hvs as <-. split; auto. congruence. }
      eexists _, _. split; [reflexivity|]. cbn [set_cpu r_graph r_cpu r_cache r_tmp r_runs]. split; auto. split; auto. split; auto. split; auto. split; auto. split; auto.
      split; [intros vs Hx; destruct oc; discriminate|].
      destruct oc as [r| |].
      * split; [|intros x Hx (xd & vals & _ & _ & R3 & _); congruence]. exists nd, out'. cbn [set_cpu r_graph r_cpu]. split; auto. split; auto. split; [now rewrite Hm', Nat.eqb_refl|].
        intros idx Hi. destruct (Hoc idx Hi) as (v & H1 & H2). exists v. split; auto. rewrite kval_den in H1 by assumption. exact H1.
      * left. split; auto. destruct Hoc as (idx & H1 & H2). exists idx. split; auto. rewrite kval_den in H2 by assumption. exact H2.
      * contradiction.
Qed.
End Invoke.
End RT.
