(* A kernel generated from a legal user schedule computes what the automatic CPU schedule computes. *)
From Coq Require Import Permutation.
From Verif Require Import Base BaseFacts Util UtilFacts Lang Spec Graph Api Denote SpecFacts DenoteFacts Reach ApiFacts
  Algo AlgoSem AlgoConv AlgoConv2 AlgoFuse AlgoFuse2 AlgoConvert AlgoConvert2
  Kernel Sched Codegen Backends KernFacts RenderFacts KernelOk RunFacts SchedFacts SchedGpu KernelRun KernelRun2 BackendFacts AlgoTop AlgoMore Safety
  Nest NestSched NestBody Parallel ParKernel ParCpu ParTop SchedUser SchedUser2.

(* a tail guard leaves the whole kernel: harmless only if nothing useful comes after, that is when the
   two halves of the guarded loop are the two outermost loops *)
Definition tail_ok (s : schedule) : Prop :=
  forall x, In x (s_splits s) -> sp_guard x = true -> exists r, spatial_loops s = sp_o x :: sp_i x :: r.
(* split extents within the index type of the language *)
Definition split_fits (L : lang) (s : schedule) : Prop := forall x, In x (s_splits s) -> ltB L (lv_ext (sp_orig x) + sp_factor x).

Lemma urun_ok (P : lexec -> Prop) (HP0 : P XSeq) sh : forall cs s fac, uinv_x P sh fac s -> ulegals_x P s cs -> exists s' fac', urun s cs = Done s' /\ uinv_x P sh fac' s'.
Proof.
  induction cs as [|c cs IH]; intros s fac HU HL; [cbn; eauto|]. cbn [ulegals_x urun] in *. destruct HL as [HL HR].
  assert (G : exists s1 fac1, ustep s c = Done s1 /\ uinv_x P sh fac1 s1).
  { destruct c as [lv f|lvs|lv x]; cbn [ustep].
    - destruct (ustep_split P HP0 sh fac s lv f HU HL) as (s' & o & i & k & d & E & _ & _ & H). rewrite E. cbn. eauto.
    - destruct (ustep_reorder P sh fac s lvs HU HL) as (s' & E & H). eauto.
    - destruct (ustep_exec P sh fac s lv x HU HL) as (s' & E & H). eauto. }
  destruct G as (s1 & fac1 & E & H). rewrite E. cbn [obind]. eapply IH; eauto.
Qed.
Lemma wfe_nored shp ic lim P e : wfe shp ic lim P e -> reduced_vars e = [].
Proof.
  induction e; cbn; intros H; try tauto; auto.
  - destruct H as [H1 H2]. now rewrite IHe1, IHe2.
  - destruct H as (H1 & H2 & H3). rewrite IHe2, IHe3 by assumption. assert (G : forall c, is_ix P c -> reduced_vars c = []); [|now rewrite G].
    induction c; cbn; intros Hc; try tauto; auto. destruct Hc as [A B]. now rewrite IHc1, IHc2.
Qed.
Lemma wff_red shp ic a loops e : wff shp ic a loops e -> NoDup (map l_pos (reduced_vars e)) /\ Forall (fun l => l_red l = true) (reduced_vars e).
Proof.
  destruct e; cbn [wff]; intros H; try (rewrite (wfe_nored _ _ _ _ _ H); split; constructor).
  destruct H as (_ & H1 & H2). cbn. split; auto. eapply Forall_impl; [|exact H2]. intros l (_ & Hl & _). exact Hl.
Qed.
Lemma NoDup_app2 {A} (l1 l2 : list A) : NoDup l1 -> NoDup l2 -> (forall x, In x l1 -> In x l2 -> False) -> NoDup (l1 ++ l2).
Proof. induction 1 as [|x l1 Hx _ IH]; cbn; auto. intros H2 HD. constructor; [intros H; apply in_app_or in H as [H|H]; [auto|eapply HD; [now left|exact H]]|]. apply IH; auto. intros y H3 H4. eapply HD; [right; exact H3|exact H4]. Qed.
Lemma uinv_init_x (P : lexec -> Prop) (HP0 : P XSeq) g E f fd nd : kctx g E f fd nd -> uinv_x P (n_shape nd) (fun _ => None) (sched_init fd).
Proof.
  intros HK. pose proof (kc_fd _ _ _ _ _ HK) as Hfd. destruct (wff_red _ _ _ _ _ (kc_wff _ _ _ _ _ HK)) as [HN HR].
  assert (HL : s_loops (sched_init fd) = mapi_from 0 (fun i d => sp (lvar i d) XSeq) (n_shape nd) ++ red_loops (reduced_vars (f_expr fd))).
  { rewrite Hfd at 1. apply sched_init_out. }
  assert (F1 : filter is_spatial (s_loops (sched_init fd)) = mapi_from 0 (fun i d => sp (lvar i d) XSeq) (n_shape nd)).
  { rewrite HL, filter_app, filter_all_true, filter_all_false, app_nil_r; auto.
    - intros x Hx. unfold red_loops in Hx. apply in_map_iff in Hx as (y & <- & _). reflexivity.
    - intros x Hx. apply In_nth_error in Hx as [i Hi]. rewrite nth_mapi in Hi. destruct (nth_error (n_shape nd) i); [|discriminate]. injection Hi as <-. reflexivity. }
  assert (F2 : filter is_reduce (s_loops (sched_init fd)) = red_loops (reduced_vars (f_expr fd))).
  { rewrite HL, filter_app, (filter_all_false is_reduce), filter_all_true; auto.
    - intros x Hx. unfold red_loops in Hx. apply in_map_iff in Hx as (y & <- & _). reflexivity.
    - intros x Hx. apply In_nth_error in Hx as [i Hi]. rewrite nth_mapi in Hi. destruct (nth_error (n_shape nd) i); [|discriminate]. injection Hi as <-. reflexivity. }
  assert (HS : seq_nest (n_shape nd) (mapi_from 0 (fun i d => sp (lvar i d) XSeq) (n_shape nd))).
  { split; [|split].
    - generalize 0%nat. generalize (n_shape nd). clear. induction l; intros k; cbn; constructor; auto.
    - generalize 0%nat. generalize (n_shape nd). clear. induction l; intros k; cbn; constructor; auto. exact I.
    - generalize 0%nat. generalize (n_shape nd). clear. induction l; intros k; cbn; f_equal; auto. }
  constructor.
  - rewrite HL. unfold names. rewrite map_app. apply NoDup_app2.
    + apply (nk_nodup _ _ _ _ (seq_nestok _ _ HS)).
    + unfold red_loops. rewrite map_map. cbn [ls_lv lv_name]. revert HN HR. clear. generalize (reduced_vars (f_expr fd)). induction l as [|x l IH]; cbn; intros HN HR; constructor.
      * apply NoDup_cons_iff in HN as [HN _]. intros H. apply HN. apply in_map_iff in H as (y & Ey & Hy). apply in_map_iff. exists y. split; auto. unfold lname in Ey. congruence.
      * apply IH; [now apply NoDup_cons_iff in HN|now apply Forall_inv_tail in HR].
    + intros n H1 H2. apply in_map_iff in H1 as (x & Ex & Hx). apply In_nth_error in Hx as [i Hi]. rewrite nth_mapi in Hi.
      destruct (nth_error (n_shape nd) i); [|discriminate]. injection Hi as <-. cbn in Ex. subst n.
      unfold red_loops in H2. rewrite map_map in H2. apply in_map_iff in H2 as (y & Ey & Hy). rewrite Forall_forall in HR. specialize (HR y Hy). cbn [ls_lv lv_name] in Ey. unfold lname in Ey. congruence.
  - rewrite F1. exact (seq_nestok _ _ HS).
  - unfold lvs_of. rewrite F2. unfold red_loops. rewrite map_map. apply Forall_forall. intros lv Hlv. apply in_map_iff in Hlv as (x & <- & Hx).
    rewrite Forall_forall in HR. specialize (HR x Hx). cbn. unfold lname. rewrite HR. eauto.
  - rewrite HL. apply Forall_app. split.
    + generalize 0%nat. generalize (n_shape nd). clear - HP0. induction l; intros k; cbn; constructor; auto.
    + apply Forall_forall. intros x Hx. unfold red_loops in Hx. apply in_map_iff in Hx as (y & <- & _). exact HP0.
Qed.
Lemma uinv_init g E f fd nd : kctx g E f fd nd -> uinv (n_shape nd) (fun _ => None) (sched_init fd).
Proof. apply uinv_init_x. exact I. Qed.

Lemma cpu_tuples gp loops : Forall (fun l => cpu_exec (ls_exec l)) loops -> forall zs, In zs (tuples gp loops) <-> lrange loops zs.
Proof.
  intros H2 zs. rewrite in_tuples. unfold lrange. revert zs. induction H2 as [|l loops Hl _ IH]; intros zs.
  - split; inversion 1; constructor.
  - assert (Hv : lvals gp l = zrange (lv_ext (ls_lv l))) by (unfold lvals; destruct (ls_exec l); try contradiction; reflexivity).
    split; inversion 1; subst; (constructor; [|now apply IH]); rewrite Hv in *; now apply in_zrange.
Qed.

Section Run.
Context (L : lang) (s : list Z) (Hs0 : Forall (fun d => 0 <= d) s) (f : list Z -> res (val L)) (Hok : forall idx, in_range s idx -> exists v, f idx = Ok v).
Context (gp : bool -> axis -> Z) (fac : nat -> option Z) (loops : list loopsched) (spls : list splitloop) (HN : nestok s fac loops spls).
Context (Hcpu : Forall (fun l => cpu_exec (ls_exec l)) loops).
Notation wof := (wof L s f fac loops).
Notation live := (live s fac loops).
Notation ibeh := (ibeh L s f fac loops).

Lemma nseq_prefix a b : (forall t, In t a -> live t = true) -> (forall t, In t b -> live t = false) ->
  exists fl, nseq L ibeh (a ++ b) = (map wof (filter live (a ++ b)), OkO fl).
Proof using Hok.
  intros Ha Hb. induction a as [|t a IH]; [apply (nseq_uniform L s f Hok fac loops b); now right|].
  destruct IH as [fl IH]; [intros; apply Ha; now right|]. exists fl. cbn [app nseq filter].
  rewrite (ibeh_live L s f Hok fac loops t) by (apply Ha; now left). rewrite (Ha t) by now left. rewrite IH. reflexivity.
Qed.
Lemma live_iff t : lrange loops t -> live t = true <-> forall k d q, nth_error s k = Some d -> fac k = Some q -> d mod q <> 0 -> coord fac (map lnm loops) t k < d.
Proof using HN.
  intros Ht. unfold ParKernel.live. rewrite in_rangeb_spec. rewrite (coords_in_range s fac loops spls HN t Ht). split; [eauto|].
  intros H k d q Hd Hq. destruct (Z.eq_dec (d mod q) 0) as [Hm|Hm]; [|eauto].
  pose proof (coord_bounds s fac loops spls HN t k d Ht Hd) as Hc. rewrite Hq in Hc. tauto.
Qed.
Lemma flat_map_flat_map {A B C} (h : B -> list C) (g : A -> list B) l : flat_map h (flat_map g l) = flat_map (fun x => flat_map h (g x)) l.
Proof. induction l as [|x l IH]; cbn; auto. now rewrite flat_map_app, IH. Qed.
Lemma flat_map_map {A B C} (h : B -> list C) (g : A -> B) l : flat_map h (map g l) = flat_map (fun x => h (g x)) l.
Proof. induction l as [|x l IH]; cbn; auto. now rewrite IH. Qed.
Lemma flat_map_ext_in {A B} (h g : A -> list B) l : (forall x, In x l -> h x = g x) -> flat_map h l = flat_map g l.
Proof. induction l as [|x l IH]; cbn; auto. intros H. rewrite H by now left. f_equal. apply IH. auto. Qed.
Lemma map_flat_map {A B C} (h : B -> C) (g : A -> list B) l : map h (flat_map g l) = flat_map (fun x => map h (g x)) l.
Proof. induction l as [|x l IH]; cbn; auto. now rewrite map_app, IH. Qed.

Lemma live_order : (forall x, In x spls -> sp_guard x = true -> exists r, map ls_lv loops = sp_o x :: sp_i x :: r) ->
  exists a b, tuples gp loops = a ++ b /\ (forall t, In t a -> live t = true) /\ (forall t, In t b -> live t = false).
Proof using All.
  intros HT. destruct (existsb sp_guard spls) eqn:Eg.
  - apply existsb_exists in Eg as (x & Hx & Hg). destruct (HT x Hx Hg) as (r & Hr).
    destruct (nk_sp_in _ _ _ _ HN x Hx) as (k & d & q & Hd & Hq & ->). cbn [spl sp_o sp_i] in Hr. cbn in Hg.
    pose proof (nk_pos _ _ _ _ HN k q Hq) as Hq0.
    assert (Hd0 : 0 <= d) by (rewrite Forall_forall in Hs0; apply Hs0; eapply nth_error_In; eauto).
    assert (El : exists l1 l2 ls, loops = l1 :: l2 :: ls /\ ls_lv l1 = lo k d q /\ ls_lv l2 = li k q).
    { clear - Hr. destruct loops as [|l1 [|l2 ls]]; try discriminate. cbn [map] in Hr. injection Hr as H1 H2 Hr. eauto 6. }
    destruct El as (l1 & l2 & ls & El & H1 & H2). pose proof Hcpu as Hcpu'. rewrite El in Hcpu'.
    assert (Hc1 : lvals gp l1 = zrange (ceildiv d q)).
    { assert (C := Forall_inv Hcpu'). cbn beta in C. unfold lvals. rewrite H1. destruct (ls_exec l1); try contradiction; reflexivity. }
    assert (Hc2 : lvals gp l2 = zrange q).
    { assert (C := Forall_inv (Forall_inv_tail Hcpu')). cbn beta in C. unfold lvals. rewrite H2. destruct (ls_exec l2); try contradiction; reflexivity. }
    assert (Hc : 0 <= ceildiv d q) by (apply ceildiv_nonneg; lia). pose proof (ceildiv_bounds d q Hq0) as Hcb.
    set (T := fun p => map (fun t => p / q :: p mod q :: t) (tuples gp ls)).
    assert (HTu : tuples gp loops = flat_map T (zrange (ceildiv d q * q))).
    { rewrite El. cbn [tuples]. rewrite Hc1, Hc2.
      transitivity (flat_map (fun z => map (fun t => fst z :: snd z :: t) (tuples gp ls)) (flat_map (fun x => map (fun y => (x, y)) (zrange q)) (zrange (ceildiv d q)))).
      - rewrite flat_map_flat_map. apply flat_map_ext_in. intros z _. rewrite map_flat_map, flat_map_map. apply flat_map_ext_in. intros y _. rewrite map_map. reflexivity.
      - rewrite zrange_mul by lia. rewrite flat_map_map. reflexivity. }
    assert (Hsplit : zrange (ceildiv d q * q) = zrange d ++ map (Z.add d) (zrange (ceildiv d q * q - d))).
    { rewrite <- zrange_app by nia. f_equal. lia. }
    exists (flat_map T (zrange d)), (flat_map T (map (Z.add d) (zrange (ceildiv d q * q - d)))). split; [rewrite HTu, Hsplit; apply flat_map_app|].
    assert (HL : forall p t, 0 <= p < ceildiv d q * q -> In t (T p) -> live t = true <-> p < d).
    { intros p t Hp Ht. assert (Hin : In t (tuples gp loops)) by (rewrite HTu; apply in_flat_map; exists p; split; auto; now apply in_zrange).
      assert (Hlr := proj1 (cpu_tuples gp _ Hcpu t) Hin).
      assert (Hck : coord fac (map lnm loops) t k = p).
      { rewrite El. unfold T in Ht. apply in_map_iff in Ht as (t0 & <- & _). unfold coord. rewrite Hq. cbn [map tget]. unfold lnm at 1 2 4 5. rewrite H1, H2. cbn [lo li lv_name].
        rewrite !name_eqb_refl. replace (name_eqb (NLoop false k [true]) (NLoop false k [false])) with false by (symmetry; cbn; now rewrite !Nat.eqb_refl).
        pose proof (Z.div_mod p q ltac:(lia)). lia. }
      rewrite (live_iff t Hlr). split.
      - intros H. rewrite <- Hck. apply (H k d q); auto. intros Hm. rewrite Hm in Hg. discriminate.
      - intros Hpd k2 d2 q2 Hd2 Hq2 Hm2.
        destruct (HT (spl k2 d2 q2) (nk_sp _ _ _ _ HN k2 d2 q2 Hd2 Hq2)) as (r2 & Hr2); [cbn; now destruct (Z.eqb_spec (d2 mod q2) 0)|].
        rewrite El in Hr2. cbn in Hr2. rewrite H1 in Hr2. assert (k2 = k) by (unfold lo in Hr2; congruence). subst k2. rewrite Hck. congruence. }
    split; intros t Ht; apply in_flat_map in Ht as (p & Hp & Ht).
    + apply in_zrange in Hp. apply (HL p t); auto; nia.
    + apply in_map_iff in Hp as (p0 & <- & Hp). apply in_zrange in Hp. destruct (live t) eqn:E; auto.
      apply (HL (d + p0) t) in E; auto; lia.
  - exists (tuples gp loops), []. rewrite app_nil_r. split; auto. split; [|intros t []]. intros t Ht. apply (cpu_tuples gp loops Hcpu) in Ht. apply live_iff; auto.
    intros k d q Hd Hq Hm. exfalso. assert (existsb sp_guard spls = true); [|congruence]. apply existsb_exists. exists (spl k d q).
    split; [apply (nk_sp _ _ _ _ HN); auto|]. cbn. now destruct (Z.eqb_spec (d mod q) 0).
Qed.

Lemma writes_fill out : Z.of_nat (length out) = zprod s ->
  let ws := map wof (filter live (tuples gp loops)) in
  out_writes L (Z.of_nat (length out)) ws /\ filled L s f (apply_w L ws out).
Proof using Hok HN Hcpu Hs0.
  intros Hlen ws. split.
  - apply Forall_forall. intros w Hw. unfold ws in Hw. apply in_map_iff in Hw as (z & <- & Hz). apply filter_In in Hz as [_ Hz]. unfold ParKernel.live in Hz. apply in_rangeb_spec in Hz.
    unfold ParKernel.wof. split; auto. rewrite Hlen. now apply flat_bounds.
  - intros idx Hi. destruct (Hok idx Hi) as [v Hv]. exists v. split; auto.
    assert (HI : In (wof (slices fac loops idx)) ws).
    { apply in_map. apply filter_In. split; [apply (cpu_tuples gp loops Hcpu); now apply (slices_range s fac loops spls HN)|].
      unfold ParKernel.live. rewrite (coords_slices s fac loops spls HN idx Hi). now apply in_rangeb_spec. }
    unfold ParKernel.wof in HI at 1. rewrite (coords_slices s fac loops spls HN idx Hi) in HI.
    assert (Hfv : fv L f idx = v) by (unfold fv; now rewrite Hv). rewrite Hfv in HI.
    eapply apply_in; [exact HI|rewrite Hlen; now apply flat_bounds|].
    intros n' i' v' Hin He. unfold ws in Hin. apply in_map_iff in Hin as (z & Hz1 & Hz2). apply filter_In in Hz2 as [_ Hz2]. unfold ParKernel.live in Hz2. apply in_rangeb_spec in Hz2.
    unfold ParKernel.wof in Hz1. injection Hz1 as <- <- <-. pose proof (flat_bounds _ _ Hz2). pose proof (flat_bounds _ _ Hi).
    assert (coords s fac (map lnm loops) z = idx) by (apply (flat_inj s); auto; lia). congruence.
Qed.
End Run.

Section Kern.
Context (L : lang) (HL : lang_ok L) (scoped : bool).
Context (g : graph) (Hw : wf_graph g) (E : fenv) (f : nat) (fd : func) (nd : node) (HK : kctx g E f fd nd).
Context (HB : ltB L (zprod (n_shape nd))) (F : nat -> list Z -> res (val L)).
Notation sh := (n_shape nd).
Notation kval := (kval L g f fd nd F).
Context (Hok : forall idx, in_range sh idx -> exists v, kval idx = Ok v).

Theorem user_run gp s fac k kern k1 lo ls m out : uinv sh fac s -> tail_ok s -> split_fits L s ->
  codegen g E (func_args (f_expr fd)) fd s k = Done (kern, k1) -> placed L g fd nd F kern lo ls m out ->
  exists mu fl outs, run (bind_params (k_params kern) (lo :: ls)) (exec L scoped gp (pty_of (k_params kern)) (k_body kern) [[]]) m = (mu, OkO fl) /\
    mu lo = Some outs /\ (forall b, b <> lo -> mu b = m b) /\ length outs = length out /\ filled L sh kval outs.
Proof using HL Hw HK HB Hok.
  intros [U1 U2 U3 U4] HTl HF HC HP.
  destruct (kern_parts L HL g Hw E f fd nd HK F s k kern k1 lo ls m out HC HP) as (c & v & Hbody & Hren & HNo & HI & Hpt & Hloc).
  set (loc := bind_params (k_params kern) (lo :: ls)) in *. set (pty := pty_of (k_params kern)) in *. set (loops := filter is_spatial (s_loops s)) in *.
  assert (Hs0 := sh_nonneg g Hw E f fd nd HK).
  assert (Hcpu : Forall (fun l => cpu_exec (ls_exec l)) loops).
  { apply Forall_forall. intros l Hl. apply filter_In in Hl as [Hl _]. rewrite Forall_forall in U4. auto. }
  assert (Hsp : Forall (fun l => is_spatial l = true) loops) by (apply Forall_forall; intros l Hl; now apply filter_In in Hl).
  assert (Hval : forall idx, in_range sh idx -> (w <- evalV L (shape_of g) F (n_dtype nd) (f_expr fd) (lenv f sh idx) ;; Ok (coerce L (pty NOut) w)) = kval idx).
  { intros idx _. rewrite Hpt. reflexivity. }
  assert (HBk : forall k d q, nth_error sh k = Some d -> fac k = Some q -> ltB L (d + q)).
  { intros j d q Hd Hq. exact (HF (spl j d q) (nk_sp _ _ _ _ U2 j d q Hd Hq)). }
  pose proof (sched_behaves L HL scoped gp pty (inp_of L loc m lo) g E (func_args (f_expr fd)) (shape_of g) F HNo HI f sh HB (isc g) (f_expr fd) (n_dtype nd) k k1 c v kval
    (kc_wff g E f fd nd HK) (kc_cover g f fd) Hren Hval (kval_nf L g f fd nd F Hok) fac loops (s_splits s) U2 HBk Hsp (fun t Ht => proj1 (cpu_tuples gp loops Hcpu t) Ht)) as HS.
  destruct (live_order L sh Hs0 kval Hok gp fac loops (s_splits s) U2 Hcpu) as (a & b & Hab & Ha & Hb).
  { intros x Hx Hg. destruct (HTl x Hx Hg) as (r & Hr). exists r. exact Hr. }
  rewrite Hab in HS. destruct (nseq_prefix L sh kval Hok fac loops a b Ha Hb) as (fl & Hns). rewrite Hns in HS. cbn [behaves] in HS. destruct HS as (r' & HS & _).
  rewrite <- Hab in HS. destruct HP as (Hlen & Hlo & Hm & Hout & Hin).
  destruct (writes_fill L sh Hs0 kval Hok gp fac loops (s_splits s) U2 Hcpu out Hout) as (Hw1 & Hw2).
  destruct (run_ev L loc lo _ m out _ _ Hloc Hm HS ltac:(discriminate) Hw1) as (mu & R & Hmu).
  rewrite Hbody. exists mu, (fl, r'). eexists. split; [exact R|]. rewrite Hmu, Nat.eqb_refl. split; [reflexivity|]. split.
  - intros y Hy. rewrite Hmu. destruct (Nat.eqb_spec y lo); congruence.
  - split; [apply apply_w_length|exact Hw2].
Qed.
End Kern.

Section Top.
Context (L : lang) (HL : lang_ok L) (g : graph) (Hr : reach g) (a : nat) (Ha : valid g a) (Hns : no_scalar_reshape g a) (Hfit : fits L g a)
  (E : fenv) (fs : list nat) (Hcv : convert g a = Done (E, fs)) (f : nat) (fd : func) (Hf : In f fs) (Hfd : E f = Some fd).

(* legal calls never fail, and the scheduled kernel can be generated *)
Theorem user_total cs k : ulegals (sched_init fd) cs ->
  exists s kern k1, urun (sched_init fd) cs = Done s /\ codegen g E (func_args (f_expr fd)) fd s k = Done (kern, k1).
Proof using HL Hr Ha Hns Hcv Hf Hfd.
  intros HU. pose proof (convert_inv L g a E fs HL Hr Ha Hns Hcv) as HSp.
  destruct (convert_kctx L g a E fs f HSp Hf) as (fd' & nd & Hfd' & HK). assert (fd' = fd) by congruence. subst fd'.
  destruct (urun_ok cpu_exec I _ cs _ _ (uinv_init g E f fd nd HK) HU) as (s & fac & R & _).
  destruct (codegen_ok g (reach_wf g Hr) E f fd nd HK s k) as (ps & c & v & k1 & HC & _). eauto 6.
Qed.
Theorem user_same b scoped gp k s kern k1 lo ls (m ms : store L) fl cs su k' kern' k1' : b <> CUDA -> gen b g E fd k = Done (s, kern, k1) ->
  kernel_memory g f fd lo ls m ->
  run (bind_params (k_params kern) (lo :: ls)) (exec L scoped gp (pty_of (k_params kern)) (k_body kern) [[]]) m = (ms, OkO fl) ->
  ulegals (sched_init fd) cs -> urun (sched_init fd) cs = Done su -> tail_ok su -> split_fits L su ->
  codegen g E (func_args (f_expr fd)) fd su k' = Done (kern', k1') ->
  exists mu fl', run (bind_params (k_params kern') (lo :: ls)) (exec L scoped gp (pty_of (k_params kern')) (k_body kern') [[]]) m = (mu, OkO fl') /\
    forall x, mu x = ms x.
Proof using HL Hr Ha Hns Hfit Hcv Hf Hfd.
  intros Hb HG HM R HU Hu HTl HF HC'. destruct (gen_inv _ _ _ _ _ _ _ _ HG) as (HS & HC).
  assert (Hsc : schedule_cpu (sched_init fd) = Done s) by (destruct b; try congruence; exact HS).
  destruct (kernel_contents L HL g Hr a Ha Hns Hfit E fs Hcv f fd Hf Hfd kern lo ls m HM) as (nd & F & out & HK & Hs & HB & Hm & HPl & Hnf).
  pose proof (seq_all_ok L HL g Hr E f fd scoped gp nd F s k kern k1 lo ls m out ms fl HK HB HPl Hnf Hsc HC R) as Hok.
  destruct (seq_run L HL scoped g (reach_wf g Hr) E f fd nd HK HB F Hok gp s k kern k1 lo ls m out Hsc HC HPl) as (ms' & fl0 & outs & R' & H1 & H2 & H3 & H4).
  rewrite R in R'. injection R' as <- <-.
  destruct (urun_ok cpu_exec I _ cs _ _ (uinv_init g E f fd nd HK) HU) as (su' & fac & Ru & HI). rewrite Hu in Ru. injection Ru as <-.
  destruct (user_run L HL scoped g (reach_wf g Hr) E f fd nd HK HB F Hok gp su fac k' kern' k1' lo ls m out HI HTl HF HC' HPl) as (mu & flu & outu & R2 & A1 & A2 & A3 & A4).
  exists mu, flu. split; auto. intros x. destruct (Nat.eq_dec x lo) as [->|Hx]; [|rewrite A2, H2; auto].
  rewrite A1, H1. f_equal. assert (Hol : Z.of_nat (length out) = zprod (n_shape nd)) by (destruct HPl as (_ & _ & _ & Ho & _); exact Ho).
  eapply filled_unique; [exact (sh_nonneg g (reach_wf g Hr) E f fd nd HK)| | |exact A4|exact H4]; congruence.
Qed.
End Top.
