(* CPU kernels: the outermost loop is marked parallel, the innermost vectorized. *)
From Coq Require Import Permutation.
From Verif Require Import Base BaseFacts Util UtilFacts Lang Spec Graph Api Denote SpecFacts DenoteFacts Reach ApiFacts FrontFacts
  Algo AlgoSem AlgoConv AlgoConv2 AlgoFuse AlgoFuse2 AlgoConvert AlgoConvert2
  Kernel Sched Codegen KernFacts RenderFacts KernelOk RunFacts SchedFacts SchedGpu KernelRun KernelRun2 Nest NestSched NestBody Parallel ParKernel.

Section Defs.
Context (L : lang) (scoped : bool) (gp : bool -> axis -> Z) (pty : name -> dtype).
(* backend_clang.py:15-18 "#pragma omp parallel for": each thread runs its share of the iterations of the
   outermost loop (any shares, any order inside a share), with its own variables *)
Definition omp_threads (c : code) (chunks : list (list Z)) : option (list (prog L (flow * env L))) :=
  match c with
  | CFor n _ XPar body CNil => Some (map (fun zs => for_loop L scoped (exec L scoped gp pty body) n zs [[]]) chunks)
  | _ => None
  end.
(* one iteration of a loop nest *)
Fixpoint exec_at (c : code) (zs : list Z) (r : env L) {struct zs} : prog L (flow * env L) :=
  match zs with
  | [] => exec L scoped gp pty c r
  | z :: zs' => match c with CFor n _ _ body CNil => exec_at body zs' (bind_loop L scoped r n z) | _ => PFlt end
  end.
(* a thread that runs some iterations, one after the other *)
Fixpoint iter_thread (c : code) (ts : list (list Z)) : prog L flow :=
  match ts with
  | [] => PRet FNorm
  | t :: ts' => pbind (exec_at c t [[]]) (fun '(fl, _) => match fl with FNorm => iter_thread c ts' | FReturn => PRet FReturn end)
  end.
End Defs.

Lemma render_loops_spatial ls inner : render_loops ls inner = render_loops (filter is_spatial ls) inner.
Proof.
  induction ls as [|l ls IH]; cbn; auto. destruct (is_spatial l) eqn:E; auto. cbn. rewrite E, IH. reflexivity.
Qed.
Definition seq_nest (s : list Z) (loops : list loopsched) : Prop :=
  Forall (fun l => is_spatial l = true) loops /\ Forall (fun l => cpu_exec (ls_exec l)) loops /\ map ls_lv loops = mapi_from 0 (fun k d => lvar k d) s.
Lemma seq_nestok s loops : seq_nest s loops -> nestok s (fun _ => None) loops [].
Proof.
  intros (H1 & H2 & H3).
  assert (Hn : map lnm loops = mapi_from 0 (fun k _ => NLoop false k []) s).
  { unfold lnm. rewrite <- map_map, H3. generalize 0%nat. clear. induction s as [|d s IH]; intros k; cbn; auto. now rewrite IH. }
  constructor.
  - rewrite Hn. clear. generalize 0%nat as k. induction s as [|d s IH]; intros k; cbn; constructor; auto.
    intros H. assert (G : forall (s : list Z) j, In (NLoop false k []) (mapi_from j (fun i _ => NLoop false i []) s) -> (j <= k)%nat).
    { clear. induction s as [|x s IH]; intros j H; cbn in H; [destruct H|]. destruct H as [H|H]; [injection H; lia|]. apply IH in H. lia. }
    apply G in H. lia.
  - discriminate.
  - intros l Hl. apply (in_map ls_lv) in Hl. rewrite H3 in Hl. apply In_nth_error in Hl as [k Hk]. rewrite nth_mapi in Hk.
    destruct (nth_error s k) as [d|] eqn:Hd; [|discriminate]. cbn in Hk. exists k, d. split; auto. congruence.
  - intros k d Hd. rewrite H3. eapply nth_error_In with (n := k). rewrite nth_mapi, Hd. reflexivity.
  - intros x [].
  - discriminate.
  - constructor.
Qed.
Lemma seq_tuples gp s loops : seq_nest s loops -> forall zs, In zs (tuples gp loops) <-> lrange loops zs.
Proof.
  intros (_ & H2 & _) zs. rewrite in_tuples. unfold lrange. clear - H2. revert zs. induction H2 as [|l loops Hl _ IH]; intros zs.
  - split; inversion 1; constructor.
  - assert (Hv : lvals gp l = zrange (lv_ext (ls_lv l))) by (unfold lvals; destruct (ls_exec l); try contradiction; reflexivity).
    split; inversion 1; subst; (constructor; [|now apply IH]).
    + rewrite Hv in *. now apply in_zrange.
    + rewrite Hv. now apply in_zrange.
Qed.
Lemma auto_seq fd f nd s : fd = mkF (out_loops f (n_shape nd)) (n_shape nd) (n_dtype nd) (f_expr fd) f -> schedule_cpu (sched_init fd) = Done s ->
  s_splits s = [] /\ seq_nest (n_shape nd) (filter is_spatial (s_loops s)).
Proof.
  intros Hfd HS. destruct (schedule_cpu_ok fd) as (s' & HS' & Hlv & Hsp & Hcpu). rewrite HS in HS'. injection HS' as <-. split; auto.
  split; [|split].
  - apply Forall_forall. intros l Hl. now apply filter_In in Hl.
  - apply Forall_forall. intros l Hl. apply filter_In in Hl as [Hl _]. rewrite Forall_forall in Hcpu. auto.
  - assert (HF : map ls_lv (filter is_spatial (s_loops s)) = map fst (filter (fun p => match snd p with Spatial => true | Reduce => false end) (map lvk (s_loops s)))).
    { generalize (s_loops s). clear. induction l as [|x l IH]; cbn [map filter]; auto. unfold is_spatial at 1. cbn [lvk snd]. destruct (ls_kind x); cbn [map fst]; auto. now rewrite IH. }
    rewrite HF, Hlv. unfold init_lvk. rewrite filter_app, map_app.
    rewrite filter_all_true by (intros y Hy; apply in_map_iff in Hy as (q & <- & _); reflexivity).
    rewrite filter_all_false by (intros y Hy; apply in_map_iff in Hy as (q & <- & _); reflexivity).
    cbn [map]. rewrite app_nil_r, map_map. rewrite Hfd. cbn [f_loops]. unfold out_loops. generalize 0%nat. generalize (n_shape nd). clear.
    induction l as [|d l IH]; intros k; cbn; auto. now rewrite IH.
Qed.
(* the first loop of the automatic CPU schedule is the parallel one *)
Lemma set_exec_head s x tl e : s_loops s = x :: tl -> set_exec s (ls_lv x) e = Done (mkS (mkLS (ls_lv x) (ls_kind x) e :: tl) (s_splits s)).
Proof. intros H. unfold set_exec. rewrite H. cbn. rewrite name_eqb_refl. reflexivity. Qed.
Lemma set_exec_tail s x tl lv e s' : s_loops s = x :: tl -> lv_name lv <> lnm x -> set_exec s lv e = Done s' -> exists tl', s_loops s' = x :: tl'.
Proof.
  intros H Hn HS. unfold set_exec in HS. rewrite H in HS. cbn in HS. destruct (name_eqb (lv_name (ls_lv x)) (lv_name lv)) eqn:En.
  - apply name_eqb_eq in En. unfold lnm in Hn. congruence.
  - destruct (index_of (lv_name lv) tl) as [i|]; [|discriminate]. cbn in HS. destruct (nth_error tl i); [|discriminate]. injection HS as <-. cbn. eauto.
Qed.
Lemma auto_par fd f nd s l ls : fd = mkF (out_loops f (n_shape nd)) (n_shape nd) (n_dtype nd) (f_expr fd) f -> schedule_cpu (sched_init fd) = Done s ->
  filter is_spatial (s_loops s) = l :: ls -> ls_exec l = XPar.
Proof.
  intros Hfd HS Hf. destruct (auto_seq fd f nd s Hfd HS) as (_ & (_ & _ & Hlv)). rewrite Hf in Hlv.
  destruct (n_shape nd) as [|d0 sh] eqn:Esh; [discriminate|]. clear Hlv.
  unfold schedule_cpu in HS. rewrite spatial_init in HS.
  assert (Hl0 : s_loops (sched_init fd) = sp (lvar 0 d0) XSeq :: mapi_from 1 (fun i d => sp (lvar i d) XSeq) sh ++ red_loops (reduced_vars (f_expr fd))).
  { rewrite Hfd. cbn [f_expr]. rewrite sched_init_out. reflexivity. }
  assert (Hfl : map (fun l => mkLV (lname l) (l_ext l)) (f_loops fd) = mapi_from 0 (fun i d => lvar i d) (d0 :: sh)).
  { rewrite Hfd. cbn [f_loops]. unfold out_loops. generalize 0%nat. generalize (d0 :: sh). clear. induction l as [|d l IH]; intros k; cbn; auto. now rewrite IH. }
  rewrite Hfl in HS. cbn [mapi_from] in HS.
  pose proof (set_exec_head _ _ _ XPar Hl0) as H1. cbn [sp ls_lv ls_kind] in H1. rewrite H1 in HS. cbn [obind] in HS.
  destruct sh as [|d1 sh].
  - cbn in HS. injection HS as <-. cbn [s_loops filter] in Hf. cbn in Hf. injection Hf as <- _. reflexivity.
  - cbn [mapi_from] in HS.
    match type of HS with set_exec ?s1 ?lv XVec = _ => destruct (set_exec_tail s1 (mkLS (lvar 0 d0) Spatial XPar) _ lv XVec s eq_refl) as (tl & Htl); [|exact HS|] end.
    + cbn [last]. unfold lnm. cbn [ls_lv lvar lv_name].
      assert (G : forall sh k, (0 < k)%nat -> forall d, lv_name (last (lvar k d :: mapi_from (S k) (fun i d => lvar i d) sh) (mkLV NOut 0)) <> NLoop false 0 []).
      { clear. induction sh as [|x sh IH]; intros k Hk d; cbn [mapi_from]; [cbn; intros H; injection H; lia|].
        change (last (lvar k d :: lvar (S k) x :: mapi_from (S (S k)) (fun i d => lvar i d) sh) (mkLV NOut 0)) with (last (lvar (S k) x :: mapi_from (S (S k)) (fun i d => lvar i d) sh) (mkLV NOut 0)).
        apply IH. lia. }
      apply G. lia.
    + rewrite Htl in Hf. cbn in Hf. injection Hf as <- _. reflexivity.
Qed.

Section At.
Context (L : lang) (HL : lang_ok L) (scoped : bool) (gp : bool -> axis -> Z) (pty : name -> dtype).
Notation V := (val L).
Context (inp : name -> option (list V)).
Context (nms : list name) (S T : name -> Prop) (P : list Z -> Prop) (f : list Z -> beh L) (inner : code).
Context (HT : forall n, In n nms -> ~ T n) (HND : NoDup nms).
Context (Hinner : forall zs r, P zs -> r <> [] -> bnd L nms zs r -> (forall n, T n -> undecl L scoped r n) -> behaves L inp (f zs) S (exec L scoped gp pty inner r) r).
Lemma exec_at_behaves ls : Forall (fun l => is_spatial l = true) ls -> Forall (fun l => cpu_exec (ls_exec l)) ls ->
  forall pn pz zs r, pn ++ map lnm ls = nms -> length zs = length ls -> P (pz ++ zs) -> r <> [] -> bnd L pn pz r -> (forall n, T n -> undecl L scoped r n) ->
  forall w fl, f (pz ++ zs) = (w, OkO fl) -> exists r', ev inp (exec_at L scoped gp pty (render_loops ls inner) zs r) = (w, OkO (fl, r')).
Proof using HL HT HND Hinner.
  induction ls as [|l ls IH]; intros Hsp Hcpu pn pz zs r Hn Hlen HP Hr Hb Hu w fl Hf.
  - destruct zs; [|discriminate]. cbn in *. rewrite app_nil_r in *. subst pn.
    specialize (Hinner pz r HP Hr Hb Hu). rewrite Hf in Hinner. destruct Hinner as (r' & H & _). eauto.
  - destruct zs as [|z zs]; [discriminate|]. assert (H1 := Forall_inv Hsp). assert (H2 := Forall_inv Hcpu). cbn beta in H1, H2.
    assert (HR : exists x, render_loops (l :: ls) inner = CFor (lnm l) (lv_ext (ls_lv l)) x (render_loops ls inner) CNil).
    { cbn [render_loops]. rewrite H1. destruct (ls_exec l); try contradiction; eexists; reflexivity. }
    destruct HR as [x ->]. cbn [exec_at].
    assert (Hl : In (lnm l) nms) by (rewrite <- Hn; apply in_or_app; right; now left).
    assert (Hln : forall n, In n pn -> lnm l <> n).
    { intros n Hn2 <-. rewrite <- Hn in HND. cbn in HND. apply NoDup_remove_2 in HND. apply HND. apply in_or_app. tauto. }
    apply (IH (Forall_inv_tail Hsp) (Forall_inv_tail Hcpu) (pn ++ [lnm l]) (pz ++ [z])); rewrite <- ?app_assoc; auto.
    + now apply bind_loop_nonempty.
    + apply bnd_snoc.
      * unfold bnd in *. clear - Hb Hln Hr. induction Hb as [|n y ns ys (dt & v & A & B) _ IH]; constructor.
        -- exists dt, v. rewrite lk_bind_loop by assumption. destruct (name_eqb (lnm l) n) eqn:En; auto.
           apply name_eqb_eq in En. exfalso. apply (Hln n); [now left|assumption].
        -- apply IH. intros m Hm. apply Hln. now right.
      * exists Int32, (lit L z). rewrite lk_bind_loop, name_eqb_refl by assumption. split; auto. apply (ok_lit _ HL).
    + intros n Hn2. apply undecl_bind_loop. intros <-. now apply (HT _ Hl).
Qed.
End At.

Lemma skipn_nth (k : nat) (l : list Z) : (k < length l)%nat -> skipn k l = nth k l 0 :: skipn (S k) l.
Proof. revert k; induction l as [|x l IH]; intros [|k] H; cbn in *; try lia; auto. apply IH. lia. Qed.
(* ------------------------------------------------------------------ kernels of a conversion *)
Section Kern.
Context (L : lang) (HL : lang_ok L) (scoped : bool).
Notation V := (val L).
Context (g : graph) (Hw : wf_graph g) (E : fenv) (f : nat) (fd : func) (nd : node) (HK : kctx g E f fd nd).
Let e := f_expr fd.
Let args := func_args e.
Let shp := shape_of g.
Context (HB : ltB L (zprod (n_shape nd))) (F : nat -> list Z -> res V).
Notation sh := (n_shape nd).
Notation kval := (kval L g f fd nd F).

(* the output is at lo, the i-th argument at the i-th location of ls, different from lo *)
Definition placed (kern : kernel) (lo : nat) (ls : list nat) (m : store L) (out : list V) : Prop :=
  length ls = length args /\ ~ In lo ls /\ m lo = Some out /\ Z.of_nat (length out) = zprod sh /\
  forall i x l, nth_error args i = Some x -> nth_error ls i = Some l -> ltB L (zprod (shp (arg_id x))) /\
     exists vs, m l = Some vs /\ filled L (shp (arg_id x)) (F (arg_id x)) vs.

Lemma kern_parts s k kern k1 lo ls m out : codegen g E args fd s k = Done (kern, k1) -> placed kern lo ls m out ->
  let loc := bind_params (k_params kern) (lo :: ls) in
  exists c v, k_body kern = render_loops (filter is_spatial (s_loops s)) (inner f sh c v (s_splits s)) /\
    render g E args e (n_dtype nd) k = Done (c, v, k1) /\ nodes_ok g E args shp /\ inputs_ok L (inp_of L loc m lo) args shp F /\
    pty_of (k_params kern) NOut = n_dtype nd /\ loc NOut = Some lo.
Proof using HL Hw HK.
  intros HC (Hlen & Hlo & Hm & Hout & Hin) loc.
  destruct (codegen_ok g Hw E f fd nd HK s k) as (ps & c & v & k1' & HC' & Hps & Hren).
  fold e args in HC'. rewrite HC in HC'. injection HC' as -> <-. exists c, v. cbn [k_body k_params].
  split; [now rewrite render_loops_spatial|]. split; [exact Hren|]. split; [apply (kc_nodes g Hw E f fd nd HK)|].
  destruct (bind_kernel g Hw E f fd nd HK ps lo ls Hps Hlen) as (Hbl & Hpt & Hbk).
  split; [|split; [exact Hpt|exact Hbl]].
  intros x nm Hnm. destruct (Hbk x nm Hnm) as (Hx & i & l & xd & H1 & H2 & H3 & H4 & H5).
  destruct (Hin i x l H1 H2) as (Hb & vs & Hvs & Hfl). split; auto. exists vs. split; auto.
  unfold inp_of, loc. cbn [k_params]. rewrite H4. destruct (Nat.eqb_spec l lo) as [->|]; auto.
  exfalso. apply Hlo. eapply nth_error_In; eauto.
Qed.

Context (Hok : forall idx, in_range sh idx -> exists v, kval idx = Ok v).
Lemma kval_nf idx : in_range sh idx -> kval idx <> Fault.
Proof using Hok. intros Hi. destruct (Hok idx Hi) as [v ->]. discriminate. Qed.
Lemma sh_nonneg : Forall (fun d => 0 <= d) sh.
Proof using Hw HK. pose proof (kc_nd _ _ _ _ _ HK) as H. exact (wf_nonneg unit_valg g f nd Hw H). Qed.

Lemma seq_run gp s k kern k1 lo ls m out : schedule_cpu (sched_init fd) = Done s -> codegen g E args fd s k = Done (kern, k1) -> placed kern lo ls m out ->
  exists ms fl outs, run (bind_params (k_params kern) (lo :: ls)) (exec L scoped gp (pty_of (k_params kern)) (k_body kern) [[]]) m = (ms, OkO fl) /\
    ms lo = Some outs /\ (forall b, b <> lo -> ms b = m b) /\ length outs = length out /\ filled L sh kval outs.
Proof using HL Hw HK HB Hok.
  intros HS HC (Hlen & Hlo & Hm & Hout & Hin).
  destruct (kernel_run L HL scoped gp g Hw E f fd nd HK HB F kval_nf s k kern k1 lo ls m out HS HC Hlen Hlo Hm Hout Hin) as (ms & oc & outs & R & Hms & Hl & Hoc).
  destruct oc as [fl| |]; [|destruct Hoc as (idx & H1 & H2); destruct (Hok idx H1); congruence|contradiction].
  exists ms, fl, outs. split; auto. split; [now rewrite Hms, Nat.eqb_refl|]. split; auto.
  intros b Hb. rewrite Hms. destruct (Nat.eqb_spec b lo); congruence.
Qed.

(* threads that share the iterations of the outermost loop *)
Theorem cpu_outer_parallel gp s k kern k1 lo ls m out chunks : schedule_cpu (sched_init fd) = Done s -> codegen g E args fd s k = Done (kern, k1) ->
  placed kern lo ls m out -> sh <> [] -> Permutation (concat chunks) (zrange (hd 0 sh)) ->
  let loc := bind_params (k_params kern) (lo :: ls) in let pty := pty_of (k_params kern) in
  exists ms fl ts, run loc (exec L scoped gp pty (k_body kern) [[]]) m = (ms, OkO fl) /\
    omp_threads L scoped gp pty (k_body kern) chunks = Some ts /\ settles L loc ts m (fun m' => forall b, m' b = ms b).
Proof using HL Hw HK HB Hok.
  intros HS HC HP Hsh Hperm loc pty.
  destruct (seq_run gp s k kern k1 lo ls m out HS HC HP) as (ms & fl & outs & R & Hms & Hmo & Hlo & Hfo).
  destruct (kern_parts s k kern k1 lo ls m out HC HP) as (c & v & Hbody & Hren & HNo & HI & Hpt & Hloc).
  destruct (auto_seq fd f nd s (kc_fd g E f fd nd HK) HS) as (Hsp & Hseq).
  assert (HN := seq_nestok _ _ Hseq). rewrite Hsp in Hbody. rewrite <- Hsp in HN.
  destruct (filter is_spatial (s_loops s)) as [|l ls'] eqn:Ef.
  { exfalso. destruct Hseq as (_ & _ & H). destruct (n_shape nd); [congruence|discriminate]. }
  pose proof (auto_par fd f nd s l ls' (kc_fd g E f fd nd HK) HS Ef) as Hx.
  pose proof Hseq as (Hsp1 & Hcpu & Hlvs). set (loops := l :: ls') in *.
  assert (Hhd : lv_ext (ls_lv l) = hd 0 sh /\ lv_name (ls_lv l) = lnm l).
  { unfold loops in Hlvs. destruct (n_shape nd) as [|d0 sh']; [congruence|]. cbn in Hlvs. split; auto. assert (H : ls_lv l = lvar 0 d0) by congruence. now rewrite H. }
  exists ms, fl. eexists. split; [exact R|]. split.
  { rewrite Hbody. unfold loops. cbn [render_loops]. rewrite (Forall_inv Hsp1), Hx. cbn [omp_threads]. reflexivity. }
  rewrite (proj2 Hhd).
  assert (Hval : forall idx, in_range sh idx -> (w <- evalV L shp F (n_dtype nd) e (lenv f sh idx) ;; Ok (coerce L (pty_of (k_params kern) NOut) w)) = kval idx).
  { intros idx _. rewrite Hpt. reflexivity. }
  set (ts := map (fun zs => for_loop L scoped (exec L scoped gp pty (render_loops ls' (inner f sh c v []))) (lnm l) zs [[]]) chunks).
  set (tss := map (fun zs => flat_map (fun z => map (cons z) (tuples gp ls')) zs) chunks).
  assert (Hseq' : forall t, In t (tuples gp ls') <-> lrange ls' t).
  { intros t. rewrite in_tuples. unfold lrange. pose proof (Forall_inv_tail Hcpu) as Hc. clear - Hc. revert t. induction Hc as [|y ys Hy _ IH]; intros t.
    - split; inversion 1; constructor.
    - assert (Hv : lvals gp y = zrange (lv_ext (ls_lv y))) by (unfold lvals; destruct (ls_exec y); try contradiction; reflexivity).
      split; inversion 1; subst; (constructor; [|now apply IH]); rewrite Hv in *; now apply in_zrange. }
  assert (Hchz : forall zs, In zs chunks -> Forall (fun z => 0 <= z < lv_ext (ls_lv l)) zs).
  { intros zs Hzs. apply Forall_forall. intros z Hz. rewrite (proj1 Hhd). apply in_zrange. eapply Permutation_in; [exact Hperm|]. apply in_concat. eauto. }
  assert (Hct : concat tss = flat_map (fun z => map (cons z) (tuples gp ls')) (concat chunks)).
  { unfold tss. clear. induction chunks as [|zs ch IH]; cbn; auto. now rewrite flat_map_app, IH. }
  assert (Hlr : forall zs, In zs (concat tss) -> lrange loops zs).
  { intros zs Hzs. rewrite Hct in Hzs. apply in_flat_map in Hzs as (z & Hz & Hzs). apply in_map_iff in Hzs as (t & <- & Ht).
    constructor; [|now apply Hseq']. apply in_concat in Hz as (ch & H1 & H2). specialize (Hchz ch H1). rewrite Forall_forall in Hchz. auto. }
  assert (Hlive : forall zs, In zs (concat tss) -> live sh (fun _ => None) loops zs = true).
  { intros zs Hzs. unfold live. apply in_rangeb_spec. apply (coords_in_range _ _ _ _ HN); [now apply Hlr|]. intros; discriminate. }
  destruct (pool_fill L sh sh_nonneg kval Hok (fun _ => None) loops (s_splits s) HN loc m lo out ts tss) as (_ & N & HPF); auto.
  - destruct HP as (_ & _ & Hm & _); exact Hm.
  - destruct HP as (_ & _ & _ & Ho & _); exact Ho.
  - unfold ts, tss. clear Hct. assert (G : forall ch, incl ch chunks -> Forall2 (fun p zss => does L (inp_of L loc m lo) p (map (wof L sh kval (fun _ => None) loops) (filter (live sh (fun _ => None) loops) zss)))
        (map (fun zs => for_loop L scoped (exec L scoped gp pty (render_loops ls' (inner f sh c v []))) (lnm l) zs [[]]) ch) (map (fun zs => flat_map (fun z => map (cons z) (tuples gp ls')) zs) ch)).
    { induction ch as [|zs ch IH]; intros Hinc; cbn [map]; constructor; [|apply IH; intros y Hy; apply Hinc; now right].
      assert (Hzs : In zs chunks) by (apply Hinc; now left).
      pose proof (chunk_behaves L HL scoped gp pty (inp_of L loc m lo) g E args shp F HNo HI f sh HB (isc g) e (n_dtype nd) k k1 c v kval
        (kc_wff g E f fd nd HK) (kc_cover g f fd) Hren Hval kval_nf (fun _ => None) loops [] (seq_nestok _ _ Hseq) ltac:(intros; discriminate) l ls' zs eq_refl
        ltac:(rewrite Hx; exact I) Hsp1 ltac:(intros t Ht; now apply Hseq') (Hchz zs Hzs)) as HCB.
      destruct (nseq_uniform L sh kval Hok (fun _ => None) loops (flat_map (fun z => map (cons z) (tuples gp ls')) zs)) as [fl' Hns].
      { left. intros t Ht. apply Hlive. unfold tss. apply in_concat. eexists. split; [apply in_map; exact Hzs|exact Ht]. }
      rewrite Hns in HCB. cbn [behaves] in HCB. destruct HCB as (r' & HCB & _). unfold does. eauto. }
    apply G. apply incl_refl.
  - rewrite Hct. apply NoDup_prod; [|apply NoDup_tuples]. eapply Permutation_NoDup; [symmetry; exact Hperm|apply NoDup_zrange].
  - apply Forall_forall. exact Hlr.
  - intros idx Hi. rewrite Hct. pose proof (slices_range _ _ _ _ HN idx Hi) as Hr. unfold slices in *. unfold loops in *. cbn [map] in *.
    inversion Hr as [|? ? ? ? Hz Ht]; subst. apply in_flat_map. exists (slice (fun _ => None) idx l). split.
    + eapply Permutation_in; [symmetry; exact Hperm|]. apply in_zrange. now rewrite <- (proj1 Hhd).
    + apply in_map. now apply Hseq'.
  - exists N. intros n ts' m' Hst. destruct (HPF n ts' m' Hst) as (H1 & H2 & H3 & H4). split; auto. split; auto. split; auto.
    intros HF. destruct (H4 HF) as (out' & O1 & O2 & O3 & O4). intros b. destruct (Nat.eq_dec b lo) as [->|Hne]; [|rewrite O4, Hmo; auto].
    rewrite O1, Hms. f_equal. assert (Hol : Z.of_nat (length out) = zprod sh) by (destruct HP as (_ & _ & _ & Ho & _); exact Ho).
    eapply filled_unique; [exact sh_nonneg| | |exact O3|exact Hfo]; congruence.
Qed.

(* any assignment of the single iterations to threads, in any order *)
Theorem cpu_any_order gp s k kern k1 lo ls m out parts : schedule_cpu (sched_init fd) = Done s -> codegen g E args fd s k = Done (kern, k1) ->
  placed kern lo ls m out -> Permutation (concat parts) (all_idx sh) ->
  let loc := bind_params (k_params kern) (lo :: ls) in let pty := pty_of (k_params kern) in
  exists ms fl, run loc (exec L scoped gp pty (k_body kern) [[]]) m = (ms, OkO fl) /\
    settles L loc (map (iter_thread L scoped gp pty (k_body kern)) parts) m (fun m' => forall b, m' b = ms b).
Proof using HL Hw HK HB Hok.
  intros HS HC HP Hperm loc pty.
  destruct (seq_run gp s k kern k1 lo ls m out HS HC HP) as (ms & fl & outs & R & Hms & Hmo & Hlo & Hfo).
  destruct (kern_parts s k kern k1 lo ls m out HC HP) as (c & v & Hbody & Hren & HNo & HI & Hpt & Hloc).
  destruct (auto_seq fd f nd s (kc_fd g E f fd nd HK) HS) as (Hsp & Hseq).
  assert (HN := seq_nestok _ _ Hseq). rewrite Hsp in Hbody.
  set (loops := filter is_spatial (s_loops s)) in *. pose proof Hseq as (Hsp1 & Hcpu & Hlvs).
  exists ms, fl. split; [exact R|].
  assert (Hval : forall idx, in_range sh idx -> (w <- evalV L shp F (n_dtype nd) e (lenv f sh idx) ;; Ok (coerce L (pty_of (k_params kern) NOut) w)) = kval idx).
  { intros idx _. rewrite Hpt. reflexivity. }
  assert (Hlrg : forall zs, In zs (concat parts) -> lrange loops zs).
  { intros zs Hzs. eapply Permutation_in in Hzs; [|exact Hperm]. apply in_all_idx in Hzs. unfold lrange.
    assert (G : forall ls k s zs, map ls_lv ls = mapi_from k (fun k d => lvar k d) s -> in_range s zs -> Forall2 (fun l z => 0 <= z < lv_ext (ls_lv l)) ls zs).
    { clear. induction ls as [|l ls IH]; intros k s zs H Hr; destruct s as [|d s]; try discriminate; inversion Hr; subst; constructor.
      - cbn in H. assert (Hl : ls_lv l = lvar k d) by congruence. rewrite Hl. cbn. lia.
      - cbn in H. injection H as _ H. eapply IH; eauto. }
    eapply (G _ 0%nat); eauto. }
  assert (Hlive : forall zs, In zs (concat parts) -> live sh (fun _ => None) loops zs = true).
  { intros zs Hzs. unfold live. apply in_rangeb_spec. apply (coords_in_range _ _ _ _ HN); [now apply Hlrg|]. intros; discriminate. }
  destruct (pool_fill L sh sh_nonneg kval Hok (fun _ => None) loops [] HN loc m lo out (map (iter_thread L scoped gp pty (k_body kern)) parts) parts) as (_ & N & HPF); auto.
  - destruct HP as (_ & _ & Hm & _); exact Hm.
  - destruct HP as (_ & _ & _ & Ho & _); exact Ho.
  - assert (G : forall ch, (forall zs, In zs (concat ch) -> In zs (concat parts)) -> Forall2 (fun p zss => does L (inp_of L loc m lo) p (map (wof L sh kval (fun _ => None) loops) (filter (live sh (fun _ => None) loops) zss)))
        (map (iter_thread L scoped gp pty (k_body kern)) ch) ch).
    { induction ch as [|zss ch IH]; intros Hinc; cbn [map]; constructor; [|apply IH; intros y Hy; apply Hinc; cbn; apply in_or_app; now right].
      assert (Hz : forall zs, In zs zss -> In zs (concat parts)) by (intros y Hy; apply Hinc; cbn; apply in_or_app; now left).
      clear IH Hinc. unfold does. exists FNorm. induction zss as [|zs zss IHz]; [reflexivity|]. cbn [iter_thread filter].
      pose proof (Hz zs ltac:(now left)) as Hzs. rewrite (Hlive zs Hzs). cbn [map].
      destruct (exec_at_behaves L HL scoped gp pty (inp_of L loc m lo) (map lnm loops) (iS sh (fun _ => None)) (iT k (fun _ => None)) (lrange loops)
        (ibeh L sh kval (fun _ => None) loops) (inner f sh c v [])
        (fun n Hn => nms_T L HL scoped gp pty (inp_of L loc m lo) g E args shp F HNo HI f sh HB (isc g) e (n_dtype nd) k k1 c v kval (kc_wff g E f fd nd HK) (kc_cover g f fd) Hren Hval kval_nf (fun _ => None) loops [] HN ltac:(intros; discriminate) n Hn)
        (nk_nodup _ _ _ _ HN)
        (fun zs r => inner_behaves L HL scoped gp pty (inp_of L loc m lo) g E args shp F HNo HI f sh HB (isc g) e (n_dtype nd) k k1 c v kval (kc_wff g E f fd nd HK) (kc_cover g f fd) Hren Hval kval_nf (fun _ => None) loops [] HN ltac:(intros; discriminate) zs r)
        loops Hsp1 Hcpu [] [] zs [[]] eq_refl (eq_sym (Forall2_len _ _ _ (Hlrg zs Hzs))) (Hlrg zs Hzs) ltac:(discriminate) (Forall2_nil _) ltac:(intros n _ _; reflexivity)
        _ _ (ibeh_live L sh kval Hok (fun _ => None) loops zs (Hlive zs Hzs))) as (r' & Hev).
      rewrite Hbody. rewrite Hbody in IHz. rewrite ev_bind, Hev. cbn [ebind]. rewrite IHz by (intros; apply Hz; now right). reflexivity. }
    apply G. auto.
  - eapply Permutation_NoDup; [symmetry; exact Hperm|apply NoDup_all_idx].
  - apply Forall_forall. exact Hlrg.
  - intros idx Hi. eapply Permutation_in; [symmetry; exact Hperm|]. apply in_all_idx.
    assert (Hid : slices (fun _ => None) loops idx = idx).
    { unfold slices, slice. clear - Hlvs Hi. apply in_range_length in Hi. revert Hlvs.
      assert (G : forall ls k s, map ls_lv ls = mapi_from k (fun k d => lvar k d) s -> (k + length s = length idx)%nat ->
        map (fun l => match lnm l with NLoop _ k [] => nth k idx 0 | NLoop _ k (true :: _) => 0 | NLoop _ k (false :: _) => 0 | _ => 0 end) ls = skipn k idx).
      { induction ls as [|l ls IH]; intros j u H Hk; destruct u as [|d u]; try discriminate; cbn in *.
        - symmetry. apply skipn_all2. lia.
        - assert (Hl : ls_lv l = lvar j d) by congruence. injection H as _ H. rewrite (IH (Datatypes.S j) u H) by lia.
          unfold lnm. rewrite Hl. cbn. rewrite (skipn_nth j idx) by lia. reflexivity. }
      intros Hlvs. apply (G loops 0%nat sh Hlvs). lia. }
    now rewrite Hid.
  - exists N. intros n ts' m' Hst. destruct (HPF n ts' m' Hst) as (H1 & H2 & H3 & H4). split; auto. split; auto. split; auto.
    intros HF. destruct (H4 HF) as (out' & O1 & O2 & O3 & O4). intros b. destruct (Nat.eq_dec b lo) as [->|Hne]; [|rewrite O4, Hmo; auto].
    rewrite O1, Hms. f_equal. assert (Hol : Z.of_nat (length out) = zprod sh) by (destruct HP as (_ & _ & _ & Ho & _); exact Ho).
    eapply filled_unique; [exact sh_nonneg| | |exact O3|exact Hfo]; congruence.
Qed.
End Kern.
