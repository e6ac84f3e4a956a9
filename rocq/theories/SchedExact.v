(* What the kernel of a legal user schedule computes when tail guards end it early. *)
From Coq Require Import Permutation.
From Verif Require Import Base BaseFacts Util UtilFacts Lang Spec Graph Api Denote SpecFacts DenoteFacts Reach ApiFacts
  Algo AlgoSem AlgoConv AlgoConv2 AlgoFuse AlgoFuse2 AlgoConvert AlgoConvert2
  Kernel Sched Codegen Backends KernFacts RenderFacts KernelOk RunFacts SchedFacts SchedGpu KernelRun KernelRun2 BackendFacts AlgoTop AlgoMore Safety
  Nest NestSched NestBody Parallel ParKernel ParCpu ParTop SchedUser SchedUser2 SchedUser3 SchedPar.

(* the value of the loop named n in the iteration zs of the loop nest *)
Definition loop_value (s : schedule) (zs : list Z) (n : name) : Z :=
  match find (fun p => name_eqb (fst p) n) (combine (map lv_name (spatial_loops s)) zs) with Some p => snd p | None => 0 end.
(* position of the iteration on axis k of the output: outer * factor + inner if the axis was split *)
Definition axis_position (s : schedule) (zs : list Z) (k : nat) : Z :=
  match find (fun x => name_eqb (lv_name (sp_orig x)) (NLoop false k [])) (s_splits s) with
  | Some x => loop_value s zs (lv_name (sp_o x)) * sp_factor x + loop_value s zs (lv_name (sp_i x))
  | None => loop_value s zs (NLoop false k [])
  end.
Definition element (s : schedule) (shape : list Z) (zs : list Z) : list Z := map (axis_position s zs) (seq 0 (length shape)).
(* the iteration lies inside the array *)
Definition inside (s : schedule) (shape : list Z) (zs : list Z) : bool := in_rangeb shape (element s shape zs).
Fixpoint take_while {A} (p : A -> bool) (l : list A) : list A :=
  match l with [] => [] | x :: r => if p x then x :: take_while p r else [] end.
(* the iterations before the first one outside the array, in loop order *)
Definition executed (s : schedule) (shape : list Z) : list (list Z) := take_while (inside s shape) (iterations s).
(* no iteration inside the array comes after one outside *)
Definition complete (s : schedule) (shape : list Z) : Prop := executed s shape = filter (inside s shape) (iterations s).

Lemma tget_find ns : forall zs n, tget ns zs n = match find (fun p => name_eqb (fst p) n) (combine ns zs) with Some p => snd p | None => 0 end.
Proof. induction ns as [|m ns IH]; intros [|z zs] n; cbn; auto. destruct (name_eqb m n); auto. Qed.
Lemma loop_value_tget s zs n : loop_value s zs n = tget (map lnm (filter is_spatial (s_loops s))) zs n.
Proof. unfold loop_value, spatial_loops. rewrite tget_find, map_map. reflexivity. Qed.
Lemma axis_coord sh fac s zs k d : nestok sh fac (filter is_spatial (s_loops s)) (s_splits s) -> nth_error sh k = Some d ->
  axis_position s zs k = coord fac (map lnm (filter is_spatial (s_loops s))) zs k.
Proof.
  intros HN Hd. unfold axis_position, coord. destruct (find _ (s_splits s)) as [x|] eqn:Ef.
  - apply find_some in Ef as [Hx Hn]. apply name_eqb_eq in Hn. destruct (nk_sp_in _ _ _ _ HN x Hx) as (k' & d' & q & Hd' & Hq & ->).
    cbn in Hn. injection Hn as ->. rewrite Hq. cbn. now rewrite !loop_value_tget.
  - destruct (fac k) as [q|] eqn:Eq; [|apply loop_value_tget]. exfalso. pose proof (find_none _ _ Ef _ (nk_sp _ _ _ _ HN k d q Hd Eq)) as H. cbn [spl sp_orig lvar lv_name] in H. rewrite name_eqb_refl in H. discriminate.
Qed.
Lemma element_coords sh fac s zs : nestok sh fac (filter is_spatial (s_loops s)) (s_splits s) ->
  element s sh zs = coords sh fac (map lnm (filter is_spatial (s_loops s))) zs.
Proof.
  intros HN. unfold element, coords.
  assert (G : forall l k0, (forall i d, nth_error l i = Some d -> nth_error sh (k0 + i) = Some d) ->
     map (axis_position s zs) (seq k0 (length l)) = mapi_from k0 (fun k _ => coord fac (map lnm (filter is_spatial (s_loops s))) zs k) l).
  { induction l as [|d l IH]; intros k0 H; cbn; auto. f_equal.
    - specialize (H 0%nat d eq_refl). rewrite Nat.add_0_r in H. exact (axis_coord sh fac s zs k0 d HN H).
    - apply IH. intros i d' Hi. specialize (H (Datatypes.S i) d' Hi). rewrite Nat.add_succ_r in H. exact H. }
  apply G. intros i d Hi. exact Hi.
Qed.
Lemma inside_live L sh fac s zs (f : list Z -> res (val L)) : nestok sh fac (filter is_spatial (s_loops s)) (s_splits s) ->
  inside s sh zs = live sh fac (filter is_spatial (s_loops s)) zs.
Proof. intros HN. unfold inside, live. now rewrite (element_coords sh fac s zs HN). Qed.
Lemma iter_tuples gp s : Forall (fun l => cpu_exec (ls_exec l)) (filter is_spatial (s_loops s)) -> tuples gp (filter is_spatial (s_loops s)) = iterations s.
Proof.
  unfold iterations, spatial_loops. rewrite map_map. generalize (filter is_spatial (s_loops s)). induction 1 as [|l r Hl _ IH]; cbn; auto.
  rewrite IH. assert (Hv : lvals gp l = zrange (lv_ext (ls_lv l))) by (unfold lvals; destruct (ls_exec l); try contradiction; reflexivity). now rewrite Hv.
Qed.
Lemma take_while_ext {A} (p q : A -> bool) l : (forall x, In x l -> p x = q x) -> take_while p l = take_while q l.
Proof. induction l as [|x l IH]; cbn; auto. intros H. rewrite H by now left. destruct (q x); auto. f_equal. apply IH. auto. Qed.
Lemma take_while_in {A} (p : A -> bool) l x : In x (take_while p l) -> In x l /\ p x = true.
Proof. induction l as [|y l IH]; cbn; [tauto|]. destruct (p y) eqn:E; cbn; [|tauto]. intros [<-|H]; auto. apply IH in H. tauto. Qed.
Lemma take_while_prefix {A} (p : A -> bool) l : exists r, filter p l = take_while p l ++ r.
Proof. induction l as [|x l [r IH]]; cbn; [now exists []|]. destruct (p x); [exists r; cbn; congruence|eexists; reflexivity]. Qed.

Section Run.
Context (L : lang) (s : list Z) (Hs0 : Forall (fun d => 0 <= d) s) (f : list Z -> res (val L)) (Hok : forall idx, in_range s idx -> exists v, f idx = Ok v).
Context (fac : nat -> option Z) (loops : list loopsched) (spls : list splitloop) (HN : nestok s fac loops spls).
Lemma nseq_while ts : exists fl, nseq L (ibeh L s f fac loops) ts = (map (wof L s f fac loops) (take_while (live s fac loops) ts), OkO fl).
Proof using Hok.
  induction ts as [|t ts [fl IH]]; [eexists; reflexivity|]. cbn [nseq take_while]. destruct (live s fac loops t) eqn:El.
  - rewrite (ibeh_live L s f Hok fac loops t El), IH. cbn. eauto.
  - exists FReturn. unfold ibeh. unfold live in El. cbn zeta. rewrite El. reflexivity.
Qed.
Lemma some_writes ts out : Z.of_nat (length out) = zprod s -> (forall t, In t ts -> live s fac loops t = true) ->
  let ws := map (wof L s f fac loops) ts in
  out_writes L (Z.of_nat (length out)) ws /\
  forall idx, in_range s idx -> znth (apply_w L ws out) (flat s idx) =
    if existsb (fun t => list_zeqb (coords s fac (map lnm loops) t) idx) ts then Some (fv L f idx) else znth out (flat s idx).
Proof using Hs0 Hok.
  intros Hlen Hts ws. split.
  - apply Forall_forall. intros w Hw. unfold ws in Hw. apply in_map_iff in Hw as (z & <- & Hz). apply Hts in Hz. unfold live in Hz. apply in_rangeb_spec in Hz.
    unfold wof. split; auto. rewrite Hlen. now apply flat_bounds.
  - intros idx Hi. pose proof (flat_bounds _ _ Hi) as Hb. destruct (existsb _ ts) eqn:Ee.
    + apply existsb_exists in Ee as (t & Ht & Et). apply list_zeqb_eq in Et. apply (apply_in L ws out NOut (flat s idx) (fv L f idx)).
      * unfold ws. apply in_map_iff. exists t. split; auto. unfold wof. now rewrite Et.
      * rewrite Hlen. exact Hb.
      * intros n' i' v' Hin He. unfold ws in Hin. apply in_map_iff in Hin as (z & Hz & Hzt). apply Hts in Hzt. unfold live in Hzt. apply in_rangeb_spec in Hzt.
        unfold wof in Hz. injection Hz as <- <- <-. pose proof (flat_bounds _ _ Hzt). assert (coords s fac (map lnm loops) z = idx) by (apply (flat_inj s); auto; lia). congruence.
    + unfold znth. destruct (flat s idx <? 0); auto. apply apply_other. intros n i v Hin He. unfold ws in Hin. apply in_map_iff in Hin as (z & Hz & Hzt).
      pose proof (Hts z Hzt) as Hl. unfold live in Hl. apply in_rangeb_spec in Hl. unfold wof in Hz. injection Hz as <- <- <-. pose proof (flat_bounds _ _ Hl).
      assert (Hc : coords s fac (map lnm loops) z = idx) by (apply (flat_inj s); auto; lia).
      assert (existsb (fun t => list_zeqb (coords s fac (map lnm loops) t) idx) ts = true); [|congruence].
      apply existsb_exists. exists z. split; auto. apply list_zeqb_eq. exact Hc.
Qed.
End Run.

Section Kern.
Context (L : lang) (HL : lang_ok L) (scoped : bool).
Context (g : graph) (Hw : wf_graph g) (E : fenv) (f : nat) (fd : func) (nd : node) (HK : kctx g E f fd nd).
Context (HB : ltB L (zprod (n_shape nd))) (F : nat -> list Z -> res (val L)).
Notation sh := (n_shape nd).
Notation kval := (kval L g f fd nd F).
Context (Hok : forall idx, in_range sh idx -> exists v, kval idx = Ok v).
Theorem user_exact gp s fac k kern k1 lo ls m out : uinv sh fac s -> split_fits L s ->
  codegen g E (func_args (f_expr fd)) fd s k = Done (kern, k1) -> placed L g fd nd F kern lo ls m out ->
  exists mu fl outs, run (bind_params (k_params kern) (lo :: ls)) (exec L scoped gp (pty_of (k_params kern)) (k_body kern) [[]]) m = (mu, OkO fl) /\
    mu lo = Some outs /\ (forall b, b <> lo -> mu b = m b) /\ length outs = length out /\
    forall idx, in_range sh idx -> znth outs (flat sh idx) =
      if existsb (fun zs => list_zeqb (element s sh zs) idx) (executed s sh) then Some (fv L kval idx) else znth out (flat sh idx).
Proof using HL Hw HK HB Hok.
  intros [U1 U2 U3 U4] HF HC HP.
  destruct (kern_parts L HL g Hw E f fd nd HK F s k kern k1 lo ls m out HC HP) as (c & v & Hbody & Hren & HNo & HI & Hpt & Hloc).
  set (loc := bind_params (k_params kern) (lo :: ls)) in *. set (pty := pty_of (k_params kern)) in *.
  assert (Hs0 := sh_nonneg g Hw E f fd nd HK).
  assert (Hcpu : Forall (fun l => cpu_exec (ls_exec l)) (filter is_spatial (s_loops s))).
  { apply Forall_forall. intros l Hl. apply filter_In in Hl as [Hl _]. rewrite Forall_forall in U4. auto. }
  pose proof (iter_tuples gp s Hcpu) as Hit.
  assert (Hex : executed s sh = take_while (live sh fac (filter is_spatial (s_loops s))) (iterations s)).
  { apply take_while_ext. intros x _. apply (inside_live L); auto. }
  assert (Hel : forall zs, element s sh zs = coords sh fac (map lnm (filter is_spatial (s_loops s))) zs) by (intros; now apply element_coords).
  rewrite Hex, <- Hit. clear Hex. set (loops := filter is_spatial (s_loops s)) in *.
  assert (Hsp : Forall (fun l => is_spatial l = true) loops) by (apply Forall_forall; intros l Hl; now apply filter_In in Hl).
  assert (Hval : forall idx, in_range sh idx -> (w <- evalV L (shape_of g) F (n_dtype nd) (f_expr fd) (lenv f sh idx) ;; Ok (coerce L (pty NOut) w)) = kval idx).
  { intros idx _. rewrite Hpt. reflexivity. }
  assert (HBk : forall k d q, nth_error sh k = Some d -> fac k = Some q -> ltB L (d + q)).
  { intros j d q Hd Hq. exact (HF (spl j d q) (nk_sp _ _ _ _ U2 j d q Hd Hq)). }
  pose proof (sched_behaves L HL scoped gp pty (inp_of L loc m lo) g E (func_args (f_expr fd)) (shape_of g) F HNo HI f sh HB (isc g) (f_expr fd) (n_dtype nd) k k1 c v kval
    (kc_wff g E f fd nd HK) (kc_cover g f fd) Hren Hval (kval_nf L g f fd nd F Hok) fac loops (s_splits s) U2 HBk Hsp (fun t Ht => proj1 (cpu_tuples gp loops Hcpu t) Ht)) as HS.
  destruct (nseq_while L sh kval Hok fac loops (tuples gp loops)) as (fl & Hns). rewrite Hns in HS. cbn [behaves] in HS. destruct HS as (r' & HS & _).
  destruct HP as (Hlen & Hlo & Hm & Hout & Hin).
  destruct (some_writes L sh Hs0 kval Hok fac loops (take_while (live sh fac loops) (tuples gp loops)) out Hout) as (Hw1 & Hw2).
  { intros t Ht. now apply take_while_in in Ht. }
  destruct (run_ev L loc lo _ m out _ _ Hloc Hm HS ltac:(discriminate) Hw1) as (mu & R & Hmu).
  rewrite Hbody. exists mu, (fl, r'). eexists. split; [exact R|]. rewrite Hmu, Nat.eqb_refl. split; [reflexivity|]. split.
  - intros y Hy. rewrite Hmu. destruct (Nat.eqb_spec y lo); congruence.
  - split; [apply apply_w_length|]. intros idx Hi. rewrite (Hw2 idx Hi).
    replace (existsb (fun zs => list_zeqb (element s sh zs) idx) (take_while (live sh fac loops) (tuples gp loops)))
      with (existsb (fun t => list_zeqb (coords sh fac (map lnm loops) t) idx) (take_while (live sh fac loops) (tuples gp loops))); [reflexivity|].
    generalize (take_while (live sh fac loops) (tuples gp loops)). induction l as [|x l IH]; cbn; auto. now rewrite IH, Hel.
Qed.
End Kern.

(* every element has exactly one iteration *)
Lemma iter_of sh fac s : nestok sh fac (filter is_spatial (s_loops s)) (s_splits s) -> forall idx, in_range sh idx ->
  exists zs, In zs (iterations s) /\ element s sh zs = idx.
Proof.
  intros HN idx Hi. exists (slices fac (filter is_spatial (s_loops s)) idx). split; [apply lrange_iter; now apply (slices_range sh fac _ _ HN)|].
  rewrite (element_coords sh fac s _ HN). now apply (coords_slices sh fac _ _ HN).
Qed.
Lemma complete_iff_nest sh fac s : nestok sh fac (filter is_spatial (s_loops s)) (s_splits s) ->
  complete s sh <-> forall idx, in_range sh idx -> exists zs, In zs (executed s sh) /\ element s sh zs = idx.
Proof.
  intros HN. split.
  - intros HC idx Hi. destruct (iter_of sh fac s HN idx Hi) as (zs & H1 & H2). exists zs. split; auto. rewrite HC. apply filter_In. split; auto.
    unfold inside. rewrite H2. now apply in_rangeb_spec.
  - intros H. unfold complete. destruct (take_while_prefix (inside s sh) (iterations s)) as [r Hr]. unfold executed in *. rewrite Hr. destruct r as [|z r]; [now rewrite app_nil_r|].
    exfalso. assert (Hz : In z (filter (inside s sh) (iterations s))) by (rewrite Hr; apply in_or_app; right; now left).
    apply filter_In in Hz as [Hz Hin]. unfold inside in Hin. apply in_rangeb_spec in Hin. destruct (H _ Hin) as (z' & H1 & H2).
    assert (Hz' := proj1 (take_while_in _ _ _ H1)).
    assert (z' = z).
    { apply lrange_iter in Hz, Hz'. rewrite !(element_coords sh fac s _ HN) in H2. eapply (coords_inj sh fac); eauto. }
    subst z'. assert (HND : NoDup (filter (inside s sh) (iterations s))) by (apply NoDup_filter, NoDup_all_idx).
    rewrite Hr in HND. apply NoDup_remove_2 in HND. apply HND. apply in_or_app. now left.
Qed.

Section Top.
Context (L : lang) (HL : lang_ok L) (g : graph) (Hr : reach g) (a : nat) (Ha : valid g a) (Hns : no_scalar_reshape g a).
Context (E : fenv) (fs : list nat) (Hcv : convert g a = Done (E, fs)) (f : nat) (fd : func) (Hf : In f fs) (Hfd : E f = Some fd).
Lemma user_nest cs su : ulegals (sched_init fd) cs -> urun (sched_init fd) cs = Done su ->
  exists fac, nestok (shape_of g f) fac (filter is_spatial (s_loops su)) (s_splits su).
Proof using HL Hr Ha Hns Hcv Hf Hfd.
  intros HU Hu. pose proof (convert_inv L g a E fs HL Hr Ha Hns Hcv) as HSp.
  destruct (convert_kctx L g a E fs f HSp Hf) as (fd' & nd & Hfd' & HK). assert (fd' = fd) by congruence. subst fd'.
  destruct (urun_ok cpu_exec I _ cs _ _ (uinv_init g E f fd nd HK) HU) as (s & fac & R & HI). rewrite Hu in R. injection R as <-.
  exists fac. unfold shape_of. rewrite (kc_nd _ _ _ _ _ HK). exact (ui_nest _ _ _ HI).
Qed.
Context (Hfit : fits L g a).
Theorem user_exact_top b scoped gp k s kern k1 lo ls (m ms : store L) fl cs su k' kern' k1' : b <> CUDA -> gen b g E fd k = Done (s, kern, k1) ->
  kernel_memory g f fd lo ls m ->
  run (bind_params (k_params kern) (lo :: ls)) (exec L scoped gp (pty_of (k_params kern)) (k_body kern) [[]]) m = (ms, OkO fl) ->
  ulegals (sched_init fd) cs -> urun (sched_init fd) cs = Done su -> split_fits L su ->
  codegen g E (func_args (f_expr fd)) fd su k' = Done (kern', k1') ->
  exists mu fl' before right after, m lo = Some before /\ ms lo = Some right /\
    run (bind_params (k_params kern') (lo :: ls)) (exec L scoped gp (pty_of (k_params kern')) (k_body kern') [[]]) m = (mu, OkO fl') /\
    mu lo = Some after /\ (forall x, x <> lo -> mu x = ms x) /\ length after = length right /\
    (forall idx, in_range (shape_of g f) idx -> znth after (flat (shape_of g f) idx) =
      znth (if existsb (fun zs => list_zeqb (element su (shape_of g f) zs) idx) (executed su (shape_of g f)) then right else before) (flat (shape_of g f) idx)) /\
    (complete su (shape_of g f) -> after = right).
Proof using HL Hr Ha Hns Hfit Hcv Hf Hfd.
  intros Hb HG HM R HU Hu HF HC'. destruct (gen_inv _ _ _ _ _ _ _ _ HG) as (HS & HC).
  assert (Hsc : schedule_cpu (sched_init fd) = Done s) by (destruct b; try congruence; exact HS).
  destruct (kernel_contents L HL g Hr a Ha Hns Hfit E fs Hcv f fd Hf Hfd kern lo ls m HM) as (nd & F & out & HK & Hs & HB & Hm & HPl & Hnf).
  pose proof (seq_all_ok L HL g Hr E f fd scoped gp nd F s k kern k1 lo ls m out ms fl HK HB HPl Hnf Hsc HC R) as Hok.
  destruct (seq_run L HL scoped g (reach_wf g Hr) E f fd nd HK HB F Hok gp s k kern k1 lo ls m out Hsc HC HPl) as (ms' & fl0 & outs & R' & H1 & H2 & H3 & H4).
  rewrite R in R'. injection R' as <- <-.
  destruct (urun_ok cpu_exec I _ cs _ _ (uinv_init g E f fd nd HK) HU) as (su' & fac & Ru & HI). rewrite Hu in Ru. injection Ru as <-.
  destruct (user_exact L HL scoped g (reach_wf g Hr) E f fd nd HK HB F Hok gp su fac k' kern' k1' lo ls m out HI HF HC' HPl) as (mu & flu & outu & R2 & A1 & A2 & A3 & A4).
  exists mu, flu, out, outs, outu. rewrite Hs in *.
  assert (Hvals : forall idx, in_range (n_shape nd) idx -> znth outu (flat (n_shape nd) idx) =
      znth (if existsb (fun zs => list_zeqb (element su (n_shape nd) zs) idx) (executed su (n_shape nd)) then outs else out) (flat (n_shape nd) idx)).
  { intros idx Hi. rewrite (A4 idx Hi). destruct (existsb _ _); auto. destruct (H4 idx Hi) as (v & Hv & ->). unfold fv. now rewrite Hv. }
  split; auto. split; auto. split; auto. split; auto. split; [intros x Hx; rewrite A2, H2; auto|]. split; [congruence|]. split; auto.
  intros HCo. assert (Hol : Z.of_nat (length out) = zprod (n_shape nd)) by (destruct HPl as (_ & _ & _ & Ho & _); exact Ho).
  eapply filled_unique; [exact (sh_nonneg g (reach_wf g Hr) E f fd nd HK)| | | |exact H4]; try congruence.
  intros idx Hi. destruct (H4 idx Hi) as (v & Hv & Hz). exists v. split; auto. rewrite (Hvals idx Hi).
  destruct (proj1 (complete_iff_nest _ fac su (ui_nest _ _ _ HI)) HCo idx Hi) as (zs & Hz1 & Hz2).
  replace (existsb _ _) with true; auto. symmetry. apply existsb_exists. exists zs. split; auto. now apply list_zeqb_eq.
Qed.
End Top.
