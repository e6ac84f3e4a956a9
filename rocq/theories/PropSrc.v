(* Property C45: the generated source text, executed by the rules of its language. *)
From Coq Require Import String Ascii Permutation.
From Verif Require Import Base BaseFacts Util UtilFacts Lang Spec Graph Api Denote SpecFacts DenoteFacts Reach ApiFacts ArrayLit FrontSpec FrontFacts4 Algo AlgoSem AlgoConv AlgoConv2 AlgoFuse AlgoConvert AlgoConvert2 AlgoMore AlgoTop
  Kernel Sched Codegen Backends LangInst Prog KernFacts RenderFacts KernelOk KernelRun KernelRun2 BackendFacts SchedFacts SchedUser SchedUser2 SchedUser3 SchedReach PropSched RuntimeFacts2 Safety RuntimeTop
  RunFacts Nest NestSched NestBody Parallel ParKernel ParCpu ParTop ParGpu Text TextPrint TextParse TextName TextExpr TextStmt TextMono TextTop TextBind PropText SrcSem SrcFacts SrcSim SrcKernel SrcTop SrcAll.
Open Scope string_scope.
Open Scope Z_scope.
Open Scope list_scope.

(* C45.  For every computed array a: the source texts generated for its kernels - read by the grammar of
   C/CUDA or Python (TextParse.v) and executed by the rules of that language (SrcSem.v: scopes, declarations,
   conversions to declared types, 32/64-bit integers, short-circuit operators, loops, early return) - in the
   order of the conversion, each on the buffers of its output and its arguments, starting from memory that
   holds the constants below a and a buffer of the right size for every array to be computed:
   - run to their end;
   - whatever order the threads of a CUDA launch run in (one after the other), the memory afterwards holds
     the elements of a (and of every intermediate array), and nothing else has changed.
   Hypotheses: the sizes are below the exactness bound and one dtype is computed with (mat_ok, as in C01),
   no element of an intermediate array raises; C and CUDA: the integer literals of the text are below 2^31
   (checked on the text itself), CUDA: the last dimension leaves room for one more block. *)
Theorem C45_generated_source : forall b lm g a E fs cs (m0 : mem (src_lang b lm)), let S := src_lang b lm in
  reach g -> computed g a -> mat_ok S g a -> convert g a = Done (E, fs) -> Forall2 (call_for b g E) fs cs ->
  (forall f idx, In f fs -> in_range (shape_of g f) idx -> t_at (den S g f) idx <> Raise) ->
  (b <> Python -> Forall (fun c => small_source (c_src c) = true) cs) ->
  (b = CUDA -> forall f, In f fs -> shape_of g f <> [] -> ltB S (last (shape_of g f) 0 + 256)) ->
  (forall n nd, cone g a n -> nth_error g n = Some nd -> is_const (n_op nd) = true -> exists vs, m0 n = Some vs /\ shows S g n vs) ->
  (forall f, In f fs -> exists vs, m0 f = Some vs /\ Z.of_nat (length vs) = zprod (shape_of g f)) ->
  (exists m', chain (call_runs b lm) cs m0 m') /\
  forall m', chain (call_runs b lm) cs m0 m' ->
    (exists vs, m' a = Some vs /\ shows S g a vs) /\
    (forall f, In f fs -> exists vs, m' f = Some vs /\ shows S g f vs) /\ forall x, ~ In x fs -> m' x = m0 x.
Proof.
  intros b lm g a E fs cs m0 S Hr (ad & Had & Hnc) Hm Hcv HF Hnr Hsm Hblk HC HR.
  assert (HS : Forall (fun c => b = Python \/ small_source (c_src c) = true) cs).
  { destruct b; [apply Forall_forall; auto| |]; (eapply Forall_impl; [|apply Hsm; discriminate]; intros c Hc; now right). }
  destruct (array_runs b lm g a ad Hr Had Hnc Hm E fs Hcv Hblk Hnr m0 cs HF HS HC HR) as (HX & HY). split; auto.
  intros m' H'. destruct (HY m' H') as (Q1 & Q2). split; auto. apply Q1.
  assert (Ha : valid g a) by (apply nth_error_Some; congruence).
  pose proof (converted_ns _ _ _ _ Hr Ha Hcv) as Hns. pose proof (convert_inv S g a E fs (src_lang_ok b lm) Hr Ha Hns Hcv) as HSp.
  destruct (cs_last _ _ _ _ _ HSp) as (l & ->). apply in_or_app. right. now left.
Qed.
Print Assumptions C45_generated_source.

(* the calls exist: every kernel of every array has a text, and it can be read *)
Theorem C45_calls_exist : forall b g a E fs, reach g -> valid g a -> convert g a = Done (E, fs) -> exists cs, Forall2 (call_for b g E) fs cs.
Proof.
  intros b g a E fs Hr Ha Hcv. pose proof (converted_ns _ _ _ _ Hr Ha Hcv) as Hns.
  pose proof (convert_inv (py_lang no_libm) g a E fs (py_lang_ok _) Hr Ha Hns Hcv) as HSp.
  assert (H : forall f, In f fs -> exists c, call_for b g E f c).
  { intros f Hf. destruct (convert_kctx (py_lang no_libm) g a E fs f HSp Hf) as (fd & nd & Hfd & HK).
    destruct (gen_ok g (reach_wf g Hr) E f fd nd HK b 0) as (s & kern & k1 & HG & _). destruct (gen_inv _ _ _ _ _ _ _ _ HG) as (HS & HC).
    destruct (C40_text_exists b g a E fs f fd 0 "0" Hr Ha Hcv Hf Hfd s kern k1 HG) as (text & HT).
    destruct (C40_text_means_program b g E _ fd s 0 "0" text k1 eq_refl HT) as (kern' & _ & HRd & _).
    exists (mkCall (source_of b (kernel_name "0") kern') (f :: map arg_id (func_args (f_expr fd))) (all_idx (launch_dims s))).
    exists fd, "0", 0%nat, text, k1, s. auto 10. }
  clear - H. induction fs as [|f fs IH]; [exists []; constructor|].
  destruct (H f ltac:(now left)) as (c & Hc). destruct IH as (cs & Hcs); [intros; apply H; now right|]. exists (c :: cs). now constructor.
Qed.
Print Assumptions C45_calls_exist.

(* a source text has one meaning: a call is determined by the program and the memory it starts in *)
Theorem C45_one_meaning : forall S coord p ls (m m1 m2 : mem S), calls S coord p ls m m1 -> calls S coord p ls m m2 -> m1 = m2.
Proof. exact calls_det. Qed.
Print Assumptions C45_one_meaning.

(* The same with a schedule of the user's, for one kernel on a CPU backend: any legal calls to split / reorder /
   annotate (C10), any locations.
   PARTIAL: the schedules are those of C10_user_schedule_partial (tail_ok, split_fits, no split of a half or of
   a reduction loop). *)
Lemma user_kreach s0 cs : forall s su, kreach s0 s -> ulegals s cs -> urun s cs = Done su -> kreach s0 su.
Proof.
  induction cs as [|c cs IH]; intros s su HK HU Hu; cbn [urun] in Hu; [injection Hu as <-; auto|]. destruct HU as [HL HU].
  destruct (ustep s c) as [s1|] eqn:E1; [|discriminate]. cbn [obind] in Hu. specialize (HU s1 eq_refl). apply (IH s1 su); auto.
  destruct c as [lv f|lvs|lv x]; cbn [ustep ulegal_x] in *.
  - destruct (split s lv f) as [[[s' o] i]|] eqn:Es; [|discriminate]. injection E1 as <-. eapply kr_split; eauto. destruct HL as (_ & Hin & _). exact Hin.
  - destruct HL as [HN HL]. eapply kr_reorder; eauto. rewrite !Forall_forall in HL. exact HL.
  - eapply kr_exec; eauto.
Qed.
Theorem C45_scheduled_source_partial : forall b lm g a E fs f fd cs su k key text k1 p lo ls out (m : mem (src_lang b lm)), let S := src_lang b lm in
  b <> CUDA -> reach g -> valid g a -> mat_ok S g a -> convert g a = Done (E, fs) -> In f fs -> E f = Some fd ->
  ulegals (sched_init fd) cs -> urun (sched_init fd) cs = Done su -> tail_ok su -> split_fits S su ->
  all_chars hex_digit key = true -> t_codegen b g E (kernel_name key) (func_args (f_expr fd)) fd su k = Done (text, k1) -> reads b text p ->
  (b <> Python -> small_source p = true) ->
  length ls = length (func_args (f_expr fd)) -> ~ In lo ls -> m lo = Some out -> Z.of_nat (length out) = zprod (shape_of g f) ->
  (forall i x l, nth_error (func_args (f_expr fd)) i = Some x -> nth_error ls i = Some l -> exists vs, m l = Some vs /\ shows S g (arg_id x) vs) ->
  (forall idx, in_range (shape_of g f) idx -> t_at (den S g f) idx <> Raise) ->
  exists m' out', calls S no_coord p (lo :: ls) m m' /\ m' lo = Some out' /\ shows S g f out' /\ forall x, x <> lo -> m' x = m x.
Proof.
  intros b lm g a E fs f fd cs su k key text k1 p lo ls out m S Hb Hr Ha Hm Hcv Hf Hfd HU Hu Htl Hsf Hkey HT Hp Hsm Hlen Hlo Hml Hout Hin Hnr.
  pose proof (src_lang_ok b lm) as HL. pose proof (converted_ns _ _ _ _ Hr Ha Hcv) as Hns. pose proof (convert_inv S g a E fs HL Hr Ha Hns Hcv) as HSp.
  destruct (convert_kctx S g a E fs f HSp Hf) as (fd' & nd & Hfd' & HK). assert (fd' = fd) by congruence. subst fd'.
  destruct (gen_ok g (reach_wf g Hr) E f fd nd HK b 0) as (s & kern & k0 & HG & _). destruct (gen_inv _ _ _ _ _ _ _ _ HG) as (HS & HC).
  assert (Hsc : schedule_cpu (sched_init fd) = Done s) by (destruct b; try congruence; exact HS).
  destruct (cpu_value S HL g a Hr Ha Hm E fs Hcv f fd Hf Hfd (negb (is_py b)) (fun _ _ => 0) s 0 kern k0 lo ls m out Hsc HC Hlen Hlo Hml Hout Hin Hnr) as (ms & out' & fl & HR & Hms & Hsw).
  destruct (C40_text_means_program b g E _ fd su k key text k1 Hkey HT) as (kern' & HC' & _).
  assert (HMem : kernel_memory g f fd lo ls m).
  { split; auto. split; auto. split; [eauto|]. intros i x l Hx Hl. destruct (Hin i x l Hx Hl) as (vs & V1 & V2). exists vs. split; auto. apply V2. }
  destruct (user_same S HL g Hr a Ha Hns (proj1 Hm) E fs Hcv f fd Hf Hfd b (negb (is_py b)) (fun _ _ => 0) 0 s kern k0 lo ls m ms fl cs su k kern' k1 Hb HG HMem HR HU Hu Htl Hsf HC') as (mu & fl' & HR' & Hmu).
  exists mu, out'. split; [|split; [rewrite Hmu, Hms, Nat.eqb_refl; auto|split; auto]].
  - assert (Hco : coord_of b (fun _ _ => 0) = no_coord) by (destruct b; try congruence; reflexivity). rewrite <- Hco.
    eapply (text_calls b lm g a E fd su k key text k1 kern'); eauto.
    + exists fs, f. repeat (split; auto). eapply user_kreach; eauto. constructor.
    + destruct b; [now left| |]; right; apply Hsm; discriminate.
    + cbn [length]. rewrite (params_length S HL g a Hr Ha E fs Hcv f fd Hf Hfd su k kern' k1 HC'). congruence.
  - intros x Hx. rewrite Hmu, Hms. destruct (Nat.eqb_spec x lo); congruence.
Qed.
Print Assumptions C45_scheduled_source_partial.

(* ------------------------------------------------------------------ concrete cases *)
(* y = full((2,3), 1) + full((3,), 2); z = y.sum(axis=1); w = z * z: two kernels, the reduction is kept apart *)
Definition exSrc : graph := Prog.prog [CFull [2; 3] (NInt 1); CFull [3] (NInt 2); CBroadcastTo 1 [2; 3]; CBinary BAdd 0 2; CSum 3 (Some [1]) false; CBinary BMul 4 4].
(* the calls for an array, computed *)
Fixpoint calls_of (b : backend) (g : graph) (E : fenv) (fs : list nat) : option (list kcall) :=
  match fs with
  | [] => Some []
  | f :: r => match E f with
    | Some fd => match gen b g E fd 0 with
      | Done (s, kern, _) => option_map (cons (mkCall (source_of b (kernel_name "0") kern) (f :: map arg_id (func_args (f_expr fd))) (all_idx (launch_dims s)))) (calls_of b g E r)
      | _ => None end
    | None => None end
  end.
Lemma calls_of_ok b g a E fs0 : reach g -> valid g a -> convert g a = Done (E, fs0) -> forall fs cs, (forall f, In f fs -> In f fs0) -> calls_of b g E fs = Some cs -> Forall2 (call_for b g E) fs cs.
Proof.
  intros Hr Ha Hcv. induction fs as [|f fs IH]; intros cs Hin H; cbn [calls_of] in H; [injection H as <-; constructor|].
  destruct (E f) as [fd|] eqn:Ef; [|discriminate]. destruct (gen b g E fd 0) as [[[s kern] k1]|] eqn:EG; [|discriminate].
  destruct (calls_of b g E fs) as [cs'|] eqn:Ec; [|discriminate]. injection H as <-. constructor; [|apply IH; auto; intros; apply Hin; now right].
  destruct (C40_text_exists b g a E fs0 f fd 0 "0" Hr Ha Hcv (Hin f (or_introl eq_refl)) Ef s kern k1 EG) as (text & HT). destruct (gen_inv _ _ _ _ _ _ _ _ EG) as (HS & HC).
  destruct (C40_text_means_program b g E _ fd s 0 "0" text k1 eq_refl HT) as (kern' & HC' & HRd & _). rewrite HC in HC'. injection HC' as <-.
  exists fd, "0", 0%nat, text, k1, s. auto 10.
Qed.
Definition exVal (b : backend) (z : Z) : val (src_lang b no_libm) := coerce _ Int64 (of_num _ (NInt z)).
Definition exMem (b : backend) : mem (src_lang b no_libm) := fun l => match l with
  | 0%nat => Some (repeat (exVal b 1) 6) | 1%nat => Some (repeat (exVal b 2) 3) | 4%nat | 5%nat => Some (repeat (exVal b 0) 2) | _ => None end.
Lemma shows_check (L : lang) g n vs : Z.of_nat (length vs) = zprod (shape_of g n) ->
  Forall (fun i => exists v, t_at (den L g n) i = Ok v /\ znth vs (flat (shape_of g n) i) = Some v) (all_idx (shape_of g n)) -> shows L g n vs.
Proof. intros H1 H2. split; auto. intros idx Hi. rewrite Forall_forall in H2. apply H2. now apply in_all_idx. Qed.
Example C45_nonvacuous : forall b, exists E fs cs, reach exSrc /\ computed exSrc 5 /\ mat_ok (src_lang b no_libm) exSrc 5 /\ convert exSrc 5 = Done (E, fs) /\ fs = [4%nat; 5%nat] /\
  Forall2 (call_for b exSrc E) fs cs /\ Forall (fun c => small_source (c_src c) = true) cs /\
  exists m', chain (call_runs b no_libm) cs (exMem b) m' /\ m' 4%nat = Some (repeat (exVal b 9) 2) /\ m' 5%nat = Some (repeat (exVal b 81) 2) /\
    forall m2, chain (call_runs b no_libm) cs (exMem b) m2 -> m2 5%nat = m' 5%nat.
Proof.
  intros b. 
  assert (H0 : exists E fs cs, convert exSrc 5 = Done (E, fs) /\ fs = [4%nat; 5%nat] /\ calls_of b exSrc E fs = Some cs /\ forallb (fun c => small_source (c_src c)) cs = true).
  { destruct b; (eexists _, _, _; split; [vm_compute; reflexivity|]; split; [reflexivity|]; split; [vm_compute; reflexivity|vm_compute; reflexivity]). }
  destruct H0 as (E & fs & cs & Hcv & Hfs & Hcs & Hsm). exists E, fs, cs.
  assert (Hr : reach exSrc) by apply prog_reach. assert (Ha : valid exSrc 5) by (vm_compute; lia).
  assert (HF : Forall2 (call_for b exSrc E) fs cs) by (eapply calls_of_ok; eauto).
  assert (HSm : Forall (fun c => small_source (c_src c) = true) cs) by (apply Forall_forall; rewrite forallb_forall in Hsm; auto).
  assert (HC : computed exSrc 5) by (eexists; split; vm_compute; reflexivity).
  assert (HM : mat_ok (src_lang b no_libm) exSrc 5).
  { split; [apply fits_all; destruct b; vm_compute; reflexivity|]. exists Int64. intros n nd _ Hn Hc v.
    do 6 (destruct n as [|n]; [vm_compute in Hn; injection Hn as <-; reflexivity|]). destruct n; discriminate Hn. }
  assert (HV : forall n, In n [0; 1; 4; 5]%nat -> forall idx, In idx (all_idx (shape_of exSrc n)) -> t_at (den (src_lang b no_libm) exSrc n) idx =
    Ok (exVal b (match n with O => 1 | Datatypes.S O => 2 | Datatypes.S (Datatypes.S (Datatypes.S (Datatypes.S O))) => 9 | _ => 81 end))).
  { intros n Hn idx Hi. destruct b; repeat (destruct Hn as [<-|Hn]; [vm_compute in Hi; repeat (destruct Hi as [<-|Hi]; [vm_compute; reflexivity|]); destruct Hi|]); destruct Hn. }
  split; auto. split; auto. split; auto. split; auto. split; auto. split; auto. split; auto.
  assert (HX : forall n idx, In n [0; 1; 4; 5]%nat -> in_range (shape_of exSrc n) idx -> exists v, t_at (den (src_lang b no_libm) exSrc n) idx = Ok v) by (intros n idx Hn Hi; eexists; apply HV; auto; now apply in_all_idx).
  destruct (C45_generated_source b no_libm exSrc 5 E fs cs (exMem b)) as ((m' & R) & HA); auto.
  - intros f idx Hf Hi. rewrite Hfs in Hf. destruct (HX f idx) as (v & ->); auto; [|discriminate]. destruct Hf as [<-|[<-|[]]]; cbn; auto.
  - intros Hb f Hf _. rewrite Hfs in Hf. subst b. destruct Hf as [<-|[<-|[]]]; vm_compute; reflexivity.
  - intros n nd _ Hn Hc. destruct n as [|[|[|[|[|[|n]]]]]]; try (vm_compute in Hn; injection Hn as <-; discriminate Hc); [| |destruct n; discriminate Hn].
    + exists (repeat (exVal b 1) 6). split; [reflexivity|]. apply shows_check; [vm_compute; reflexivity|]. apply Forall_forall. intros i Hi. exists (exVal b 1). split; [apply (HV 0%nat); cbn; auto|].
      vm_compute in Hi. repeat (destruct Hi as [<-|Hi]; [reflexivity|]). destruct Hi.
    + exists (repeat (exVal b 2) 3). split; [reflexivity|]. apply shows_check; [vm_compute; reflexivity|]. apply Forall_forall. intros i Hi. exists (exVal b 2). split; [apply (HV 1%nat); cbn; auto|].
      vm_compute in Hi. repeat (destruct Hi as [<-|Hi]; [reflexivity|]). destruct Hi.
  - intros f Hf. rewrite Hfs in Hf. destruct Hf as [<-|[<-|[]]]; (eexists; split; [reflexivity|vm_compute; reflexivity]).
  - assert (HU : forall m2 n, (n = 4 \/ n = 5)%nat -> chain (call_runs b no_libm) cs (exMem b) m2 -> m2 n = Some (repeat (exVal b (if Nat.eqb n 4 then 9 else 81)) 2)).
    { intros m2 n Hn R2. destruct (HA m2 R2) as (_ & HS & _). destruct (HS n) as (vs & V1 & V2 & V3); [rewrite Hfs; destruct Hn as [->| ->]; cbn; auto|].
      rewrite V1. f_equal. assert (Hl : length vs = 2%nat) by (destruct Hn as [->| ->]; (assert (zprod (shape_of exSrc 4) = 2 /\ zprod (shape_of exSrc 5) = 2) by (split; vm_compute; reflexivity)); lia).
      destruct vs as [|v1 [|v2 [|]]]; try discriminate Hl.
      assert (Hsh : shape_of exSrc n = [2]) by (destruct Hn as [->| ->]; vm_compute; reflexivity).
      assert (HE : forall i, 0 <= i < 2 -> znth [v1; v2] i = Some (exVal b (if Nat.eqb n 4 then 9 else 81))).
      { intros i Hi. assert (Hr2 : in_range (shape_of exSrc n) [i]) by (rewrite Hsh; repeat constructor; lia). destruct (V3 [i] Hr2) as (v & W1 & W2).
        assert (Hfl : flat (shape_of exSrc n) [i] = i) by (rewrite Hsh; unfold flat; cbn; lia). rewrite Hfl in W2. rewrite W2. f_equal.
        rewrite HV in W1; [|destruct Hn as [->| ->]; cbn; auto|now apply in_all_idx]. injection W1 as <-. destruct Hn as [->| ->]; reflexivity. }
      pose proof (HE 0 ltac:(lia)) as E0. pose proof (HE 1 ltac:(lia)) as E1. cbn in E0, E1. injection E0 as ->. injection E1 as ->. reflexivity. }
    exists m'. split; auto. split; [apply (HU m' 4%nat); auto|]. split; [apply (HU m' 5%nat); auto|]. intros m2 R2. rewrite (HU m2 5%nat), (HU m' 5%nat); auto.
Qed.
(* the schedule of C10_nonvacuous (a split with a tail, loops reordered, vectorize) has a text *)
Example C45_scheduled_nonvacuous : exists E fd su text k1, convert exNeg 1 = Done (E, [1%nat]) /\ E 1%nat = Some fd /\
  urun (sched_init fd) [USplit axJ 2; UReorder [axI; mkLV (NLoop false 1 [false]) 2; mkLV (NLoop false 1 [true]) 2]; UExec axI XVec] = Done su /\
  t_codegen Python exNeg E (kernel_name "0") (func_args (f_expr fd)) fd su 0 = Done (text, k1) /\ text = join nl
    ["import math"; "def kern_0(out, buf_0):"; "    for j__o in range(0, 2, 1):"; "        for j__i in range(0, 2, 1):"; "            for i in range(0, 2, 1):";
     "                j = j__o * 2 + j__i"; "                if 3 <= j:"; "                    return"; "                "; "                tmp0 = -(buf_0[0 + i * 3 + j * 1])";
     "                out[i * 3 + j * 1] = tmp0"; "            "; "        "; "    "; ""].
Proof. eexists _, _, _, _, _. split; [vm_compute; reflexivity|]. split; [vm_compute; reflexivity|]. split; [vm_compute; reflexivity|]. split; vm_compute; reflexivity. Qed.
