(* The value computed by the texts of the kernels of an array. *)
From Coq Require Import String Ascii Permutation.
From Verif Require Import Base BaseFacts Util UtilFacts Lang Spec Graph Api Denote SpecFacts DenoteFacts Reach ApiFacts FrontSpec FrontFacts4 Algo AlgoSem AlgoConv AlgoConv2 AlgoFuse AlgoConvert AlgoConvert2 AlgoMore AlgoTop
  Kernel Sched Codegen Backends LangInst KernFacts RenderFacts KernelOk KernelRun KernelRun2 SchedFacts SchedUser SchedUser2 SchedUser3 SchedReach RuntimeFacts2 Safety
  RunFacts Nest NestSched NestBody Parallel ParKernel ParCpu ParTop ParGpu Text TextPrint TextParse TextName TextExpr TextStmt TextMono TextTop TextBind PropText SrcSem SrcFacts SrcSim SrcKernel.
Open Scope string_scope.
Open Scope Z_scope.
Open Scope list_scope.

(* the list holds the elements of array n, in row-major order *)
Definition shows (L : valg) (g : graph) (n : nat) (l : list (val L)) : Prop :=
  Z.of_nat (length l) = zprod (shape_of g n) /\
  forall idx, in_range (shape_of g n) idx -> exists v, t_at (den L g n) idx = Ok v /\ znth l (flat (shape_of g n) idx) = Some v.
(* the source text a backend generates for a Func, with the automatic schedule *)
Definition text_for (b : backend) (g : graph) (E : fenv) (key : string) (fd : func) (k : nat) (text : string) (k1 : nat) : Prop :=
  exists s, auto_schedule (is_gpu b) fd = Done s /\ t_codegen b g E (kernel_name key) (func_args (f_expr fd)) fd s k = Done (text, k1).

Lemma src_lang_ok b lm : lang_ok (src_lang b lm).
Proof. destruct b; [apply py_lang_ok|apply c_lang_ok|apply c_lang_ok]. Qed.

(* a kernel of an array, run on the true inputs *)
Section Value.
Context (L : lang) (HL : lang_ok L) (g : graph) (a : nat) (Hr : reach g) (Ha : valid g a) (Hm : mat_ok L g a).
Context (E : fenv) (fs : list nat) (Hcv : convert g a = Done (E, fs)) (f : nat) (fd : func) (Hf : In f fs) (Hfd : E f = Some fd).
(* what the kernel's expression computes on the true inputs *)
Lemma value_ctx : exists nd, kctx g E f fd nd /\ shape_of g f = n_shape nd /\ ltB L (zprod (n_shape nd)) /\
  (forall idx, in_range (n_shape nd) idx -> kval L g f fd nd (Fden L g) idx = Fden L g f idx) /\
  (forall idx, in_range (n_shape nd) idx -> kval L g f fd nd (Fden L g) idx <> Fault) /\
  forall x, In x (func_args (f_expr fd)) -> ltB L (zprod (shape_of g (arg_id x))).
Proof using HL Hr Ha Hm Hcv Hf Hfd.
  pose proof (converted_ns _ _ _ _ Hr Ha Hcv) as Hns. pose proof (reach_wf _ Hr) as Hw.
  pose proof (convert_inv L g a E fs HL Hr Ha Hns Hcv) as HSp.
  destruct (convert_kctx L g a E fs f HSp Hf) as (fd' & nd & Hfd' & HK). assert (fd' = fd) by congruence. subst fd'.
  pose proof (kc_nd _ _ _ _ _ HK) as Hnd. assert (Hsh : shape_of g f = n_shape nd) by (unfold shape_of; now rewrite Hnd).
  destruct Hm as [Hfits (D & HD)].
  assert (Hval : forall idx, in_range (n_shape nd) idx -> evalV L (shape_of g) (Fden L g) (n_dtype nd) (f_expr fd) (lenv f (n_shape nd) idx) = Fden L g f idx).
  { intros idx Hi. rewrite (evalV_dt L (shape_of g) (Fden L g) (n_dtype nd) D).
    - eapply cs_value; eauto.
    - exact (proj1 (cs_bufs _ _ _ _ _ HSp D f fd nd HD Hf Hfd Hnd)). }
  assert (Hkd : forall idx, in_range (n_shape nd) idx -> kval L g f fd nd (Fden L g) idx = Fden L g f idx).
  { intros idx Hi. unfold kval. rewrite Hval by assumption. unfold Fden. destruct (t_at (den L g f) idx) eqn:Ed; cbn; auto. f_equal. eapply den_coerced; eauto. apply (ok_idem _ HL). }
  exists nd. split; auto. split; auto. split; [exact (proj1 (Hfits _ _ (cs_cone _ _ _ _ _ HSp f Hf) Hnd))|]. split; auto. split.
  - intros idx Hi. rewrite Hkd by assumption. eapply den_nofault; eauto.
  - intros x Hxin. destruct (arg_node g Hw E f fd nd HK x Hxin) as (xd & X1 & _ & X2). rewrite X2. apply (Hfits (arg_id x) xd); auto. eapply (arg_cone L HL g Hr a Ha Hns E fs Hcv f fd Hf Hfd); eauto.
Qed.
Lemma cpu_value scoped gp s k kern k1 lo ls (m : store L) out : schedule_cpu (sched_init fd) = Done s -> codegen g E (func_args (f_expr fd)) fd s k = Done (kern, k1) ->
  length ls = length (func_args (f_expr fd)) -> ~ In lo ls -> m lo = Some out -> Z.of_nat (length out) = zprod (shape_of g f) ->
  (forall i x l, nth_error (func_args (f_expr fd)) i = Some x -> nth_error ls i = Some l -> exists vs, m l = Some vs /\ shows L g (arg_id x) vs) ->
  (forall idx, in_range (shape_of g f) idx -> t_at (den L g f) idx <> Raise) ->
  exists m' out' fl, run (bind_params (k_params kern) (lo :: ls)) (Kernel.exec L scoped gp (pty_of (k_params kern)) (k_body kern) [[]]) m = (m', OkO fl) /\
    (forall x, m' x = if Nat.eqb x lo then Some out' else m x) /\ shows L g f out'.
Proof using HL Hr Ha Hm Hcv Hf Hfd.
  intros Hsc HC Hlen Hlo Hml Hout Hin Hnr. destruct value_ctx as (nd & HK & Hsh & HB & Hkd & Hnf & HBx). pose proof (reach_wf _ Hr) as Hw.
  destruct (kernel_run L HL scoped gp g Hw E f fd nd HK HB (Fden L g) Hnf s k kern k1 lo ls m out Hsc HC Hlen Hlo Hml)
    as (m' & oc & out' & HR & Hm' & Hl' & Hoc).
  { now rewrite <- Hsh. }
  { intros i x l Hx Hl. assert (Hxin : In x (func_args (f_expr fd))) by (eapply nth_error_In; eauto). split; [auto|].
    destruct (Hin i x l Hx Hl) as (vs & V1 & V2). exists vs. split; auto. intros idx Hi. apply (proj2 V2 idx Hi). }
  destruct oc as [fl| |]; [|destruct Hoc as (idx & Hi & Hq); rewrite Hkd in Hq by auto; rewrite <- Hsh in Hi; now destruct (Hnr idx Hi)|contradiction].
  exists m', out', fl. split; auto. split; auto.
  split; [rewrite Hl', <- Hsh in *; lia|]. rewrite Hsh. intros idx Hi. destruct (Hoc idx Hi) as (v & H1 & H2). exists v. split; auto. rewrite Hkd in H1 by assumption. exact H1.
Qed.
Lemma gpu_value s k kern k1 lo ls (m : store L) out : (shape_of g f <> [] -> ltB L (last (shape_of g f) 0 + block_size)) ->
  schedule_gpu (sched_init fd) = Done s -> codegen g E (func_args (f_expr fd)) fd s k = Done (kern, k1) ->
  length ls = length (func_args (f_expr fd)) -> ~ In lo ls -> m lo = Some out -> Z.of_nat (length out) = zprod (shape_of g f) ->
  (forall i x l, nth_error (func_args (f_expr fd)) i = Some x -> nth_error ls i = Some l -> exists vs, m l = Some vs /\ shows L g (arg_id x) vs) ->
  (forall idx, in_range (shape_of g f) idx -> t_at (den L g f) idx <> Raise) ->
  let loc := bind_params (k_params kern) (lo :: ls) in
  loc NOut = Some lo /\
  (exists wss, Forall2 (does L (inp_of L loc m lo)) (gpu_threads L true s kern) wss /\ Permutation (map (pos L) (concat wss)) (zrange (zprod (shape_of g f))) /\
     Forall (fun w => fst (fst w) = NOut) (concat wss)) /\
  settles L loc (gpu_threads L true s kern) m (fun m' => exists out', (forall x, m' x = if Nat.eqb x lo then Some out' else m x) /\ shows L g f out').
Proof using HL Hr Ha Hm Hcv Hf Hfd.
  intros Hblk HS HC Hlen Hlo Hml Hout Hin Hnr loc. destruct value_ctx as (nd & HK & Hsh & HB & Hkd & Hnf & HBx). pose proof (reach_wf _ Hr) as Hw.
  assert (Hok : forall idx, in_range (n_shape nd) idx -> exists v, kval L g f fd nd (Fden L g) idx = Ok v).
  { intros idx Hi. pose proof (Hnf idx Hi) as Hn. rewrite Hkd in * by auto. rewrite <- Hsh in Hi. pose proof (Hnr idx Hi) as Hn'. unfold Fden in *. destruct (t_at (den L g f) idx); eauto; congruence. }
  assert (HPl : placed L g fd nd (Fden L g) kern lo ls m out).
  { split; auto. split; auto. split; auto. split; [now rewrite <- Hsh|]. intros i x l Hx Hl. assert (Hxin : In x (func_args (f_expr fd))) by (eapply nth_error_In; eauto). split; [auto|].
    destruct (Hin i x l Hx Hl) as (vs & V1 & V2). exists vs. split; auto. intros idx Hi. apply (proj2 V2 idx Hi). }
  destruct (gpu_launch L HL true g Hw E f fd nd HK HB ltac:(now rewrite <- Hsh) (Fden L g) Hok s k kern k1 lo ls m out HS HC HPl) as (HW & N & HSe).
  split; [destruct (kern_parts L HL g Hw E f fd nd HK (Fden L g) s k kern k1 lo ls m out HC HPl) as (? & ? & _ & _ & _ & _ & _ & Hl); exact Hl|].
  split; [now rewrite Hsh|]. exists N. intros n ts' m' Hst. destruct (HSe n ts' m' Hst) as (H1 & H2 & H3 & H4). split; auto. split; auto. split; auto.
  intros HF. destruct (H4 HF) as (out' & O1 & O2 & O3 & O4). exists out'. split.
  - intros x. destruct (Nat.eqb_spec x lo) as [->|]; auto.
  - split; [congruence|]. rewrite Hsh. intros idx Hi. destruct (O3 idx Hi) as (v & V1 & V2). exists v. rewrite Hkd in V1 by auto. auto.
Qed.
Lemma params_length s k kern k1 : codegen g E (func_args (f_expr fd)) fd s k = Done (kern, k1) -> length (k_params kern) = Datatypes.S (length (func_args (f_expr fd))).
Proof using HL Hr Ha Hcv Hf Hfd.
  intros HC. pose proof (converted_ns _ _ _ _ Hr Ha Hcv) as Hns. pose proof (reach_wf _ Hr) as Hw. pose proof (convert_inv L g a E fs HL Hr Ha Hns Hcv) as HSp.
  destruct (convert_kctx L g a E fs f HSp Hf) as (fd' & nd & Hfd' & HK). assert (fd' = fd) by congruence. subst fd'.
  destruct (codegen_ok g Hw E f fd nd HK s k) as (ps & c & v & k1' & HC' & Hps & _). rewrite HC in HC'. injection HC' as -> <-. cbn [k_params length]. f_equal.
  destruct (arg_params_ok g Hw E f fd nd HK (func_args (f_expr fd)) ltac:(auto) 0) as (ps' & E1 & E2 & _). rewrite Hps in E1. injection E1 as <-. congruence.
Qed.
End Value.

Section One.
Context (b : backend) (lm : libm).
Notation S := (src_lang b lm).
Context (g : graph) (a : nat) (Hr : reach g) (Ha : valid g a) (Hm : mat_ok S g a).
Context (E : fenv) (fs : list nat) (Hcv : convert g a = Done (E, fs)).
Context (f : nat) (fd : func) (Hf : In f fs) (Hfd : E f = Some fd).
Context (key : string) (Hkey : all_chars hex_digit key = true) (k : nat) (text : string) (k1 : nat) (HTx : text_for b g E key fd k text k1).
Context (p : source) (Hp : reads b text p) (Hsm : b = Python \/ small_source p = true).
Context (lo : nat) (ls : list nat) (m : mem S) (out : list (val S)).
Context (Hlen : length ls = length (func_args (f_expr fd))) (Hlo : ~ In lo ls) (Hml : m lo = Some out) (Hout : Z.of_nat (length out) = zprod (shape_of g f)).
Context (Hin : forall i x l, nth_error (func_args (f_expr fd)) i = Some x -> nth_error ls i = Some l -> exists vs, m l = Some vs /\ shows S g (arg_id x) vs).
Context (Hnr : forall idx, in_range (shape_of g f) idx -> t_at (den S g f) idx <> Raise).

Lemma text_computes : b <> CUDA ->
  exists m' out', calls S no_coord p (lo :: ls) m m' /\ (forall x, m' x = if Nat.eqb x lo then Some out' else m x) /\ shows S g f out'.
Proof.
  intros Hcpu. destruct HTx as (s & HS & HT).
  assert (Hsc : schedule_cpu (sched_init fd) = Done s) by (destruct b; try congruence; exact HS).
  assert (HKS : kernel_schedule g a E fd s) by (exists fs, f; repeat (split; auto); eapply auto_kreach; eauto).
  destruct (C40_text_means_program b g E _ fd s k key text k1 Hkey HT) as (kern & HC & _).
  destruct (cpu_value S (src_lang_ok b lm) g a Hr Ha Hm E fs Hcv f fd Hf Hfd (negb (is_py b)) (fun _ _ => 0) s k kern k1 lo ls m out Hsc HC Hlen Hlo Hml Hout Hin Hnr) as (m' & out' & fl & HR & Hm' & Hsw).
  exists m', out'. split; [|split; auto].
  assert (Hco : coord_of b (fun _ _ => 0) = no_coord) by (destruct b; try congruence; reflexivity). rewrite <- Hco.
  eapply text_calls; eauto; [destruct Hsm as [->|]; auto|]. cbn [length]. rewrite (params_length S (src_lang_ok b lm) g a Hr Ha E fs Hcv f fd Hf Hfd s k kern k1 HC). congruence.
Qed.

End One.

(* ------------------------------------------------------------------ CUDA *)
(* one after the other *)
Inductive chain {X M : Type} (R : X -> M -> M -> Prop) : list X -> M -> M -> Prop :=
| ch_nil m0 : chain R [] m0 m0
| ch_cons c cs m0 m1 m2 : R c m0 m1 -> chain R cs m1 m2 -> chain R (c :: cs) m0 m2.
(* the threads with the given coordinates, one after the other *)
Definition launch (S : slang) (p : source) (ls : list nat) : list (list Z) -> mem S -> mem S -> Prop := chain (fun c => calls S (cuda_coord (gp_of c)) p ls).
Lemma launch_det S p ls cs m m1 m2 : launch S p ls cs m m1 -> launch S p ls cs m m2 -> m1 = m2.
Proof.
  intros H. revert m2. induction H as [m0|c cs m0 m1 m3 H1 _ IH]; intros m2 G; inversion G as [|? ? ? m4 ? G1 G2]; subst; auto. apply IH. pose proof (calls_det _ _ _ _ _ _ _ H1 G1) as ->. exact G2.
Qed.
Lemma Forall2_impl_in {A B} (P Q : A -> B -> Prop) l1 l2 : (forall x y, In x l1 -> P x y -> Q x y) -> Forall2 P l1 l2 -> Forall2 Q l1 l2.
Proof. intros H HF. induction HF; constructor; [apply H; auto; now left|apply IHHF; intros; apply H; auto; now right]. Qed.

Lemma run_psteps {A} (L : lang) loc (t1 t2 : list (Kernel.prog L A)) q : forall (m0 m1 : store L) y, run loc q m0 = (m1, OkO y) -> exists n, psteps L loc n (t1 ++ q :: t2, m0) (t1 ++ PRet y :: t2, m1).
Proof.
  assert (Hn : forall x, nth_error (t1 ++ x :: t2) (length t1) = Some x) by (intros x; rewrite nth_error_app2 by lia; now rewrite Nat.sub_diag).
  induction q as [y'| | |n i kk IH|n i v kk IH]; intros m0 m1 y HR; cbn [run] in HR; try discriminate.
  - injection HR as <- <-. exists 0%nat. constructor.
  - destruct (loc n) as [bb|] eqn:El; [|discriminate]. destruct (m0 bb) as [l|] eqn:Em; [|discriminate]. destruct (znth l i) as [v|] eqn:Ez; [|discriminate].
    destruct (IH v m0 m1 y HR) as (n0 & H). exists (Datatypes.S n0). eapply pss_S; [|exact H]. rewrite <- (upd_nth_split t1 t2 (PRd n i kk) (kk v)). eapply ps_rd; eauto.
  - destruct (loc n) as [bb|] eqn:El; [|discriminate]. destruct (m0 bb) as [l|] eqn:Em; [|discriminate]. destruct (zupd l i v) as [l'|] eqn:Ez; [|discriminate].
    destruct (IH (sset m0 bb l') m1 y HR) as (n0 & H). exists (Datatypes.S n0). eapply pss_S; [|exact H]. rewrite <- (upd_nth_split t1 t2 (PWr n i v kk) kk). eapply ps_wr; eauto.
Qed.
Lemma psteps_trans {A} (L : lang) loc n1 n2 (x y z : list (Kernel.prog L A) * store L) : psteps L loc n1 x y -> psteps L loc n2 y z -> psteps L loc (n1 + n2) x z.
Proof. induction 1; cbn; auto. intros H2. econstructor; eauto. Qed.

(* threads that only write the output, one after the other in any order *)
Section Seq.
Context (L : lang) {A : Type} (loc : name -> option nat) (lo : nat) (Hlo : loc NOut = Some lo) (thr : list Z -> Kernel.prog L A) (all : list (list Z)) (Hnd : NoDup all).
Context (m : store L) (out : list (val L)) (Hm : m lo = Some out).
Context (Hev : forall c, In c all -> exists w y, KernFacts.ev (inp_of L loc m lo) (thr c) = (w, OkO y) /\ out_writes L (Z.of_nat (length out)) w).
Definition at_out (m1 : store L) (o : list (val L)) : Prop := length o = length out /\ forall x, m1 x = if Nat.eqb x lo then Some o else m x.
Definition J (cs : list (list Z)) (ts : list (Kernel.prog L A)) : Prop := Forall2 (fun c q => (In c cs /\ q = thr c) \/ (~ In c cs /\ exists y, q = PRet y)) all ts.
Lemma one_thread c m1 o : In c all -> at_out m1 o -> exists m2 o2 y, run loc (thr c) m1 = (m2, OkO y) /\ at_out m2 o2.
Proof using Hlo Hev.
  intros Hc [H1 H2]. destruct (Hev c Hc) as (w & y & He & Hw).
  assert (He1 : KernFacts.ev (inp_of L loc m1 lo) (thr c) = (w, OkO y)).
  { rewrite <- He. apply ev_ext. intros n. unfold inp_of. destruct (loc n) as [bb|]; auto. destruct (Nat.eqb bb lo) eqn:E; auto. now rewrite H2, E. }
  assert (Hm1 : m1 lo = Some o) by now rewrite H2, Nat.eqb_refl.
  assert (Hw1 : out_writes L (Z.of_nat (length o)) w) by now rewrite H1.
  destruct (run_ev L loc lo (thr c) m1 o w (OkO y) Hlo Hm1 He1 ltac:(discriminate) Hw1) as (m2 & R & Hm2).
  exists m2, (apply_w L w o), y. split; auto. split.
  - rewrite <- H1. clear. unfold apply_w. revert o. induction w as [|[[n i] v] w IH]; intros o; cbn; auto. rewrite IH. apply RunFacts.upd_length.
  - intros x. rewrite Hm2, H2. destruct (Nat.eqb x lo); auto.
Qed.
Lemma seq_psteps : forall cs ts m1 o, NoDup cs -> (forall c, In c cs -> In c all) -> J cs ts -> at_out m1 o -> 
  forall (R : list Z -> store L -> store L -> Prop), (forall c m2 m3 y, In c all -> run loc (thr c) m2 = (m3, OkO y) -> R c m2 m3) ->
  exists n ts' m', psteps L loc n (ts, m1) (ts', m') /\ finished L ts' /\ chain R cs m1 m'.
Proof using Hlo Hev Hnd.
  induction cs as [|c cs IH]; intros ts m1 o HN Hall HJ Hat R HR.
  - exists 0%nat, ts, m1. split; [constructor|]. split; [|constructor]. unfold finished. clear - HJ. unfold J in HJ. induction HJ as [|c q cs' ts' H _ IH]; constructor; auto. destruct H as [[[] _]|[_ H]]; auto.
  - assert (Hc : In c all) by (apply Hall; now left). destruct (one_thread c m1 o Hc Hat) as (m2 & o2 & y & HRun & Hat2).
    apply in_split in Hc as (a1 & a2 & Ea). unfold J in HJ. rewrite Ea in HJ. apply Forall2_app_inv_l in HJ as (t1 & t2' & J1 & J2 & ->). inversion J2 as [|? q ? t2 Jq J3]; subst.
    assert (Hq : q = thr c) by (destruct Jq as [[_ H]|[H _]]; auto; exfalso; apply H; now left). subst q.
    destruct (run_psteps L loc t1 t2 (thr c) m1 m2 y HRun) as (n1 & S1).
    inversion HN as [|? ? Hnc HN']; subst. rewrite Ea in Hnd. apply NoDup_remove_2 in Hnd as Hcn.
    assert (HJ' : J cs (t1 ++ PRet y :: t2)).
    { unfold J. rewrite Ea. apply Forall2_app; [|constructor].
      - eapply Forall2_impl_in; [|exact J1]. intros c' q' Hc' [[Hi ->]|[Hi H]]; [left|right]; split; auto; [|intros G; apply Hi; now right].
        destruct Hi as [<-|]; auto. exfalso. apply Hcn. apply in_or_app. now left.
      - right. split; eauto.
      - eapply Forall2_impl_in; [|exact J3]. intros c' q' Hc' [[Hi ->]|[Hi H]]; [left|right]; split; auto; [|intros G; apply Hi; now right].
        destruct Hi as [<-|]; auto. exfalso. apply Hcn. apply in_or_app. now right. }
    destruct (IH (t1 ++ PRet y :: t2) m2 o2 HN' ltac:(intros; apply Hall; now right) HJ' Hat2 R HR) as (n2 & ts' & m' & S2 & F & G).
    exists (n1 + n2)%nat, ts', m'. split; [eapply psteps_trans; eauto|]. split; auto. econstructor; [|exact G]. eapply HR; eauto. rewrite Ea. apply in_or_app. right. now left.
Qed.
End Seq.

Section Cuda.
Context (lm : libm).
Notation S := (src_lang CUDA lm).
Context (g : graph) (a : nat) (Hr : reach g) (Ha : valid g a) (Hm : mat_ok S g a).
Context (E : fenv) (fs : list nat) (Hcv : convert g a = Done (E, fs)).
Context (f : nat) (fd : func) (Hf : In f fs) (Hfd : E f = Some fd).
Context (Hblk : shape_of g f <> [] -> ltB S (last (shape_of g f) 0 + block_size)).
Context (key : string) (Hkey : all_chars hex_digit key = true) (k : nat) (text : string) (k1 : nat) (s : schedule).
Context (HS : schedule_gpu (sched_init fd) = Done s) (HT : t_codegen CUDA g E (kernel_name key) (func_args (f_expr fd)) fd s k = Done (text, k1)).
Context (p : source) (Hp : reads CUDA text p) (Hsm : small_source p = true).
Context (lo : nat) (ls : list nat) (m : mem S) (out : list (val S)).
Context (Hlen : length ls = length (func_args (f_expr fd))) (Hlo : ~ In lo ls) (Hml : m lo = Some out) (Hout : Z.of_nat (length out) = zprod (shape_of g f)).
Context (Hin : forall i x l, nth_error (func_args (f_expr fd)) i = Some x -> nth_error ls i = Some l -> exists vs, m l = Some vs /\ shows S g (arg_id x) vs).
Context (Hnr : forall idx, in_range (shape_of g f) idx -> t_at (den S g f) idx <> Raise).

Lemma cuda_computes cs : Permutation cs (all_idx (launch_dims s)) ->
  exists m' out', launch S p (lo :: ls) cs m m' /\ (forall x, m' x = if Nat.eqb x lo then Some out' else m x) /\ shows S g f out'.
Proof.
  intros Hcs. pose proof (src_lang_ok CUDA lm) as HL.
  assert (HKS : kernel_schedule g a E fd s) by (exists fs, f; repeat (split; auto); apply (auto_kreach true fd s HS)).
  destruct (C40_text_means_program CUDA g E _ fd s k key text k1 Hkey HT) as (kern & HC & _).
  destruct (gpu_value S HL g a Hr Ha Hm E fs Hcv f fd Hf Hfd s k kern k1 lo ls m out Hblk HS HC Hlen Hlo Hml Hout Hin Hnr) as (Hloc & (wss & W1 & W2 & W3) & N & HSe).
  set (loc := bind_params (k_params kern) (lo :: ls)) in *. set (dims := launch_dims s) in *.
  set (thr := fun c => Kernel.exec S true (gp_of c) (pty_of (k_params kern)) (k_body kern) [[]]).
  assert (Hev : forall c, In c (all_idx dims) -> exists w y, KernFacts.ev (inp_of S loc m lo) (thr c) = (w, OkO y) /\ out_writes S (Z.of_nat (length out)) w).
  { intros c Hc. assert (Hi : In (thr c) (gpu_threads S true s kern)) by (apply in_map_iff; exists c; split; [reflexivity|exact Hc]).
    apply In_nth_error in Hi as (i & Hi). destruct (Forall2_nth _ _ _ _ _ W1 Hi) as (w & Hwi & y & Hy). exists w, y. split; auto.
    assert (Hc1 : forall q, In q w -> In q (concat wss)) by (intros q Hq; apply in_concat; exists w; split; auto; eapply nth_error_In; eauto).
    apply Forall_forall. intros [[n i0] v] Hq. rewrite Forall_forall in W3. split; [exact (W3 _ (Hc1 _ Hq))|].
    rewrite Hout. apply in_zrange. eapply Permutation_in; [exact W2|]. apply in_map_iff. exists (n, i0, v). auto. }
  assert (Hat : at_out S lo m out m out) by (split; auto; intros x; destruct (Nat.eqb_spec x lo); congruence).
  assert (HJ : J S thr (all_idx dims) cs (gpu_threads S true s kern)).
  { unfold J, gpu_threads. fold dims. assert (G : forall c, In c (all_idx dims) -> In c cs) by (intros c Hc; eapply Permutation_in; [symmetry; exact Hcs|auto]).
    revert G. generalize (all_idx dims). induction l as [|c l IH]; intros G; cbn [map]; constructor; [left; split; [apply G; now left|reflexivity]|apply IH; intros; apply G; now right]. }
  destruct (seq_psteps S loc lo Hloc thr (all_idx dims) (NoDup_all_idx dims) m out Hev cs (gpu_threads S true s kern) m out) with (R := fun c => calls S (cuda_coord (gp_of c)) p (lo :: ls)) as (n & ts' & m' & P1 & P2 & P3); auto.
  - eapply Permutation_NoDup; [symmetry; exact Hcs|apply NoDup_all_idx].
  - intros c Hc. eapply Permutation_in; eauto.
  - intros c m2 m3 y Hc HR. change (cuda_coord (gp_of c)) with (coord_of CUDA (gp_of c)). eapply text_calls; eauto.
    cbn [length]. rewrite (params_length S HL g a Hr Ha E fs Hcv f fd Hf Hfd s k kern k1 HC). congruence.
  - destruct (HSe _ _ _ P1) as (_ & _ & _ & HF). destruct (HF P2) as (out' & O1 & O2). exists m', out'. auto.
Qed.
End Cuda.
