(* All kernels of an array, run as source texts. *)
From Coq Require Import String Ascii Permutation.
From Verif Require Import Base BaseFacts Util UtilFacts Lang Spec Graph Api Denote SpecFacts DenoteFacts Reach ApiFacts FrontSpec FrontFacts4 Algo AlgoSem AlgoConv AlgoConv2 AlgoFuse AlgoConvert AlgoConvert2 AlgoMore AlgoTop
  Kernel Sched Codegen Backends LangInst KernFacts RenderFacts KernelOk KernelRun KernelRun2 SchedFacts SchedUser SchedUser2 SchedUser3 SchedReach RuntimeFacts2 Safety
  RunFacts Nest NestSched NestBody Parallel ParKernel ParCpu ParTop ParGpu Text TextPrint TextParse TextName TextExpr TextStmt TextMono TextTop TextBind PropText SrcSem SrcFacts SrcSim SrcKernel SrcTop.
Open Scope string_scope.
Open Scope Z_scope.
Open Scope list_scope.

(* one call of a generated function: its source, the arrays passed, the threads of a CUDA launch *)
Record kcall := mkCall { c_src : source; c_arrays : list nat; c_threads : list (list Z) }.
(* the call made for array f: the text generated with the automatic schedule, read as a program; the
   output array first, then the arguments; array i is stored at location i *)
Definition call_for (b : backend) (g : graph) (E : fenv) (f : nat) (c : kcall) : Prop :=
  exists fd key k text k1 s, E f = Some fd /\ all_chars hex_digit key = true /\ auto_schedule (is_gpu b) fd = Done s /\
    t_codegen b g E (kernel_name key) (func_args (f_expr fd)) fd s k = Done (text, k1) /\ reads b text (c_src c) /\
    c_arrays c = f :: map arg_id (func_args (f_expr fd)) /\ c_threads c = all_idx (launch_dims s).
(* CUDA: the threads in some order *)
Definition call_runs (b : backend) (lm : libm) (c : kcall) (m m' : mem (src_lang b lm)) : Prop :=
  match b with
  | CUDA => exists cs, Permutation cs (c_threads c) /\ launch (src_lang b lm) (c_src c) (c_arrays c) cs m m'
  | _ => calls (src_lang b lm) no_coord (c_src c) (c_arrays c) m m'
  end.

Lemma call_value b lm g a E fs f fd key k text k1 s c m out : let S := src_lang b lm in
  reach g -> valid g a -> mat_ok S g a -> convert g a = Done (E, fs) -> In f fs -> E f = Some fd ->
  (b = CUDA -> shape_of g f <> [] -> ltB S (last (shape_of g f) 0 + block_size)) ->
  (forall idx, in_range (shape_of g f) idx -> t_at (den S g f) idx <> Raise) ->
  all_chars hex_digit key = true -> auto_schedule (is_gpu b) fd = Done s -> t_codegen b g E (kernel_name key) (func_args (f_expr fd)) fd s k = Done (text, k1) ->
  reads b text (c_src c) -> c_arrays c = f :: map arg_id (func_args (f_expr fd)) -> c_threads c = all_idx (launch_dims s) ->
  (b = Python \/ small_source (c_src c) = true) -> ~ In f (map arg_id (func_args (f_expr fd))) -> m f = Some out -> Z.of_nat (length out) = zprod (shape_of g f) ->
  (forall i x l, nth_error (func_args (f_expr fd)) i = Some x -> nth_error (map arg_id (func_args (f_expr fd))) i = Some l -> exists vs, m l = Some vs /\ shows S g (arg_id x) vs) ->
  (exists m', call_runs b lm c m m') /\ forall m', call_runs b lm c m m' -> exists out', (forall x, m' x = if Nat.eqb x f then Some out' else m x) /\ shows S g f out'.
Proof.
  intros S Hr Ha Hm Hcv Hf Hfd Hblk Hnr Hkey HS HT Hp Hca Hct Hsm Hlo Ho Hl Hin. set (ls := map arg_id (func_args (f_expr fd))) in *.
  assert (Hlen : length ls = length (func_args (f_expr fd))) by (unfold ls; now rewrite map_length).
  assert (HCPU : b <> CUDA -> (exists m', calls S no_coord (c_src c) (c_arrays c) m m') /\ forall m', calls S no_coord (c_src c) (c_arrays c) m m' -> exists out', (forall x, m' x = if Nat.eqb x f then Some out' else m x) /\ shows S g f out').
  { intros Hb. destruct (text_computes b lm g a Hr Ha Hm E fs Hcv f fd Hf Hfd key Hkey k text k1 (ex_intro _ s (conj HS HT)) (c_src c) Hp Hsm f ls m out Hlen Hlo Ho Hl Hin Hnr Hb) as (m1 & out1 & H1 & H2 & H3).
    rewrite <- Hca in H1. split; [eauto|]. intros m' H'. pose proof (calls_det _ _ _ _ _ _ _ H1 H') as <-. eauto. }
  destruct b; [apply HCPU; discriminate|apply HCPU; discriminate|]. clear HCPU.
  assert (HC : forall cs, Permutation cs (all_idx (launch_dims s)) -> exists m' out', launch S (c_src c) (f :: ls) cs m m' /\ (forall x, m' x = if Nat.eqb x f then Some out' else m x) /\ shows S g f out').
  { intros cs Hcs. eapply (cuda_computes lm g a Hr Ha Hm E fs Hcv f fd Hf Hfd (Hblk eq_refl) key Hkey k text k1 s HS HT); eauto. destruct Hsm as [H|H]; [discriminate|exact H]. }
  cbn [call_runs]. fold S. rewrite Hca, Hct. split.
  - destruct (HC _ (Permutation_refl _)) as (m1 & out1 & H1 & _). exists m1. eauto.
  - intros m' (cs & Hcs & H'). destruct (HC cs Hcs) as (m1 & out1 & H1 & H2). pose proof (launch_det _ _ _ _ _ _ _ H1 H') as <-. eauto.
Qed.

Section All.
Context (b : backend) (lm : libm).
Notation S := (src_lang b lm).
Context (g : graph) (a : nat) (ad : node) (Hr : reach g) (Had : nth_error g a = Some ad) (Hnc : is_const (n_op ad) = false) (Hm : mat_ok S g a).
Context (E : fenv) (fs : list nat) (Hcv : convert g a = Done (E, fs)).
Context (Hblk : b = CUDA -> forall f, In f fs -> shape_of g f <> [] -> ltB S (last (shape_of g f) 0 + block_size)).
Context (Hnr : forall f idx, In f fs -> in_range (shape_of g f) idx -> t_at (den S g f) idx <> Raise).
Let Ha : valid g a. Proof. apply nth_error_Some. congruence. Qed.

Definition stored (m : mem S) (n : nat) : Prop := exists vs, m n = Some vs /\ shows S g n vs.
Definition room (m : mem S) (n : nat) : Prop := exists vs, m n = Some vs /\ Z.of_nat (length vs) = zprod (shape_of g n).
Definition P (m0 : mem S) (l : list nat) (m : mem S) : Prop :=
  (forall d, In d l -> stored m d) /\ (forall n nd, cone g a n -> nth_error g n = Some nd -> is_const (n_op nd) = true -> stored m n) /\
  (forall f, In f fs -> room m f) /\ forall x, ~ In x fs -> m x = m0 x.

Lemma nonconst f nd : In f fs -> nth_error g f = Some nd -> is_const (n_op nd) = false.
Proof using b lm Hr Ha Hnc Hcv Had.
  intros Hf Hn. pose proof (converted_ns _ _ _ _ Hr Ha Hcv) as Hns. pose proof (convert_inv S g a E fs (src_lang_ok b lm) Hr Ha Hns Hcv) as HSp.
  destruct (cs_keep _ _ _ _ _ HSp f Hf) as [->|(nd' & H1 & H2 & _)]; congruence.
Qed.
Lemma one_call m0 l1 f l2 c m : fs = l1 ++ f :: l2 -> call_for b g E f c -> (b = Python \/ small_source (c_src c) = true) -> P m0 l1 m ->
  (exists m', call_runs b lm c m m') /\ forall m', call_runs b lm c m m' -> P m0 (l1 ++ [f]) m'.
Proof using Hr Ha Hm Hcv Hnc Had Hblk Hnr.
  intros Efs (fd & key & k & text & k1 & s & Hfd & Hkey & HS & HT & Hp & Hca & Hct) Hsm (P1 & P2 & P3 & P4).
  assert (Hf : In f fs) by (rewrite Efs; apply in_or_app; right; now left).
  pose proof (converted_ns _ _ _ _ Hr Ha Hcv) as Hns. pose proof (convert_inv S g a E fs (src_lang_ok b lm) Hr Ha Hns Hcv) as HSp.
  destruct (convert_kctx S g a E fs f HSp Hf) as (fd' & nd & Hfd' & HK). assert (fd' = fd) by congruence. subst fd'. pose proof (kc_nd _ _ _ _ _ HK) as Hnd.
  pose proof (nonconst f nd Hf Hnd) as Hncf.
  destruct (P3 f Hf) as (out & Ho & Hl). set (ls := map arg_id (func_args (f_expr fd))) in *.
  assert (Hlen : length ls = length (func_args (f_expr fd))) by (unfold ls; now rewrite map_length).
  assert (Hlo : ~ In f ls) by (intros Hi; apply in_map_iff in Hi as (x & Hx & Hi); exact (arg_neq g E f fd nd HK x Hncf Hi Hx)).
  assert (Hin : forall i x l, nth_error (func_args (f_expr fd)) i = Some x -> nth_error ls i = Some l -> exists vs, m l = Some vs /\ shows S g (arg_id x) vs).
  { intros i x l Hx Hl'. unfold ls in Hl'. rewrite nth_error_map, Hx in Hl'. injection Hl' as <-. assert (Hxin : In x (func_args (f_expr fd))) by (eapply nth_error_In; eauto).
    pose proof (arg_cone S (src_lang_ok b lm) g Hr a Ha Hns E fs Hcv f fd Hf Hfd x HSp Hxin) as HC.
    destruct (arg_const_or_before g E f fd nd HK x Hxin) as [[(xd & X1 & X2) _]|Hlt].
    - apply (P2 _ xd); auto.
    - pose proof Hxin as Hx2. apply (in_args g f) in Hx2. destruct x as [n|d]; cbn [arg_id] in *.
      + destruct (wff_bufs _ _ _ _ _ _ (kc_wff g E f fd nd HK) Hx2) as (xd & X1 & X2). apply (P2 _ xd); auto.
      + apply P1. exact (cs_topo _ _ _ _ _ HSp l1 f l2 Efs fd Hfd d Hx2). }
  destruct (call_value b lm g a E fs f fd key k text k1 s c m out Hr Ha Hm Hcv Hf Hfd (fun H => Hblk H f Hf) (fun idx => Hnr f idx Hf) Hkey HS HT Hp Hca Hct Hsm Hlo Ho Hl Hin) as (HX & HY).
  split; auto. intros m' Hm'. destruct (HY m' Hm') as (out' & Hx & Hs).
  assert (Hst : forall n, stored m n -> n <> f -> stored m' n) by (intros n (vs & V1 & V2) Hne; exists vs; split; auto; rewrite Hx; destruct (Nat.eqb_spec n f); congruence).
  split; [|split; [|split]].
  - intros d Hd. apply in_app_or in Hd as [Hd|[<-|[]]].
    + destruct (Nat.eq_dec d f) as [->|Hne]; [exists out'; rewrite Hx, Nat.eqb_refl; auto|auto].
    + exists out'. rewrite Hx, Nat.eqb_refl. auto.
  - intros n nd' Hc Hn Hi. apply Hst; [eauto|]. intros ->. congruence.
  - intros d Hd. destruct (P3 d Hd) as (vs & V1 & V2). unfold room. rewrite Hx. destruct (Nat.eqb_spec d f) as [->|]; eauto. exists out'. split; auto. apply Hs.
  - intros x Hxn. rewrite Hx. destruct (Nat.eqb_spec x f) as [->|]; auto. contradiction.
Qed.
Lemma all_calls m0 : forall l2 cs l1 m, fs = l1 ++ l2 -> Forall2 (call_for b g E) l2 cs -> Forall (fun c => b = Python \/ small_source (c_src c) = true) cs -> P m0 l1 m ->
  (exists m', chain (call_runs b lm) cs m m') /\ forall m', chain (call_runs b lm) cs m m' -> P m0 fs m'.
Proof using Hr Ha Hm Hcv Hnc Had Hblk Hnr.
  induction l2 as [|f l2 IH]; intros cs l1 m Efs HF HS HP; inversion HF as [|? c ? cs' H1 H2]; subst cs.
  - rewrite app_nil_r in Efs. subst l1. split; [exists m; constructor|]. intros m' H'. inversion H'; subst. exact HP.
  - inversion HS as [|? ? S1 S2]; subst. destruct (one_call m0 l1 f l2 c m Efs H1 S1 HP) as ((m1 & C1) & HY).
    assert (Efs' : fs = (l1 ++ [f]) ++ l2) by (rewrite <- app_assoc; exact Efs). split.
    + destruct (IH cs' (l1 ++ [f]) m1 Efs' H2 S2 (HY m1 C1)) as ((m2 & C2) & _). exists m2. econstructor; eauto.
    + intros m' H'. inversion H' as [|? ? ? m2 ? C2 C3]; subst. destruct (IH cs' (l1 ++ [f]) m2 Efs' H2 S2 (HY m2 C2)) as (_ & HZ). eauto.
Qed.
Lemma array_runs m0 cs : Forall2 (call_for b g E) fs cs -> Forall (fun c => b = Python \/ small_source (c_src c) = true) cs ->
  (forall n nd, cone g a n -> nth_error g n = Some nd -> is_const (n_op nd) = true -> stored m0 n) -> (forall f, In f fs -> room m0 f) ->
  (exists m', chain (call_runs b lm) cs m0 m') /\
  forall m', chain (call_runs b lm) cs m0 m' -> (forall f, In f fs -> stored m' f) /\ forall x, ~ In x fs -> m' x = m0 x.
Proof using Hr Ha Hm Hcv Hnc Had Hblk Hnr.
  intros HF HS HC HR. destruct (all_calls m0 fs cs [] m0 eq_refl HF HS) as (HX & HY).
  { split; [intros d []|]. split; auto. }
  split; auto. intros m' H'. destruct (HY m' H') as (Q1 & _ & _ & Q4). auto.
Qed.
End All.
