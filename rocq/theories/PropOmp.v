(* Property C57: annotated user schedules in C: what the compiler accepts, and execution on threads. *)
From Coq Require Import Permutation String Ascii.
From Verif Require Import Base BaseFacts Util Lang Spec Graph Api Denote ArrayLit Reach Algo AlgoSem Kernel Sched Codegen Backends LangInst Prog
  ApiFacts AlgoConv AlgoConv2 AlgoFuse2 AlgoConvert AlgoConvert2 RunFacts SchedFacts KernelRun BackendFacts AlgoTop AlgoMore Nest NestSched Parallel ParCpu ParTop ParGpu
  PropAlgo PropPar SchedUser SchedUser2 SchedUser3 SchedReach PropSched Text TextPrint TextParse TextLex TextName TextExpr TextStmt TextRead TextMono TextTop PropText SchedPar Pragma.
Open Scope Z_scope.
Open Scope list_scope.

Lemma set_exec_inv s lv x s1 : set_exec s lv x = Done s1 -> s_splits s1 = s_splits s /\ forall l, In l (s_loops s1) -> ls_exec l = x \/ exists l0, In l0 (s_loops s) /\ ls_exec l0 = ls_exec l.
Proof.
  unfold set_exec. intros H. apply obind_done in H as (i & _ & H). destruct (nth_error (s_loops s) i) as [y|] eqn:Ey; [|discriminate]. injection H as <-. cbn [s_loops s_splits]. split; auto.
  intros l Hl. apply In_nth_error in Hl as [j Hj]. rewrite nth_error_upd in Hj. destruct (Nat.eqb j i).
  - destruct (nth_error (s_loops s) j); [|discriminate]. injection Hj as <-. now left.
  - right. exists l. split; auto. eapply nth_error_In; eauto.
Qed.
Lemma names_loops l : Forall is_loop (names l) -> Forall (fun x => is_loop (lv_name (ls_lv x))) l.
Proof. unfold names. induction l; cbn; inversion 1; subst; constructor; auto. Qed.
Lemma auto_sreach fd s : auto_schedule false fd = Done s -> sreach (sched_init fd) s /\ s_splits s = [] /\ forall l, In l (s_loops s) -> In (ls_exec l) [XSeq; XPar; XVec].
Proof.
  cbn [auto_schedule]. unfold schedule_cpu. set (s0 := sched_init fd).
  assert (H0 : forall l, In l (s_loops s0) -> In (ls_exec l) [XSeq; XPar; XVec]).
  { intros l Hl. unfold s0, sched_init in Hl. cbn in Hl. apply in_app_or in Hl as [Hl|Hl]; apply in_map_iff in Hl as (y & <- & _); now left. }
  assert (Hin : forall lv, In lv (spatial_loops s0) -> In lv (map ls_lv (s_loops s0))).
  { intros lv Hlv. unfold spatial_loops in Hlv. apply in_map_iff in Hlv as (l & <- & Hl). apply filter_In in Hl as [Hl _]. now apply in_map. }
  assert (Hkeep : forall s1 lv x, set_exec s0 lv x = Done s1 -> map ls_lv (s_loops s1) = map ls_lv (s_loops s0)).
  { intros s1 lv x H. unfold set_exec in H. apply obind_done in H as (i & _ & H). destruct (nth_error (s_loops s0) i) as [y|] eqn:Ey; [|discriminate]. injection H as <-. cbn. eapply map_upd_same; eauto. }
  destruct (spatial_loops s0) as [|lv r]; cbn [obind].
  - intros H. injection H as <-. split; [apply sr_refl|]. auto.
  - intros H. apply obind_done in H as (s1 & H1 & H). destruct (set_exec_inv _ _ _ _ H1) as [A1 A2].
    assert (S1 : sreach s0 s1) by (eapply sr_exec; [apply sr_refl| |exact H1]; apply Hin; now left).
    assert (E1 : forall l, In l (s_loops s1) -> In (ls_exec l) [XSeq; XPar; XVec]).
    { intros l Hl. destruct (A2 l Hl) as [->|(l0 & B1 & B2)]; [right; now left|]. rewrite <- B2. auto. }
    destruct r as [|lv2 r]; [injection H as <-; auto|]. destruct (set_exec_inv _ _ _ _ H) as [C1 C2]. split; [|split].
    + eapply sr_exec; [exact S1| |exact H]. rewrite (Hkeep _ _ _ H1). apply Hin. generalize lv2 r. clear. intros lv2 r. change (In (last (lv :: lv2 :: r) (mkLV NOut 0)) (lv :: lv2 :: r)).
      assert (G : forall r lv, In (last (lv :: r) (mkLV NOut 0)) (lv :: r)); [|apply G]. clear. induction r as [|y r IH]; intros lv; [now left|]. right. apply IH.
    + now rewrite C1, A1.
    + intros l Hl. destruct (C2 l Hl) as [->|(l0 & B1 & B2)]; [right; right; now left|]. rewrite <- B2. auto.
Qed.

(* ------------------------------------------------------------------ C57 *)
(* C57.  Let the scheduling calls - any sequence of split, reorder, parallel, vectorize, unroll ... on the
   schedule of any kernel of any array - produce schedule s, and let the Clang code generator produce a text for it.
   The text satisfies the compiler's rules for its loop directives (Pragma.v: OpenMP structured blocks and canonical
   loops, unroll counts) if and only if no loop is annotated parallel when a tail guard is emitted, and every unroll
   factor is between 1 and 2^31-1. *)
Theorem C57_clang_accepts_iff : forall g a E fs f fd s k key text k1 p, reach g -> valid g a -> convert g a = Done (E, fs) -> In f fs -> E f = Some fd ->
  sreach (sched_init fd) s -> all_chars hex_digit key = true ->
  t_codegen Clang g E (kernel_name key) (func_args (f_expr fd)) fd s k = Done (text, k1) -> reads Clang text p ->
  (clang_accepts p <->
   (forall l x, In l (s_loops s) -> ls_kind l = Spatial -> ls_exec l = XPar -> In x (s_splits s) -> sp_guard x = false) /\
   (forall l u, In l (s_loops s) -> ls_kind l = Spatial -> ls_exec l = XUnroll u -> 1 <= u < 2 ^ 31)).
Proof.
  intros g a E fs f fd s k key text k1 p Hr Ha Hcv Hf Hfd HS Hh HT Hp. pose proof (converted_ns _ _ _ _ Hr Ha Hcv) as Hns.
  destruct (C40_text_means_program Clang _ _ _ _ _ _ _ _ _ Hh HT) as (kern & HC & _ & HU). rewrite (HU p Hp).
  pose proof (convert_inv (py_lang no_libm) g a E fs (py_lang_ok _) Hr Ha Hns Hcv) as HSp.
  destruct (convert_kctx (py_lang no_libm) g a E fs f HSp Hf) as (fd' & nd & Hfd' & HK). assert (fd' = fd) by congruence. subst fd'.
  pose proof (sreach_inv _ _ HS (init_sinv _ _ _ _ _ HK)) as [_ HL].
  assert (HH : handled Clang (s_loops s) = true).
  { destruct (handled Clang (s_loops s)) eqn:HH; auto. exfalso. pose proof (t_codegen_no Clang g E (func_args (f_expr fd)) (kernel_name key) fd s k HH) as HN. rewrite HT in HN. destruct (arg_params g E (func_args (f_expr fd)) 0); discriminate. }
  rewrite (accepts_iff _ _ _ _ _ _ _ _ _ HC HH (names_loops _ HL)). split.
  - intros H. split.
    + intros l x Hl Hk Hx Hsp. specialize (H l Hl Hk). rewrite Hx in H. cbn in H. destruct (sp_guard x) eqn:Eg; auto. rewrite <- H. symmetry. apply existsb_exists. eauto.
    + intros l u Hl Hk Hx. specialize (H l Hl Hk). now rewrite Hx in H.
  - intros [H1 H2] l Hl Hk. destruct (ls_exec l) eqn:Ex; cbn; auto; [|now apply (H2 l)].
    destruct (existsb sp_guard (s_splits s)) eqn:Eg; auto. apply existsb_exists in Eg as (x & Hx & Hg). rewrite (H1 l x) in Hg by auto. discriminate.
Qed.
Print Assumptions C57_clang_accepts_iff.
(* the automatic schedule: always *)
Theorem C57_auto_accepted : forall g a E fs f fd k s kern k1 key text k2 p, reach g -> valid g a -> convert g a = Done (E, fs) -> In f fs -> E f = Some fd ->
  gen Clang g E fd k = Done (s, kern, k1) -> all_chars hex_digit key = true ->
  t_codegen Clang g E (kernel_name key) (func_args (f_expr fd)) fd s k = Done (text, k2) -> reads Clang text p -> clang_accepts p.
Proof.
  intros g a E fs f fd k s kern k1 key text k2 p Hr Ha Hcv Hf Hfd HG Hh HT Hp. destruct (gen_inv _ _ _ _ _ _ _ _ HG) as (HS & _).
  destruct (auto_sreach fd s HS) as (HR & Hsp & Hx). eapply C57_clang_accepts_iff; eauto. rewrite Hsp. split; [intros ? ? _ _ _ []|].
  intros l u Hl _ Hu. specialize (Hx l Hl). rewrite Hu in Hx. destruct Hx as [Hx|[Hx|[Hx|[]]]]; discriminate.
Qed.
Print Assumptions C57_auto_accepted.
(* Threads.  Take any kernel, any memory with buffers of the right sizes on which the automatically scheduled kernel ends
   normally in ms, and any legal user schedule without a tail guard: spatial loops split, loops reordered, any of
   them - at any depth, several at once - parallel, vectorized or unrolled.  Deal the single iterations of its loop
   nest to any number of threads, in any order inside a thread.  Every interleaving of the memory accesses is
   finite, free of data races, never stuck, and ends in exactly ms.
   PARTIAL: the legal schedules are those of C10 (each spatial loop split at most once, kinds not mixed); with a tail
   guard and a parallel loop the text is rejected by the compiler (above, and refuted below). *)
Theorem C57_parallel_schedule_partial : forall (L : lang) b g a E fs f fd k s kern k1 scoped gp lo ls (m ms : store L) fl cs su k' kern' k1' parts,
  lang_ok L -> b <> CUDA -> reach g -> valid g a -> fits L g a ->
  convert g a = Done (E, fs) -> In f fs -> E f = Some fd -> gen b g E fd k = Done (s, kern, k1) -> kernel_memory g f fd lo ls m ->
  run (bind_params (k_params kern) (lo :: ls)) (exec L scoped gp (pty_of (k_params kern)) (k_body kern) [[]]) m = (ms, OkO fl) ->
  ulegals (sched_init fd) cs -> urun (sched_init fd) cs = Done su -> no_tail su -> split_fits L su ->
  codegen g E (func_args (f_expr fd)) fd su k' = Done (kern', k1') -> Permutation (concat parts) (iterations su) ->
  settles L (bind_params (k_params kern') (lo :: ls)) (map (iter_thread L scoped gp (pty_of (k_params kern')) (k_body kern')) parts) m (fun m' => forall x, m' x = ms x).
Proof. intros; eapply user_threads; eauto using converted_ns. Qed.
Print Assumptions C57_parallel_schedule_partial.

Open Scope string_scope.
Open Scope list_scope.
(* split(i, 1); parallel(i__o); parallel(j); unroll(i__i, 4); reorder(i__i, j): nested parallel loops *)
Definition exCalls : list ucall := let o := mkLV (NLoop false 0 [true]) 2 in let i := mkLV (NLoop false 0 [false]) 1 in
  [USplit axI 1; UReorder [i; axJ]; UExec o XPar; UExec axJ XPar; UExec i (XUnroll 4)].
Example C57_nonvacuous : exists E fd s kern k1 su kern' k1' text p,
  reach exNeg /\ valid exNeg 1 /\ fits (py_lang no_libm) exNeg 1 /\
  convert exNeg 1 = Done (E, [1%nat]) /\ E 1%nat = Some fd /\ gen Python exNeg E fd 0 = Done (s, kern, k1) /\ kernel_memory exNeg 1 fd 0 [1%nat] exNegMem /\
  ulegals (sched_init fd) exCalls /\ urun (sched_init fd) exCalls = Done su /\ no_tail su /\ split_fits (py_lang no_libm) su /\
  codegen exNeg E (func_args (f_expr fd)) fd su 0 = Done (kern', k1') /\
  iterations su = [[0; 0; 0]; [0; 1; 0]; [0; 2; 0]; [1; 0; 0]; [1; 1; 0]; [1; 2; 0]] /\
  t_codegen Clang exNeg E (kernel_name "0a1b") (func_args (f_expr fd)) fd su 0 = Done (text, k1') /\ reads Clang text p /\ clang_accepts p /\
  text = join nl ["#include <stdint.h>"; "#include <math.h>"; "void kern_0a1b(int64_t* out, int64_t* buf_0) {";
    "    #pragma omp parallel for"; "    for (int i__o = 0; i__o < 2; i__o += 1) {";
    "        #pragma omp parallel for"; "        for (int j = 0; j < 3; j += 1) {";
    "            #pragma clang loop unroll_count(4)"; "            for (int i__i = 0; i__i < 1; i__i += 1) {";
    "                int64_t i = i__o * 1 + i__i;"; "                int64_t tmp0 = -(buf_0[0 + i * 3 + j * 1]);"; "                out[i * 3 + j * 1] = tmp0;";
    "            }"; "        }"; "    }"; "}"].
Proof.
  eexists _, _, _, _, _, _, _, _, _, _. split; [apply prog_reach|]. split; [vm_compute; lia|].
  split; [apply fits_all; vm_compute; reflexivity|]. split; [vm_compute; reflexivity|]. split; [vm_compute; reflexivity|]. split; [vm_compute; reflexivity|]. split.
  { split; [vm_compute; reflexivity|]. split; [intros [H|[]]; discriminate|]. split; [eexists; split; [reflexivity|vm_compute; reflexivity]|].
    intros [|i] x l H1 H2; cbn in H2; [|destruct i; discriminate]. injection H2 as <-. vm_compute in H1. injection H1 as <-.
    eexists. split; [reflexivity|vm_compute; reflexivity]. }
  split.
  { unfold exCalls. cbv zeta. cbn [ulegals_x]. split; [split; [lia|split; [left; reflexivity|exists 0%nat; reflexivity]]|]. intros s1 H1. vm_compute in H1. injection H1 as <-.
    split; [split; [repeat constructor; cbn; intuition discriminate|left; apply Forall_forall; intros y Hy; cbn in Hy; destruct Hy as [<-|[<-|[]]]; cbn; auto]|]. intros s2 H2. vm_compute in H2. injection H2 as <-.
    split; [split; [cbn; auto|exact I]|]. intros s3 H3. vm_compute in H3. injection H3 as <-. 
    split; [split; [cbn; auto|exact I]|]. intros s4 H4. vm_compute in H4. injection H4 as <-. 
    split; [split; [cbn; auto|exact I]|]. intros; exact I. }
  split; [vm_compute; reflexivity|]. split; [intros x [<-|[]]; reflexivity|]. split; [intros x [<-|[]]; vm_compute; reflexivity|].
  split; [vm_compute; reflexivity|]. split; [reflexivity|]. split; [vm_compute; reflexivity|]. split.
  { exists 80%nat. eexists. split; [vm_compute; reflexivity|]. vm_compute. reflexivity. }
  split; [|vm_compute; reflexivity].
  unfold clang_accepts. cbn [s_body]. constructor; [|constructor].
  apply ok_for. split; [intros d [<-|[]]; left; split; [reflexivity|]; split; [|reflexivity]; unfold canonical_loop; split; [now exists 0|]; split; [eexists _, 2; split; reflexivity|]; split; [reflexivity|]; split; [exists 1; split; [reflexivity|lia]|reflexivity]|]. constructor; [|constructor].
  apply ok_for. split; [intros d [<-|[]]; left; split; [reflexivity|]; split; [|reflexivity]; unfold canonical_loop; split; [now exists 0|]; split; [eexists _, 3; split; reflexivity|]; split; [reflexivity|]; split; [exists 1; split; [reflexivity|lia]|reflexivity]|]. constructor; [|constructor].
  apply ok_for. split; [|repeat constructor]. intros d [<-|[]]. right. right. exists "4", (Z.to_int 4). split; [reflexivity|]. split; [reflexivity|]. cbn. lia.
Qed.

(* split(j, 2); reorder(i, j__i, j__o); parallel(j__o): every call is accepted, the schedule satisfies the conditions of
   C10 (run sequentially, it computes the right values), the text is generated - and no compiler accepts it: the
   tail guard returns from inside the parallel loop *)
Theorem C57_guarded_parallel_refuted : exists g a E fs fd cs su text, reach g /\ valid g a /\ convert g a = Done (E, fs) /\ In a fs /\ E a = Some fd /\
  ulegals (sched_init fd) cs /\ urun (sched_init fd) cs = Done su /\ tail_ok su /\
  (exists m, try_schedule g a m cs = try_schedule g a m [] /\ try_schedule g a m cs = Some (Some (map PI [-1; -2; -3; -4; -5; -6]))) /\
  t_codegen Clang g E (kernel_name "0a1b") (func_args (f_expr fd)) fd su 0 = Done (text, 1%nat) /\
  (exists p, reads Clang text p) /\ forall p, reads Clang text p -> ~ clang_accepts p.
Proof.
  exists exNeg, 1%nat. eexists _, _, _, [USplit axJ 2; UReorder [axI; mkLV (NLoop false 1 [false]) 2; mkLV (NLoop false 1 [true]) 2]; UExec (mkLV (NLoop false 1 [true]) 2) XPar], _, _.
  split; [apply prog_reach|]. split; [vm_compute; lia|]. split; [vm_compute; reflexivity|]. split; [now left|]. split; [vm_compute; reflexivity|]. split.
  { cbn [ulegals_x]. split; [split; [lia|split; [right; left; reflexivity|exists 1%nat; reflexivity]]|]. intros s1 H1. vm_compute in H1. injection H1 as <-.
    split; [split; [repeat constructor; cbn; intuition discriminate|left; apply Forall_forall; intros y Hy; cbn in Hy; destruct Hy as [<-|[<-|[<-|[]]]]; cbn; auto]|]. intros s2 H2. vm_compute in H2. injection H2 as <-.
    split; [split; [cbn; auto|exact I]|]. intros; exact I. }
  split; [vm_compute; reflexivity|]. split; [intros x [<-|[]] _; eexists; reflexivity|].
  split; [exists exNegMem; split; vm_compute; reflexivity|].
  match goal with |- ?A /\ _ => assert (HT : A) by (vm_compute; reflexivity) end. split; [exact HT|].
  destruct (C40_text_means_program Clang _ _ _ _ _ _ "0a1b" _ _ eq_refl HT) as (kern & HC & HR & HU). split; [eauto|].
  intros p Hp HA. rewrite (HU p Hp) in HA.
  rewrite (accepts_iff _ _ _ _ _ _ (kernel_name "0a1b") _ _ HC) in HA; [|reflexivity|repeat constructor; exact I].
  discriminate (HA _ (or_introl eq_refl) eq_refl).
Qed.
Print Assumptions C57_guarded_parallel_refuted.
(* unroll(j, 0) and unroll(j, -1) are accepted by the call and rejected by the compiler *)
Theorem C57_unroll_refuted : exists g a E fs fd, reach g /\ valid g a /\ convert g a = Done (E, fs) /\ In a fs /\ E a = Some fd /\
  forall u, u <= 0 -> exists su text, urun (sched_init fd) [UExec axJ (XUnroll u)] = Done su /\
    t_codegen Clang g E (kernel_name "0a1b") (func_args (f_expr fd)) fd su 0 = Done (text, 1%nat) /\
    (exists p, reads Clang text p) /\ forall p, reads Clang text p -> ~ clang_accepts p.
Proof.
  exists exNeg, 1%nat. eexists _, _, _. split; [apply prog_reach|]. split; [vm_compute; lia|]. split; [vm_compute; reflexivity|]. split; [now left|]. split; [vm_compute; reflexivity|].
  intros u Hu. pose (su := mkS [mkLS (mkLV (NLoop false 0 []) 2) Spatial XSeq; mkLS axJ Spatial (XUnroll u)] []).
  match goal with |- context [t_codegen _ ?g ?E ?n ?args ?fd _ ?k] => 
     assert (HC : exists kern, codegen g E args fd su k = Done (kern, 1%nat)) by (cbn; eexists; reflexivity); destruct HC as (kern & HC);
     pose proof (t_codegen_eq Clang g E args n fd su k eq_refl) as HT; rewrite HC in HT; cbn [obind] in HT end.
  exists su. eexists. split; [reflexivity|]. split; [exact HT|].
  destruct (C40_text_means_program Clang _ _ _ _ _ _ "0a1b" _ _ eq_refl HT) as (kern' & HC' & HR & HU). split; [eauto|].
  intros p Hp HA. rewrite (HU p Hp) in HA.
  rewrite (accepts_iff _ _ _ _ _ _ (kernel_name "0a1b") _ _ HC') in HA; [|reflexivity|repeat constructor; exact I].
  specialize (HA _ (or_intror (or_introl eq_refl)) eq_refl). cbn in HA. lia.
Qed.
Print Assumptions C57_unroll_refuted.
