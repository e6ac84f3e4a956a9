(* Properties C39, C40, C43: the generated source text. *)
From Coq Require Import Permutation String Ascii.
From Verif Require Import Base BaseFacts Util Lang Spec Graph Api Reach Prog Algo AlgoSem AlgoConv AlgoConvert2 AlgoTop AlgoMore Kernel Sched Codegen Backends LangInst KernelRun
  SchedUser SchedUser2 SchedUser3 SchedReach PropAlgo PropSched
  Text TextPrint TextParse TextLex TextName TextExpr TextStmt TextRead TextMono TextTop TextBind.
Open Scope string_scope.
Open Scope Z_scope.
Open Scope list_scope.

(* kernel names: kern_ and hexadecimal digits of the cache key; materialize.py:57, 109 *)
Definition hex_digit (c : ascii) : bool := is_digit c || in_codes 97 102 c.
Definition kernel_name (key : string) : string := "kern_" +++ substring 0 16 key.
Lemma substring_chars p n : forall s, all_chars p s = true -> all_chars p (substring 0 n s) = true.
Proof. induction n as [|n IH]; intros [|c s]; cbn; auto. rewrite !andb_true_iff. intros [H1 H2]. auto. Qed.
Lemma hex_id c : hex_digit c = true -> id_char c = true.
Proof.
  unfold hex_digit, id_char, id_start, in_codes. rewrite !orb_true_iff, !andb_true_iff, !N.leb_le. intros [H|[H1 H2]]; [now right|]. left. left. left. split; [auto|]. lia.
Qed.
Lemma kernel_name_ok b key : all_chars hex_digit key = true -> kname_ok b (kernel_name key).
Proof.
  intros H. unfold kname_ok, kernel_name. split.
  - cbn. apply (all_imp hex_digit); [apply hex_id|]. now apply substring_chars.
  - assert (HW : forall l, forallb (fun s => negb (begins "kern_" s)) l = true -> mem ("kern_" +++ substring 0 16 key) l = false).
    { intros l HL. destruct (mem ("kern_" +++ substring 0 16 key) l) eqn:Em; auto. unfold mem in Em. apply existsb_exists in Em as (s & Hs & Em). apply String.eqb_eq in Em. subst s.
      rewrite forallb_forall in HL. specialize (HL _ Hs). cbn in HL. discriminate. }
    unfold kws. destruct (is_py b); apply HW; reflexivity.
Qed.

(* ------------------------------------------------------------------ C40 *)
(* C40.  Let the code generator of any backend produce a source text for any Func, with any schedule, and the
   name kern_<hash>.  The text, read with the lexical, precedence and block rules of the language
   (TextParse.v), is a program; there is only one way to read it; and it is the program meant: the operation
   trees, statements, loops, loop annotations, parameters and declared types of the kernel (source_of). *)
Theorem C40_text_means_program : forall b g E inputs f s k key text k1,
  all_chars hex_digit key = true -> t_codegen b g E (kernel_name key) inputs f s k = Done (text, k1) ->
  exists kern, codegen g E inputs f s k = Done (kern, k1) /\ reads b text (source_of b (kernel_name key) kern) /\
    forall p, reads b text p -> p = source_of b (kernel_name key) kern.
Proof. intros b g E inputs f s k key text k1 Hh HT. eapply text_reads; eauto. now apply kernel_name_ok. Qed.
Print Assumptions C40_text_means_program.
(* and the text exists: for every kernel of every array, with the automatic schedule of the backend *)
Theorem C40_text_exists : forall b g a E fs f fd k key, reach g -> valid g a -> convert g a = Done (E, fs) -> In f fs -> E f = Some fd ->
  forall s kern k1, gen b g E fd k = Done (s, kern, k1) -> exists text, t_codegen b g E (kernel_name key) (func_args (f_expr fd)) fd s k = Done (text, k1).
Proof.
  intros b g a E fs f fd k key Hr Ha Hcv Hf Hfd s kern k1 HG. pose proof (converted_ns _ _ _ _ Hr Ha Hcv) as Hns. unfold gen in HG. apply obind_done in HG as (s' & HS & HG).
  destruct (forallb (fun l => handles b (ls_exec l)) (filter is_spatial (s_loops s'))) eqn:HH; [|discriminate].
  apply obind_done in HG as ([kern' k'] & HC & HG). injection HG as <- <- <-. rewrite t_codegen_eq by exact HH. rewrite HC. cbn [obind]. eauto.
Qed.
Print Assumptions C40_text_exists.
(* the reading depends on precedence: "a + b * c" is not (a + b) * c, and parentheses are needed *)
Definition prec_text : string :=
  join nl ["#include <stdint.h>"; "#include <math.h>"; "void kern_0(double* out, double* buf_0) {"; "    double tmp0 = buf_0[0 + i * 3] + buf_0[1] * buf_0[2];"; "}"].
Definition prec_source : source := mkSrc ["#include <stdint.h>"; "#include <math.h>"] [] "kern_0" [("double", "out"); ("double", "buf_0")]
  [SDecl "double" "tmp0" (SBin "+" (SIndex (SVar "buf_0") (SBin "+" (SInt 0) (SBin "*" (SVar "i") (SInt 3))))
                                   (SBin "*" (SIndex (SVar "buf_0") (SInt 1)) (SIndex (SVar "buf_0") (SInt 2))))].
Example C40_precedence_matters : reads Clang prec_text prec_source.
Proof. exists 60%nat. eexists. split; [vm_compute; reflexivity|]. vm_compute. reflexivity. Qed.
(* a concrete text: the kernel of C40_nonvacuous, as the Clang and the CUDA generators print it *)
Definition exText : graph := Prog.prog [CFull [2; 3] (NInt 1); CFull [3] (NInt 2); CBroadcastTo 1 [2; 3]; CBinary BAdd 0 2; CSum 3 (Some [1]) false].
Definition text_of (b : backend) (g : graph) (a : nat) : option string :=
  match convert g a with
  | Done (E, _) => match E a with
    | Some fd => match auto_schedule (is_gpu b) fd with
      | Done s => match t_codegen b g E (kernel_name "0a1b") (func_args (f_expr fd)) fd s 0 with Done (t, _) => Some t | _ => None end
      | _ => None end
    | None => None end
  | _ => None end.
Example C40_nonvacuous_clang : text_of Clang exText 4 = Some (join nl
  ["#include <stdint.h>"; "#include <math.h>"; "void kern_0a1b(int64_t* out, int64_t* buf_0, int64_t* buf_1) {";
   "    #pragma omp parallel for"; "    for (int i = 0; i < 2; i += 1) {"; "        int64_t acc = 0;"; "        for (int ri = 0; ri < 3; ri += 1) {";
   "            int64_t tmp0 = buf_0[0 + i * 3 + ri * 1] + buf_1[0 + ri * 1];"; "            acc = acc + tmp0;"; "        }"; "        out[i * 1] = acc;"; "    }"; "}"]).
Proof. vm_compute. reflexivity. Qed.
Example C40_nonvacuous_cuda : text_of CUDA exText 4 = Some (join nl
  ["#include <stdint.h>"; "#include <math.h>"; "extern " +++ quote +++ "C" +++ quote +++ " __global__ void kern_0a1b(int64_t* out, int64_t* buf_0, int64_t* buf_1) {";
   "    int64_t i__o = blockIdx.x;"; "    int64_t i__i = threadIdx.x;"; "    int64_t i = i__o * 256 + i__i;"; "    if ((2 <= i)) {"; "        return;"; "    }";
   "    int64_t acc = 0;"; "    for (int ri = 0; ri < 3; ri += 1) {";
   "        int64_t tmp0 = buf_0[0 + i * 3 + ri * 1] + buf_1[0 + ri * 1];"; "        acc = acc + tmp0;"; "    }"; "    out[i * 1] = acc;"; "}"]).
Proof. vm_compute. reflexivity. Qed.
Example C40_nonvacuous_python : text_of Python exText 4 = Some (join nl
  ["import math"; "def kern_0a1b(out, buf_0, buf_1):"; "    for i in range(0, 2, 1):"; "        acc = 0"; "        for ri in range(0, 3, 1):";
   "            tmp0 = buf_0[0 + i * 3 + ri * 1] + buf_1[0 + ri * 1]"; "            acc = acc + tmp0"; "        "; "        out[i * 1] = acc"; "    "; ""]).
Proof. vm_compute. reflexivity. Qed.
(* without the parentheses that the code generator puts around a unary minus operand, the reading would change *)
Example C40_grouping_is_visible : exists t1 t2, t1 <> t2 /\ p_expr c_levels c_keywords 20 c_levels [TId "a"; TOp "-"; TId "b"; TOp "-"; TId "c"] = Some (t1, []) /\
  p_expr c_levels c_keywords 20 c_levels [TId "a"; TOp "-"; TOp "("; TId "b"; TOp "-"; TId "c"; TOp ")"] = Some (t2, []).
Proof. eexists _, _. split; [|split; vm_compute; reflexivity]. discriminate. Qed.

(* ------------------------------------------------------------------ C39 *)
(* schedules of a kernel of an array: any calls that split spatial loops, reorder loops of one kind, annotate *)
Definition kernel_schedule (g : graph) (a : nat) (E : fenv) (fd : func) (s : schedule) : Prop :=
  exists fs f, reach g /\ valid g a /\ convert g a = Done (E, fs) /\ In f fs /\ E f = Some fd /\ kreach (sched_init fd) s.
Lemma kernel_schedule_ctx g a E fd s : kernel_schedule g a E fd s -> exists f nd, kctx g E f fd nd /\ kreach (sched_init fd) s.
Proof.
  intros (fs & f & Hr & Ha & Hcv & Hf & Hfd & HS). pose proof (converted_ns _ _ _ _ Hr Ha Hcv) as Hns.
  pose proof (convert_inv (py_lang no_libm) g a E fs (py_lang_ok _) Hr Ha Hns Hcv) as HSp.
  destruct (convert_kctx (py_lang no_libm) g a E fs f HSp Hf) as (fd' & nd & Hfd' & HK). assert (fd' = fd) by congruence. subst fd'. eauto.
Qed.
(* C39.  Different names of a kernel are different strings; and in every kernel of every array, with any such
   schedule, the printed parameters, loop variables, GPU coordinates, split variables, accumulator, reduction
   variables and temporaries - everything the kernel declares - are pairwise distinct. *)
Theorem C39_printed_names_distinct : forall n m, pname n = pname m -> n = m.
Proof. exact pname_inj. Qed.
Print Assumptions C39_printed_names_distinct.
Theorem C39_no_name_clash : forall g a E fd s k kern k1, kernel_schedule g a E fd s ->
  codegen g E (func_args (f_expr fd)) fd s k = Done (kern, k1) -> NoDup (map pname (map fst (k_params kern) ++ binders (k_body kern))).
Proof. intros g a E fd s k kern k1 HS HC. destruct (kernel_schedule_ctx _ _ _ _ _ HS) as (f & nd & HK & HR). apply NoDup_pname. eapply kernel_names; eauto. Qed.
Print Assumptions C39_no_name_clash.
(* the automatic schedules of all backends are among them *)
Theorem C39_automatic : forall b g a E fs f fd k s kern k1, reach g -> valid g a -> convert g a = Done (E, fs) -> In f fs -> E f = Some fd ->
  gen b g E fd k = Done (s, kern, k1) -> kernel_schedule g a E fd s /\ NoDup (map pname (map fst (k_params kern) ++ binders (k_body kern))).
Proof.
  intros b g a E fs f fd k s kern k1 Hr Ha Hcv Hf Hfd HG. pose proof (converted_ns _ _ _ _ Hr Ha Hcv) as Hns. unfold gen in HG. apply obind_done in HG as (s' & HS & HG).
  destruct (forallb (fun l => handles b (ls_exec l)) (filter is_spatial (s_loops s'))) eqn:HH; [|discriminate].
  apply obind_done in HG as ([kern' k'] & HC & HG). injection HG as <- <- <-. assert (HK : kernel_schedule g a E fd s') by (exists fs, f; repeat (split; auto); eapply auto_kreach; eauto).
  split; auto. eapply C39_no_name_clash; eauto.
Qed.
Print Assumptions C39_automatic.
(* the same, read off the source text.  C and CUDA: the parameters and everything declared anywhere in the
   function body are pairwise distinct, so no declaration shadows or redeclares another. *)
Theorem C39_c_source : forall b g a E fd s k key text k1 p, b <> Python -> kernel_schedule g a E fd s -> all_chars hex_digit key = true ->
  t_codegen b g E (kernel_name key) (func_args (f_expr fd)) fd s k = Done (text, k1) -> reads b text p ->
  NoDup (map snd (s_params p) ++ flat_map c_declares (s_body p)).
Proof.
  intros b g a E fd s k key text k1 p Hb HS Hh HT HR. destruct (C40_text_means_program _ _ _ _ _ _ _ _ _ _ Hh HT) as (kern & HC & _ & HU). rewrite (HU _ HR). cbn [source_of s_params s_body].
  rewrite c_declares_eq by (destruct b; [congruence|reflexivity|reflexivity]). rewrite map_map. unfold param_tree. cbn [snd].
  replace (map (fun x => pname (fst x)) (k_params kern)) with (map pname (map fst (k_params kern))) by now rewrite map_map. rewrite <- map_app. eapply C39_no_name_clash; eauto.
Qed.
Print Assumptions C39_c_source.
(* Python, where assignment declares: loop variables and parameters are pairwise distinct and never assigned *)
Theorem C39_python_source : forall g a E fd s k key text k1 p, kernel_schedule g a E fd s -> all_chars hex_digit key = true ->
  t_codegen Python g E (kernel_name key) (func_args (f_expr fd)) fd s k = Done (text, k1) -> reads Python text p ->
  NoDup (map snd (s_params p) ++ flat_map py_loops (s_body p)) /\
  forall x, In x (map snd (s_params p) ++ flat_map py_loops (s_body p)) -> ~ In x (flat_map py_assigns (s_body p)).
Proof.
  intros g a E fd s k key text k1 p HS Hh HT HR. destruct (C40_text_means_program _ _ _ _ _ _ _ _ _ _ Hh HT) as (kern & HC & _ & HU). rewrite (HU _ HR). cbn [source_of s_params s_body].
  rewrite py_loops_eq, py_assigns_eq, map_map. unfold param_tree. cbn [snd].
  replace (map (fun x => pname (fst x)) (k_params kern)) with (map pname (map fst (k_params kern))) by now rewrite map_map. rewrite <- map_app.
  destruct (kernel_schedule_ctx _ _ _ _ _ HS) as (f & nd & HK & HR'). pose proof (kernel_names _ _ _ _ _ _ _ _ _ HK HR' HC) as HN.
  pose proof (kreach_binv _ _ HR' (init_binv _ _ _ _ _ HK)) as HB.
  assert (HTd : tidy (k_body kern)) by (eapply codegen_tidy; [exact (proj2 (bv_inv _ HB))|exact HC]).
  assert (HP : forall n, In n (map fst (k_params kern)) -> param_name n).
  { intros n Hn. unfold codegen in HC. apply obind_done in HC as (ps & Ep & HC). apply obind_done in HC as ([[c v] kx] & _ & HC). injection HC as <- <-. cbn [k_params map fst] in Hn.
    destruct Hn as [<-|Hn]; [exact I|]. destruct (params_names_ok _ _ _ _ _ Ep) as [_ H2]. destruct (H2 n Hn) as (? & ? & -> & _). exact I. }
  rewrite (Permutation_app_head _ (binders_perm (k_body kern))), app_assoc in HN. split.
  - apply NoDup_pname. clear - HN. induction (map fst (k_params kern) ++ forvars (k_body kern)) as [|y l IH]; [constructor|]. cbn in HN. apply NoDup_cons_iff in HN as [H1 H2]. constructor; auto. intros Hi. apply H1, in_or_app. now left.
  - intros x Hx Hy. apply in_map_iff in Hx as (n & <- & Hn). apply in_map_iff in Hy as (m & Em & Hm). apply pname_inj in Em. subst m.
    apply tidy_sets in Hm; auto. destruct Hm as [Hm|Hm].
    + clear - HN Hn Hm. induction (map fst (k_params kern) ++ forvars (k_body kern)) as [|y l IH]; [destruct Hn|]. cbn in HN. apply NoDup_cons_iff in HN as [H1 H2].
      destruct Hn as [->|Hn]; [apply H1, in_or_app; now right|auto].
    + apply in_app_or in Hn as [Hn|Hn]; [specialize (HP _ Hn)|apply tidy_for in Hn; auto]; destruct n; cbn in *; auto.
Qed.
Print Assumptions C39_python_source.
(* no name is a keyword of the language, a library or function name the kernels use, or the kernel's own name *)
Definition used_words (b : backend) : list string :=
  if is_py b then ["math"; "range"; "pow"; "sin"; "cos"; "exp"; "log"; "sqrt"]
  else ["pow"; "sin"; "cos"; "exp"; "log"; "sqrt"; "int"; "int32_t"; "int64_t"; "float"; "double"; "blockIdx"; "threadIdx"; "extern"; "__global__"; "void"].
Theorem C39_no_reserved_word : forall b n key, mem (pname n) (kws b) = false /\ mem (pname n) (used_words b) = false /\ pname n <> kernel_name key.
Proof.
  intros b n key. split; [unfold kws; destruct (is_py b); [apply pname_py_kw|apply pname_c_kw]|]. split; [destruct b; now apply none_mem|].
  intros H. pose proof (pname_looks n) as HL. rewrite H in HL. unfold looks, kernel_name in HL. cbn in HL. discriminate.
Qed.
Print Assumptions C39_no_reserved_word.
(* PARTIAL cases: splitting a reduction loop declares its variable twice (the schedule API allows it) *)
Theorem C39_split_reduction_refuted : exists g a E fs fd r s1 o i kern k1, reach g /\ valid g a /\ convert g a = Done (E, fs) /\ E a = Some fd /\
  In r (map ls_lv (s_loops (sched_init fd))) /\ split (sched_init fd) r 2 = Done (s1, o, i) /\ codegen g E (func_args (f_expr fd)) fd s1 0 = Done (kern, k1) /\
  ~ NoDup (map pname (binders (k_body kern))).
Proof.
  exists exText, 4%nat. eexists _, _, _, (mkLV (NLoop true 0 []) 3), _, _, _, _, _. split; [apply prog_reach|]. split; [vm_compute; lia|].
  split; [vm_compute; reflexivity|]. split; [vm_compute; reflexivity|]. split; [vm_compute; auto|]. split; [vm_compute; reflexivity|]. split; [vm_compute; reflexivity|].
  intros HN.
  match type of HN with NoDup (map pname (binders ?c)) => set (cc := c) in HN end. 
  assert (Hc : map pname (binders cc) = ["i"; "ri"; "acc"; "ri"; "tmp0"]) by (vm_compute; reflexivity). rewrite Hc in HN.
  apply NoDup_cons_iff in HN as [_ HN]. apply NoDup_cons_iff in HN as [HN _]. apply HN. cbn; auto.
Qed.
Print Assumptions C39_split_reduction_refuted.
Example C39_nonvacuous : exists E fd s kern k1, kernel_schedule exText 4 E fd s /\ codegen exText E (func_args (f_expr fd)) fd s 0 = Done (kern, k1) /\
  map pname (map fst (k_params kern) ++ binders (k_body kern)) = ["out"; "buf_0"; "buf_1"; "i__o__o"; "i__o__i"; "i__i"; "i"; "i__o"; "acc"; "ri"; "tmp0"].
Proof.
  assert (HS : exists E fs fd s1 o i s2 o2 i2, convert exText 4 = Done (E, fs) /\ fs = [4%nat] /\ E 4%nat = Some fd /\ split (sched_init fd) (mkLV (NLoop false 0 []) 2) 4 = Done (s1, o, i) /\
    split s1 (mkLV (NLoop false 0 [true]) 1) 2 = Done (s2, o2, i2) /\ In (mkLV (NLoop false 0 []) 2) (spatial_loops (sched_init fd)) /\ In (mkLV (NLoop false 0 [true]) 1) (spatial_loops s1)).
  { eexists _, _, _, _, _, _, _, _, _. split; [vm_compute; reflexivity|]. split; [reflexivity|]. split; [vm_compute; reflexivity|]. split; [vm_compute; reflexivity|].
    split; [vm_compute; reflexivity|]. split; vm_compute; auto. }
  destruct HS as (E & fs & fd & s1 & o & i & s2 & o2 & i2 & Hc & Hfs & Hfd & H1 & H2 & I1 & I2).
  assert (HK : kernel_schedule exText 4 E fd s2).
  { exists fs, 4%nat. split; [apply prog_reach|]. split; [vm_compute; lia|]. split; [exact Hc|]. split; [rewrite Hfs; now left|]. split; [exact Hfd|].
    eapply kr_split; [eapply kr_split; [apply kr_refl|exact I1|exact H1]|exact I2|exact H2]. }
  vm_compute in Hc. injection Hc as <- <-. vm_compute in Hfd. injection Hfd as <-. vm_compute in H1. injection H1 as <- <- <-. vm_compute in H2. injection H2 as <- <- <-.
  eexists _, _, _, _, _. split; [exact HK|]. split; [vm_compute; reflexivity|]. vm_compute. reflexivity.
Qed.

(* ------------------------------------------------------------------ C43 *)
(* the annotations a backend's language has: GPU coordinates in CUDA only, threads and vectors on CPUs only *)
Definition supported (b : backend) (x : lexec) : Prop :=
  match x with
  | XSeq | XUnroll _ => True
  | XPar | XVec => b <> CUDA
  | XBlock _ | XThread _ => b = CUDA
  end.
Lemma handles_supported b x : handles b x = true <-> supported b x.
Proof. destruct b, x; cbn; split; intros; try congruence; auto. Qed.
(* C43.  Generating code for a schedule in which some spatial loop carries an annotation that the backend's
   language lacks raises, and generates nothing (RuntimeError, for a Func of which a kernel can be generated
   with some schedule); otherwise the annotation is never the reason for a failure:
   text is generated iff the kernel can be generated. *)
Theorem C43_unsupported_annotation_raises : forall b g E name inputs f s k l, In l (s_loops s) -> ls_kind l = Spatial -> ~ supported b (ls_exec l) ->
  (exists e, t_codegen b g E name inputs f s k = Throw e) /\
  ((exists s' k' kern k1, codegen g E inputs f s' k' = Done (kern, k1)) -> t_codegen b g E name inputs f s k = Throw RuntimeErr).
Proof.
  intros b g E name inputs f s k l Hl Hk Hs. assert (HH : handled b (s_loops s) = false).
  { unfold handled. apply not_true_is_false. intros HH. rewrite forallb_forall in HH. apply Hs, handles_supported, HH. apply filter_In. split; auto. unfold is_spatial. now rewrite Hk. }
  rewrite t_codegen_no by exact HH. split; [destruct (arg_params g E inputs 0); cbn [obind]; eauto|].
  intros (s' & k' & kern & k1 & HC). unfold codegen in HC. apply obind_done in HC as (ps & -> & _). reflexivity.
Qed.
Print Assumptions C43_unsupported_annotation_raises.
Theorem C43_supported_annotations : forall b g E name inputs f s k, (forall l, In l (s_loops s) -> ls_kind l = Spatial -> supported b (ls_exec l)) ->
  forall k1, (exists text, t_codegen b g E name inputs f s k = Done (text, k1)) <-> (exists kern, codegen g E inputs f s k = Done (kern, k1)).
Proof.
  intros b g E name inputs f s k H k1. assert (HH : handled b (s_loops s) = true).
  { unfold handled. apply forallb_forall. intros l Hl. apply filter_In in Hl as [Hl Hs]. apply handles_supported, H; auto. unfold is_spatial in Hs. destruct (ls_kind l); [reflexivity|discriminate]. }
  rewrite t_codegen_eq by exact HH. destruct (codegen g E inputs f s k) as [[kern k2]|]; cbn [obind]; split; intros [x Hx]; try discriminate; injection Hx as ?; subst; eauto.
Qed.
Print Assumptions C43_supported_annotations.
(* the automatic schedule of a backend never uses an annotation its language lacks *)
Theorem C43_automatic : forall b g a E fs f fd s, reach g -> valid g a -> convert g a = Done (E, fs) -> In f fs -> E f = Some fd ->
  auto_schedule (is_gpu b) fd = Done s -> forall l, In l (s_loops s) -> ls_kind l = Spatial -> supported b (ls_exec l).
Proof.
  intros b g a E fs f fd s Hr Ha Hcv Hf Hfd HA l Hl Hk. pose proof (converted_ns _ _ _ _ Hr Ha Hcv) as Hns. apply handles_supported.
  assert (HX : Forall (fun l => handles b (ls_exec l) = true) (s_loops s)); [|rewrite Forall_forall in HX; auto].
  assert (H0 : Forall (fun l => handles b (ls_exec l) = true) (s_loops (sched_init fd))).
  { unfold sched_init. cbn [s_loops]. apply Forall_app. split; apply Forall_forall; intros x Hx; apply in_map_iff in Hx as (y & <- & _); destruct b; reflexivity. }
  assert (HE : forall s1 lv x s2, handles b x = true -> Forall (fun l => handles b (ls_exec l) = true) (s_loops s1) -> set_exec s1 lv x = Done s2 -> Forall (fun l => handles b (ls_exec l) = true) (s_loops s2)).
  { intros s1 lv x s2 Hx HF HS. unfold set_exec in HS. apply obind_done in HS as (i & Hi & HS). destruct (nth_error (s_loops s1) i) as [y|] eqn:Ey; [|discriminate]. injection HS as <-. cbn [s_loops].
    apply Forall_forall. intros z Hz. apply In_nth_error in Hz as [j Hj]. rewrite Forall_forall in HF. destruct (Nat.eq_dec i j) as [->|Hne].
    - rewrite nth_error_upd_same in Hj by (apply nth_error_Some; congruence). injection Hj as <-. exact Hx.
    - rewrite nth_error_upd_other in Hj by auto. apply HF. eapply nth_error_In; eauto. }
  assert (HSp : forall s1 lv f s2 o i, Forall (fun l => handles b (ls_exec l) = true) (s_loops s1) -> split s1 lv f = Done (s2, o, i) -> Forall (fun l => handles b (ls_exec l) = true) (s_loops s2)).
  { intros s1 lv f0 s2 o i HF HS. unfold split in HS. destruct (f0 =? 0); [discriminate|]. destruct (index_of (lv_name lv) (s_loops s1)) as [j|]; [|discriminate]. destruct (nth_error (s_loops s1) j); [|discriminate].
    injection HS as <- _ _. cbn [s_loops app]. rewrite Forall_forall in HF. apply Forall_forall. intros x Hx. apply in_app_or in Hx as [Hx|[<-|[<-|Hx]]]; try (destruct b; reflexivity); apply HF.
    - rewrite <- (firstn_skipn j). apply in_or_app. now left.
    - rewrite <- (firstn_skipn (S j)). apply in_or_app. now right. }
  clear Hl Hk Hcv Hf Hfd. revert HA H0. unfold auto_schedule. generalize (sched_init fd) as s0. intros s0. destruct b; cbn [is_gpu]; unfold schedule_cpu, schedule_gpu.
  - intros HA H0. apply obind_done in HA as (s1 & H1 & HA).
    assert (HK : Forall (fun l => handles Python (ls_exec l) = true) (s_loops s1)) by (destruct (spatial_loops s0); [injection H1 as <-; exact H0|eapply HE; [|exact H0|exact H1]; reflexivity]).
    destruct (spatial_loops s0) as [|x [|y sp]]; try (injection HA as <-; exact HK). eapply HE; [|exact HK|exact HA]; reflexivity.
  - intros HA H0. apply obind_done in HA as (s1 & H1 & HA).
    assert (HK : Forall (fun l => handles Clang (ls_exec l) = true) (s_loops s1)) by (destruct (spatial_loops s0); [injection H1 as <-; exact H0|eapply HE; [|exact H0|exact H1]; reflexivity]).
    destruct (spatial_loops s0) as [|x [|y sp]]; try (injection HA as <-; exact HK). eapply HE; [|exact HK|exact HA]; reflexivity.
  - intros HA H0. destruct (spatial_loops s0) as [|x [|y [|z [|w sp]]]].
    + injection HA as <-. exact H0.
    + apply obind_done in HA as ([[s1 io] ii] & H1 & HA). apply obind_done in HA as (s2 & H2 & HA).
      eapply HE; [|eapply HE; [|eapply HSp; [exact H0|exact H1]|exact H2]|exact HA]; reflexivity.
    + apply obind_done in HA as ([[s1 io] ii] & H1 & HA). apply obind_done in HA as (s2 & H2 & HA). apply obind_done in HA as (s3 & H3 & HA).
      eapply HE; [|eapply HE; [|eapply HE; [|eapply HSp; [exact H0|exact H1]|exact H2]|exact H3]|exact HA]; reflexivity.
    + apply obind_done in HA as ([[s1 io] ii] & H1 & HA). apply obind_done in HA as (s2 & H2 & HA). apply obind_done in HA as (s3 & H3 & HA). apply obind_done in HA as (s4 & H4 & HA).
      eapply HE; [|eapply HE; [|eapply HE; [|eapply HE; [|eapply HSp; [exact H0|exact H1]|exact H2]|exact H3]|exact H4]|exact HA]; reflexivity.
    + apply obind_done in HA as ([[s1 io] ii] & H1 & HA). apply obind_done in HA as (s2 & H2 & HA).
      eapply HE; [|eapply HE; [|eapply HSp; [exact H0|exact H1]|exact H2]|exact HA]; reflexivity.
Qed.
Print Assumptions C43_automatic.
(* concrete: a parallel loop in CUDA, a block loop in Clang *)
Definition annotated_text (b : backend) (x : lexec) : option (outcome string) :=
  match convert exText 4 with
  | Done (E, _) => match E 4%nat with
    | Some fd => match set_exec (sched_init fd) (mkLV (NLoop false 0 []) 2) x with
      | Done s => Some ('(t, _) <~ t_codegen b exText E (kernel_name "0a1b") (func_args (f_expr fd)) fd s 0 ;; Done t)
      | _ => None end
    | None => None end
  | _ => None end.
Example C43_nonvacuous : annotated_text CUDA XPar = Some (Throw RuntimeErr) /\ annotated_text Clang (XBlock AX) = Some (Throw RuntimeErr) /\ annotated_text Clang XPar = option_map Done (text_of Clang exText 4).
Proof. repeat split; vm_compute; reflexivity. Qed.
