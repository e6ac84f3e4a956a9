(* C56 on CUDA: printing arrays and WHALE_DEBUG=1. *)
From Coq Require Import String Ascii.
From Verif Require Import Base BaseFacts Util UtilFacts Lang Spec SpecFacts Graph Api ApiFacts Denote DenoteFacts Reach Tolist TolistFacts ArrayLit Prog
  Algo AlgoSem AlgoConvert AlgoConvert2 Kernel Sched Codegen Backends CacheKey KernelRun BackendFacts AlgoTop AlgoMore LangInst Runtime RuntimeFacts RuntimeFacts2 RtInst Frame
  Parallel ParGpu Device DevFacts DevRun DevHist DevProg DevAny DevTools DevStale PropDevice DevReset DevStop PropDevStop ViewExact Text TextPrint PropText Print PrintFacts PropPrint PrintDev.
Local Open Scope Z_scope.
Local Open Scope string_scope.

(* str(a) in any process on the GPU, after failed and interrupted calls too ([gstop_any], DevStop.v).  str(a) does not copy from the
   device: it is str(a.tolist()) if the host holds the elements (a constant, or after a tolist() of an array with the same buffer),
   otherwise the summary, with "dev=copied" exactly if the buffer has device memory.  Printing never raises. *)
Theorem C56_cuda_print : forall lm repr s a nd b, gstop_any (cuda lm) s -> nth_error (dv_graph _ s) a = Some nd -> base (dv_graph _ s) a = Some b ->
  match dv_host _ s b with
  | Some data => exists l, snd (gtolist (cuda lm) s a) = Done l /\ gshows lm repr s a = Done (nest_text repr l)
  | None => gshows lm repr s a = Done (summary_text nd "None" (match dv_ptr _ s b with Some _ => "copied" | None => "None" end))
  end.
Proof.
  intros lm repr s a nd b Hs Hnd Hb. pose proof (gstop_any_hinv (cuda lm) (c_lang_ok lm) s Hs) as HI. pose proof (reach_wf _ (hi_reach _ _ HI)) as Hw.
  unfold gshows. pose proof (arr_text_cases repr _ (dv_host _ s) (fun n => match dv_ptr _ s n with Some _ => true | None => false end) Hw (hi_host _ _ HI) a nd b Hnd Hb) as HA.
  destruct (dv_host _ s b) as [data|] eqn:Hh.
  - destruct HA as [(l & Hl & ->)|(HN & _)]; [|congruence]. exists l. split; [|reflexivity]. unfold gtolist. rewrite Hnd, Hb, Hh. cbn [snd].
    unfold tolist in Hl. rewrite Hnd, Hb, Hh in Hl. exact Hl.
  - destruct HA as [(l & Hl & _)|(_ & _ & ->)]; [unfold tolist in Hl; rewrite Hnd, Hb, Hh in Hl; discriminate|]. destruct (dv_ptr _ s b); reflexivity.
Qed.
Print Assumptions C56_cuda_print.

(* WHALE_DEBUG=1 changes nothing: the executions of materialize() with debug output ([gmat_dbg], PrintDev.v) end in the same process
   states, with the same results, as those without ([gmat], Device.v) - whatever was interrupted or failed before, and whatever the
   driver does. *)
Theorem C56_cuda_debug_same : forall lm repr hash s a h s' oc, gstop_any (cuda lm) s -> valid (dv_graph _ s) a ->
  ((exists h' out, gmat_dbg (cuda lm) repr hash s a h s' oc h' out) <-> gmat (cuda lm) s a s' oc).
Proof.
  intros lm repr hash s a h s' oc Hs Ha. destruct (gstop_any_hinv (cuda lm) (c_lang_ok lm) s Hs) as [H1 H2 H3 _ _ _]. split.
  - intros (h' & out & HM). eapply gmat_dbg_sound; eassumption.
  - intros HM. now apply gmat_dbg_complete.
Qed.
Print Assumptions C56_cuda_debug_same.

(* concrete case: x = array([5, 7]), y = -x; str(x), str(y) and y.materialize() with WHALE_DEBUG=1.  Every execution that succeeds
   prints these lines *)
Definition c_repr (v : val (b_lang cu)) : string := match v with CI32 z | CI64 z => dec z | CF _ => "float" end.
Definition digest : kkey -> string := fun _ => "0123456789abcdef0".
Definition dbg_head : list string :=
  ["[debug] materialization start"; "[debug] backend: CUDA"; "[debug] materializing ndarray:";
   "        Neg shape=(2,) strides=(1,) offset=0 dtype=int64 cpu=None dev=None"; "           └─ [5, 7]"].
Definition dbg_rest : list string :=
  ["[debug] 1:"; "        Func(out_loops=[i:2] int64"; "           └─ UnaryExpr(Neg)";
   "              └─ BufferExpr(indices=[IndexExpr(i:2)], cpu=[5, 7] (2 items), dev=None)";
   "        Schedule:"; "          i__o:1 (Spatial:GPUBlock(x))"; "          i__i:256 (Spatial:GPUThread(x))"; "          SplitLoop: i:2 -> i__o:1, i__i:256"].
Definition dbg_text : list string :=
  ["        #include <stdint.h>"; "        #include <math.h>";
   "        extern ""C"" __global__ void kern_0123456789abcdef(int64_t* out, int64_t* buf_0) {";
   "            int64_t i__o = blockIdx.x;"; "            int64_t i__i = threadIdx.x;"; "            int64_t i = i__o * 256 + i__i;";
   "            if ((2 <= i)) {"; "                return;"; "            }"; "            int64_t tmp0 = -(buf_0[0 + i * 1]);";
   "            out[i * 1] = tmp0;"; "        }"].
Definition dbg_lines : list string := (dbg_head ++ "[debug] 1 funcs and schedules:" :: dbg_rest ++
  "[debug] kernel codegen:" :: "[debug] 1:" :: dbg_text ++ ["[debug] kernel invocation count: 1"])%list.
Definition exFg : graph := Prog.prog exFc.
Lemma exFd_any s : dv_graph cu s = exFg -> dv_cache cu s = [] -> dv_tmp cu s = 0%nat ->
  (exists t, arr_tree c_repr exFg (dv_host cu s) (on_dev cu s) 3 1 = Done t /\ (gdbg_start ++ dbg_tree t)%list = dbg_head) ->
  (exists E fd sc key kern text k k2, convert exFg 1 = Done (E, [1%nat]) /\ gschedule_one E 1 = Done (fd, sc) /\ gdbg_funcs cu c_repr s E 0 [(1%nat, sc)] = Done dbg_rest /\
     cache_key exFg E fd sc = Done key /\ codegen exFg E (func_args (f_expr fd)) fd sc 0 = Done (kern, k) /\
     t_codegen CUDA exFg E (kernel_name (digest key)) (func_args (f_expr fd)) fd sc 0 = Done (text, k2) /\ dbg_kernel text = dbg_text) ->
  forall t h' out, gmat_dbg cu c_repr digest s 1 0 t (Done tt) h' out -> h' = 1%nat /\ out = dbg_lines.
Proof.
  intros Hg Hc Ht (tr & Htr & Hhead) (E & fd & sc & key & kern & text & k & k2 & Hcv & Hsc & Hfn & Hkey & Hcg & Htx & Hdt) t h' out HM.
  assert (exists nd, nth_error exFg 1 = Some nd /\ is_view (n_op nd) = false /\ is_const (n_op nd) = false) as (nd & Hn & Hnv & Hnc).
  { eexists. split; [vm_compute; reflexivity|]. split; reflexivity. }
  assert (Hlen : length exFg = 2%nat) by (vm_compute; reflexivity).
  inversion HM as [|a nd' h0 t0 K1 K2 K3|a nd' h0 t0 b r s' oc h1 out1 K1 K2 K3 K4 K5|a nd' h0 t0 s' oc h1 out1 K1 K2 K3 K4 K5]; subst;
    rewrite Hg in K1, K2; rewrite Hn in K1; injection K1 as <-; [congruence..|].
  rewrite Hlen, Htr in K2. injection K2 as <-.
  inversion K5 as [| | |E' fs l lines s' oc h1 out2 J1 J2 J3 J4]; subst. rewrite Hg, Hcv in J1. injection J1 as <- <-.
  cbn [mapOut] in J2. rewrite Hsc in J2. cbn [obind] in J2. injection J2 as <-. cbn [map snd combine] in J3. rewrite Hfn in J3. injection J3 as <-.
  inversion J4 as [| |i fd' sc' r s0 h0 s1 h1 out1 s' oc h2 out' I1 I2]; subst. inversion I2; subst.
  inversion I1 as [| |bufs key' kern' s' oc L1 L2 L3 L4| | |bufs key' kern' k' text' k2' s' oc L1 L2 L3 L4 L5 L6]; subst; rewrite Hg, Hkey in L2; injection L2 as <-.
  - rewrite Hc in L3. discriminate.
  - rewrite Hg, Ht, Htx in L5. injection L5 as <- <-. rewrite Hdt. split; [reflexivity|]. unfold dbg_lines. rewrite <- Hhead. rewrite <- !app_assoc, app_nil_r. reflexivity.
Qed.
Example C56_cuda_nonvacuous : exists s t, gstop_any cu s /\ valid (dv_graph _ s) 1 /\
  gshows no_libm c_repr s 0 = Done "[5, 7]" /\ gshows no_libm c_repr s 1 = Done "Neg shape=(2,) strides=(1,) offset=0 dtype=int64 cpu=None dev=None" /\
  gmat cu s 1 t (Done tt) /\ (exists h' out, gmat_dbg cu c_repr digest s 1 0 t (Done tt) h' out) /\
  forall h' out, gmat_dbg cu c_repr digest s 1 0 t (Done tt) h' out -> h' = 1%nat /\ out = dbg_lines.
Proof.
  destruct (gstate_hist cu true (gkernel_of exFg 1) exFc) as [HG HA]. pose proof (HA 1%nat) as Hal.
  assert (Hg : dv_graph cu (gstate cu exFc) = exFg) by (vm_compute; reflexivity).
  assert (Hal' : dv_alive cu (gstate cu exFc) 1 = true) by (rewrite Hal, Hg; vm_compute; reflexivity).
  assert (HC : key_safe (gkernel_of exFg 1)) by (apply gown_safeb_ok; vm_compute; reflexivity).
  assert (Hw : wf_graph exFg) by (apply reach_wf, prog_reach).
  assert (Hm : gmat_ok cu exFg 1) by (apply (gokb_ok cu _ Int64); [exact Hw|vm_compute; reflexivity]).
  assert (Hb1 : base exFg 1 = Some 1%nat) by (vm_compute; reflexivity).
  assert (Hns : no_scalar_reshape exFg 1) by (apply no_scalar_reshape_all; vm_compute; reflexivity).
  assert (Hac : accb cu exFg = true) by (vm_compute; reflexivity). assert (Hex : extb exFg = true) by (vm_compute; reflexivity).
  assert (Hany : gstop_any cu (gstate cu exFc)).
  { generalize (ghist_any no_libm _ _ HC HG). clear. generalize (gstate cu exFc). induction 1; [apply gta_init|apply gta_call; auto|eapply gta_mat; eauto|apply gta_tolist; auto|apply gta_die; auto|apply gta_reset; auto]. }
  destruct (C41_succeeds no_libm (gkernel_of exFg 1) (gstate cu exFc) 1 1 HC HG) as (t & HM); rewrite ?Hg; auto.
  { intros n md vals _. now apply (accb_ok cu). }
  { intros n md _. now apply extb_ok. }
  exists (gstate cu exFc), t. split; [exact Hany|]. split; [rewrite Hg; vm_compute; repeat constructor|]. split; [vm_compute; reflexivity|]. split; [vm_compute; reflexivity|]. split; [exact HM|].
  split; [apply C56_cuda_debug_same; auto; rewrite Hg; vm_compute; repeat constructor|].
  apply exFd_any; [exact Hg|vm_compute; reflexivity|vm_compute; reflexivity|..].
  - eexists. split; vm_compute; reflexivity.
  - do 8 eexists. split; [vm_compute; reflexivity|]. repeat (split; [vm_compute; reflexivity|]). vm_compute; reflexivity.
Qed.
