(* C56: printing arrays (str, repr) and WHALE_DEBUG=1. *)
From Coq Require Import String Ascii.
From Verif Require Import Base BaseFacts Util UtilFacts Lang Spec SpecFacts Graph Api ApiFacts Denote DenoteFacts Reach Tolist TolistFacts FrontSpec ArrayLit ArrayFacts
  Algo AlgoSem AlgoConv AlgoConv2 AlgoFuse2 AlgoConvert AlgoConvert2 Kernel Sched Codegen Backends KernFacts CacheKey KernelRun AlgoTop AlgoMore LangInst Prog
  Runtime RuntimeFacts RuntimeFacts2 History HistFacts RtInst Frame HistTools RuntimeTop Device DevFacts DevHist PropDevice PropLang
  ViewExact Text TextPrint TextParse PropText Cost Print PrintFacts PrintText.
Local Open Scope Z_scope.
Local Open Scope string_scope.
Notation no_dev := (fun _ : nat => false).
(* str(a) in a process on a CPU backend; repr = how Python shows one element *)
Definition shows (B : cpu_backend) (repr : val (b_lang B) -> string) (s : rt B) (a : nat) : outcome string := arr_text repr (r_graph B s) (r_cpu B s) no_dev a.

(* In every history - after failed calls too - every array can be printed, and str(a) is str(a.tolist()) if a.tolist() returns
   a list; if a.tolist() raises (no data yet) it is the one-line summary of the array. *)
Theorem C56_print : forall B repr s a nd, is_cpu_backend B -> any_hist B s -> nth_error (r_graph B s) a = Some nd ->
  (exists l, tolist (r_graph B s) (r_cpu B s) a = Done l /\ shows B repr s a = Done (nest_text repr l)) \/
  (tolist (r_graph B s) (r_cpu B s) a = Throw AttrErr /\ shows B repr s a = Done (summary_text nd "None" "None")).
Proof.
  intros B repr s a nd HB Hs Hnd. destruct (any_hist_inv B (bo_lang _ (cpu_ok B HB)) s Hs) as [H1 H2 H3 H4 H5]. pose proof (reach_wf _ H1) as Hw.
  destruct (base_total _ a Hw) as (b & Hb & _); [apply nth_error_Some; congruence|].
  destruct (arr_text_cases repr (r_graph B s) (r_cpu B s) no_dev Hw H3 a nd b Hnd Hb) as [H|(_ & H)]; auto.
Qed.
Print Assumptions C56_print.

(* The printed text determines the list: brackets, order and nesting can be read off, whatever the numbers. *)
Theorem C56_text_determines_list : forall V (repr : V -> string), (forall x y, repr x = repr y -> x = y) ->
  (forall x, repr x <> "" /\ all_chars plain_char (repr x) = true) ->
  forall l1 l2, nest_text repr l1 = nest_text repr l2 -> l1 = l2.
Proof.
  intros V repr Hi Hp l1 l2 HE. assert (HN : forall s, s +++ "" = s) by (intros x; induction x; cbn; congruence).
  refine (proj1 (text_inj repr Hi Hp l1 l2 "" "" I I _)). now rewrite !HN.
Qed.
Print Assumptions C56_text_determines_list.

(* WHALE_DEBUG=1: materialize() does exactly what it does without, in every history - same process, same exception. *)
Theorem C56_debug_same : forall B repr hash s a h, is_cpu_backend B -> any_hist B s -> valid (r_graph B s) a ->
  effect B (materialize_dbg B repr hash s a h) = materialize B s a.
Proof.
  intros B repr hash s a h HB Hs Ha. destruct (any_hist_inv B (bo_lang _ (cpu_ok B HB)) s Hs) as [H1 H2 H3 H4 H5]. now apply mat_dbg_effect.
Qed.
Print Assumptions C56_debug_same.

(* What is printed is not proportional to the program: after y = arange(2) and n times y = y + y - n + 1 valid calls - the debug
   output of y.materialize() has at least 2^n lines (dbg_tree prints a shared operand once per use). *)
Fixpoint tree_size (t : tree) : nat := match t with T _ cs => S (list_sum (map tree_size cs)) end.
Lemma tree_lines_size : forall t top p l, length (tree_lines top p l t) = tree_size t.
Proof.
  fix IH 1. intros [lab cs] top p l. cbn [tree_lines tree_size length]. f_equal. set (ip := p +++ _). clearbody ip.
  induction cs as [|c cs IHcs]; [reflexivity|]. destruct cs as [|d cs]; [cbn [map list_sum fold_right]; rewrite IH; lia|].
  rewrite app_length, IH, IHcs. reflexivity.
Qed.
Lemma doubling_tree {V} (repr : V -> string) (m : Tolist.mem V) n fuel : forall k t, (k <= n)%nat -> arr_tree repr (dgraph n) m no_dev fuel k = Done t -> (2 ^ k <= tree_size t)%nat.
Proof.
  induction fuel as [|f IH]; intros k t Hk HT; [discriminate|]. cbn [arr_tree] in HT. destruct k as [|k]; [bd HT; bd HT; bd HT; injection HT as <-; cbn; lia|].
  unfold get in HT. rewrite dgraph_nth in HT by lia. cbn [obind dnode n_in mapO] in HT. bd HT.
  destruct (arr_tree repr (dgraph n) m no_dev f k) as [tk|] eqn:Ek; [|discriminate]. cbn [obind] in HT. injection HT as <-.
  specialize (IH k tk ltac:(lia) Ek). cbn [tree_size map list_sum fold_right]. cbn [Nat.pow]. lia.
Qed.
Lemma script_calls B cs : forall s g, run_prog (r_graph B s) cs = Some g -> exists s', script B s (map Call cs) = Some s' /\ r_graph B s' = g.
Proof.
  induction cs as [|c cs IH]; intros s g H; cbn in H; [injection H as <-; exists s; split; reflexivity|].
  cbn [map script]. destruct (call_okb (r_graph B s) c) eqn:Ec; [|discriminate]. destruct (run_call (r_graph B s) c) as [[g1 r]|] eqn:Er; [|discriminate].
  apply IH. unfold api_call. rewrite Er. exact H.
Qed.
Theorem C56_output_refuted : forall B repr hash n h, is_cpu_backend B ->
  let program := CArange 2 :: map (fun k => CBinary BAdd k k) (seq 0 n) in let s := sc_state B (map Call program) in
  length program = S n /\ any_hist B s /\ valid (r_graph B s) n /\ length (r_graph B s) = S n /\
  (2 ^ n <= length (printed B (materialize_dbg B repr hash s n h)))%nat.
Proof.
  intros B repr hash n h HB program s. split; [unfold program; cbn [length]; now rewrite map_length, seq_length|].
  assert (Hs : any_hist B s) by apply sc_state_any. split; [exact Hs|].
  assert (Hg : r_graph B s = dgraph n).
  { unfold s, sc_state. destruct (script_calls B program (rt0 B) (dgraph n) (doubling_run n)) as (s' & -> & ->). reflexivity. }
  split; [unfold valid; rewrite Hg, dgraph_len; lia|]. split; [rewrite Hg; apply dgraph_len|].
  clearbody s. destruct (any_hist_inv B (bo_lang _ (cpu_ok B HB)) s Hs) as [H1 _ H3 _ _]. unfold materialize_dbg. rewrite Hg, dgraph_len. cbn [mat_dbg].
  destruct (nth_error (r_graph B s) n) as [nd|] eqn:Hnd; [|apply nth_error_None in Hnd; rewrite Hg, dgraph_len in Hnd; lia].
  destruct (arr_tree_total repr (r_graph B s) (r_cpu B s) no_dev (reach_wf _ H1) H3 (S (length (r_graph B s))) n) as [t Ht]; [rewrite Hg, dgraph_len; lia..|].
  rewrite Ht. rewrite Hg in Ht. pose proof (doubling_tree repr (r_cpu B s) n _ n t (le_n n) Ht) as HS.
  assert (HL : forall (x : (rt B * outcome unit) * nat * list string), (2 ^ n <= length (printed B (let '(res, h', out) := x in (res, h', (
    [dbg "materialization start"; dbg ("backend: " +++ backend_text B); dbg "materializing ndarray:"] ++ dbg_tree t ++ out)%list))))%nat).
  { intros [[res h'] out]. unfold printed. cbn [snd]. rewrite !app_length. unfold dbg_tree. rewrite tree_lines_size. lia. }
  apply HL.
Qed.
Print Assumptions C56_output_refuted.

(* The restriction to valid calls matters (C51: broadcast_to checks nothing): v = arange(2).broadcast_to(3) is accepted and
   v.materialize() returns, but str(v) raises IndexError, and with WHALE_DEBUG=1 so does v.materialize(). *)
Definition badB : rt pyB := fst (api_call pyB (prun [CArange 2]) (CBroadcastTo 0 [3])).
Theorem C56_unchecked_refuted : forall repr hash h,
  snd (api_call pyB (prun [CArange 2]) (CBroadcastTo 0 [3])) = Done 1%nat /\ snd (materialize pyB badB 1) = Done tt /\
  shows pyB repr badB 1 = Throw IndexErr /\ snd (effect pyB (materialize_dbg pyB repr hash badB 1 h)) = Throw IndexErr.
Proof. intros. repeat split; vm_compute; reflexivity. Qed.
Print Assumptions C56_unchecked_refuted.

(* CUDA.  str(a) does not copy from the device: it shows the elements exactly if the host holds them (a constant, or after a
   tolist() of an array with the same buffer), otherwise the summary, with "dev=copied" if there is device memory (C56_cuda_print, PropPrintDev.v). *)
Definition gshows lm (repr : val (b_lang (cuda lm)) -> string) (s : dev (cuda lm)) (a : nat) : outcome string :=
  arr_text repr (dv_graph _ s) (dv_host _ s) (fun n => match dv_ptr _ s n with Some _ => true | None => false end) a.

(* concrete cases: x = array([[0, 1], [2, 3]]), y = x + x, z = y.reshape(4)[1:3]; printed before and after y.materialize() *)
Definition int_repr (v : pyval) : string := match v with PI z => dec z | _ => "float" end.
Definition exPr : list call := [CArray (Nest [Nest [Leaf (NInt 0); Leaf (NInt 1)]; Nest [Leaf (NInt 2); Leaf (NInt 3)]]); CBinary BAdd 0 0; CReshape 1 [4]; CTranspose 1 [1; 0]].
Definition exP0 : rt pyB := sc_state pyB (map Call exPr).
Definition exP1 : rt pyB := sc_state pyB (map Call exPr ++ [Mat 1]).
Example C56_print_nonvacuous : is_cpu_backend pyB /\ any_hist pyB exP0 /\ any_hist pyB exP1 /\ length (r_graph pyB exP0) = 4%nat /\
  shows pyB int_repr exP0 0 = Done "[[0, 1], [2, 3]]" /\
  shows pyB int_repr exP0 1 = Done "Add shape=(2, 2) strides=(2, 1) offset=0 dtype=int64 cpu=None dev=None" /\
  shows pyB int_repr exP0 2 = Done "Reshape shape=(4,) strides=(1,) offset=0 dtype=int64 cpu=None dev=None" /\
  shows pyB int_repr exP1 1 = Done "[[0, 2], [4, 6]]" /\ shows pyB int_repr exP1 2 = Done "[0, 2, 4, 6]" /\ shows pyB int_repr exP1 3 = Done "[[0, 4], [2, 6]]".
Proof.
  split; [left; eexists; reflexivity|]. split; [apply sc_state_any|]. split; [apply sc_state_any|]. repeat split; vm_compute; reflexivity.
Qed.
Example C56_debug_nonvacuous : valid (r_graph pyB exP0) 2 /\ printed pyB (materialize_dbg pyB int_repr (fun _ => "0123456789abcdef0") exP0 1 0) =
  ["[debug] materialization start"; "[debug] backend: Python"; "[debug] materializing ndarray:";
   "        Add shape=(2, 2) strides=(2, 1) offset=0 dtype=int64 cpu=None dev=None"; "           ├─ [[0, 1], [2, 3]]"; "           └─ [[0, 1], [2, 3]]";
   "[debug] 1 funcs and schedules:"; "[debug] 1:";
   "        Func(out_loops=[i:2, j:2] int64";
   "           └─ BinaryExpr(Add)";
   "              ├─ BufferExpr(indices=[IndexExpr(i:2), IndexExpr(j:2)], cpu=[0, 1, ... 3] (len=4), dev=None)";
   "              └─ BufferExpr(indices=[IndexExpr(i:2), IndexExpr(j:2)], cpu=[0, 1, ... 3] (len=4), dev=None)";
   "        Schedule:"; "          i:2 (Spatial:Parallel)";
   "          j:2 (Spatial:Vectorize)"; "[debug] kernel codegen:";
   "[debug] 1:"; "        import math";
   "        def kern_0123456789abcdef(out, buf_0):";
   "            for i in range(0, 2, 1):";
   "                for j in range(0, 2, 1):";
   "                    tmp0 = buf_0[0 + i * 2 + j * 1] + buf_0[0 + i * 2 + j * 1]";
   "                    out[i * 2 + j * 1] = tmp0"; "                ";
   "            "; "[debug] kernel invocation count: 1"].
Proof. split; [vm_compute; repeat constructor|]. vm_compute. reflexivity. Qed.
(* How a buffer is shown inside the debug output: complete below four elements, abbreviated from four on. *)
Theorem C56_buffer_text : forall V (repr : V -> string) (a b c d : V) r,
  cpu_text repr None = "None" /\ cpu_text repr (Some []) = "None" /\
  cpu_text repr (Some [a]) = "[" +++ repr a +++ "] (1 items)" /\
  cpu_text repr (Some [a; b]) = "[" +++ repr a +++ ", " +++ repr b +++ "] (2 items)" /\
  cpu_text repr (Some [a; b; c]) = "[" +++ repr a +++ ", " +++ repr b +++ ", " +++ repr c +++ "] (3 items)" /\
  cpu_text repr (Some (a :: b :: c :: r ++ [d])%list) = "[" +++ repr a +++ ", " +++ repr b +++ ", ... " +++ repr d +++ "] (len=" +++ decn (4 + length r) +++ ")".
Proof.
  intros V repr a b c d r. assert (HN : forall s t, (s +++ t) = String.append s t) by reflexivity.
  assert (HA : forall s t u, (s +++ t) +++ u = s +++ (t +++ u)) by (intros s t u; induction s; cbn; congruence).
  repeat split; try reflexivity.
  1-3: unfold cpu_text, list_text; cbn [length Nat.ltb Nat.leb map join]; rewrite ?HA; reflexivity.
  unfold cpu_text. replace (length (a :: b :: c :: r ++ [d])%list) with (4 + length r)%nat by (cbn [length]; rewrite app_length; cbn; lia).
  destruct (4 + length r <? 4)%nat eqn:E; [apply Nat.ltb_lt in E; lia|]. cbn [hd]. replace (last (b :: c :: r ++ [d])%list a) with d; [reflexivity|].
  change (b :: c :: r ++ [d])%list with ((b :: c :: r) ++ [d])%list. now rewrite last_last.
Qed.
Print Assumptions C56_buffer_text.
