(* C52: how much materialize() has to write before anything runs. *)
From Coq Require Import String Ascii.
From Verif Require Import Base BaseFacts Util UtilFacts Lang Spec SpecFacts Graph Api Denote DenoteFacts Reach ApiFacts LangInst Prog Algo AlgoSem AlgoConv AlgoConv2 AlgoFuse AlgoFuse2
  AlgoConvert AlgoConvert2 Kernel Sched Codegen Backends KernFacts RenderFacts KernelOk RunFacts SchedFacts SchedGpu KernelRun KernelRun2 BackendFacts AlgoTop AlgoMore CacheKey Runtime
  RuntimeFacts RuntimeFacts2 Text TextPrint TextParse TextTop PropText Cost.
Open Scope nat_scope.

(* C52 is false.  (1) After y = arange(2) and n times y = y + y - a program of n + 1 calls, all of them
   valid - the cache key that materialize() builds (and prints, and hashes) for the last kernel, whatever
   its schedule, has at least 2^n tuples: the key of a producer is repeated for every reference to it. *)
Theorem C52_key_refuted : forall n sc, 1 <= n ->
  let program := CArange 2 :: map (fun k => CBinary BAdd k k) (seq 0 n) in
  length program = S n /\
  exists g E fs fd key, run_prog [] program = Some g /\ reach g /\ length g = S n /\ convert g n = Done (E, fs) /\ In n fs /\ E n = Some fd /\
    cache_key g E fd sc = Done key /\ 2 ^ n <= key_size (ky_expr key).
Proof.
  intros n sc Hn program. split; [unfold program; cbn [length]; now rewrite map_length, seq_length|].
  destruct (doubling_key n sc Hn) as (E & fs & fd & key & H1 & H2 & H3 & H4 & H5). exists (dgraph n), E, fs, fd, key.
  split; [apply doubling_run|]. split; [apply dgraph_reach|]. split; [apply dgraph_len|]. auto.
Qed.
Print Assumptions C52_key_refuted.

(* (2) x = array([[0,1],[2,3]]), n times x = x.reshape(2, 2), then -x: one kernel, whose source text, on
   every backend, is at least 2^n - 1 characters long: every reshape mentions the previous index twice. *)
Theorem C52_text_refuted : forall n b key k,
  let program := CArray (Nest [Nest [Leaf (NInt 0); Leaf (NInt 1)]; Nest [Leaf (NInt 2); Leaf (NInt 3)]]) :: map (fun k => CReshape k [2%Z; 2%Z]) (seq 0 n) ++ [CUnary UNeg n] in
  length program = S (S n) /\
  exists g E fs fd sc text k1, run_prog [] program = Some g /\ reach g /\ length g = S (S n) /\ convert g (S n) = Done (E, fs) /\ In (S n) fs /\ E (S n) = Some fd /\
    auto_schedule (is_gpu b) fd = Done sc /\ t_codegen b g E (kernel_name key) (func_args (f_expr fd)) fd sc k = Done (text, k1) /\ 2 ^ n <= S (String.length text).
Proof.
  intros n b key k program. split; [unfold program; cbn [length]; rewrite app_length, map_length, seq_length; cbn; lia|].
  destruct (reshaping_text n b key k) as (E & fs & fd & sc & text & k1 & H1 & H2 & H3 & H4 & H5 & H6). exists (rgraph n), E, fs, fd, sc, text, k1.
  split; [apply reshaping_run|]. split; [apply rgraph_reach|]. split; [apply rgraph_len|]. auto 8.
Qed.
Print Assumptions C52_text_refuted.
