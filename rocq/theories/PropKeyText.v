(* C11, C01: the cache as it is in the process, under md5(str(key)).  The text of a key determines the key; so the only way in which the
   digest can matter is that two different texts have the same digest. *)
From Coq Require Import String.
From Verif Require Import Base Util Lang Spec Graph Api Denote ArrayLit Reach Tolist Algo AlgoSem Kernel Sched Codegen Backends LangInst Prog
  BaseFacts KernelRun BackendFacts AlgoTop CacheKey Runtime RuntimeFacts RuntimeFacts2 History HistFacts RtInst CacheFacts HistTools RuntimeTop PropRuntime KeyText KeyRun.

(* str() of two keys is the same only for equal keys *)
Theorem C11_text_determines_key : forall k1 k2, key_text k1 = key_text k2 -> k1 = k2.
Proof. exact key_text_inj. Qed.
Print Assumptions C11_text_determines_key.

(* A process whose cache is indexed by any digest function behaves as the one indexed by the keys themselves, in every history, as long as the
   digest does not collide on the texts of the kernels involved.  (Runtime.v, on which the theorems C01, C02, C11 to C14 and others are
   stated, indexes by the keys.)  [seen]: same graph, buffers and counters, cache entries moved to their digests. *)
Theorem C11_digest_process : forall D (eqb : D -> D -> bool) (digest : string -> D) B C h, (forall x y, eqb x y = true <-> x = y) -> no_collision digest C ->
  digest_hist eqb digest B C h ->
  exists s, hist B C s /\ h_graph B h = r_graph B s /\ h_cpu B h = r_cpu B s /\
    forall a, (forall d, kernel_of (r_graph B s) a d -> C d) ->
      snd (hmaterialize eqb digest B h a) = snd (materialize B s a) /\
      h_cpu B (fst (hmaterialize eqb digest B h a)) = r_cpu B (fst (materialize B s a)) /\
      r_runs B (h_rt B (fst (hmaterialize eqb digest B h a))) = r_runs B (fst (materialize B s a)).
Proof.
  intros D eqb digest B C h Heq HN HH. destruct (digest_hist_seen eqb digest B Heq C HN h HH) as (s & HS & -> & HK). exists s. split; [exact HS|]. split; [reflexivity|]. split; [reflexivity|].
  intros a HA. destruct (materialize B s a) as [s' o] eqn:E. destruct (materialize_seen eqb digest B Heq C HN s a s' o HK HA E) as (H1 & _). rewrite H1. auto.
Qed.
Print Assumptions C11_digest_process.

(* C01_value_partial for the process with digests *)
Theorem C01_digest_partial : forall D (eqb : D -> D -> bool) (digest : string -> D) B C h a b h', (forall x y, eqb x y = true <-> x = y) -> no_collision digest C ->
  is_cpu_backend B -> key_safe C -> digest_hist eqb digest B C h -> valid (h_graph B h) a ->
  view_of (h_graph B h) true a b -> computed (h_graph B h) b -> mat_ok (b_lang B) (h_graph B h) b -> (forall d, kernel_of (h_graph B h) a d -> C d) ->
  hmaterialize eqb digest B h a = (h', Done tt) ->
  exists l, tolist (h_graph B h') (h_cpu B h') a = Done l /\ t_tolist (den (b_lang B) (h_graph B h) a) = Ok l.
Proof.
  intros D eqb digest B C h a b h' Heq HN HB HC HH Hv Hvo Hc Hm HA HM. destruct (digest_hist_seen eqb digest B Heq C HN h HH) as (s & HS & -> & HK).
  destruct (materialize B s a) as [s' o] eqn:E. destruct (materialize_seen eqb digest B Heq C HN s a s' o HK HA E) as (H1 & _). rewrite H1 in HM. injection HM as <- ->.
  exact (value_correct B C s a b s' HB HC HS Hv Hvo Hc Hm HA E).
Qed.
Print Assumptions C01_digest_partial.

(* The condition cannot be dropped: with a digest that collides, -x after x + x gets the kernel of x + x.  0 = [1, 2], 1 = x + x, 2 = -x *)
Definition exCol : hrt (D := nat) pyB :=
  fst (hmaterialize Nat.eqb (fun _ => O) pyB (mkH pyB (sc_state pyB (map Call [CArray (Nest [Leaf (NInt 1); Leaf (NInt 2)]); CBinary BAdd 0 0; CUnary UNeg 0])) []) 1).
Theorem C11_digest_collision_refuted :
  snd (hmaterialize Nat.eqb (fun _ => O) pyB exCol 2) = Done tt /\
  tolist (h_graph pyB exCol) (h_cpu pyB (fst (hmaterialize Nat.eqb (fun _ => O) pyB exCol 2))) 2 = Done (Nest [Leaf (PI 2); Leaf (PI 4)]) /\
  t_tolist (den (py_alg no_libm) (h_graph pyB exCol) 2) = Ok (Nest [Leaf (PI (-1)); Leaf (PI (-2))]).
Proof. split; [vm_compute; reflexivity|]. split; vm_compute; reflexivity. Qed.
Print Assumptions C11_digest_collision_refuted.

(* the hypotheses are met by the history of C01_nonvacuous_plain, with the text itself as its digest *)
Lemma text_no_collision C : no_collision (fun t => t) C.
Proof. intros d1 d2 k1 k2 _ _ _ _ H. exact H. Qed.
Definition exPl : rt pyB := pl_state no_libm [Call (CArange 3); Call (CUnary UNeg 0); Mat 1; Call (CReshape 0 [3; 1]); Call (CBinary BMul 2 1); Call (CT 5)].
Definition exPlh : hrt (D := string) pyB := seen (fun t => t) pyB exPl.
Example C01_nonvacuous_digest : let g := h_graph pyB exPlh in
  digest_hist String.eqb (fun t => t) pyB plain_kernel exPlh /\ no_collision (fun t => t) plain_kernel /\ key_safe plain_kernel /\ valid g 6 /\ view_of g true 6 5 /\ computed g 5 /\
  (forall d, kernel_of g 6 d -> plain_kernel d) /\ length (h_cache pyB exPlh) = 1%nat /\
  exists h', hmaterialize String.eqb (fun t => t) pyB exPlh 6 = (h', Done tt).
Proof.
  assert (HS : hist pyB plain_kernel exPl) by apply pl_state_hist. assert (HT := text_no_collision plain_kernel).
  destruct (hist_seen String.eqb (fun t => t) pyB String.eqb_eq plain_kernel HT exPl HS) as (HD & HK).
  assert (HP : forall d, kernel_of (r_graph pyB exPl) 6 d -> plain_kernel d).
  { apply plainb_ok; [|vm_compute; reflexivity|vm_compute; reflexivity]. exact (i_reach _ _ _ (hist_inv pyB (py_backend_ok no_libm) _ plain_safe _ HS)). }
  cbn zeta. change (h_graph pyB exPlh) with (r_graph pyB exPl). split; [exact HD|]. split; [exact HT|]. split; [exact plain_safe|]. split; [vm_compute; lia|].
  split. { eapply vo_step; try (vm_compute; reflexivity). eapply vo_self; vm_compute; reflexivity. }
  split; [eexists; split; vm_compute; reflexivity|]. split; [exact HP|]. split; [vm_compute; reflexivity|].
  assert (HX : exists s', materialize pyB exPl 6 = (s', Done tt)) by (eexists; apply pair_snd; vm_compute; reflexivity). destruct HX as (s' & HX).
  destruct (materialize_seen String.eqb (fun t => t) pyB String.eqb_eq plain_kernel HT exPl 6 s' (Done tt) HK HP HX) as (H1 & _). eauto.
Qed.
Print Assumptions C01_nonvacuous_digest.
(* a key and its text: the kernel of -x for x = arange(3) *)
Open Scope string_scope.
Example C11_text_example : map (fun p => key_text (fst p)) (r_cache pyB (sc_state pyB [Call (CArange 3); Call (CUnary UNeg 0); Mat 1])) =
  ["((('i', 3),), (3,), 'int64', ('Un', 'Neg', ('Buf', 0, (3,), (1,), 0, 'int64', (('Idx', 'i', 3),))), ((('i', 3, 'Spatial', ('Parallel',)),), ()))"]%string.
Proof. vm_compute. reflexivity. Qed.
