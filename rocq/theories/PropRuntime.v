(* Properties C01, C02, C11, C12, C13, C14, C34, C36: materialize(), the kernel cache, histories. *)
From Verif Require Import Base Util Lang Spec Graph Api Denote ArrayLit Reach Tolist Algo AlgoSem Kernel Sched Codegen Backends LangInst Prog
  BaseFacts AlgoConvert2 KernelRun BackendFacts AlgoTop AlgoMore CacheKey Runtime RuntimeFacts RuntimeFacts2 History HistFacts RtInst CacheFacts Frame HistFacts2 HistTools Safety RuntimeTop.
Notation pyB := (py_backend no_libm).
Notation cB := (c_backend no_libm).

(* ---------------------------------------------------------------- C01 *)
(* After a successful x.materialize(), x.tolist() is the nested list of the elements of x as defined
   by den (Denote.v: evaluation of the expression element by element).  Any history before.
   PARTIAL because of:
   - key_safe C (the kernels compiled so far and those x needs may not collide in the cache; see C11
     for when they do, and for the classes of kernels that never do);
   - mat_ok: in C, sizes below 2^31 and one dtype per expression (see C03's refutation);
     vacuous in Python (C01_python);
   - view_of .. true: x is a computed array or a chain of views of it whose reshapes start at buffer
     offset 0 (see C15's refutation). *)
Theorem C01_value_partial : forall B C s a b s', is_cpu_backend B -> key_safe C -> hist B C s -> valid (r_graph B s) a ->
  view_of (r_graph B s) true a b -> computed (r_graph B s) b -> mat_ok (b_lang B) (r_graph B s) b ->
  (forall d, kernel_of (r_graph B s) a d -> C d) ->
  materialize B s a = (s', Done tt) ->
  exists l, tolist (r_graph B s') (r_cpu B s') a = Done l /\ t_tolist (den (b_lang B) (r_graph B s) a) = Ok l.
Proof. exact value_correct. Qed.
Print Assumptions C01_value_partial.
(* Python; no size or dtype condition *)
Theorem C01_python_partial : forall lm C s a b s', key_safe C -> hist (py_backend lm) C s -> valid (r_graph _ s) a ->
  view_of (r_graph _ s) true a b -> computed (r_graph _ s) b ->
  (forall d, kernel_of (r_graph _ s) a d -> C d) ->
  materialize (py_backend lm) s a = (s', Done tt) ->
  exists l, tolist (r_graph _ s') (r_cpu _ s') a = Done l /\ t_tolist (den (py_alg lm) (r_graph _ s) a) = Ok l.
Proof. exact value_correct_python. Qed.
Print Assumptions C01_python_partial.
(* Python, any history whatsoever, no condition on other kernels: if the kernel cache was cleared
   just before and the kernels of this one materialize() do not collide among themselves *)
Theorem C01_fresh_cache_partial : forall lm s a b s', let B := py_backend lm in any_hist B s -> valid (r_graph B s) a ->
  view_of (r_graph B s) true a b -> computed (r_graph B s) b -> key_safe (kernel_of (r_graph B s) a) ->
  materialize B (reset_cache B s) a = (s', Done tt) ->
  exists l, tolist (r_graph B s') (r_cpu B s') a = Done l /\ t_tolist (den (py_alg lm) (r_graph B s) a) = Ok l.
Proof. exact value_correct_reset. Qed.
Print Assumptions C01_fresh_cache_partial.
(* Python, histories whose kernels read only constants and use no pad/dilate: no hypothesis on keys *)
Theorem C01_plain_python : forall lm s a b s', let B := py_backend lm in hist B plain_kernel s -> valid (r_graph B s) a ->
  view_of (r_graph B s) true a b -> computed (r_graph B s) b -> (forall d, kernel_of (r_graph B s) a d -> plain_kernel d) ->
  materialize B s a = (s', Done tt) ->
  exists l, tolist (r_graph B s') (r_cpu B s') a = Done l /\ t_tolist (den (py_alg lm) (r_graph B s) a) = Ok l.
Proof. intros lm s a b s' B. apply value_correct_python. exact plain_safe. Qed.
Print Assumptions C01_plain_python.
(* materialize() does succeed: the only ways to fail are a raising element operation, a list ctypes
   refuses, and the reshape-to-() TypeError *)
Theorem C01_succeeds : forall B C s a b, is_cpu_backend B -> key_safe C -> hist B C s -> valid (r_graph B s) a -> base (r_graph B s) a = Some b ->
  mat_ok (b_lang B) (r_graph B s) b -> (forall d, kernel_of (r_graph B s) a d -> C d) ->
  no_scalar_reshape (r_graph B s) b -> (forall n, cone (r_graph B s) b n -> ~ refused B (r_graph B s) n) ->
  (forall n idx, cone (r_graph B s) b n -> in_range (shape_of (r_graph B s) n) idx -> t_at (den (b_lang B) (r_graph B s) n) idx <> Raise) ->
  exists s', materialize B s a = (s', Done tt).
Proof. exact materialize_succeeds. Qed.
Print Assumptions C01_succeeds.
Theorem C01_failures : forall B C s a b s' e, is_cpu_backend B -> key_safe C -> hist B C s -> valid (r_graph B s) a -> base (r_graph B s) a = Some b ->
  mat_ok (b_lang B) (r_graph B s) b -> (forall d, kernel_of (r_graph B s) a d -> C d) ->
  materialize B s a = (s', Throw e) ->
  (e = ValueErr /\ exists n idx, cone (r_graph B s) b n /\ in_range (shape_of (r_graph B s) n) idx /\ t_at (den (b_lang B) (r_graph B s) n) idx = Raise) \/
  (e = TypeErr /\ exists n, cone (r_graph B s) b n /\ refused B (r_graph B s) n) \/
  (e = TypeErr /\ s' = s /\ ~ no_scalar_reshape (r_graph B s) b).
Proof. exact materialize_failures. Qed.
Print Assumptions C01_failures.

(* 0 = [[1,2,3],[4,5,6]]; 1 = 0.T; 2 = -1; 3 = 2 * 2; 4 = 3[1:, :]; 5 = sum(4, axis 0); 6 = 5 + 5;
   two earlier materializations and a cache reset in between *)
Definition exH : list ev :=
  [Call (CArray (Nest [Nest [Leaf (NInt 1); Leaf (NInt 2); Leaf (NInt 3)]; Nest [Leaf (NInt 4); Leaf (NInt 5); Leaf (NInt 6)]]));
   Call (CT 0); Call (CUnary UNeg 1); Mat 2; Call (CBinary BMul 2 2); Mat 1; Reset; Call (CGetitem 3 [SSlice (Some 1) None None]); Call (CSum 4 (Some [0]) false); Call (CBinary BAdd 5 5)].
Definition exHs : rt pyB := sc_state pyB exH.
Example C01_nonvacuous : let g := r_graph pyB exHs in
  any_hist pyB exHs /\ valid g 6 /\ view_of g true 6 6 /\ computed g 6 /\ key_safe (kernel_of g 6) /\
  exists s', materialize pyB (reset_cache pyB exHs) 6 = (s', Done tt) /\
     tolist (r_graph pyB s') (r_cpu pyB s') 6 = Done (Nest [Leaf (PI 26); Leaf (PI 122)]).
Proof.
  cbn zeta. split; [apply sc_state_any|]. split; [vm_compute; lia|]. split; [eapply vo_self; vm_compute; reflexivity|].
  split; [eexists; split; vm_compute; reflexivity|]. split; [apply own_safeb_ok; vm_compute; reflexivity|].
  eexists. split; [apply pair_snd; vm_compute; reflexivity|vm_compute; reflexivity].
Qed.
(* the same for the two other forms *)
Example C01_nonvacuous_plain : let es := [Call (CArange 3); Call (CUnary UNeg 0); Mat 1; Call (CReshape 0 [3; 1]); Call (CBinary BMul 2 1); Call (CT 5)] in
  let s := pl_state no_libm es in let g := r_graph pyB s in
  hist pyB plain_kernel s /\ valid g 6 /\ view_of g true 6 5 /\ computed g 5 /\ (forall d, kernel_of g 6 d -> plain_kernel d) /\
  exists s', materialize pyB s 6 = (s', Done tt) /\ tolist (r_graph pyB s') (r_cpu pyB s') 6 =
     Done (Nest [Nest [Leaf (PI 0); Leaf (PI 0); Leaf (PI 0)]; Nest [Leaf (PI 0); Leaf (PI (-1)); Leaf (PI (-2))]; Nest [Leaf (PI 0); Leaf (PI (-2)); Leaf (PI (-4))]]).
Proof.
  cbn zeta. split; [apply pl_state_hist|]. split; [vm_compute; lia|].
  split. { eapply vo_step; try (vm_compute; reflexivity). eapply vo_self; vm_compute; reflexivity. }
  split; [eexists; split; vm_compute; reflexivity|].
  split. { apply plainb_ok; [|vm_compute; reflexivity|vm_compute; reflexivity]. exact (i_reach _ _ _ (hist_inv pyB (py_backend_ok no_libm) _ plain_safe _ (pl_state_hist no_libm _))). }
  eexists. split; [apply pair_snd; vm_compute; reflexivity|vm_compute; reflexivity].
Qed.
(* C backend: 0 = [1.5, 2.5] (float64), 1 = 0 * 0, 2 = 1 - 0 ; kernels of a fresh process *)
Definition exCs : rt cB := sc_state cB (map Call [CArray (Nest [Leaf (NFlt 3 (-1)); Leaf (NFlt 5 (-1))]); CBinary BMul 0 0; CBinary BSub 1 0]).
Example C01_nonvacuous_c : let g := r_graph cB exCs in let C := kernel_of g 2 in
  is_cpu_backend cB /\ key_safe C /\ hist cB C exCs /\ valid g 2 /\ view_of g true 2 2 /\ computed g 2 /\ mat_ok (c_lang no_libm) g 2 /\
  exists s', materialize cB exCs 2 = (s', Done tt) /\
     tolist (r_graph cB s') (r_cpu cB s') 2 = Done (Nest [Leaf (CF (f64_of 3 (-2))); Leaf (CF (f64_of 15 (-2)))]).
Proof.
  cbn zeta. split; [right; eauto|]. split; [apply own_safeb_ok; vm_compute; reflexivity|]. split; [apply calls_state_hist|]. split; [vm_compute; lia|].
  split; [eapply vo_self; vm_compute; reflexivity|]. split; [eexists; split; vm_compute; reflexivity|].
  split. { split; [apply fits_all; vm_compute; reflexivity|]. exists Float64. intros n nd _ Hn Hc. destruct n as [|[|[|[|n]]]]; vm_compute in Hn; try discriminate; injection Hn as <-; reflexivity. }
  eexists. split; [apply pair_snd; vm_compute; reflexivity|vm_compute; reflexivity].
Qed.

(* ---------------------------------------------------------------- C02 *)
(* Any kernel that materializing any array may need, generated with the CPU schedule, executed on
   any memory in which the output buffer and the argument buffers have the lengths of their arrays
   (arbitrary contents): it never indexes a buffer outside [0, length), never uses an undefined or
   doubly declared variable (no fault), writes only the output buffer and keeps its length.
   Both languages (scoped or not, any arithmetic).  fits: sizes below 2^31 in C, nothing in Python. *)
Theorem C02_no_fault : forall (L : lang), lang_ok L -> forall g, reach g -> forall a, valid g a -> fits L g a ->
  forall E fs, convert g a = Done (E, fs) -> forall f fd, In f fs -> E f = Some fd ->
  forall scoped gp nd sc k kern k1 lo ls (m : store L) out,
  nth_error g f = Some nd -> schedule_cpu (sched_init fd) = Done sc -> codegen g E (func_args (f_expr fd)) fd sc k = Done (kern, k1) ->
  length ls = length (func_args (f_expr fd)) -> ~ In lo ls -> m lo = Some out -> Z.of_nat (length out) = zprod (n_shape nd) ->
  (forall i x l, nth_error (func_args (f_expr fd)) i = Some x -> nth_error ls i = Some l ->
     exists vs, m l = Some vs /\ Z.of_nat (length vs) = zprod (shape_of g (match x with ABuf n => n | AFnc n => n end))) ->
  exists m' oc out', run (bind_params (k_params kern) (lo :: ls)) (exec L scoped gp (pty_of (k_params kern)) (k_body kern) [[]]) m = (m', oc) /\
    oc <> FaultO /\ (forall b, m' b = if Nat.eqb b lo then Some out' else m b) /\ length out' = length out.
Proof. intros L HL g Hr a Ha Hfit E fs Hcv. exact (kernel_safe L HL g Hr a Ha (converted_ns _ _ _ _ Hr Ha Hcv) Hfit E fs Hcv). Qed.
Print Assumptions C02_no_fault.
(* In a process: no materialize() ends in a fault (InternalErr), by C01_failures; this needs key_safe,
   because a wrongly reused kernel does go out of bounds: b = x.broadcast_to((3,5)), b[:,0]+b[:,1] and
   then the same with (3,2) reads index 10 of a 6-element buffer (IndexError; undefined in C). *)
Definition all_ : sub := SSlice None None None.
Definition exBr (m : nat) : list ev :=
  [Call (CArange 3); Call (CReshape 0 [3; 1]); Call (CBroadcastTo 1 [3; 2]); Call (CGetitem 2 [all_; SInt 0]); Call (CGetitem 2 [all_; SInt 1]); Call (CBinary BAdd 3 4);
   Call (CBroadcastTo 1 [3; 5]); Call (CGetitem 6 [all_; SInt 0]); Call (CGetitem 6 [all_; SInt 1]); Call (CBinary BAdd 7 8); Mat m].
Theorem C02_reused_kernel_refuted : forall B, B = pyB \/ B = cB -> exists s a s1 s2, any_hist B s /\ valid (r_graph B s) a /\
  materialize B s a = (s1, Throw InternalErr) /\ materialize B (reset_cache B s) a = (s2, Done tt).
Proof.
  intros B [->| ->].
  - exists (sc_state pyB (exBr 9)), 5%nat. eexists _, _. split; [apply sc_state_any|]. split; [vm_compute; lia|].
    split; apply pair_snd; vm_compute; reflexivity.
  - exists (sc_state cB (exBr 9)), 5%nat. eexists _, _. split; [apply sc_state_any|]. split; [vm_compute; lia|].
    split; apply pair_snd; vm_compute; reflexivity.
Qed.
Print Assumptions C02_reused_kernel_refuted.
Example C02_nonvacuous : let g := r_graph pyB exHs in reach g /\ valid g 6 /\ no_scalar_reshape g 6 /\ fits (c_lang no_libm) g 6 /\
  match convert g 6 with Done (E, fs) => fs = [2; 5; 6]%nat /\ match E 6%nat with Some fd => exists sc, schedule_cpu (sched_init fd) = Done sc /\
     func_args (f_expr fd) = [AFnc 5] | None => False end | Throw _ => False end.
Proof.
  cbn zeta. split; [exact (j_reach _ _ (any_hist_inv pyB (py_lang_ok no_libm) _ (sc_state_any pyB exH)))|]. split; [vm_compute; lia|].
  split; [apply no_scalar_reshape_all; vm_compute; reflexivity|]. split; [apply fits_all; vm_compute; reflexivity|].
  vm_compute. split; [reflexivity|]. eexists. split; reflexivity.
Qed.

(* ---------------------------------------------------------------- C11 *)
(* The claim is false: three collisions of cache keys. *)
(* 1. pad/dilate expressions are not part of the key: [1,2,3].pad(0,2,0) then .pad(0,0,2) *)
Theorem C11_pad_refuted : exists s a s1 s2 l1 l2, any_hist pyB s /\ valid (r_graph pyB s) a /\
  materialize pyB s a = (s1, Done tt) /\ tolist (r_graph pyB s1) (r_cpu pyB s1) a = Done l1 /\
  materialize pyB (reset_cache pyB s) a = (s2, Done tt) /\ tolist (r_graph pyB s2) (r_cpu pyB s2) a = Done l2 /\
  l1 = Nest (map (fun z => Leaf (PI z)) [0; 0; 1; 2; 3]) /\ l2 = Nest (map (fun z => Leaf (PI z)) [1; 2; 3; 0; 0]).
Proof.
  exists (sc_state pyB [Call (CArray (Nest [Leaf (NInt 1); Leaf (NInt 2); Leaf (NInt 3)])); Call (CPad 0 0 2 0); Call (CPad 0 0 0 2); Mat 1]), 2%nat.
  eexists _, _, _, _. split; [apply sc_state_any|]. split; [vm_compute; lia|].
  split; [apply pair_snd; vm_compute; reflexivity|]. split; [vm_compute; reflexivity|]. split; [apply pair_snd; vm_compute; reflexivity|]. split; [vm_compute; reflexivity|].
  split; vm_compute; reflexivity.
Qed.
Print Assumptions C11_pad_refuted.
(* 2. the shape of a producer kernel's result is not part of the key: wrong elements are read *)
Theorem C11_producer_shape_refuted : exists s a s1 s2 l1 l2, any_hist pyB s /\ valid (r_graph pyB s) a /\
  materialize pyB s a = (s1, Done tt) /\ tolist (r_graph pyB s1) (r_cpu pyB s1) a = Done l1 /\
  materialize pyB (reset_cache pyB s) a = (s2, Done tt) /\ tolist (r_graph pyB s2) (r_cpu pyB s2) a = Done l2 /\
  l1 = Nest (map (fun z => Leaf (PI z)) [0; 1; 2]) /\ l2 = Nest (map (fun z => Leaf (PI z)) [0; 2; 4]).
Proof.
  exists (sc_state pyB (exBr 5)), 9%nat.
  eexists _, _, _, _. split; [apply sc_state_any|]. split; [vm_compute; lia|].
  split; [apply pair_snd; vm_compute; reflexivity|]. split; [vm_compute; reflexivity|]. split; [apply pair_snd; vm_compute; reflexivity|]. split; [vm_compute; reflexivity|].
  split; vm_compute; reflexivity.
Qed.
Print Assumptions C11_producer_shape_refuted.
(* 3. neither is which producers are the same array: S1*S1 and then S1*S2 (S1, S2 equal sums) calls a
   two-parameter kernel with three arguments *)
Theorem C11_producer_identity_refuted : exists s a s1 s2, any_hist pyB s /\ valid (r_graph pyB s) a /\
  materialize pyB s a = (s1, Throw TypeErr) /\ materialize pyB (reset_cache pyB s) a = (s2, Done tt).
Proof.
  exists (sc_state pyB [Call (CArange 4); Call (CSum 0 None false); Call (CSum 0 None false); Call (CBinary BMul 1 1); Call (CBinary BMul 1 2); Mat 3]), 4%nat.
  eexists _, _. split; [apply sc_state_any|]. split; [vm_compute; lia|]. split; apply pair_snd; vm_compute; reflexivity.
Qed.
Print Assumptions C11_producer_identity_refuted.
(* What holds.  PARTIAL: two kernels with the same key are the same program with the same parameters
   if they contain no pad/dilate and refer to other kernels' results in the same pattern (same
   identities up to renaming, same strides, same dtypes). *)
Theorem C11_same_key_same_code_partial : forall g1 a1 d1 g2 a2 d2 key,
  reach g1 -> valid g1 a1 -> kernel_of g1 a1 d1 -> reach g2 -> valid g2 a2 -> kernel_of g2 a2 d2 ->
  no_where (f_expr (d_f d1)) -> no_where (f_expr (d_f d2)) ->
  use_sig (d_E d1) (f_expr (d_f d1)) = use_sig (d_E d2) (f_expr (d_f d2)) ->
  key_of d1 = Done key -> key_of d2 = Done key -> forall k, code_of d1 k = code_of d2 k.
Proof. exact key_code_reach. Qed.
Print Assumptions C11_same_key_same_code_partial.
(* in particular kernels that read only constants and have no pad/dilate never collide *)
Theorem C11_plain_kernels_safe : key_safe plain_kernel.
Proof. exact plain_safe. Qed.
Print Assumptions C11_plain_kernels_safe.
(* not vacuous: arange(3)+arange(3) twice, over different arrays, gives two kernels with one key *)
Example C11_nonvacuous : let g := Prog.prog [CArange 3; CBinary BAdd 0 0; CArange 3; CBinary BAdd 2 2] in
  match convert g 1, convert g 3 with
  | Done (E1, [1%nat]), Done (E2, [3%nat]) =>
      match E1 1%nat, E2 3%nat with
      | Some f1, Some f2 => exists s1 s2 key, auto_schedule false f1 = Done s1 /\ auto_schedule false f2 = Done s2 /\
          plain_kernel (mkD g E1 f1 s1) /\ plain_kernel (mkD g E2 f2 s2) /\
          key_of (mkD g E1 f1 s1) = Done key /\ key_of (mkD g E2 f2 s2) = Done key
      | _, _ => False
      end
  | _, _ => False
  end.
Proof.
  cbn zeta. set (g := Prog.prog _). destruct (convert g 1) as [[E1 fs1]|] eqn:C1; [|vm_compute in C1; discriminate].
  destruct (convert g 3) as [[E2 fs2]|] eqn:C2; [|vm_compute in C2; discriminate].
  assert (Hr : reach g) by apply prog_reach.
  assert (P1 : forall d, kernel_of g 1 d -> plain_kernel d) by (apply plainb_ok; [exact Hr|vm_compute; reflexivity|vm_compute; reflexivity]).
  assert (P3 : forall d, kernel_of g 3 d -> plain_kernel d) by (apply plainb_ok; [exact Hr|vm_compute; reflexivity|vm_compute; reflexivity]).
  assert (K1 : forall f s, In 1%nat fs1 -> E1 1%nat = Some f -> auto_schedule false f = Done s -> plain_kernel (mkD g E1 f s)).
  { intros f s Hi Hf Hs. apply P1. exists 1%nat. eexists _, E1, fs1, 1%nat, f, s. repeat split; auto; vm_compute; reflexivity. }
  assert (K3 : forall f s, In 3%nat fs2 -> E2 3%nat = Some f -> auto_schedule false f = Done s -> plain_kernel (mkD g E2 f s)).
  { intros f s Hi Hf Hs. apply P3. exists 3%nat. eexists _, E2, fs2, 3%nat, f, s. repeat split; auto; vm_compute; reflexivity. }
  assert (Q1 : fs1 = [1%nat] /\ exists f s key, E1 1%nat = Some f /\ auto_schedule false f = Done s /\ key_of (mkD g E1 f s) = Done key /\
     fs2 = [3%nat] /\ exists f' s', E2 3%nat = Some f' /\ auto_schedule false f' = Done s' /\ key_of (mkD g E2 f' s') = Done key).
  { clear - C1 C2. vm_compute in C1. injection C1 as <- <-. vm_compute in C2. injection C2 as <- <-. split; [reflexivity|].
    eexists _, _, _. split; [vm_compute; reflexivity|]. split; [vm_compute; reflexivity|]. split; [vm_compute; reflexivity|]. split; [reflexivity|].
    eexists _, _. split; [vm_compute; reflexivity|]. split; vm_compute; reflexivity. }
  destruct Q1 as (-> & f & s & key & F1 & S1 & Y1 & -> & f' & s' & F2 & S2 & Y2). rewrite F1, F2. exists s, s', key.
  repeat split; auto; first [apply K1|apply K3]; auto; now left.
Qed.

(* ---------------------------------------------------------------- C12 *)
(* Two processes with different histories (s1, s2), both containing the same expression graph g as a
   prefix of what they built; in both x is materialized successfully and then anything else happens
   (t1, t2).  x.tolist() is the same in both.  PARTIAL: key_safe and mat_ok as in C01. *)
Theorem C12_history_free_partial : forall B C1 C2 s1 s2 g e1 e2 a b s1' s2' t1 t2, is_cpu_backend B -> key_safe C1 -> key_safe C2 ->
  hist B C1 s1 -> hist B C2 s2 -> r_graph B s1 = g ++ e1 -> r_graph B s2 = g ++ e2 -> valid g a -> reach g ->
  view_of g true a b -> computed g b -> mat_ok (b_lang B) (r_graph B s1) b -> mat_ok (b_lang B) (r_graph B s2) b ->
  (forall d, kernel_of (r_graph B s1) a d -> C1 d) -> (forall d, kernel_of (r_graph B s2) a d -> C2 d) ->
  materialize B s1 a = (s1', Done tt) -> materialize B s2 a = (s2', Done tt) -> later B C1 s1' t1 -> later B C2 s2' t2 ->
  exists l, tolist (r_graph B t1) (r_cpu B t1) a = Done l /\ tolist (r_graph B t2) (r_cpu B t2) a = Done l.
Proof. exact history_free. Qed.
Print Assumptions C12_history_free_partial.
(* success does not depend on the history either *)
Theorem C12_same_outcome_partial : forall B C1 C2 s1 s2 a b s1', is_cpu_backend B -> key_safe C1 -> key_safe C2 ->
  hist B C1 s1 -> hist B C2 s2 -> r_graph B s2 = r_graph B s1 -> valid (r_graph B s1) a -> base (r_graph B s1) a = Some b ->
  mat_ok (b_lang B) (r_graph B s1) b ->
  (forall d, kernel_of (r_graph B s1) a d -> C1 d) -> (forall d, kernel_of (r_graph B s1) a d -> C2 d) ->
  materialize B s1 a = (s1', Done tt) -> exists s2', materialize B s2 a = (s2', Done tt).
Proof. exact same_outcome. Qed.
Print Assumptions C12_same_outcome_partial.
(* instance without any hypothesis on keys *)
Theorem C12_plain_python : forall lm s1 s2 g e1 e2 a b s1' s2' t1 t2, let B := py_backend lm in
  hist B plain_kernel s1 -> hist B plain_kernel s2 -> r_graph B s1 = g ++ e1 -> r_graph B s2 = g ++ e2 -> valid g a -> reach g ->
  view_of g true a b -> computed g b ->
  (forall d, kernel_of (r_graph B s1) a d -> plain_kernel d) -> (forall d, kernel_of (r_graph B s2) a d -> plain_kernel d) ->
  materialize B s1 a = (s1', Done tt) -> materialize B s2 a = (s2', Done tt) -> later B plain_kernel s1' t1 -> later B plain_kernel s2' t2 ->
  exists l, tolist (r_graph B t1) (r_cpu B t1) a = Done l /\ tolist (r_graph B t2) (r_cpu B t2) a = Done l.
Proof.
  intros lm s1 s2 g e1 e2 a b s1' s2' t1 t2 B H1 H2 G1 G2 Ha Hr Hv Hc K1 K2.
  apply (history_free B plain_kernel plain_kernel s1 s2 g e1 e2 a b s1' s2' t1 t2); auto; try apply plain_safe; try apply py_mat_ok; try (left; exists lm; reflexivity).
Qed.
Print Assumptions C12_plain_python.
Definition exP0 : list ev := [Call (CArange 3); Call (CUnary UNeg 0); Call (CBinary BMul 1 0)].
Example C12_nonvacuous : let s1 := pl_state no_libm exP0 in
  let s2 := pl_state no_libm (exP0 ++ [Mat 1; Call (CSum 2 None false); Mat 3; Reset; Call (CBinary BAdd 1 1)]) in
  let g := r_graph pyB s1 in
  hist pyB plain_kernel s1 /\ hist pyB plain_kernel s2 /\ (exists e2, r_graph pyB s2 = g ++ e2 /\ length e2 = 2%nat) /\ valid g 2 /\ view_of g true 2 2 /\
  computed g 2 /\ plainb g 2 = true /\ plainb (r_graph pyB s2) 2 = true /\
  snd (materialize pyB s1 2) = Done tt /\ snd (materialize pyB s2 2) = Done tt /\ r_runs pyB s1 = 0%nat /\ r_runs pyB s2 = 2%nat.
Proof.
  cbn zeta. split; [apply pl_state_hist|]. split; [apply pl_state_hist|]. split; [eexists [_; _]; split; [vm_compute; reflexivity|reflexivity]|].
  split; [vm_compute; lia|]. split; [eapply vo_self; vm_compute; reflexivity|]. split; [eexists; split; vm_compute; reflexivity|]. repeat split; vm_compute; reflexivity.
Qed.
(* without key_safe the claim is false: it is C11_pad_refuted / C11_producer_shape_refuted *)
Theorem C12_refuted : exists s a s1 l1 l2, any_hist pyB s /\ materialize pyB s a = (s1, Done tt) /\ tolist (r_graph pyB s1) (r_cpu pyB s1) a = Done l1 /\
  t_tolist (den (py_alg no_libm) (r_graph pyB s) a) = Ok l2 /\ l1 <> l2.
Proof.
  exists (sc_state pyB (exBr 5)), 9%nat. eexists _, _, _. split; [apply sc_state_any|].
  split; [apply pair_snd; vm_compute; reflexivity|]. split; [vm_compute; reflexivity|]. split; [vm_compute; reflexivity|]. vm_compute. discriminate.
Qed.
Print Assumptions C12_refuted.

(* ---------------------------------------------------------------- C13 *)
(* In every history (no condition on keys, sizes, dtypes, or success): the list of numbers of every
   constant array stays what the user gave. *)
Theorem C13_user_data_kept : forall B s t n nd vals, is_cpu_backend B -> any_hist B s -> any_later B s t ->
  nth_error (r_graph B s) n = Some nd -> n_op nd = OConst vals ->
  r_cpu B s n = Some (map (of_num (b_lang B)) vals) /\ r_cpu B t n = Some (map (of_num (b_lang B)) vals) /\ nth_error (r_graph B t) n = Some nd.
Proof. exact user_data_kept. Qed.
Print Assumptions C13_user_data_kept.
(* and one materialize() changes no array that is not part of the expression *)
Theorem C13_others_kept : forall B s a, is_cpu_backend B -> any_hist B s -> valid (r_graph B s) a ->
  r_graph B (fst (materialize B s a)) = r_graph B s /\
  forall n, ~ cone (r_graph B s) a n -> r_cpu B (fst (materialize B s a)) n = r_cpu B s n.
Proof. exact others_kept. Qed.
Print Assumptions C13_others_kept.
Example C13_nonvacuous : any_hist pyB exHs /\ (exists nd vals, nth_error (r_graph pyB exHs) 0 = Some nd /\ n_op nd = OConst vals /\ length vals = 6%nat) /\
  r_cpu pyB (fst (materialize pyB exHs 6)) 6%nat <> None /\ r_cpu pyB exHs 6%nat = None /\ r_cpu pyB exHs 2%nat <> None.
Proof. split; [apply sc_state_any|]. split; [eexists _, _; split; [vm_compute; reflexivity|]; split; [vm_compute; reflexivity|reflexivity]|]. repeat split; vm_compute; congruence. Qed.

(* ---------------------------------------------------------------- C14 *)
Theorem C14_idempotent_partial : forall B C s a b s', is_cpu_backend B -> key_safe C -> hist B C s -> valid (r_graph B s) a -> base (r_graph B s) a = Some b ->
  mat_ok (b_lang B) (r_graph B s) b -> (forall d, kernel_of (r_graph B s) a d -> C d) ->
  materialize B s a = (s', Done tt) ->
  exists s'', materialize B s' a = (s'', Done tt) /\ r_graph B s'' = r_graph B s' /\ forall n, r_cpu B s'' n = r_cpu B s' n.
Proof. exact idempotent. Qed.
Print Assumptions C14_idempotent_partial.
Theorem C14_plain_python : forall lm s a b s', let B := py_backend lm in hist B plain_kernel s -> valid (r_graph B s) a -> base (r_graph B s) a = Some b ->
  (forall d, kernel_of (r_graph B s) a d -> plain_kernel d) -> materialize B s a = (s', Done tt) ->
  exists s'', materialize B s' a = (s'', Done tt) /\ r_graph B s'' = r_graph B s' /\ forall n, r_cpu B s'' n = r_cpu B s' n.
Proof. intros lm s a b s' B Hs Ha Hb Hk. apply (idempotent B plain_kernel s a b); auto; try apply plain_safe; try apply py_mat_ok; try (left; exists lm; reflexivity). Qed.
Print Assumptions C14_plain_python.
Example C14_nonvacuous : let s := pl_state no_libm (exP0 ++ [Mat 1]) in hist pyB plain_kernel s /\ valid (r_graph pyB s) 2 /\ base (r_graph pyB s) 2 = Some 2%nat /\
  plainb (r_graph pyB s) 2 = true /\ snd (materialize pyB s 2) = Done tt /\ r_runs pyB (fst (materialize pyB s 2)) = 2%nat.
Proof. cbn zeta. split; [apply pl_state_hist|]. split; [vm_compute; lia|]. repeat split; vm_compute; reflexivity. Qed.

(* ---------------------------------------------------------------- C34 *)
(* the whole process state is unchanged: no kernel compiled, cached or run, no buffer touched *)
Theorem C34_views_of_constants : forall B s a b bd, is_cpu_backend B -> any_hist B s -> valid (r_graph B s) a -> base (r_graph B s) a = Some b ->
  nth_error (r_graph B s) b = Some bd -> is_const (n_op bd) = true -> materialize B s a = (s, Done tt).
Proof. exact const_views. Qed.
Print Assumptions C34_views_of_constants.
(* base: what one reaches by following transpose/slice/broadcast/reshape views *)
Theorem C34_base_is_view_chain : forall g al a b, wf_graph g -> view_of g al a b -> base g a = Some b.
Proof. exact TolistFacts.view_of_base. Qed.
Print Assumptions C34_base_is_view_chain.
(* and reading it needs no materialize() at all *)
Theorem C34_read_without_kernel : forall lm s a b bd, let B := py_backend lm in any_hist B s -> view_of (r_graph B s) true a b ->
  nth_error (r_graph B s) b = Some bd -> is_const (n_op bd) = true ->
  exists l, tolist (r_graph B s) (r_cpu B s) a = Done l /\ t_tolist (den (py_alg lm) (r_graph B s) a) = Ok l.
Proof. exact const_views_read. Qed.
Print Assumptions C34_read_without_kernel.
Example C34_nonvacuous : let s := sc_state pyB (map Call [CArange 6; CReshape 0 [2; 3]; CT 1; CGetitem 2 [SSlice (Some 1) None None]; CBroadcastTo 3 [4; 2; 2]]) in
  let g := r_graph pyB s in any_hist pyB s /\ view_of g true 4 0 /\ (exists bd, nth_error g 0 = Some bd /\ is_const (n_op bd) = true) /\ length g = 5%nat.
Proof.
  cbn zeta. split; [apply sc_state_any|]. split.
  - do 4 (eapply vo_step; [vm_compute; reflexivity|vm_compute; reflexivity|vm_compute; reflexivity|vm_compute; reflexivity|intros _ [s Hs]; first [vm_compute; reflexivity|vm_compute in Hs; discriminate]|]). eapply vo_self; vm_compute; reflexivity.
  - split; [eexists; split; vm_compute; reflexivity|vm_compute; reflexivity].
Qed.

(* ---------------------------------------------------------------- C36 *)
(* an array none of whose kernels ever ran: AttributeError *)
Theorem C36_never_run : forall B s a b, wf_graph (r_graph B s) -> base (r_graph B s) a = Some b -> valid (r_graph B s) a -> r_cpu B s b = None ->
  tolist (r_graph B s) (r_cpu B s) a = Throw AttrErr.
Proof. exact read_never_run. Qed.
Print Assumptions C36_never_run.
(* PARTIAL: in a history in which every materialize() succeeded, whatever tolist() returns, for any
   computed array (materialized itself or as an intermediate, or not), are its elements *)
Theorem C36_only_computed_partial : forall B C s a b bd l, is_cpu_backend B -> key_safe C -> ok_hist B C s ->
  view_of (r_graph B s) true a b -> nth_error (r_graph B s) b = Some bd -> is_const (n_op bd) = false ->
  tolist (r_graph B s) (r_cpu B s) a = Done l -> t_tolist (den (b_lang B) (r_graph B s) a) = Ok l.
Proof. exact read_computed_only. Qed.
Print Assumptions C36_only_computed_partial.
Example C36_nonvacuous : let s0 := sc_state pyB (map Call [CArange 3; CSum 0 None false; CBinary BAdd 1 1]) in let C := kernel_of (r_graph pyB s0) 2 in
  let s := fst (materialize pyB s0 2) in key_safe C /\ ok_hist pyB C s /\ view_of (r_graph pyB s) true 1 1 /\
  tolist (r_graph pyB s) (r_cpu pyB s) 1 = Done (Leaf (PI 3)) /\ tolist (r_graph pyB s0) (r_cpu pyB s0) 1 = Throw AttrErr.
Proof.
  cbn zeta. split; [apply own_safeb_ok; vm_compute; reflexivity|]. split.
  - match goal with |- ok_hist ?B ?C (fst (materialize _ ?s0 2)) => assert (H0 : ok_hist B C s0) end.
    { change (sc_state pyB _) with (fst (api_call pyB (fst (api_call pyB (fst (api_call pyB (rt0 pyB) (CArange 3))) (CSum 0 None false))) (CBinary BAdd 1 1))).
      apply o_call; [apply o_call; [apply o_call; [apply o_init|]|]|]; apply call_okb_ok; vm_compute; reflexivity. }
    eapply o_mat with (a := 2%nat); [exact H0|vm_compute; lia|intros b _; apply py_mat_ok|intros d Hd; exact Hd|apply pair_snd; vm_compute; reflexivity].
  - split; [eapply vo_self; vm_compute; reflexivity|]. split; vm_compute; reflexivity.
Qed.
(* after a kernel raised midway, tolist() shows what was computed so far and zeros:
   [6,6,6]/[1,0,2] raises ZeroDivisionError, then tolist() = [6.0, 0, 0] *)
Theorem C36_after_exception_refuted : exists s a s1 l, any_hist pyB s /\ materialize pyB s a = (s1, Throw ValueErr) /\
  tolist (r_graph pyB s1) (r_cpu pyB s1) a = Done l /\ t_tolist (den (py_alg no_libm) (r_graph pyB s1) a) = Raise /\
  l = Nest [Leaf (PF (f64_of 6 0)); Leaf (PI 0); Leaf (PI 0)].
Proof.
  exists (sc_state pyB (map Call [CArray (Nest [Leaf (NInt 6); Leaf (NInt 6); Leaf (NInt 6)]); CArray (Nest [Leaf (NInt 1); Leaf (NInt 0); Leaf (NInt 2)]); CBinary BTruediv 0 1])), 2%nat.
  eexists _, _. split; [apply sc_state_any|]. split; [apply pair_snd; vm_compute; reflexivity|]. split; [vm_compute; reflexivity|]. split; vm_compute; reflexivity.
Qed.
Print Assumptions C36_after_exception_refuted.
