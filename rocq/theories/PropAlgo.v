(* Properties C03, C04, C05, C35: from expressions to kernels. *)
From Verif Require Import Base Util Lang Spec Graph Api Denote ArrayLit Reach Algo AlgoSem Kernel Sched Codegen Backends LangInst Prog
  BaseFacts ApiFacts AlgoConv AlgoConv2 AlgoFuse2 AlgoConvert AlgoConvert2 KernelRun BackendFacts AlgoTop AlgoMore.

(* Example: 0 = [[1,2,3],[4,5,6]]; 1 = exp-free chain: 1 = 0.T; 2 = -1; 3 = 2 + 2 (2 is shared);
   4 = sum of 3 over axis 0 (keepdims); 5 = broadcast of 4 to (3,2), 6 = 3 * 5;
   7 = 6.reshape(6), 8 = 7[1::2], 9 = pad(8, 0, 1, 1) *)
Definition exA : graph := prog
  [CArray (Nest [Nest [Leaf (NInt 1); Leaf (NInt 2); Leaf (NInt 3)]; Nest [Leaf (NInt 4); Leaf (NInt 5); Leaf (NInt 6)]]);
   CT 0; CUnary UNeg 1; CBinary BAdd 2 2; CSum 3 (Some [0]) true; CBinary BMul 3 4; CReshape 6 [6];
   CGetitem 7 [SSlice (Some 1) None (Some 2)]; CPad 8 0 1 1].
Example exA_ok : length exA = 10%nat. Proof. vm_compute. reflexivity. Qed.

(* C03: in every list of kernels produced for an array, the (fused) expression of every kernel,
   evaluated on the true elements of the arrays it reads, gives the true elements of the array the
   kernel computes.  Hypotheses: the index arithmetic fits the language's integers (always true in
   Python, see C03_python) and all computed arrays have one dtype (needed in C, see the refutation;
   vacuous in Python). *)
Theorem C03_fusion_transparent_partial : forall (L : lang) g a D E fs f fd idx,
  lang_ok L -> reach g -> valid g a -> fits L g a -> one_dtype L g a D ->
  convert g a = Done (E, fs) -> In f fs -> E f = Some fd -> in_range (shape_of g f) idx ->
  evalV L (shape_of g) (fun n i => t_at (den L g n) i) D (f_expr fd) (lenv f (shape_of g f) idx) = t_at (den L g f) idx.
Proof. intros; eapply fusion_transparent; eauto using converted_ns. Qed.
Print Assumptions C03_fusion_transparent_partial.
(* In Python there is no dtype conversion and no integer bound. *)
Theorem C03_fusion_transparent_python : forall lm g a E fs f fd idx,
  reach g -> valid g a ->   convert g a = Done (E, fs) -> In f fs -> E f = Some fd -> in_range (shape_of g f) idx ->
  evalV (py_lang lm) (shape_of g) (fun n i => t_at (den (py_alg lm) g n) i) (f_dtype fd) (f_expr fd) (lenv f (shape_of g f) idx)
    = t_at (den (py_alg lm) g f) idx.
Proof. intros; eapply fusion_transparent_python; eauto using converted_ns. Qed.
Print Assumptions C03_fusion_transparent_python.
Example C03_nonvacuous : reach exA /\ no_scalar_reshape exA 9 /\ exists E, convert exA 9 = Done (E, [2; 3; 4; 9]%nat) /\
  t_at (den (py_alg no_libm) exA 9) [1] = Ok (PI 240).
Proof.
  split; [apply prog_reach|]. split; [apply no_scalar_reshape_all; vm_compute; reflexivity|].
  eexists. split; [vm_compute; reflexivity|vm_compute; reflexivity].
Qed.
(* C with mixed dtypes: i = [1] (int64), f = [0.5] (float64).  i + f is an int64 array ([1]), so
   f + (i + f) is 1.5; the fused kernel keeps the intermediate sum in a double and gives 2.0. *)
Definition exMix : graph := prog
  [CArray (Nest [Leaf (NInt 1)]); CArray (Nest [Leaf (NFlt 1 (-1))]); CBinary BAdd 0 1; CBinary BAdd 1 2].
Theorem C03_c_mixed_dtype_refuted : exists g a E fs fd x y,
  reach g /\ no_scalar_reshape g a /\ fits (c_lang no_libm) g a /\ convert g a = Done (E, fs) /\ In a fs /\ E a = Some fd /\
  t_at (den (c_alg no_libm) g a) [0] = Ok x /\
  evalV (c_lang no_libm) (shape_of g) (fun n i => t_at (den (c_alg no_libm) g n) i) (f_dtype fd) (f_expr fd) (lenv a (shape_of g a) [0]) = Ok y /\
  x = CF (f64_of 3 (-1)) /\ y = CF (f64_of 2 0) /\ x <> y.
Proof.
  exists exMix, 3%nat. eexists _, _, _, _, _. split; [apply prog_reach|]. split; [apply no_scalar_reshape_all; vm_compute; reflexivity|].
  split; [apply fits_all; vm_compute; reflexivity|].
  split; [vm_compute; reflexivity|]. split; [now left|]. split; [vm_compute; reflexivity|].
  split; [vm_compute; reflexivity|]. split; [vm_compute; reflexivity|]. split; [vm_compute; reflexivity|]. split; [vm_compute; reflexivity|].
  vm_compute. discriminate.
Qed.
Print Assumptions C03_c_mixed_dtype_refuted.

(* C04: conversion, scheduling and code generation of a valid expression never fail, on any
   backend, whatever the value of the code generator's temporary counter.  PARTIAL: expressions
   that use a reshape to shape () are excluded (they raise TypeError); Python's recursion limit is
   not modelled. *)
Theorem C04_compilation_total_partial : forall b g a, reach g -> valid g a -> no_scalar_reshape g a ->
  exists E fs, convert g a = Done (E, fs) /\
    forall f, In f fs -> exists fd, E f = Some fd /\ forall k, exists s kern k', gen b g E fd k = Done (s, kern, k').
Proof. exact compilation_total. Qed.
Print Assumptions C04_compilation_total_partial.
Example C04_nonvacuous : reach exA /\ valid exA 9 /\ no_scalar_reshape exA 9.
Proof. split; [apply prog_reach|]. split; [vm_compute; lia|]. apply no_scalar_reshape_all; vm_compute; reflexivity. Qed.
(* The exact statement: an array compiles, on any backend, if and only if its expression contains no
   reshape to shape (); otherwise conversion raises TypeError (functools.reduce() of an empty iterable). *)
Theorem C04_compiles_iff : forall b g a, reach g -> valid g a ->
  (no_scalar_reshape g a /\ exists E fs, convert g a = Done (E, fs) /\
     forall f, In f fs -> exists fd, E f = Some fd /\ forall k, exists s kern k', gen b g E fd k = Done (s, kern, k')) \/
  (~ no_scalar_reshape g a /\ convert g a = Throw TypeErr).
Proof.
  intros b g a Hr Ha. destruct (convert g a) as [[E fs]|e] eqn:HC.
  - left. pose proof (converted_ns _ _ _ _ Hr Ha HC) as Hns. split; [exact Hns|]. rewrite <- HC. exact (compilation_total b g a Hr Ha Hns).
  - right. assert (HN : ~ no_scalar_reshape g a).
    { intros Hns. destruct (compilation_total b g a Hr Ha Hns) as (E & fs & H & _). congruence. }
    split; [exact HN|]. rewrite <- HC. exact (not_converted _ _ Hr Ha HN).
Qed.
Print Assumptions C04_compiles_iff.
(* -(array([5]).reshape(())) *)
Theorem C04_scalar_reshape_refuted : exists g a, reach g /\ valid g a /\ convert g a = Throw TypeErr.
Proof.
  exists (prog [CArray (Nest [Leaf (NInt 5)]); CReshape 0 []; CUnary UNeg 1]), 2%nat.
  split; [apply prog_reach|]. split; [vm_compute; lia|]. vm_compute. reflexivity.
Qed.
Print Assumptions C04_scalar_reshape_refuted.

(* C05: each kernel once; the requested array last; every array a kernel reads is a constant or
   was computed by an earlier kernel; only arrays the requested one depends on are computed *)
Theorem C05_dependency_order : forall g a E fs, reach g -> valid g a -> convert g a = Done (E, fs) ->
  NoDup fs /\ (exists l, fs = l ++ [a]) /\ (forall f, In f fs -> cone g a f) /\
  forall l1 f l2, fs = l1 ++ f :: l2 -> exists fd, E f = Some fd /\ f_out fd = f /\
    forall x, In x (func_args (f_expr fd)) ->
      match x with ABuf n => exists nd, nth_error g n = Some nd /\ is_const (n_op nd) = true | AFnc d => In d l1 end.
Proof. intros; eapply dependency_order; eauto using converted_ns. Qed.
Print Assumptions C05_dependency_order.
Example C05_nonvacuous : reach exA /\ exists E fd, convert exA 9 = Done (E, [2; 3; 4; 9]%nat) /\ E 9%nat = Some fd /\
  func_args (f_expr fd) = [AFnc 3; AFnc 4].
Proof. split; [apply prog_reach|]. eexists _, _. split; [vm_compute; reflexivity|]. split; vm_compute; reflexivity. Qed.

(* C35: every kernel beyond the one of the requested array computes a reduction or an array that is
   used at least twice (two operand positions) in the expression; constants never get a kernel *)
Theorem C35_kernel_reasons : forall g a E fs, reach g -> valid g a -> convert g a = Done (E, fs) ->
  NoDup fs /\ In a fs /\
  forall f, In f fs -> f <> a -> cone g a f /\ exists nd, nth_error g f = Some nd /\ is_const (n_op nd) = false /\
     ((exists ax kd, n_op nd = OSum ax kd) \/ used_twice g a f).
Proof. intros; eapply kernel_reasons; eauto using converted_ns. Qed.
Print Assumptions C35_kernel_reasons.
Theorem C35_kernel_count : forall g a E fs shared, reach g -> valid g a -> convert g a = Done (E, fs) ->
  (forall f nd, cone g a f -> f <> a -> nth_error g f = Some nd -> is_const (n_op nd) = false ->
     (exists ax kd, n_op nd = OSum ax kd) \/ used_twice g a f -> In f shared) ->
  (length fs <= 1 + length shared)%nat.
Proof. intros; eapply kernel_count; eauto using converted_ns. Qed.
Print Assumptions C35_kernel_count.
Theorem C35_one_kernel : forall g a E fs, reach g -> valid g a -> convert g a = Done (E, fs) ->
  (forall f nd, cone g a f -> f <> a -> nth_error g f = Some nd -> is_const (n_op nd) = false ->
     (forall ax kd, n_op nd <> OSum ax kd) /\ ~ used_twice g a f) ->
  fs = [a].
Proof. intros; eapply one_kernel; eauto using converted_ns. Qed.
Print Assumptions C35_one_kernel.
(* a constant used twice does not prevent fusion: a*a + a is one kernel *)
Definition exOne : graph := prog [CArange 4; CBinary BMul 0 0; CBinary BAdd 1 0; CUnary USqrt 2].
Example C35_nonvacuous : reach exOne /\ no_scalar_reshape exOne 3 /\ (exists E, convert exOne 3 = Done (E, [3%nat])) /\
  (forall f nd, cone exOne 3 f -> f <> 3%nat -> nth_error exOne f = Some nd -> is_const (n_op nd) = false ->
     (forall ax kd, n_op nd <> OSum ax kd) /\ ~ used_twice exOne 3 f).
Proof.
  split; [apply prog_reach|]. split; [apply no_scalar_reshape_all; vm_compute; reflexivity|]. split; [eexists; vm_compute; reflexivity|].
  intros f nd _ Hne Hnd Hc. assert (Hop : forall n k x, operand exOne n k x -> is_const (match nth_error exOne x with Some y => n_op y | None => OContiguous end) = false ->
     (n = 2 /\ k = 0 /\ x = 1)%nat \/ (n = 3 /\ k = 0 /\ x = 2)%nat).
  { intros n k x (nd' & H1 & H2). destruct n as [|[|[|[|[|]]]]]; vm_compute in H1; try discriminate; injection H1 as <-;
      destruct k as [|[|[|]]]; vm_compute in H2; try discriminate; injection H2 as <-; vm_compute; intros; auto; discriminate. }
  split.
  - intros ax kd. destruct f as [|[|[|[|[|]]]]]; vm_compute in Hnd; try discriminate; injection Hnd as <-; discriminate.
  - intros (n1 & k1 & n2 & k2 & H & _ & _ & O1 & O2). apply Hop in O1; [|now rewrite Hnd]. apply Hop in O2; [|now rewrite Hnd].
    destruct O1 as [(-> & -> & ?)|(-> & -> & ?)], O2 as [(-> & -> & ?)|(-> & -> & ?)]; try congruence.
Qed.
