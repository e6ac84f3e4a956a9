(* Properties C37, C38: the kernel languages Python and C. *)
From Coq Require Import Floats.SpecFloat.
From Verif Require Import Base BaseFacts Util Lang Spec Graph Api Denote ArrayLit Reach Tolist Algo AlgoSem AlgoConvert2 Kernel Sched Codegen Backends LangInst Prog
  KernelRun BackendFacts AlgoTop AlgoMore CacheKey Runtime RuntimeFacts RuntimeFacts2 History HistFacts RtInst CacheFacts Frame HistFacts2 HistTools Safety RuntimeTop Lockstep Agree ApiFacts Parallel ParTop ParGpu.
Notation pyB := (py_backend no_libm).
Notation cB := (c_backend no_libm).

(* ---------------------------------------------------------------- C37 *)
(* the integer operations of generated index arithmetic, as mathematics (floor division) *)
Definition index_op (b : bop) (x y : Z) : option Z :=
  match b with
  | BAdd => Some (x + y)
  | BSub => Some (x - y)
  | BMul => Some (x * y)
  | BFloordiv => if y =? 0 then None else Some (x / y)
  | BMod => if y =? 0 then None else Some (x mod y)
  | BEq => Some (if x =? y then 1 else 0)
  | BGe => Some (if y <=? x then 1 else 0)
  | BLt => Some (if x <? y then 1 else 0)
  | BLe => Some (if x <=? y then 1 else 0)
  | BAnd => if (x <=? 1) && (y <=? 1) then Some (x * y) else None
  | _ => None
  end.
(* a C integer of either width *)
Definition c_is (v : cval) (z : Z) : Prop := v = CI32 z \/ v = CI64 z.
(* On operands in [0, 2^31) with a result in [0, 2^31), Python's //, % etc. and C's /, % etc. are the
   same function, whatever mixture of int and int64_t C uses. *)
Theorem C37_operators_agree : forall lp lc b x y z u w, index_op b x y = Some z ->
  0 <= x < 2 ^ 31 -> 0 <= y < 2 ^ 31 -> 0 <= z < 2 ^ 31 -> c_is u x -> c_is w y ->
  py_bin lp b (PI x) (PI y) = Some (PI z) /\ exists v, c_bin lc b u w = Some v /\ c_is v z.
Proof.
  intros lp lc b x y z u w Ho Hx Hy Hz Hu Hw.
  pose proof (py_lang_ok lp) as HP. pose proof (c_lang_ok lc) as HC.
  assert (X1 : inB (py_lang lp) x) by (split; [lia|exact I]). assert (Y1 : inB (py_lang lp) y) by (split; [lia|exact I]). assert (Z1 : inB (py_lang lp) z) by (split; [lia|exact I]).
  assert (X2 : inB (c_lang lc) x) by (split; [lia|exact (proj2 Hx)]). assert (Y2 : inB (c_lang lc) y) by (split; [lia|exact (proj2 Hy)]). assert (Z2 : inB (c_lang lc) z) by (split; [lia|exact (proj2 Hz)]).
  assert (G : (exists v, bin (py_lang lp) b (PI x) (PI y) = Some v /\ reps (py_lang lp) v z) /\ (exists v, bin (c_lang lc) b u w = Some v /\ reps (c_lang lc) v z)).
  { destruct b; cbn [index_op] in Ho; try discriminate.
    - injection Ho as <-. split; [now apply (ok_add _ HP)|now apply (ok_add _ HC)].
    - injection Ho as <-. split; [now apply (ok_sub _ HP)|now apply (ok_sub _ HC)].
    - injection Ho as <-. split; [now apply (ok_mul _ HP)|now apply (ok_mul _ HC)].
    - destruct (Z.eqb_spec y 0); [discriminate|]. injection Ho as <-. split; [apply (ok_floordiv _ HP); first [reflexivity|assumption|lia]|apply (ok_floordiv _ HC); first [assumption|lia]].
    - destruct (Z.eqb_spec y 0); [discriminate|]. injection Ho as <-. split; [apply (ok_mod _ HP); first [reflexivity|assumption|lia]|apply (ok_mod _ HC); first [assumption|lia]].
    - destruct ((x <=? 1) && (y <=? 1)) eqn:E; [|discriminate]. injection Ho as <-. apply andb_true_iff in E as [E1 E2]. apply Z.leb_le in E1, E2.
      assert (Ex : exists c : bool, x = b2z c) by (exists (x =? 1); destruct (Z.eqb_spec x 1); cbn; lia). destruct Ex as [c ->].
      assert (Ey : exists c : bool, y = b2z c) by (exists (y =? 1); destruct (Z.eqb_spec y 1); cbn; lia). destruct Ey as [c' ->].
      replace (b2z c * b2z c') with (b2z (c && c')) by (destruct c, c'; reflexivity).
      split; [now apply (ok_and _ HP)|now apply (ok_and _ HC)].
    - injection Ho as <-. split; [now apply (ok_eq _ HP)|now apply (ok_eq _ HC)].
    - injection Ho as <-. rewrite <- Z.geb_leb. split; [now apply (ok_ge _ HP)|now apply (ok_ge _ HC)].
    - injection Ho as <-. split; [now apply (ok_lt _ HP)|now apply (ok_lt _ HC)].
    - injection Ho as <-. split; [now apply (ok_le _ HP)|now apply (ok_le _ HC)]. }
  destruct G as [(v & G1 & G2) G3]. split; [|exact G3]. cbn in G2. subst v. exact G1.
Qed.
Print Assumptions C37_operators_agree.
(* the bounds matter: an int product of 2^31 overflows, and / of a negative number rounds differently *)
Example C37_operators_tight : c_bin no_libm BMul (CI32 65536) (CI32 32768) = None /\
  py_bin no_libm BFloordiv (PI (-1)) (PI 2) = Some (PI (-1)) /\ c_bin no_libm BFloordiv (CI32 (-1)) (CI32 2) = Some (CI32 0).
Proof. repeat split; vm_compute; reflexivity. Qed.

(* The lockstep machine (Lockstep.v) runs the Python and the C arithmetic of one kernel side by side.
   An integer keeps its mark only while the two languages agree on it and it lies in [0, 2^31); a
   result has the mark only if all its operands have it; data read from buffers never has it.
   Indexing with an unmarked value is a fault; branching on one is decided by the adversary [adv].

   For every expression whose arrays have fewer than 2^31 elements (fits), every kernel it needs, every
   Python memory and C memory with arrays of the right lengths (any contents): the lockstep run ends
   normally - so every index, address and branch condition of the kernel, with all intermediate results,
   is the same integer in both languages and in [0, 2^31) - and what it computes is, on one side, what
   the Python kernel stores and, on the other, what the C kernel stores. *)
Theorem C37_index_arithmetic : forall lp lc (adv : duo -> bool) g a E fs f fd nd sc k kern k1 lo ls mp mc outp outc scoped gp,
  reach g -> valid g a -> fits (c_lang lc) g a -> convert g a = Done (E, fs) -> In f fs -> E f = Some fd ->
  nth_error g f = Some nd -> schedule_cpu (sched_init fd) = Done sc -> codegen g E (func_args (f_expr fd)) fd sc k = Done (kern, k1) ->
  length ls = length (func_args (f_expr fd)) -> ~ In lo ls ->
  mp lo = Some outp -> mc lo = Some outc -> Z.of_nat (length outp) = zprod (n_shape nd) -> Z.of_nat (length outc) = zprod (n_shape nd) ->
  (forall i x l, nth_error (func_args (f_expr fd)) i = Some x -> nth_error ls i = Some l ->
     exists vp vc, mp l = Some vp /\ mc l = Some vc /\ Z.of_nat (length vp) = zprod (shape_of g (match x with ABuf n => n | AFnc n => n end)) /\
       Z.of_nat (length vc) = zprod (shape_of g (match x with ABuf n => n | AFnc n => n end))) ->
  let run_in (L : lang) scoped gp (m : store L) :=
    run (bind_params (k_params kern) (lo :: ls)) (exec L scoped gp (pty_of (k_params kern)) (k_body kern) [[]]) m in
  exists m' r out', run_in (duo_lang lp lc adv) scoped gp (duo_mem mp mc) = (m', OkO r) /\ m' lo = Some out' /\
    (forall sp gpp mp' rp, run_in (py_lang lp) sp gpp mp = (mp', OkO rp) -> exists op, mp' lo = Some op /\ map w_py out' = map Some op) /\
    (forall sp gpc mc' rc, run_in (c_lang lc) sp gpc mc = (mc', OkO rc) -> exists oc, mc' lo = Some oc /\ map w_c out' = map Some oc).
Proof.
  intros lp lc adv g a E fs f fd nd sc k kern k1 lo ls mp mc outp outc scoped gp Hr Ha Hfit Hcv Hf Hfd Hnd HS HC Hlen Hlo Hmp Hmc Hop Hoc Hin. pose proof (converted_ns _ _ _ _ Hr Ha Hcv) as Hns. cbv zeta.
  exact (lockstep_run lp lc adv g Hr a Ha Hns Hfit E fs Hcv f fd Hf Hfd nd Hnd sc k kern k1 HS HC lo ls Hlen Hlo mp mc outp outc Hmp Hmc Hop Hoc Hin scoped gp).
Qed.
Print Assumptions C37_index_arithmetic.
(* CUDA: the launch chosen for the kernel, executed by the lockstep machine: every interleaving of its
   threads is finite, never stuck or faulty, and ends in the memory of the sequential lockstep run above.
   (last extent below 2^31 - 256: the last axis is rounded up to a multiple of 256 threads) *)
Theorem C37_cuda_index_arithmetic : forall lp lc (adv : duo -> bool) b g a E fs f fd nd sc k kern k1 sg kg kerng kg1 lo ls mp mc outp outc scoped gp,
  b <> CUDA -> reach g -> valid g a -> fits (c_lang lc) g a -> convert g a = Done (E, fs) -> In f fs -> E f = Some fd ->
  nth_error g f = Some nd -> gen b g E fd k = Done (sc, kern, k1) -> gen CUDA g E fd kg = Done (sg, kerng, kg1) ->
  (n_shape nd <> [] -> last (n_shape nd) 0 + 256 < 2 ^ 31) ->
  length ls = length (func_args (f_expr fd)) -> ~ In lo ls ->
  mp lo = Some outp -> mc lo = Some outc -> Z.of_nat (length outp) = zprod (n_shape nd) -> Z.of_nat (length outc) = zprod (n_shape nd) ->
  (forall i x l, nth_error (func_args (f_expr fd)) i = Some x -> nth_error ls i = Some l ->
     exists vp vc, mp l = Some vp /\ mc l = Some vc /\ Z.of_nat (length vp) = zprod (shape_of g (match x with ABuf n => n | AFnc n => n end)) /\
       Z.of_nat (length vc) = zprod (shape_of g (match x with ABuf n => n | AFnc n => n end))) ->
  let D := duo_lang lp lc adv in
  exists m' r, run (bind_params (k_params kern) (lo :: ls)) (exec D scoped gp (pty_of (k_params kern)) (k_body kern) [[]]) (duo_mem mp mc) = (m', OkO r) /\
    settles D (bind_params (k_params kerng) (lo :: ls)) (gpu_threads D true sg kerng) (duo_mem mp mc) (fun m'' => forall x, m'' x = m' x).
Proof.
  intros lp lc adv b g a E fs f fd nd sc k kern k1 sg kg kerng kg1 lo ls mp mc outp outc scoped gp Hb Hr Ha Hfit Hcv Hf Hfd Hnd HG HGg Hlast Hlen Hlo Hmp Hmc Hop Hoc Hin D. pose proof (converted_ns _ _ _ _ Hr Ha Hcv) as Hns.
  destruct (gen_inv _ _ _ _ _ _ _ _ HG) as (HS & HC).
  assert (Hsc : schedule_cpu (sched_init fd) = Done sc) by (destruct b; try congruence; exact HS).
  destruct (lockstep_run lp lc adv g Hr a Ha Hns Hfit E fs Hcv f fd Hf Hfd nd Hnd sc k kern k1 Hsc HC lo ls Hlen Hlo mp mc outp outc Hmp Hmc Hop Hoc Hin scoped gp)
    as (m' & r & out' & R & _).
  exists m', r. split; [exact R|].
  assert (Hsh : shape_of g f = n_shape nd) by (unfold shape_of; now rewrite Hnd).
  refine (proj2 (gpu_top D (duo_lang_ok lp lc adv) g Hr a Ha Hns (fun n x H1 H2 => Hfit n x H1 H2) E fs Hcv f fd Hf Hfd b scoped gp k sc kern k1 kg sg kerng kg1 lo ls (duo_mem mp mc) m' r Hb HG HGg _ _ R)).
  - split; [exact Hlen|]. split; [exact Hlo|]. split.
    + exists (duo_zip outp outc). split; [unfold duo_mem; now rewrite Hmp, Hmc|]. rewrite Hsh. now apply duo_zip_len.
    + intros i x l H1 H2. destruct (Hin i x l H1 H2) as (vp & vc & V1 & V2 & V3 & V4). exists (duo_zip vp vc).
      split; [unfold duo_mem; now rewrite V1, V2|]. exact (duo_zip_len _ _ _ V3 V4).
  - rewrite Hsh. intros H. exact (Hlast H).
Qed.
Print Assumptions C37_cuda_index_arithmetic.
(* a reshape of a padded, strided slice: divisions, remainders, comparisons, products in the index *)
Definition exIx : graph := prog [CArange 12; CReshape 0 [3; 4]; CGetitem 1 [SSlice None None (Some 2); SSlice (Some 1) None None]; CPad 2 1 1 0; CReshape 3 [8]; CUnary UNeg 4].
Example C37_nonvacuous : reach exIx /\ valid exIx 5 /\ no_scalar_reshape exIx 5 /\ fits (c_lang no_libm) exIx 5 /\
  match convert exIx 5 with
  | Done (E, [f]) => match E f with
    | Some fd => match schedule_cpu (sched_init fd) with
      | Done sc => match codegen exIx E (func_args (f_expr fd)) fd sc 0 with
        | Done (kern, _) => shape_of exIx f = [8] /\ length (func_args (f_expr fd)) = 1%nat /\
            let mp := fun b => match b with 0%nat => Some (repeat (PI 0) 8) | 1%nat => Some (map PI (zrange 12)) | _ => None end in
            let mc := fun b => match b with 0%nat => Some (repeat (CI64 0) 8) | 1%nat => Some (map CI64 (zrange 12)) | _ => None end in
            let m' := fst (run (bind_params (k_params kern) [0; 1]%nat) (exec (duo_lang no_libm no_libm (fun _ => true)) true (fun _ _ => 0) (pty_of (k_params kern)) (k_body kern) [[]]) (duo_mem mp mc)) in
            option_map (map w_c) (m' 0%nat) = Some (map (fun z => Some (CI64 z)) [0; -1; -2; -3; 0; -9; -10; -11])
        | _ => False end
      | _ => False end
    | None => False end
  | _ => False
  end.
Proof.
  split; [apply prog_reach|]. split; [vm_compute; lia|]. split; [apply no_scalar_reshape_all; vm_compute; reflexivity|].
  split; [apply fits_all; vm_compute; reflexivity|]. vm_compute. repeat split; reflexivity.
Qed.

(* ---------------------------------------------------------------- C38 *)
(* Two processes, one on the Python backend and one on the C backend, with the same arrays (the same
   calls); both have array a materialized, and read it as l1 (Python) and l2 (C).
   PARTIAL: key_safe (no cache collisions, see C11) and fits (arrays below 2^31 elements in C). *)
Definition both_read (lp lc : libm) (g : graph) (a : nat) (l1 : nest pyval) (l2 : nest cval) : Prop :=
  exists C1 C2 s1 s2 b s1' s2', let P := py_backend lp in let C := c_backend lc in
  key_safe C1 /\ key_safe C2 /\ hist P C1 s1 /\ hist C C2 s2 /\ r_graph P s1 = g /\ r_graph C s2 = g /\
  valid g a /\ view_of g true a b /\ computed g b /\
  (forall d, kernel_of g a d -> C1 d) /\ (forall d, kernel_of g a d -> C2 d) /\
  materialize P s1 a = (s1', Done tt) /\ materialize C s2 a = (s2', Done tt) /\
  tolist (r_graph P s1') (r_cpu P s1') a = Done l1 /\ tolist (r_graph C s2') (r_cpu C s2') a = Done l2.

Lemma both_den lp lc g a l1 l2 D : both_read lp lc g a l1 l2 -> fits (c_lang lc) g a -> one_dtype (c_lang lc) g a D ->
  reach g /\ valid g a /\ t_tolist (den (py_alg lp) g a) = Ok l1 /\ t_tolist (den (c_alg lc) g a) = Ok l2.
Proof.
  intros (C1 & C2 & s1 & s2 & b & s1' & s2' & HX). cbv zeta in HX.
  destruct HX as (K1 & K2 & H1 & H2 & G1 & G2 & Ha & Hv & Hc & HC1 & HC2 & M1 & M2 & L1 & L2). intros Hf Ho.
  assert (Hm : mat_ok (c_lang lc) g b).
  { pose proof (view_cone _ _ _ _ Hv) as Hab. split.
    - intros n nd Hn. apply Hf. eapply cone_trans; eauto.
    - exists D. intros n nd Hn. apply Ho. eapply cone_trans; eauto. }
  pose proof (i_reach _ _ _ (hist_inv _ (py_backend_ok lp) _ K1 _ H1)) as Hr. rewrite G1 in Hr.
  subst g. split; [exact Hr|]. split; [exact Ha|]. split.
  - destruct (value_correct _ C1 s1 a b s1' (or_introl (ex_intro _ lp eq_refl)) K1 H1 Ha Hv Hc (py_mat_ok lp _ b) HC1 M1) as (l & L & D1).
    assert (Hq : Done l = Done l1) by exact (eq_trans (eq_sym L) L1). injection Hq as ->. exact D1.
  - rewrite <- G2 in Ha, Hv, Hc, Hm, HC2.
    destruct (value_correct _ C2 s2 a b s2' (or_intror (ex_intro _ lc eq_refl)) K2 H2 Ha Hv Hc Hm HC2 M2) as (l & L & D2).
    assert (Hq : Done l = Done l2) by exact (eq_trans (eq_sym L) L2). injection Hq as ->. rewrite <- G2. exact D2.
Qed.
Lemma valid_nth (g : graph) a : valid g a -> exists nd, nth_error g a = Some nd.
Proof. unfold valid. intros H. destruct (nth_error g a) eqn:E; eauto. apply nth_error_None in E. lia. Qed.

(* If every element operation of the expression agrees in the two languages - node_agrees (Agree.v):
   given operands related by R, whenever one language's operation gives a result so does the other's,
   and the results are related by R - then the two lists are equal up to R. *)
Theorem C38_same_elements_partial : forall lp lc (R : pyval -> cval -> Prop) g a l1 l2 D,
  both_read lp lc g a l1 l2 -> fits (c_lang lc) g a -> one_dtype (c_lang lc) g a D ->
  (forall n nd, cone g a n -> nth_error g n = Some nd -> node_agrees (py_alg lp) (c_alg lc) R g nd) ->
  nest_rel R l1 l2.
Proof.
  intros lp lc R g a l1 l2 D HB Hf Ho HA. destruct (both_den _ _ _ _ _ _ _ HB Hf Ho) as (Hr & Ha & D1 & D2).
  destruct (valid_nth _ _ Ha) as [nd Hn].
  destruct (tolist_rel (py_alg lp) (c_alg lc) R g a nd l1 (reach_wf _ Hr) Hn HA D1) as (l & L & Rel).
  assert (Hq : Ok l = Ok l2) by exact (eq_trans (eq_sym L) D2). injection Hq as ->. exact Rel.
Qed.
Print Assumptions C38_same_elements_partial.
(* float64 expressions without padding (+, -, *, /, **, -x, sin, cos, exp, log, sums of at least one element, all
   views): exactly the same doubles, if the two math libraries agree *)
Theorem C38_float_partial : forall lm g a l1 l2, both_read lm lm g a l1 l2 -> fits (c_lang lm) g a ->
  (forall n nd, cone g a n -> nth_error g n = Some nd -> float_node g nd) -> nest_rel same_float l1 l2.
Proof.
  intros lm g a l1 l2 HB Hf HA. eapply (C38_same_elements_partial lm lm same_float g a l1 l2 Float64); eauto.
  - intros n nd Hc Hn _ v. now rewrite (proj1 (HA n nd Hc Hn)).
  - intros n nd Hc Hn. apply float_agrees. eauto.
Qed.
Print Assumptions C38_float_partial.
(* with padding, dilation and empty sums, without -x and **: the same doubles, a padding being 0 in
   Python and 0.0 in C *)
Theorem C38_float_padded_partial : forall lm g a l1 l2, both_read lm lm g a l1 l2 -> fits (c_lang lm) g a ->
  (forall n nd, cone g a n -> nth_error g n = Some nd -> float_node0 nd) -> nest_rel same_float0 l1 l2.
Proof.
  intros lm g a l1 l2 HB Hf HA. eapply (C38_same_elements_partial lm lm same_float0 g a l1 l2 Float64); eauto.
  - intros n nd Hc Hn _ v. now rewrite (proj1 (HA n nd Hc Hn)).
  - intros n nd Hc Hn. apply float0_agrees. eauto.
Qed.
Print Assumptions C38_float_padded_partial.
(* int64 expressions of +, -, *, -x, sum, pad, dilate and views: exactly the same integers (whenever C does
   not overflow: overflow is undefined behaviour, modelled as a failed materialize) *)
Theorem C38_int_partial : forall lp lc g a l1 l2, both_read lp lc g a l1 l2 -> fits (c_lang lc) g a ->
  (forall n nd, cone g a n -> nth_error g n = Some nd -> int_node nd) -> nest_rel same_z l2 l1.
Proof.
  intros lp lc g a l1 l2 HB Hf HA.
  destruct (both_den _ _ _ _ _ _ Int64 HB Hf) as (Hr & Ha & D1 & D2).
  { intros n nd Hc Hn _ v. now rewrite (proj1 (HA n nd Hc Hn)). }
  destruct (valid_nth _ _ Ha) as [nd Hn].
  destruct (tolist_rel (c_alg lc) (py_alg lp) same_z g a nd l2 (reach_wf _ Hr) Hn) as (l & L & Rel); [|exact D2|].
  { intros n nd' Hc Hn'. apply (int_agrees lp lc). eauto. }
  assert (Hq : Ok l = Ok l1) by exact (eq_trans (eq_sym L) D1). injection Hq as ->. exact Rel.
Qed.
Print Assumptions C38_int_partial.

(* ---- concrete cases: the same calls in a fresh process of each backend *)
Definition prun (cs : list call) : rt pyB := sc_state pyB (map Call cs).
Definition crun (cs : list call) : rt cB := sc_state cB (map Call cs).
Lemma both_calls cs a b l1 l2 : r_graph cB (crun cs) = r_graph pyB (prun cs) -> let g := r_graph pyB (prun cs) in
  own_safeb g a = true -> valid g a -> view_of g true a b -> computed g b ->
  snd (materialize pyB (prun cs) a) = Done tt -> snd (materialize cB (crun cs) a) = Done tt ->
  (let s := fst (materialize pyB (prun cs) a) in tolist (r_graph pyB s) (r_cpu pyB s) a) = Done l1 ->
  (let s := fst (materialize cB (crun cs) a) in tolist (r_graph cB s) (r_cpu cB s) a) = Done l2 ->
  both_read no_libm no_libm g a l1 l2.
Proof.
  intros Hg g Ho Ha Hv Hc M1 M2 L1 L2. exists (kernel_of g a), (kernel_of g a), (prun cs), (crun cs), b.
  exists (fst (materialize pyB (prun cs) a)), (fst (materialize cB (crun cs) a)). cbv zeta.
  assert (KS : key_safe (kernel_of g a)) by now apply own_safeb_ok.
  do 2 (split; [exact KS|]). split; [apply calls_state_hist|]. split; [apply calls_state_hist|]. split; [reflexivity|]. split; [exact Hg|].
  do 3 (split; [assumption|]). do 2 (split; [auto|]).
  split; [rewrite <- M1; apply surjective_pairing|]. split; [rewrite <- M2; apply surjective_pairing|]. split; [exact L1|exact L2].
Qed.
Ltac both := eapply both_calls; [vm_compute; reflexivity|vm_compute; reflexivity|vm_compute; lia|eapply vo_self; vm_compute; reflexivity|
  eexists; split; vm_compute; reflexivity|vm_compute; reflexivity|vm_compute; reflexivity|vm_compute; reflexivity|vm_compute; reflexivity].
Notation F m e := (Leaf (NFlt m e)).
Definition exF : list call := [CArray (Nest [F 3 (-1); F 5 (-1)]); CArray (Nest [F 1 (-2); F 7 (-2)]); CBinary BMul 0 1; CBinary BTruediv 2 0; CUnary UNeg 3].
Example C38_nonvacuous_float : let g := r_graph pyB (prun exF) in
  both_read no_libm no_libm g 4 (Nest [Leaf (PF (f64_of (-1) (-2))); Leaf (PF (f64_of (-7) (-2)))]) (Nest [Leaf (CF (f64_of (-1) (-2))); Leaf (CF (f64_of (-7) (-2)))]) /\
  fits (c_lang no_libm) g 4 /\ (forall n nd, cone g 4 n -> nth_error g n = Some nd -> float_node g nd).
Proof.
  cbv zeta. split; [both|]. split; [apply fits_all; vm_compute; reflexivity|].
  intros n nd _ Hn. destruct n as [|[|[|[|[|[|n]]]]]]; vm_compute in Hn; try discriminate; injection Hn as <-; (split; [reflexivity|cbn; auto; repeat constructor]).
Qed.
Definition exP : list call := [CArray (Nest [F 3 (-1); F 5 (-1)]); CPad 0 0 1 0; CBinary BMul 1 1; CBinary BAdd 1 2].
Example C38_nonvacuous_padded : let g := r_graph pyB (prun exP) in
  both_read no_libm no_libm g 3 (Nest [Leaf (PI 0); Leaf (PF (f64_of 15 (-2))); Leaf (PF (f64_of 35 (-2)))]) (Nest [Leaf (CF (S754_zero false)); Leaf (CF (f64_of 15 (-2))); Leaf (CF (f64_of 35 (-2)))]) /\
  fits (c_lang no_libm) g 3 /\ (forall n nd, cone g 3 n -> nth_error g n = Some nd -> float_node0 nd).
Proof.
  cbv zeta. split; [both|]. split; [apply fits_all; vm_compute; reflexivity|].
  intros n nd _ Hn. destruct n as [|[|[|[|[|[|n]]]]]]; vm_compute in Hn; try discriminate; injection Hn as <-; (split; [reflexivity|cbn; auto; repeat constructor; discriminate]).
Qed.
Definition exI : list call := [CArange 4; CReshape 0 [2; 2]; CPad 1 1 0 1; CSum 2 (Some [0]) false; CBinary BMul 3 3; CUnary UNeg 4].
Example C38_nonvacuous_int : let g := r_graph pyB (prun exI) in
  both_read no_libm no_libm g 5 (Nest [Leaf (PI (-4)); Leaf (PI (-16)); Leaf (PI 0)]) (Nest [Leaf (CI64 (-4)); Leaf (CI64 (-16)); Leaf (CI64 0)]) /\
  fits (c_lang no_libm) g 5 /\ (forall n nd, cone g 5 n -> nth_error g n = Some nd -> int_node nd).
Proof.
  cbv zeta. split; [both|]. split; [apply fits_all; vm_compute; reflexivity|].
  intros n nd _ Hn. destruct n as [|[|[|[|[|[|[|n]]]]]]]; vm_compute in Hn; try discriminate; injection Hn as <-; (split; [reflexivity|cbn -[Z.pow]; auto; repeat (apply Forall_cons; [split; vm_compute; congruence|]); apply Forall_nil]).
Qed.
(* The full property is false.  array([1]) / array([2]): 0.5 in Python, 0 in C. *)
Theorem C38_int_division_refuted : exists g a l1 l2, both_read no_libm no_libm g a l1 l2 /\ fits (c_lang no_libm) g a /\
  (forall n nd, nth_error g n = Some nd -> n_dtype nd = Int64) /\ l1 = Nest [Leaf (PF (f64_of 1 (-1)))] /\ l2 = Nest [Leaf (CI64 0)].
Proof.
  exists (r_graph pyB (prun [CArray (Nest [Leaf (NInt 1)]); CArray (Nest [Leaf (NInt 2)]); CBinary BTruediv 0 1])), 2%nat. do 2 eexists.
  split; [both|]. split; [apply fits_all; vm_compute; reflexivity|]. split; [|split; vm_compute; reflexivity].
  intros n nd Hn. destruct n as [|[|[|[|n]]]]; vm_compute in Hn; try discriminate; injection Hn as <-; reflexivity.
Qed.
Print Assumptions C38_int_division_refuted.
(* array([1.5]) / array([0.0]): ZeroDivisionError in Python, inf in C. *)
Theorem C38_zero_division_refuted : exists cs a, r_graph cB (crun cs) = r_graph pyB (prun cs) /\
  (exists e, snd (materialize pyB (prun cs) a) = Throw e) /\ snd (materialize cB (crun cs) a) = Done tt /\
  (let s := fst (materialize cB (crun cs) a) in tolist (r_graph cB s) (r_cpu cB s) a) = Done (Nest [Leaf (CF (S754_infinity false))]).
Proof.
  exists [CArray (Nest [F 3 (-1)]); CArray (Nest [F 0 0]); CBinary BTruediv 0 1], 2%nat.
  split; [vm_compute; reflexivity|]. split; [eexists; vm_compute; reflexivity|]. split; [vm_compute; reflexivity|vm_compute; reflexivity].
Qed.
(* -pad([1.5]): int 0 in Python, -0.0 in C; the sign shows in 1 / x *)
Theorem C38_negated_padding_refuted : exists g a l1 l2, both_read no_libm no_libm g a l1 l2 /\ fits (c_lang no_libm) g a /\
  (forall n nd, nth_error g n = Some nd -> n_dtype nd = Float64) /\ l1 = Nest [Leaf (PI 0); Leaf (PF (f64_of (-3) (-1)))] /\ l2 = Nest [Leaf (CF (S754_zero true)); Leaf (CF (f64_of (-3) (-1)))].
Proof.
  exists (r_graph pyB (prun [CArray (Nest [F 3 (-1)]); CPad 0 0 1 0; CUnary UNeg 1])), 2%nat. do 2 eexists.
  split; [both|]. split; [apply fits_all; vm_compute; reflexivity|]. split; [|split; vm_compute; reflexivity].
  intros n nd Hn. destruct n as [|[|[|[|n]]]]; vm_compute in Hn; try discriminate; injection Hn as <-; reflexivity.
Qed.
Print Assumptions C38_negated_padding_refuted.
