(* Exact versions of C07 (when a launch is accepted), C27 (the dtype of every result) and C42 (when an extent is negative). *)
From Verif Require Import Base BaseFacts Util UtilFacts Lang Spec SpecFacts Graph Api Denote DenoteFacts ArrayLit ArrayFacts Reach Tolist FrontSpec LangInst Prog
  ApiFacts FrontFacts2 FrontFacts3 FrontFacts4 Algo AlgoSem Kernel Sched Codegen Backends AlgoConv AlgoConv2 AlgoFuse2 AlgoConvert AlgoConvert2 KernelRun
  BackendFacts AlgoTop AlgoMore ParTop ParGpu PropAlgo Copy PropPar PropViews PropCreate PropArgs ArrayExact PropExact.
From Coq Require Import ZifyBool ZifyNat.

(* C07.  The automatic schedule of every kernel of every program: the driver accepts its launch exactly if the extents are
   within these bounds.  The last axis is cut into blocks of 256; at most three axes are spread over the grid (x takes up
   to 2^31-1 blocks, y and z up to 65535), and from four axes on only the last one is. *)
Definition launch_bounds (s : list Z) : Prop :=
  match s with
  | [] => True
  | [d] => 1 <= d <= 256 * (2 ^ 31 - 1)
  | [d; d'] => 1 <= d < 2 ^ 31 /\ 1 <= d' <= 256 * 65535
  | [d; d'; d''] => 1 <= d < 2 ^ 31 /\ 1 <= d' <= 65535 /\ 1 <= d'' <= 256 * 65535
  | _ => 1 <= last s 0 <= 256 * (2 ^ 31 - 1)
  end.
Theorem C07_launch_iff : forall g a E fs f fd k s kern k1, reach g -> valid g a ->
  convert g a = Done (E, fs) -> In f fs -> E f = Some fd -> gen CUDA g E fd k = Done (s, kern, k1) ->
  (launchable (launch_dims s) = true <-> launch_bounds (shape_of g f)).
Proof.
  intros g a E fs f fd k s kern k1 Hr Ha Hcv Hf Hfd HG. pose proof (converted_ns _ _ _ _ Hr Ha Hcv) as Hns.
  pose proof (convert_inv (py_lang no_libm) g a E fs (py_lang_ok _) Hr Ha Hns Hcv) as HSp.
  destruct (convert_kctx (py_lang no_libm) g a E fs f HSp Hf) as (fd' & nd & Hfd' & HK). assert (fd' = fd) by congruence. subst fd'.
  destruct (gen_inv _ _ _ _ _ _ _ _ HG) as (HS & _).
  assert (Hsh : shape_of g f = n_shape nd) by (unfold shape_of; now rewrite (kc_nd _ _ _ _ _ HK)). rewrite Hsh.
  assert (HS2 : schedule_gpu (sched_init fd) = Done s) by exact HS. rewrite (kc_fd g E f fd nd HK) in HS2. rewrite (launch_closed _ _ _ _ _ _ HS2).
  assert (Hc : forall d m, 1 <= ceildiv d 256 <= m <-> 1 <= d <= 256 * m).
  { intros d m. pose proof (NestSched.ceildiv_bounds d 256 ltac:(lia)). lia. }
  change (2 ^ 31) with 2147483648 in *.
  destruct (n_shape nd) as [|d0 [|d1 [|d2 [|d3 r]]]]; cbn [launch_bounds launchable].
  - split; reflexivity || tauto.
  - rewrite <- Hc. rewrite !andb_true_iff. lia.
  - rewrite <- Hc. rewrite !andb_true_iff. lia.
  - rewrite <- Hc. rewrite !andb_true_iff. lia.
  - rewrite <- Hc. rewrite !andb_true_iff. lia.
Qed.
Print Assumptions C07_launch_iff.
Example C07_iff_nonvacuous : launch_bounds (shape_of exPar 3) /\ ~ launch_bounds [0] /\ ~ launch_bounds [1; 70000; 1] /\ launch_bounds [70000; 65535; 1] /\
  launch_bounds [0; 70000; -3; 5].
Proof. vm_compute. repeat split; try discriminate; intros H; decompose [and] H; congruence. Qed.

(* C27.  The dtype of the result of every call: operations take the dtype of their first operand, array() and arange() that
   of the first number (float64 if there is none); full_like() and its relatives ignore the dtype of the array: they take
   that of the fill value (1 or 1.0 for ones_like, the integer 0 for zeros_like), and float64 if there is no element. *)
Definition num_dtype (v : num) : dtype := match v with NInt _ => Int64 | NFlt _ _ => Float64 end.
Definition filled_dtype (s : list Z) (d : dtype) : dtype := if zprod s <=? 0 then Float64 else d.
Definition result_dtype (g : graph) (c : call) : option dtype :=
  match c with
  | CArray v => Some (data_dtype (hd_error (leaves v)))
  | CArange stop => Some (if stop <=? 0 then Float64 else Int64)
  | CFull s v => Some (filled_dtype s (num_dtype v))
  | CFullLike t v => Some (filled_dtype (shape_of g t) (num_dtype v))
  | COnesLike t => option_map (filled_dtype (shape_of g t)) (dtype_of g t)
  | CZerosLike t => Some (filled_dtype (shape_of g t) Int64)
  | CUnary _ a | CBinary _ a _ | CBinaryScalar _ a _ | CSum a _ _ | CGetitem a _ | CBroadcastTo a _
  | CReshape a _ | CTranspose a _ | CT a | CContiguous a | CPad a _ _ _ | CDilate a _ _ => dtype_of g a
  end.
Lemma full_dtype g s v g' r : api_full g s v = Done (g', r) -> dtype_of g' r = Some (filled_dtype s (num_dtype v)).
Proof.
  unfold api_full, api_const. intros H. injection H as <- <-. rewrite const_dtype. unfold filled_dtype.
  destruct (zprod s <=? 0) eqn:E.
  - replace (Z.to_nat (zprod s)) with 0%nat by lia. reflexivity.
  - destruct (Z.to_nat (zprod s)) eqn:E2; [lia|]. cbn. now destruct v.
Qed.
Theorem C27_exact : forall g c g' r, reach g -> (forall a, In a (call_args c) -> valid g a) -> run_call g c = Done (g', r) ->
  dtype_of g' r = result_dtype g c.
Proof.
  intros g c g' r Hr Ha H.
  assert (HF : forall a, first_operand c = Some a -> dtype_of g' r = dtype_of g a).
  { intros a Hf. refine (call_dtype g c a g' r _ Hf H). apply Ha. destruct c; cbn in *; try discriminate; injection Hf as ->; now left. }
  destruct c; cbn [result_dtype call_args run_call first_operand] in *; try (now apply HF); clear HF.
  - now apply array_dtype in H.
  - unfold api_arange in H. apply array_dtype in H. rewrite H. f_equal. cbn [leaves]. unfold data_dtype, zrange.
    destruct (stop <=? 0) eqn:E; [replace (Z.to_nat stop) with 0%nat by lia; reflexivity|]. destruct (Z.to_nat stop) eqn:E2; [lia|]. reflexivity.
  - eapply full_dtype; eauto.
  - destruct (valid_node _ _ (Ha _ (or_introl eq_refl))) as [nd Hnd]. unfold api_full_like, get in H. unfold shape_of. rewrite Hnd in *. cbn [obind] in H. eapply full_dtype; eauto.
  - destruct (valid_node _ _ (Ha _ (or_introl eq_refl))) as [nd Hnd]. unfold api_ones_like, api_full_like, get in H. unfold shape_of.
    pose proof (reach_dtype g Hr t (Ha _ (or_introl eq_refl))) as Hd. unfold dtype_of at 2. unfold dtype_of in Hd. rewrite Hnd in *. cbn [obind option_map] in *. apply full_dtype in H. rewrite H.
    f_equal. f_equal. destruct Hd as [Hd|Hd]; injection Hd as ->; reflexivity.
  - destruct (valid_node _ _ (Ha _ (or_introl eq_refl))) as [nd Hnd]. unfold api_zeros_like, api_full_like, get in H. unfold shape_of. rewrite Hnd in *. cbn [obind] in H. eapply (full_dtype _ _ (NInt 0)); eauto.
Qed.
Print Assumptions C27_exact.
(* hence: when the *_like functions keep the dtype *)
Theorem C27_like_iff : forall g t, reach g -> valid g t ->
  (forall g' r, api_zeros_like g t = Done (g', r) -> (dtype_of g' r = dtype_of g t <-> (dtype_of g t = Some Int64 <-> 0 < zprod (shape_of g t)))) /\
  (forall g' r, api_ones_like g t = Done (g', r) -> (dtype_of g' r = dtype_of g t <-> (dtype_of g t = Some Int64 -> 0 < zprod (shape_of g t)))).
Proof.
  intros g t Hr Hv. pose proof (reach_dtype g Hr t Hv) as Hd.
  split; intros g' r H.
  - rewrite (C27_exact g (CZerosLike t) g' r Hr) by (auto; intros a [<-|[]]; assumption). cbn [result_dtype]. unfold filled_dtype.
    destruct (zprod (shape_of g t) <=? 0) eqn:E; destruct Hd as [Hd|Hd]; rewrite Hd; split; intros Q; try discriminate; try reflexivity; try (split; intros; discriminate || lia || reflexivity).
    + pose proof (proj1 Q eq_refl). lia.
    + assert (HZ : 0 < zprod (shape_of g t)) by lia. apply Q in HZ. discriminate HZ.
  - rewrite (C27_exact g (COnesLike t) g' r Hr) by (auto; intros a [<-|[]]; assumption). cbn [result_dtype]. unfold filled_dtype.
    destruct (zprod (shape_of g t) <=? 0) eqn:E; destruct Hd as [Hd|Hd]; rewrite Hd; cbn; split; intros Q; try discriminate; try reflexivity; try (intros; discriminate || lia).
Qed.
Print Assumptions C27_like_iff.
Example C27_exact_nonvacuous : let g := Prog.prog [CArange 3; CGetitem 0 [SSlice (Some 3) None None]; CArray (Leaf (NFlt 1 0))] in
  result_dtype g (COnesLike 0) = Some Int64 /\ result_dtype g (COnesLike 1) = Some Float64 /\ result_dtype g (CZerosLike 2) = Some Int64 /\
  result_dtype g (CBinary BAdd 0 2) = Some Int64 /\ result_dtype g (CBinary BAdd 2 0) = Some Float64 /\ result_dtype g (CFull [2; 0] (NInt 1)) = Some Float64.
Proof. vm_compute. auto 10. Qed.

(* C42.  When a call that is accepted makes an array with a negative extent: only full(), reshape() and broadcast_to() with a
   negative number in the shape, pad() that crops more than there is, and dilate() whose new extent is negative (an empty axis
   with step at least 2, or a negative step on two or more elements).  Every other call gives non-negative extents. *)
Definition extent (s : list Z) (d : Z) : Z := nth (Z.to_nat (if d <? 0 then d + Z.of_nat (length s) else d)) s 0.
Definition extents_fine (g : graph) (c : call) : Prop :=
  match c with
  | CFull s _ | CBroadcastTo _ s | CReshape _ s => nonneg s
  | CPad a d b f => 0 <= extent (shape_of g a) d + b + f
  | CDilate a d st => 0 <= (extent (shape_of g a) d - 1) * st + 1
  | _ => True
  end.
Lemma nonneg_nth s k : nonneg s -> 0 <= nth k s 0.
Proof. intros H. unfold nonneg in *. destruct (nth_in_or_default k s 0) as [H'|H']; [now apply (proj1 (Forall_forall _ _) H)|lia]. Qed.
Lemma nonneg_upd s k v : nonneg s -> (k < length s)%nat -> nonneg (upd s k v) <-> 0 <= v.
Proof.
  unfold nonneg. revert k. induction s as [|x s IH]; intros k H Hk; [cbn in Hk; lia|]. inversion H as [|? ? H1 H2]; subst. destruct k as [|k]; cbn [upd].
  - split; [intros Q; now inversion Q|intros; now constructor].
  - cbn in Hk. rewrite <- (IH k H2) by lia. split; [intros Q; now inversion Q|intros; now constructor].
Qed.
Lemma pyupdate_extent s d F ns : pyupdate s d F = Some ns -> exists k, (k < length s)%nat /\ ns = upd s k (F (extent s d)).
Proof.
  unfold pyupdate, extent. cbv zeta. set (j := if d <? 0 then d + Z.of_nat (length s) else d). intros H. unfold znth in H. destruct (j <? 0) eqn:E; [discriminate|].
  destruct (nth_error s (Z.to_nat j)) as [x|] eqn:Ex; [|discriminate]. injection H as <-. exists (Z.to_nat j). split; [apply nth_error_Some; congruence|].
  now rewrite (nth_error_nth _ _ 0 Ex).
Qed.
Lemma forward_shape g op a ins nd g' r x : nth_error g a = Some nd -> forward g op (a :: ins) = Done (g', r) -> forward_node op (a :: ins) nd = Done x -> shape_of g' r = n_shape x.
Proof. intros Hn H HF. unfold forward, get in H. rewrite Hn in H. cbn [obind] in H. rewrite HF in H. cbn [obind] in H. injection H as <- <-. unfold shape_of. now rewrite nth_error_snoc. Qed.
Lemma array_nonneg g v g' r : api_array g v = Done (g', r) -> nonneg (shape_of g' r).
Proof.
  intros H. assert (HL : levelled v) by (apply (C22_accepts_iff g); eauto). destruct (proj1 (C22_exact g v) HL) as (sh & H1 & H2). rewrite H in H1. injection H1 as -> ->.
  unfold shape_of. rewrite nth_error_snoc. cbn [n_shape const_node new_node]. apply Forall_forall. intros d Hd. apply In_nth_error in Hd as (k & Hk). apply H2 in Hk.
  clear -Hk. revert k Hk. induction v as [x|l IH] using nest_ind'; intros k Hk; [destruct k; destruct Hk|]. destruct k as [|k]; cbn [lens] in Hk.
  - destruct Hk as [<-|[]]. lia.
  - apply in_flat_map in Hk as (w & Hw & Hk). eauto.
Qed.
Theorem C42_exact : forall g c g' r, reach g -> (forall a, In a (call_args c) -> valid g a) -> run_call g c = Done (g', r) ->
  (nonneg (shape_of g' r) <-> extents_fine g c).
Proof.
  intros g c g' r Hr Ha H.
  assert (HC : checked c -> (nonneg (shape_of g' r) <-> True)).
  { intros HC. split; [trivial|intros _]. destruct (C51_accepted_partial g c g' r Hr Ha (or_introl HC) H) as (_ & nd & Hn & HN & _). unfold shape_of. now rewrite Hn. }
  destruct c; cbn [extents_fine run_call call_args] in *; try (apply HC; exact I); clear HC.
  - split; [trivial|intros _]. eapply array_nonneg; eauto.
  - unfold api_full, api_const in H. injection H as <- <-. unfold shape_of. now rewrite nth_error_snoc.
  - destruct (valid_node _ _ (Ha _ (or_introl eq_refl))) as [nd Hnd]. unfold api_broadcast_to in H. erewrite (forward_shape g _ a [] nd g' r _ Hnd H) by reflexivity. reflexivity.
  - destruct (valid_node _ _ (Ha _ (or_introl eq_refl))) as [nd Hnd]. unfold api_reshape in H. apply obind_done in H as (nd' & _ & H). destruct (negb _); [discriminate|].
    apply obind_done in H as ([g1 c] & _ & H). unfold forward in H. apply obind_done in H as (i & Hi & H). apply get_done in Hi. 
    assert (H' : forward g1 (OReshape shape) [c] = Done (g', r)) by (unfold forward, get; rewrite Hi; exact H).
    erewrite (forward_shape g1 _ c [] i g' r _ Hi H') by reflexivity. reflexivity.
  - destruct (valid_node _ _ (Ha _ (or_introl eq_refl))) as [nd Hnd]. assert (Hsh : shape_of g a = n_shape nd) by (unfold shape_of; now rewrite Hnd).
    pose proof (shape_nonneg g a Hr) as HN. unfold api_pad in H. apply obind_done in H as (nd' & _ & H). destruct (_ <=? dim); [discriminate|].
    destruct ((before =? 0) && (after =? 0)) eqn:E.
    + injection H as <- <-. split; [|auto]. intros _. pose proof (nonneg_nth (shape_of g a) (Z.to_nat (if dim <? 0 then dim + Z.of_nat (length (shape_of g a)) else dim)) HN). unfold extent. lia.
    + destruct (forward_node (OPad dim before after) [a] nd) as [x|] eqn:EF; [|unfold forward, get in H; rewrite Hnd in H; cbn [obind] in H; rewrite EF in H; discriminate].
      rewrite (forward_shape g _ a [] nd g' r x Hnd H EF). cbn [forward_node] in EF. unfold fwd_pad in EF. destruct (pyupdate _ _ _) as [ns|] eqn:EU; [|discriminate].
      injection EF as <-. cbn [n_shape new_node]. apply pyupdate_extent in EU as (k & Hk & ->). rewrite Hsh in *. rewrite nonneg_upd by assumption. lia.
  - destruct (valid_node _ _ (Ha _ (or_introl eq_refl))) as [nd Hnd]. assert (Hsh : shape_of g a = n_shape nd) by (unfold shape_of; now rewrite Hnd).
    pose proof (shape_nonneg g a Hr) as HN. unfold api_dilate in H. apply obind_done in H as (nd' & _ & H). destruct (_ <=? dim); [discriminate|].
    destruct (step =? 1) eqn:E.
    + injection H as <- <-. split; [|auto]. intros _. pose proof (nonneg_nth (shape_of g a) (Z.to_nat (if dim <? 0 then dim + Z.of_nat (length (shape_of g a)) else dim)) HN). unfold extent. lia.
    + destruct (forward_node (ODilate dim step) [a] nd) as [x|] eqn:EF; [|unfold forward, get in H; rewrite Hnd in H; cbn [obind] in H; rewrite EF in H; discriminate].
      rewrite (forward_shape g _ a [] nd g' r x Hnd H EF). cbn [forward_node] in EF. unfold fwd_dilate in EF. destruct (pyupdate _ _ _) as [ns|] eqn:EU; [|discriminate].
      injection EF as <-. cbn [n_shape new_node]. apply pyupdate_extent in EU as (k & Hk & ->). rewrite Hsh in *. rewrite nonneg_upd by assumption. reflexivity.
Qed.
Print Assumptions C42_exact.
Example C42_exact_nonvacuous : let g := Prog.prog [CArange 3; CGetitem 0 [SSlice (Some 3) None None]] in
  extents_fine g (CPad 0 (-1) (-1) (-2)) /\ ~ extents_fine g (CPad 0 0 (-2) (-2)) /\ extents_fine g (CDilate 0 0 0) /\ ~ extents_fine g (CDilate 0 0 (-1)) /\
  ~ extents_fine g (CDilate 1 0 2) /\ ~ extents_fine g (CReshape 0 [-1; -3]) /\ extents_fine g (CReshape 0 [3; 1]) /\
  exists g', run_call g (CPad 0 (-1) (-1) (-2)) = Done (g', 2%nat) /\ shape_of g' 2 = [0].
Proof.
  cbv zeta. repeat match goal with |- _ /\ _ => split end; try (eexists; split; vm_compute; reflexivity); try (vm_compute; discriminate); try (vm_compute; intros H; now apply H).
  - intros H. inversion H; lia.
  - repeat constructor; lia.
Qed.
