(* Properties C21-C27, C33, C42: creation, reductions, padding, copies, dtypes, purity, extents. *)
From Verif Require Import Base Util Lang Spec Graph Api Denote ArrayLit Reach Tolist FrontSpec LangInst Prog
  BaseFacts ArrayFacts ApiFacts TolistFacts FrontFacts FrontFacts2 FrontFacts3 FrontFacts4.

Definition i_ (z : Z) : nest num := Leaf (NInt z).
Definition row (l : list Z) : nest num := Nest (map i_ l).

(* C21 *)
Theorem C21_array_tolist_roundtrip : forall g v s, rect s v ->
  exists g' r, api_array g v = Done (g', r) /\ shape_of g' r = cut0 s /\ tolist g' (const_mem g') r = Done v.
Proof. exact array_roundtrip. Qed.
Print Assumptions C21_array_tolist_roundtrip.
(* element idx is the number reached by following idx into the nested list (row-major storage) *)
Theorem C21_array_elements : forall (A : valg) g v s g' r, rect s v -> api_array g v = Done (g', r) ->
  forall idx, in_range (shape_of g' r) idx ->
    exists x, follow v idx = Some x /\ t_at (den A g' r) idx = Ok (coerce A (data_dtype (hd_error (leaves v))) (of_num A x)).
Proof. exact array_elements. Qed.
Print Assumptions C21_array_elements.
Example C21_nonvacuous : rect [2; 2; 1] (Nest [Nest [row [1]; row [2]]; Nest [row [3]; row [4]]]) /\
  rect [2; 0] (Nest [row []; row []]) /\ cut0 [2; 0] = [2; 0] /\ cut0 [2; 0; 7] = [2; 0].
Proof. repeat split; try (apply rectb_ok; reflexivity). Qed.

(* C22: PARTIAL: for nested lists that never mix numbers and lists at one level, array() accepts
   exactly the rectangular ones.  With mixing the claim is false (refuted below). *)
Theorem C22_array_rejects_partial : forall g v d, depth d v ->
  ((exists g' r, api_array g v = Done (g', r)) <-> rectangular v).
Proof. exact array_accepts_iff. Qed.
Print Assumptions C22_array_rejects_partial.
Theorem C22_array_accepts_rectangular : forall g v, rectangular v -> exists g' r, api_array g v = Done (g', r).
Proof. exact array_accepts. Qed.
Print Assumptions C22_array_accepts_rectangular.
Example C22_nonvacuous : depth 2 (Nest [row [1; 2]; row [3]]) /\ api_array [] (Nest [row [1; 2]; row [3]]) = Throw ValueErr.
Proof. split; [|reflexivity]. constructor. intros v [<-|[<-|[]]]; constructor; cbn; intros w H; repeat destruct H as [<-|H]; try constructor; destruct H. Qed.
(* array([[1,2],3]) is accepted: shape (2,2) with three values; array([1,[2]]) gets shape (2,1). *)
Theorem C22_mixed_depth_refuted :
  (exists g' r nd, api_array [] (Nest [row [1; 2]; i_ 3]) = Done (g', r) /\ nth_error g' r = Some nd /\
     n_shape nd = [2; 2] /\ n_len nd = 3) /\
  (exists g' r, api_array [] (Nest [i_ 1; row [2]]) = Done (g', r) /\ shape_of g' r = [2; 1]) /\
  ~ rectangular (Nest [row [1; 2]; i_ 3]) /\ ~ rectangular (Nest [i_ 1; row [2]]).
Proof. exact array_mixed. Qed.
Print Assumptions C22_mixed_depth_refuted.

(* C23 *)
Theorem C23_sum : forall (A : valg) g a axis kd g' r, reach g -> api_sum g a axis kd = Done (g', r) ->
  exists ax dt, norm_axis (Z.of_nat (length (shape_of g a))) axis = Done ax /\
   match nth_error g a with Some nd => n_dtype nd = dt | None => False end /\
   shape_of g' r = (if kd then ones_axes ax 0 (shape_of g a) else drop_axes ax 0 (shape_of g a)) /\
   forall idx, in_range (shape_of g' r) idx ->
     t_at (den A g' r) idx =
       fold_res (fun x y => v <- of_opt (bin A BAdd x y) ;; Ok (coerce A dt v)) (coerce A dt (lit A 0))
         (map (t_at (den A g a)) (sum_positions ax (shape_of g a) (if kd then drop_axes ax 0 idx else idx))).
Proof. exact sum_done. Qed.
Print Assumptions C23_sum.
(* which axes *)
Theorem C23_axes : forall ndim axis, 0 < ndim -> Forall (fun a => - ndim <= a < ndim) axis -> axis <> [] ->
  norm_axis ndim (Some axis) = Done (map (user_axis ndim) axis).
Proof. exact norm_axis_user. Qed.
Print Assumptions C23_axes.
Theorem C23_all_axes : forall ndim axis, 0 <= ndim -> axis = None \/ axis = Some [] -> norm_axis ndim axis = Done (zrange ndim).
Proof. exact norm_axis_all. Qed.
Print Assumptions C23_all_axes.
(* which positions: every position agreeing with the result index on the kept axes, once, in row-major order *)
Theorem C23_positions : forall axes shape out,
  NoDup (sum_positions axes shape out) /\ Sorted.StronglySorted lex_lt (sum_positions axes shape out) /\
  forall p, In p (sum_positions axes shape out) <-> in_range shape p /\ agrees axes out p.
Proof. exact sum_positions_spec. Qed.
Print Assumptions C23_positions.
(* FINDING: an axis outside [-ndim, ndim) is not rejected but wraps around *)
Theorem C23_axis_out_of_range_accepted_refuted :
  exists g' r, api_sum (prog [CFull [2; 3] (NInt 1)]) 0 (Some [2]) false = Done (g', r) /\ shape_of g' r = [3].
Proof. eexists _, _. split; [vm_compute; reflexivity|vm_compute; reflexivity]. Qed.
Print Assumptions C23_axis_out_of_range_accepted_refuted.
Example C23_nonvacuous : exists g' , api_sum (prog [CArange 6; CReshape 0 [2; 3]]) 1 (Some [-1]) true = Done (g', 2%nat) /\
  shape_of g' 2 = [2; 1] /\ map (t_at (den (py_alg no_libm) g' 2)) (all_idx [2; 1]) = [Ok (PI 3); Ok (PI 12)].
Proof. eexists. split; [vm_compute; reflexivity|]. split; vm_compute; reflexivity. Qed.

(* C24 *)
Theorem C24_pad : forall (A : valg) g a d b f g' r, reach g -> call_ok g (CPad a d b f) -> api_pad g a d b f = Done (g', r) ->
  let n := nth (Z.to_nat d) (shape_of g a) 0 in
  d < Z.of_nat (length (shape_of g a)) /\
  shape_of g' r = upd (shape_of g a) (Z.to_nat d) (b + n + f) /\
  (forall idx, in_range (shape_of g' r) idx ->
     t_at (den A g' r) idx =
       if (b <=? nth (Z.to_nat d) idx 0) && (nth (Z.to_nat d) idx 0 <? b + n)
       then t_at (den A g a) (upd idx (Z.to_nat d) (nth (Z.to_nat d) idx 0 - b))
       else Ok (coerce A (match nth_error g a with Some nd => n_dtype nd | None => Float64 end) (lit A 0))) /\
  (b = 0 -> f = 0 -> g' = g /\ r = a).
Proof. exact pad_done. Qed.
Print Assumptions C24_pad.
Theorem C24_pad_slice_back : forall (A : valg) g a d b f g1 p g2 r, reach g -> call_ok g (CPad a d b f) -> api_pad g a d b f = Done (g1, p) ->
  api_getitem g1 p (repeat full_slice (Z.to_nat d) ++ [SSlice (Some b) (Some (b + nth (Z.to_nat d) (shape_of g a) 0)) None]) = Done (g2, r) ->
  shape_of g2 r = shape_of g a /\ forall idx, in_range (shape_of g a) idx -> t_at (den A g2 r) idx = t_at (den A g a) idx.
Proof. exact pad_slice_back. Qed.
Print Assumptions C24_pad_slice_back.
Example C24_nonvacuous : let g := prog [CArange 3] in call_okb g (CPad 0 0 2 1) = true /\
  exists g' g2, api_pad g 0 0 2 1 = Done (g', 1%nat) /\ map (t_at (den (py_alg no_libm) g' 1)) (all_idx [6]) = map (fun z => Ok (PI z)) [0; 0; 0; 1; 2; 0] /\
  api_getitem g' 1 [SSlice (Some 2) (Some 5) None] = Done (g2, 2%nat) /\ shape_of g2 2 = [3].
Proof. cbn zeta. split; [vm_compute; reflexivity|]. eexists _, _. split; [vm_compute; reflexivity|]. split; [vm_compute; reflexivity|]. split; [vm_compute; reflexivity|vm_compute; reflexivity]. Qed.

(* C25 *)
Theorem C25_dilate : forall (A : valg) g a d st g' r, reach g -> call_ok g (CDilate a d st) -> api_dilate g a d st = Done (g', r) ->
  let n := nth (Z.to_nat d) (shape_of g a) 0 in
  d < Z.of_nat (length (shape_of g a)) /\
  shape_of g' r = upd (shape_of g a) (Z.to_nat d) ((n - 1) * st + 1) /\
  (forall idx, in_range (shape_of g' r) idx ->
     t_at (den A g' r) idx =
       if nth (Z.to_nat d) idx 0 mod st =? 0
       then t_at (den A g a) (upd idx (Z.to_nat d) (nth (Z.to_nat d) idx 0 / st))
       else Ok (coerce A (match nth_error g a with Some nd => n_dtype nd | None => Float64 end) (lit A 0))) /\
  (st = 1 -> g' = g /\ r = a).
Proof. exact dilate_done. Qed.
Print Assumptions C25_dilate.
Theorem C25_dilate_slice_back : forall (A : valg) g a d st g1 p g2 r, reach g -> call_ok g (CDilate a d st) -> api_dilate g a d st = Done (g1, p) ->
  api_getitem g1 p (repeat full_slice (Z.to_nat d) ++ [SSlice None None (Some st)]) = Done (g2, r) ->
  shape_of g2 r = shape_of g a /\ forall idx, in_range (shape_of g a) idx -> t_at (den A g2 r) idx = t_at (den A g a) idx.
Proof. exact dilate_slice_back. Qed.
Print Assumptions C25_dilate_slice_back.
Example C25_nonvacuous : let g := prog [CArange 3; CBinaryScalar BAdd 0 (NInt 1)] in call_okb g (CDilate 0 0 3) = true /\
  exists g', api_dilate g 0 0 3 = Done (g', 4%nat) /\ map (t_at (den (py_alg no_libm) g' 4)) (all_idx [7]) = map (fun z => Ok (PI z)) [0; 0; 0; 1; 0; 0; 2].
Proof. cbn zeta. split; [vm_compute; reflexivity|]. eexists. split; [vm_compute; reflexivity|vm_compute; reflexivity]. Qed.

(* C26 *)
Theorem C26_contiguous : forall (A : valg) g a g' c, reach g -> api_contiguous g a = Done (g', c) ->
  valid g a /\ shape_of g' c = shape_of g a /\ (forall idx, t_at (den A g' c) idx = t_at (den A g a) idx) /\
  (exists nd, nth_error g' c = Some nd /\ n_strides nd = strides_from_shape (n_shape nd)) /\
  (forall nd, nth_error g a = Some nd -> n_strides nd = strides_from_shape (n_shape nd) -> g' = g /\ c = a).
Proof. exact api_contiguous_den. Qed.
Print Assumptions C26_contiguous.
Example C26_nonvacuous : let g := prog [CArange 6; CReshape 0 [2; 3]; CT 1] in
  (exists g', api_contiguous g 2 = Done (g', 3%nat)) /\ api_contiguous g 1 = Done (g, 1%nat).
Proof. cbn zeta. split; [eexists|]; vm_compute; reflexivity. Qed.

(* C27: PARTIAL: the data rule, preservation by every operation, and ones_like on non-empty arrays.
   The claim for zeros_like/full_like, and ones_like of empty integer arrays, is false. *)
Theorem C27_dtype_of_data : forall g v g' r, api_array g v = Done (g', r) -> dtype_of g' r = Some (data_dtype (hd_error (leaves v))).
Proof. exact array_dtype. Qed.
Print Assumptions C27_dtype_of_data.
Theorem C27_dtype_preserved_partial : forall g c a g' r, valid g a -> first_operand c = Some a ->
  run_call g c = Done (g', r) -> dtype_of g' r = dtype_of g a.
Proof. exact call_dtype. Qed.
Print Assumptions C27_dtype_preserved_partial.
Theorem C27_only_two_dtypes : forall g, reach g -> forall a, valid g a -> dtype_of g a = Some Int64 \/ dtype_of g a = Some Float64.
Proof. exact reach_dtype. Qed.
Print Assumptions C27_only_two_dtypes.
Theorem C27_ones_like_partial : forall g t g' r, reach g -> valid g t -> zprod (shape_of g t) <> 0 -> api_ones_like g t = Done (g', r) ->
  dtype_of g' r = dtype_of g t /\ shape_of g' r = shape_of g t.
Proof. exact (fun g t g' r Hr Hv Hz H => ones_like_dtype g t g' r Hr Hv Hz H (reach_dtype g Hr t Hv)). Qed.
Print Assumptions C27_ones_like_partial.
Theorem C27_like_refuted :
  (exists g' r, api_zeros_like (prog [CArray (Leaf (NFlt 1 0))]) 0 = Done (g', r) /\
     dtype_of g' 0 = Some Float64 /\ dtype_of g' r = Some Int64) /\
  (exists g' r, api_ones_like (prog [CArange 3; CGetitem 0 [SSlice (Some 3) None None]]) 1 = Done (g', r) /\
     dtype_of g' 1 = Some Int64 /\ dtype_of g' r = Some Float64).
Proof. split; eexists _, _; (split; [vm_compute; reflexivity|vm_compute; auto]). Qed.
Print Assumptions C27_like_refuted.
Example C27_nonvacuous : first_operand (CBinaryScalar BMul 0 (NFlt 1 (-1))) = Some 0%nat /\
  exists g', run_call (prog [CArange 3]) (CBinaryScalar BMul 0 (NFlt 1 (-1))) = Done (g', 3%nat) /\ dtype_of g' 3 = Some Int64.
Proof. split; [reflexivity|]. eexists; (split; [vm_compute; reflexivity|vm_compute; reflexivity]). Qed.

(* C33: an operation only adds arrays; every existing array keeps its description and its meaning.
   run_call takes and returns no buffers and no kernels; that materialize/tolist are the only steps
   touching memory is C33_... in PropHistory.v. *)
Theorem C33_operations_are_pure : forall (A : valg) g c g' r, run_call g c = Done (g', r) ->
  valid g' r /\ (exists h, g' = g ++ h) /\
  forall a, valid g a -> nth_error g' a = nth_error g a /\ den A g' a = den A g a.
Proof. exact call_pure. Qed.
Print Assumptions C33_operations_are_pure.

(* C42: PARTIAL: under the argument conditions of Reach.call_ok (the code checks none of them);
   dilate on an empty axis breaks it. *)
Theorem C42_extents_partial : forall g a nd, reach g -> nth_error g a = Some nd ->
  nonneg (n_shape nd) /\ length (n_strides nd) = length (n_shape nd) /\ n_len nd = zprod (n_shape nd) /\
  exists b bd, base g a = Some b /\ nth_error g b = Some bd /\
    forall idx, in_range (n_shape nd) idx -> 0 <= n_offset nd + dot idx (n_strides nd) < n_len bd.
Proof. exact extents_ok. Qed.
Print Assumptions C42_extents_partial.
Theorem C42_negative_extent_refuted :
  exists g g' r nd, reach g /\ run_call g (CDilate 0 0 2) = Done (g', r) /\ nth_error g' r = Some nd /\ n_shape nd = [-1] /\ n_len nd = -1.
Proof. exists (prog [CArray (Nest [])]). eexists _, _, _. split; [apply prog_reach|]. split; [vm_compute; reflexivity|vm_compute; auto]. Qed.
Print Assumptions C42_negative_extent_refuted.
(* reshape(-1, -6) and broadcast_to with a negative extent are accepted as well *)
Theorem C42_negative_reshape_refuted :
  exists g g' r, reach g /\ run_call g (CReshape 0 [-1; -6]) = Done (g', r) /\ shape_of g' r = [-1; -6].
Proof. exists (prog [CArange 6]). eexists _, _. split; [apply prog_reach|]. split; [vm_compute; reflexivity|vm_compute; reflexivity]. Qed.
Print Assumptions C42_negative_reshape_refuted.
Example C42_nonvacuous : length (prog [CArange 6; CReshape 0 [2; 3]; CT 1; CGetitem 2 [SSlice (Some 1) None None]; CPad 3 1 1 1]) = 5%nat.
Proof. vm_compute. reflexivity. Qed.
