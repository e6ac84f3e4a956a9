(* Properties C15-C20: views, slicing, broadcasting, transposition. *)
From Verif Require Import Base Util Lang Spec Graph Api Denote ArrayLit Reach Tolist FrontSpec LangInst Prog
  BaseFacts ApiFacts TolistFacts FrontFacts FrontFacts2 FrontFacts3 FrontFacts4.

(* Example graph used below: 0 = arange(6); 1 = 0.reshape(2,3); 2 = 1.T; 3 = 2[1:, -1]; 4 = broadcast of 3;
   5 = 0[3:]; 6 = 5.reshape(3); 7 = 0[-5:100:2] *)
Definition ex : graph := prog
  [CArange 6; CReshape 0 [2; 3]; CT 1; CGetitem 2 [SSlice (Some 1) None None; SInt (-1)];
   CBroadcastTo 3 [4; 2]; CGetitem 0 [SSlice (Some 3) None None]; CReshape 5 [3]; CGetitem 0 [SSlice (Some (-5)) (Some 100) (Some 2)]].
Example ex_len : length ex = 8%nat. Proof. vm_compute. reflexivity. Qed.
Definition ints (l : list Z) : list pyval := map PI l.
Definition ex_mem : mem pyval := fun a => if Nat.eqb a 0 then Some (ints [0;1;2;3;4;5]) else None.

(* C15: tolist of any chain of views over a filled buffer is the nested list of the view's logical
   elements.  PARTIAL: in the chain, reshape is applied only to arrays starting at offset 0 of
   their buffer; without that restriction the claim is false, see C15_..._refuted. *)
Theorem C15_tolist_of_view_partial : forall (A : valg) g (m : mem (val A)) a b,
  reach g -> view_of g true a b -> holds A g m b ->
  exists l, tolist g m a = Done l /\ t_tolist (den A g a) = Ok l.
Proof. exact (fun A g m a b Hr => tolist_view A g m a b (reach_wf g Hr)). Qed.
Print Assumptions C15_tolist_of_view_partial.
Example C15_nonvacuous : reach ex /\ view_of ex true 4 0 /\ holds (py_alg no_libm) ex ex_mem 0 /\
  tolist ex ex_mem 4 = Done (Nest (map (fun _ => Nest [Leaf (PI 4); Leaf (PI 5)]) [1;2;3;4])).
Proof.
  split; [apply prog_reach|]. split.
  { repeat (eapply vo_step; [vm_compute; reflexivity|reflexivity|vm_compute; reflexivity|vm_compute; reflexivity|intros _ [s Hs]; (reflexivity || discriminate Hs)|]).
    eapply vo_self; [vm_compute; reflexivity|reflexivity]. }
  split; [|vm_compute; reflexivity].
  eexists _, _. split; [reflexivity|]. split; [vm_compute; reflexivity|]. split; [vm_compute; reflexivity|].
  intros idx Hi. apply in_all_idx in Hi. vm_compute in Hi.
  repeat (destruct Hi as [<-|Hi]; [vm_compute; reflexivity|]). destruct Hi.
Qed.
(* The restriction is needed: arange(6)[3:].reshape(3).tolist() gives [0,1,2], not [3,4,5]. *)
Theorem C15_offset_reshape_refuted :
  exists g m a b, reach g /\ view_of g false a b /\ holds (py_alg no_libm) g m b /\
    tolist g m a = Done (Nest [Leaf (PI 0); Leaf (PI 1); Leaf (PI 2)]) /\
    t_tolist (den (py_alg no_libm) g a) = Ok (Nest [Leaf (PI 3); Leaf (PI 4); Leaf (PI 5)]).
Proof.
  exists ex, ex_mem, 6%nat, 0%nat. split; [apply prog_reach|]. split.
  { repeat (eapply vo_step; [vm_compute; reflexivity|reflexivity|vm_compute; reflexivity|vm_compute; reflexivity|discriminate|]).
    eapply vo_self; [vm_compute; reflexivity|reflexivity]. }
  split; [|split; vm_compute; reflexivity]. apply C15_nonvacuous.
Qed.
Print Assumptions C15_offset_reshape_refuted.
(* Even then tolist never reads outside the buffer (and never at a negative index). *)
Theorem C15_tolist_in_bounds : forall g a nd, reach g -> nth_error g a = Some nd ->
  exists b bd, base g a = Some b /\ nth_error g b = Some bd /\
    forall idx, in_range (n_shape nd) idx -> 0 <= n_offset nd + dot idx (n_strides nd) < n_len bd.
Proof. exact (fun g a nd Hr H => proj2 (proj2 (proj2 (extents_ok g a nd Hr H)))). Qed.
Print Assumptions C15_tolist_in_bounds.

(* C16 *)
Theorem C16_reshape_accepts : forall g a s, valid g a ->
  ((exists g' r, api_reshape g a s = Done (g', r)) <-> zprod s = zprod (shape_of g a)) /\
  (forall e, api_reshape g a s = Throw e -> e = RuntimeErr).
Proof. exact reshape_accepts. Qed.
Print Assumptions C16_reshape_accepts.
Theorem C16_reshape_row_major : forall (A : valg) g a s g' r,
  reach g -> valid g a -> nonneg s -> api_reshape g a s = Done (g', r) ->
  shape_of g' r = s /\ zprod s = zprod (shape_of g a) /\
  map (t_at (den A g' r)) (all_idx s) = map (t_at (den A g a)) (all_idx (shape_of g a)).
Proof. exact (fun A g a s g' r Hr Hv Hn => reshape_done A g a s g' r Hr (conj Hv Hn)). Qed.
Print Assumptions C16_reshape_row_major.
Example C16_nonvacuous : (* reshaping the transposed view makes a copy first *)
  reach ex /\ exists g', api_reshape ex 2 [6] = Done (g', 9%nat) /\
  map (t_at (den (py_alg no_libm) g' 9)) (all_idx [6]) = map (fun z => Ok (PI z)) [0; 3; 1; 4; 2; 5].
Proof. split; [apply prog_reach|]. eexists. split; [vm_compute; reflexivity|vm_compute; reflexivity]. Qed.

(* C17: every combination of slices and integers on every array *)
Theorem C17_getitem_accepts : forall g a subs, reach g -> valid g a ->
  ((exists g' r, api_getitem g a subs = Done (g', r)) <-> subs_legal subs (shape_of g a)) /\
  (forall e, api_getitem g a subs = Throw e -> e = RuntimeErr).
Proof. exact (getitem_accepts unit_valg). Qed.
Print Assumptions C17_getitem_accepts.
Theorem C17_getitem_python_slicing : forall (A : valg) g a subs g' r,
  reach g -> api_getitem g a subs = Done (g', r) ->
  valid g a /\ shape_of g' r = selected_shape subs (shape_of g a) /\
  forall idx, in_range (shape_of g' r) idx -> exists src, selects subs (shape_of g a) idx src /\
     t_at (den A g' r) idx = t_at (den A g a) src.
Proof. exact getitem_done. Qed.
Print Assumptions C17_getitem_python_slicing.
Example C17_nonvacuous : shape_of ex 7 = [3] /\
  py_positions 6 (Some (-5)) (Some 100) (Some 2) = [1; 3; 5] /\
  map (t_at (den (py_alg no_libm) ex 7)) (all_idx [3]) = map (fun z => Ok (PI z)) [1; 3; 5].
Proof. repeat split; vm_compute; reflexivity. Qed.

(* C18: a[i1,...,ik] *)
Theorem C18_integer_indexing : forall (A : valg) g a is, reach g -> valid g a ->
  ((exists g' r, api_getitem g a (map SInt is) = Done (g', r)) <->
     ((length is <= length (shape_of g a))%nat /\ Forall2 (fun i n => - n <= i < n) is (firstn (length is) (shape_of g a)))) /\
  (forall e, api_getitem g a (map SInt is) = Throw e -> e = RuntimeErr) /\
  (forall g' r, api_getitem g a (map SInt is) = Done (g', r) ->
     shape_of g' r = skipn (length is) (shape_of g a) /\
     forall idx, in_range (shape_of g' r) idx -> t_at (den A g' r) idx = t_at (den A g a) (from_ends (shape_of g a) is ++ idx)).
Proof. exact index_ints. Qed.
Print Assumptions C18_integer_indexing.
Example C18_nonvacuous : (exists g', api_getitem ex 1 [SInt (-1); SInt 1] = Done (g', 8%nat) /\
   t_at (den (py_alg no_libm) g' 8) [] = Ok (PI 4)) /\ api_getitem ex 1 [SInt 2] = Throw RuntimeErr /\
   api_getitem ex 1 [SInt 0; SInt 0; SInt 0] = Throw RuntimeErr.
Proof. split; [eexists; split; [vm_compute; reflexivity|]|split]; vm_compute; reflexivity. Qed.

(* C19 *)
Theorem C19_binary_accepts : forall g b l r, reach g -> valid g l -> valid g r ->
  ((exists g' x, api_binary g b l r = Done (g', x)) <-> np_broadcast (shape_of g l) (shape_of g r) <> None) /\
  (forall e, api_binary g b l r = Throw e -> e = RuntimeErr).
Proof. exact binary_accepts. Qed.
Print Assumptions C19_binary_accepts.
Theorem C19_binary_elements : forall (A : valg) g b l r g' x, reach g -> api_binary g b l r = Done (g', x) ->
  valid g l /\ valid g r /\ np_broadcast (shape_of g l) (shape_of g r) = Some (shape_of g' x) /\
  forall idx, in_range (shape_of g' x) idx ->
    t_at (den A g' x) idx =
      (u <- t_at (den A g l) (np_pick (shape_of g l) idx) ;;
       v <- t_at (den A g r) (np_pick (shape_of g r) idx) ;;
       w <- of_opt (bin A b u v) ;; Ok (coerce A (match nth_error g l with Some nd => n_dtype nd | None => Float64 end) w)).
Proof. exact binary_done. Qed.
Print Assumptions C19_binary_elements.
Theorem C19_broadcast_commutative : forall s t, np_broadcast s t = np_broadcast t s.
Proof. exact (fun s t => f_equal (fun o => match o with Some r => Some (rev r) | None => None end) (np_rev_sym (rev s) (rev t))). Qed.
Print Assumptions C19_broadcast_commutative.
Theorem C19_broadcast_to : forall (A : valg) g a s g' r, reach g -> call_ok g (CBroadcastTo a s) -> api_broadcast_to g a s = Done (g', r) ->
  shape_of g' r = s /\ forall idx, in_range s idx -> t_at (den A g' r) idx = t_at (den A g a) (np_pick (shape_of g a) idx).
Proof. exact broadcast_to_done. Qed.
Print Assumptions C19_broadcast_to.
Example C19_nonvacuous : np_broadcast [3; 1; 4] [2; 1] = Some [3; 2; 4] /\ np_broadcast [3] [2] = None /\
  exists g', api_binary ex BMul 1 5 = Done (g', 9%nat) /\
    map (t_at (den (py_alg no_libm) g' 9)) (all_idx [2; 3]) = map (fun z => Ok (PI z)) [0; 4; 10; 9; 16; 25].
Proof. split; [reflexivity|]. split; [reflexivity|]. eexists; split; [vm_compute; reflexivity|vm_compute; reflexivity]. Qed.

(* C20 *)
Theorem C20_transpose_accepts : forall g a axes, valid g a ->
  ((exists g' r, api_transpose g a axes = Done (g', r)) <-> Permutation axes (zrange (Z.of_nat (length (shape_of g a))))) /\
  (forall e, api_transpose g a axes = Throw e -> e = RuntimeErr).
Proof. exact transpose_accepts. Qed.
Print Assumptions C20_transpose_accepts.
(* coordinate axes[k] of the source position is idx[k] *)
Theorem C20_transpose_elements : forall (A : valg) g a axes g' r, reach g -> api_transpose g a axes = Done (g', r) ->
  shape_of g' r = map (fun k => nth (Z.to_nat k) (shape_of g a) 0) axes /\
  forall idx, in_range (shape_of g' r) idx -> exists src, t_at (den A g' r) idx = t_at (den A g a) src /\
    length src = length (shape_of g a) /\
    forall k ax, nth_error axes k = Some ax -> nth_error src (Z.to_nat ax) = nth_error idx k.
Proof. exact transpose_elements. Qed.
Print Assumptions C20_transpose_elements.
Theorem C20_transpose_inverse : forall (A : valg) g a axes g1 b axes' g2 c, reach g ->
  api_transpose g a axes = Done (g1, b) -> api_transpose g1 b axes' = Done (g2, c) ->
  (forall k x, nth_error axes' k = Some x -> nth_error axes (Z.to_nat x) = Some (Z.of_nat k)) ->
  shape_of g2 c = shape_of g a /\
  forall idx, in_range (shape_of g a) idx -> t_at (den A g2 c) idx = t_at (den A g a) idx.
Proof. exact transpose_inverse. Qed.
Print Assumptions C20_transpose_inverse.
Theorem C20_T_and_T_twice : forall (A : valg) g a g1 b g2 c, reach g -> api_T g a = Done (g1, b) -> api_T g1 b = Done (g2, c) ->
  shape_of g1 b = rev (shape_of g a) /\ shape_of g2 c = shape_of g a /\
  forall idx, in_range (shape_of g a) idx ->
    t_at (den A g1 b) (rev idx) = t_at (den A g a) idx /\ t_at (den A g2 c) idx = t_at (den A g a) idx.
Proof. exact T_twice. Qed.
Print Assumptions C20_T_and_T_twice.
Example C20_nonvacuous :
  let g := prog [CArange 24; CReshape 0 [2; 3; 4]] in
  exists g1 g2, api_transpose g 1 [2; 0; 1] = Done (g1, 2%nat) /\ api_transpose g1 2 [1; 2; 0] = Done (g2, 3%nat) /\
  shape_of g1 2 = [4; 2; 3] /\ shape_of g2 3 = [2; 3; 4] /\ api_transpose g 1 [0; 0; 1] = Throw RuntimeErr.
Proof. cbn zeta. eexists _, _. split; [vm_compute; reflexivity|]. split; [vm_compute; reflexivity|vm_compute; auto]. Qed.
