(* Total-correctness lemmas for single API calls, in the form the backward rules need: on valid
   operands of matching shapes the call succeeds, extends the graph, and has this meaning. *)
From Verif Require Import Base BaseFacts Util UtilFacts Lang Spec SpecFacts Graph Api Denote DenoteFacts ArrayLit Reach ApiFacts
  FrontSpec FrontFacts FrontFacts2 FrontFacts3 FrontFacts4 Backward BackSpec.

Definition extends (g g' : graph) : Prop := exists h, g' = g ++ h.
Lemma ext_refl g : extends g g.
Proof. exists []. now rewrite app_nil_r. Qed.
Lemma ext_trans a b c : extends a b -> extends b c -> extends a c.
Proof. intros [h ->] [k ->]. exists (h ++ k). now rewrite app_assoc. Qed.
Lemma ext_node g g' a nd : extends g g' -> nth_error g a = Some nd -> nth_error g' a = Some nd.
Proof. intros [h ->] H. now apply nth_error_app_some. Qed.
Lemma ext_valid g g' a : extends g g' -> valid g a -> valid g' a.
Proof. intros [h ->] H. unfold valid in *. rewrite app_length. lia. Qed.
Lemma ext_shape g g' a : extends g g' -> valid g a -> shape_of g' a = shape_of g a.
Proof. intros He H. destruct (valid_node _ _ H) as [nd Hn]. unfold shape_of. now rewrite Hn, (ext_node _ _ _ _ He Hn). Qed.
Lemma shape_node g a nd : nth_error g a = Some nd -> shape_of g a = n_shape nd.
Proof. unfold shape_of. now intros ->. Qed.

Lemma call_steps g c g' r : reach g -> call_ok g c -> run_call g c = Done (g', r) ->
  reach g' /\ extends g g' /\ valid g' r.
Proof.
  intros Hr Hok H. destruct (run_call_appends _ _ _ _ H) as (h & E & Hv). split; [|split; [exists h; exact E|exact Hv]].
  eapply reach_call; eauto.
Qed.

Section S.
Context (A : valg) (Hco : forall dt v, coerce A dt v = v).

Lemma ext_den g g' a : extends g g' -> valid g a -> den A g' a = den A g a.
Proof. intros [h ->] H. now apply den_app. Qed.

(* outcome of an API call that yields an array of shape s with elements f *)
Record yields (g : graph) (o : outcome (graph * nat)) (s : list Z) (f : list Z -> res (val A)) (g' : graph) (r : nat) : Prop := {
  y_done : o = Done (g', r);
  y_reach : reach g';
  y_ext : extends g g';
  y_valid : valid g' r;
  y_shape : shape_of g' r = s;
  y_at : forall idx, in_range s idx -> t_at (den A g' r) idx = f idx
}.

Lemma st_unary g u a : reach g -> valid g a ->
  exists g' r, yields g (api_unary g u a) (shape_of g a) (fun i => x <- t_at (den A g a) i ;; of_opt (un A u x)) g' r.
Proof.
  intros Hr Hv. destruct (valid_node _ _ Hv) as [nd Hn].
  assert (exists g' r, api_unary g u a = Done (g', r)) as (g' & r & H) by (unfold api_unary, forward, get; rewrite Hn; cbn; eauto).
  pose proof (call_steps g (CUnary u a) g' r Hr Hv H) as (R1 & R2 & R3).
  exists g', r. constructor; auto.
  - unfold api_unary in H. destruct (forward_den A _ _ _ _ _ (reach_wf _ R1) H) as (rd & y & a' & E1 & E2 & E3 & E4 & E5 & E6 & E7 & E8 & E9).
    cbn in E2. injection E2 as <-. unfold shape_of. rewrite E1, E3. cbn in E6. injection E6 as <-. reflexivity.
  - intros idx _. unfold api_unary in H. destruct (forward_den A _ _ _ _ _ (reach_wf _ R1) H) as (rd & y & a' & E1 & E2 & E3 & E4 & E5 & E6 & E7 & E8 & E9).
    cbn in E2. injection E2 as <-. rewrite E8. unfold den_node. rewrite E4, E9. cbn [t_map t_at].
    destruct (t_at (den A g a) idx); cbn; auto. unfold op1. destruct (un A u a0); cbn; auto. now rewrite Hco.
Qed.

Lemma np_broadcast_self s : np_broadcast s s = Some s.
Proof.
  unfold np_broadcast. assert (H : forall l, np_rev l l = Some l).
  { induction l as [|x l IH]; cbn; [reflexivity|]. now rewrite IH, Z.eqb_refl. }
  rewrite H. now rewrite rev_involutive.
Qed.
Lemma np_broadcast_nil s : np_broadcast s [] = Some s.
Proof.
  unfold np_broadcast. assert (H : np_rev (rev s) (rev []) = Some (rev s)) by (cbn; now destruct (rev s)).
  rewrite H. now rewrite rev_involutive.
Qed.

Lemma st_binary g b l r s : reach g -> valid g l -> valid g r -> shape_of g l = s -> shape_of g r = s ->
  exists g' x, yields g (api_binary g b l r) s
    (fun i => u <- t_at (den A g l) i ;; v <- t_at (den A g r) i ;; of_opt (bin A b u v)) g' x.
Proof.
  intros Hr Hl Hrr S1 S2. destruct (binary_accepts g b l r Hr Hl Hrr) as [[_ HA] _].
  destruct HA as (g' & x & H); [rewrite S1, S2, np_broadcast_self; discriminate|].
  pose proof (call_steps g (CBinary b l r) g' x Hr (conj Hl Hrr) H) as (R1 & R2 & R3).
  destruct (binary_done A _ _ _ _ _ _ Hr H) as (_ & _ & Hs & Hd). rewrite S1, S2, np_broadcast_self in Hs. injection Hs as Hs.
  exists g', x. constructor; auto. intros idx Hi. rewrite Hd by (now rewrite <- Hs). rewrite S1, S2, (np_pick_self s idx Hi).
  destruct (t_at (den A g l) idx); cbn; auto. destruct (t_at (den A g r) idx); cbn; auto. destruct (bin A b a a0); cbn; auto. now rewrite Hco.
Qed.

Lemma st_binary_scalar g b l z : reach g -> valid g l ->
  exists g' x, yields g (api_binary_scalar g b l (NInt z)) (shape_of g l)
    (fun i => u <- t_at (den A g l) i ;; of_opt (bin A b u (lit A z))) g' x.
Proof.
  intros Hr Hl.
  assert (exists g1 r, api_array g (Leaf (NInt z)) = Done (g1, r)) as (g1 & r & H1) by (eexists _, _; reflexivity).
  pose proof (call_steps g (CArray (Leaf (NInt z))) g1 r Hr ltac:(exists []; constructor) H1) as (R1 & R2 & R3).
  pose proof (array_elements A g (Leaf (NInt z)) [] g1 r ltac:(constructor) H1) as HE.
  assert (HS : shape_of g1 r = []).
  { cbn in H1. unfold api_const in H1. injection H1 as <- <-. unfold shape_of. now rewrite nth_error_snoc. }
  rewrite HS in HE. destruct (HE [] ltac:(constructor)) as (x0 & Hx & HV). cbn in Hx. injection Hx as <-. rewrite Hco in HV. clear HE.
  pose proof (ext_valid _ _ _ R2 Hl) as Hl1. pose proof (ext_shape _ _ _ R2 Hl) as Hls.
  destruct (binary_accepts g1 b l r R1 Hl1 R3) as [[_ HA] _].
  destruct HA as (g' & x & H); [rewrite HS, np_broadcast_nil; discriminate|].
  pose proof (call_steps g1 (CBinary b l r) g' x R1 (conj Hl1 R3) H) as (Q1 & Q2 & Q3).
  destruct (binary_done A _ _ _ _ _ _ R1 H) as (_ & _ & Hs & Hd). rewrite HS, np_broadcast_nil, Hls in Hs. injection Hs as Hs.
  exists g', x. constructor; auto; [unfold api_binary_scalar; rewrite H1; exact H|eapply ext_trans; eauto|].
  intros idx Hi. rewrite Hd by (now rewrite <- Hs). rewrite HS, Hls, (np_pick_self _ idx Hi), (ext_den _ _ _ R2 Hl).
  destruct (t_at (den A g l) idx); cbn [rbind]; auto.
  assert (Hnil : np_pick [] idx = []) by (unfold np_pick; cbn; now destruct (rev idx)). rewrite Hnil, HV. cbn [rbind]. unfold lit. destruct (bin A b a (of_num A (NInt z))); cbn; auto. now rewrite Hco.
Qed.

Lemma st_reshape g a s : reach g -> valid g a -> nonneg s -> zprod s = zprod (shape_of g a) ->
  exists g' r, yields g (api_reshape g a s) s (fun i => t_at (den A g a) (unflat (shape_of g a) (flat s i))) g' r.
Proof.
  intros Hr Hv Hn Hp. destruct (proj1 (reshape_accepts g a s Hv)) as [_ HA]. destruct (HA Hp) as (g' & r & H).
  pose proof (call_steps g (CReshape a s) g' r Hr (conj Hv Hn) H) as (R1 & R2 & R3).
  destruct (reshape_done A _ _ _ _ _ Hr (conj Hv Hn) H) as (S1 & _ & HM).
  exists g', r. constructor; auto. intros idx Hi.
  pose proof (nth_error_all_idx s idx Hn Hi) as HN.
  pose proof (map_nth_error (t_at (den A g' r)) _ _ HN) as HN'. rewrite HM in HN'.
  pose proof (flat_bounds s idx Hi) as Hb. rewrite Hp in Hb.
  assert (Hin : in_range (shape_of g a) (unflat (shape_of g a) (flat s idx))) by (apply unflat_in_range; [apply shape_nonneg; auto|lia]).
  pose proof (nth_error_all_idx _ _ (shape_nonneg g a Hr) Hin) as HN2. rewrite flat_unflat in HN2 by (first [exact (shape_nonneg g a Hr)|lia]).
  rewrite (map_nth_error (t_at (den A g a)) _ _ HN2) in HN'. congruence.
Qed.

Lemma st_broadcast_to g a s : reach g -> valid g a -> nonneg s -> bcast_ok (shape_of g a) s ->
  exists g' r, yields g (api_broadcast_to g a s) s (fun i => t_at (den A g a) (np_pick (shape_of g a) i)) g' r.
Proof.
  intros Hr Hv Hn Hb. destruct (valid_node _ _ Hv) as [nd Hnd].
  assert (exists g' r, api_broadcast_to g a s = Done (g', r)) as (g' & r & H) by (unfold api_broadcast_to, forward, get; rewrite Hnd; cbn; eauto).
  assert (Hok : call_ok g (CBroadcastTo a s)) by (cbn; auto).
  pose proof (call_steps g _ g' r Hr Hok H) as (R1 & R2 & R3).
  destruct (broadcast_to_done A _ _ _ _ _ Hr Hok H) as (S1 & HD). exists g', r. constructor; auto.
Qed.

Lemma st_transpose g a axes : reach g -> valid g a -> Permutation axes (zrange (Z.of_nat (length (shape_of g a)))) ->
  exists g' r, yields g (api_transpose g a axes) (map (fun k => nth (Z.to_nat k) (shape_of g a) 0) axes)
    (fun i => t_at (den A g a) (unpermute axes i)) g' r.
Proof.
  intros Hr Hv Hp. destruct (proj1 (transpose_accepts g a axes Hv)) as [_ HA]. destruct (HA Hp) as (g' & r & H).
  pose proof (call_steps g (CTranspose a axes) g' r Hr Hv H) as (R1 & R2 & R3).
  destruct (transpose_done A _ _ _ _ _ Hr H) as (_ & _ & _ & S1 & HD). exists g', r. constructor; auto. intros idx Hi. apply HD. now rewrite S1.
Qed.

Lemma st_pad g a d b f : reach g -> valid g a -> (d < length (shape_of g a))%nat -> 0 <= b -> 0 <= f ->
  exists g' r, yields g (api_pad g a (Z.of_nat d) b f) (upd (shape_of g a) d (b + nth d (shape_of g a) 0 + f))
    (fun i => if (b <=? nth d i 0) && (nth d i 0 <? b + nth d (shape_of g a) 0) then t_at (den A g a) (upd i d (nth d i 0 - b)) else Ok (lit A 0)) g' r.
Proof.
  intros Hr Hv Hd Hb Hf. destruct (valid_node _ _ Hv) as [nd Hnd]. pose proof (shape_node _ _ _ Hnd) as Hs.
  assert (exists g' r, api_pad g a (Z.of_nat d) b f = Done (g', r)) as (g' & r & H).
  { unfold api_pad, get. rewrite Hnd. cbn [obind]. rewrite <- Hs. replace (_ <=? _) with false by lia. destruct (_ && _); [eauto|].
    unfold forward, get. rewrite Hnd. cbn. unfold fwd_pad. rewrite <- Hs, pyupdate_nonneg by lia. cbn. eauto. }
  assert (Hok : call_ok g (CPad a (Z.of_nat d) b f)) by (cbn; repeat split; auto; lia).
  pose proof (call_steps g _ g' r Hr Hok H) as (R1 & R2 & R3).
  destruct (pad_done A _ _ _ _ _ _ _ Hr Hok H) as (_ & S1 & HD & _). rewrite Nat2Z.id in *. exists g', r. constructor; auto.
  intros idx Hi. rewrite HD by (now rewrite S1). destruct (_ && _); [reflexivity|]. now rewrite Hco.
Qed.

Lemma st_dilate g a d st : reach g -> valid g a -> (d < length (shape_of g a))%nat -> 1 <= st -> 1 <= nth d (shape_of g a) 0 ->
  exists g' r, yields g (api_dilate g a (Z.of_nat d) st) (upd (shape_of g a) d ((nth d (shape_of g a) 0 - 1) * st + 1))
    (fun i => if nth d i 0 mod st =? 0 then t_at (den A g a) (upd i d (nth d i 0 / st)) else Ok (lit A 0)) g' r.
Proof.
  intros Hr Hv Hd Hb Hf. destruct (valid_node _ _ Hv) as [nd Hnd]. pose proof (shape_node _ _ _ Hnd) as Hs.
  assert (exists g' r, api_dilate g a (Z.of_nat d) st = Done (g', r)) as (g' & r & H).
  { unfold api_dilate, get. rewrite Hnd. cbn [obind]. rewrite <- Hs. replace (_ <=? _) with false by lia. destruct (_ =? _); [eauto|].
    unfold forward, get. rewrite Hnd. cbn. unfold fwd_dilate. rewrite <- Hs, pyupdate_nonneg by lia. cbn. eauto. }
  assert (Hok : call_ok g (CDilate a (Z.of_nat d) st)) by (cbn; rewrite Nat2Z.id; repeat split; auto; lia).
  pose proof (call_steps g _ g' r Hr Hok H) as (R1 & R2 & R3).
  destruct (dilate_done A _ _ _ _ _ _ Hr Hok H) as (_ & S1 & HD & _). rewrite Nat2Z.id in *. exists g', r. constructor; auto.
  intros idx Hi. rewrite HD by (now rewrite S1). destruct (_ =? _); [reflexivity|]. now rewrite Hco.
Qed.

(* sum over a non-empty list of axes in range (or of a scalar over no axis), keepdims *)
Lemma st_sum_keep g a ax : reach g -> valid g a -> Forall (fun k => 0 <= k < Z.of_nat (length (shape_of g a))) ax ->
  ax <> [] \/ shape_of g a = [] ->
  exists g' r, yields g (api_sum g a (Some ax) true) (ones_axes ax 0 (shape_of g a))
    (fun i => fold_res (fun x y => of_opt (bin A BAdd x y)) (lit A 0)
       (map (t_at (den A g a)) (sum_positions ax (shape_of g a) (drop_axes ax 0 i)))) g' r.
Proof.
  intros Hr Hv HF Hne. destruct (valid_node _ _ Hv) as [nd Hnd]. pose proof (shape_node _ _ _ Hnd) as Hs.
  assert (Hna : norm_axis (Z.of_nat (length (shape_of g a))) (Some ax) = Done ax).
  { destruct ax as [|x l].
    - destruct Hne as [?|E]; [congruence|]. rewrite E. reflexivity.
    - rewrite norm_axis_user.
      + f_equal. rewrite <- (map_id (x :: l)) at 2. apply map_ext_in. intros k Hk. rewrite Forall_forall in HF. specialize (HF k Hk).
        unfold user_axis. replace (k <? 0) with false by lia. reflexivity.
      + pose proof (Forall_inv HF). cbn beta in *. lia.
      + eapply Forall_impl; [|exact HF]. cbn. lia.
      + discriminate. }
  assert (exists g' r, api_sum g a (Some ax) true = Done (g', r)) as (g' & r & H).
  { unfold api_sum, get. rewrite Hnd. cbn [obind]. rewrite <- Hs, Hna. cbn [obind]. unfold forward, get. rewrite Hnd. cbn. eauto. }
  pose proof (call_steps g (CSum a (Some ax) true) g' r Hr Hv H) as (R1 & R2 & R3).
  destruct (sum_done A _ _ _ _ _ _ Hr H) as (ax' & dt & N & _ & S1 & HD). rewrite Hna in N. injection N as <-.
  exists g', r. constructor; auto. intros idx Hi. rewrite HD by (now rewrite S1). rewrite Hco.
  generalize (lit A 0) (map (t_at (den A g a)) (sum_positions ax (shape_of g a) (drop_axes ax 0 idx))). intros acc xs.
  revert acc. induction xs as [|x xs IH]; intros acc; cbn; [reflexivity|]. destruct x as [x0| |]; cbn; auto.
  destruct (bin A BAdd acc x0) as [w|]; cbn; auto. rewrite Hco. apply IH.
Qed.

(* one sliced axis, every other axis whole; the call as the rules write it *)
Lemma getitem_full_axis g a d x y st : valid g a -> (d < length (shape_of g a))%nat ->
  api_getitem g a (map (fun k => if k =? Z.of_nat d then SSlice x y st else full_slice) (zrange (Z.of_nat (length (shape_of g a))))) =
  api_getitem g a (repeat full_slice d ++ [SSlice x y st]).
Proof.
  intros Hv Hd. destruct (valid_node _ _ Hv) as [nd Hnd]. pose proof (shape_node _ _ _ Hnd) as Hs. unfold api_getitem, get. rewrite Hnd. cbn [obind].
  rewrite <- Hs. set (n := length (shape_of g a)) in *. rewrite map_length, zrange_length, app_length, repeat_length. cbn [length].
  replace (Nat.ltb n (Z.to_nat (Z.of_nat n))) with false by (symmetry; apply Nat.ltb_ge; lia).
  replace (Nat.ltb n (d + 1)) with false by (symmetry; apply Nat.ltb_ge; lia).
  replace (n - Z.to_nat (Z.of_nat n))%nat with O by lia. cbn [repeat]. rewrite app_nil_r.
  assert (E : map (fun k => if k =? Z.of_nat d then SSlice x y st else full_slice) (zrange (Z.of_nat n)) = (repeat full_slice d ++ [SSlice x y st]) ++ repeat full_slice (n - (d + 1))).
  { apply nth_error_ext'. intros k. destruct (Nat.ltb_spec k n).
    - rewrite nth_error_map, nth_error_zrange by lia. cbn [option_map]. destruct (Nat.eq_dec k d) as [->|Hk].
      + rewrite Z.eqb_refl, nth_error_app1 by (rewrite app_length, repeat_length; cbn; lia). rewrite nth_error_app2 by (rewrite repeat_length; lia).
        rewrite repeat_length, Nat.sub_diag. reflexivity.
      + replace (Z.of_nat k =? Z.of_nat d) with false by lia. symmetry. destruct (Nat.ltb_spec k d).
        * rewrite nth_error_app1 by (rewrite app_length, repeat_length; cbn; lia). rewrite nth_error_app1 by (rewrite repeat_length; lia). apply nth_error_repeat. lia.
        * rewrite nth_error_app2 by (rewrite app_length, repeat_length; cbn; lia). rewrite app_length, repeat_length. cbn. apply nth_error_repeat. lia.
    - transitivity (@None sub); [|symmetry]; apply nth_error_None; rewrite ?map_length, ?zrange_length, ?app_length, ?repeat_length; cbn; lia. }
  rewrite E. reflexivity.
Qed.

Lemma st_slice_axis g a d x y st (f : Z -> Z) n : reach g -> valid g a -> (d < length (shape_of g a))%nat ->
  match st with None => True | Some k => 0 < k end ->
  py_positions (nth d (shape_of g a) 0) x y st = map f (zrange n) -> 0 <= n ->
  exists g' r, yields g (api_getitem g a (map (fun k => if k =? Z.of_nat d then SSlice x y st else full_slice) (zrange (Z.of_nat (length (shape_of g a))))))
    (upd (shape_of g a) d n) (fun i => t_at (den A g a) (upd i d (f (nth d i 0)))) g' r.
Proof.
  intros Hr Hv Hd Hst Hp Hn. rewrite getitem_full_axis by auto.
  assert (HL : subs_legal (repeat full_slice d ++ [SSlice x y st]) (shape_of g a)).
  { clear - Hd Hst. revert Hd. generalize (shape_of g a). induction d as [|d IH]; intros [|e s] Hd; cbn in Hd; try lia; cbn [repeat app subs_legal].
    - split; [exact Hst|exact I].
    - split; [exact I|]. apply IH. lia. }
  destruct (getitem_accepts A g a (repeat full_slice d ++ [SSlice x y st]) Hr Hv) as [[_ HA] _]. destruct (HA HL) as (g' & r & H).
  pose proof (call_steps g (CGetitem a _) g' r Hr Hv H) as (R1 & R2 & R3).
  destruct (slice_axis_done A g a d x y st g' r Hr Hd f) as (S1 & HD); [|exact H|].
  { rewrite Hp. intros i p Hz. rewrite znth_map in Hz. destruct (znth (zrange n) i) as [z|] eqn:Ez; [|discriminate]. cbn in Hz. injection Hz as <-.
    pose proof (znth_Some_range _ _ _ Ez) as Hb. rewrite zrange_length in Hb. rewrite znth_zrange in Ez by lia. now injection Ez as <-. }
  rewrite Hp, map_length, zrange_length in S1. replace (Z.of_nat (Z.to_nat n)) with n in S1 by lia.
  exists g', r. constructor; auto. intros idx Hi. apply HD. now rewrite S1.
Qed.

Lemma st_ones_like g a : reach g -> valid g a ->
  exists g' r z, yields g (api_ones_like g a) (shape_of g a) (fun _ => Ok (of_num A z)) g' r /\ (z = NInt 1 \/ z = NFlt 1 0).
Proof.
  intros Hr Hv. destruct (valid_node _ _ Hv) as [nd Hnd]. pose proof (shape_node _ _ _ Hnd) as Hs.
  pose proof (shape_nonneg g a Hr) as Hnn.
  set (v := if is_int (n_dtype nd) then NInt 1 else NFlt 1 0).
  assert (H : api_ones_like g a = Done (g ++ [const_node (shape_of g a) (repeat v (Z.to_nat (zprod (shape_of g a))))], length g)).
  { unfold api_ones_like, api_full_like, api_full, api_const, get. rewrite Hnd. cbn [obind]. rewrite Hs. reflexivity. }
  pose proof (call_steps g (COnesLike a) _ _ Hr Hv H) as (R1 & R2 & R3).
  eexists _, _, v. split; [|unfold v; destruct (is_int _); auto]. constructor; [exact H|exact R1|exact R2|exact R3| |].
  - unfold shape_of at 1. rewrite nth_error_snoc. reflexivity.
  - intros idx Hi. rewrite den_last. unfold den_node. cbn [const_node n_op n_shape t_data t_at].
    rewrite znth_map. pose proof (flat_bounds _ _ Hi) as Hb.
    assert (Hz : znth (repeat v (Z.to_nat (zprod (shape_of g a)))) (flat (shape_of g a) idx) = Some v).
    { unfold znth. replace (_ <? 0) with false by lia. apply nth_error_repeat. lia. }
    rewrite Hz. cbn. now rewrite Hco.
Qed.
End S.
