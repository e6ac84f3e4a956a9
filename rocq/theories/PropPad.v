(* C24, C25: which arguments pad() and dilate() accept, and what happens for a negative dim.
   The code only checks dim < ndim; a negative dim is accepted (Python indexing makes the shape right), but the kernel
   shifts the index of no dimension (algo.py:265,278 compare d == dim with d >= 0): wrong elements, or a read outside the buffer. *)
From Verif Require Import Base BaseFacts Util Lang Spec Graph Api Denote ArrayLit Reach ApiFacts Tolist Kernel LangInst Prog Runtime RuntimeFacts RtInst HistTools RuntimeTop PropRuntime PropLang.

Lemma pyupdate_some l d f : - Z.of_nat (length l) <= d < Z.of_nat (length l) -> exists l', pyupdate l d f = Some l'.
Proof.
  intros H. unfold pyupdate. destruct (znth_in_range l (if d <? 0 then d + Z.of_nat (length l) else d)) as (x & E); [destruct (Z.ltb_spec d 0); lia|]. rewrite E. eauto.
Qed.
Lemma pyupdate_none l d f : d < - Z.of_nat (length l) -> pyupdate l d f = None.
Proof.
  intros H. unfold pyupdate. destruct (Z.ltb_spec d 0); [|lia].
  destruct (znth l (d + Z.of_nat (length l))) eqn:E; [|reflexivity]. apply znth_Some_range in E. lia.
Qed.
(* pad(dim, before, after): RuntimeError if dim >= ndim; the array itself if nothing is padded; IndexError if
   dim < -ndim; otherwise it succeeds.  A failing call changes nothing (run_call returns no new graph). *)
Theorem C24_rejects : forall g a nd d b f, nth_error g a = Some nd -> let n := Z.of_nat (length (n_shape nd)) in
  (n <= d -> api_pad g a d b f = Throw RuntimeErr) /\
  (d < n -> b = 0 -> f = 0 -> api_pad g a d b f = Done (g, a)) /\
  (d < n -> ~ (b = 0 /\ f = 0) -> d < - n -> api_pad g a d b f = Throw IndexErr) /\
  (d < n -> ~ (b = 0 /\ f = 0) -> - n <= d -> exists nd', api_pad g a d b f = Done (g ++ [nd'], length g)).
Proof.
  intros g a nd d b f Hn n. unfold api_pad, get. rewrite Hn. cbn [obind].
  split; [|split; [|split]].
  - intros H. apply Z.leb_le in H. unfold n in H. now rewrite H.
  - intros H -> ->. apply Z.leb_gt in H. unfold n in H. now rewrite H.
  - intros H Hbf Hd. apply Z.leb_gt in H. unfold n in H. rewrite H.
    assert (E : (b =? 0) && (f =? 0) = false) by (destruct (Z.eqb_spec b 0), (Z.eqb_spec f 0); cbn; auto; exfalso; auto). rewrite E.
    unfold forward, get. rewrite Hn. cbn [obind forward_node]. unfold fwd_pad. now rewrite pyupdate_none.
  - intros H Hbf Hd. assert (H' := H). apply Z.leb_gt in H. unfold n in H. rewrite H.
    assert (E : (b =? 0) && (f =? 0) = false) by (destruct (Z.eqb_spec b 0), (Z.eqb_spec f 0); cbn; auto; exfalso; auto). rewrite E.
    unfold forward, get. rewrite Hn. cbn [obind forward_node]. unfold fwd_pad.
    destruct (pyupdate_some (n_shape nd) d (fun n => n + (b + f))) as (l & ->); [unfold n in *; lia|]. cbn [obind]. eauto.
Qed.
Print Assumptions C24_rejects.
Theorem C25_rejects : forall g a nd d st, nth_error g a = Some nd -> let n := Z.of_nat (length (n_shape nd)) in
  (n <= d -> api_dilate g a d st = Throw RuntimeErr) /\
  (d < n -> st = 1 -> api_dilate g a d st = Done (g, a)) /\
  (d < n -> st <> 1 -> d < - n -> api_dilate g a d st = Throw IndexErr) /\
  (d < n -> st <> 1 -> - n <= d -> exists nd', api_dilate g a d st = Done (g ++ [nd'], length g)).
Proof.
  intros g a nd d st Hn n. unfold api_dilate, get. rewrite Hn. cbn [obind].
  split; [|split; [|split]].
  - intros H. apply Z.leb_le in H. unfold n in H. now rewrite H.
  - intros H ->. apply Z.leb_gt in H. unfold n in H. now rewrite H.
  - intros H Hs Hd. apply Z.leb_gt in H. unfold n in H. rewrite H. apply Z.eqb_neq in Hs. rewrite Hs.
    unfold forward, get. rewrite Hn. cbn [obind forward_node]. unfold fwd_dilate. now rewrite pyupdate_none.
  - intros H Hs Hd. assert (H' := H). apply Z.leb_gt in H. unfold n in H. rewrite H. apply Z.eqb_neq in Hs. rewrite Hs.
    unfold forward, get. rewrite Hn. cbn [obind forward_node]. unfold fwd_dilate.
    destruct (pyupdate_some (n_shape nd) d (fun n => (n - 1) * st + 1)) as (l & ->); [unfold n in *; lia|]. cbn [obind]. eauto.
Qed.
Print Assumptions C25_rejects.
Example C24_rejects_nonvacuous : exists nd, nth_error (Prog.prog [CArange 3]) 0 = Some nd /\ n_shape nd = [3].
Proof. eexists. split; vm_compute; reflexivity. Qed.

Definition exQ : list call := [CArray (Nest [Nest [Leaf (NInt 1); Leaf (NInt 2)]; Nest [Leaf (NInt 3); Leaf (NInt 4)]]); CGetitem 0 [SSlice (Some 0) (Some 1) None]].
Definition exQs : rt pyB := fst (api_call pyB (prun exQ) (CPad 1 (-1) 1 0)).
(* x = array([[1, 2], [3, 4]])[0:1] has shape (1, 2) and elements [[1, 2]].  x.pad(-1, 1, 0) is accepted, has shape
   (1, 3), materializes, and reads [[0, 2, 3]] instead of [[0, 1, 2]] *)
Theorem C24_negative_dim_refuted : let s := prun exQ in let s1 := exQs in let s2 := fst (materialize pyB s1 2) in
  snd (api_call pyB s (CPad 1 (-1) 1 0)) = Done 2%nat /\ shape_of (r_graph pyB s1) 2 = [1; 3] /\ snd (materialize pyB s1 2) = Done tt /\
  tolist (r_graph pyB s1) (r_cpu pyB s1) 1 = Done (Nest [Nest [Leaf (PI 1); Leaf (PI 2)]]) /\
  tolist (r_graph pyB s2) (r_cpu pyB s2) 2 = Done (Nest [Nest [Leaf (PI 0); Leaf (PI 2); Leaf (PI 3)]]).
Proof. cbv zeta. split; [vm_compute; reflexivity|]. split; [vm_compute; reflexivity|]. split; [vm_compute; reflexivity|]. split; vm_compute; reflexivity. Qed.
Print Assumptions C24_negative_dim_refuted.
(* arange(3).pad(-1, 1, 1): accepted, and the kernel reads element 3 of a buffer of 3 elements (an IndexError in Python,
   undefined behaviour in C; InternalErr is the model's mark of a failed kernel) *)
Theorem C24_negative_dim_out_of_bounds_refuted : forall B, B = pyB \/ B = cB -> let s := sc_state B (map Call [CArange 3]) in
  snd (api_call B s (CPad 0 (-1) 1 1)) = Done 1%nat /\ snd (materialize B (fst (api_call B s (CPad 0 (-1) 1 1))) 1) = Throw InternalErr.
Proof. intros B [->| ->]; cbv zeta; split; vm_compute; reflexivity. Qed.
Print Assumptions C24_negative_dim_out_of_bounds_refuted.
Theorem C25_negative_dim_refuted : forall B, B = pyB \/ B = cB -> let s := sc_state B (map Call [CArange 3]) in
  snd (api_call B s (CDilate 0 (-1) 2)) = Done 1%nat /\ snd (materialize B (fst (api_call B s (CDilate 0 (-1) 2))) 1) = Throw InternalErr.
Proof. intros B [->| ->]; cbv zeta; split; vm_compute; reflexivity. Qed.
Print Assumptions C25_negative_dim_refuted.
