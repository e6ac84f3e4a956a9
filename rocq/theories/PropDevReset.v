(* Property C47, CUDA: backend.reset() to and from the CUDA backend. *)
From Verif Require Import Base BaseFacts Util UtilFacts Lang Spec Graph Api ApiFacts Denote SpecFacts DenoteFacts Reach Tolist TolistFacts Prog
  Algo AlgoSem AlgoConvert AlgoConvert2 Kernel Sched Codegen Backends CacheKey KernelRun KernelRun2 BackendFacts AlgoTop AlgoMore Runtime RuntimeFacts RuntimeFacts2 History HistFacts RtInst LangInst CacheFacts Frame HistFacts2 HistTools RuntimeTop Safety PropRuntime
  Parallel ParGpu Device DevFacts DevRun DevHist DevProg DevAny DevTools DevStale PropDevice CopyConv Switch PropSwitch DevReset.

#[local] Arguments bk : simpl never.
Notation cuda := c_backend.

(* backend.py:94-96 from CUDA to a CPU backend, and materialize.reset().  The host lists stay (the same Python
   numbers).  CPU backends do not look at device pointers, and have nothing to copy device memory with
   (executor.py:14-17: CPUExecutor has no memcpy_dtoh). *)
Definition to_cpu lm (w : which) (s : dev (cuda lm)) : rt (bk lm w) :=
  mkRt (bk lm w) (dv_graph _ s) (fun n => option_map (map (conv lm CB w)) (dv_host _ s n)) [] 0 0.
(* from a CPU backend to CUDA, in a process that had no CUDA backend before, and materialize.reset() *)
Definition to_cuda lm (w : which) (s : rt (bk lm w)) : dev (cuda lm) :=
  mkDev (cuda lm) (r_graph _ s) (fun n => option_map (map (conv lm w CB)) (r_cpu _ s n)) (fun _ => None) (fun _ => None) [] 0
    (fun n => Nat.ltb n (length (r_graph _ s))) [].

Lemma map_conv_self lm (l : list cval) : map (conv lm CB CB) l = l.
Proof. apply map_id. Qed.

(* ------------------------------------------------------------------ what survives *)
(* User data survives: after any CUDA history, in a new context and on either CPU backend. *)
Theorem C47_cuda_user_data : forall lm s n nd vals, gany (cuda lm) s -> nth_error (dv_graph _ s) n = Some nd -> n_op nd = OConst vals ->
  dv_host _ (new_context (cuda lm) s) n = Some (map (of_num (c_lang lm)) vals) /\
  forall w, r_cpu _ (to_cpu lm w s) n = Some (map (of_num (b_lang (bk lm w))) vals).
Proof.
  intros lm s n nd vals Hs Hn Ho. pose proof (gany_hinv _ s (c_lang_ok lm) Hs) as HI. pose proof (hi_const _ _ HI n nd vals Hn Ho) as Hc.
  split; [exact Hc|]. intros w. cbn [to_cpu r_cpu]. rewrite Hc. cbn [option_map]. rewrite map_map. f_equal. apply map_ext. intros v. exact (conv_num lm CB w v).
Qed.
Print Assumptions C47_cuda_user_data.
(* Every array that was read with tolist() (its numbers are in a host list) reads the same after the change. *)
Theorem C47_cuda_host_lists_survive : forall lm s a v, host_read (cuda lm) s a = Some v ->
  gtolist (cuda lm) s a = (s, v) /\ gtolist (cuda lm) (new_context (cuda lm) s) a = (new_context (cuda lm) s, v) /\
  forall w, numbers lm w (to_cpu lm w s) a = omap (nest_map to_py) v.
Proof.
  intros lm s a v Hv. split; [now apply gtolist_host|]. split; [now apply gtolist_host|]. intros w.
  unfold host_read in Hv. unfold numbers, tolist. cbn [to_cpu r_graph r_cpu]. destruct (nth_error (dv_graph (cuda lm) s) a) as [nd|]; [|discriminate].
  destruct (base (dv_graph (cuda lm) s) a) as [b|]; [|discriminate]. destruct (dv_host (cuda lm) s b) as [data|]; [|discriminate]. cbn [option_map] in Hv |- *. injection Hv as <-.
  pose proof (read_nd_map (conv lm CB w) data (n_shape nd) (n_strides nd) (n_offset nd)) as E. match type of E with ?l = _ => match goal with |- omap _ ?l' = _ => change l' with l end end. rewrite E.
  match goal with |- omap _ (omap _ ?z) = _ => change (read_nd data (n_shape nd) (n_strides nd) (n_offset nd)) with z; destruct z as [x|] end; cbn [omap]; [|reflexivity]. f_equal. rewrite nest_map_map. apply nest_map_ext. intros u. exact (conv_shown lm CB w u).
Qed.
Print Assumptions C47_cuda_host_lists_survive.
(* and so does every array on the way to CUDA *)
Theorem C47_to_cuda_survives : forall lm w s a x, numbers lm w s a = Done x ->
  exists v, gtolist (cuda lm) (to_cuda lm w s) a = (to_cuda lm w s, Done v) /\ nest_map to_py v = x.
Proof.
  intros lm w s a x Hx. unfold numbers, tolist in Hx. destruct (nth_error (r_graph (bk lm w) s) a) as [nd|] eqn:En; [|discriminate].
  destruct (base (r_graph (bk lm w) s) a) as [b|] eqn:Eb; [|discriminate]. destruct (r_cpu (bk lm w) s b) as [data|] eqn:Ed; [|discriminate].
  destruct (read_nd data (n_shape nd) (n_strides nd) (n_offset nd)) as [l|] eqn:El; [|discriminate]. cbn in Hx. injection Hx as <-.
  exists (nest_map (conv lm w CB) l). split.
  - apply gtolist_host. unfold host_read. cbn [to_cuda dv_graph dv_host]. rewrite En, Eb, Ed. cbn [option_map]. f_equal. rewrite read_nd_map. change (c_backend lm) with (bk lm CB) in *. rewrite El. reflexivity.
  - rewrite nest_map_map. apply nest_map_ext. intros u. exact (conv_shown lm w CB u).
Qed.
Print Assumptions C47_to_cuda_survives.

(* REFUTED: the results that were not read yet are lost.  x.materialize() returned on CUDA and tolist() would
   return its elements; after the change tolist() raises: RuntimeError in a new context (cuMemcpyDtoH refuses the
   address), AttributeError on a CPU backend. *)
Theorem C47_cuda_results_lost_refuted : forall lm C s a b s', key_safe C -> ghist (cuda lm) true C s -> dv_alive _ s a = true ->
  view_of (dv_graph _ s) true a b -> computed (dv_graph _ s) b -> gmat_ok (cuda lm) (dv_graph _ s) b -> (forall d, gkernel_of (dv_graph _ s) a d -> C d) ->
  dv_host _ s b = None -> gmat (cuda lm) s a s' (Done tt) ->
  (exists l, snd (gtolist (cuda lm) s' a) = Done l /\ t_tolist (den (c_lang lm) (dv_graph _ s) a) = Ok l) /\
  gtolist (cuda lm) (new_context (cuda lm) s') a = (new_context (cuda lm) s', Throw RuntimeErr) /\
  forall w, numbers lm w (to_cpu lm w s') a = Throw AttrErr.
Proof.
  intros lm C s a b s' HC Hs Ha Hv Hcm Hm Hk Hh HM. pose proof (ghist_inv (cuda lm) (c_backend_ok lm) C HC s Hs) as HI.
  pose proof (reach_wf _ (di_reach _ _ _ _ HI)) as Hw. pose proof (view_of_base _ _ _ _ Hw Hv) as Hb.
  destruct Hcm as (bd & Hbd & Hc). destruct (gmat_top _ (c_backend_ok lm) C HC s a b bd s' (Done tt) HI Ha Hb Hbd Hm Hk HM) as (HI' & Hg & Hal & Hho & _).
  assert (exists nd, nth_error (dv_graph (cuda lm) s) a = Some nd) as [nd Hnd] by (destruct Hv; eauto).
  split; [eapply (dinv_value _ (c_backend_ok lm) C HC s a b s'); eauto; exists bd; auto|]. split.
  - unfold gtolist. cbn [new_context dv_graph dv_host dv_ptr dv_mem]. rewrite Hg, Hho, Hnd, Hb, Hh. destruct (dv_ptr (cuda lm) s' b); reflexivity.
  - intros w. unfold numbers, tolist. cbn [to_cpu r_graph r_cpu]. rewrite Hg, Hho, Hnd, Hb, Hh. reflexivity.
Qed.
Print Assumptions C47_cuda_results_lost_refuted.

(* REFUTED: arrays keep their addresses of the old context.  When the driver gives such an address to another
   array z of the new context, tolist() on the old array y returns what is in the memory of z, whatever that
   is at that time, and when y dies the memory of z is freed. *)
Theorem C47_cuda_alias_refuted : forall lm s y b nd p z zd garbage, gany (cuda lm) s ->
  nth_error (dv_graph _ s) y = Some nd -> base (dv_graph _ s) y = Some b -> dv_host _ s b = None -> dv_ptr _ s b = Some p ->
  dv_ptr _ s z = None -> nth_error (dv_graph _ s) z = Some zd -> 0 < n_len zd -> Z.of_nat (length garbage) = n_len zd ->
  let t := set_ptr (cuda lm) (new_context (cuda lm) s) z p garbage in
  pointer (cuda lm) (new_context (cuda lm) s) z t (Done p) /\
  (forall m e data, m p = Some data -> snd (gtolist (cuda lm) (set_mem (cuda lm) t m e) y) = read_nd data (n_shape nd) (n_strides nd) (n_offset nd)) /\
  (dv_ptr _ (die1 (cuda lm) t b) z = Some p /\ dv_mem _ (die1 (cuda lm) t b) p = None).
Proof.
  intros lm s y b nd p z zd garbage Hs Hy Hb Hh Hp Hz Hzd Hl Hg t. assert (Hne : z <> b) by congruence.
  split; [|split].
  - now apply (pt_alloc (cuda lm) (new_context (cuda lm) s) z p zd garbage).
  - intros m e data Hm. unfold gtolist, t. cbn [set_mem set_ptr new_context dv_graph dv_host dv_ptr dv_mem]. rewrite Hy, Hb, Hh, upd1_other, Hp, Hm by assumption. reflexivity.
  - unfold die1, t. cbn [set_ptr new_context dv_graph dv_host dv_ptr dv_mem]. rewrite upd1_other, Hp by assumption. cbn [dv_ptr dv_mem]. rewrite upd1_other, !upd1_same by congruence. auto.
Qed.
Print Assumptions C47_cuda_alias_refuted.

(* ------------------------------------------------------------------ computing after the change *)
(* From CUDA to a CPU backend, after any CUDA history: materialize() computes what the CPU backend computes
   (as C47_value_after_reset_partial between the CPU backends). *)
Lemma to_cpu_inv0 lm w s : gany (cuda lm) s -> inv0 (bk lm w) (to_cpu lm w s).
Proof.
  intros Hs. destruct (gany_hinv _ s (c_lang_ok lm) Hs) as [H1 H2 H3 H4 _ _]. split; cbn [to_cpu r_graph r_cpu r_cache cache_get]; auto; try discriminate.
  - intros n nd vals Hn Ho. rewrite (H2 n nd vals Hn Ho). cbn [option_map]. rewrite map_map. f_equal. apply map_ext. intros v. exact (conv_num lm CB w v).
  - intros n nd vs Hn Hv. destruct (dv_host (cuda lm) s n) as [l|] eqn:El; [|discriminate]. cbn in Hv. injection Hv as <-. rewrite map_length. eauto.
  - intros n Hn. now rewrite (H4 n Hn).
Qed.
Lemma inv0_inv lm C w s : inv0 (bk lm w) s -> r_cache _ s = [] -> (w = CB -> portable lm w w s) -> RuntimeFacts.inv (bk lm w) C s.
Proof.
  intros [H1 H2 H3 H4 H5] Hc HP. split; auto; [|rewrite Hc; discriminate].
  intros n nd vs Hn Ho Hv. split; [eapply H3; eauto|]. destruct w; [apply forallb_forall; reflexivity|].
  pose proof (HP eq_refl n nd vs Hn Ho Hv) as H. unfold conv in H. rewrite map_id in H. exact H.
Qed.
Theorem C47_cuda_to_cpu_value_partial : forall lm w s a b s', gany (cuda lm) s -> valid (dv_graph _ s) a ->
  view_of (dv_graph _ s) true a b -> computed (dv_graph _ s) b -> key_safe (kernel_of (dv_graph _ s) a) ->
  (w = CB -> portable lm w w (to_cpu lm w s) /\ mat_ok (b_lang (bk lm w)) (dv_graph _ s) b) ->
  materialize (bk lm w) (to_cpu lm w s) a = (s', Done tt) ->
  exists l, tolist (r_graph _ s') (r_cpu _ s') a = Done l /\ t_tolist (den (b_lang (bk lm w)) (dv_graph _ s) a) = Ok l.
Proof.
  intros lm w s a b s' Hs Ha Hv (bd & Hbd & Hc) HK HP HM.
  pose proof (inv0_inv lm (kernel_of (dv_graph _ s) a) w (to_cpu lm w s) (to_cpu_inv0 lm w s Hs) eq_refl (fun e => proj1 (HP e))) as HI. pose proof (reach_wf _ (i_reach _ _ _ HI)) as Hw. cbn [to_cpu r_graph] in Hw.
  pose proof (view_of_base _ _ _ _ Hw Hv) as Hb.
  assert (Hm : mat_ok (b_lang (bk lm w)) (dv_graph _ s) b) by (destruct w; [apply py_mat_ok|apply HP; auto]).
  destruct (materialize_ok _ (bk_ok lm w) _ HK (to_cpu lm w s) a b bd HI Ha Hb Hbd Hm (fun d H => H)) as (s1 & oc & HR & HI1 & Hg & _ & _ & _ & Hoc).
  rewrite HM in HR. injection HR as <- <-. destruct (Hoc Hc) as [Hgood _]. cbn [to_cpu r_graph] in Hg.
  destruct (read_good (bk lm w) _ s' a b HI1) as (l & R1 & R2); [rewrite Hg; exact Hv|exact Hgood|]. exists l. split; auto. now rewrite <- Hg.
Qed.
Print Assumptions C47_cuda_to_cpu_value_partial.
Theorem C47_cuda_to_cpu_succeeds_partial : forall lm w s a b, gany (cuda lm) s -> valid (dv_graph _ s) a -> base (dv_graph _ s) a = Some b ->
  key_safe (kernel_of (dv_graph _ s) a) -> (w = CB -> portable lm w w (to_cpu lm w s) /\ mat_ok (b_lang (bk lm w)) (dv_graph _ s) b) ->
  no_scalar_reshape (dv_graph _ s) b -> (forall n, cone (dv_graph _ s) b n -> ~ refused (bk lm w) (dv_graph _ s) n) ->
  (forall n idx, cone (dv_graph _ s) b n -> in_range (shape_of (dv_graph _ s) n) idx -> t_at (den (b_lang (bk lm w)) (dv_graph _ s) n) idx <> Raise) ->
  exists s', materialize (bk lm w) (to_cpu lm w s) a = (s', Done tt).
Proof.
  intros lm w s a b Hs Ha Hb HK HP Hns Hrf Hra.
  pose proof (inv0_inv lm (kernel_of (dv_graph _ s) a) w (to_cpu lm w s) (to_cpu_inv0 lm w s Hs) eq_refl (fun e => proj1 (HP e))) as HI. pose proof (reach_wf _ (i_reach _ _ _ HI)) as Hw. cbn [to_cpu r_graph] in Hw.
  destruct (base_node _ (to_cpu lm w s) a b Hw Ha Hb) as (bd & Hbd).
  assert (Hm : mat_ok (b_lang (bk lm w)) (dv_graph _ s) b) by (destruct w; [apply py_mat_ok|apply HP; auto]).
  exact (mat_succeeds _ (bk_ok lm w) _ HK (to_cpu lm w s) a b bd HI Ha Hb Hbd Hm (fun d H => H) Hns Hrf Hra).
Qed.
Print Assumptions C47_cuda_to_cpu_succeeds_partial.

(* the list of array n holds its elements, as the C backend defines them *)
Definition right_list lm (g : graph) (n : nat) (vs : list cval) : Prop :=
  Z.of_nat (length vs) = zprod (shape_of g n) /\
  forall idx, in_range (shape_of g n) idx -> exists v, nth_error vs (Z.to_nat (flat (shape_of g n) idx)) = Some v /\ t_at (den (c_lang lm) g n) idx = Ok v.
Lemma right_dfilled lm g n nd vs : nth_error g n = Some nd -> right_list lm g n vs -> dfilled (cuda lm) g n vs.
Proof.
  intros Hn [H1 H2]. unfold shape_of in H1, H2. rewrite Hn in H1, H2. exists nd. split; auto. split; auto. intros idx Hi. destruct (H2 idx Hi) as (v & A1 & A2). exists v. split; [exact A2|].
  unfold znth. destruct (Z.ltb_spec (flat (n_shape nd) idx) 0); [|exact A1]. pose proof (flat_bounds _ _ Hi). lia.
Qed.

(* a state of a new context in which no array has device memory *)
Lemma clean_dinv lm C (s : dev (cuda lm)) : reach (dv_graph _ s) ->
  (forall n nd vals, nth_error (dv_graph _ s) n = Some nd -> n_op nd = OConst vals -> dv_host _ s n = Some (map (of_num (c_lang lm)) vals)) ->
  (forall n nd vs, nth_error (dv_graph _ s) n = Some nd -> is_const (n_op nd) = false -> dv_host _ s n = Some vs -> dfilled (cuda lm) (dv_graph _ s) n vs) ->
  (forall n, nth_error (dv_graph _ s) n = None -> dv_host _ s n = None) -> dv_cache _ s = [] -> (forall n, dv_alive _ s n = true -> (n < length (dv_graph _ s))%nat) ->
  (forall m nd n, dv_alive _ s m = true -> nth_error (dv_graph _ s) m = Some nd -> In n (n_in nd) -> dv_alive _ s n = true) ->
  (forall n, dv_ptr _ s n = None) -> (forall p, dv_mem _ s p = None) -> dv_log _ s = [] -> dinv (cuda lm) C (fun _ => False) s.
Proof.
  intros H1 H2 H3 H4 H5 H6 H7 H8 H9 H10. split; rewrite ?H5, ?H10; cbn; try discriminate; try contradiction; auto.
  - intros m nd n Hm Hn Hi _. eauto.
  - intros n p Hp. rewrite H8 in Hp. discriminate.
  - intros n m p Hp. rewrite H8 in Hp. discriminate.
  - intros p vs Hp. rewrite H9 in Hp. discriminate.
  - intros n p Hp. rewrite H8 in Hp. discriminate.
  - constructor.
Qed.

(* From a CPU backend to CUDA, after any process history, if the lists of the computed arrays are right (for
   example because nothing has been computed): everything CUDA computes from then on is right. *)
Theorem C47_to_cuda_value_partial : forall lm mixed C w s old t a b t', key_safe C -> pany lm mixed w s old ->
  (forall n nd vs, nth_error (r_graph _ s) n = Some nd -> is_const (n_op nd) = false -> r_cpu _ s n = Some vs -> right_list lm (r_graph _ s) n (map (conv lm w CB) vs)) ->
  glater (cuda lm) C (to_cuda lm w s) t -> dv_alive _ t a = true -> view_of (dv_graph _ t) true a b -> computed (dv_graph _ t) b ->
  gmat_ok (cuda lm) (dv_graph _ t) b -> (forall d, gkernel_of (dv_graph _ t) a d -> C d) -> gmat (cuda lm) t a t' (Done tt) ->
  exists l, snd (gtolist (cuda lm) t' a) = Done l /\ t_tolist (den (c_lang lm) (dv_graph _ t) a) = Ok l.
Proof.
  intros lm mixed C w s old t a b t' HC Hs Hr Ht Ha Hv Hcm Hm Hk HM. pose proof (pany_inv0 lm mixed w s old Hs) as [J1 J2 J3 J4 J5]. pose proof (reach_wf _ J1) as Hw.
  assert (HI : dinv (cuda lm) C (fun _ => False) (to_cuda lm w s)).
  { apply clean_dinv; cbn [to_cuda dv_graph dv_host dv_ptr dv_mem dv_cache dv_log dv_alive]; auto.
    - intros n nd vals Hn Ho. rewrite (J2 n nd vals Hn Ho). cbn [option_map]. rewrite map_map. f_equal. apply map_ext. intros v. exact (conv_num lm w CB v).
    - intros n nd vs Hn Ho Hv'. destruct (r_cpu (bk lm w) s n) as [l|] eqn:El; [|discriminate]. cbn in Hv'. injection Hv' as <-. eapply right_dfilled; eauto.
    - intros n Hn. now rewrite (J4 n Hn).
    - intros n Hn. now apply Nat.ltb_lt.
    - intros m nd n Hm' Hn Hi. apply Nat.ltb_lt. apply Nat.ltb_lt in Hm'. pose proof (wf_inputs_lt _ m nd Hw Hn) as HF. rewrite Forall_forall in HF. specialize (HF n Hi). lia. }
  destruct (glater_dinv _ (c_backend_ok lm) C HC _ _ HI Ht) as (HIt & _). eapply (dinv_value _ (c_backend_ok lm) C HC t a b t'); eauto.
Qed.
Print Assumptions C47_to_cuda_value_partial.
(* From CUDA to CUDA: a new context is harmless if no array has device memory - nothing was computed, or what
   was computed is gone. *)
Theorem C47_cuda_new_context_partial : forall lm C0 C s t a b t', key_safe C0 -> ghist (cuda lm) true C0 s -> (forall n, dv_ptr _ s n = None) -> key_safe C ->
  glater (cuda lm) C (new_context (cuda lm) s) t -> dv_alive _ t a = true -> view_of (dv_graph _ t) true a b -> computed (dv_graph _ t) b ->
  gmat_ok (cuda lm) (dv_graph _ t) b -> (forall d, gkernel_of (dv_graph _ t) a d -> C d) -> gmat (cuda lm) t a t' (Done tt) ->
  exists l, snd (gtolist (cuda lm) t' a) = Done l /\ t_tolist (den (c_lang lm) (dv_graph _ t) a) = Ok l.
Proof.
  intros lm C0 C s t a b t' HC0 Hs Hp HC Ht Ha Hv Hcm Hm Hk HM. destruct (ghist_inv (cuda lm) (c_backend_ok lm) C0 HC0 s Hs) as [I1 I2 I3 I4 I5 I6 I7 I8 I9 I10 I11 I12 I13 I14 I15].
  assert (HI : dinv (cuda lm) C (fun _ => False) (new_context (cuda lm) s)).
  { apply clean_dinv; cbn [new_context dv_graph dv_host dv_ptr dv_mem dv_cache dv_log dv_alive]; auto. intros m nd n H1 H2 H3. eapply I7; eauto. }
  destruct (glater_dinv _ (c_backend_ok lm) C HC _ _ HI Ht) as (HIt & _). eapply (dinv_value _ (c_backend_ok lm) C HC t a b t'); eauto.
Qed.
Print Assumptions C47_cuda_new_context_partial.

(* REFUTED without the condition on the lists: an array that has a list is never read from the device.
   Whatever materialize() computes on CUDA, tolist() keeps returning the list of the CPU backend. *)
Theorem C47_to_cuda_stale_list_refuted : forall lm mixed w s old a x, pany lm mixed w s old -> numbers lm w s a = Done x ->
  forall s' oc, gmat (cuda lm) (to_cuda lm w s) a s' oc -> oc <> Throw InternalErr ->
  exists v, gtolist (cuda lm) s' a = (s', Done v) /\ nest_map to_py v = x.
Proof.
  intros lm mixed w s old a x Hs Hx s' oc HM Hoc. pose proof (pany_inv0 lm mixed w s old Hs) as [J1 J2 J3 J4 J5].
  destruct (C47_to_cuda_survives lm w s a x Hx) as (v & Hv & Hn). exists v. split; auto.
  assert (HI : hinv (cuda lm) (to_cuda lm w s)).
  { split; cbn [to_cuda dv_graph dv_host dv_ptr]; try discriminate; auto.
    - intros n nd vals Hnd Ho. rewrite (J2 n nd vals Hnd Ho). cbn [option_map]. rewrite map_map. f_equal. apply map_ext. intros u. exact (conv_num lm w CB u).
    - intros n nd vs Hnd Hv'. destruct (r_cpu (bk lm w) s n) as [l|] eqn:El; [|discriminate]. cbn in Hv'. injection Hv' as <-. rewrite map_length. eauto.
    - intros n Hnd. now rewrite (J4 n Hnd). }
  destruct (hmat _ _ _ _ _ HM Hoc HI) as (_ & Hg & Hh). apply gtolist_host. unfold host_read. rewrite Hg, Hh.
  unfold numbers, tolist in Hx. cbn [to_cuda dv_graph dv_host]. destruct (nth_error (r_graph (bk lm w) s) a) as [nd|] eqn:En; [|discriminate].
  destruct (base (r_graph (bk lm w) s) a) as [b|] eqn:Eb; [|discriminate]. destruct (r_cpu (bk lm w) s b) as [data|] eqn:Ed; [|discriminate].
  cbn [option_map]. f_equal. unfold gtolist in Hv. cbn [to_cuda dv_graph dv_host] in Hv. rewrite En, Eb, Ed in Hv. cbn [option_map] in Hv. congruence.
Qed.
Print Assumptions C47_to_cuda_stale_list_refuted.

(* ------------------------------------------------------------------ concrete cases *)
(* (x.T * ... ).sum as in C41_nonvacuous: three kernels, computed on CUDA, not read.  After the change the result
   is lost; Python can compute it again; and the driver can give its address to a new array (number 6). *)
Lemma exDr_any g s C : g = Prog.prog exDc -> dv_graph cu s = g -> C = gkernel_of g 5 -> ghist cu true C s -> dv_alive cu s 5 = true -> dv_host cu s 5%nat = None ->
  key_safe C /\ (forall d, gkernel_of g 5 d -> C d) /\ view_of g true 5 5 /\ computed g 5 /\ gmat_ok cu g 5 /\
  exists s', gmat cu s 5 s' (Done tt) /\ gany cu s' /\
    (key_safe (kernel_of g 5) /\ exists s2, materialize (bk no_libm PyB) (to_cpu no_libm PyB s') 5 = (s2, Done tt)) /\
    exists p, dv_ptr cu s' 5%nat = Some p /\ dv_host cu s' 5%nat = None /\
      let s2 := fst (gcall cu s' (CArange 3)) in gany cu s2 /\ dv_ptr cu s2 5%nat = Some p /\ dv_host cu s2 5%nat = None /\ dv_ptr cu s2 6%nat = None /\
        exists zd, nth_error (dv_graph cu s2) 6 = Some zd /\ n_len zd = 3.
Proof.
  intros Eg Hg EC HG Hal Hh. destruct (exD_any g s C Eg Hg EC HG Hal) as (HC & HA & Hv & Hcm & Hm & _ & s' & HM & _).
  assert (Hk : forall d, gkernel_of g 5 d -> C d) by (rewrite EC; auto). split; [exact HC|]. split; [exact Hk|]. split; [exact Hv|]. split; [exact Hcm|]. split; [exact Hm|].
  assert (Hb5 : base g 5 = Some 5%nat) by (rewrite Eg; vm_compute; reflexivity).
  assert (Hns : no_scalar_reshape g 5) by (apply no_scalar_reshape_all; rewrite Eg; vm_compute; reflexivity).
  assert (Hks : key_safe (kernel_of g 5)) by (apply own_safeb_ok; rewrite Eg; vm_compute; reflexivity).
  assert (Hlen : length g = 6%nat) by (rewrite Eg; vm_compute; reflexivity).
  assert (exists g' zd, run_call g (CArange 3) = Done (g', 6%nat) /\ nth_error g' 6 = Some zd /\ n_len zd = 3 /\ n_in zd = [] /\ length g' = 7%nat) as (g' & zd & Hrc & Hzd & Hzl & Hzi & Hl').
  { rewrite Eg. eexists _, _. split; [vm_compute; reflexivity|]. split; [reflexivity|]. split; [reflexivity|]. split; reflexivity. }
  assert (Hcok : call_ok g (CArange 3)) by (rewrite Eg; apply call_okb_ok; vm_compute; reflexivity).
  assert (Hrs : forall n idx, cone g 5 n -> in_range (shape_of g n) idx -> t_at (den (b_lang (bk no_libm PyB)) g n) idx <> Raise).
  { assert (HH : forallb (fun n => forallb (fun k => match t_at (den (b_lang (bk no_libm PyB)) g n) (unflat (shape_of g n) k) with Raise => false | _ => true end) (zrange (zprod (shape_of g n)))) (List.seq 0 6) = true).
    { rewrite Eg. vm_compute. reflexivity. }
    assert (Hrg : reach g) by (rewrite Eg; apply prog_reach). pose proof (reach_wf _ Hrg) as Hw.
    intros n idx Hc Hi Hx. rewrite forallb_forall in HH. assert (Hn : (n < 6)%nat).
    { rewrite <- Hlen. apply (cone_lt_graph g 5); auto. lia. }
    specialize (HH n ltac:(apply in_seq; lia)). rewrite forallb_forall in HH. specialize (HH (flat (shape_of g n) idx)).
    assert (Hnn : nonneg (shape_of g n)). { unfold shape_of. destruct (nth_error g n) as [nd|] eqn:En; [apply (wf_shape_facts (c_lang no_libm) g n nd Hw En)|constructor]. }
    rewrite unflat_flat in HH by assumption. rewrite Hx in HH. specialize (HH ltac:(apply in_zrange; now apply flat_bounds)). discriminate. }
  clear Eg EC. subst g.
  destruct Hcm as (bd & Hbd & Hbc).
  destruct (gmat_top cu (c_backend_ok _) C HC s 5 5 bd s' (Done tt) (ghist_inv cu (c_backend_ok _) C HC s HG) Hal Hb5 Hbd Hm Hk HM) as (HI' & Hg & Hae & Hhe & _ & HLa).
  exists s'. split; [exact HM|]. assert (HA' : gany cu s') by (eapply ga_mat; eauto; discriminate). split; [exact HA'|]. split.
  - split; [exact Hks|]. apply (C47_cuda_to_cpu_succeeds_partial no_libm PyB s' 5 5); try rewrite Hg; auto.
    + unfold valid. lia.
    + discriminate.
    + intros n _ (nd & vals & _ & _ & H & _). discriminate H.
  - destruct HLa as [H|(p & ins & Hin)]; [congruence|]. destruct (di_launch _ _ _ _ HI' _ _ _ Hin) as [_ Hx]. destruct (Hx ltac:(now rewrite Hae)) as (Hp & _).
    exists p. split; [exact Hp|]. split; [now rewrite Hhe|]. cbv zeta.
    split. { apply ga_call; [exact HA'|now rewrite Hg|]. intros g2 r n nd i H1 H2 H3 H4 H5. rewrite Hg, Hrc in H1. injection H1 as <- <-.
             rewrite Hg, Hlen in H2. assert (n = 6%nat). { assert (n < length g')%nat by (apply nth_error_Some; congruence). lia. } subst n. assert (nd = zd) by congruence. subst nd. rewrite Hzi in H4. destruct H4. }
    unfold gcall. rewrite Hg, Hrc. cbn [fst dv_ptr dv_host dv_graph]. split; [exact Hp|]. split. { rewrite Hlen. cbn [Nat.ltb Nat.leb]. now rewrite Hhe. }
    split; [|eauto]. destruct (dv_ptr cu s' 6%nat) as [q|] eqn:Eq; [|reflexivity]. exfalso. pose proof (proj1 (di_ptr _ _ _ _ HI' _ _ Eq)) as H6. pose proof (di_alive _ _ _ _ HI' _ H6) as H7. rewrite Hg, Hlen in H7. lia.
Qed.
Example C47_cuda_nonvacuous : exists s C, let g := dv_graph cu s in
  key_safe C /\ ghist cu true C s /\ dv_alive _ s 5 = true /\ dv_host _ s 5%nat = None /\ (forall d, gkernel_of g 5 d -> C d) /\ view_of g true 5 5 /\ computed g 5 /\ gmat_ok cu g 5 /\
  exists s', gmat cu s 5 s' (Done tt) /\ gany cu s' /\
    (key_safe (kernel_of g 5) /\ exists s2, materialize (bk no_libm PyB) (to_cpu no_libm PyB s') 5 = (s2, Done tt)) /\
    exists p, dv_ptr cu s' 5%nat = Some p /\ dv_host cu s' 5%nat = None /\
      let s2 := fst (gcall cu s' (CArange 3)) in gany cu s2 /\ dv_ptr cu s2 5%nat = Some p /\ dv_host cu s2 5%nat = None /\ dv_ptr cu s2 6%nat = None /\
        exists zd, nth_error (dv_graph cu s2) 6 = Some zd /\ n_len zd = 3.
Proof.
  exists (gstate cu exDc), (gkernel_of (Prog.prog exDc) 5). cbn zeta.
  destruct (gstate_hist cu true (gkernel_of (Prog.prog exDc) 5) exDc) as [HG HA]. pose proof (HA 5%nat) as Hal.
  assert (Hg : dv_graph cu (gstate cu exDc) = Prog.prog exDc) by (vm_compute; reflexivity).
  assert (Hal' : dv_alive cu (gstate cu exDc) 5 = true) by (rewrite Hal, Hg; vm_compute; reflexivity).
  assert (Hh : dv_host cu (gstate cu exDc) 5%nat = None) by (vm_compute; reflexivity).
  destruct (exDr_any _ _ _ eq_refl Hg eq_refl HG Hal' Hh) as (A1 & A2 & A3 & A4 & A5 & A6). rewrite Hg. repeat (split; [first [assumption|exact A1|exact HG]|]). exact A6.
Qed.

(* a process on a CPU backend that has only called the API *)
Fixpoint pcalls lm w (s : rt (bk lm w)) (cs : list call) : rt (bk lm w) :=
  match cs with [] => s | c :: r => if call_okb (r_graph _ s) c then pcalls lm w (fst (api_call (bk lm w) s c)) r else s end.
Lemma pcalls_pany lm mixed w cs : forall s old, pany lm mixed w s old -> pany lm mixed w (pcalls lm w s cs) old.
Proof.
  induction cs as [|c cs IH]; intros s old Hs; cbn [pcalls]; auto. destruct (call_okb _ c) eqn:Ec; auto. apply IH. apply pa_call; auto. now apply call_okb_ok.
Qed.
(* no computed array has a list *)
Definition no_listsb lm w (s : rt (bk lm w)) : bool :=
  forallb (fun n => match nth_error (r_graph _ s) n, r_cpu _ s n with Some nd, Some _ => is_const (n_op nd) | _, _ => true end) (List.seq 0 (length (r_graph _ s))).
Lemma no_listsb_ok lm w s : no_listsb lm w s = true -> forall n nd vs, nth_error (r_graph _ s) n = Some nd -> is_const (n_op nd) = false -> r_cpu _ s n = Some vs ->
  right_list lm (r_graph _ s) n (map (conv lm w CB) vs).
Proof.
  intros H n nd vs Hn Hc Hv. exfalso. unfold no_listsb in H. rewrite forallb_forall in H. assert (Hl : (n < length (r_graph (bk lm w) s))%nat) by (apply nth_error_Some; congruence).
  specialize (H n ltac:(apply in_seq; lia)). rewrite Hn, Hv in H. congruence.
Qed.
Lemma to_cuda_dinv lm mixed C w s old : pany lm mixed w s old ->
  (forall n nd vs, nth_error (r_graph _ s) n = Some nd -> is_const (n_op nd) = false -> r_cpu _ s n = Some vs -> right_list lm (r_graph _ s) n (map (conv lm w CB) vs)) ->
  dinv (cuda lm) C (fun _ => False) (to_cuda lm w s).
Proof.
  intros Hs Hr. pose proof (pany_inv0 lm mixed w s old Hs) as [J1 J2 J3 J4 J5]. pose proof (reach_wf _ J1) as Hw.
  apply clean_dinv; cbn [to_cuda dv_graph dv_host dv_ptr dv_mem dv_cache dv_log dv_alive]; auto.
  - intros n nd vals Hn Ho. rewrite (J2 n nd vals Hn Ho). cbn [option_map]. rewrite map_map. f_equal. apply map_ext. intros v. exact (conv_num lm w CB v).
  - intros n nd vs Hn Ho Hv'. destruct (r_cpu (bk lm w) s n) as [l|] eqn:El; [|discriminate]. cbn in Hv'. injection Hv' as <-. eapply right_dfilled; eauto.
  - intros n Hn. now rewrite (J4 n Hn).
  - intros n Hn. now apply Nat.ltb_lt.
  - intros m nd n Hm' Hn Hi. apply Nat.ltb_lt. apply Nat.ltb_lt in Hm'. pose proof (wf_inputs_lt _ m nd Hw Hn) as HF. rewrite Forall_forall in HF. specialize (HF n Hi). lia.
Qed.

(* [1., 2.] / [0., 1.]: on the Python backend materialize() raises ZeroDivisionError and leaves a list of zeros.
   On CUDA the array is computed ([inf, 2.]), but tolist() still shows the zeros. *)
Definition exSc : list call := [CArray (Nest [Leaf (NFlt 1 0); Leaf (NFlt 2 0)]); CArray (Nest [Leaf (NFlt 0 0); Leaf (NFlt 1 0)]); CBinary BTruediv 0 1].
Definition stS0 : rt (bk no_libm PyB) := pcalls no_libm PyB (rt0 (bk no_libm PyB)) exSc.
Definition stS1 : rt (bk no_libm PyB) := fst (pmaterialize no_libm nomix PyB [] stS0 2%nat).
Lemma exS_any g C sa h : g = Prog.prog exSc -> C = gkernel_of g 2 -> dv_graph cu sa = g -> dinv cu C (fun _ => False) sa -> dv_alive cu sa 2%nat = true ->
  (forall m, m <> 2%nat -> h m = dv_host cu sa m) -> exists sb', gmat cu (seth cu h sa []) 2 sb' (Done tt).
Proof.
  intros Eg EC Hg HI Hal Hh.
  assert (HC : key_safe C) by (rewrite EC; apply gown_safeb_ok; rewrite Eg; vm_compute; reflexivity).
  assert (Hw : wf_graph g) by (rewrite Eg; apply reach_wf, prog_reach).
  assert (Hm : gmat_ok cu g 2) by (apply (gokb_ok cu _ Float64); [exact Hw|rewrite Eg; vm_compute; reflexivity]).
  assert (Hb : base g 2 = Some 2%nat) by (rewrite Eg; vm_compute; reflexivity).
  assert (Hk : forall d, gkernel_of g 2 d -> C d) by (rewrite EC; auto).
  assert (Hns : no_scalar_reshape g 2) by (apply no_scalar_reshape_all; rewrite Eg; vm_compute; reflexivity).
  assert (Hac : accb cu g = true) by (rewrite Eg; vm_compute; reflexivity). assert (Hex : extb g = true) by (rewrite Eg; vm_compute; reflexivity).
  assert (exists nd, nth_error g 2 = Some nd /\ is_view (n_op nd) = false /\ is_const (n_op nd) = false) as (nd & Hn & Hv & Hc).
  { rewrite Eg. eexists. split; [vm_compute; reflexivity|]. split; reflexivity. }
  assert (exists E fd, convert g 2 = Done (E, [2%nat]) /\ E 2%nat = Some fd /\ mapOut (arg_buffer E) (func_args (f_expr fd)) = Done [0%nat; 1%nat]) as (E & fd & Hcv & Hfd & Hbufs).
  { rewrite Eg. eexists _, _. split; [vm_compute; reflexivity|]. split; vm_compute; reflexivity. }
  clear Eg EC. subst g.
  destruct (gmat_runs cu (c_backend_ok _) C HC sa 2 2 HI Hal Hb Hm Hk Hns) as (s3' & Hs3').
  { intros n _. now apply (accb_ok cu). }
  { intros n md _. now apply extb_ok. }
  destruct (compute_seth cu h sa 2 s3' (Done tt) (seth cu h sa [])) as (sb' & Hsb & _).
  - inversion Hs3' as [a nd' H1 H2|a nd' b r s' oc H1 H2|a nd' s' oc H1 H2 H3 H4]; auto; assert (nd' = nd) by congruence; congruence.
  - now exists [].
  - intros m (E' & fs & f & fd' & bufs & H1 & H2 & H3 & H4 & H5). rewrite Hcv in H1. injection H1 as <- <-. destruct H2 as [<-|[]]. assert (fd' = fd) by congruence. subst fd'.
    rewrite Hbufs in H4. injection H4 as <-. apply Hh. destruct H5 as [<-|[<-|[]]]; discriminate.
  - exists sb'. apply (gm_comp cu (seth cu h sa []) 2 nd); auto.
Qed.
Lemma to_cuda_seth lm w (s0 s1 : rt (bk lm w)) : r_graph _ s1 = r_graph _ s0 -> to_cuda lm w s1 = seth (cuda lm) (dv_host _ (to_cuda lm w s1)) (to_cuda lm w s0) [].
Proof. intros H. unfold to_cuda, seth. cbn [dv_graph dv_host dv_ptr dv_mem dv_cache dv_tmp dv_alive]. now rewrite H. Qed.
Example C47_to_cuda_nonvacuous :
  (* nothing computed yet: the hypotheses of C47_to_cuda_value_partial hold *)
  (exists C t', key_safe C /\ pany no_libm nomix PyB stS0 [] /\ no_listsb no_libm PyB stS0 = true /\ gmat cu (to_cuda no_libm PyB stS0) 2 t' (Done tt)) /\
  (* after the failed materialize(): zeros, for ever *)
  pany no_libm nomix PyB stS1 [] /\ snd (pmaterialize no_libm nomix PyB [] stS0 2%nat) = Throw ValueErr /\
  numbers no_libm PyB stS1 2 = Done (Nest [Leaf (PI 0); Leaf (PI 0)]) /\
  exists sb' v, gmat cu (to_cuda no_libm PyB stS1) 2 sb' (Done tt) /\ gtolist cu sb' 2 = (sb', Done v) /\ nest_map to_py v = Nest [Leaf (PI 0); Leaf (PI 0)] /\
    t_tolist (den (c_lang no_libm) (dv_graph _ sb') 2) = Ok (Nest [Leaf (CF (SpecFloat.S754_infinity false)); Leaf (CF (f64_of 2 0))]).
Proof.
  assert (P0 : pany no_libm nomix PyB stS0 []) by (apply pcalls_pany, pa_init).
  assert (P1 : pany no_libm nomix PyB stS1 []). { apply pa_mat; [exact P0|]. vm_compute. lia. }
  assert (HN : numbers no_libm PyB stS1 2 = Done (Nest [Leaf (PI 0); Leaf (PI 0)])) by (vm_compute; reflexivity).
  assert (G0 : r_graph _ stS0 = Prog.prog exSc) by (vm_compute; reflexivity). assert (G1 : r_graph _ stS1 = r_graph _ stS0) by (vm_compute; reflexivity).
  assert (NL : no_listsb no_libm PyB stS0 = true) by (vm_compute; reflexivity).
  assert (Hh : forall m, m <> 2%nat -> r_cpu _ stS1 m = r_cpu _ stS0 m).
  { intros [|[|[|m]]] Hm; [vm_compute; reflexivity|vm_compute; reflexivity|congruence|]. rewrite !(j_new _ _ (pany_inv0 _ _ _ _ _ P1)), !(j_new _ _ (pany_inv0 _ _ _ _ _ P0)); auto;
    apply nth_error_None; [rewrite G0|rewrite G1, G0]; cbn; vm_compute; lia. }
  assert (Hd : t_tolist (den (c_lang no_libm) (Prog.prog exSc) 2) = Ok (Nest [Leaf (CF (SpecFloat.S754_infinity false)); Leaf (CF (f64_of 2 0))])) by (vm_compute; reflexivity).
  assert (Hthrow : snd (pmaterialize no_libm nomix PyB [] stS0 2%nat) = Throw ValueErr) by (vm_compute; reflexivity).
  assert (HCs : key_safe (gkernel_of (Prog.prog exSc) 2)) by (apply gown_safeb_ok; vm_compute; reflexivity).
  assert (HI : dinv cu (gkernel_of (Prog.prog exSc) 2) (fun _ => False) (to_cuda no_libm PyB stS0)) by (apply (to_cuda_dinv no_libm nomix _ PyB stS0 []); [exact P0|now apply no_listsb_ok]).
  assert (Hal : dv_alive cu (to_cuda no_libm PyB stS0) 2%nat = true) by (cbn [to_cuda dv_alive]; rewrite G0; vm_compute; reflexivity).
  split; [|split; [exact P1|split; [exact Hthrow|split; [exact HN|]]]].
  - destruct (exS_any (Prog.prog exSc) _ (to_cuda no_libm PyB stS0) (dv_host cu (to_cuda no_libm PyB stS0)) eq_refl eq_refl G0 HI Hal) as (t' & Ht'); auto.
    rewrite <- (to_cuda_seth no_libm PyB stS0 stS0 eq_refl) in Ht'. exists (gkernel_of (Prog.prog exSc) 2), t'. auto.
  - destruct (exS_any (Prog.prog exSc) _ (to_cuda no_libm PyB stS0) (dv_host cu (to_cuda no_libm PyB stS1)) eq_refl eq_refl G0 HI Hal) as (sb' & Hsb).
    { intros m Hm. cbn [to_cuda dv_host]. now rewrite Hh. }
    rewrite <- (to_cuda_seth no_libm PyB stS0 stS1 G1) in Hsb.
    destruct (C47_to_cuda_stale_list_refuted no_libm nomix PyB stS1 [] 2%nat _ P1 HN sb' _ Hsb ltac:(discriminate)) as (v & V1 & V2). exists sb', v. split; [exact Hsb|]. split; [exact V1|]. split; [exact V2|].
    assert (Hg : dv_graph cu sb' = Prog.prog exSc); [|now rewrite Hg].
    destruct (hmat cu _ _ _ _ Hsb ltac:(discriminate)) as (_ & Hg & _); [|rewrite Hg; cbn [to_cuda dv_graph]; now rewrite G1].
    pose proof (pany_inv0 no_libm nomix PyB stS1 [] P1) as [J1 J2 J3 J4 J5].
    split; cbn [to_cuda dv_graph dv_host dv_ptr]; try discriminate; auto.
    + intros n nd vals Hnd Ho. rewrite (J2 n nd vals Hnd Ho). cbn [option_map]. rewrite map_map. f_equal. apply map_ext. intros u. exact (conv_num no_libm PyB CB u).
    + intros n nd vs Hnd Hv'. destruct (r_cpu _ stS1 n) as [l|] eqn:El; [|discriminate]. cbn in Hv'. injection Hv' as <-. rewrite map_length. eauto.
    + intros n Hnd. now rewrite (J4 n Hnd).
Qed.
