(* The CPU process with the cache as it is: kernels are stored under a digest of the text of their key (materialize.py:48-65, 113,
   kernel.py:8-24).  The digest is an arbitrary function of the text. *)
From Coq Require Import String.
From Verif Require Import Base BaseFacts Util Lang Spec Graph Api Denote Reach Tolist Algo AlgoSem Kernel Sched Codegen Backends CacheKey KernelRun Runtime RuntimeFacts RuntimeFacts2 History KeyText.
Open Scope Z_scope.
Open Scope list_scope.

Section Digest.
Context {D : Type} (D_eqb : D -> D -> bool) (digest : string -> D).
Context (B : cpu_backend).
(* h_rt: the process without its cache (that field of Runtime.v stays empty); h_cache: digests and kernels *)
Record hrt := mkH { h_rt : rt B; h_cache : list (D * kernel) }.
Definition h_graph (s : hrt) : graph := r_graph B (h_rt s).
Definition h_cpu (s : hrt) : store (b_lang B) := r_cpu B (h_rt s).
(* kernel.py:12-24 *)
Fixpoint digest_get (c : list (D * kernel)) (d : D) : option kernel :=
  match c with [] => None | (d', x) :: r => if D_eqb d' d then Some x else digest_get r d end.
Definition hinvoke (s : hrt) (kern : kernel) (params : list nat) : hrt * outcome unit :=
  let '(s', o) := invoke B (h_rt s) kern params in (mkH s' (h_cache s), o).
(* materialize.py:44-71 *)
Definition hrun_func (E : fenv) (fd : func) (sc : schedule) (s : hrt) : hrt * outcome unit :=
  let args := func_args (f_expr fd) in
  match mapOut (arg_buffer E) args, cache_key (h_graph s) E fd sc with
  | Done bufs, Done key =>
      let params := f_out fd :: bufs in
      let d := digest (key_text key) in
      match digest_get (h_cache s) d with
      | Some kern => hinvoke s kern params
      | None =>
          match codegen (h_graph s) E args fd sc (r_tmp B (h_rt s)) with
          | Throw e => (s, Throw e)
          | Done (kern, k') => hinvoke (mkH (mkRt B (h_graph s) (h_cpu s) [] k' (r_runs B (h_rt s))) ((d, kern) :: h_cache s)) kern params
          end
      end
  | Throw e, _ => (s, Throw e)
  | _, Throw e => (s, Throw e)
  end.
Fixpoint hrun_funcs (E : fenv) (l : list (func * schedule)) (s : hrt) : hrt * outcome unit :=
  match l with
  | [] => (s, Done tt)
  | (fd, sc) :: r => match hrun_func E fd sc s with
                     | (s', Done _) => hrun_funcs E r s'
                     | (s', Throw e) => (s', Throw e)
                     end
  end.
(* materialize.py:33-71 *)
Definition hcompute (s : hrt) (a : nat) : hrt * outcome unit :=
  match convert (h_graph s) a with
  | Throw e => (s, Throw e)
  | Done (E, fs) =>
      match mapOut (schedule_one B E) fs with
      | Throw e => (s, Throw e)
      | Done l => hrun_funcs E l s
      end
  end.
(* materialize.py:15-33 *)
Fixpoint hmat (fuel : nat) (s : hrt) (a : nat) : hrt * outcome unit :=
  match fuel with
  | O => (s, Throw InternalErr)
  | S k =>
      match nth_error (h_graph s) a with
      | None => (s, Throw InternalErr)
      | Some nd =>
          if is_const (n_op nd) then (s, Done tt)
          else if is_view (n_op nd) then match n_in nd with b :: _ => hmat k s b | [] => (s, Throw IndexErr) end
          else hcompute s a
      end
  end.
Definition hmaterialize (s : hrt) (a : nat) : hrt * outcome unit := hmat (length (h_graph s)) s a.
Definition hcall (s : hrt) (c : call) : hrt * outcome nat :=
  let '(s', o) := api_call B (h_rt s) c in (mkH s' (h_cache s), o).
(* materialize.py:120-122 *)
Definition hreset (s : hrt) : hrt := mkH (h_rt s) [].
Definition hrt0 : hrt := mkH (rt0 B) [].

(* histories, with the conditions of [hist] (History.v) *)
Inductive digest_hist (C : desc -> Prop) : hrt -> Prop :=
| dh_init : digest_hist C hrt0
| dh_call s c : digest_hist C s -> call_ok (h_graph s) c -> digest_hist C (fst (hcall s c))
| dh_mat s a : digest_hist C s -> valid (h_graph s) a ->
    (forall b, base (h_graph s) a = Some b -> mat_ok (b_lang B) (h_graph s) b) ->
    (forall d, kernel_of (h_graph s) a d -> C d) ->
    digest_hist C (fst (hmaterialize s a))
| dh_reset s : digest_hist C s -> digest_hist C (hreset s).
(* no two different key texts of the collection have the same digest *)
Definition no_collision (C : desc -> Prop) : Prop :=
  forall d1 d2 k1 k2, C d1 -> C d2 -> key_of d1 = Done k1 -> key_of d2 = Done k2 ->
    digest (key_text k1) = digest (key_text k2) -> key_text k1 = key_text k2.

(* ------------------------------------------------------------------ the process of Runtime.v, seen with digests *)
Context (Deq : forall x y, D_eqb x y = true <-> x = y).
Definition digests (c : list (kkey * kernel)) : list (D * kernel) := map (fun '(k, x) => (digest (key_text k), x)) c.
Definition seen (s : rt B) : hrt := mkH (reset_cache B s) (digests (r_cache B s)).
Definition keys_in (C : desc -> Prop) (s : rt B) : Prop := forall k x, In (k, x) (r_cache B s) -> exists d, C d /\ key_of d = Done k.

Lemma digest_lookup c key : (forall k x, In (k, x) c -> digest (key_text k) = digest (key_text key) -> k = key) -> digest_get (digests c) (digest (key_text key)) = cache_get c key.
Proof using Deq.
  induction c as [|[k x] c IH]; intros H; [reflexivity|]. cbn [digests map digest_get cache_get]. destruct (kkey_eq_dec k key) as [->|Hne].
  - now rewrite (proj2 (Deq _ _) eq_refl).
  - destruct (D_eqb (digest (key_text k)) (digest (key_text key))) eqn:E.
    + apply Deq in E. exfalso. apply Hne. eapply H; [left; reflexivity|exact E].
    + apply IH. intros k' x' Hi. apply (H k' x'). now right.
Qed.
Lemma invoke_nocache s kern ps s' o : invoke B s kern ps = (s', o) -> invoke B (reset_cache B s) kern ps = (reset_cache B s', o) /\ r_cache B s' = r_cache B s /\ r_graph B s' = r_graph B s.
Proof.
  unfold invoke, reset_cache. cbn [r_graph r_cpu r_cache r_tmp r_runs]. destruct (zero_fill B (r_graph B s) ps (r_cpu B s)) as [m|e].
  2: { intros H. injection H as <- <-. cbn. auto. }
  destruct (negb (length ps =? length (k_params kern))%nat); [intros H; injection H as <- <-; cbn; auto|].
  destruct (b_copies B).
  - destruct (copy_in B (r_graph B s) ps m) as [cs|e]; [|intros H; injection H as <- <-; cbn; auto].
    destruct (run _ _ _) as [m' oc]. destruct oc; [destruct ps, (m' 0%nat)| |]; intros H; injection H as <- <-; cbn; auto.
  - destruct (run _ _ _) as [m' oc]. intros H; injection H as <- <-; cbn; auto.
Qed.
Lemma hinvoke_seen s kern ps s' o c : invoke B s kern ps = (s', o) -> hinvoke (mkH (reset_cache B s) c) kern ps = (mkH (reset_cache B s') c, o).
Proof. intros H. destruct (invoke_nocache _ _ _ _ _ H) as (H1 & _). unfold hinvoke. cbn. now rewrite H1. Qed.

Section Safe.
Context (C : desc -> Prop) (HC : no_collision C).
Lemma run_func_seen E fd sc s s' o : keys_in C s -> C (mkD (r_graph B s) E fd sc) -> run_func B E fd sc s = (s', o) ->
  hrun_func E fd sc (seen s) = (seen s', o) /\ keys_in C s' /\ r_graph B s' = r_graph B s.
Proof using Deq HC.
  intros HK HD HR. unfold run_func in HR. unfold hrun_func. change (h_graph (seen s)) with (r_graph B s). change (h_cpu (seen s)) with (r_cpu B s).
  change (r_tmp B (h_rt (seen s))) with (r_tmp B s). change (r_runs B (h_rt (seen s))) with (r_runs B s). change (h_cache (seen s)) with (digests (r_cache B s)).
  destruct (mapOut (arg_buffer E) (func_args (f_expr fd))) as [bufs|e]; [|injection HR as <- <-; auto].
  destruct (cache_key (r_graph B s) E fd sc) as [key|e] eqn:EK; [|injection HR as <- <-; auto].
  rewrite digest_lookup.
  2: { intros k x Hi Hd. destruct (HK k x Hi) as (d & Hc & Hk). apply key_text_inj. apply (HC d (mkD (r_graph B s) E fd sc) k key); auto. }
  destruct (cache_get (r_cache B s) key) as [kern|].
  - destruct (invoke_nocache _ _ _ _ _ HR) as (_ & H2 & H3). change (seen s) with (mkH (reset_cache B s) (digests (r_cache B s))). rewrite (hinvoke_seen _ _ _ _ _ (digests (r_cache B s)) HR). unfold seen. rewrite H2. split; [reflexivity|]. split; [|exact H3]. unfold keys_in. now rewrite H2.
  - destruct (codegen (r_graph B s) E (func_args (f_expr fd)) fd sc (r_tmp B s)) as [[kern k']|e]; [|injection HR as <- <-; auto].
    destruct (invoke_nocache _ _ _ _ _ HR) as (_ & H2 & H3). cbn [r_cache r_graph] in H2, H3.
    change (mkRt B (r_graph B s) (r_cpu B s) [] k' (r_runs B s)) with (reset_cache B (mkRt B (r_graph B s) (r_cpu B s) ((key, kern) :: r_cache B s) k' (r_runs B s))).
    change ((digest (key_text key), kern) :: digests (r_cache B s)) with (digests ((key, kern) :: r_cache B s)).
    rewrite (hinvoke_seen _ _ _ _ _ _ HR). unfold seen. rewrite H2. split; [reflexivity|]. split; [|exact H3].
    unfold keys_in. rewrite H2. intros k x [Hi|Hi]; [|eauto]. injection Hi as <- <-. exists (mkD (r_graph B s) E fd sc). auto.
Qed.
Lemma run_funcs_seen E l : forall s s' o, keys_in C s -> (forall fd sc, In (fd, sc) l -> C (mkD (r_graph B s) E fd sc)) -> run_funcs B E l s = (s', o) ->
  hrun_funcs E l (seen s) = (seen s', o) /\ keys_in C s' /\ r_graph B s' = r_graph B s.
Proof using Deq HC.
  induction l as [|[fd sc] l IH]; intros s s' o HK HD HR; cbn [run_funcs hrun_funcs] in *; [injection HR as <- <-; auto|].
  destruct (run_func B E fd sc s) as [s1 [u|e]] eqn:E1; destruct (run_func_seen _ _ _ _ _ _ HK (HD _ _ (or_introl eq_refl)) E1) as (H1 & H2 & H3); rewrite H1.
  - destruct (IH s1 s' o H2) as (H4 & H5 & H6); [intros; rewrite H3; apply HD; now right|exact HR|]. split; [exact H4|]. split; [exact H5|congruence].
  - injection HR as <- <-. auto.
Qed.
Lemma schedule_one_in E fs : forall l, mapOut (schedule_one B E) fs = Done l -> forall fd sc, In (fd, sc) l -> exists f, In f fs /\ E f = Some fd /\ auto_schedule false fd = Done sc.
Proof.
  induction fs as [|f fs IH]; intros l H fd sc Hi; cbn [mapOut] in H; [injection H as <-; contradiction|].
  apply obind_done in H as ([fd1 sc1] & H1 & H). apply obind_done in H as (l1 & H2 & H). injection H as <-. destruct Hi as [Hi|Hi].
  - injection Hi as <- <-. unfold schedule_one in H1. apply obind_done in H1 as (fd' & Hf & H1). apply obind_done in H1 as (sc' & Hs & H1).
    destruct (forallb _ _); [|discriminate]. injection H1 as <- <-. exists f. split; [now left|]. split; [|exact Hs]. destruct (E f); [injection Hf as ->; reflexivity|discriminate].
  - destruct (IH l1 H2 fd sc Hi) as (f' & Hf & HE). exists f'. split; [now right|exact HE].
Qed.
Lemma compute_seen s a s' o : keys_in C s ->
  (forall E fs f fd sc, convert (r_graph B s) a = Done (E, fs) -> In f fs -> E f = Some fd -> auto_schedule false fd = Done sc -> C (mkD (r_graph B s) E fd sc)) -> compute B s a = (s', o) ->
  hcompute (seen s) a = (seen s', o) /\ keys_in C s' /\ r_graph B s' = r_graph B s.
Proof using Deq HC.
  intros HK HD HR. unfold compute in HR. unfold hcompute. change (h_graph (seen s)) with (r_graph B s). destruct (convert (r_graph B s) a) as [[E fs]|e] eqn:EC; [|injection HR as <- <-; auto].
  destruct (mapOut (schedule_one B E) fs) as [l|e] eqn:EM; [|injection HR as <- <-; auto]. apply run_funcs_seen; auto. intros fd sc Hi.
  destruct (schedule_one_in E fs l EM fd sc Hi) as (f & Hf & HE & HS). eapply HD; eauto.
Qed.
Lemma mat_seen k : forall s a s' o, keys_in C s ->
  (forall b bd E fs f fd sc, base_fuel k (r_graph B s) a = Some b -> nth_error (r_graph B s) b = Some bd -> is_const (n_op bd) = false ->
    convert (r_graph B s) b = Done (E, fs) -> In f fs -> E f = Some fd -> auto_schedule false fd = Done sc -> C (mkD (r_graph B s) E fd sc)) ->
  mat B k s a = (s', o) -> hmat k (seen s) a = (seen s', o) /\ keys_in C s' /\ r_graph B s' = r_graph B s.
Proof using Deq HC.
  induction k as [|k IH]; intros s a s' o HK HD HR; cbn [mat hmat] in *; [injection HR as <- <-; auto|]. change (h_graph (seen s)) with (r_graph B s).
  destruct (nth_error (r_graph B s) a) as [nd|] eqn:En; [|injection HR as <- <-; auto]. destruct (is_const (n_op nd)) eqn:Ec; [injection HR as <- <-; auto|].
  cbn [base_fuel] in HD. rewrite En in HD. destruct (is_view (n_op nd)) eqn:Ev.
  - destruct (n_in nd) as [|b r]; [injection HR as <- <-; auto|]. apply IH; auto.
  - apply compute_seen; auto. intros E fs f fd sc H1 H2 H3 H4. eapply HD; eauto.
Qed.
(* one materialize() call of the real process is that of Runtime.v *)
Lemma materialize_seen s a s' o : keys_in C s -> (forall d, kernel_of (r_graph B s) a d -> C d) -> materialize B s a = (s', o) ->
  hmaterialize (seen s) a = (seen s', o) /\ keys_in C s'.
Proof using Deq HC.
  intros HK HD HR. destruct (mat_seen (length (r_graph B s)) s a s' o HK) as (H1 & H2 & _); [|exact HR|auto].
  intros b bd E fs f fd sc H1 H2 H3 H4 H5 H6 H7. apply HD. exists b, bd, E, fs, f, fd, sc. repeat (split; [assumption|]). reflexivity.
Qed.
Lemma call_seen s c : hcall (seen s) c = (seen (fst (api_call B s c)), snd (api_call B s c)).
Proof.
  unfold hcall, seen, api_call, reset_cache. cbn [h_rt r_graph r_cpu r_cache r_tmp r_runs]. destruct (run_call (r_graph B s) c) as [[g r]|e]; reflexivity.
Qed.
Lemma digest_hist_seen h : digest_hist C h -> exists s, hist B C s /\ h = seen s /\ keys_in C s.
Proof using Deq HC.
  induction 1 as [|h c _ (s & IH & -> & HK) HO|h a _ (s & IH & -> & HK) HV HM HD|h _ (s & IH & -> & HK)].
  - exists (rt0 B). split; [constructor|]. split; [reflexivity|]. intros k x [].
  - exists (fst (api_call B s c)). split; [now constructor|]. rewrite call_seen. split; [reflexivity|].
    unfold keys_in. replace (r_cache B (fst (api_call B s c))) with (r_cache B s); [exact HK|]. unfold api_call. now destruct (run_call (r_graph B s) c) as [[? ?]|?].
  - destruct (materialize B s a) as [s' o] eqn:E. destruct (materialize_seen s a s' o HK HD E) as (H1 & H2). exists s'. rewrite H1. split; [|auto].
    replace s' with (fst (materialize B s a)) by (now rewrite E). now constructor.
  - exists (reset_cache B s). split; [now constructor|]. split; [reflexivity|]. intros k x [].
Qed.
Lemma hist_seen s : hist B C s -> digest_hist C (seen s) /\ keys_in C s.
Proof using Deq HC.
  induction 1 as [|s c _ [IH HK] HO|s a _ [IH HK] HV HM HD|s _ [IH HK]].
  - split; [constructor|]. intros k x [].
  - split.
    + replace (seen (fst (api_call B s c))) with (fst (hcall (seen s) c)) by (now rewrite call_seen). now constructor.
    + unfold keys_in. replace (r_cache B (fst (api_call B s c))) with (r_cache B s); [exact HK|]. unfold api_call. now destruct (run_call (r_graph B s) c) as [[? ?]|?].
  - destruct (materialize B s a) as [s' o] eqn:E. destruct (materialize_seen s a s' o HK HD E) as (H1 & H2). split; [|exact H2].
    cbn [fst]. replace (seen s') with (fst (hmaterialize (seen s) a)) by (now rewrite H1). now constructor.
  - split; [|intros k x []]. change (seen (reset_cache B s)) with (hreset (seen s)). now constructor.
Qed.
End Safe.
End Digest.
