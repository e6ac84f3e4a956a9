(* Executable checks used by the concrete cases beside the theorems about GPU histories. *)
From Verif Require Import Base BaseFacts Util UtilFacts Lang Spec Graph Api ApiFacts Denote SpecFacts DenoteFacts Reach Tolist TolistFacts
  Algo AlgoSem AlgoConvert Kernel Sched Codegen CacheKey KernelRun AlgoTop Runtime RuntimeFacts RuntimeFacts2 History HistFacts RtInst LangInst HistTools Prog
  Parallel ParGpu Device DevFacts DevRun DevHist DevProg.

Section T.
Context (B : cpu_backend).
Notation L := (b_lang B).

(* a sequence of API calls *)
Fixpoint gscript (s : dev B) (cs : list call) : dev B :=
  match cs with
  | [] => s
  | c :: r => if call_okb (dv_graph B s) c then gscript (fst (gcall B s c)) r else s
  end.
Definition all_alive (s : dev B) : Prop := forall n, dv_alive B s n = Nat.ltb n (length (dv_graph B s)).
Lemma gcall_alive s c : all_alive s -> all_alive (fst (gcall B s c)).
Proof.
  intros H n. unfold gcall. destruct (run_call (dv_graph B s) c) as [[g' r]|e] eqn:ER; cbn [fst dv_alive dv_graph]; auto.
  destruct (run_call_appends _ _ _ _ ER) as (x & Hx & _). rewrite H. destruct (Nat.ltb_spec n (length (dv_graph B s))); auto. symmetry. apply Nat.ltb_lt. rewrite Hx, app_length. lia.
Qed.
Lemma gscript_hist safe C cs : forall s, ghist B safe C s -> all_alive s -> ghist B safe C (gscript s cs) /\ all_alive (gscript s cs).
Proof.
  induction cs as [|c cs IH]; intros s Hs Ha; cbn; auto. destruct (call_okb _ c) eqn:Ec; auto. apply IH; [|now apply gcall_alive].
  apply gh_call; auto; [now apply call_okb_ok|]. intros g' r n nd i _ _ _ _ Hi. rewrite Ha. now apply Nat.ltb_lt.
Qed.
Definition gstate (cs : list call) : dev B := gscript (dev0 B) cs.
Lemma gstate_hist safe C cs : ghist B safe C (gstate cs) /\ all_alive (gstate cs).
Proof. apply gscript_hist; [constructor|]. intros n. reflexivity. Qed.

(* the conditions of gmat_ok and gmat_runs, for every array of the program *)
Definition is_ok {A} (r : res A) : bool := match r with Ok _ => true | _ => false end.
Definition dtb (D : dtype) (nd : node) : bool := match dtype_eq_dec (n_dtype nd) D with left _ => true | right _ => false end.
Definition gokb (g : graph) (D : dtype) : bool :=
  fitsb L g && forallb (dtb D) g &&
  forallb (fun n => match nth_error g n with
    | Some nd => match n_shape nd with [] => true | _ => ltBb L (last (n_shape nd) 0 + 256) end &&
                 forallb (fun k => is_ok (t_at (den L g n) (unflat (n_shape nd) k))) (zrange (zprod (n_shape nd)))
    | None => true end) (seq 0 (length g)).
Lemma gokb_ok g D b : wf_graph g -> gokb g D = true -> gmat_ok B g b.
Proof.
  intros Hw H. apply andb_prop in H as [H H3]. apply andb_prop in H as [H1 H2]. split.
  - split; [now apply fits_all|]. exists D. intros n nd _ Hn _ v. rewrite forallb_forall in H2. specialize (H2 nd (nth_error_In _ _ Hn)). unfold dtb in H2. destruct (dtype_eq_dec (n_dtype nd) D) as [->|]; [auto|discriminate].
  - intros n nd _ Hn. rewrite forallb_forall in H3. assert (Hl : (n < length g)%nat) by (apply nth_error_Some; congruence). specialize (H3 n ltac:(apply in_seq; lia)).
    rewrite Hn in H3. apply andb_prop in H3 as [H3 H4]. split.
    + intros Hne. destruct (n_shape nd); [congruence|]. now apply ltBb_ok.
    + intros idx Hi. assert (Hnn : Forall (fun d => 0 <= d) (n_shape nd)) by apply (wf_shape_facts L g n nd Hw Hn).
      rewrite forallb_forall in H4. specialize (H4 (flat (n_shape nd) idx)). rewrite unflat_flat in H4 by assumption.
      specialize (H4 ltac:(apply in_zrange; now apply flat_bounds)). destruct (t_at (den L g n) idx); [eauto|discriminate|discriminate].
Qed.
Definition extb (g : graph) : bool := forallb (fun nd => forallb (fun d => (1 <=? d) && (d <=? 65535)) (n_shape nd)) g.
Lemma extb_ok g n nd : extb g = true -> nth_error g n = Some nd -> Forall (fun d => 1 <= d <= 65535) (n_shape nd).
Proof.
  intros H Hn. unfold extb in H. rewrite forallb_forall in H. specialize (H nd (nth_error_In _ _ Hn)). rewrite forallb_forall in H. apply Forall_forall. intros d Hd. specialize (H d Hd). lia.
Qed.
Definition accb (g : graph) : bool := forallb (fun nd => match n_op nd with OConst vals => forallb (b_accept B (n_dtype nd)) (map (of_num L) vals) | _ => true end) g.
Lemma accb_ok g n : accb g = true -> accepted B g n.
Proof.
  intros H nd vals Hn Ho. unfold accb in H. rewrite forallb_forall in H. specialize (H nd (nth_error_In _ _ Hn)). now rewrite Ho in H.
Qed.
End T.

(* the kernels needed by materializing a have pairwise different cache keys *)
Definition gkey_of_f (g : graph) (E : fenv) (f : nat) : option kkey :=
  match E f with
  | Some fd => match auto_schedule true fd with Done sc => match cache_key g E fd sc with Done k => Some k | Throw _ => None end | Throw _ => None end
  | None => None
  end.
Fixpoint gkeys_of (g : graph) (E : fenv) (fs : list nat) : list kkey :=
  match fs with [] => [] | f :: r => match gkey_of_f g E f with Some k => k :: gkeys_of g E r | None => gkeys_of g E r end end.
Definition gown_safeb (g : graph) (a : nat) : bool :=
  match base g a with
  | Some b => match convert g b with Done (E, fs) => nodup_keys (gkeys_of g E fs) | Throw _ => true end
  | None => true
  end.
Lemma gown_safeb_ok g a : gown_safeb g a = true -> key_safe (gkernel_of g a).
Proof.
  intros H d1 d2 key (b & bd & E & fs & f & fd & sc & Hb & Hbd & Hc & Hcv & Hf & Hfd & Hsc & ->) (b' & bd' & E' & fs' & f' & fd' & sc' & Hb' & Hbd' & Hc' & Hcv' & Hf' & Hfd' & Hsc' & ->) K1 K2 k.
  assert (b' = b) by congruence. subst b'. rewrite Hcv in Hcv'. injection Hcv' as <- <-.
  unfold gown_safeb in H. rewrite Hb, Hcv in H. cbn in K1, K2. unfold key_of in K1, K2. cbn in K1, K2.
  assert (F1 : gkey_of_f g E f = Some key) by (unfold gkey_of_f; now rewrite Hfd, Hsc, K1).
  assert (F2 : gkey_of_f g E f' = Some key) by (unfold gkey_of_f; now rewrite Hfd', Hsc', K2).
  assert (f = f'); [|subst f'; assert (fd' = fd) by congruence; subst; congruence].
  clear - H Hf Hf' F1 F2. induction fs as [|x fs IH]; [destruct Hf|]. cbn [gkeys_of] in H.
  assert (HK : forall y, In y fs -> gkey_of_f g E y = Some key -> In key (gkeys_of g E fs)).
  { clear. induction fs as [|z fs IH]; intros y Hy Hk; [destruct Hy|]. cbn. destruct Hy as [->|Hy]; [rewrite Hk; now left|]. destruct (gkey_of_f g E z); [right|]; eauto. }
  destruct Hf as [->|Hf], Hf' as [->|Hf']; auto.
  - exfalso. rewrite F1 in H. cbn in H. apply andb_prop in H as [H _]. rewrite forallb_forall in H. specialize (H key (HK f' Hf' F2)). destruct (kkey_eq_dec key key); congruence.
  - exfalso. rewrite F2 in H. cbn in H. apply andb_prop in H as [H _]. rewrite forallb_forall in H. specialize (H key (HK f Hf F1)). destruct (kkey_eq_dec key key); congruence.
  - apply IH; auto. destruct (gkey_of_f g E x); [|exact H]. cbn in H. now apply andb_prop in H as [_ H].
Qed.
