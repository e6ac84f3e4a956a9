(* Executable checks used by the concrete cases beside the theorems about histories. *)
From Verif Require Import Base BaseFacts Util UtilFacts Lang Spec Graph Api ApiFacts Denote Reach Tolist TolistFacts
  Algo AlgoSem AlgoConvert Kernel Sched Codegen CacheKey KernelRun AlgoTop Runtime RuntimeFacts RuntimeFacts2 History HistFacts RtInst LangInst CacheFacts Frame Prog.

Fixpoint no_whereb (e : expr) : bool :=
  match e with
  | EWhere _ _ _ => false
  | EBin _ x y => no_whereb x && no_whereb y
  | EUn _ x | ESum x _ => no_whereb x
  | EIdx _ | EConst _ | EFunc _ _ | EBuf _ _ => true
  end.
Lemma no_whereb_ok e : no_whereb e = true -> no_where e.
Proof. induction e; cbn; auto; try discriminate. intros H. apply andb_prop in H as []; auto. Qed.
(* every kernel needed by materializing a reads only constants and has no pad/dilate *)
Definition plainb (g : graph) (a : nat) : bool :=
  match base g a with
  | Some b => match nth_error g b with
     | Some bd => if is_const (n_op bd) then true else
         match convert g b with
         | Done (E, fs) => forallb (fun f => match E f with Some fd => no_whereb (f_expr fd) && match func_refs (f_expr fd) with [] => true | _ => false end | None => true end) fs
         | Throw _ => true
         end
     | None => true end
  | None => true
  end.
Lemma plainb_ok g a : reach g -> validb g a = true -> plainb g a = true -> forall d, kernel_of g a d -> plain_kernel d.
Proof.
  intros Hr Hv H d Hk. apply Nat.ltb_lt in Hv. split; [exists g, a; auto|].
  destruct Hk as (b & bd & E & fs & f & fd & sc & Hb & Hbd & Hc & Hcv & Hf & Hfd & Hsc & ->). cbn.
  unfold plainb in H. rewrite Hb, Hbd, Hc, Hcv in H. rewrite forallb_forall in H. specialize (H f Hf). rewrite Hfd in H. apply andb_prop in H as [H1 H2].
  split; [now apply no_whereb_ok|]. destruct (func_refs (f_expr fd)); auto. discriminate.
Qed.
(* the kernels needed by materializing a have pairwise different cache keys *)
Fixpoint nodup_keys (l : list kkey) : bool :=
  match l with [] => true | x :: r => forallb (fun y => if kkey_eq_dec x y then false else true) r && nodup_keys r end.
Definition key_of_f (g : graph) (E : fenv) (f : nat) : option kkey :=
  match E f with
  | Some fd => match auto_schedule false fd with Done sc => match cache_key g E fd sc with Done k => Some k | Throw _ => None end | Throw _ => None end
  | None => None
  end.
Fixpoint keys_of (g : graph) (E : fenv) (fs : list nat) : list kkey :=
  match fs with [] => [] | f :: r => match key_of_f g E f with Some k => k :: keys_of g E r | None => keys_of g E r end end.
Definition own_safeb (g : graph) (a : nat) : bool :=
  match base g a with
  | Some b => match convert g b with Done (E, fs) => nodup_keys (keys_of g E fs) | Throw _ => true end
  | None => true
  end.
Lemma own_safeb_ok g a : own_safeb g a = true -> key_safe (kernel_of g a).
Proof.
  intros H d1 d2 key (b & bd & E & fs & f & fd & sc & Hb & Hbd & Hc & Hcv & Hf & Hfd & Hsc & ->) (b' & bd' & E' & fs' & f' & fd' & sc' & Hb' & Hbd' & Hc' & Hcv' & Hf' & Hfd' & Hsc' & ->) K1 K2 k.
  assert (b' = b) by congruence. subst b'. rewrite Hcv in Hcv'. injection Hcv' as <- <-.
  unfold own_safeb in H. rewrite Hb, Hcv in H. cbn in K1, K2. unfold key_of in K1, K2. cbn in K1, K2.
  assert (F1 : key_of_f g E f = Some key) by (unfold key_of_f; now rewrite Hfd, Hsc, K1).
  assert (F2 : key_of_f g E f' = Some key) by (unfold key_of_f; now rewrite Hfd', Hsc', K2).
  assert (f = f'); [|subst f'; assert (fd' = fd) by congruence; subst; congruence].
  clear - H Hf Hf' F1 F2. induction fs as [|x fs IH]; [destruct Hf|]. cbn [keys_of] in H.
  assert (HK : forall y, In y fs -> key_of_f g E y = Some key -> In key (keys_of g E fs)).
  { clear. induction fs as [|z fs IH]; intros y Hy Hk; [destruct Hy|]. cbn. destruct Hy as [->|Hy]; [rewrite Hk; now left|]. destruct (key_of_f g E z); [right|]; eauto. }
  destruct Hf as [->|Hf], Hf' as [->|Hf']; auto.
  - exfalso. rewrite F1 in H. cbn in H. apply andb_prop in H as [H _]. rewrite forallb_forall in H. specialize (H key (HK f' Hf' F2)). destruct (kkey_eq_dec key key); congruence.
  - exfalso. rewrite F2 in H. cbn in H. apply andb_prop in H as [H _]. rewrite forallb_forall in H. specialize (H key (HK f Hf F1)). destruct (kkey_eq_dec key key); congruence.
  - apply IH; auto. destruct (key_of_f g E x); [|exact H]. cbn in H. now apply andb_prop in H as [_ H].
Qed.

(* a script of API calls, materializations and cache resets; None when an API call is invalid *)
Inductive ev := Call (c : call) | Mat (a : nat) | Reset.
Fixpoint script (B : cpu_backend) (s : rt B) (es : list ev) : option (rt B) :=
  match es with
  | [] => Some s
  | Call c :: r => if call_okb (r_graph B s) c then script B (fst (api_call B s c)) r else None
  | Mat a :: r => if validb (r_graph B s) a then script B (fst (materialize B s a)) r else None
  | Reset :: r => script B (reset_cache B s) r
  end.
Lemma script_any B es : forall s s', any_hist B s -> script B s es = Some s' -> any_hist B s'.
Proof.
  induction es as [|[c|a|] es IH]; intros s s' Hs H; cbn [script] in H; [congruence|..].
  - destruct (call_okb _ c) eqn:Ec; [|discriminate]. eapply IH; [|exact H]. constructor; auto. now apply call_okb_ok.
  - destruct (validb _ a) eqn:Ec; [|discriminate]. eapply IH; [|exact H]. constructor; auto. now apply Nat.ltb_lt.
  - eapply IH; [|exact H]. now constructor.
Qed.
(* the same, checking that every materialize uses plain kernels *)
Fixpoint plain_script (B : cpu_backend) (s : rt B) (es : list ev) : option (rt B) :=
  match es with
  | [] => Some s
  | Call c :: r => if call_okb (r_graph B s) c then plain_script B (fst (api_call B s c)) r else None
  | Mat a :: r => if validb (r_graph B s) a && plainb (r_graph B s) a then plain_script B (fst (materialize B s a)) r else None
  | Reset :: r => plain_script B (reset_cache B s) r
  end.
Lemma plain_script_hist lm es : let B := py_backend lm in forall s s', hist B plain_kernel s -> plain_script B s es = Some s' -> hist B plain_kernel s'.
Proof.
  intros B. induction es as [|[c|a|] es IH]; intros s s' Hs H; cbn [script plain_script map] in H; [congruence|..].
  - destruct (call_okb _ c) eqn:Ec; [|discriminate]. eapply IH; [|exact H]. constructor; auto. now apply call_okb_ok.
  - destruct (validb _ a) eqn:Ev; [|discriminate]. destruct (plainb _ a) eqn:Ep; [|discriminate]. eapply IH; [|exact H]. constructor; auto.
    + now apply Nat.ltb_lt. + intros b _. apply py_mat_ok. + apply plainb_ok; auto; exact (i_reach _ _ _ (hist_inv B (py_backend_ok lm) _ plain_safe s Hs)).
  - eapply IH; [|exact H]. now constructor.
Qed.
(* API calls only *)
Lemma calls_hist B C cs : forall s s', hist B C s -> script B s (map Call cs) = Some s' -> hist B C s'.
Proof.
  induction cs as [|c cs IH]; intros s s' Hs H; cbn [script plain_script map] in H; [congruence|].
  destruct (call_okb _ c) eqn:Ec; [|discriminate]. eapply IH; [|exact H]. constructor; auto. now apply call_okb_ok.
Qed.
Definition sc_state (B : cpu_backend) (es : list ev) : rt B := match script B (rt0 B) es with Some s => s | None => rt0 B end.
Lemma sc_state_any B es : any_hist B (sc_state B es).
Proof. unfold sc_state. destruct (script B (rt0 B) es) eqn:E; [|constructor]. eapply script_any; [constructor|exact E]. Qed.
Definition pl_state lm (es : list ev) : rt (py_backend lm) := match plain_script (py_backend lm) (rt0 (py_backend lm)) es with Some s => s | None => rt0 (py_backend lm) end.
Lemma pl_state_hist lm es : hist (py_backend lm) plain_kernel (pl_state lm es).
Proof. unfold pl_state. destruct (plain_script _ _ es) eqn:E; [|constructor]. eapply plain_script_hist; [constructor|exact E]. Qed.
Lemma calls_state_hist B C cs : hist B C (sc_state B (map Call cs)).
Proof. unfold sc_state. destruct (script _ _ _) eqn:E; [|constructor]. eapply calls_hist; [constructor|exact E]. Qed.
Lemma pair_snd {X Y} (p : X * Y) y : snd p = y -> p = (fst p, y).
Proof. destruct p; cbn; congruence. Qed.
