(* An executable check for tidy kernels, and scripts that only use them. *)
From Verif Require Import Base BaseFacts Util UtilFacts Lang Spec Graph Api ApiFacts Denote Reach Tolist TolistFacts
  Algo AlgoSem AlgoConvert Kernel Sched Codegen CacheKey KernelRun AlgoTop Runtime RuntimeFacts RuntimeFacts2 History HistFacts RtInst LangInst CacheFacts Frame Prog HistTools Tidy.

Definition nz_eqb (a b : name * Z) : bool := if nz_eq_dec a b then true else false.
Definition toldb (k : ekey) (f : func) : bool :=
  match kdt k with Some _ => true | None => false end &&
  forallb (fun l => Nat.eqb (l_pos l) 0 || (l_ext l =? 1) || existsb (nz_eqb (lname l, l_ext l)) (kidx k)) (f_loops f).
Lemma toldb_ok k f : toldb k f = true -> told k f.
Proof.
  intros H. apply andb_prop in H as [H1 H2]. split; [destruct (kdt k); congruence|]. intros l Hl. rewrite forallb_forall in H2. specialize (H2 l Hl).
  apply orb_prop in H2 as [H2|H2]; [apply orb_prop in H2 as [H2|H2]|].
  - left. now apply Nat.eqb_eq. - right; left. now apply Z.eqb_eq.
  - right; right. apply existsb_exists in H2 as (y & Hy & He). unfold nz_eqb in He. destruct (nz_eq_dec _ y); [subst; auto|discriminate].
Qed.
(* producers p of the kernel with their own keys; None when one has no key *)
Fixpoint own_keys (g : graph) (E : fenv) (ps : list nat) : option (list (nat * ekey)) :=
  match ps with
  | [] => Some []
  | p :: r => match E p with
      | Some fp => match own_key g E fp, own_keys g E r with Done k, Some ks => if toldb k fp then Some ((p, k) :: ks) else None | _, _ => None end
      | None => None end
  end.
Definition tidyb_f (g : graph) (E : fenv) (fd : func) : bool :=
  no_whereb (f_expr fd) &&
  match own_keys g E (func_refs (f_expr fd)) with
  | Some ks => forallb (fun x => forallb (fun y => if ekey_eq_dec (snd x) (snd y) then Nat.eqb (fst x) (fst y) else true) ks) ks
  | None => false
  end.
Lemma own_keys_in g E ps ks p : own_keys g E ps = Some ks -> In p ps -> exists fp k, E p = Some fp /\ own_key g E fp = Done k /\ toldb k fp = true /\ In (p, k) ks.
Proof.
  revert ks; induction ps as [|q ps IH]; intros ks H Hp; [destruct Hp|]. cbn [own_keys] in H. destruct (E q) as [fq|] eqn:Eq; [|discriminate].
  destruct (own_key g E fq) as [k|] eqn:Ek; [|discriminate]. destruct (own_keys g E ps) as [ks'|]; [|discriminate]. destruct (toldb k fq) eqn:Et; [|discriminate]. injection H as <-.
  destruct Hp as [->|Hp]; [exists fq, k; cbn; auto|]. destruct (IH _ eq_refl Hp) as (fp & k' & H1 & H2 & H3 & H4). exists fp, k'. cbn; auto.
Qed.
Lemma tidyb_f_ok g E fd sc : tidyb_f g E fd = true -> tidy (mkD g E fd sc).
Proof.
  intros H. apply andb_prop in H as [H1 H2]. split; [now apply no_whereb_ok|]. cbn [d_f d_g d_E]. destruct (own_keys g E (func_refs (f_expr fd))) as [ks|] eqn:Ek; [|discriminate].
  rewrite forallb_forall in H2. split.
  - intros p q fp fq Hp Hq Ep Eq HO. destruct (own_keys_in _ _ _ _ _ Ek Hp) as (fp' & k & A1 & A2 & _ & A4). destruct (own_keys_in _ _ _ _ _ Ek Hq) as (fq' & k' & B1 & B2 & _ & B4).
    assert (fp' = fp) by congruence. assert (fq' = fq) by congruence. subst. assert (k = k') by congruence. subst k'.
    specialize (H2 _ A4). rewrite forallb_forall in H2. specialize (H2 _ B4). cbn in H2. destruct (ekey_eq_dec k k); [now apply Nat.eqb_eq|congruence].
  - intros p fp k Hp Ep Hk. destruct (own_keys_in _ _ _ _ _ Ek Hp) as (fp' & k' & A1 & A2 & A3 & _). assert (fp' = fp) by congruence. subst. assert (k' = k) by congruence. subst. now apply toldb_ok.
Qed.
(* every kernel needed by materializing a is tidy *)
Definition tidyb (g : graph) (a : nat) : bool :=
  match base g a with
  | Some b => match nth_error g b with
     | Some bd => if is_const (n_op bd) then true else
         match convert g b with
         | Done (E, fs) => forallb (fun f => match E f with Some fd => tidyb_f g E fd | None => true end) fs
         | Throw _ => true
         end
     | None => true end
  | None => true
  end.
Lemma tidyb_ok gp g a : reach g -> validb g a = true -> tidyb g a = true -> forall d, kernel_at gp g a d -> tidy_kernel gp d.
Proof.
  intros Hr Hv H d Hk. apply Nat.ltb_lt in Hv. split; [exists g, a; auto|].
  destruct Hk as (b & bd & E & fs & f & fd & sc & Hb & Hbd & Hc & Hcv & Hf & Hfd & Hsc & ->).
  unfold tidyb in H. rewrite Hb, Hbd, Hc, Hcv in H. rewrite forallb_forall in H. specialize (H f Hf). rewrite Hfd in H. now apply tidyb_f_ok.
Qed.
Fixpoint tidy_script (B : cpu_backend) (s : rt B) (es : list ev) : option (rt B) :=
  match es with
  | [] => Some s
  | Call c :: r => if call_okb (r_graph B s) c then tidy_script B (fst (api_call B s c)) r else None
  | Mat a :: r => if validb (r_graph B s) a && tidyb (r_graph B s) a then tidy_script B (fst (materialize B s a)) r else None
  | Reset :: r => tidy_script B (reset_cache B s) r
  end.
Lemma tidy_script_hist lm es : let B := py_backend lm in forall s s', hist B (tidy_kernel false) s -> tidy_script B s es = Some s' -> hist B (tidy_kernel false) s'.
Proof.
  intros B. induction es as [|[c|a|] es IH]; intros s s' Hs H; cbn [tidy_script map] in H; [congruence|..].
  - destruct (call_okb _ c) eqn:Ec; [|discriminate]. eapply IH; [|exact H]. constructor; auto. now apply call_okb_ok.
  - destruct (validb _ a) eqn:Ev; [|discriminate]. destruct (tidyb _ a) eqn:Ep; [|discriminate]. eapply IH; [|exact H]. constructor; auto.
    + now apply Nat.ltb_lt. + intros b _. apply py_mat_ok. + apply (tidyb_ok false); auto; exact (i_reach _ _ _ (hist_inv B (py_backend_ok lm) _ (tidy_safe false) s Hs)).
  - eapply IH; [|exact H]. now constructor.
Qed.
Definition td_state lm (es : list ev) : rt (py_backend lm) := match tidy_script (py_backend lm) (rt0 (py_backend lm)) es with Some s => s | None => rt0 (py_backend lm) end.
Lemma td_state_hist lm es : hist (py_backend lm) (tidy_kernel false) (td_state lm es).
Proof. unfold td_state. destruct (tidy_script _ _ es) eqn:E; [|constructor]. eapply tidy_script_hist; [constructor|exact E]. Qed.
