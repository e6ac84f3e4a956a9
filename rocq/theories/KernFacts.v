(* Reasoning about kernel execution: observable behaviour of a program over memory actions,
   environments, expression evaluation. *)
From Verif Require Import Base BaseFacts Util Lang Kernel.

(* writes performed and final outcome, when reads are answered by [inp] (input arrays) *)
Section Ev.
Context (L : lang).
Notation V := (val L).
Definition wr := (name * Z * V)%type.
Context (inp : name -> option (list V)).

Fixpoint ev {A} (p : prog L A) : list wr * outc A :=
  match p with
  | PRet a => ([], OkO a)
  | PExc => ([], RaiseO)
  | PFlt => ([], FaultO)
  | PRd n i k => match inp n with
                 | Some l => match znth l i with Some v => ev (k v) | None => ([], FaultO) end
                 | None => ([], FaultO)
                 end
  | PWr n i v k => let '(w, o) := ev k in ((n, i, v) :: w, o)
  end.
Definition ebind {A B} (x : list wr * outc A) (f : A -> list wr * outc B) : list wr * outc B :=
  match x with
  | (w, OkO a) => let '(w2, o) := f a in (w ++ w2, o)
  | (w, RaiseO) => (w, RaiseO)
  | (w, FaultO) => (w, FaultO)
  end.
Lemma ev_bind {A B} (p : prog L A) (f : A -> prog L B) : ev (pbind p f) = ebind (ev p) (fun a => ev (f a)).
Proof.
  induction p as [a| | |n i k IH|n i v k IH]; cbn; auto.
  - destruct (ev (f a)); reflexivity.
  - destruct (inp n); auto. destruct (znth l i); auto.
  - rewrite IH. destruct (ev k) as [w [a| |]]; cbn; auto. destruct (ev (f a)); reflexivity.
Qed.
Lemma ebind_ok {A B} (a : A) (f : A -> list wr * outc B) : ebind ([], OkO a) f = f a.
Proof. cbn. destruct (f a); reflexivity. Qed.
Lemma ev_bind_ok {A B} (p : prog L A) (f : A -> prog L B) a : ev p = ([], OkO a) -> ev (pbind p f) = ev (f a).
Proof. intros H. rewrite ev_bind, H. exact (ebind_ok a (fun a => ev (f a))). Qed.
Lemma ev_bind_raise {A B} (p : prog L A) (f : A -> prog L B) w : ev p = (w, RaiseO) -> ev (pbind p f) = (w, RaiseO).
Proof. intros H. now rewrite ev_bind, H. Qed.
Lemma ebind_assoc {A B C} (x : list wr * outc A) (f : A -> list wr * outc B) (h : B -> list wr * outc C) :
  ebind (ebind x f) h = ebind x (fun a => ebind (f a) h).
Proof.
  destruct x as [w [a| |]]; cbn; auto. destruct (f a) as [w1 [b| |]]; cbn; auto.
  destruct (h b) as [w2 o]. now rewrite app_assoc.
Qed.
Lemma ebind_ext {A B} (x : list wr * outc A) (f h : A -> list wr * outc B) : (forall a, f a = h a) -> ebind x f = ebind x h.
Proof. intros H. destruct x as [w [a| |]]; cbn; auto. now rewrite H. Qed.
End Ev.
Arguments ev {L} inp {A} p.
Arguments ebind {L A B} x f.

(* ------------------------------------------------------------------ environments *)
Section Env.
Context (L : lang).
Notation V := (val L).
Context (scoped : bool).
Notation env := (env L).
Notation lk := (lk L).
Notation declare := (declare L scoped).
Notation bind_loop := (bind_loop L scoped).

(* names in S may have been rebound or updated; everything else is as before *)
Definition feq (S : name -> Prop) (f f' : frame L) : Prop :=
  Forall2 (fun p q => fst p = fst q /\ (S (fst p) \/ snd p = snd q)) f f'.
Definition evolve (S : name -> Prop) (r r' : env) : Prop :=
  match r, r' with
  | f :: t, f' :: t' => Forall2 (feq S) t t' /\ exists new f0, f' = new ++ f0 /\ feq S f f0 /\ Forall (fun p => S (fst p)) new
  | _, _ => False
  end.

Lemma feq_refl S f : feq S f f.
Proof. unfold feq. induction f; constructor; auto. Qed.
Lemma feq_trans S f1 f2 f3 : feq S f1 f2 -> feq S f2 f3 -> feq S f1 f3.
Proof.
  unfold feq. intros H; revert f3; induction H as [|p q f1 f2 [H1 H2] _ IH]; intros f3 H3; inversion H3 as [|? q3 ? ? [H5 H6]]; subst; constructor; auto.
  split; [congruence|]. rewrite <- H1 in H6. intuition congruence.
Qed.
Lemma feq_mono (S T : name -> Prop) f1 f2 : (forall n, S n -> T n) -> feq S f1 f2 -> feq T f1 f2.
Proof. unfold feq. intros H. induction 1; constructor; auto. intuition. Qed.
Lemma Forall2_feq_refl S t : Forall2 (feq S) t t.
Proof. induction t; constructor; auto using feq_refl. Qed.
Lemma Forall2_feq_trans S t1 t2 t3 : Forall2 (feq S) t1 t2 -> Forall2 (feq S) t2 t3 -> Forall2 (feq S) t1 t3.
Proof. intros H; revert t3; induction H; intros t3 H3; inversion H3; subst; constructor; eauto using feq_trans. Qed.
Lemma Forall2_feq_mono (S T : name -> Prop) t1 t2 : (forall n, S n -> T n) -> Forall2 (feq S) t1 t2 -> Forall2 (feq T) t1 t2.
Proof. intros H; induction 1; constructor; eauto using feq_mono. Qed.

Lemma evolve_refl S r : r <> [] -> evolve S r r.
Proof. destruct r as [|f t]; [congruence|]. intros _. cbn. split; [apply Forall2_feq_refl|]. exists [], f. auto using feq_refl. Qed.
Lemma evolve_mono (S T : name -> Prop) r r' : (forall n, S n -> T n) -> evolve S r r' -> evolve T r r'.
Proof.
  intros H. destruct r as [|f t], r' as [|f' t']; cbn; auto. intros [H1 (new & f0 & -> & H2 & H3)].
  split; [eauto using Forall2_feq_mono|]. exists new, f0. split; auto. split; [eauto using feq_mono|].
  eapply Forall_impl; [|exact H3]. auto.
Qed.
Lemma evolve_trans S r1 r2 r3 : evolve S r1 r2 -> evolve S r2 r3 -> evolve S r1 r3.
Proof.
  destruct r1 as [|f1 t1], r2 as [|f2 t2], r3 as [|f3 t3]; cbn; try tauto.
  intros [H1 (n1 & g1 & -> & H2 & H3)] [H4 (n2 & g2 & -> & H5 & H6)].
  split; [eauto using Forall2_feq_trans|].
  apply Forall2_app_inv_l in H5 as (m1 & m2 & Hm1 & Hm2 & ->).
  exists (n2 ++ m1), m2. split; [now rewrite app_assoc|]. split; [eauto using feq_trans|].
  apply Forall_app. split; auto. clear - H3 Hm1. induction Hm1 as [|p q l l' [Hp _] _ IH]; constructor; inversion H3; subst; auto. congruence.
Qed.
Lemma evolve_nonempty S r r' : evolve S r r' -> r' <> [].
Proof. destruct r, r'; cbn; congruence || tauto. Qed.

Lemma flook_feq S f f' n : feq S f f' -> ~ S n -> flook L f' n = flook L f n.
Proof.
  unfold feq. induction 1 as [|[m x] [m' x'] f f' [H1 H2] _ IH]; intros Hn; cbn in *; auto.
  subst m'. destruct (name_eqb m n) eqn:E; [|now apply IH]. apply name_eqb_eq in E. subst.
  destruct H2; [tauto|congruence].
Qed.
Lemma flook_app f f' n : flook L (f ++ f') n = match flook L f n with Some x => Some x | None => flook L f' n end.
Proof. induction f as [|[m x] f IH]; cbn; auto. destruct (name_eqb m n); auto. Qed.
Lemma flook_notin f n : Forall (fun p => fst p <> n) f -> flook L f n = None.
Proof.
  induction 1 as [|[m x] f Hm _ IH]; cbn; auto. destruct (name_eqb m n) eqn:E; auto.
  apply name_eqb_eq in E. cbn in Hm. tauto.
Qed.
Lemma lk_feq S t t' n : Forall2 (feq S) t t' -> ~ S n -> lk t' n = lk t n.
Proof. induction 1 as [|f f' t t' Hf _ IH]; intros Hn; cbn; auto. rewrite (flook_feq S f f' n), IH; auto. Qed.
Lemma lk_evolve S r r' n : evolve S r r' -> ~ S n -> lk r' n = lk r n.
Proof.
  destruct r as [|f t], r' as [|f' t']; cbn; try tauto. intros [H1 (new & f0 & -> & H2 & H3)] Hn.
  rewrite flook_app, flook_notin.
  - now rewrite (flook_feq S f f0 n), (lk_feq S t t' n).
  - eapply Forall_impl; [|exact H3]. cbn. intros p Hp <-. auto.
Qed.
(* the innermost scope declares none of the given names *)
Definition undecl (r : env) (n : name) : Prop := scoped = true -> flook L (hd [] r) n = None.
Lemma flook_feq_none S f f' n : feq S f f' -> flook L f n = None -> flook L f' n = None.
Proof.
  unfold feq. induction 1 as [|[m x] [m' x'] f f' [H1 H2] _ IH]; intros Hn; cbn in *; auto.
  subst m'. destruct (name_eqb m n); [discriminate|auto].
Qed.
Lemma undecl_evolve S r r' n : evolve S r r' -> ~ S n -> undecl r n -> undecl r' n.
Proof.
  destruct r as [|f t], r' as [|f' t']; cbn; try tauto. intros [H1 (new & f0 & -> & H2 & H3)] Hn Hu Hs. cbn in *.
  rewrite flook_app, flook_notin.
  - eapply flook_feq_none; eauto.
  - eapply Forall_impl; [|exact H3]. cbn. intros p Hp <-. auto.
Qed.

Lemma declare_ok r n dt v : r <> [] -> undecl r n ->
  exists r', declare r n dt v = Some r' /\ evolve (eq n) r r' /\ lk r' n = Some (dt, coerce L dt v).
Proof.
  destruct r as [|f t]; [congruence|]. intros _ Hu. unfold undecl in Hu. cbn in Hu.
  exists (((n, (dt, coerce L dt v)) :: f) :: t). split.
  - cbn. revert Hu. destruct scoped; intros Hu; [rewrite (Hu eq_refl)|]; reflexivity.
  - split; [|cbn; now rewrite name_eqb_refl].
    cbn. split; [apply Forall2_feq_refl|]. exists [(n, (dt, coerce L dt v))], f. split; [reflexivity|]. split; [apply feq_refl|].
    constructor; auto.
Qed.
Lemma fset_feq f n x : feq (eq n) f (fset_ L f n x).
Proof.
  unfold feq. induction f as [|[m y] f IH]; cbn; [constructor|]. destruct (name_eqb m n) eqn:E.
  - apply name_eqb_eq in E. subst. constructor; [cbn; auto|apply feq_refl].
  - constructor; auto.
Qed.
Lemma flook_fset f n x : flook L f n <> None -> flook L (fset_ L f n x) n = Some x.
Proof.
  induction f as [|[m y] f IH]; cbn; [congruence|]. destruct (name_eqb m n) eqn:E; cbn; rewrite E; auto.
Qed.
Lemma upd_ok r n dt u v : lk r n = Some (dt, u) ->
  exists r', upd_env L r n v = Some r' /\ evolve (eq n) r r' /\ lk r' n = Some (dt, coerce L dt v) /\ Forall2 (feq (eq n)) r r'.
Proof.
  assert (G : lk r n = Some (dt, u) -> exists r', upd_env L r n v = Some r' /\ Forall2 (feq (eq n)) r r' /\ lk r' n = Some (dt, coerce L dt v)).
  { induction r as [|f t IH]; cbn; [discriminate|]. destruct (flook L f n) as [[dt' u']|] eqn:E; intros H.
    - injection H as -> ->. eexists. split; [reflexivity|]. split; [constructor; [apply fset_feq|apply Forall2_feq_refl]|].
      cbn. rewrite flook_fset by congruence. reflexivity.
    - destruct (IH H) as (r' & -> & H1 & H2). cbn. eexists. split; [reflexivity|]. split; [constructor; [apply feq_refl|assumption]|].
      cbn. now rewrite E. }
  intros H. destruct (G H) as (r' & H1 & H2 & H3). exists r'. split; auto. split; [|auto].
  destruct H2; [discriminate H|]. cbn. split; auto. exists [], y. auto.
Qed.
Lemma lk_bind_loop r n z m : r <> [] -> lk (bind_loop r n z) m = if name_eqb n m then Some (Int32, lit L z) else lk r m.
Proof. destruct r as [|f t]; [congruence|]. intros _. unfold Kernel.bind_loop. destruct scoped; cbn; destruct (name_eqb n m); reflexivity. Qed.
Lemma bind_loop_nonempty r n z : r <> [] -> bind_loop r n z <> [].
Proof. unfold Kernel.bind_loop. destruct r; [congruence|]. destruct scoped; cbn; congruence. Qed.
Lemma undecl_bind_loop r n z m : n <> m -> undecl (bind_loop r n z) m.
Proof.
  unfold undecl, Kernel.bind_loop. intros H Hs. rewrite Hs. cbn. destruct (name_eqb n m) eqn:E; auto. apply name_eqb_eq in E. tauto.
Qed.
Lemma undecl_enter r m : undecl (enter L scoped r) m \/ scoped = false.
Proof. unfold undecl, enter. destruct scoped; [left|right]; reflexivity. Qed.
Lemma leave_bind_loop (S : name -> Prop) r n z r1 : r <> [] -> S n -> evolve S (bind_loop r n z) r1 -> evolve S r (leave L scoped r1).
Proof.
  unfold Kernel.bind_loop, leave. destruct r as [|f t]; [congruence|]. intros _ Hn H. destruct scoped.
  - destruct r1 as [|f1 t1]; [destruct H|]. cbn in H. destruct H as [H _]. cbn [tl].
    inversion H; subst. cbn. split; auto. exists [], y. auto.
  - eapply evolve_trans; [|exact H]. cbn. split; [apply Forall2_feq_refl|].
    exists [(n, (Int32, lit L z))], f. split; [reflexivity|]. split; [apply feq_refl|]. constructor; auto.
Qed.
Lemma leave_enter (S : name -> Prop) r r1 : r <> [] -> evolve S (enter L scoped r) r1 -> evolve S r (leave L scoped r1).
Proof.
  unfold enter, leave. destruct r as [|f t]; [congruence|]. intros _ H. destruct scoped; [|exact H].
  destruct r1 as [|f1 t1]; [destruct H|]. cbn in H. destruct H as [H _]. cbn [tl].
  inversion H; subst. cbn. split; auto. exists [], y. auto.
Qed.
Lemma enter_nonempty r : r <> [] -> enter L scoped r <> [].
Proof. unfold enter. destruct scoped; congruence. Qed.
Lemma lk_enter r n : lk (enter L scoped r) n = lk r n.
Proof. unfold enter. destruct scoped; reflexivity. Qed.
End Env.

(* ------------------------------------------------------------------ execution at the level of ev *)
Section ExecFacts.
Context (L : lang) (scoped : bool) (gp : bool -> axis -> Z) (pty : name -> dtype) (inp : name -> option (list (val L))).
Notation exec := (exec L scoped gp pty).

Lemma exec_capp c1 c2 : forall r, ev inp (exec (capp c1 c2) r) =
  ebind (ev inp (exec c1 r)) (fun '(fl, r1) => match fl with FNorm => ev inp (exec c2 r1) | FReturn => ([], OkO (FReturn, r1)) end).
Proof.
  assert (A : forall A (x : list (wr L) * outc A) c2 (h : A -> list (wr L) * outc (flow * env L)) c1,
     (forall a, h a = ebind (c1 a) (fun '(fl, r1) => match fl with FNorm => ev inp (exec c2 r1) | FReturn => ([], OkO (FReturn, r1)) end)) ->
     ebind x h = ebind (ebind x c1) (fun '(fl, r1) => match fl with FNorm => ev inp (exec c2 r1) | FReturn => ([], OkO (FReturn, r1)) end)).
  { intros. rewrite ebind_assoc. apply ebind_ext. assumption. }
  induction c1; intros r; cbn [capp Kernel.exec]; rewrite ?ev_bind.
  - cbn [ev]. now rewrite ebind_ok.
  - apply A. intros v. rewrite !ev_bind. apply A. intros r1. apply IHc1.
  - apply A. intros v. rewrite !ev_bind. apply A. intros r1. apply IHc1.
  - apply A. intros v. rewrite !ev_bind. apply A. intros w. rewrite !ev_bind. apply A. intros z.
    cbn [ev]. rewrite IHc1. destruct (ev inp (exec c1 r)) as [w1 [[fl r1]| |]]; cbn; auto.
    destruct (match fl with FNorm => ev inp (exec c2 r1) | FReturn => _ end); reflexivity.
  - apply A. intros [fl r1]. destruct fl; [apply IHc1_2|]. cbn. reflexivity.
  - apply A. intros v. rewrite !ev_bind. apply A. intros [fl r1]. destruct fl; [apply IHc1_3|]. cbn. reflexivity.
  - cbn. reflexivity.
  - apply A. intros r1. apply IHc1.
Qed.
Lemma exec_capp_norm c1 c2 r r1 : ev inp (exec c1 r) = ([], OkO (FNorm, r1)) -> ev inp (exec (capp c1 c2) r) = ev inp (exec c2 r1).
Proof. intros H. rewrite exec_capp, H. cbn. now destruct (ev inp (exec c2 r1)). Qed.
Lemma exec_capp_raise c1 c2 r w : ev inp (exec c1 r) = (w, RaiseO) -> ev inp (exec (capp c1 c2) r) = (w, RaiseO).
Proof. intros H. now rewrite exec_capp, H. Qed.

(* a value expression that evaluates in r without effect *)
Definition evals (r : env L) (e : kx) (v : val L) : Prop := ev inp (eval L r e) = ([], OkO v).
Lemma evals_name r n dt v : lk L r n = Some (dt, v) -> evals r (KName n) v.
Proof. intros H. unfold evals. cbn. now rewrite H. Qed.
Lemma evals_int r z : evals r (KInt z) (lit L z).
Proof. reflexivity. Qed.
Lemma evals_bin r b x y u w v : evals r x u -> evals r y w -> bin L b u w = Some v -> evals r (KBin b x y) v.
Proof. intros H1 H2 H3. unfold evals in *. cbn. rewrite (ev_bind_ok _ _ _ _ _ H1), (ev_bind_ok _ _ _ _ _ H2). cbn. now rewrite H3. Qed.
Lemma evals_idx r a i w z l v : evals r i w -> to_idx L w = Some z -> inp a = Some l -> znth l z = Some v -> evals r (KIdx a i) v.
Proof. intros H1 H2 H3 H4. unfold evals in *. cbn. rewrite (ev_bind_ok _ _ _ _ _ H1), H2. cbn. now rewrite H3, H4. Qed.

Lemma exec_decl r dt n e k v r' : evals r e v -> declare L scoped r n dt v = Some r' -> ev inp (exec (CDecl dt n e k) r) = ev inp (exec k r').
Proof. intros H1 H2. cbn. rewrite (ev_bind_ok _ _ _ _ _ H1). rewrite H2. cbn. reflexivity. Qed.
Lemma exec_assign r n e k v r' : evals r e v -> upd_env L r n v = Some r' -> ev inp (exec (CAssign n e k) r) = ev inp (exec k r').
Proof. intros H1 H2. cbn. rewrite (ev_bind_ok _ _ _ _ _ H1). rewrite H2. cbn. reflexivity. Qed.
Lemma exec_decl_raise r dt n e k : ev inp (eval L r e) = ([], RaiseO) -> ev inp (exec (CDecl dt n e k) r) = ([], RaiseO).
Proof. intros H. cbn. now apply ev_bind_raise. Qed.
Lemma exec_assign_raise r n e k : ev inp (eval L r e) = ([], RaiseO) -> ev inp (exec (CAssign n e k) r) = ([], RaiseO).
Proof. intros H. cbn. now apply ev_bind_raise. Qed.
Lemma eval_bin_raise r b x y u w : evals r x u -> evals r y w -> bin L b u w = None -> ev inp (eval L r (KBin b x y)) = ([], RaiseO).
Proof. intros H1 H2 H3. unfold evals in *. cbn. rewrite (ev_bind_ok _ _ _ _ _ H1), (ev_bind_ok _ _ _ _ _ H2). cbn. now rewrite H3. Qed.
Lemma eval_un_raise r u x w : evals r x w -> un L u w = None -> ev inp (eval L r (KUn u x)) = ([], RaiseO).
Proof. intros H1 H3. unfold evals in *. cbn. rewrite (ev_bind_ok _ _ _ _ _ H1). cbn. now rewrite H3. Qed.
Lemma evals_un r u x w v : evals r x w -> un L u w = Some v -> evals r (KUn u x) v.
Proof. intros H1 H3. unfold evals in *. cbn. rewrite (ev_bind_ok _ _ _ _ _ H1). cbn. now rewrite H3. Qed.
Lemma exec_store r a i e k v w z : evals r e v -> evals r i w -> to_idx L w = Some z ->
  ev inp (exec (CStore a i e k) r) = ebind ([(a, z, coerce L (pty a) v)], OkO tt) (fun _ => ev inp (exec k r)).
Proof.
  intros H1 H2 H3. cbn [Kernel.exec]. rewrite (ev_bind_ok _ _ _ _ _ H1), (ev_bind_ok _ _ _ _ _ H2), H3. cbn.
  destruct (ev inp (exec k r)); reflexivity.
Qed.
End ExecFacts.

(* leaving a loop or branch body *)
Section Leave.
Context (L : lang) (scoped : bool).
Lemma leave_bind_dom (S : name -> Prop) r n z r1 m : r <> [] -> evolve L S (bind_loop L scoped r n z) r1 -> undecl L scoped r m -> undecl L scoped (leave L scoped r1) m.
Proof.
  intros Hr H Hu Hs. unfold bind_loop, leave in *. rewrite Hs in *. destruct r as [|f t]; [congruence|].
  destruct r1 as [|f1 t1]; [destruct H|]. cbn in H. destruct H as [H _]. cbn [tl]. inversion H; subst. cbn.
  eapply flook_feq_none; eauto.
Qed.
Lemma lk_leave r n : undecl L scoped r n -> lk L (leave L scoped r) n = lk L r n.
Proof.
  intros Hu. unfold leave. destruct scoped eqn:Es; auto. destruct r as [|f t]; auto. cbn.
  specialize (Hu eq_refl). cbn in Hu. now rewrite Hu.
Qed.
End Leave.
