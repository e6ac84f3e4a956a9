(* sched.py:66-122 as an object that is changed in place: what a call that raises leaves behind.  The functions of Sched.v
   return the new schedule of a call that succeeds; here the state also survives the exception, in the order of the
   statements of the code. *)
From Coq Require Import ZifyBool.
From Verif Require Import Base BaseFacts Util UtilFacts Lang Spec Graph Algo AlgoSem AlgoConv Kernel Sched Codegen SchedFacts SchedGpu Nest NestSched SchedUser SchedUser2.

(* the public methods of a SchedulerFunc that change it *)
Inductive scall :=
| SSplit (lv : loopvar) (factor : Z)
| SReorder (lvs : list loopvar)
| SExec (lv : loopvar) (x : lexec)      (* parallel, vectorize, unroll, gpu_blocks_*, gpu_threads_* *)
| STile (x y xo yo xi yi : loopvar) (xfactor yfactor : Z).

(* sched.py:73-82: ceil(extent / factor) raises before anything is changed; the split is recorded (line 78) before the
   loop is looked up (line 79) *)
Definition split_obj (s : schedule) (lv : loopvar) (factor : Z) : schedule * outcome (loopvar * loopvar) :=
  if factor =? 0 then (s, Throw ZeroDivErr)
  else
    let outer := mkLV (suffix true (lv_name lv)) (ceildiv (lv_ext lv) factor) in
    let inner := mkLV (suffix false (lv_name lv)) factor in
    let guard := negb (lv_ext lv mod factor =? 0) in
    let s1 := mkS (s_loops s) (s_splits s ++ [mkSp lv outer inner factor guard]) in
    match index_of (lv_name lv) (s_loops s1) with
    | None => (s1, Throw RuntimeErr)
    | Some i =>
        match nth_error (s_loops s1) i with
        | None => (s1, Throw InternalErr)
        | Some l => (mkS (firstn i (s_loops s1) ++ [mkLS outer (ls_kind l) XSeq; mkLS inner (ls_kind l) XSeq] ++ skipn (S i) (s_loops s1)) (s_splits s1),
                     Done (outer, inner))
        end
    end.
(* sched.py:84-88: the indices are computed before the first assignment *)
Definition reorder_obj (s : schedule) (lvs : list loopvar) : schedule * outcome unit :=
  match indices_of (s_loops s) lvs with
  | Throw e => (s, Throw e)
  | Done is => (mkS (fold_left (fun l '(i, lv) => set_lv l (Z.to_nat i) lv) (combine (rev (zsort is)) lvs) (s_loops s)) (s_splits s), Done tt)
  end.
(* sched.py:90-100,108-122: _find raises before the assignment *)
Definition exec_obj (s : schedule) (lv : loopvar) (x : lexec) : schedule * outcome unit :=
  match set_exec s lv x with Throw e => (s, Throw e) | Done s1 => (s1, Done tt) end.
(* sched.py:102-106: split takes two arguments and gets four: TypeError at the call, before its body *)
Definition tile_obj (s : schedule) : schedule * outcome unit := (s, Throw TypeErr).
Definition sstep (s : schedule) (c : scall) : schedule * outcome unit :=
  match c with
  | SSplit lv f => let '(s1, o) := split_obj s lv f in (s1, match o with Done _ => Done tt | Throw e => Throw e end)
  | SReorder lvs => reorder_obj s lvs
  | SExec lv x => exec_obj s lv x
  | STile _ _ _ _ _ _ _ _ => tile_obj s
  end.
(* a program that catches the exceptions and goes on *)
Definition session (s : schedule) (cs : list scall) : schedule := fold_left (fun s c => fst (sstep s c)) cs s.

(* the same call in the pure model *)
Definition pure (c : scall) : option ucall :=
  match c with SSplit lv f => Some (USplit lv f) | SReorder lvs => Some (UReorder lvs) | SExec lv x => Some (UExec lv x) | STile _ _ _ _ _ _ _ _ => None end.
Definition has_loop (s : schedule) (lv : loopvar) : Prop := In (lv_name lv) (names (s_loops s)).

Lemma index_of_some n l : (exists i, index_of n l = Some i) <-> In n (names l).
Proof.
  induction l as [|x l IH]; cbn; [split; [intros (i & H); discriminate|tauto]|]. destruct (name_eqb (lv_name (ls_lv x)) n) eqn:E.
  - apply name_eqb_eq in E. split; [intros _; now left|intros _; eauto].
  - split.
    + intros (i & H). right. apply IH. destruct (index_of n l) as [j|]; [eauto|discriminate].
    + intros [H|H]; [subst n; rewrite name_eqb_refl in E; discriminate|]. apply IH in H as (i & ->). eexists. reflexivity.
Qed.
Lemma index_of_none n l : index_of n l = None <-> ~ In n (names l).
Proof. rewrite <- index_of_some. destruct (index_of n l) as [i|]; split; try congruence; [intros H; exfalso; apply H; eauto|intros _ (i & H); discriminate]. Qed.
Lemma index_of_nth n l i : index_of n l = Some i -> exists x, nth_error l i = Some x.
Proof.
  revert i. induction l as [|x l IH]; intros i H; [discriminate|]. cbn in H. destruct (name_eqb _ _); [injection H as <-; now eexists|].
  destruct (index_of n l) as [j|] eqn:E; [|discriminate]. injection H as <-. exact (IH j eq_refl).
Qed.
Lemma indices_of_some l lvs : (exists is, indices_of l lvs = Done is) <-> forall lv, In lv lvs -> In (lv_name lv) (names l).
Proof.
  induction lvs as [|lv r IH]; cbn; [split; [tauto|eauto]|]. split.
  - intros (is & H) lv' [<-|Hin].
    + destruct (index_of (lv_name lv) l) as [i|] eqn:E; [|discriminate]. apply index_of_some. eauto.
    + destruct (index_of (lv_name lv) l) as [i|]; [|discriminate]. cbn [throw_none obind] in H. destruct (indices_of l r) as [js|]; [|discriminate]. apply IH; eauto.
  - intros H. destruct (proj2 (index_of_some (lv_name lv) l) (H lv (or_introl eq_refl))) as (i & ->). cbn [throw_none obind].
    destruct (proj2 IH (fun lv' Hin => H lv' (or_intror Hin))) as (js & ->). cbn. eauto.
Qed.
Lemma indices_of_throw l lvs e : indices_of l lvs = Throw e -> e = RuntimeErr.
Proof.
  induction lvs as [|lv r IH]; cbn; [discriminate|]. destruct (index_of (lv_name lv) l) as [i|]; cbn; [|congruence].
  destruct (indices_of l r) as [js|e']; cbn; [discriminate|]. intros H. injection H as <-. auto.
Qed.
Lemma set_exec_cases s lv x : (has_loop s lv -> exists s1, set_exec s lv x = Done s1) /\ (~ has_loop s lv -> set_exec s lv x = Throw RuntimeErr).
Proof.
  unfold set_exec, has_loop. split; intros H.
  - apply index_of_some in H as (i & Hi). rewrite Hi. cbn [throw_none obind]. destruct (index_of_nth _ _ _ Hi) as (l & ->). eauto.
  - apply index_of_none in H. now rewrite H.
Qed.

(* the outcome of every call *)
Lemma sstep_outcome s c : snd (sstep s c) =
  match c with
  | SSplit lv f => if f =? 0 then Throw ZeroDivErr else match index_of (lv_name lv) (s_loops s) with Some _ => Done tt | None => Throw RuntimeErr end
  | SReorder lvs => match indices_of (s_loops s) lvs with Done _ => Done tt | Throw _ => Throw RuntimeErr end
  | SExec lv x => match index_of (lv_name lv) (s_loops s) with Some _ => Done tt | None => Throw RuntimeErr end
  | STile _ _ _ _ _ _ _ _ => Throw TypeErr
  end.
Proof.
  destruct c as [lv f|lvs|lv x|x y xo yo xi yi xf yf]; cbn [sstep].
  - unfold split_obj. destruct (f =? 0); [reflexivity|]. cbv zeta. cbn [s_loops]. destruct (index_of _ _) as [i|] eqn:E; [|reflexivity].
    destruct (index_of_nth _ _ _ E) as (l & ->). reflexivity.
  - unfold reorder_obj. destruct (indices_of _ _) as [is|e] eqn:E; [reflexivity|]. apply indices_of_throw in E. subst. reflexivity.
  - unfold exec_obj, set_exec.  destruct (index_of _ _) as [i|] eqn:E; [|reflexivity]. cbn [throw_none obind]. destruct (index_of_nth _ _ _ E) as (l & ->). reflexivity.
  - reflexivity.
Qed.
(* a call that succeeds is the call of the pure model *)
Lemma sstep_pure s c s1 : sstep s c = (s1, Done tt) <-> exists u, pure c = Some u /\ ustep s u = Done s1.
Proof.
  destruct c as [lv f|lvs|lv x|x y xo yo xi yi xf yf]; cbn [sstep pure].
  - transitivity (ustep s (USplit lv f) = Done s1); [|split; [eauto|intros (u & Hu & H); injection Hu as <-; exact H]].
    cbn [ustep]. unfold split_obj, split. destruct (f =? 0); [split; discriminate|]. cbv zeta. cbn [s_loops].
    destruct (index_of _ _) as [i|]; [|split; discriminate]. destruct (nth_error _ i) as [l|]; [|split; discriminate]. cbn [obind s_splits]. split; congruence.
  - transitivity (ustep s (UReorder lvs) = Done s1); [|split; [eauto|intros (u & Hu & H); injection Hu as <-; exact H]].
    cbn [ustep]. unfold reorder_obj, reorder. destruct (indices_of _ _); cbn [obind]; split; congruence.
  - transitivity (ustep s (UExec lv x) = Done s1); [|split; [eauto|intros (u & Hu & H); injection Hu as <-; exact H]].
    cbn [ustep]. unfold exec_obj. destruct (set_exec s lv x); split; congruence.
  - split; [discriminate|]. intros (u & H & _). discriminate.
Qed.
(* what a call that raises leaves *)
Lemma sstep_throw s c s1 e : sstep s c = (s1, Throw e) ->
  s1 = s \/ exists lv f, c = SSplit lv f /\ f <> 0 /\ ~ has_loop s lv /\ e = RuntimeErr /\
    s1 = mkS (s_loops s) (s_splits s ++ [mkSp lv (mkLV (suffix true (lv_name lv)) (ceildiv (lv_ext lv) f)) (mkLV (suffix false (lv_name lv)) f) f (negb (lv_ext lv mod f =? 0))]).
Proof.
  destruct c as [lv f|lvs|lv x|x y xo yo xi yi xf yf]; cbn [sstep].
  - unfold split_obj. destruct (f =? 0) eqn:E0; [left; congruence|]. cbv zeta. cbn [s_loops s_splits]. destruct (index_of _ _) as [i|] eqn:E.
    + destruct (index_of_nth _ _ _ E) as (l & ->). discriminate.
    + intros H. injection H as <- <-. right. exists lv, f. split; [reflexivity|]. split; [lia|]. split; [now apply index_of_none|]. split; reflexivity.
  - unfold reorder_obj. destruct (indices_of _ _); [discriminate|]. intros H. injection H as <- <-. now left.
  - unfold exec_obj. destruct (set_exec s lv x); [discriminate|]. intros H. injection H as <- <-. now left.
  - unfold tile_obj. intros H. injection H as <- <-. now left.
Qed.
