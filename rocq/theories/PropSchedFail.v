(* Property C55: a scheduling call that raises does not damage the schedule. *)
From Coq Require Import Permutation ZifyBool.
From Verif Require Import Base BaseFacts Util UtilFacts Lang Spec Graph Api Denote ArrayLit Reach Algo AlgoSem Kernel Sched Codegen Backends LangInst Prog
  ApiFacts AlgoConv AlgoConv2 AlgoFuse2 AlgoConvert AlgoConvert2 RunFacts SchedFacts KernelRun BackendFacts AlgoTop AlgoMore Nest NestSched Parallel ParCpu ParTop ParGpu
  PropAlgo PropPar SchedUser SchedUser2 SchedUser3 SchedReach FloatDiv PropSched SchedFail.

(* C55.  Which calls raise, and what: exactly these, on any schedule whatever.  tile() always raises. *)
Theorem C55_exceptions : forall s c,
  match c with
  | SSplit lv f => (snd (sstep s c) = Throw ZeroDivErr <-> f = 0) /\ (snd (sstep s c) = Throw RuntimeErr <-> f <> 0 /\ ~ has_loop s lv) /\ (snd (sstep s c) = Done tt <-> f <> 0 /\ has_loop s lv)
  | SReorder lvs => (snd (sstep s c) = Throw RuntimeErr <-> exists lv, In lv lvs /\ ~ has_loop s lv) /\ (snd (sstep s c) = Done tt <-> forall lv, In lv lvs -> has_loop s lv)
  | SExec lv _ => (snd (sstep s c) = Throw RuntimeErr <-> ~ has_loop s lv) /\ (snd (sstep s c) = Done tt <-> has_loop s lv)
  | STile _ _ _ _ _ _ _ _ => snd (sstep s c) = Throw TypeErr
  end.
Proof.
  intros s c. rewrite sstep_outcome. unfold has_loop. destruct c as [lv f|lvs|lv x|x y xo yo xi yi xf yf].
  - pose proof (index_of_none (lv_name lv) (s_loops s)) as HN. pose proof (index_of_some (lv_name lv) (s_loops s)) as HS.
    destruct (f =? 0) eqn:E; [repeat split; try discriminate; try lia; intros; lia|].
    destruct (index_of _ _) as [i|]; repeat split; try discriminate; try lia; try (intros; lia).
    + intros (_ & H). exfalso. apply H, HS. eauto.
    + apply HS. eauto.
    + now apply HN.
    + intros (_ & H). apply HS in H as (i & H). discriminate.
  - pose proof (indices_of_some (s_loops s) lvs) as HS. destruct (indices_of (s_loops s) lvs) as [is|e] eqn:EI; repeat split; try discriminate; try reflexivity.
    + intros (lv & H1 & H2). exfalso. apply H2. revert lv H1 H2. assert (HA : forall lv, In lv lvs -> In (lv_name lv) (names (s_loops s))) by (apply HS; eauto). intros lv H1 _. now apply HA.
    + intros _. apply HS. eauto.
    + intros _. clear HS. revert e EI. induction lvs as [|lv r IH]; intros e; [discriminate|]. cbn [indices_of]. destruct (index_of (lv_name lv) (s_loops s)) as [i|] eqn:E.
      * cbn [throw_none obind]. destruct (indices_of (s_loops s) r) as [js|e'] eqn:E2; [discriminate|]. intros _. destruct (IH _ eq_refl) as (lv' & H1 & H2). exists lv'. split; [now right|assumption].
      * intros _. exists lv. split; [now left|]. now apply index_of_none.
    + intros H. apply HS in H as (is & H). discriminate.
  - pose proof (index_of_none (lv_name lv) (s_loops s)) as HN. pose proof (index_of_some (lv_name lv) (s_loops s)) as HS.
    destruct (index_of _ _) as [i|]; repeat split; try discriminate.
    + intros H. exfalso. apply H, HS. eauto.
    + intros _. apply HS. eauto.
    + intros _. now apply HN.
    + intros H. apply HS in H as (i & H). discriminate.
  - reflexivity.
Qed.
Print Assumptions C55_exceptions.
(* the schedules and exceptions of C08-C10 (functions that return the new schedule) are those of these calls *)
Theorem C55_same_calls : forall s c u, pure c = Some u -> ustep s u = match sstep s c with (s1, Done _) => Done s1 | (_, Throw e) => Throw e end.
Proof.
  intros s c u H. destruct c as [lv f|lvs|lv x|x y xo yo xi yi xf yf]; cbn [pure] in H; try discriminate; injection H as <-; cbn [ustep sstep].
  - unfold split_obj, split. destruct (f =? 0); [reflexivity|]. cbv zeta. cbn [s_loops s_splits]. destruct (index_of _ _) as [i|]; [|reflexivity]. destruct (nth_error _ i); reflexivity.
  - unfold reorder_obj, reorder. destruct (indices_of _ _); reflexivity.
  - unfold exec_obj. destruct (set_exec s lv x); reflexivity.
Qed.
Print Assumptions C55_same_calls.
(* PARTIAL: every call that raises leaves the schedule as it was, except split() of a variable that is not a loop of the
   schedule (refuted below: it leaves a stray record) *)
Theorem C55_unchanged_partial : forall s c s1 e, sstep s c = (s1, Throw e) -> (forall lv f, c = SSplit lv f -> f = 0 \/ has_loop s lv) -> s1 = s.
Proof.
  intros s c s1 e H HC. destruct (sstep_throw s c s1 e H) as [|(lv & f & -> & Hf & Hn & _)]; [assumption|]. destruct (HC lv f eq_refl); contradiction.
Qed.
Print Assumptions C55_unchanged_partial.

(* A program that goes on after exceptions.  [returned]: the calls that returned; [stray]: the calls split(lv, f), f <> 0,
   of a variable that is not a loop at that moment. *)
Fixpoint returned (s : schedule) (cs : list scall) : list ucall :=
  match cs with
  | [] => []
  | c :: r => match snd (sstep s c), pure c with Done _, Some u => u :: returned (fst (sstep s c)) r | _, _ => returned (fst (sstep s c)) r end
  end.
Definition is_stray (s : schedule) (c : scall) : Prop := match c with SSplit lv f => f <> 0 /\ ~ has_loop s lv | _ => False end.
Fixpoint no_stray (s : schedule) (cs : list scall) : Prop :=
  match cs with [] => True | c :: r => ~ is_stray s c /\ no_stray (fst (sstep s c)) r end.

Lemma sstep_loops s t c : s_loops s = s_loops t -> snd (sstep s c) = snd (sstep t c) /\ s_loops (fst (sstep s c)) = s_loops (fst (sstep t c)).
Proof.
  intros H. split; [rewrite !sstep_outcome, H; reflexivity|]. destruct c as [lv f|lvs|lv x|x y xo yo xi yi xf yf]; cbn [sstep].
  - unfold split_obj. rewrite H. destruct (f =? 0); [exact H|]. cbv zeta. cbn [s_loops s_splits]. destruct (index_of _ _) as [i|]; [|reflexivity]. destruct (nth_error _ i); reflexivity.
  - unfold reorder_obj. rewrite H. destruct (indices_of _ _); cbn [fst s_loops]; congruence.
  - unfold exec_obj, set_exec. rewrite H. destruct (index_of _ _) as [i|]; cbn [throw_none obind]; [|exact H]. destruct (nth_error _ i); [reflexivity|exact H].
  - exact H.
Qed.
Lemma sstep_splits s c : exists l, s_splits (fst (sstep s c)) = s_splits s ++ l /\ forall t, s_loops s = s_loops t -> s_splits (fst (sstep t c)) = s_splits t ++ l.
Proof.
  destruct c as [lv f|lvs|lv x|x y xo yo xi yi xf yf]; cbn [sstep].
  - unfold split_obj. destruct (f =? 0); [exists []; split; [now rewrite app_nil_r|intros; now rewrite app_nil_r]|]. cbv zeta. cbn [s_loops s_splits].
    eexists. split; [destruct (index_of _ _) as [i|]; [destruct (nth_error _ i)|]; reflexivity|]. intros t Ht. rewrite <- Ht. destruct (index_of _ _) as [i|]; [destruct (nth_error _ i)|]; reflexivity.
  - exists []. rewrite app_nil_r. unfold reorder_obj. split; [|intros t Ht; rewrite app_nil_r, <- Ht]; destruct (indices_of _ _); reflexivity.
  - exists []. rewrite app_nil_r. unfold exec_obj, set_exec. split; [|intros t Ht; rewrite app_nil_r, <- Ht]; (destruct (index_of _ _) as [i|]; cbn [throw_none obind]; [destruct (nth_error _ i)|]; reflexivity).
  - exists []. rewrite app_nil_r. split; [reflexivity|]. intros. now rewrite app_nil_r.
Qed.
Fixpoint strays (s : schedule) (cs : list scall) : nat :=
  match cs with [] => 0%nat | c :: r => ((match snd (sstep s c), c with Throw RuntimeErr, SSplit _ _ => 1 | _, _ => 0 end) + strays (fst (sstep s c)) r)%nat end.
Lemma outcome_tt (o : outcome unit) : (exists e, o = Throw e) \/ o = Done tt.
Proof. destruct o as [[]|e]; eauto. Qed.
Lemma session_split cs : forall s t, s_loops s = s_loops t -> exists su, urun t (returned s cs) = Done su /\ s_loops (session s cs) = s_loops su /\
  (length (s_splits (session s cs)) + length (s_splits t) = length (s_splits su) + length (s_splits s) + strays s cs)%nat.
Proof.
  induction cs as [|c cs IH]; intros s t H; [exists t; cbn; repeat split; auto; lia|].
  destruct (sstep_loops s t c H) as (H1 & H2). destruct (sstep_splits s c) as (l & H3 & H4). specialize (H4 t H).
  cbn [returned session fold_left strays]. change (fold_left (fun s c => fst (sstep s c)) cs (fst (sstep s c))) with (session (fst (sstep s c)) cs).
  destruct (outcome_tt (snd (sstep s c))) as [(e & Eo)|Eo]; rewrite Eo.
  - assert (Et : s_loops (fst (sstep s c)) = s_loops t).
    { destruct (sstep s c) as [s1 o] eqn:Es. cbn in Eo. subst o. cbn [fst]. destruct (sstep_throw s c s1 e Es) as [->|(lv & f & _ & _ & _ & _ & ->)]; cbn; exact H. }
    destruct (IH (fst (sstep s c)) t Et) as (su & Hu & Hl & Hs). exists su. split; [exact Hu|]. split; [exact Hl|].
    assert (Hn : (length (s_splits (fst (sstep s c))) = length (s_splits s) + match e, c with RuntimeErr, SSplit _ _ => 1 | _, _ => 0 end)%nat).
    { destruct (sstep s c) as [s1 o] eqn:Es. cbn in Eo. subst o. cbn [fst]. destruct (sstep_throw s c s1 e Es) as [->|(lv & f & -> & _ & _ & -> & ->)].
      - pose proof (sstep_outcome s c) as HO. rewrite Es in HO. cbn [snd] in HO. destruct c as [lv f|lvs|lv x|x y xo yo xi yi xf yf]; try (destruct e; lia).
        destruct (f =? 0) eqn:Ef; [injection HO as ->; lia|]. cbn [sstep] in Es. unfold split_obj in Es. rewrite Ef in Es. cbv zeta in Es. cbn [s_loops s_splits] in Es.
        destruct (index_of _ _) as [i|]; [discriminate|]. injection Es as Es _. apply (f_equal s_splits) in Es. cbn in Es. apply (f_equal (@length _)) in Es. rewrite app_length in Es. cbn in Es. lia.
      - cbn [s_splits]. rewrite app_length. cbn. lia. }
    rewrite Hn in Hs. destruct e; destruct c; lia.
  - assert (Ht : sstep t c = (fst (sstep t c), Done tt)) by (rewrite H1 in Eo; rewrite <- Eo; apply surjective_pairing).
    destruct (proj1 (sstep_pure t c _) Ht) as (u & Hp & Hu). rewrite Hp. cbn [urun]. rewrite Hu. cbn [obind].
    destruct (IH (fst (sstep s c)) (fst (sstep t c)) H2) as (su & Hsu & Hl & Hs). exists su. split; [exact Hsu|]. split; [exact Hl|].
    rewrite H3, H4, !app_length in Hs. lia.
Qed.
Lemma no_stray_zero cs : forall s, no_stray s cs <-> strays s cs = 0%nat.
Proof.
  induction cs as [|c cs IH]; intros s; cbn [no_stray strays]; [tauto|]. rewrite IH.
  assert (HX : is_stray s c <-> match snd (sstep s c), c with Throw RuntimeErr, SSplit _ _ => 1%nat | _, _ => 0%nat end = 1%nat).
  { pose proof (C55_exceptions s c) as HE. destruct c as [lv f|lvs|lv x|x y xo yo xi yi xf yf]; cbn [is_stray].
    - destruct HE as (_ & HE & _). rewrite <- HE. destruct (snd (sstep s (SSplit lv f))) as [[]|[]]; split; congruence.
    - destruct (snd _) as [[]|[]]; split; try contradiction; discriminate.
    - destruct (snd _) as [[]|[]]; split; try contradiction; discriminate.
    - destruct (snd _) as [[]|[]]; split; try contradiction; discriminate. }
  rewrite HX. destruct (snd (sstep s c)) as [[]|[]], c; lia.
Qed.
(* the loops are those made by the calls that returned, and one split record too many is left by each stray call; so the
   schedule is that of the calls that returned exactly if no call was stray *)
Theorem C55_session : forall s cs, exists su, urun s (returned s cs) = Done su /\ s_loops (session s cs) = s_loops su /\
  (length (s_splits (session s cs)) = length (s_splits su) + strays s cs)%nat /\ (session s cs = su <-> no_stray s cs).
Proof.
  intros s cs. destruct (session_split cs s s eq_refl) as (su & H1 & H2 & H3). exists su. split; [exact H1|]. split; [exact H2|]. split; [lia|]. rewrite no_stray_zero. split.
  - intros Hs. rewrite Hs in H3. lia.
  - clear H2. intros H0. revert s su H1 H0 H3. induction cs as [|c cs IH]; intros s su H1 H0 H3; [cbn in H1; injection H1 as <-; reflexivity|].
    cbn [returned session fold_left strays] in *. change (fold_left (fun s c => fst (sstep s c)) cs (fst (sstep s c))) with (session (fst (sstep s c)) cs) in *.
    destruct (outcome_tt (snd (sstep s c))) as [(e & Eo)|Eo]; rewrite Eo in *.
    + assert (Et : fst (sstep s c) = s).
      { eapply (C55_unchanged_partial s c _ e); [rewrite <- Eo; apply surjective_pairing|]. intros lv f ->. destruct (Z.eq_dec f 0) as [|Hf]; [now left|right].
        destruct (index_of (lv_name lv) (s_loops s)) as [i|] eqn:Ei; [apply index_of_some; eauto|]. rewrite sstep_outcome in Eo. rewrite (proj2 (Z.eqb_neq f 0) Hf), Ei in Eo.
        injection Eo as <-. cbn in H0. lia. }
      rewrite Et in *. apply IH; auto; lia.
    + assert (Ht : sstep s c = (fst (sstep s c), Done tt)) by (rewrite <- Eo; apply surjective_pairing).
      destruct (proj1 (sstep_pure s c _) Ht) as (u & Hp & Hu). rewrite Hp in H1. cbn [urun] in H1. rewrite Hu in H1. cbn [obind] in H1. apply IH; auto.
      destruct (session_split cs (fst (sstep s c)) (fst (sstep s c)) eq_refl) as (su' & Q1 & _ & Q3). rewrite H1 in Q1. injection Q1 as <-. lia.
Qed.
Print Assumptions C55_session.
(* hence C10 survives exceptions: after any such session without stray calls whose returned calls are legal in the sense of C10,
   the kernel computes what the automatic schedule computes *)
Theorem C55_kernel_partial : forall (L : lang) b g a E fs f fd k s kern k1 scoped gp lo ls (m ms : store L) fl cs k' kern' k1',
  lang_ok L -> b <> CUDA -> reach g -> valid g a -> fits L g a ->
  convert g a = Done (E, fs) -> In f fs -> E f = Some fd -> gen b g E fd k = Done (s, kern, k1) -> kernel_memory g f fd lo ls m ->
  run (bind_params (k_params kern) (lo :: ls)) (exec L scoped gp (pty_of (k_params kern)) (k_body kern) [[]]) m = (ms, OkO fl) ->
  let su := session (sched_init fd) cs in
  no_stray (sched_init fd) cs -> ulegals (sched_init fd) (returned (sched_init fd) cs) -> tail_ok su -> split_fits L su ->
  codegen g E (func_args (f_expr fd)) fd su k' = Done (kern', k1') ->
  exists mu fl', run (bind_params (k_params kern') (lo :: ls)) (exec L scoped gp (pty_of (k_params kern')) (k_body kern') [[]]) m = (mu, OkO fl') /\
    forall x, mu x = ms x.
Proof.
  intros L b g a E fs f fd k s kern k1 scoped gp lo ls m ms fl cs k' kern' k1' HL Hb Hr Ha Hf Hcv Hin HE HG HM HR su HN HU HT HS HC.
  destruct (C55_session (sched_init fd) cs) as (su' & H1 & _ & _ & H2). apply H2 in HN. fold su in HN. subst su'.
  eapply C10_user_schedule_partial; eauto.
Qed.
Print Assumptions C55_kernel_partial.

(* -x for x = [1, 2, 3, 4] *)
Definition ex4 : graph := Prog.prog [CArray (Nest [Leaf (NInt 1); Leaf (NInt 2); Leaf (NInt 3); Leaf (NInt 4)]); CUnary UNeg 0].
Definition ex4Mem : store (py_lang no_libm) := fun l => match l with 0%nat => Some (map PI [0; 0; 0; 0]) | 1%nat => Some (map PI [1; 2; 3; 4]) | _ => None end.
Definition ax4 := mkLV (NLoop false 0 []) 4.
Definition after_session (g : graph) (a : nat) (m : store (py_lang no_libm)) (cs : list scall) : option (option (list (val (py_lang no_libm)))) :=
  match convert g a with
  | Done (E, _) => match E a with
    | Some fd => match codegen g E (func_args (f_expr fd)) fd (session (sched_init fd) cs) 0 with
        | Done (kern, _) => match run (bind_params (k_params kern) [0; 1]%nat) (exec (py_lang no_libm) false (fun _ _ => 0) (pty_of (k_params kern)) (k_body kern) [[]]) m with
                            | (m', OkO _) => Some (m' 0%nat) | (_, _) => Some None end
        | _ => None end
    | None => None end
  | _ => None end.
(* the claim is false: split(i, 2), then by mistake split(i, 3) of the loop that no longer exists, which raises RuntimeError; the
   kernel generated afterwards never computes the third element, and with split(i, 4) it writes outside the array *)
Theorem C55_failed_split_refuted : reach ex4 /\ valid ex4 1 /\
  after_session ex4 1 ex4Mem [SSplit ax4 2] = Some (Some (map PI [-1; -2; -3; -4])) /\
  after_session ex4 1 ex4Mem [SSplit ax4 2; SSplit ax4 3] = Some (Some (map PI [-1; -2; 0; -4])) /\
  after_session ex4 1 ex4Mem [SSplit ax4 2; SSplit ax4 4] = Some None /\
  forall s f, s = mkS [mkLS ax4 Spatial XSeq] [] -> (f = 3 \/ f = 4) -> snd (sstep (fst (sstep s (SSplit ax4 2))) (SSplit ax4 f)) = Throw RuntimeErr.
Proof.
  split; [apply prog_reach|]. split; [vm_compute; lia|]. split; [vm_compute; reflexivity|]. split; [vm_compute; reflexivity|]. split; [vm_compute; reflexivity|].
  intros s f -> [->| ->]; vm_compute; reflexivity.
Qed.
Print Assumptions C55_failed_split_refuted.
(* a session with exceptions (unknown loops in reorder and vectorize, factor 0, tile) that keeps the schedule *)
Example C55_nonvacuous : exists E fd, let outer := mkLV (NLoop false 0 [true]) 2 in let inner := mkLV (NLoop false 0 [false]) 2 in
  let cs := [SExec (mkLV (NLoop false 7 []) 1) XVec; SSplit ax4 2; SSplit outer 0; SReorder [ax4; outer]; STile outer inner outer inner outer inner 2 2; SReorder [outer; inner]; SExec ax4 XPar] in
  convert ex4 1 = Done (E, [1%nat]) /\ E 1%nat = Some fd /\ no_stray (sched_init fd) cs /\ returned (sched_init fd) cs = [USplit ax4 2; UReorder [outer; inner]] /\
  ulegals (sched_init fd) (returned (sched_init fd) cs) /\ tail_ok (session (sched_init fd) cs) /\ split_fits (py_lang no_libm) (session (sched_init fd) cs) /\
  after_session ex4 1 ex4Mem cs = Some (Some (map PI [-1; -2; -3; -4])).
Proof.
  eexists _, _. cbn zeta. split; [vm_compute; reflexivity|]. split; [vm_compute; reflexivity|]. split; [apply no_stray_zero; vm_compute; reflexivity|].
  assert (HR : forall s, s = mkS [mkLS ax4 Spatial XSeq] [] ->
    returned s [SExec (mkLV (NLoop false 7 []) 1) XVec; SSplit ax4 2; SSplit (mkLV (NLoop false 0 [true]) 2) 0; SReorder [ax4; mkLV (NLoop false 0 [true]) 2];
      STile (mkLV (NLoop false 0 [true]) 2) (mkLV (NLoop false 0 [false]) 2) (mkLV (NLoop false 0 [true]) 2) (mkLV (NLoop false 0 [false]) 2) (mkLV (NLoop false 0 [true]) 2) (mkLV (NLoop false 0 [false]) 2) 2 2;
      SReorder [mkLV (NLoop false 0 [true]) 2; mkLV (NLoop false 0 [false]) 2]; SExec ax4 XPar] = [USplit ax4 2; UReorder [mkLV (NLoop false 0 [true]) 2; mkLV (NLoop false 0 [false]) 2]]).
  { intros s ->. vm_compute. reflexivity. }
  split; [apply HR; vm_compute; reflexivity|]. rewrite HR by (vm_compute; reflexivity). split.
  { cbn [ulegals_x]. split; [split; [lia|split; [left; reflexivity|exists 0%nat; reflexivity]]|]. intros s1 H1. vm_compute in H1. injection H1 as <-.
    split; [split; [repeat constructor; cbn; intuition discriminate|left; apply Forall_forall; intros y Hy; cbn in Hy; destruct Hy as [<-|[<-|[]]]; cbn; auto]|]. intros; exact I. }
  split; [intros x Hx Hg; vm_compute in Hx; destruct Hx as [<-|[]]; discriminate Hg|]. split; [intros x Hx; vm_compute in Hx; destruct Hx as [<-|[]]; vm_compute; reflexivity|]. vm_compute. reflexivity.
Qed.
