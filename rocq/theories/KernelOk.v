(* A whole CPU kernel: loops around the rendered expression and the store. *)
From Verif Require Import Base BaseFacts Util UtilFacts Lang Spec Graph Denote DenoteFacts Reach Algo AlgoSem AlgoConv AlgoFuse2 Kernel Sched Codegen KernFacts RenderFacts.

Section KernelOk.
Context (L : lang) (HL : lang_ok L) (scoped : bool) (gp : bool -> axis -> Z) (pty : name -> dtype).
Notation V := (val L).
Context (inp : name -> option (list V)).
Context (g : graph) (E : fenv) (args : list arg).
Context (shp : nat -> list Z) (F : nat -> list Z -> res V).
Notation exec := (exec L scoped gp pty).
Notation evals := (evals L inp).
Notation lk := (lk L).
Notation evolve := (evolve L).
Notation undecl := (undecl L scoped).
Notation unt := (unt L scoped).
Notation envrel := (envrel L).
Notation agree := (agree L).
Context (HN : nodes_ok g E args shp) (HI : inputs_ok L inp args shp F).

(* ---------------------------------------------------------------- reduction loops *)
Definition nest (red : list lidx) (body : code) : code := fold_right (fun l body => CFor (lname l) (l_ext l) XSeq body CNil) body red.
Definition redset (k k1 : nat) (red : list lidx) (n : name) : Prop := tmps k k1 n \/ n = NAcc \/ exists l, In l red /\ n = lname l.

Section Red.
Context (P : lidx -> Prop) (Hinj : forall l l', P l -> P l' -> lname l = lname l' -> l = l').
Context (ic : nat -> Prop) (lim : nat) (dt : dtype) (x : expr) (k k1 : nat) (c : code) (v : kx).
Context (HW : wfe shp ic lim P x) (HV : valspec L scoped gp pty inp shp F dt x k c v k1).
Let body := capp c (CAssign NAcc (KBin BAdd (KName NAcc) v) CNil).

Lemma envrel_bind l z ρ r : P l -> r <> [] -> envrel P ρ r -> envrel P (ibind l z ρ) (bind_loop L scoped r (lname l) z).
Proof.
  intros Hl Hr H l' z' Hl' Hz. unfold ibind in Hz. rewrite lk_bind_loop by assumption.
  destruct (lidx_eqb l l') eqn:El.
  - apply lidx_eqb_eq in El. subst. injection Hz as <-. rewrite name_eqb_refl. do 2 eexists. split; [reflexivity|]. apply (ok_lit _ HL).
  - destruct (name_eqb (lname l) (lname l')) eqn:En.
    + apply name_eqb_eq in En. apply Hinj in En; auto. subst. rewrite lidx_eqb_refl in El. discriminate.
    + now apply H.
Qed.
Lemma envrel_evolve red ρ r r' : (forall l, In l red -> P l) -> (forall l, In l red -> ρ l = None) ->
  evolve (redset k k1 red) r r' -> envrel P ρ r -> envrel P ρ r'.
Proof.
  intros HP Hn HE H l z Hl Hz. destruct (H l z Hl Hz) as (d & w & H1 & H2). exists d, w. split; auto.
  rewrite <- H1. eapply lk_evolve; eauto. intros [Ht|[Ht|(l' & Hl' & He)]]; [exact Ht|discriminate|].
  apply Hinj in He; auto. subst. rewrite Hn in Hz by assumption. discriminate.
Qed.

Lemma nest_ok red : NoDup red -> (forall l, In l red -> P l) -> forall ρ r acc, r <> [] -> envrel P ρ r -> (forall l, In l red -> ρ l = None) ->
  unt k r -> lk r NAcc = Some (dt, acc) ->
  match sum_loops L dt red (evalV L shp F dt x) ρ acc with
  | Ok acc' => exists r', ev inp (exec (nest red body) r) = ([], OkO (FNorm, r')) /\ evolve (redset k k1 red) r r' /\
                 lk r' NAcc = Some (dt, acc') /\ (undecl r NAcc -> undecl r' NAcc)
  | Raise => ev inp (exec (nest red body) r) = ([], RaiseO)
  | Fault => True
  end.
Proof using All.
  induction red as [|l red IH]; intros HND HP ρ r acc Hr Henv Hn Hu Hacc.
  - cbn [nest fold_right sum_loops]. destruct HV as [Hk S1]. specialize (S1 ic lim P r ρ HW Hr Henv Hu).
    destruct (evalV L shp F dt x ρ) as [w| |]; cbn [rbind]; auto; [|now apply exec_capp_raise].
    destruct S1 as (r1 & X1 & V1 & A1).
    assert (Hacc1 : lk r1 NAcc = Some (dt, acc)). { rewrite <- Hacc. eapply evolve_agree; eauto. exact I. }
    assert (Ha : evals r1 (KName NAcc) acc) by (eapply evals_name; eauto).
    assert (Hv : evals r1 v w) by (apply A1; apply agree_refl).
    unfold op2. destruct (bin L BAdd acc w) as [s|] eqn:Eb; cbn [of_opt rbind].
    + destruct (upd_ok L r1 NAcc dt _ s Hacc1) as (r2 & U1 & U2 & U3 & U4).
      exists r2. split; [|split; [|split]].
      * unfold body. rewrite (exec_capp_norm _ _ _ _ _ _ _ _ _ X1).
        rewrite (exec_assign _ _ _ _ _ _ _ _ _ _ _ (evals_bin _ _ _ _ _ _ _ _ _ Ha Hv Eb) U1). reflexivity.
      * eapply evolve_trans; eapply evolve_mono; [|exact V1| |exact U2].
        { intros n H. left. exact H. } { intros n <-. right. now left. }
      * exact U3.
      * intros Hud Hs. assert (Hud1 : undecl r1 NAcc) by (eapply undecl_evolve; eauto). specialize (Hud1 Hs).
        destruct U4; auto. cbn in *. eapply flook_feq_none; eauto.
    + unfold body. rewrite (exec_capp_norm _ _ _ _ _ _ _ _ _ X1). apply exec_assign_raise. eapply eval_bin_raise; eauto.
  - inversion HND as [|? ? Hl HND']; subst. rewrite sum_loops_cons.
    assert (HPl : P l) by (apply HP; now left).
    set (fbody := fun z a => sum_loops L dt red (evalV L shp F dt x) (ibind l z ρ) a).
    assert (GL : forall zs r acc, r <> [] -> envrel P ρ r -> unt k r -> lk r NAcc = Some (dt, acc) ->
      match sum_it L dt fbody zs acc with
      | Ok acc' => exists r', ev inp (for_loop L scoped (exec (nest red body)) (lname l) zs r) = ([], OkO (FNorm, r')) /\
                     evolve (redset k k1 (l :: red)) r r' /\ lk r' NAcc = Some (dt, acc') /\ (undecl r NAcc -> undecl r' NAcc)
      | Raise => ev inp (for_loop L scoped (exec (nest red body)) (lname l) zs r) = ([], RaiseO)
      | Fault => True
      end).
    { clear Hu Hacc Henv Hr r acc. induction zs as [|z zs IHz]; intros r acc Hr Henv Hu Hacc; cbn [sum_it for_loop].
      - exists r. split; [reflexivity|]. split; [now apply evolve_refl|]. auto.
      - assert (Hr1 : bind_loop L scoped r (lname l) z <> []) by now apply bind_loop_nonempty.
        specialize (IH HND' ltac:(intros; apply HP; now right) (ibind l z ρ) (bind_loop L scoped r (lname l) z) acc Hr1).
        specialize (IH ltac:(now apply envrel_bind)).
        assert (Hn' : forall l0, In l0 red -> ibind l z ρ l0 = None).
        { intros l0 Hl0. unfold ibind. destruct (lidx_eqb l l0) eqn:El; [apply lidx_eqb_eq in El; subst; tauto|]. apply Hn. now right. }
        specialize (IH Hn' ltac:(intros j Hj; apply undecl_bind_loop; discriminate)).
        rewrite lk_bind_loop in IH by assumption. specialize (IH Hacc). unfold fbody at 1.
        destruct (sum_loops L dt red _ (ibind l z ρ) acc) as [acc1| |]; cbn [rbind]; auto; [|now apply ev_bind_raise].
        destruct IH as (r1 & X1 & V1 & K1 & D1).
        assert (V1' : evolve (redset k k1 (l :: red)) (bind_loop L scoped r (lname l) z) r1).
        { eapply evolve_mono; [|exact V1]. intros n [H|[H|(l' & Hl' & H)]]; [now left|right; now left|right; right; exists l'; split; auto; now right]. }
        assert (Hl0 : redset k k1 (l :: red) (lname l)) by (right; right; exists l; split; [now left|reflexivity]).
        assert (V2 : evolve (redset k k1 (l :: red)) r (leave L scoped r1)) by (eapply leave_bind_loop; eauto).
        assert (Hu1 : undecl r1 NAcc) by (apply D1; apply undecl_bind_loop; discriminate).
        rewrite (ev_bind_ok _ _ _ _ _ X1).
        specialize (IHz (leave L scoped r1) acc1).
        specialize (IHz ltac:(eapply evolve_nonempty; eauto)).
        specialize (IHz ltac:(eapply envrel_evolve; [| |exact V2|exact Henv]; auto)).
        specialize (IHz ltac:(intros j Hj; eapply leave_bind_dom; [exact Hr|exact V1'|now apply Hu])).
        rewrite lk_leave in IHz by assumption. specialize (IHz K1).
        destruct (sum_it L dt fbody zs acc1) as [acc2| |]; auto.
        destruct IHz as (r2 & X2 & W2 & K2 & D2). exists r2. split; [exact X2|]. split; [eapply evolve_trans; eauto|]. split; auto.
        intros Hud. apply D2. eapply leave_bind_dom; [exact Hr|exact V1'|exact Hud]. }
    specialize (GL (zrange (l_ext l)) r acc Hr Henv Hu Hacc).
    change (nest (l :: red) body) with (CFor (lname l) (l_ext l) XSeq (nest red body) CNil). cbn [Kernel.exec].
    destruct (sum_it L dt fbody (zrange (l_ext l)) acc) as [acc'| |]; auto; [|now apply ev_bind_raise].
    destruct GL as (r' & X & V' & K & D). exists r'. rewrite (ev_bind_ok _ _ _ _ _ X). auto.
Qed.
End Red.

(* ---------------------------------------------------------------- the expression of a kernel *)
(* names a kernel body may bind, spatial loops of position >= k0 included *)
Definition kset (k0 : nat) (n : name) : Prop :=
  match n with NTmp _ | NAcc => True | NLoop true _ _ => True | NLoop false p _ => (k0 <= p)%nat | _ => False end.

Lemma render_root ic a loops e : wff shp ic a loops e -> args_cover args e ->
  (forall l, In l loops -> l_own l = a /\ l_red l = false) -> (forall l l', In l loops -> In l' loops -> l_pos l = l_pos l' -> l = l') ->
  forall dt k, exists c v k1, render g E args e dt k = Done (c, v, k1) /\ (k <= k1)%nat /\
  forall r ρ K0, r <> [] -> envrel (fun l => In l loops) ρ r -> (forall l, ~ In l loops -> ρ l = None) -> unt k r -> undecl r NAcc ->
    match evalV L shp F dt e ρ with
    | Ok w => exists r', ev inp (exec c r) = ([], OkO (FNorm, r')) /\ evolve (kset K0) r r' /\ evals r' v w /\
                (forall n, (forall l, In l loops -> n = lname l -> lk r' n = lk r n))
    | Raise => ev inp (exec c r) = ([], RaiseO)
    | Fault => True
    end.
Proof using All.
  intros HW HC Hown Hpos dt k.
  assert (GV : forall P, wfe shp ic a P e -> (forall l, P l -> In l loops) -> exists c v k1, render g E args e dt k = Done (c, v, k1) /\ (k <= k1)%nat /\
    forall r ρ K0, r <> [] -> envrel (fun l => In l loops) ρ r -> (forall l, ~ In l loops -> ρ l = None) -> unt k r -> undecl r NAcc ->
    match evalV L shp F dt e ρ with
    | Ok w => exists r', ev inp (exec c r) = ([], OkO (FNorm, r')) /\ evolve (kset K0) r r' /\ evals r' v w /\
                (forall n, (forall l, In l loops -> n = lname l -> lk r' n = lk r n))
    | Raise => ev inp (exec c r) = ([], RaiseO)
    | Fault => True
    end).
  { intros P HWP HPl. destruct (render_val L HL scoped gp pty inp g E args shp F ic a P e HN HI HWP HC dt k) as (c & v & k1 & E1 & Hk & S1).
    exists c, v, k1. split; auto. split; auto. intros r ρ K0 Hr Henv Hn Hu Hua.
    specialize (S1 ic a P r ρ HWP Hr ltac:(intros l z Hl Hz; apply Henv; auto) Hu).
    destruct (evalV L shp F dt e ρ) as [w| |]; auto. destruct S1 as (r' & X1 & V1 & A1). exists r'. split; auto. split; [|split].
    - eapply evolve_mono; [|exact V1]. intros [| | | |]; cbn; tauto.
    - apply A1, agree_refl.
    - intros n l Hl ->. eapply evolve_agree; eauto. exact I. }
  destruct e; try (apply (GV (fun l => In l loops) HW); tauto).
  destruct HW as (HW & HND & HR). cbn [args_cover] in HC.
  set (P := fun l => In l loops \/ In l reduced) in *.
  destruct (render_val L HL scoped gp pty inp g E args shp F ic a P e HN HI HW HC dt k) as (c & v & k1 & E1 & S1).
  cbn [Codegen.render]. rewrite E1. cbn [obind]. do 3 eexists. split; [reflexivity|]. split; [apply S1|].
  rewrite Forall_forall in HR.
  assert (Hinj : forall l l', P l -> P l' -> lname l = lname l' -> l = l').
  { intros l l' Hl Hl' Heq. unfold lname in Heq. injection Heq as Hred Hp.
    destruct Hl as [Hl|Hl], Hl' as [Hl'|Hl'].
    - now apply Hpos.
    - destruct (Hown _ Hl) as (_ & H1). destruct (HR _ Hl') as (_ & H2 & _). congruence.
    - destruct (Hown _ Hl') as (_ & H1). destruct (HR _ Hl) as (_ & H2 & _). congruence.
    - clear - HND Hl Hl' Hp. induction reduced as [|y red IH]; [destruct Hl|]. cbn in HND. inversion HND as [|? ? Hn HND']; subst.
      destruct Hl as [->|Hl], Hl' as [->|Hl']; auto.
      + exfalso. apply Hn. rewrite Hp. now apply in_map.
      + exfalso. apply Hn. rewrite <- Hp. now apply in_map. }
  intros r ρ K0 Hr Henv Hn Hu Hua. cbn [evalV].
  destruct (declare_ok L scoped r NAcc dt (lit L 0) Hr Hua) as (r0 & D1 & D2 & D3).
  assert (Hr0 : r0 <> []) by (eapply evolve_nonempty; eauto).
  assert (HNR : NoDup reduced) by (eapply NoDup_map_inv; eauto).
  assert (Hnl : forall l, In l reduced -> ~ In l loops).
  { intros l Hl Hl2. destruct (HR _ Hl) as (_ & H1 & _). destruct (Hown _ Hl2) as (_ & H2). congruence. }
  assert (Henv0 : envrel P ρ r0).
  { intros l z Hl Hz. destruct Hl as [Hl|Hl]; [|rewrite Hn in Hz by auto; discriminate].
    destruct (Henv l z Hl Hz) as (d & w & H1 & H2). exists d, w. split; auto. rewrite <- H1. eapply lk_evolve; eauto. discriminate. }
  pose proof (nest_ok P Hinj ic a dt e k k1 c v HW S1 reduced HNR ltac:(intros; now right) ρ r0 (coerce L dt (lit L 0)) Hr0 Henv0) as HG.
  specialize (HG ltac:(intros l Hl; apply Hn; auto)).
  specialize (HG ltac:(intros j Hj; eapply undecl_evolve; [exact D2|discriminate|]; auto) D3).
  rewrite (exec_decl _ _ _ _ _ _ _ _ _ _ _ _ (evals_int _ _ _ _) D1). fold (nest reduced (capp c (CAssign NAcc (KBin BAdd (KName NAcc) v) CNil))).
  destruct (sum_loops L dt reduced _ ρ _) as [w| |]; auto.
  destruct HG as (r' & X & V' & K & _). exists r'. split; [exact X|]. split; [|split].
  - eapply evolve_trans; eapply evolve_mono; [|exact D2| |exact V'].
    + intros n <-. exact I.
    + intros n [H|[->|(l & Hl & ->)]]; [destruct n; cbn in *; tauto|exact I|]. destruct (HR _ Hl) as (_ & H & _). unfold lname. rewrite H. exact I.
  - eapply evals_name; eauto.
  - intros n l Hl ->. transitivity (lk r0 (lname l)).
    + eapply lk_evolve; [exact V'|]. intros [H|[H|(l' & Hl' & H)]]; [exact H|discriminate|].
      apply Hinj in H; [|now left|now right]. subst. apply (Hnl l'); auto.
    + eapply lk_evolve; [exact D2|discriminate].
Qed.

(* ---------------------------------------------------------------- spatial loops and the store *)
(* loop variables 0..n-1 hold the first n coordinates *)
Definition posenv (pre : list Z) (r : env L) : Prop :=
  forall k z, nth_error pre k = Some z -> exists dt v, lk r (NLoop false k []) = Some (dt, v) /\ (inB L z -> reps L v z).
Lemma posenv_envrel a s idx r : in_range s idx -> posenv idx r -> envrel (fun l => In l (out_loops a s)) (lenv a s idx) r.
Proof.
  intros Hi H l z Hl Hz. unfold lenv in Hz. apply ibinds_inv in Hz as (k & H1 & H2). rewrite nth_error_out_loops in H1.
  destruct (nth_error s k); [|discriminate]. injection H1 as <-. apply (H k z H2).
Qed.

(* writes of a sequence of iterations: one store per index until one raises *)
Fixpoint wseq (s : list Z) (f : list Z -> res V) (is : list (list Z)) : list (wr L) * outc unit :=
  match is with
  | [] => ([], OkO tt)
  | i :: is' => match f i with
                | Ok v => let '(w, o) := wseq s f is' in ((NOut, flat s i, v) :: w, o)
                | Raise => ([], RaiseO)
                | Fault => ([], FaultO)
                end
  end.
Lemma wseq_app s f is1 is2 : wseq s f (is1 ++ is2) = ebind (wseq s f is1) (fun _ => wseq s f is2).
Proof.
  induction is1 as [|i is1 IH]; cbn; [now destruct (wseq s f is2)|]. destruct (f i); cbn; auto. rewrite IH.
  destruct (wseq s f is1) as [w [u| |]]; cbn; auto. now destruct (wseq s f is2).
Qed.

Section Body.
Context (a : nat) (s : list Z) (Hs : ltB L (zprod s)) (ic : nat -> Prop) (e : expr) (dt : dtype) (k k1 : nat) (c : code) (v : kx) (f : list Z -> res V).
Let loops := out_loops a s.
Context (HW : wff shp ic a loops e) (HC : args_cover args e) (Hren : render g E args e dt k = Done (c, v, k1)).
Context (Hval : forall idx, in_range s idx -> (v <- evalV L shp F dt e (lenv a s idx) ;; Ok (coerce L (pty NOut) v)) = f idx).
Definition kbody : code := capp c (CStore NOut (arr_idx_calc s (map (fun l => KName (lname l)) loops)) v CNil).

Lemma body_ok idx r K0 : in_range s idx -> r <> [] -> posenv idx r -> unt k r -> undecl r NAcc ->
  match f idx with
  | Ok w => exists r', ev inp (exec kbody r) = ([(NOut, flat s idx, w)], OkO (FNorm, r')) /\ evolve (kset K0) r r'
  | Raise => ev inp (exec kbody r) = ([], RaiseO)
  | Fault => True
  end.
Proof using All.
  intros Hi Hr Hpe Hu Hua.
  destruct (render_root ic a loops e HW HC) with (dt := dt) (k := k) as (c' & v' & k1' & E1 & Hk & S1).
  { intros l Hl. apply out_loops_in in Hl. tauto. }
  { intros l l' Hl Hl' Hp. apply In_nth_error in Hl as [i Hl]. apply In_nth_error in Hl' as [j Hl']. unfold loops in *.
    rewrite nth_error_out_loops in Hl, Hl'. destruct (nth_error s i) eqn:Ei; [|discriminate]. destruct (nth_error s j) eqn:Ej; [|discriminate].
    injection Hl as <-. injection Hl' as <-. cbn in Hp. subst. congruence. }
  rewrite Hren in E1. injection E1 as <- <- <-.
  specialize (S1 r (lenv a s idx) K0 Hr (posenv_envrel a s idx r Hi Hpe)).
  specialize (S1 ltac:(intros l Hl; unfold lenv; rewrite ibinds_other; auto) Hu Hua).
  rewrite <- (Hval idx Hi). destruct (evalV L shp F dt e (lenv a s idx)) as [w| |] eqn:Ef; cbn [rbind]; auto; [|unfold kbody; now apply exec_capp_raise].
  destruct S1 as (r' & X & V' & Hv & Hsame). exists r'. split; auto.
  unfold kbody. rewrite (exec_capp_norm _ _ _ _ _ _ _ _ _ X).
  assert (HF : Forall2 (isval L inp r') (map (fun l => KName (lname l)) loops) idx).
  { apply Forall2_of_nth.
    - unfold loops. rewrite map_length, out_loops_length. symmetry. now apply in_range_length.
    - intros j x z Hx Hz. rewrite nth_error_map in Hx. destruct (nth_error loops j) as [l|] eqn:El; [|discriminate]. injection Hx as <-.
      pose proof (nth_error_In _ _ El) as Hin. unfold loops in El. rewrite nth_error_out_loops in El.
      destruct (nth_error s j) eqn:Ej; [|discriminate]. injection El as <-.
      destruct (Hpe j z Hz) as (d & u & H1 & H2). exists u. split.
      + eapply evals_name. rewrite (Hsame _ _ Hin eq_refl). exact H1.
      + apply H2. pose proof (idx_inB L s idx Hi Hs) as HB. rewrite Forall_forall in HB. apply HB. eapply nth_error_In; eauto. }
  destruct (arr_idx_ok L HL scoped gp inp F r' s idx _ Hi Hs HF) as (u & U1 & U2). pose proof (flat_bounds _ _ Hi).
  erewrite exec_store; [|exact Hv|exact U1|eapply (ok_idx _ HL); [exact U2|apply inB_intro; [lia|eapply ltB_le; [exact Hs|lia]]]].
  reflexivity.
Qed.

(* loops of the CPU schedule: positions k0, k0+1, ... *)
Fixpoint forn (k0 : nat) (ls : list (Z * lexec)) (body : code) : code :=
  match ls with [] => body | (ext, x) :: r => CFor (NLoop false k0 []) ext x (forn (S k0) r body) CNil end.

Context (Hnf : forall idx, in_range s idx -> f idx <> Fault).
Lemma forn_ok ls : forall pre s1 r, s = s1 ++ map fst ls -> in_range s1 pre -> r <> [] -> posenv pre r -> unt k r -> undecl r NAcc ->
  match wseq s f (map (app pre) (all_idx (map fst ls))) with
  | (w, OkO _) => exists r', ev inp (exec (forn (length s1) ls kbody) r) = (w, OkO (FNorm, r')) /\ evolve (kset (length s1)) r r'
  | (w, RaiseO) => ev inp (exec (forn (length s1) ls kbody) r) = (w, RaiseO)
  | (_, FaultO) => False
  end.
Proof using All.
  induction ls as [|[ext x] ls IH]; intros pre s1 r Hs1 Hp Hr Hpe Hu Hua.
  - cbn [map all_idx forn]. rewrite app_nil_r in Hs1. subst s1. cbn [wseq]. rewrite app_nil_r.
    pose proof (body_ok pre r (length s) Hp Hr Hpe Hu Hua) as HB. destruct (f pre) eqn:Ef; auto. now apply (Hnf pre).
  - cbn [map all_idx forn fst]. cbn [Kernel.exec].
    assert (GL : forall zs r, Forall (fun z => 0 <= z < ext) zs -> r <> [] -> posenv pre r -> unt k r -> undecl r NAcc ->
      match wseq s f (map (app pre) (flat_map (fun i => map (cons i) (all_idx (map fst ls))) zs)) with
      | (w, OkO _) => exists r', ev inp (for_loop L scoped (exec (forn (S (length s1)) ls kbody)) (NLoop false (length s1) []) zs r) = (w, OkO (FNorm, r')) /\ evolve (kset (length s1)) r r'
      | (w, RaiseO) => ev inp (for_loop L scoped (exec (forn (S (length s1)) ls kbody)) (NLoop false (length s1) []) zs r) = (w, RaiseO)
      | (_, FaultO) => False
      end).
    { clear r Hr Hpe Hu Hua. induction zs as [|z zs IHz]; intros r Hz Hr Hpe Hu Hua; cbn [flat_map map wseq for_loop].
      - exists r. split; [reflexivity|]. now apply evolve_refl.
      - inversion Hz as [|? ? Hz0 Hz']; subst. rewrite map_app, map_map, wseq_app.
        assert (Hpl : length pre = length s1) by now apply in_range_length.
        set (nm := NLoop false (length s1) []) in *. set (r0 := bind_loop L scoped r nm z).
        assert (Hp1 : posenv (pre ++ [z]) r0).
        { intros j y Hj. unfold r0. rewrite lk_bind_loop by assumption. destruct (name_eqb nm (NLoop false j [])) eqn:En.
          - apply name_eqb_eq in En. injection En as <-. rewrite nth_error_app2, Hpl, Nat.sub_diag in Hj by lia. cbn in Hj. injection Hj as <-.
            do 2 eexists. split; [reflexivity|]. apply (ok_lit _ HL).
          - destruct (Nat.lt_ge_cases j (length pre)) as [Hlt|Hge].
            + rewrite nth_error_app1 in Hj by assumption. now apply Hpe.
            + rewrite nth_error_app2 in Hj by assumption. destruct (j - length pre)%nat as [|j'] eqn:Ej; [|destruct j'; discriminate].
              exfalso. assert (j = length s1) by lia. subst j. unfold nm in En. rewrite name_eqb_refl in En. discriminate. }
        specialize (IH (pre ++ [z]) (s1 ++ [ext]) r0).
        specialize (IH ltac:(rewrite Hs1, <- app_assoc; reflexivity)).
        specialize (IH ltac:(apply Forall2_app; [exact Hp|constructor; [lia|constructor]])).
        specialize (IH ltac:(now apply bind_loop_nonempty) Hp1).
        specialize (IH ltac:(intros j Hj; apply undecl_bind_loop; discriminate) ltac:(apply undecl_bind_loop; discriminate)).
        rewrite app_length in IH. cbn [length] in IH. rewrite Nat.add_1_r in IH.
        rewrite (map_ext (fun y => pre ++ z :: y) (app (pre ++ [z]))) by (intros y; rewrite <- app_assoc; reflexivity).
        destruct (wseq s f (map (app (pre ++ [z])) (all_idx (map fst ls)))) as [w1 [u| |]]; [|rewrite ev_bind, IH; reflexivity|contradiction].
        destruct IH as (r1 & X1 & V1).
        assert (V1' : evolve (kset (length s1)) r0 r1).
        { eapply evolve_mono; [|exact V1]. intros n Hn. destruct n as [| | | |[|] p q]; cbn in *; auto. lia. }
        assert (V2 : evolve (kset (length s1)) r (leave L scoped r1)).
        { eapply leave_bind_loop; [exact Hr| |exact V1']. cbn. lia. }
        specialize (IHz (leave L scoped r1) Hz' ltac:(eapply evolve_nonempty; eauto)).
        assert (Hpe2 : posenv pre (leave L scoped r1)).
        { intros j y Hj. destruct (Hpe j y Hj) as (d & w & H1 & H2). exists d, w. split; auto. rewrite <- H1.
          eapply lk_evolve; [exact V2|]. cbn. assert (j < length pre)%nat by (apply nth_error_Some; congruence). lia. }
        specialize (IHz Hpe2 ltac:(intros j Hj; eapply leave_bind_dom; [exact Hr|exact V1'|now apply Hu])
                        ltac:(eapply leave_bind_dom; [exact Hr|exact V1'|exact Hua])).
        rewrite ev_bind, X1. cbn [ebind].
        destruct (wseq s f (map (app pre) (flat_map _ zs))) as [w2 [u2| |]]; [|now rewrite IHz|contradiction].
        destruct IHz as (r2 & X2 & W2). rewrite X2. exists r2. split; [reflexivity|]. eapply evolve_trans; eauto. }
    specialize (GL (zrange ext) r ltac:(apply Forall_forall; intros z Hz; now apply in_zrange in Hz) Hr Hpe Hu Hua).
    destruct (wseq s f (map (app pre) _)) as [w [u| |]]; [|rewrite ev_bind, GL; reflexivity|contradiction].
    destruct GL as (r' & X & V'). exists r'. split; auto. rewrite ev_bind, X. cbn. now rewrite app_nil_r.
Qed.

Theorem nest_kernel ls : map fst ls = s ->
  match wseq s f (all_idx s) with
  | (w, OkO _) => exists r', ev inp (exec (forn 0 ls kbody) [[]]) = (w, OkO (FNorm, r'))
  | (w, RaiseO) => ev inp (exec (forn 0 ls kbody) [[]]) = (w, RaiseO)
  | (_, FaultO) => False
  end.
Proof using All.
  intros Hls. pose proof (forn_ok ls [] [] [[]]) as H. cbn [app length] in H.
  specialize (H (eq_sym Hls) (Forall2_nil _) ltac:(discriminate) ltac:(intros j z Hj; destruct j; discriminate)).
  specialize (H ltac:(intros j _ _; reflexivity) ltac:(intros _; reflexivity)).
  rewrite map_id, Hls in H. destruct (wseq s f (all_idx s)) as [w [u| |]]; auto. destruct H as (r' & H & _). eauto.
Qed.
End Body.
End KernelOk.
