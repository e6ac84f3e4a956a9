(* Effect of a CPU kernel on memory; freedom from faults does not depend on element values. *)
From Verif Require Import Base BaseFacts Util UtilFacts Lang Spec Graph Api Denote SpecFacts DenoteFacts Reach
  Algo AlgoSem AlgoConv AlgoConv2 AlgoFuse AlgoFuse2 AlgoConvert AlgoConvert2
  Kernel Sched Codegen KernFacts RenderFacts KernelOk RunFacts SchedFacts KernelRun.

Section Run.
Context (L : lang) (HL : lang_ok L) (scoped : bool) (gp : bool -> axis -> Z).
Notation V := (val L).
Context (g : graph) (Hw : wf_graph g) (E : fenv) (f : nat) (fd : func) (nd : node) (HK : kctx g E f fd nd).
Let e := f_expr fd.
Let args := func_args e.
Let shp := shape_of g.
Context (HB : ltB L (zprod (n_shape nd))) (F : nat -> list Z -> res V).

(* what the kernel stores at idx *)
Definition kval (idx : list Z) : res V :=
  v <- evalV L shp F (n_dtype nd) e (lenv f (n_shape nd) idx) ;; Ok (coerce L (n_dtype nd) v).
Context (Hnf : forall idx, in_range (n_shape nd) idx -> kval idx <> Fault).

Theorem kernel_ev s k kern k1 lo ls inp :
  schedule_cpu (sched_init fd) = Done s -> codegen g E args fd s k = Done (kern, k1) -> length ls = length args ->
  (forall i x l, nth_error args i = Some x -> nth_error ls i = Some l -> ltB L (zprod (shp (arg_id x))) /\
     exists vs, (forall nm, bind_params (k_params kern) (lo :: ls) nm = Some l -> nm <> NOut -> inp nm = Some vs) /\ filled L (shp (arg_id x)) (F (arg_id x)) vs) ->
  match wseq L (n_shape nd) kval (all_idx (n_shape nd)) with
  | (w, OkO _) => exists r', ev inp (exec L scoped gp (pty_of (k_params kern)) (k_body kern) [[]]) = (w, OkO (FNorm, r'))
  | (w, RaiseO) => ev inp (exec L scoped gp (pty_of (k_params kern)) (k_body kern) [[]]) = (w, RaiseO)
  | (_, FaultO) => False
  end.
Proof using HL Hw HK HB Hnf.
  intros HS HC Hlen Hin.
  destruct (schedule_cpu_ok fd) as (s' & HS' & Hlv & Hsp & Hcpu). rewrite HS in HS'. injection HS' as <-.
  destruct (codegen_ok g Hw E f fd nd HK s k) as (ps & c & v & k1' & HC' & Hps & Hren).
  fold e args in HC'. rewrite HC in HC'. injection HC' as -> <-.
  rewrite Hsp. cbn [render_splits render_guards capp k_body k_params].
  unfold init_lvk in Hlv. rewrite (kc_fd g E f fd nd HK) in Hlv. cbn [f_loops f_expr] in Hlv.
  destruct (render_loops_forn _ _ _ _ _ (capp c (CStore NOut (arr_idx_calc (n_shape nd) (map (fun l => KName (lname l)) (out_loops f (n_shape nd)))) v CNil)) Hcpu Hlv) as (ls' & HR & Hm).
  rewrite HR. fold (kbody f (n_shape nd) c v).
  destruct (bind_kernel g Hw E f fd nd HK ps lo ls Hps Hlen) as (_ & Hpt & Hbk).
  apply (nest_kernel L HL scoped gp (pty_of ((NOut, n_dtype nd) :: ps)) inp g E args shp F) with (ic := isc g) (e := e) (dt := n_dtype nd) (k := k) (k1 := k1); auto.
  - apply (kc_nodes g Hw E f fd nd HK).
  - intros x nm Hnm. destruct (Hbk x nm Hnm) as (Hx & i & l & xd & H1 & H2 & H3 & H4 & H5).
    destruct (Hin i x l H1 H2) as (Hb & vs & Hvs & Hfl). split; auto. exists vs. split; auto. apply Hvs; auto.
    unfold arg_name in Hnm. destruct (arg_pos x args); [|discriminate]. cbn in Hnm. injection Hnm as <-. discriminate.
  - apply (kc_wff g E f fd nd HK).
  - eapply kc_cover; eauto.
Qed.

Theorem kernel_run s k kern k1 lo ls (m : store L) out :
  schedule_cpu (sched_init fd) = Done s -> codegen g E args fd s k = Done (kern, k1) ->
  length ls = length args -> ~ In lo ls -> m lo = Some out -> Z.of_nat (length out) = zprod (n_shape nd) ->
  (forall i x l, nth_error args i = Some x -> nth_error ls i = Some l -> ltB L (zprod (shp (arg_id x))) /\
     exists vs, m l = Some vs /\ filled L (shp (arg_id x)) (F (arg_id x)) vs) ->
  exists m' oc out', run (bind_params (k_params kern) (lo :: ls)) (exec L scoped gp (pty_of (k_params kern)) (k_body kern) [[]]) m = (m', oc) /\
    (forall b, m' b = if Nat.eqb b lo then Some out' else m b) /\ length out' = length out /\
    match oc with
    | OkO _ => filled L (n_shape nd) kval out'
    | RaiseO => exists idx, in_range (n_shape nd) idx /\ kval idx = Raise
    | FaultO => False
    end.
Proof using HL Hw HK HB Hnf.
  intros HS HC Hlen Hlo Hm Hout Hin.
  set (loc := bind_params (k_params kern) (lo :: ls)).
  pose proof (kernel_ev s k kern k1 lo ls (inp_of L loc m lo) HS HC Hlen) as HE.
  assert (Hin' : forall i x l, nth_error args i = Some x -> nth_error ls i = Some l -> ltB L (zprod (shp (arg_id x))) /\
     exists vs, (forall nm, loc nm = Some l -> nm <> NOut -> inp_of L loc m lo nm = Some vs) /\ filled L (shp (arg_id x)) (F (arg_id x)) vs).
  { intros i x l H1 H2. destruct (Hin i x l H1 H2) as (Hb & vs & H3 & H4). split; auto. exists vs. split; auto.
    intros nm Hnm _. unfold inp_of. rewrite Hnm. destruct (Nat.eqb_spec l lo) as [->|]; auto. exfalso. apply Hlo. eapply nth_error_In; eauto. }
  specialize (HE Hin').
  assert (Hlo2 : loc NOut = Some lo).
  { destruct (codegen_ok g Hw E f fd nd HK s k) as (ps & c & v & k1' & HC' & _). fold e args in HC'. rewrite HC in HC'. injection HC' as -> <-. reflexivity. }
  destruct (wseq L (n_shape nd) kval (all_idx (n_shape nd))) as [w oc] eqn:Ew.
  assert (HW : out_writes L (Z.of_nat (length out)) w).
  { rewrite Hout. eapply wseq_writes; eauto. apply Forall_forall. intros i Hi. now apply in_all_idx. }
  destruct oc as [[]| |]; [|..].
  - destruct HE as (r' & HE). destruct (run_ev L loc lo _ m out w _ Hlo2 Hm HE ltac:(discriminate) HW) as (m' & R & Hm').
    exists m', (OkO (FNorm, r')), (apply_w L w out). split; auto. split; auto. split; [apply apply_w_length|].
    now apply wseq_filled.
  - destruct (run_ev L loc lo _ m out w _ Hlo2 Hm HE ltac:(discriminate) HW) as (m' & R & Hm').
    exists m', RaiseO, (apply_w L w out). split; auto. split; auto. split; [apply apply_w_length|].
    destruct (wseq_raise_inv _ _ _ _ _ Ew) as (idx & H1 & H2). exists idx. split; auto. now apply in_all_idx.
  - contradiction.
Qed.
End Run.

(* ------------------------------------------------------------------ faults do not depend on values *)
(* a total integer language with the same index bound *)
Definition zalg : valg := mkValg Z (fun n => match n with NInt z => z | NFlt m _ => m end) (fun _ z => Some z)
  (fun b x y => Some (match b with
     | BAdd => x + y | BSub => x - y | BMul => x * y | BTruediv | BFloordiv => x / y | BMod => x mod y | BPow => x
     | BAnd => b2z (negb (x =? 0) && negb (y =? 0)) | BOr => b2z (negb (x =? 0) || negb (y =? 0))
     | BEq => b2z (x =? y) | BGt => b2z (x >? y) | BGe => b2z (x >=? y) | BLt => b2z (x <? y) | BLe => b2z (x <=? y) end))
  (fun _ z => z).
Definition zlang (b : option Z) : lang := mkLang zalg (fun z => Some z) (fun z => negb (z =? 0)) (fun v z => v = z) b.
Lemma zlang_ok L : lang_ok L -> lang_ok (zlang (ibound L)).
Proof.
  intros HL. constructor; cbn; intros; subst; auto; try (eexists; split; [reflexivity|reflexivity]).
  - apply (ok_bound _ HL).
  - destruct x, y; eauto.
Qed.
Lemma evalI_bound L L' : ibound L = ibound L' -> forall r e, evalI L r e = evalI L' r e.
Proof.
  intros H. assert (HC : forall z, chk L z = chk L' z) by (intros; unfold chk, inBb; now rewrite H).
  assert (HB : forall b u w, ibin L b u w = ibin L' b u w) by (intros [] u w; cbn; rewrite ?HC; auto).
  induction e; cbn; auto; try (rewrite IHe1, IHe2); try (destruct (r l); cbn; auto).
  destruct (evalI L' r e1); cbn; auto. destruct (evalI L' r e2); cbn; auto.
Qed.
Lemma mapM_ext {A B} (h1 h2 : A -> res B) l : (forall x, h1 x = h2 x) -> mapM h1 l = mapM h2 l.
Proof. intros H. induction l; cbn; auto. now rewrite H, IHl. Qed.
Lemma fold_res_ok_inv {V} (h : V -> V -> res V) xs acc r : fold_res h acc xs = Ok r -> Forall (fun x => exists v, x = Ok v) xs.
Proof.
  revert acc; induction xs as [|x xs IH]; intros acc H; cbn in H; constructor.
  - destruct x; try discriminate. eauto.
  - destruct x; try discriminate. cbn in H. destruct (h acc a); try discriminate. eauto.
Qed.
Lemma evalV_nofault (L L' : lang) shp (F : nat -> list Z -> res (val L)) (F' : nat -> list Z -> res (val L')) dt dt' e :
  ibound L = ibound L' -> (forall f idx, F' f idx <> Fault -> F f idx <> Fault) ->
  forall r v, evalV L' shp F' dt' e r = Ok v -> evalV L shp F dt e r <> Fault.
Proof.
  intros HB HF. induction e using expr_ind'; intros r v; cbn [evalV].
  - discriminate.
  - discriminate.
  - intros H. destruct (evalV L' shp F' dt' e1 r) as [u| |] eqn:E1; try discriminate. destruct (evalV L' shp F' dt' e2 r) as [w| |] eqn:E2; try discriminate.
    specialize (IHe1 _ _ E1). specialize (IHe2 _ _ E2). destruct (evalV L shp F dt e1 r); cbn; try congruence.
    destruct (evalV L shp F dt e2 r); cbn; try congruence. unfold op2. destruct (bin L b a a0); discriminate.
  - intros H. destruct (evalV L' shp F' dt' e r) as [w| |] eqn:E1; try discriminate. specialize (IHe _ _ E1).
    destruct (evalV L shp F dt e r); cbn; try congruence. unfold op1. destruct (un L u a); discriminate.
  - rewrite (evalI_bound L L' HB). intros H. destruct (evalI L' r e1) as [z| |]; try discriminate. cbn in *.
    destruct (z =? 0).
    + destruct (evalV L' shp F' dt' e3 r) as [w| |] eqn:E3; try discriminate. specialize (IHe3 _ _ E3). destruct (evalV L shp F dt e3 r); cbn; congruence.
    + destruct (evalV L' shp F' dt' e2 r) as [w| |] eqn:E3; try discriminate. specialize (IHe2 _ _ E3). destruct (evalV L shp F dt e2 r); cbn; congruence.
  - rewrite !sum_loops_fold. intros H. apply fold_res_ok_inv in H. apply fold_res_nofault.
    + intros x y. unfold op2. destruct (bin L BAdd x y); discriminate.
    + rewrite Forall_forall in *. intros x Hx. apply in_map_iff in Hx as (zs & <- & Hz).
      destruct (H (evalV L' shp F' dt' e (ibinds red zs r))) as [w Hw]; [apply in_map_iff; eauto|]. eapply IHe; eauto.
  - rewrite (mapM_ext _ _ idx (evalI_bound L L' HB r)). intros H1. destruct (mapM (evalI L' r) idx) as [zs| |]; try discriminate. cbn in *.
    unfold readF in *. destruct (in_rangeb (shp f) zs); try discriminate. apply HF. congruence.
  - rewrite (mapM_ext _ _ idx (evalI_bound L L' HB r)). intros H1. destruct (mapM (evalI L' r) idx) as [zs| |]; try discriminate. cbn in *.
    unfold readF in *. destruct (in_rangeb (shp n) zs); try discriminate. apply HF. congruence.
Qed.
