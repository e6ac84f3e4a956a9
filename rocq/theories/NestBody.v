(* The body of a scheduled kernel: reconstruct split variables, tail guards, expression, store. *)
From Verif Require Import Base BaseFacts Util UtilFacts Lang Spec Graph Denote DenoteFacts Reach Algo AlgoSem AlgoConv AlgoFuse2
  Kernel Sched Codegen KernFacts RenderFacts KernelOk RunFacts SchedFacts SchedGpu Nest NestSched.

Section NestBody.
Context (L : lang) (HL : lang_ok L) (scoped : bool) (gp : bool -> axis -> Z) (pty : name -> dtype).
Notation V := (val L).
Context (inp : name -> option (list V)).
Context (g : graph) (E : fenv) (args : list arg).
Context (shp : nat -> list Z) (F : nat -> list Z -> res V).
Notation exec := (exec L scoped gp pty).
Notation evals := (evals L inp).
Notation lk := (lk L).
Notation evolve := (evolve L).
Notation undecl := (undecl L scoped).
Context (HNo : nodes_ok g E args shp) (HI : inputs_ok L inp args shp F).
Context (a : nat) (s : list Z) (Hs : ltB L (zprod s)) (ic : nat -> Prop) (e : expr) (dt : dtype) (k0 k1 : nat) (c : code) (v : kx) (f : list Z -> res V).
Context (HW : wff shp ic a (out_loops a s) e) (HC : args_cover args e) (Hren : render g E args e dt k0 = Done (c, v, k1)).
Context (Hval : forall idx, in_range s idx -> (v <- evalV L shp F dt e (lenv a s idx) ;; Ok (coerce L (pty NOut) v)) = f idx).
Context (Hnf : forall idx, in_range s idx -> f idx <> Fault).

Context (fac : nat -> option Z) (loops : list loopsched) (spls : list splitloop) (HN : nestok s fac loops spls).
Context (HB : forall k d q, nth_error s k = Some d -> fac k = Some q -> ltB L (d + q)).
Notation nms := (map lnm loops).

(* one iteration *)
Definition ibeh (zs : list Z) : beh L :=
  let idx := coords s fac nms zs in
  if in_rangeb s idx then
    match f idx with Ok w => ([(NOut, flat s idx, w)], OkO FNorm) | Raise => ([], RaiseO) | Fault => ([], FaultO) end
  else ([], OkO FReturn).

Definition inner : code := capp (render_splits spls) (capp (render_guards spls) (kbody a s c v)).

Definition orig (n : name) : Prop := exists k q, fac k = Some q /\ n = NLoop false k [].
Definition iS (n : name) : Prop := kset (length s) n \/ orig n.
Definition iT (n : name) : Prop := match n with NTmp j => (k0 <= j)%nat | NAcc => True | _ => orig n end.

Lemma nms_form n : In n nms -> exists k d, nth_error s k = Some d /\
  match fac k with None => n = NLoop false k [] | Some _ => n = NLoop false k [true] \/ n = NLoop false k [false] end.
Proof using All.
  intros H. apply in_map_iff in H as (l & <- & Hl). destruct (nk_in _ _ _ _ HN l Hl) as (k & d & Hd & H). exists k, d. split; auto.
  unfold lnm. destruct (fac k); [destruct H as [-> | ->]|rewrite H]; cbn; auto.
Qed.
Lemma nms_S n : In n nms -> ~ iS n.
Proof using All.
  intros H [HS|(k & q & Hq & ->)]; destruct (nms_form _ H) as (j & d & Hd & Hn).
  - assert (j < length s)%nat by (apply nth_error_Some; congruence).
    destruct (fac j); [destruct Hn as [-> | ->]|subst n]; cbn in HS; lia.
  - destruct (fac j) eqn:Ej; [destruct Hn; discriminate|]. injection Hn as ->. congruence.
Qed.
Lemma iTS n : iT n -> iS n.
Proof. destruct n; cbn; intros H; try (left; exact I); right; exact H. Qed.
Lemma nms_T n : In n nms -> ~ iT n.
Proof using All. intros H Ht. eapply nms_S; eauto. now apply iTS. Qed.

Lemma bnd_get ns zs r n : bnd L ns zs r -> In n ns -> exists d w, lk r n = Some (d, w) /\ (inB L (tget ns zs n) -> reps L w (tget ns zs n)).
Proof.
  unfold bnd. induction 1 as [|m z ns zs (d & w & H1 & H2) _ IH]; intros Hin; [destruct Hin|]. cbn [tget].
  destruct (name_eqb m n) eqn:En.
  - apply name_eqb_eq in En. subst m. eauto.
  - destruct Hin as [->|Hin]; [rewrite name_eqb_refl in En; discriminate|auto].
Qed.
Lemma ltB_inB z d : ltB L d -> 0 <= z < d -> inB L z.
Proof. intros H Hz. apply inB_intro; [lia|]. eapply ltB_le; [exact H|lia]. Qed.

Lemma splits_ok zs : lrange loops zs -> forall l r, (forall x, In x l -> In x spls) -> NoDup (map (fun x => lv_name (sp_orig x)) l) -> r <> [] -> bnd L nms zs r ->
  (forall x, In x l -> undecl r (lv_name (sp_orig x))) ->
  exists r', ev inp (exec (render_splits l) r) = ([], OkO (FNorm, r')) /\ evolve (fun n => In n (map (fun x => lv_name (sp_orig x)) l)) r r' /\
    forall k d q, In (spl k d q) l -> exists dt w, lk r' (NLoop false k []) = Some (dt, w) /\ reps L w (coord fac nms zs k) /\ inB L (coord fac nms zs k).
Proof using All.
  intros Hz. induction l as [|x l IH]; intros r Hin HND Hr Hb Hu.
  - exists r. split; [reflexivity|]. split; [now apply evolve_refl|]. intros ? *; intros [].
  - cbn in HND. inversion HND as [|? ? Hx HND']; subst.
    destruct (nk_sp_in _ _ _ _ HN x ltac:(apply Hin; now left)) as (k & d & q & Hd & Hq & ->).
    pose proof (HB k d q Hd Hq) as HBk. pose proof (coord_bounds s fac loops spls HN zs k d Hz Hd) as Hc. rewrite Hq in Hc.
    destruct Hc as (Hc0 & H1 & H2 & H3 & _).
    pose proof (nk_loop _ _ _ _ HN k d Hd) as Hlp. rewrite Hq in Hlp. destruct Hlp as [Ho Hi].
    pose proof (nk_pos _ _ _ _ HN k q Hq) as Hq0.
    destruct (bnd_get _ _ _ (NLoop false k [true]) Hb) as (d1 & w1 & L1 & R1).
    { apply in_map_iff in Ho as (l1 & E1 & E2). apply in_map_iff. exists l1. split; auto. unfold lnm. rewrite E1. reflexivity. }
    destruct (bnd_get _ _ _ (NLoop false k [false]) Hb) as (d2 & w2 & L2 & R2).
    { apply in_map_iff in Hi as (l1 & E1 & E2). apply in_map_iff. exists l1. split; auto. unfold lnm. rewrite E1. reflexivity. }
    set (o := tget nms zs (NLoop false k [true])) in *. set (i := tget nms zs (NLoop false k [false])) in *.
    assert (Hcd : coord fac nms zs k = o * q + i) by (unfold coord; now rewrite Hq). rewrite Hcd in *.
    assert (Hd0 : 0 < d) by nia.
    assert (Bo : inB L o) by (eapply ltB_inB; [exact HBk|nia]). assert (Bi : inB L i) by (eapply ltB_inB; [exact HBk|nia]).
    assert (Bq : inB L q) by (eapply ltB_inB; [exact HBk|nia]). assert (Boq : inB L (o * q)) by (eapply ltB_inB; [exact HBk|nia]).
    assert (Bc : inB L (o * q + i)) by (eapply ltB_inB; [exact HBk|nia]).
    destruct (ok_mul _ HL _ _ _ _ (R1 Bo) (ok_lit _ HL q Bq) Bo Bq Boq) as (wm & M1 & M2).
    destruct (ok_add _ HL _ _ _ _ M2 (R2 Bi) Boq Bi Bc) as (wa & A1 & A2).
    destruct (declare_ok L scoped r (NLoop false k []) Int64 wa Hr ltac:(apply (Hu (spl k d q)); now left)) as (r1 & D1 & D2 & D3).
    destruct (IH r1) as (r2 & X & W & G).
    + intros y Hy. apply Hin. now right.
    + exact HND'.
    + eapply evolve_nonempty; eauto.
    + eapply bnd_evolve; [exact D2| |exact Hb]. intros n Hn <-. apply (nms_S _ Hn). right. exists k, q. auto.
    + intros y Hy. eapply undecl_evolve; [exact D2| |apply Hu; now right]. intros He. apply Hx. cbn [spl sp_orig lvar lv_name]. rewrite He.
      apply in_map_iff. exists y. auto.
    + exists r2. split; [|split].
      * cbn [render_splits spl sp_orig sp_o sp_i sp_factor lvar lo li lv_name].
        rewrite (exec_decl _ _ _ _ _ _ _ _ _ _ _ _ (evals_bin _ _ _ _ _ _ _ _ _ (evals_bin _ _ _ _ _ _ _ _ _ (evals_name _ _ _ _ _ _ L1) (evals_int _ _ _ _) M1) (evals_name _ _ _ _ _ _ L2) A1) D1).
        exact X.
      * eapply evolve_trans; eapply evolve_mono; [|exact D2| |exact W]; cbn; [intros n <-; now left|now right].
      * intros k' d' q' [He|Hin'].
        -- assert (k' = k /\ q' = q) as [-> ->] by (pose proof (f_equal (fun x => lv_name (sp_orig x)) He) as H5; pose proof (f_equal sp_factor He) as H6; cbn in H5, H6; injection H5 as <-; split; auto).
           rewrite Hcd. exists Int64, (coerce L Int64 wa). split; [|split; [apply (ok_coerce _ HL); assumption|exact Bc]].
           rewrite <- D3. eapply lk_evolve; [exact W|]. intros Hin'. apply Hx. exact Hin'.
        -- destruct (G k' d' q' Hin') as (dt' & w' & G1 & G2). eauto.
Qed.

Lemma guards_ok zs (Hz : lrange loops zs) r : forall l, (forall x, In x l -> In x spls) ->
  (forall k d q, In (spl k d q) l -> exists dt w, lk r (NLoop false k []) = Some (dt, w) /\ reps L w (coord fac nms zs k) /\ inB L (coord fac nms zs k)) ->
  forall rest, ev inp (exec (capp (render_guards l) rest) r) =
    if existsb (fun x => sp_guard x && (lv_ext (sp_orig x) <=? match lv_name (sp_orig x) with NLoop _ k _ => coord fac nms zs k | _ => 0 end)) l
    then ([], OkO (FReturn, r)) else ev inp (exec rest r).
Proof using All.
  assert (Hle : leave L scoped (enter L scoped r) = r) by (unfold leave, enter; now destruct scoped).
  induction l as [|x l IH]; intros Hin Hb rest; [reflexivity|].
  destruct (nk_sp_in _ _ _ _ HN x ltac:(apply Hin; now left)) as (k & d & q & Hd & Hq & ->).
  specialize (IH ltac:(intros; apply Hin; now right) ltac:(intros; eapply Hb; right; eauto) rest).
  cbn [render_guards existsb]. destruct (sp_guard (spl k d q)) eqn:Eg; cbn [andb orb]; [|exact IH].
  cbn [spl sp_orig lvar lv_name lv_ext]. cbn [capp].
  destruct (Hb k d q ltac:(now left)) as (dt' & w & L1 & R1 & B1).
  pose proof (coord_bounds s fac loops spls HN zs k d Hz Hd) as Hc. rewrite Hq in Hc. destruct Hc as (Hc0 & H1 & H2 & H3 & _).
  pose proof (nk_pos _ _ _ _ HN k q Hq) as Hq0.
  assert (Bd : inB L d) by (eapply ltB_inB; [exact (HB k d q Hd Hq)|nia]).
  destruct (ok_le _ HL _ _ _ _ (ok_lit _ HL d Bd) R1 Bd B1) as (u & U1 & U2).
  cbn [Kernel.exec]. rewrite ev_bind. change (ev inp (eval L r _)) with (ev inp (eval L r (KBin BLe (KInt d) (KName (NLoop false k []))))).
  rewrite (evals_bin _ _ _ _ _ _ _ _ _ (evals_int _ _ _ _) (evals_name _ _ _ _ _ _ L1) U1). cbn [ebind].
  assert (HT : truth L u = (d <=? coord fac nms zs k)).
  { rewrite (ok_truth _ HL _ _ U2); [destruct (d <=? coord fac nms zs k); reflexivity|]. eapply inB_le; [apply (ok_bound _ HL)|]. destruct (d <=? coord fac nms zs k); cbn; lia. }
  rewrite HT. destruct (d <=? coord fac nms zs k); cbn [orb].
  - cbn. now rewrite Hle.
  - cbn [Kernel.exec pbind]. rewrite Hle, IH. match goal with |- context [if ?b then _ else _] => destruct b end; [reflexivity|]. now destruct (ev inp (exec rest r)).
Qed.

Lemma inner_behaves zs r : lrange loops zs -> r <> [] -> bnd L nms zs r -> (forall n, iT n -> undecl r n) ->
  behaves L inp (ibeh zs) iS (exec inner r) r.
Proof using All.
  intros Hz Hr Hb Hu. unfold inner.
  destruct (splits_ok zs Hz spls r ltac:(auto) (nk_sp_nodup _ _ _ _ HN) Hr Hb) as (r1 & X1 & W1 & G1).
  { intros x Hx. apply Hu. destruct (nk_sp_in _ _ _ _ HN x Hx) as (k & d & q & Hd & Hq & ->). cbn. exists k, q. auto. }
  assert (W1' : evolve iS r r1).
  { eapply evolve_mono; [|exact W1]. cbn. intros n Hn. apply in_map_iff in Hn as (x & <- & Hx).
    destruct (nk_sp_in _ _ _ _ HN x Hx) as (k & d & q & Hd & Hq & ->). right. exists k, q. auto. }
  assert (Hr1 : r1 <> []) by (eapply evolve_nonempty; eauto).
  assert (Hb1 : bnd L nms zs r1) by (eapply bnd_evolve; [exact W1'|apply nms_S|exact Hb]).
  set (rest := kbody a s c v).
  assert (HX : ev inp (exec (capp (render_splits spls) (capp (render_guards spls) rest)) r) = if in_rangeb s (coords s fac nms zs) then ev inp (exec rest r1) else ([], OkO (FReturn, r1))).
  { rewrite (exec_capp_norm _ _ _ _ _ _ _ _ _ X1).
    rewrite (guards_ok zs Hz r1 spls ltac:(auto)) by (intros k d q Hin; exact (G1 k d q Hin)).
    pose proof (coords_in_range s fac loops spls HN zs Hz) as HR.
    destruct (existsb _ spls) eqn:Ex; destruct (in_rangeb s (coords s fac nms zs)) eqn:Ei; auto; exfalso.
    - apply in_rangeb_spec in Ei. apply existsb_exists in Ex as (x & Hx & Hg). apply andb_prop in Hg as [_ Hg].
      destruct (nk_sp_in _ _ _ _ HN x Hx) as (k & d & q & Hd & Hq & ->). cbn in Hg. pose proof (proj1 HR Ei k d q Hd Hq). lia.
    - assert (Hir : in_range s (coords s fac nms zs)).
      { apply HR. intros k d q Hd Hq. destruct (Z.lt_ge_cases (coord fac nms zs k) d) as [|Hge]; auto. exfalso.
        pose proof (coord_bounds s fac loops spls HN zs k d Hz Hd) as Hc. rewrite Hq in Hc. destruct Hc as (_ & _ & _ & _ & Hc).
        assert (existsb (fun x => sp_guard x && (lv_ext (sp_orig x) <=? match lv_name (sp_orig x) with NLoop _ k _ => coord fac nms zs k | _ => 0 end)) spls = true); [|congruence].
        apply existsb_exists. exists (spl k d q). split; [apply (nk_sp _ _ _ _ HN); auto|]. cbn. apply andb_true_intro. split; [|lia].
        destruct (d mod q =? 0) eqn:Em; auto. exfalso. assert (d mod q = 0) by lia. specialize (Hc H). lia. }
      apply in_rangeb_spec in Hir. congruence. }
  unfold ibeh. cbn zeta. destruct (in_rangeb s (coords s fac nms zs)) eqn:Ei.
  2:{ cbn [behaves]. exists r1. split; auto. }
  apply in_rangeb_spec in Ei. set (idx := coords s fac nms zs) in *.
  assert (Hpe : posenv L idx r1).
  { intros k z Hk. unfold idx in Hk. rewrite coords_nth in Hk. destruct (nth_error s k) as [d|] eqn:Hd; [|discriminate]. cbn in Hk. injection Hk as <-.
    destruct (fac k) as [q|] eqn:Hq.
    - destruct (G1 k d q (nk_sp _ _ _ _ HN k d q Hd Hq)) as (dt' & w & H1 & H2 & _). eauto.
    - unfold coord. rewrite Hq. apply bnd_get; auto. pose proof (nk_loop _ _ _ _ HN k d Hd) as Hl. rewrite Hq in Hl.
      apply in_map_iff in Hl as (l1 & E1 & E2). apply in_map_iff. exists l1. split; auto. unfold lnm. now rewrite E1. }
  pose proof (body_ok L HL scoped gp pty inp g E args shp F HNo HI a s Hs ic e dt k0 k1 c v f HW HC Hren Hval idx r1 (length s) Ei Hr1 Hpe) as HBd.
  assert (Hue : forall n, iT n -> ~ orig n -> undecl r1 n).
  { intros n Hn Ho. eapply undecl_evolve; [exact W1| |now apply Hu]. cbn. intros Hin. apply Ho. apply in_map_iff in Hin as (x & <- & Hx).
    destruct (nk_sp_in _ _ _ _ HN x Hx) as (k & d & q & Hd & Hq & ->). exists k, q. auto. }
  specialize (HBd ltac:(intros j Hj; apply Hue; [exact Hj|intros (? & ? & _ & Ho); discriminate])
                  ltac:(apply Hue; [exact I|intros (? & ? & _ & Ho); discriminate])).
  destruct (f idx) as [w| |] eqn:Ef; cbn [behaves].
  - destruct HBd as (r2 & X2 & W2). exists r2. rewrite HX. split; [exact X2|]. eapply evolve_trans; [exact W1'|]. eapply evolve_mono; [|exact W2]. intros n Hn. now left.
  - rewrite HX. exact HBd.
  - exact (Hnf idx Ei Ef).
Qed.

(* the whole nest, for the thread at gp *)
Theorem sched_behaves : Forall (fun l => is_spatial l = true) loops -> (forall t, In t (tuples gp loops) -> lrange loops t) ->
  behaves L inp (nseq L ibeh (tuples gp loops)) (lset iS loops) (exec (render_loops loops inner) [[]]) [[]].
Proof using All.
  intros Hsp HT.
  pose proof (nest_behaves L HL scoped gp pty inp nms iS iT (lrange loops) ibeh inner nms_T nms_S (nk_nodup _ _ _ _ HN)
    (fun zs r => inner_behaves zs r) iTS loops Hsp [] [] [[]] eq_refl HT ltac:(discriminate) (Forall2_nil _)) as H.
  rewrite map_id in H. apply H. intros n _ _. reflexivity.
Qed.
(* a thread that runs the iterations [zs] of the outermost loop *)
Theorem chunk_behaves l ls zs : loops = l :: ls -> cpu_exec (ls_exec l) -> Forall (fun l => is_spatial l = true) loops ->
  (forall t, In t (tuples gp ls) -> lrange ls t) -> Forall (fun z => 0 <= z < lv_ext (ls_lv l)) zs ->
  behaves L inp (nseq L ibeh (flat_map (fun z => map (cons z) (tuples gp ls)) zs)) (lset iS loops)
    (for_loop L scoped (exec (render_loops ls inner)) (lnm l) zs [[]]) [[]].
Proof using All.
  intros Hl Hx Hsp HT Hz.
  assert (H1 : is_spatial l = true) by (rewrite Hl in Hsp; now inversion Hsp).
  assert (H2 : Forall (fun l => is_spatial l = true) ls) by (rewrite Hl in Hsp; now inversion Hsp).
  pose proof (for_nest L HL scoped gp pty inp nms iS iT (lrange loops) ibeh inner nms_T nms_S (nk_nodup _ _ _ _ HN) iTS l ls H1) as H.
  specialize (H (fun pn pz r Hn HP => nest_behaves L HL scoped gp pty inp nms iS iT (lrange loops) ibeh inner nms_T nms_S (nk_nodup _ _ _ _ HN)
    (fun zs r => inner_behaves zs r) iTS ls H2 pn pz r Hn HP)).
  specialize (H zs [] [] [[]]). rewrite Hl in H at 1. specialize (H eq_refl).
  rewrite map_id in H. rewrite Hl at 1. apply H.
  - intros z t Hin Ht. cbn. rewrite Hl. constructor; [|now apply HT]. rewrite Forall_forall in Hz. now apply Hz.
  - discriminate.
  - constructor.
  - intros n _ _. reflexivity.
Qed.
End NestBody.
