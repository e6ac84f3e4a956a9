(* A loop nest of any schedule (sequential, parallel, vectorized, unrolled, GPU block or thread
   loops) runs its body once per tuple of loop-variable values, in order, until the body returns
   or raises. *)
From Verif Require Import Base BaseFacts Util UtilFacts Lang Spec Graph Algo AlgoSem AlgoConv Kernel Sched Codegen KernFacts RenderFacts KernelOk.

Section Nest.
Context (L : lang) (HL : lang_ok L) (scoped : bool) (gp : bool -> axis -> Z) (pty : name -> dtype).
Notation V := (val L).
Context (inp : name -> option (list V)).
Notation exec := (exec L scoped gp pty).
Notation lk := (lk L).
Notation evolve := (evolve L).
Notation undecl := (undecl L scoped).

(* values taken by the variable of a loop *)
Definition lvals (l : loopsched) : list Z :=
  match ls_exec l with XBlock ax => [gp true ax] | XThread ax => [gp false ax] | _ => zrange (lv_ext (ls_lv l)) end.
Fixpoint tuples (ls : list loopsched) : list (list Z) :=
  match ls with [] => [[]] | l :: r => flat_map (fun z => map (cons z) (tuples r)) (lvals l) end.
Definition lnm (l : loopsched) : name := lv_name (ls_lv l).

Definition beh := (list (wr L) * outc flow)%type.
(* iterations in order, stopping at the first one that does not fall through *)
Definition then_ (b : beh) (k : beh) : beh :=
  match b with (w, OkO FNorm) => let '(w', o) := k in (w ++ w', o) | _ => b end.
Fixpoint nseq {A} (f : A -> beh) (ts : list A) : beh :=
  match ts with [] => ([], OkO FNorm) | t :: ts' => then_ (f t) (nseq f ts') end.
Lemma nseq_app {A} (f : A -> beh) a b : nseq f (a ++ b) = then_ (nseq f a) (nseq f b).
Proof.
  induction a as [|t a IH]; cbn; [now destruct (nseq f b)|]. rewrite IH. destruct (f t) as [w [[]| |]]; cbn; auto.
  destruct (nseq f a) as [w1 [[]| |]]; cbn; auto. destruct (nseq f b). now rewrite app_assoc.
Qed.

Definition bnd (ns : list name) (zs : list Z) (r : env L) : Prop :=
  Forall2 (fun n z => exists dt v, lk r n = Some (dt, v) /\ (inB L z -> reps L v z)) ns zs.
Lemma bnd_evolve (S : name -> Prop) ns zs r r' : evolve S r r' -> (forall n, In n ns -> ~ S n) -> bnd ns zs r -> bnd ns zs r'.
Proof.
  intros HE HS H. unfold bnd in *. revert HS. induction H as [|n z ns zs (dt & v & H1 & H2) _ IH]; intros HS; constructor.
  - exists dt, v. split; auto. rewrite <- H1. eapply lk_evolve; eauto. apply HS. now left.
  - apply IH. intros m Hm. apply HS. now right.
Qed.
Lemma bnd_snoc ns zs n z r : bnd ns zs r -> (exists dt v, lk r n = Some (dt, v) /\ (inB L z -> reps L v z)) -> bnd (ns ++ [n]) (zs ++ [z]) r.
Proof. intros H1 H2. apply Forall2_app; auto. Qed.

(* [c], run in r, behaves as b *)
Definition behaves (b : beh) (S : name -> Prop) (p : prog L (flow * env L)) (r : env L) : Prop :=
  match b with
  | (w, OkO fl) => exists r', ev inp p = (w, OkO (fl, r')) /\ evolve S r r'
  | (w, RaiseO) => ev inp p = (w, RaiseO)
  | (_, FaultO) => False
  end.

Context (nms : list name) (S T : name -> Prop) (P : list Z -> Prop) (f : list Z -> beh) (inner : code).
Context (HT : forall n, In n nms -> ~ T n) (HS : forall n, In n nms -> ~ S n) (HND : NoDup nms).
Context (Hinner : forall zs r, P zs -> r <> [] -> bnd nms zs r -> (forall n, T n -> undecl r n) -> behaves (f zs) S (exec inner r) r).
Context (HTS : forall n, T n -> S n).

Definition lset (ls : list loopsched) (n : name) : Prop := S n \/ In n (map lnm ls).

Lemma for_nest l ls : is_spatial l = true ->
  (forall pn pz r, pn ++ map lnm ls = nms -> (forall t, In t (tuples ls) -> P (pz ++ t)) -> r <> [] -> bnd pn pz r ->
     (forall n, T n \/ In n (map lnm ls) -> undecl r n) ->
     behaves (nseq f (map (app pz) (tuples ls))) (lset ls) (exec (render_loops ls inner) r) r) ->
  forall zs pn pz r, pn ++ map lnm (l :: ls) = nms -> (forall z t, In z zs -> In t (tuples ls) -> P (pz ++ z :: t)) -> r <> [] -> bnd pn pz r ->
     (forall n, T n -> undecl r n) ->
     behaves (nseq f (map (app pz) (flat_map (fun z => map (cons z) (tuples ls)) zs))) (lset (l :: ls))
       (for_loop L scoped (exec (render_loops ls inner)) (lnm l) zs r) r.
Proof using HL HT HS HND HTS.
  intros Hsp IH. induction zs as [|z zs IHz]; intros pn pz r Hn HP Hr Hb Hu.
  - cbn. exists r. split; auto. now apply evolve_refl.
  - cbn [flat_map for_loop]. rewrite map_app, map_map, nseq_app.
    set (r0 := bind_loop L scoped r (lnm l) z).
    assert (Hr0 : r0 <> []) by now apply bind_loop_nonempty.
    assert (Hl : In (lnm l) nms) by (rewrite <- Hn; apply in_or_app; right; now left).
    assert (Hln : forall n, In n pn \/ In n (map lnm ls) -> lnm l <> n).
    { intros n Hn2 <-. rewrite <- Hn in HND. cbn in HND. apply NoDup_remove_2 in HND. apply HND. apply in_or_app. tauto. }
    assert (Hb0 : bnd (pn ++ [lnm l]) (pz ++ [z]) r0).
    { apply bnd_snoc.
      - unfold bnd, r0 in *. clear IHz IH HP. assert (Hp : forall n, In n pn -> lnm l <> n) by auto. clear - Hb Hp Hr.
        induction Hb as [|n y ns ys (dt & v & H1 & H2) _ IH]; constructor.
        + exists dt, v. rewrite lk_bind_loop by assumption. destruct (name_eqb (lnm l) n) eqn:En; auto.
          apply name_eqb_eq in En. exfalso. apply (Hp n); [now left|assumption].
        + apply IH. intros m Hm. apply Hp. now right.
      - exists Int32, (lit L z). unfold r0. rewrite lk_bind_loop, name_eqb_refl by assumption. split; auto. apply (ok_lit _ HL). }
    pose proof (IH (pn ++ [lnm l]) (pz ++ [z]) r0) as I1.
    rewrite <- app_assoc in I1. specialize (I1 Hn).
    specialize (I1 ltac:(intros t Ht; rewrite <- app_assoc; apply HP; [now left|assumption]) Hr0 Hb0).
    specialize (I1 ltac:(intros n Hn2; apply undecl_bind_loop; destruct Hn2 as [Hn2|Hn2]; [intros <-; now apply (HT _ Hl)|auto])).
    rewrite (map_ext (app (pz ++ [z])) (fun y => pz ++ z :: y)) in I1 by (intros y; rewrite <- app_assoc; reflexivity).
    destruct (nseq f (map (fun y => pz ++ z :: y) (tuples ls))) as [w [fl| |]].
    + destruct I1 as (r1 & X1 & V1).
      assert (V1' : evolve (lset (l :: ls)) r0 r1).
      { eapply evolve_mono; [|exact V1]. intros n [H|H]; [now left|right; now right]. }
      assert (V2 : evolve (lset (l :: ls)) r (leave L scoped r1)).
      { eapply leave_bind_loop; [exact Hr| |exact V1']. right. now left. }
      destruct fl; cbn [then_].
      * specialize (IHz pn pz (leave L scoped r1) Hn ltac:(intros; apply HP; [now right|assumption]) ltac:(eapply evolve_nonempty; eauto)).
        specialize (IHz ltac:(eapply bnd_evolve; [exact V2| |exact Hb]; intros n Hn2 [H|H];
          [apply (HS n); [rewrite <- Hn; apply in_or_app; now left|exact H]
          |rewrite <- Hn in HND; clear - HND Hn2 H; induction pn as [|y pn IH]; [destruct Hn2|]; cbn in HND; inversion HND; subst;
           destruct Hn2 as [->|Hn2]; [match goal with X : ~ In _ (_ ++ _) |- _ => apply X end; apply in_or_app; now right|now apply IH]])).
        specialize (IHz ltac:(intros n Hn2; eapply leave_bind_dom; [exact Hr|exact V1'|now apply Hu])).
        destruct (nseq f (map (app pz) (flat_map (fun z0 => map (cons z0) (tuples ls)) zs))) as [w2 [fl2| |]]; cbn [behaves] in *; auto.
        -- destruct IHz as (r2 & X2 & W2). exists r2. rewrite ev_bind, X1. cbn [ebind]. rewrite X2. split; auto. eapply evolve_trans; eauto.
        -- rewrite ev_bind, X1. cbn [ebind]. now rewrite IHz.
      * cbn. rewrite ev_bind, X1. cbn. rewrite app_nil_r. eauto.
    + cbn. rewrite ev_bind, I1. reflexivity.
    + destruct I1.
Qed.

Theorem nest_behaves ls : Forall (fun l => is_spatial l = true) ls -> forall pn pz r, pn ++ map lnm ls = nms ->
  (forall t, In t (tuples ls) -> P (pz ++ t)) -> r <> [] -> bnd pn pz r -> (forall n, T n \/ In n (map lnm ls) -> undecl r n) ->
  behaves (nseq f (map (app pz) (tuples ls))) (lset ls) (exec (render_loops ls inner) r) r.
Proof using HL HT HS HND HTS Hinner.
  induction ls as [|l ls IH]; intros Hsp pn pz r Hn HP Hr Hb Hu.
  - cbn [tuples map nseq render_loops]. rewrite app_nil_r. cbn in Hn. rewrite app_nil_r in Hn. subst pn.
    specialize (Hinner pz r ltac:(rewrite <- (app_nil_r pz); apply HP; now left) Hr Hb ltac:(auto)).
    destruct (f pz) as [w [[]| |]]; cbn [then_ behaves] in *; rewrite ?app_nil_r; auto.
    + destruct Hinner as (r' & X & W). exists r'. split; auto. eapply evolve_mono; [|exact W]. intros n H. now left.
    + destruct Hinner as (r' & X & W). exists r'. split; auto. eapply evolve_mono; [|exact W]. intros n H. now left.
  - assert (H1 := Forall_inv Hsp). assert (H2 := Forall_inv_tail Hsp). cbn beta in H1. specialize (IH H2).
    assert (GF : forall ext, lvals l = zrange ext ->
       behaves (nseq f (map (app pz) (tuples (l :: ls)))) (lset (l :: ls)) (exec (CFor (lnm l) ext (ls_exec l) (render_loops ls inner) CNil) r) r).
    { intros ext Hv. cbn [tuples]. rewrite Hv. cbn [Kernel.exec].
      pose proof (for_nest l ls H1 IH (zrange ext) pn pz r Hn) as HF.
      specialize (HF ltac:(intros z t Hz Ht; apply HP; cbn [tuples]; rewrite Hv; apply in_flat_map; exists z; split; auto; now apply in_map) Hr Hb ltac:(auto)).
      destruct (nseq f _) as [w [fl| |]]; cbn [behaves] in *; auto.
      - destruct HF as (r' & X & W). exists r'. rewrite ev_bind, X. cbn [ebind]. split; auto. destruct fl; cbn; now rewrite app_nil_r.
      - rewrite ev_bind, HF. reflexivity. }
    assert (GG : forall bl ax, lvals l = [gp bl ax] ->
       behaves (nseq f (map (app pz) (tuples (l :: ls)))) (lset (l :: ls)) (exec (CGpu (lnm l) bl ax (render_loops ls inner)) r) r).
    { intros bl ax Hv. cbn [tuples]. rewrite Hv. cbn [Kernel.exec flat_map]. rewrite app_nil_r, map_map.
      destruct (declare_ok L scoped r (lnm l) Int64 (lit L (gp bl ax)) Hr ltac:(apply Hu; right; now left)) as (r0 & D1 & D2 & D3).
      rewrite D1. cbn [p_flt pbind]. set (z := gp bl ax) in *.
      specialize (IH (pn ++ [lnm l]) (pz ++ [z]) r0). rewrite <- app_assoc in IH. specialize (IH Hn).
      specialize (IH ltac:(intros t Ht; rewrite <- app_assoc; apply HP; cbn [tuples]; rewrite Hv; cbn; rewrite app_nil_r; now apply in_map)).
      specialize (IH ltac:(eapply evolve_nonempty; eauto)).
      assert (Hl : In (lnm l) nms) by (rewrite <- Hn; apply in_or_app; right; now left).
      assert (Hln : forall n, In n pn \/ In n (map lnm ls) -> lnm l <> n).
      { intros n Hn2 <-. rewrite <- Hn in HND. cbn in HND. apply NoDup_remove_2 in HND. apply HND. apply in_or_app. tauto. }
      specialize (IH ltac:(apply bnd_snoc; [eapply bnd_evolve; [exact D2| |exact Hb]; intros n Hn2 He; apply (Hln n); auto
        |do 2 eexists; split; [exact D3|]; intros Hz; apply (ok_coerce _ HL); auto; now apply (ok_lit _ HL)])).
      specialize (IH ltac:(intros n Hn2; eapply undecl_evolve; [exact D2| |apply Hu; cbn; tauto];
        intros He; destruct Hn2 as [Hn2|Hn2]; [subst n; now apply (HT _ Hl)|apply (Hln n); auto])).
      rewrite (map_ext (app (pz ++ [z])) (fun y => pz ++ z :: y)) in IH by (intros y; rewrite <- app_assoc; reflexivity).
      destruct (nseq f (map (fun y => pz ++ z :: y) (tuples ls))) as [w [fl| |]]; cbn [behaves] in *; auto.
      destruct IH as (r1 & X & W). exists r1. split; auto.
      eapply evolve_trans; eapply evolve_mono; [|exact D2| |exact W].
      - intros n <-. right. now left.
      - intros n [H|H]; [now left|right; now right]. }
    cbn [render_loops]. rewrite H1.
    destruct (ls_exec l) eqn:Ex.
    + apply GF. unfold lvals. now rewrite Ex.
    + apply GF. unfold lvals. now rewrite Ex.
    + apply GF. unfold lvals. now rewrite Ex.
    + apply GF. unfold lvals. now rewrite Ex.
    + apply (GG true). unfold lvals. now rewrite Ex.
    + apply (GG false). unfold lvals. now rewrite Ex.
Qed.
End Nest.
