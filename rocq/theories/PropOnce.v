(* Property C53: each operation of a program is compiled exactly once. *)
From Coq Require Import Permutation.
From Verif Require Import Base BaseFacts Util UtilFacts Lang Spec SpecFacts Graph Api Denote DenoteFacts Reach ApiFacts LangInst Prog Algo AlgoSem AlgoConv AlgoConv2 AlgoFuse AlgoFuse2
  AlgoConvert AlgoConvert2 AlgoTop AlgoMore Cost Once.
Open Scope nat_scope.

(* the arrays a depends on (a included) can be listed without repetition *)
Lemma cone_enum g a E fs : reach g -> valid g a -> convert g a = Done (E, fs) -> exists l, NoDup l /\ forall n, In n l <-> cone g a n.
Proof.
  intros Hr Hv HC. pose proof (converted_ns g a E fs Hr Hv HC) as Hns.
  destruct (convert_parts g a E fs Hr Hv Hns HC) as (E0 & fda & rc & e & E1 & HE & Ea & Hall & _).
  exists (filter (fun n => match E0 n with Some _ => true | None => false end) (seq 0 (length g))). split; [apply NoDup_filter, seq_NoDup|].
  intros n. rewrite filter_In, in_seq. split.
  - intros [_ H]. destruct (E0 n) as [fd|] eqn:En; [|discriminate]. apply (HE n fd En).
  - intros Hc. split; [pose proof (cone_le g (reach_wf g Hr) a n Hc); unfold valid in Hv; lia|]. destruct (E0 n) eqn:En; auto. exfalso. eapply Hall; eauto.
Qed.

(* For any listing l of the arrays that a depends on: the operations on elements found in the kernels that
   materialize(a) compiles, all kernels taken together, are exactly the operations of the API calls that
   made those arrays, each as often as it was called.  So no operation is dropped, added, or compiled into
   two kernels, however often its result is used. *)
Theorem C53_once : forall g a E fs l, reach g -> valid g a -> convert g a = Done (E, fs) ->
  NoDup l -> (forall n, In n l <-> cone g a n) ->
  Permutation (flat_map (fun f => match E f with Some fd => vops (f_expr fd) | None => [] end) fs)
              (flat_map (fun n => match nth_error g n with Some nd => op_vops (n_op nd) | None => [] end) l).
Proof.
  intros g a E fs l Hr Hv HC Hl Hcone. pose proof (once g a E fs Hr Hv HC l Hl Hcone) as H.
  replace (flat_map (fun f => match E f with Some fd => vops (f_expr fd) | None => [] end) fs) with (flat_map (fun f => vops (fexpr E f)) fs); [exact H|].
  clear. induction fs as [|f fs IH]; cbn; auto. rewrite IH. unfold fexpr. now destruct (E f).
Qed.
Print Assumptions C53_once.

(* A reduction has a kernel of its own: each kernel holds at most one sum, outermost, and as many kernels
   hold one as sum() was called in making the arrays that a depends on. *)
Theorem C53_sums : forall g a E fs l, reach g -> valid g a -> convert g a = Done (E, fs) ->
  NoDup l -> (forall n, In n l <-> cone g a n) ->
  (forall f fd, In f fs -> E f = Some fd -> In VSum (vops (f_expr fd)) -> exists x red, f_expr fd = ESum x red /\ ~ In VSum (vops x)) /\
  length (filter (fun f => match E f with Some fd => match f_expr fd with ESum _ _ => true | _ => false end | None => false end) fs) =
  length (filter (fun n => match nth_error g n with Some nd => match n_op nd with OSum _ _ => true | _ => false end | None => false end) l).
Proof.
  intros g a E fs l Hr Hv HC Hl Hcone. pose proof (converted_ns g a E fs Hr Hv HC) as Hns.
  pose proof (convert_inv _ g a E fs any_lang_ok Hr Hv Hns HC) as HS.
  assert (HX : forall shp ic lim P e, wfe shp ic lim P e -> ~ In VSum (vops e)).
  { intros shp ic lim P. induction e using expr_ind'; cbn [wfe vops]; intros HW; try contradiction; auto.
    - destruct HW. intros [H'|H']; [discriminate|]. apply in_app_iff in H' as [H'|H']; tauto.
    - intros [H'|H']; [discriminate|]. tauto.
    - destruct HW as (_ & ? & ?). intros [H'|H']; [discriminate|]. apply in_app_iff in H' as [H'|H']; tauto. }
  assert (H1 : forall f fd, In f fs -> E f = Some fd -> In VSum (vops (f_expr fd)) -> exists x red, f_expr fd = ESum x red /\ ~ In VSum (vops x)).
  { intros f fd Hf Hfd Hs. destruct (cs_entry _ _ _ _ _ HS f Hf) as (fd' & Hfd' & (nd & _ & _ & W & _)). assert (fd' = fd) by congruence. subst fd'.
    destruct (f_expr fd) as [| | | | |x red| |] eqn:Ee; cbn [wff] in W; try (apply HX in W; contradiction). exists x, red. split; auto. destruct W as (W & _). eapply HX; eauto. }
  split; [exact H1|].
  pose proof (proj1 (Permutation_count_occ vop_eq_dec _ _) (C53_once g a E fs l Hr Hv HC Hl Hcone) VSum) as HP.
  assert (Hc : forall A (h : A -> list vop) (p : A -> bool) m, (forall x, In x m -> count_occ vop_eq_dec (h x) VSum = if p x then 1 else 0) ->
    count_occ vop_eq_dec (flat_map h m) VSum = length (filter p m)).
  { intros A h p m. induction m as [|x m IH]; cbn; auto. intros Hx. rewrite count_occ_app, IH, (Hx x) by auto. destruct (p x); reflexivity. }
  rewrite <- (Hc nat (fun f => match E f with Some fd => vops (f_expr fd) | None => [] end)
                (fun f => match E f with Some fd => match f_expr fd with ESum _ _ => true | _ => false end | None => false end) fs).
  2:{ intros f Hf. destruct (cs_entry _ _ _ _ _ HS f Hf) as (fd & Hfd & (nd & _ & _ & W & _)). rewrite Hfd.
    destruct (in_dec vop_eq_dec VSum (vops (f_expr fd))) as [Hin|Hn].
    + destruct (H1 f fd Hf Hfd Hin) as (x & red & -> & Hx). cbn [vops count_occ]. destruct (vop_eq_dec VSum VSum); [|congruence].
      now rewrite (proj1 (count_occ_not_In vop_eq_dec _ _) Hx).
    + rewrite (proj1 (count_occ_not_In vop_eq_dec _ _) Hn). destruct (f_expr fd); auto. exfalso. apply Hn. now left. }
  rewrite HP. apply (Hc nat). intros n _. destruct (nth_error g n) as [nd|]; [|reflexivity]. now destruct (n_op nd).
Qed.
Print Assumptions C53_sums.

(* s = sin(arange(4)); t = s + s; u = -t; y = (u * t).sum(); y + y.  s and t are used twice and get their own
   kernels, u and u * t are fused into the sum. *)
Definition exOnce : list call :=
  [CArange 4; CUnary USin 0; CBinary BAdd 1 1; CUnary UNeg 2; CBinary BMul 3 2; CSum 4 None false; CBinary BAdd 5 5].
Definition exG : graph := match run_prog [] exOnce with Some g => g | None => [] end.
Example C53_nonvacuous : reach exG /\ valid exG 6 /\ exists E fs, convert exG 6 = Done (E, fs) /\ fs = [1; 2; 5; 6] /\
  map (fun f => match E f with Some fd => vops (f_expr fd) | None => [] end) fs = [[VUn USin]; [VBin BAdd]; [VSum; VBin BMul; VUn UNeg]; [VBin BAdd]] /\
  (exists l, NoDup l /\ forall n, In n l <-> cone exG 6 n).
Proof.
  assert (Hr : reach exG) by (eapply (run_prog_reach exOnce []); [constructor|]; unfold exG; destruct (run_prog [] exOnce) eqn:Ee; [reflexivity|]; vm_compute in Ee; discriminate).
  assert (Hv : valid exG 6) by (unfold valid; vm_compute; lia).
  split; [exact Hr|]. split; [exact Hv|].
  destruct (convert exG 6) as [[E fs]|] eqn:HC; [|vm_compute in HC; discriminate].
  exists E, fs. split; [reflexivity|]. assert (Hm : exists p, convert exG 6 = Done p /\ snd p = [1; 2; 5; 6] /\
    map (fun f => match fst p f with Some fd => vops (f_expr fd) | None => [] end) (snd p) = [[VUn USin]; [VBin BAdd]; [VSum; VBin BMul; VUn UNeg]; [VBin BAdd]]).
  { eexists. split; [vm_compute; reflexivity|]. split; vm_compute; reflexivity. }
  destruct Hm as (p & Hp & H1 & H2). rewrite Hp in HC. apply (f_equal (fun o => match o with Done q => q | _ => p end)) in HC. cbv beta iota in HC. subst p. cbn [fst snd] in *.
  split; [exact H1|]. split; [exact H2|]. eapply cone_enum; eauto.
Qed.
