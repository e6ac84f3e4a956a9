(* Fusion neither duplicates nor drops operations: weights of expressions that try_fuse keeps. *)
From Coq Require Import Permutation.
From Verif Require Import Base BaseFacts Util UtilFacts Lang Spec SpecFacts Graph Api Denote DenoteFacts Reach ApiFacts LangInst Prog Algo AlgoSem AlgoConv AlgoConv2 AlgoFuse AlgoFuse2
  AlgoConvert AlgoConvert2 AlgoTop AlgoMore Cost.
From Coq Require Import ZifyBool ZifyNat.
Open Scope list_scope.
Open Scope nat_scope.

(* ------------------------------------------------------------------ specification *)
(* operations on array elements (index arithmetic is not one) *)
Inductive vop := VUn (u : uop) | VBin (b : bop) | VWhere | VSum.
Definition vop_eq_dec (x y : vop) : {x = y} + {x <> y}.
Proof. repeat decide equality. Defined.
(* the element operations a kernel expression performs per output element (a sum: per element summed) *)
Fixpoint vops (e : expr) : list vop :=
  match e with
  | EUn u x => VUn u :: vops x
  | EBin b x y => VBin b :: vops x ++ vops y
  | EWhere _ t f => VWhere :: vops t ++ vops f
  | ESum x _ => VSum :: vops x
  | EIdx _ | EConst _ | EFunc _ _ | EBuf _ _ => []
  end.
(* the element operation of one API call; views have none *)
Definition op_vops (o : nop) : list vop :=
  match o with
  | OUn u => [VUn u]
  | OBin b => [VBin b]
  | OSum _ _ => [VSum]
  | OPad _ _ _ | ODilate _ _ => [VWhere]
  | OConst _ | OReshape _ | OBroadcast _ | OTranspose _ | OSlice _ | OContiguous => []
  end.

(* ------------------------------------------------------------------ sums *)
Lemma nsum_app l1 l2 : nsum (l1 ++ l2) = nsum l1 + nsum l2.
Proof. induction l1; cbn; lia. Qed.
Lemma nsum_zero {A} (f : A -> nat) l : (forall x, In x l -> f x = 0) -> nsum (map f l) = 0.
Proof. induction l as [|x l IH]; cbn; intros H; auto. rewrite IH by auto. rewrite H by auto. reflexivity. Qed.
Lemma nsum_pos {A} (f : A -> nat) l : 0 < nsum (map f l) -> exists x, In x l /\ 0 < f x.
Proof.
  induction l as [|x l IH]; cbn; intros H; [lia|]. destruct (f x) eqn:E; [|exists x; split; [auto|lia]].
  destruct IH as (y & Hy & H2); [lia|]. exists y. auto.
Qed.
Lemma nsum_ge {A} (f : A -> nat) l x : In x l -> f x <= nsum (map f l).
Proof. induction l as [|y l IH]; cbn; intros H; [tauto|]. destruct H as [->|H]; [lia|]. specialize (IH H). lia. Qed.
(* a weight summed over uses = weight times number of uses, summed over the used things *)
Lemma nsum_occ (d : nat -> nat) (l u : list nat) : NoDup l -> incl u l -> nsum (map d u) = nsum (map (fun i => occ u i * d i) l).
Proof.
  intros HN. induction u as [|x u IH]; intros HI; cbn [map nsum].
  - symmetry. apply nsum_zero. intros i _. reflexivity.
  - rewrite IH by (intros y Hy; apply HI; now right).
    assert (Hx : In x l) by (apply HI; now left). clear IH HI.
    rewrite (nsum_map_ext (fun i => occ (x :: u) i * d i) (fun i => (if Nat.eq_dec x i then d i else 0) + occ u i * d i)).
    + rewrite nsum_map_add. f_equal. induction HN as [|y l Hy _ IH]; [destruct Hx|]. cbn [map nsum]. destruct Hx as [->|Hx].
      * destruct (Nat.eq_dec x x); [|congruence]. rewrite nsum_zero; [lia|]. intros i Hi. destruct (Nat.eq_dec x i); [subst; tauto|reflexivity].
      * destruct (Nat.eq_dec x y); [subst; tauto|]. rewrite <- (IH Hx). reflexivity.
    + intros i _. unfold occ. cbn [count_occ]. destruct (Nat.eq_dec x i); lia.
Qed.
Lemma nsum_swap (h : nat -> list nat) (d : nat -> nat) ns l : NoDup l -> (forall n, In n ns -> incl (h n) l) ->
  nsum (map (fun n => nsum (map d (h n))) ns) = nsum (map (fun i => nsum (map (fun n => occ (h n) i) ns) * d i) l).
Proof.
  intros HN. induction ns as [|n ns IH]; intros HI; cbn [map nsum].
  - symmetry. apply nsum_zero. reflexivity.
  - rewrite IH by (intros m Hm; apply HI; now right). rewrite (nsum_occ d l (h n)); auto; [|apply HI; now left].
    rewrite <- nsum_map_add. apply nsum_map_ext. intros i _. lia.
Qed.
Lemma nsum_filter {A} (p : A -> bool) (f : A -> nat) l :
  nsum (map f (filter p l)) = nsum (map (fun x => if p x then f x else 0) l).
Proof. induction l as [|x l IH]; cbn; auto. destruct (p x); cbn; lia. Qed.
Lemma nsum_sub (f : nat -> nat) l1 l2 : NoDup l1 -> NoDup l2 -> incl l1 l2 -> (forall x, In x l2 -> ~ In x l1 -> f x = 0) ->
  nsum (map f l1) = nsum (map f l2).
Proof.
  intros H1 H2 HI HZ. rewrite (nsum_occ f l2 l1 H2 HI). apply nsum_map_ext. intros i Hi. unfold occ.
  destruct (in_dec Nat.eq_dec i l1) as [Hin|Hn].
  - rewrite (proj1 (NoDup_count_occ' Nat.eq_dec l1) H1 i Hin). lia.
  - rewrite (proj1 (count_occ_not_In Nat.eq_dec l1 i) Hn), (HZ i Hi Hn). lia.
Qed.

(* ------------------------------------------------------------------ replacing indices *)
Lemma replace_vops shp ic lim P s e : wfe shp ic lim P e -> forall e', replace_index s e = Done e' -> vops e' = vops e.
Proof.
  induction e using expr_ind'; cbn [wfe]; intros HW e' He; try contradiction.
  - injection He as <-. reflexivity.
  - destruct HW as [W1 W2]. cbn [replace_index] in He. apply obind_Done in He as (x' & Hx & He). apply obind_Done in He as (y' & Hy & He).
    injection He as <-. cbn. now rewrite (IHe1 W1 _ Hx), (IHe2 W2 _ Hy).
  - cbn [replace_index] in He. apply obind_Done in He as (x' & Hx & He). injection He as <-. cbn. now rewrite (IHe HW _ Hx).
  - destruct HW as (_ & W1 & W2). cbn [replace_index] in He. apply obind_Done in He as (c' & Hc & He). apply obind_Done in He as (x' & Hx & He). apply obind_Done in He as (y' & Hy & He).
    injection He as <-. cbn. now rewrite (IHe2 W1 _ Hx), (IHe3 W2 _ Hy).
  - cbn [replace_index] in He. apply obind_Done in He as (x' & Hx & He). injection He as <-. reflexivity.
  - cbn [replace_index] in He. apply obind_Done in He as (x' & Hx & He). injection He as <-. reflexivity.
Qed.

(* ------------------------------------------------------------------ what try_fuse keeps *)
Section Weight.
Context (L : lang) (HL : lang_ok L) (g : graph) (Hw : wf_graph g) (rc : refs).
Let shp := shape_of g.
Context (w : vop -> nat) (d h : nat -> nat).
Definition ow (e : expr) : nat := nsum (map w (vops e)).
Definition tot (e : expr) : nat := ow e + nsum (map d (func_refs e)).
Hypothesis Hd0 : forall f, h f = 0 -> d f = 0.
Hypothesis Hd1 : forall f nd, nth_error g f = Some nd -> rc f = 1 -> (forall ax kd, n_op nd <> OSum ax kd) -> d f = h f.
Definition winv (E : fenv) : Prop := forall f fd, E f = Some fd -> tot (f_expr fd) = h f.

Lemma tot_un u x : tot (EUn u x) = w (VUn u) + tot x.
Proof. unfold tot, ow. cbn [vops func_refs map nsum]. lia. Qed.
Lemma tot_sum x r : tot (ESum x r) = w VSum + tot x.
Proof. unfold tot, ow. cbn [vops func_refs map nsum]. lia. Qed.
Lemma tot_bin b x y : tot (EBin b x y) = w (VBin b) + tot x + tot y.
Proof. unfold tot, ow. cbn [vops func_refs map nsum]. rewrite !map_app, !nsum_app. lia. Qed.
Lemma tot_where c t f : func_refs c = [] -> tot (EWhere c t f) = w VWhere + tot t + tot f.
Proof. intros H. unfold tot, ow. cbn [vops func_refs map nsum]. rewrite H. cbn [app]. rewrite !map_app, !nsum_app. lia. Qed.
Lemma tot_func f ix : tot (EFunc f ix) = d f.
Proof. unfold tot, ow. cbn. lia. Qed.

Lemma fuse_where fuel c t f E : try_fuse fuel rc (EWhere c t f) E =
  ('(c', E1) <~ try_fuse fuel rc c E ;; '(t', E2) <~ try_fuse fuel rc t E1 ;; '(f', E3) <~ try_fuse fuel rc f E2 ;; Done (EWhere c' t' f', E3)).
Proof. destruct fuel; reflexivity. Qed.
Lemma fuse_ix fuel (P : lidx -> Prop) c E0 : is_ix P c -> try_fuse fuel rc c E0 = Done (c, E0).
Proof.
  revert E0. induction c using expr_ind'; intros E0 HHc; cbn [is_ix] in HHc; try contradiction; try (destruct fuel; reflexivity).
  destruct HHc as [Hc1 Hc2]. rewrite fuse_bin, (IHc1 E0 Hc1). cbn [obind]. rewrite (IHc2 E0 Hc2). reflexivity.
Qed.

Definition tw_spec (fuel : nat) : Prop := forall e E lim P, IE g rc E -> wfe shp (isc g) lim P e -> rok rc E e -> lim <= fuel -> winv E ->
  forall e' E', try_fuse fuel rc e E = Done (e', E') -> tot e' = tot e /\ winv E'.

Lemma tw_wff fuel : tw_spec fuel -> forall e E a loops, IE g rc E -> wff shp (isc g) a loops e -> rok rc E e -> a <= fuel -> winv E ->
  forall e' E', try_fuse fuel rc e E = Done (e', E') -> tot e' = tot e /\ winv E'.
Proof.
  intros HT e E a loops HI HWf HR Hf HV e' E' HF. destruct e; cbn [wff] in HWf; try (eapply HT; eassumption).
  destruct HWf as (HW & _). assert (HF' : exists x', try_fuse fuel rc e E = Done (x', E') /\ e' = ESum x' reduced).
  { destruct fuel; cbn [try_fuse] in HF; apply obind_Done in HF as ([x' E1] & Hx & HF); injection HF as <- <-; eauto. }
  destruct HF' as (x' & Hx & ->). destruct (HT e E a _ HI HW HR Hf HV _ _ Hx) as [H1 H2]. rewrite !tot_sum, H1. auto.
Qed.

Lemma tw_ok fuel : tw_spec fuel.
Proof.
  induction fuel as [|k IHk]; intros e; induction e using expr_ind'; intros E lim P HI HW HR Hlim HV e' E' HF; cbn [wfe] in HW; try contradiction.
  1,7: cbn in HF; injection HF as <- <-; auto.
  (* binary *)
  1,6: destruct HW as [HW1 HW2]; rewrite fuse_bin in HF; apply obind_Done in HF as ([x' E1] & Hx & HF); apply obind_Done in HF as ([y' E2] & Hy & HF); injection HF as <- <-;
    unfold rok in HR; cbn [func_refs] in HR;
    assert (HR1 : rok rc E e1) by (intros i Hi; apply HR, in_or_app; now left);
    destruct (IHe1 E lim P HI HW1 HR1 Hlim HV _ _ Hx) as [T1 V1];
    match type of Hx with try_fuse ?n _ _ _ = _ => destruct (try_fuse_ok L g Hw Int64 rc n e1 E lim P HI HW1 HR1 Hlim) as (x2 & E12 & Hx2 & _ & (P1 & P2 & _) & _) end;
    rewrite Hx in Hx2; injection Hx2 as <- <-;
    assert (HR2 : rok rc E1 e2) by (eapply rok_ext; [exact P2|]; intros i Hi; apply HR, in_or_app; now right);
    destruct (IHe2 E1 lim P P1 HW2 HR2 Hlim V1 _ _ Hy) as [T2 V2]; rewrite !tot_bin, T1, T2; auto.
  (* unary *)
  1,5: rewrite fuse_un in HF; apply obind_Done in HF as ([x' E1] & Hx & HF); injection HF as <- <-;
    destruct (IHe E lim P HI HW HR Hlim HV _ _ Hx) as [T1 V1]; rewrite !tot_un, T1; auto.
  (* where *)
  1,4: destruct HW as (HWc & HW1 & HW2); pose proof (is_ix_refs _ _ HWc) as Hc;
    unfold rok in HR; cbn [func_refs] in HR; rewrite Hc in HR; cbn [app] in HR;
    rewrite fuse_where, (fuse_ix _ P e1 E HWc) in HF; cbn [obind] in HF;
    apply obind_Done in HF as ([x' E1] & Hx & HF); apply obind_Done in HF as ([y' E2] & Hy & HF); injection HF as <- <-;
    assert (HR1 : rok rc E e2) by (intros i Hi; apply HR, in_or_app; now left);
    destruct (IHe2 E lim P HI HW1 HR1 Hlim HV _ _ Hx) as [T1 V1];
    match type of Hx with try_fuse ?n _ _ _ = _ => destruct (try_fuse_ok L g Hw Int64 rc n e2 E lim P HI HW1 HR1 Hlim) as (x2 & E12 & Hx2 & _ & (P1 & P2 & _) & _) end;
    rewrite Hx in Hx2; injection Hx2 as <- <-;
    assert (HR2 : rok rc E1 e3) by (eapply rok_ext; [exact P2|]; intros i Hi; apply HR, in_or_app; now right);
    destruct (IHe3 E1 lim P P1 HW2 HR2 Hlim V1 _ _ Hy) as [T2 V2]; rewrite !tot_where, T1, T2; auto.
  (* func, no fuel; buffer *)
  - destruct HW as (HWf & _). lia.
  - cbn in HF; injection HF as <- <-; auto.
  (* func *)
  - destruct HW as (HWf & HWl & HWi). destruct (HR f (or_introl eq_refl)) as [HEf Hrf].
    destruct (E f) as [fd|] eqn:Ef; [|congruence].
    destruct (HI _ _ Ef) as [(nd & Hnd & Hfd & Hwff & Hred & Hcst) Hrefs].
    cbn [try_fuse] in HF. rewrite Ef in HF. cbn [throw_none obind] in HF.
    destruct (Nat.eqb_spec (rc f) 0) as [?|_]; [congruence|].
    rewrite tot_func. pose proof (HV _ _ Ef) as Hh.
    destruct (fusable rc f (f_expr fd)) eqn:Hfus; cbn [negb] in HF.
    + assert (Hnr : has_reduce (f_expr fd) = false).
      { unfold fusable in Hfus. apply orb_true_iff in Hfus as [H'|H'].
        - destruct (f_expr fd); cbn in H'; try discriminate. reflexivity.
        - apply andb_true_iff in H' as [H' _]. now apply negb_true_iff in H'. }
      assert (Hdh : d f = h f).
      { unfold fusable in Hfus. apply orb_true_iff in Hfus as [H'|H'].
        - assert (h f = 0) by (rewrite <- Hh; destruct (f_expr fd); cbn in H'; try discriminate; reflexivity).
          rewrite H0. now apply Hd0.
        - apply andb_true_iff in H' as [_ H']. apply (Hd1 f nd Hnd); [now apply Nat.eqb_eq in H'|]. intros ax kd Ho.
          destruct Hred as [_ Hred]. rewrite Hred in Hnr by eauto. discriminate. }
      pose proof (wff_nored _ _ _ _ _ Hnr Hwff) as Hwe.
      assert (Hloops : f_loops fd = out_loops f (n_shape nd)) by (rewrite Hfd; reflexivity). rewrite Hloops in HF.
      assert (HWl' : length idx = length (n_shape nd)) by (rewrite HWl; f_equal; apply (shape_of_some g); assumption).
      destruct (replace_wfe shp (isc g) f (fun l => In l (out_loops f (n_shape nd))) P (combine (out_loops f (n_shape nd)) idx) (f_expr fd))
        as (e1 & Er & We1 & Re1 & _); [|assumption|].
      { intros l Hl. apply In_nth_error in Hl as [j Hj].
        destruct (nth_error idx j) as [el|] eqn:Eel.
        - exists el. split; [eapply ilookup_combine; eauto; apply out_loops_NoDup|].
          rewrite Forall_forall in HWi. apply HWi. eapply nth_error_In; eauto.
        - apply nth_error_None in Eel. assert (j < length (out_loops f (n_shape nd)))%nat by (apply nth_error_Some; congruence).
          rewrite out_loops_length in H0. lia. }
      rewrite Er in HF. cbn [obind] in HF.
      destruct (IHk e1 E f P HI We1) with (e' := e') (E' := E') as [T1 V1]; auto.
      { intros i Hi. rewrite Re1 in Hi. auto. } { lia. }
      split; auto. rewrite T1, Hdh, <- Hh. unfold tot, ow. now rewrite Re1, (replace_vops _ _ _ _ _ _ Hwe _ Er).
    + apply obind_Done in HF as ([e1 E1] & Hx & HF). injection HF as <- <-. split; [apply tot_func|].
      destruct (tw_wff k IHk (f_expr fd) E f (out_loops f (n_shape nd)) HI Hwff) with (e' := e1) (E' := E1) as [T1 V1]; auto; [lia|].
      intros i fdi Hi. unfold fset in Hi. destruct (Nat.eqb_spec i f) as [->|Hne]; [|now apply V1].
      injection Hi as <-. cbn [set_expr f_expr]. congruence.
  - cbn in HF; injection HF as <- <-; auto.
Qed.
End Weight.

(* the operations of a converted array are those of its API call *)
Lemma conv_vops g n nd e : conv_expr g n nd = Done e -> vops e = op_vops (n_op nd).
Proof.
  unfold conv_expr. destruct (n_op nd); cbn; intros H;
    repeat match type of H with obind _ _ = _ => let x := fresh "x" in let Hx := fresh "Hx" in apply obind_Done in H as (x & Hx & H) end;
    try (injection H as <-; reflexivity).
  - unfold conv_sum in H. repeat match type of H with obind _ _ = _ => let y := fresh "y" in let Hy := fresh "Hy" in apply obind_Done in H as (y & Hy & H) end. injection H as <-. reflexivity.
  - unfold conv_pad in H. repeat match type of H with obind _ _ = _ => let y := fresh "y" in let Hy := fresh "Hy" in apply obind_Done in H as (y & Hy & H) end. injection H as <-. reflexivity.
  - unfold conv_dilate in H. repeat match type of H with obind _ _ = _ => let y := fresh "y" in let Hy := fresh "Hy" in apply obind_Done in H as (y & Hy & H) end. injection H as <-. reflexivity.
Qed.

(* weights by recursion along the graph *)
Lemma weights (F : nat -> (nat -> nat) -> nat) : (forall f W1 W2, (forall i, i < f -> W1 i = W2 i) -> F f W1 = F f W2) ->
  exists W, forall f, W f = F f W.
Proof.
  intros HF. set (go := fix go (k f : nat) : nat := match k with O => 0 | S k' => F f (go k') end).
  assert (HG : forall k1 k2 f, f < k1 -> f < k2 -> go k1 f = go k2 f).
  { induction k1 as [|k1 IH]; intros [|k2] f H1 H2; try lia. cbn. apply HF. intros i Hi. apply IH; lia. }
  exists (fun f => go (S f) f). intros f. cbn. apply HF. intros i Hi. change (F i (go i)) with (go (S i) i). apply HG; lia.
Qed.

(* ------------------------------------------------------------------ a conversion *)
Section Once.
Context (g : graph) (a : nat) (E2 : fenv) (fs : list nat).
Hypothesis Hr : reach g.
Hypothesis Hv : valid g a.
Hypothesis HC : convert g a = Done (E2, fs).
Context (l : list nat).
Hypothesis Hl : NoDup l.
Hypothesis Hcone : forall n, In n l <-> cone g a n.

Definition ins (n : nat) : list nat := match nth_error g n with Some nd => n_in nd | None => [] end.
Definition nops (n : nat) : list vop := match nth_error g n with Some nd => op_vops (n_op nd) | None => [] end.
Definition fexpr (f : nat) : expr := match E2 f with Some fd => f_expr fd | None => EConst 0 end.

Lemma ins_lt n i : In i (ins n) -> i < n.
Proof.
  unfold ins. destruct (nth_error g n) as [nd|] eqn:Hn; [|intros []]. intros Hi.
  pose proof (wf_inputs_lt g n nd (reach_wf g Hr) Hn) as H. rewrite Forall_forall in H. auto.
Qed.
Lemma ins_cone n i : cone g a n -> In i (ins n) -> cone g a i.
Proof. unfold ins. destruct (nth_error g n) as [nd|] eqn:Hn; [|intros _ []]. intros. eapply cone_step; eauto. Qed.

(* everything the counting argument needs to know about the conversion *)
Lemma once_setup : exists rc,
  (forall f, In f l -> rc f = nsum (map (fun n => occ (ins n) f) l)) /\
  (forall f, In f fs -> In f l /\ E2 f <> None) /\
  (forall f i, In f fs -> In i (func_refs (fexpr f)) -> In i fs /\ i < f /\
     exists nd, nth_error g i = Some nd /\ ((exists ax kd, n_op nd = OSum ax kd) \/ 2 <= rc i)) /\
  In a fs /\ NoDup fs /\
  (forall f, In f fs -> f = a \/ exists nd, nth_error g f = Some nd /\ ((exists ax kd, n_op nd = OSum ax kd) \/ 2 <= rc f)) /\
  (forall w d h, (forall f, h f = 0 -> d f = 0) ->
     (forall f nd, nth_error g f = Some nd -> rc f = 1 -> (forall ax kd, n_op nd <> OSum ax kd) -> d f = h f) ->
     (forall n, cone g a n -> h n = nsum (map w (nops n)) + nsum (map d (ins n))) ->
     forall f, In f fs -> nsum (map w (vops (fexpr f))) + nsum (map d (func_refs (fexpr f))) = h f).
Proof using Hr Hv HC Hl Hcone.
  pose proof (reach_wf g Hr) as Hw. pose proof (converted_ns g a E2 fs Hr Hv HC) as Hns.
  pose proof (convert_inv _ g a E2 fs any_lang_ok Hr Hv Hns HC) as HS.
  destruct (convert_parts g a E2 fs Hr Hv Hns HC) as (E & fda & rc & e & E1 & HE & Ea & Hall & Hrcd & HF & HE2).
  set (LL := py_lang no_libm). assert (HLL : lang_ok LL) by apply py_lang_ok.
  assert (HK : forall f fd, E f = Some fd -> exists nd, nth_error g f = Some nd /\ cone g a f /\
     fd = mkF (out_loops f (n_shape nd)) (n_shape nd) (n_dtype nd) (f_expr fd) f /\
     wff (shape_of g) (isc g) f (out_loops f (n_shape nd)) (f_expr fd) /\ func_refs (f_expr fd) = n_in nd /\
     (has_reduce (f_expr fd) = true <-> exists ax kd, n_op nd = OSum ax kd) /\
     (is_buf (f_expr fd) = true <-> is_const (n_op nd) = true) /\ vops (f_expr fd) = op_vops (n_op nd)).
  { intros f fd Hf. destruct (HE _ _ Hf) as (Hcn & (nd & e0 & Hnd & Hce & ->) & _). exists nd. cbn [f_expr].
    destruct (conv_expr_ok LL HLL g Hw f nd Hnd (Hns f nd Hcn Hnd)) as (e' & He' & W & R & HR & HB & _).
    rewrite Hce in He'. injection He' as <-. repeat (split; [assumption || reflexivity|]). eapply conv_vops; eauto. }
  assert (HE0 : forall f fd, E f = Some fd -> forall i, In i (func_refs (f_expr fd)) -> (i < f)%nat /\ E i <> None).
  { intros f fd Hf i Hi. destruct (HK _ _ Hf) as (nd & Hnd & Hcn & _ & W & R & _). split.
    - eapply wff_refs; eauto.
    - apply Hall. rewrite R in Hi. eapply cone_step; eauto. }
  assert (HN : forall f fd, E f = Some fd -> (f < length g)%nat).
  { intros f fd Hf. destruct (HK _ _ Hf) as (nd & Hnd & _). apply nth_error_Some. congruence. }
  assert (Hins : forall n, cone g a n -> erefs E n = ins n).
  { intros n Hn. unfold erefs, ins. destruct (E n) as [fd|] eqn:En; [|exfalso; eapply Hall; eauto].
    destruct (HK _ _ En) as (nd & -> & _ & _ & _ & R & _). exact R. }
  assert (Hnon : forall n, ~ cone g a n -> erefs E n = []).
  { intros n Hn. unfold erefs. destruct (E n) as [fd|] eqn:En; auto. destruct (HK _ _ En) as (nd & _ & Hcn & _). tauto. }
  assert (Hvl : a < length g) by exact Hv.
  destruct (count_refs_ok E (length g) HE0 HN (S (length g)) (f_expr fda) (fun _ => 0%nat) a (HE0 _ _ Ea)) as (rc' & Erc & Hrc); [lia|].
  rewrite Hrcd in Erc. injection Erc as <-.
  assert (Hfa : func_refs (f_expr fda) = ins a) by (rewrite <- Hins by apply cone_self; unfold erefs; now rewrite Ea).
  assert (Hocca : forall n, cone g a n -> occ (ins n) a = 0).
  { intros n Hn. apply count_occ_not_In. intros Hi. apply ins_lt in Hi. pose proof (cone_le g Hw a n Hn). lia. }
  assert (Hrca : rc a = 0).
  { rewrite (Hrc a), Hfa, Hocca by apply cone_self. unfold uses. rewrite nsum_zero; [reflexivity|]. intros n _. destruct (AlgoFuse.fresh _ _ n); auto.
    destruct (in_dec Nat.eq_dec n l) as [Hi|Hi]; rewrite Hcone in Hi; [rewrite Hins by assumption; auto|rewrite Hnon by assumption; reflexivity]. }
  assert (Hpos : forall f, cone g a f -> f = a \/ rc f <> 0).
  { induction 1 as [|n nd b Hcn IH Hn Hb]; auto. right. rewrite (Hrc b).
    assert (Hocc : (0 < occ (ins n) b)%nat) by (unfold ins; rewrite Hn; now apply count_occ_In).
    destruct IH as [->|IH]; [rewrite Hfa; lia|].
    assert (Hu : (occ (ins n) b <= uses E (length g) (fun _ => 0%nat) rc b)%nat); [|lia].
    unfold uses. assert (HSq : In n (seq 0 (length g))) by (apply in_seq; assert (n < length g) by (apply nth_error_Some; congruence); lia).
    eapply Nat.le_trans; [|apply (nsum_ge (fun n => if AlgoFuse.fresh (fun _ => 0%nat) rc n then occ (erefs E n) b else 0) _ n HSq)].
    cbv beta. unfold AlgoFuse.fresh. cbn. destruct (Nat.eqb_spec (rc n) 0); [congruence|]. cbn. rewrite Hins by assumption. lia. }
  (* the invariant of fusion *)
  assert (HIE : IE g rc E).
  { intros f fd Hf. destruct (HK _ _ Hf) as (nd & Hnd & Hcn & Hfd & W & R & HR & HB & _). split.
    - exists nd. split; [assumption|]. split; [assumption|]. split; [assumption|]. split; [assumption|]. apply HB.
    - intros i Hi. destruct (HE0 _ _ Hf i Hi) as [Hlt HEi]. split; auto.
      destruct (Hpos i) as [->|?]; auto. { rewrite R in Hi. eapply cone_step; eauto. } pose proof (cone_le g Hw a f Hcn). lia. }
  destruct (HK _ _ Ea) as (nda & Hnda & _ & Hfda & Wa & Ra & HRa & HBa & Va).
  assert (Hroka : rok rc E (f_expr fda)) by (intros i Hi; exact (proj2 (HIE _ _ Ea) i Hi)).
  destruct (tf_wff LL g Int64 rc (S (length g)) (try_fuse_ok LL g Hw Int64 rc _) (f_expr fda) E a (out_loops a (n_shape nda)) HIE Wa Hroka)
    as (e' & E1' & HF' & We & (P1 & P2 & P3 & _) & _); [lia|].
  rewrite HF in HF'. injection HF' as <- <-.
  assert (Hf2 : E2 a = Some (set_expr fda e)) by (rewrite HE2; unfold fset; now rewrite Nat.eqb_refl).
  assert (Hne2 : forall i, i <> a -> E2 i = E1 i).
  { intros i Hi. rewrite HE2. unfold fset. destruct (Nat.eqb_spec i a); [lia|reflexivity]. }
  destruct (cs_last _ _ _ _ _ HS) as (l0 & Hl0). assert (Hafs : In a fs) by (rewrite Hl0; apply in_elt).
  assert (Htopo : forall f i, In f fs -> In i (func_refs (fexpr f)) -> In i fs /\ i < f).
  { intros f i Hf Hi. unfold fexpr in Hi. destruct (E2 f) as [fd|] eqn:Ef; [|destruct Hi].
    destruct (cs_entry _ _ _ _ _ HS f Hf) as (fd' & Hfd' & (nd & _ & _ & W & _)). assert (fd' = fd) by congruence. subst fd'.
    split; [|eapply wff_refs; eauto]. apply in_split in Hf as (k1 & k2 & Hk). rewrite Hk. apply in_or_app. left.
    exact (cs_topo _ _ _ _ _ HS k1 f k2 Hk fd Ef i Hi). }
  (* every kernel in the list is reached from a, hence processed *)
  assert (Hrch : forall f, In f fs -> rch E2 a f).
  { unfold convert in HC. destruct (order_ok E2) with (fuel := S (length g)) (f := a) (st := (@nil nat, @nil nat)) as ([seen fs'] & EO & _ & ((ll & Hll & Hrch) & _) & _).
    - intros f fd Hf i Hi. destruct (Nat.eq_dec f a) as [->|Hfa'].
      + rewrite Hf2 in Hf. injection Hf as <-. cbn [set_expr f_expr] in Hi. assert (i < a) by (eapply wff_refs; eauto). split; auto.
        rewrite Hne2 by lia. apply (P3 i Hi).
      + rewrite Hne2 in Hf by assumption. destruct (P1 _ _ Hf) as [(nd & _ & _ & W & _) HR]. split; [eapply wff_refs; eauto|].
        destruct (Nat.eq_dec i a) as [->|Hia]; [congruence|]. rewrite Hne2 by assumption. apply HR. assumption.
    - lia.
    - congruence.
    - split; [intros l1 x l2 H; destruct l1; discriminate|]. split; [constructor|]. split; [intros x []|]. split; [intros x []|constructor].
    - cbn in Hll. subst ll. apply obind_Done in HC as (E' & HA & HC'). apply obind_Done in HC' as (fd' & Hfd' & HC'). apply obind_Done in HC' as (rc' & Hrc' & HC').
      apply obind_Done in HC' as ([e' E1'] & HF' & HC'). apply obind_Done in HC' as ([sn fs2] & HO & HC'). apply done2 in HC' as [HX1 HX2].
      rewrite HX1, EO in HO. apply done2 in HO as [_ HO]. rewrite HO, HX2 in Hrch. rewrite Forall_forall in Hrch. exact Hrch. }
  assert (Hdn : forall f, rch E2 a f -> f = a \/ dn g rc E2 f).
  { assert (Hp : processed g rc E2 a).
    { intros fd Hfd j Hj. rewrite Hf2 in Hfd. injection Hfd as <-. cbn in Hj.
      eapply (dn_below g rc E1 E2 a P1); [|apply P3; exact Hj|eapply wff_refs; eauto].
      intros i Hi. apply Hne2. lia. }
    induction 1 as [|x d Hx IH Hd]; auto. right. unfold deps in Hd. destruct (E2 x) as [fdx|] eqn:Ex; [|destruct Hd].
    destruct IH as [->|IH]; [eapply Hp; eauto|]. destruct IH as [_ IH]. eapply IH; eauto. }
  assert (Hkeep : forall f, In f fs -> f = a \/ exists nd, nth_error g f = Some nd /\ ((exists ax kd, n_op nd = OSum ax kd) \/ 2 <= rc f)).
  { intros f Hf. destruct (Hdn f (Hrch f Hf)) as [?|[(nd & H1 & H2 & H3) _]]; auto. right. exists nd. auto. }
  exists rc. repeat match goal with |- _ /\ _ => split end.
  - intros f Hf. rewrite (Hrc f). cbn [Nat.add]. rewrite Hfa.
    rewrite (nsum_sub (fun n => occ (ins n) f) l (a :: filter (fun n => AlgoFuse.fresh (fun _ => 0%nat) rc n) (filter (fun n => if in_dec Nat.eq_dec n l then true else false) (seq 0 (length g))))).
    + cbn [map nsum]. f_equal. rewrite nsum_filter, nsum_filter. unfold uses. apply nsum_map_ext. intros n _.
      destruct (in_dec Nat.eq_dec n l) as [Hi|Hi]; rewrite Hcone in Hi.
      * rewrite Hins by assumption. reflexivity.
      * rewrite Hnon by assumption. destruct (AlgoFuse.fresh _ _ n); reflexivity.
    + exact Hl.
    + constructor.
      * intros Hi. apply filter_In in Hi as [_ Hi]. unfold AlgoFuse.fresh in Hi. rewrite Hrca in Hi. discriminate.
      * apply NoDup_filter, NoDup_filter, seq_NoDup.
    + intros n Hn. pose proof (proj1 (Hcone n) Hn) as Hcn. destruct (Hpos n Hcn) as [->|Hnz]; [now left|right].
      apply filter_In. split.
      * apply filter_In. split; [|destruct (in_dec Nat.eq_dec n l); tauto]. apply in_seq. pose proof (cone_le g Hw a n Hcn). lia.
      * unfold AlgoFuse.fresh. cbn. apply negb_true_iff, Nat.eqb_neq. exact Hnz.
    + intros n Hn Hnl. exfalso. apply Hnl. destruct Hn as [<-|Hn]; [apply Hcone, cone_self|].
      apply filter_In in Hn as [Hn _]. apply filter_In in Hn as [_ Hn]. destruct (in_dec Nat.eq_dec n l); [assumption|discriminate].
  - intros f Hf. split; [apply Hcone, (cs_cone _ _ _ _ _ HS f Hf)|]. destruct (cs_entry _ _ _ _ _ HS f Hf) as (fd & Hfd & _). congruence.
  - intros f i Hf Hi. destruct (Htopo f i Hf Hi) as [H1 H2]. split; auto. split; auto.
    destruct (Hkeep i H1) as [->|?]; auto. pose proof (cone_le g Hw a f (cs_cone _ _ _ _ _ HS f Hf)). lia.
  - exact Hafs.
  - exact (cs_nodup _ _ _ _ _ HS).
  - exact Hkeep.
  - intros w d h H0 H1 Hh.
    assert (HV : winv w d h E).
    { intros f fd Hf. destruct (HK _ _ Hf) as (nd & Hnd & Hcn & _ & _ & R & _ & _ & V). rewrite (Hh f Hcn). unfold tot, ow, nops, ins. rewrite Hnd, R, V. reflexivity. }
    destruct (tw_wff g rc w d h (S (length g)) (tw_ok LL g Hw rc w d h H0 H1 (S (length g))) (f_expr fda) E a (out_loops a (n_shape nda)) HIE Wa Hroka) with (e' := e) (E' := E1) as [T1 V1]; auto; [lia|].
    intros f Hf. unfold fexpr. destruct (cs_entry _ _ _ _ _ HS f Hf) as (fd & Hfd & _). rewrite Hfd.
    destruct (Nat.eq_dec f a) as [->|Hne].
    + rewrite Hf2 in Hfd. injection Hfd as <-. cbn [set_expr f_expr]. change (tot w d e = h a). rewrite T1. now apply HV.
    + rewrite Hne2 in Hfd by assumption. exact (V1 _ _ Hfd).
Qed.

Lemma once_weight (w : vop -> nat) : nsum (map (fun f => nsum (map w (vops (fexpr f)))) fs) = nsum (map (fun n => nsum (map w (nops n))) l).
Proof using Hr Hv HC Hl Hcone.
  destruct once_setup as (rc & Hrc & Hfs & Hrefs & Hafs & Hnd & Hkeep & Htot).
  set (issum := fun i => match nth_error g i with Some nd => match n_op nd with OSum _ _ => true | _ => false end | None => true end).
  set (fus := fun i => Nat.eqb (rc i) 1 && negb (issum i)).
  set (loc := fun n => nsum (map w (nops n))).
  assert (Hfus : forall i nd, nth_error g i = Some nd -> ((exists ax kd, n_op nd = OSum ax kd) \/ 2 <= rc i) -> fus i = false).
  { intros i nd Hn [(ax & kd & Ho)|H2]; unfold fus, issum.
    - rewrite Hn, Ho. apply andb_false_r.
    - destruct (Nat.eqb_spec (rc i) 1); [lia|reflexivity]. }
  assert (Hfus1 : forall f nd, nth_error g f = Some nd -> rc f = 1 -> (forall ax kd, n_op nd <> OSum ax kd) -> fus f = true).
  { intros f nd Hn H1 H2. unfold fus, issum. rewrite Hn, H1. cbn. destruct (n_op nd); try reflexivity. exfalso. eapply H2; eauto. }
  destruct (weights (fun f W => loc f + nsum (map (fun i => if fus i then W i else 0) (ins f)))) as (W & HW).
  { intros f W1 W2 H. f_equal. apply nsum_map_ext. intros i Hi. destruct (fus i); auto. apply H. now apply ins_lt in Hi. }
  set (d := fun i => if fus i then W i else 0).
  assert (HWd : forall f, W f = loc f + nsum (map d (ins f))) by exact HW.
  (* inside the kernels *)
  assert (HK : forall f, In f fs -> nsum (map w (vops (fexpr f))) = W f).
  { intros f Hf. rewrite <- (Htot w d W) with (f := f); auto.
    - rewrite (nsum_zero d); [lia|]. intros i Hi. destruct (Hrefs f i Hf Hi) as (_ & _ & nd & Hn & Hk). unfold d. now rewrite (Hfus i nd).
    - intros i Hi. unfold d. destruct (fus i); auto.
    - intros i nd Hn H1 H2. unfold d. now rewrite (Hfus1 i nd).
    - intros n _. apply HWd. }
  rewrite (nsum_map_ext _ W) by exact HK.
  (* kernels = unfused arrays with operations *)
  assert (Hafus : fus a = false).
  { unfold fus. destruct (Nat.eqb_spec (rc a) 1) as [H1|]; [|reflexivity]. exfalso. rewrite (Hrc a) in H1 by (apply Hcone, cone_self).
    rewrite nsum_zero in H1; [discriminate|]. intros n Hn. apply count_occ_not_In. intros Hi. apply ins_lt in Hi.
    apply Hcone in Hn. pose proof (cone_le g (reach_wf g Hr) a n Hn). lia. }
  assert (Hsolid : forall f0, In f0 l -> fus f0 = false -> 0 < W f0 -> In f0 fs).
  { intros f0 Hf0 Hnf HWp.
    destruct (weights (fun f T => loc f + nsum (map T (ins f)))) as (T & HT).
    { intros f W1 W2 H. f_equal. apply nsum_map_ext. intros i Hi. apply H. now apply ins_lt in Hi. }
    set (one := fun i => if Nat.eq_dec i f0 then 1 else 0).
    destruct (weights (fun f R => nsum (map (fun i => R i + one i) (ins f)))) as (R & HR).
    { intros f W1 W2 H. apply nsum_map_ext. intros i Hi. f_equal. apply H. now apply ins_lt in Hi. }
    assert (HTp : 0 < T f0).
    { assert (Hle : forall k f, f <= k -> W f <= T f).
      { induction k as [|k IH]; intros f Hk; rewrite HWd, HT; apply Nat.add_le_mono_l.
        - assert (ins f = []) as ->; [|cbn; lia]. destruct (ins f) as [|i r] eqn:Ei; auto. assert (i < f) by (apply ins_lt; rewrite Ei; now left). lia.
        - assert (Hi : forall i, In i (ins f) -> i < f) by (intros; now apply ins_lt).
          induction (ins f) as [|i r IHr]; cbn; [lia|]. apply Nat.add_le_mono; [|apply IHr; intros; apply Hi; now right].
          specialize (Hi i (or_introl eq_refl)). unfold d. destruct (fus i); [apply IH; lia|lia]. }
      specialize (Hle f0 f0 (le_n _)). lia. }
    assert (HR2 : forall f, In f fs -> nsum (map (fun i => R i + one i) (func_refs (fexpr f))) = R f).
    { intros f Hf.
      assert (H1 : nsum (map w (vops (fexpr f))) + nsum (map T (func_refs (fexpr f))) = T f) by (apply (Htot w T T); auto; intros n _; apply HT).
      assert (H2 : nsum (map w (vops (fexpr f))) + nsum (map (fun i => T i + (R i + one i)) (func_refs (fexpr f))) = T f + R f).
      { apply (Htot w (fun i => T i + (R i + one i)) (fun f => T f + R f)); auto.
        - intros i Hi. unfold one. destruct (Nat.eq_dec i f0); [subst; lia|lia].
        - intros i nd Hn H1' H2'. unfold one. destruct (Nat.eq_dec i f0); [|lia]. subst i. rewrite (Hfus1 f0 nd) in Hnf; auto. discriminate.
        - intros n _. rewrite nsum_map_add. pose proof (HT n). pose proof (HR n). fold (loc n). lia. }
      rewrite nsum_map_add in H2. lia. }
    assert (Hup : forall m, cone g a m -> m = f0 \/ 0 < R m -> a = f0 \/ 0 < R a).
    { induction 1 as [|n nd b Hcn IH Hn Hb]; auto. intros Hm. apply IH. right. rewrite HR.
      assert (Hbi : In b (ins n)) by (unfold ins; now rewrite Hn).
      eapply Nat.lt_le_trans; [|apply (nsum_ge (fun i => R i + one i) _ b Hbi)]. cbv beta. unfold one. destruct (Nat.eq_dec b f0); [lia|]. destruct Hm; [tauto|lia]. }
    assert (Hdown : forall k n, n <= k -> In n fs -> n = f0 \/ 0 < R n -> In f0 fs).
    { induction k as [|k IH]; intros n Hk Hn [->|HRn]; auto.
      - rewrite <- (HR2 n Hn) in HRn. apply nsum_pos in HRn as (i & Hi & _). destruct (Hrefs n i Hn Hi) as (_ & ? & _). lia.
      - rewrite <- (HR2 n Hn) in HRn. apply nsum_pos in HRn as (i & Hi & Hp). destruct (Hrefs n i Hn Hi) as (Hif & Hlt & _).
        apply (IH i); [lia|assumption|]. unfold one in Hp. destruct (Nat.eq_dec i f0); auto. right. lia. }
    apply (Hdown a a (le_n _) Hafs). apply (Hup f0); [now apply Hcone|now left]. }
  (* counting *)
  assert (H1 : nsum (map W fs) = nsum (map (fun n => if fus n then 0 else W n) l)).
  { rewrite (nsum_sub W fs (filter (fun n => negb (fus n)) l)).
    - rewrite nsum_filter. apply nsum_map_ext. intros n _. now destruct (fus n).
    - exact Hnd.
    - now apply NoDup_filter.
    - intros f Hf. apply filter_In. split; [apply (Hfs f Hf)|]. apply negb_true_iff. destruct (Hkeep f Hf) as [->|(nd & Hn & Hk)]; auto. eapply Hfus; eauto.
    - intros n Hn Hnf. apply filter_In in Hn as [Hn1 Hn2]. apply negb_true_iff in Hn2. destruct (Nat.eq_dec (W n) 0); auto. exfalso. apply Hnf, Hsolid; auto. lia. }
  assert (H2 : nsum (map W l) = nsum (map loc l) + nsum (map d l)).
  { rewrite (nsum_map_ext W (fun f => loc f + nsum (map d (ins f)))) by (intros; apply HWd). rewrite nsum_map_add. f_equal.
    rewrite (nsum_swap ins d l l Hl).
    - apply nsum_map_ext. intros i Hi. rewrite <- (Hrc i Hi). unfold d, fus. destruct (Nat.eqb_spec (rc i) 1) as [E1|E1]; cbn; [rewrite E1; lia|lia].
    - intros n Hn i Hi. apply Hcone. eapply ins_cone; eauto. now apply Hcone. }
  assert (H3 : nsum (map W l) = nsum (map (fun n => if fus n then 0 else W n) l) + nsum (map d l)).
  { rewrite <- nsum_map_add. apply nsum_map_ext. intros n _. unfold d. destruct (fus n); lia. }
  change (nsum (map W fs) = nsum (map loc l)). lia.
Qed.

Lemma flat_weight {A} (w : vop -> nat) (h : A -> list vop) m : nsum (map w (flat_map h m)) = nsum (map (fun x => nsum (map w (h x))) m).
Proof. induction m as [|x m IH]; cbn; auto. rewrite map_app, nsum_app, IH. reflexivity. Qed.
Lemma count_weight m v : count_occ vop_eq_dec m v = nsum (map (fun x => if vop_eq_dec x v then 1 else 0) m).
Proof. induction m as [|x m IH]; cbn; auto. destruct (vop_eq_dec x v); cbn; lia. Qed.

Theorem once : Permutation (flat_map (fun f => vops (fexpr f)) fs) (flat_map nops l).
Proof using Hr Hv HC Hl Hcone.
  apply (Permutation_count_occ vop_eq_dec). intros v. rewrite !count_weight, !flat_weight. apply once_weight.
Qed.
End Once.
