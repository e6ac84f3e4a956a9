(* The loop of backward() preserves the pairing of gradients with tangents; hence the gradient theorem. *)
From Coq Require Import Reals Lra.
From Coquelicot Require Import Coquelicot.
From Verif Require Import Base BaseFacts Util UtilFacts Lang Spec SpecFacts Graph Api Denote DenoteFacts Reach ApiFacts
  FrontFacts2 FrontFacts3 Backward BackSpec BackOrder BackSteps BackIdx BackRules BackRun BackTop RealAlg GradSpec BackAdj BackReal.
Local Open Scope R_scope.

Lemma rsum_upd {X} (l : list X) (a : X) f f' d : NoDup l -> In a l -> (forall n, In n l -> n <> a -> f' n = f n) -> f' a = f a + d ->
  rsum l f' = rsum l f + d.
Proof.
  intros HN. induction HN as [|z l Hz HN IH]; intros Ha H Hd; [destruct Ha|]. cbn. destruct Ha as [->|Ha].
  - rewrite Hd. rewrite (rsum_ext l f' f); [lra|]. intros n Hn. apply H; [now right|]. intros ->. contradiction.
  - rewrite (H z); [|now left|intros ->; contradiction]. rewrite IH; [lra|assumption| |assumption]. intros n Hn. apply H. now right.
Qed.

Definition okAt (X : list Z -> res R) (s : list Z) : Prop := forall i, in_range s i -> X i = Ok (rv (X i)).

Lemma dep_op g n x : depends g n x -> n <> x -> is_op g n.
Proof. intros H Hne. destruct H as [|y nd a n E Ha Hd]; [congruence|]. exists nd. split; [assumption|]. intros Hx. rewrite Hx in Ha. destruct Ha. Qed.
Section G.
Context (g : graph) (Hr : reach g) (x y : nat) (Hvy : valid g y) (Hreg : regular g y) (Hyx : depends g y x) (e : list Z -> R) (Hsm : smooth g y x).
Let Hvx : valid g x := depends_valid _ _ _ Hr Hvy Hyx.
Let T := Tx g x e.
Let V := Vx g.
Let Hlt := reach_inputs_lt _ Hr.
Let dep (n : nat) : bool := if dep_dec g n Hlt y then true else false.
Definition gnodes := filter dep (seq 0 (length g)).

Lemma in_gnodes n : In n gnodes <-> depends g y n.
Proof.
  unfold gnodes, dep. rewrite filter_In, in_seq. destruct (dep_dec g n Hlt y) as [H|H].
  - split; [intros _; assumption|]. intros _. split; [|reflexivity]. pose proof (depends_valid _ _ _ Hr Hvy H). unfold valid in *. lia.
  - split; [intros (_ & E); discriminate|contradiction].
Qed.
Lemma nodup_gnodes : NoDup gnodes.
Proof. apply NoDup_filter, seq_NoDup. Qed.

Definition bra (s : list Z) (X : list Z -> res R) (f : list Z -> R) : R := rsum (all_idx s) (fun i => rv (X i) * f i).
Definition pair (G : graph) (gs : grads) (n : nat) : R :=
  match gs n with None => 0 | Some r => bra (shape_of g n) (t_at (den RA G r)) (T n) end.
Definition act (n : nat) : Prop := depends g y n /\ depends g n x.
Definition act_ok (G : graph) (gs : grads) : Prop := forall n r, act n -> gs n = Some r -> okAt (t_at (den RA G r)) (shape_of g n).
Definition Wsum (q : nat -> bool) (G : graph) (gs : grads) : R := rsum gnodes (fun n => if q n then 0 else pair G gs n).

Lemma bra_ext s X X' f : (forall i, in_range s i -> X i = X' i) -> bra s X f = bra s X' f.
Proof. intros H. apply rsum_ext. intros i Hi. apply in_all_idx in Hi. now rewrite H. Qed.
Lemma bra_zero s X f : (forall i, in_range s i -> f i = 0) -> bra s X f = 0.
Proof. intros H. apply rsum_zero. intros i Hi. apply in_all_idx in Hi. rewrite H by assumption. ring. Qed.
Lemma T_out n : depends g y n -> ~ depends g n x -> forall i, in_range (shape_of g n) i -> T n i = 0.
Proof. intros Hd Hn i Hi. exact (T_indep g Hr x y Hvx Hvy e Hsm n i Hd Hi (depends_valid _ _ _ Hr Hvy Hd) Hn). Qed.

Lemma pair_same G G' gs gs' n : extends G G' -> grads_ok G gs -> gs' n = gs n -> pair G' gs' n = pair G gs n.
Proof.
  intros He Ho E. unfold pair. rewrite E. destruct (gs n) as [r|] eqn:En; [|reflexivity]. destruct (Ho n r En) as (_ & Vr & _).
  now rewrite (ext_den RA _ _ _ He Vr).
Qed.

(* adding contributions *)
Lemma accum_pair : forall xs G1 gs G2 gs2, accum RA G1 gs xs G2 gs2 -> extends g G1 ->
  (forall a gx, In (a, gx) xs -> depends g y a /\ valid G1 gx /\ (depends g a x -> okAt (t_at (den RA G1 gx)) (shape_of g a))) ->
  act_ok G1 gs ->
  act_ok G2 gs2 /\ forall q, (forall a gx, In (a, gx) xs -> q a = false) ->
    Wsum q G2 gs2 = Wsum q G1 gs + rsum xs (fun p => bra (shape_of g (fst p)) (t_at (den RA G1 (snd p))) (T (fst p))).
Proof.
  induction 1 as [G gs|G gs a gx l G1 r G2 gs2 R1 E1 Va Vg Sg Ok0 Ok1 HV HA IH]; intros He Hxs Hact.
  { split; [assumption|]. intros q _. cbn. ring. }
  assert (He1 : extends g G1) by (eapply ext_trans; eauto).
  destruct (Hxs a gx ltac:(now left)) as (Hda & _ & Hok).
  assert (Sa : shape_of G a = shape_of g a) by exact (ext_shape _ _ _ He (depends_valid _ _ _ Hr Hvy Hda)).
  rewrite Sa in HV, Sg.
  refine (match IH He1 _ _ with conj IH1 IH2 => _ end).
  { intros b gb Hb. destruct (Hxs b gb ltac:(now right)) as (H1 & H2 & H3). split; [assumption|]. split; [exact (ext_valid _ _ _ E1 H2)|].
    intros H4 i Hi. rewrite (ext_den RA _ _ _ E1 H2). now apply H3. }
  { intros n r' Hn Hr'. destruct (Nat.eq_dec n a) as [->|Hne].
    - rewrite set_grad_same in Hr'. injection Hr' as <-. intros i Hi. rewrite HV by assumption. destruct Hn as (_ & Hn).
      destruct (gs a) as [old|] eqn:Eo.
      + pose proof (Hact a old (conj Hda Hn) Eo i Hi) as Q1. pose proof (Hok Hn i Hi) as Q2. rewrite Q1, Q2. reflexivity.
      + now apply Hok.
    - rewrite set_grad_other in Hr' by assumption. intros i Hi. destruct (Ok0 n r' Hr') as (_ & Vr' & _). rewrite (ext_den RA _ _ _ E1 Vr'). eapply Hact; eauto. }
  split; [assumption|]. intros q Hq. rewrite IH2 by (intros; eapply Hq; right; eassumption). cbn [rsum fst snd].
  rewrite (rsum_ext l _ (fun p => bra (shape_of g (fst p)) (t_at (den RA G (snd p))) (T (fst p)))).
  2:{ intros (b, gb) Hb. cbn [fst snd]. destruct (Hxs b gb ltac:(now right)) as (_ & H2 & _). now rewrite (ext_den RA _ _ _ E1 H2). }
  assert (HW : Wsum q G1 (set_grad gs a r) = Wsum q G gs + bra (shape_of g a) (t_at (den RA G gx)) (T a)); [|rewrite HW; ring].
  unfold Wsum. apply (rsum_upd gnodes a); [apply nodup_gnodes|now apply in_gnodes| |].
  - intros n _ Hne. destruct (q n); [reflexivity|]. eapply pair_same; eauto. now apply set_grad_other.
  - rewrite (Hq a gx) by now left. unfold pair. rewrite set_grad_same.
    rewrite (bra_ext _ _ _ _ HV). destruct (gs a) as [old|] eqn:Eo; [|rewrite Rplus_0_l; reflexivity].
    destruct (dep_dec g x Hlt a) as [Hax|Hax].
    + unfold bra. rewrite <- rsum_plus. apply rsum_ext. intros i Hi. apply in_all_idx in Hi.
      pose proof (Hact a old (conj Hda Hax) Eo i Hi) as Q1. pose proof (Hok Hax i Hi) as Q2. rewrite Q1, Q2. cbn. ring.
    + rewrite !bra_zero by (now apply T_out). ring.
Qed.

(* the element operations' rules: exact partial derivatives *)
Lemma V_at n i : depends g y n -> in_range (shape_of g n) i -> t_at (den RA g n) i = Ok (V n i).
Proof. intros. now apply (V_ok g x y Hsm). Qed.

Lemma rule_pairs f nd (G : list Z -> res R) : depends g y f -> nth_error g f = Some nd -> n_in nd <> [] -> f <> x -> depends g f x ->
  okAt G (shape_of g f) ->
  let X k := match nth_error (n_in nd) k with Some a => t_at (den RA g a) | None => fun _ => Fault end in
  let s := match nth_error (n_in nd) 0 with Some a => shape_of g a | None => [] end in
  let B := bw_val RA (n_op nd) s (shape_of g f) (X 0%nat) (X 1%nat) (t_at (den RA g f)) G in
  (forall k a, nth_error (n_in nd) k = Some a -> depends g a x -> okAt (B k) (shape_of g a)) /\
  bra (shape_of g f) G (T f) = rsum (combine (seq 0 (length (n_in nd))) (n_in nd)) (fun p => bra (shape_of g (snd p)) (B (fst p)) (T (snd p))).
Proof.
  intros Hd Hn Hne Hfx Hdx HG X s B.
  assert (HT : forall i, in_range (shape_of g f) i -> T f i = Tform g x e nd i).
  { intros i Hi. exact (T_op g Hr x y Hvx Hvy e Hsm f nd Hd Hn Hne Hfx Hdx i Hi). }
  assert (HTF : bra (shape_of g f) G (T f) = bra (shape_of g f) G (Tform g x e nd)).
  { apply rsum_ext. intros i Hi. apply in_all_idx in Hi. now rewrite HT. }
  rewrite HTF. clear HTF.
  destruct (op_shape g Hr f nd Hn Hne) as (a & Ha & Hva & HL & HU & HB & Hc).
  assert (Hda : depends g y a) by (eapply dep_in; eauto; eapply nth_error_In; eauto).
  assert (EB : B = bw_val RA (n_op nd) (shape_of g a) (shape_of g f) (t_at (den RA g a)) (X 1%nat) (t_at (den RA g f)) G).
  { unfold B, X, s. rewrite Ha. reflexivity. }
  unfold Tform.
  clearbody B.
  destruct (is_lin (n_op nd)) eqn:El.
  - destruct (HL eq_refl) as (So & Hok & Ein). rewrite Ein in *. cbn [length seq combine rsum fst snd].
    assert (HGo : forall i, in_range (out_shape (n_op nd) (shape_of g a)) i -> G i = Ok (rv (G i))) by (rewrite <- So; exact HG).
    split.
    + intros [|[|k]] a' E Hax i Hi; cbn in E; try discriminate. injection E as <-. rewrite EB, So.
      rewrite (lin_bw _ _ _ _ _ G i Hok El HGo Hi). reflexivity.
    + rewrite Rplus_0_r. unfold bra. rewrite EB, So.
      rewrite <- (lin_adjoint (n_op nd) (shape_of g a) G (T a) _ _ _ Hok El HGo). destruct (n_op nd); try discriminate; reflexivity.
  - destruct (n_op nd) as [vals|u|b|ax kd|tt|tt|axes|subs| |dd bf af|dd st] eqn:Eop; try discriminate.
    + (* unary *)
      destruct (HU u eq_refl) as (Hs & Ein). rewrite Ein in *. cbn [length seq combine rsum fst snd].
      assert (Hax : depends g a x).
      { inversion Hdx as [|? nd' a' ? E Ha' Hd']; subst; [congruence|]. rewrite Hn in E. injection E as <-. rewrite Ein in Ha'. destruct Ha' as [<-|[]]. assumption. }
      assert (HB0 : forall i, in_range (shape_of g a) i -> B 0%nat i = Ok (rv (G i) * d_un u (V a i))).
      { intros i Hi. rewrite EB. unfold bw_val. cbn zeta.
        assert (Hi' : in_range (shape_of g f) i) by (now rewrite Hs).
        pose proof (HG i Hi') as EG. pose proof (V_at a i Hda Hi) as EA. pose proof (V_at f i Hd Hi') as EF.
        assert (EV : r_un u (V a i) = Some (V f i)).
        { pose proof EF as EF'. rewrite (den_wf_eq RA g f nd (reach_wf _ Hr) Hn) in EF'. unfold den_node in EF'. rewrite Eop in EF'. cbn [t_map t_at] in EF'.
          rewrite (tin_den RA g nd 0 a) in EF' by (now rewrite Ein). rewrite EA in EF'. cbn in EF'. unfold op1 in EF'. cbn in EF'.
          destruct (r_un u (V a i)); cbn in EF'; [now injection EF' as ->|discriminate]. }
        rewrite EG, EA, EF. cbn [rbind]. destruct u; cbn [un bin RA rbind of_opt r_un r_bin d_un lit of_num r_num] in *; cbn.
        - f_equal. ring.
        - f_equal. ring.
        - f_equal. ring.
        - injection EV as <-. f_equal. ring.
        - destruct (Rlt_dec 0 (V a i)); [|discriminate]. destruct (Req_EM_T (V a i) 0); [lra|]. cbn. reflexivity.
        - assert (Hpos : 0 < V a i).
          { eapply (sm_sqrt _ _ _ Hsm f nd a i); eauto. rewrite Ein. reflexivity. }
          destruct (Rle_dec 0 (V a i)); [|lra]. injection EV as <-. pose proof (sqrt_lt_R0 _ Hpos) as Hq.
          destruct (Req_EM_T (sqrt (V a i) * 2) 0); [lra|]. cbn. f_equal. field. lra. }
      split.
      * intros [|[|k]] a' E Hax' i Hi; cbn in E; try discriminate. injection E as <-. now rewrite HB0.
      * rewrite Rplus_0_r, Hs. apply rsum_ext. intros i Hi. apply in_all_idx in Hi. rewrite HB0 by assumption. cbn [rv]. unfold T, V. ring.
    + (* binary *)
      destruct (HB b eq_refl) as (c & Ein & Hs & Hsc). rewrite Ein in *. cbn [length seq combine rsum fst snd].
      assert (Hdc : depends g y c) by (apply (dep_in g y f nd c Hd Hn); rewrite Ein; right; now left).
      assert (Hvc : valid g c) by exact (depends_valid _ _ _ Hr Hvy Hdc).
      assert (EX : X 1%nat = t_at (den RA g c)) by (unfold X; rewrite Ein; reflexivity). rewrite EX in EB. clear EX.
      assert (HGi : forall i, in_range (shape_of g a) i -> G i = Ok (rv (G i))) by (intros i Hi; apply HG; now rewrite Hs).
      assert (HA' : forall i, in_range (shape_of g a) i -> t_at (den RA g a) i = Ok (V a i)) by (intros; now apply V_at).
      assert (HC' : forall i, in_range (shape_of g a) i -> t_at (den RA g c) i = Ok (V c i)) by (intros; apply V_at; [assumption|now rewrite Hsc]).
      assert (EV : forall i, in_range (shape_of g a) i -> r_bin b (V a i) (V c i) = Some (V f i)).
      { intros i Hi. assert (EF : t_at (den RA g f) i = Ok (V f i)) by (apply V_at; [assumption|now rewrite Hs]).
        rewrite (den_wf_eq RA g f nd (reach_wf _ Hr) Hn) in EF. unfold den_node in EF. rewrite Eop in EF. cbn [t_map2 t_at] in EF.
        rewrite (tin_den RA g nd 0 a), (tin_den RA g nd 1 c) in EF by (now rewrite Ein). rewrite (HA' i Hi), (HC' i Hi) in EF. cbn in EF. unfold op2 in EF. cbn in EF.
        destruct (r_bin b (V a i) (V c i)); cbn in EF; [now injection EF as ->|discriminate]. }
      (* both gradients, where they matter *)
      assert (H0 : depends g a x -> forall i, in_range (shape_of g a) i -> B 0%nat i = Ok (rv (G i) * d_bin0 b (V a i) (V c i))).
      { intros Hax i Hi. rewrite EB. unfold bw_val. cbn zeta. rewrite (HGi i Hi), (HA' i Hi), (HC' i Hi). specialize (EV i Hi).
        destruct b; try discriminate; cbn [un bin RA rbind of_opt r_un r_bin d_bin0 lit of_num r_num] in *; cbn.
        - f_equal. ring.
        - f_equal. ring.
        - f_equal.
        - destruct (Req_EM_T (V c i) 0); [discriminate|]. reflexivity.
        - destruct (sm_pow _ _ _ Hsm f nd a c i (V a i) (V c i) Hd Hn Eop) as [Hpos|(Hnc & z & Hz & Hcase)]; auto; try (rewrite Ein; reflexivity).
          + rewrite r_pow_pos by assumption. cbn. f_equal. rewrite d_pow0_pos by assumption. ring.
          + rewrite Hz. unfold d_pow0. rewrite r_int_IZR. replace (IZR z - 1) with (IZR (z - 1)) by (rewrite minus_IZR; reflexivity).
            rewrite r_pow_int by (destruct Hcase; [now left|right; lia]). cbn. f_equal. ring. }
      assert (H1 : depends g c x -> forall i, in_range (shape_of g a) i -> B 1%nat i = Ok (rv (G i) * d_bin1 b (V a i) (V c i))).
      { intros Hcx i Hi. rewrite EB. unfold bw_val. cbn zeta. rewrite (HGi i Hi), (HA' i Hi), (HC' i Hi). specialize (EV i Hi).
        destruct b; try discriminate; cbn [un bin RA rbind of_opt r_un r_bin d_bin1 lit of_num r_num] in *; cbn.
        - f_equal. ring.
        - f_equal. ring.
        - f_equal.
        - destruct (Req_EM_T (V c i) 0) as [|Hnz]; [discriminate|]. rewrite r_pow_int by (now left). cbn. change (Pos.to_nat 2) with 2%nat.
          destruct (Req_EM_T _ 0) as [Ez|Enz].
          + exfalso. assert (V c i * V c i = 0) by (rewrite <- Ez; ring). apply Rmult_integral in H. tauto.
          + cbn. f_equal. field. assumption.
        - destruct (sm_pow _ _ _ Hsm f nd a c i (V a i) (V c i) Hd Hn Eop) as [Hpos|(Hnc & _)]; auto; try (rewrite Ein; reflexivity); [|contradiction].
          rewrite r_pow_pos by assumption. cbn. destruct (Rlt_dec 0 (V a i)); [|contradiction]. cbn. f_equal. ring. }
      split.
      * intros [|[|k]] a' E Hax' i Hi; cbn in E; try (destruct k; discriminate); injection E as <-; [now rewrite H0|]. rewrite H1; [reflexivity|assumption|now rewrite <- Hsc].
      * assert (E0 : bra (shape_of g a) (B 0%nat) (T a) = rsum (all_idx (shape_of g a)) (fun i => rv (G i) * (d_bin0 b (V a i) (V c i) * T a i))).
        { destruct (dep_dec g x Hlt a) as [Hax|Hax].
          - apply rsum_ext. intros i Hi. apply in_all_idx in Hi. rewrite H0 by assumption. cbn [rv]. ring.
          - rewrite bra_zero by (now apply T_out). symmetry. apply rsum_zero. intros i Hi. apply in_all_idx in Hi. rewrite T_out by assumption. ring. }
        assert (E1 : bra (shape_of g c) (B 1%nat) (T c) = rsum (all_idx (shape_of g a)) (fun i => rv (G i) * (d_bin1 b (V a i) (V c i) * T c i))).
        { destruct (dep_dec g x Hlt c) as [Hax|Hax].
          - rewrite Hsc. apply rsum_ext. intros i Hi. apply in_all_idx in Hi. rewrite H1 by assumption. cbn [rv]. ring.
          - rewrite bra_zero by (now apply T_out). symmetry. apply rsum_zero. intros i Hi. apply in_all_idx in Hi. rewrite T_out by (auto; now rewrite Hsc). ring. }
        rewrite E0, E1, Rplus_0_r, <- rsum_plus, Hs. unfold bra. apply rsum_ext. intros i _. unfold T, V. ring.
Qed.

Lemma combine_seq_sum {X} (ins : list nat) (gxs : list X) (h : nat -> nat -> R) (h' : nat -> X -> R) : length gxs = length ins ->
  forall k0, (forall k a gx, nth_error ins k = Some a -> nth_error gxs k = Some gx -> h (k0 + k)%nat a = h' a gx) ->
  rsum (combine (seq k0 (length ins)) ins) (fun p => h (fst p) (snd p)) = rsum (combine ins gxs) (fun p => h' (fst p) (snd p)).
Proof.
  revert gxs. induction ins as [|a ins IH]; intros [|gx gxs] HL k0 H; cbn in *; try discriminate; [reflexivity|].
  rewrite (IH gxs ltac:(lia) (S k0)). { rewrite <- (H 0%nat a gx eq_refl eq_refl). rewrite Nat.add_0_r. reflexivity. }
  intros k a' gx' E1 E2. rewrite <- (H (S k) a' gx' E1 E2). f_equal. lia.
Qed.
Lemma in_combine_nth {X Y} (l : list X) (m : list Y) a b : In (a, b) (combine l m) -> exists k, nth_error l k = Some a /\ nth_error m k = Some b.
Proof.
  revert m. induction l as [|p l IH]; intros [|q m] H; cbn in H; try contradiction. destruct H as [E|H].
  - injection E as -> ->. exists 0%nat. auto.
  - destruct (IH m H) as (k & H1 & H2). exists (S k). auto.
Qed.

Definition used (done : list nat) (n : nat) : bool := nmem n done && negb (Nat.eqb n x).
Definition PG (C : R) (G : graph) (gs : grads) (done : list nat) : Prop := act_ok G gs /\ Wsum (used done) G gs = C.

Lemma step_PG C gs0 G gs l1 f l2 gr G1 gxs G2 gs2 : order g y = l1 ++ f :: l2 -> binv g y gs0 G gs l1 -> PG C G gs l1 ->
  stepped RA g G gs f gr G1 gxs G2 gs2 -> binv g y gs0 G2 gs2 (l1 ++ [f]) -> PG C G2 gs2 (l1 ++ [f]).
Proof.
  intros Eo HB (HP1 & HP2) [Sg (nd & Hn & HR & HA)] HB2.
  destruct (order_spec g Hlt y Hvy) as (O1 & O2 & O3).
  assert (Hfo : In f (order g y)) by (rewrite Eo; apply in_app_iff; right; now left).
  apply O2 in Hfo as (Hdf & nd' & Hn' & Hne). rewrite Hn in Hn'. injection Hn' as <-.
  pose proof (bi_ext _ _ _ _ _ _ HB) as HE. pose proof (bi_ok _ _ _ _ _ _ HB) as HO.
  pose proof HR as [D1 R1 E1 L1 A1]. cbn zeta in A1.
  set (Bv := bw_val RA (n_op nd) (match nth_error (n_in nd) 0 with Some a => shape_of g a | None => [] end) (shape_of g f)
      (match nth_error (n_in nd) 0 with Some a => t_at (den RA g a) | None => fun _ => Fault end)
      (match nth_error (n_in nd) 1 with Some a => t_at (den RA g a) | None => fun _ => Fault end) (t_at (den RA g f)) (t_at (den RA G gr))) in *.
  assert (Hin : forall a, In a (n_in nd) -> depends g y a /\ (a < f)%nat).
  { intros a Ha. split; [eapply dep_in; eauto|pose proof (Hlt _ _ Hn) as HF; rewrite Forall_forall in HF; exact (HF a Ha)]. }
  assert (Hsh : forall a, In a (n_in nd) -> shape_of G a = shape_of g a).
  { intros a Ha. apply (ext_shape _ _ _ HE). destruct (Hin a Ha) as (H & _). exact (depends_valid _ _ _ Hr Hvy H). }
  assert (HfG : act f -> okAt (t_at (den RA G gr)) (shape_of g f)) by (intros Hf; eapply HP1; eauto).
  (* values of the contributions *)
  assert (HVal : forall k a gx, nth_error (n_in nd) k = Some a -> nth_error gxs k = Some gx ->
      valid G1 gx /\ forall i, in_range (shape_of g a) i -> t_at (den RA G1 gx) i = Bv k i).
  { intros k a gx E2 E3. destruct (A1 k a gx E2 E3) as (H1 & H2 & H3). split; [assumption|]. intros i Hi. apply H3. rewrite Hsh by (eapply nth_error_In; eauto). assumption. }
  assert (HOkk : forall k a, nth_error (n_in nd) k = Some a -> depends g a x -> okAt (Bv k) (shape_of g a)).
  { intros k a Ek Hax. assert (Hfx : depends g f x) by (eapply dep_step; eauto; eapply nth_error_In; eauto).
    assert (Hnx : f <> x). { intros ->. pose proof (depends_le g Hlt _ _ Hax) as Hle. destruct (Hin a (nth_error_In _ _ Ek)) as (_ & H). lia. }
    destruct (rule_pairs f nd (t_at (den RA G gr)) Hdf Hn Hne Hnx Hfx (HfG (conj Hdf Hfx))) as (Q & _). eapply Q; eauto. }
  assert (Hact1 : act_ok G1 gs).
  { intros n r Ha Hr' i Hi. destruct (HO n r Hr') as (_ & Vr & _). rewrite (ext_den RA _ _ _ E1 Vr). eapply HP1; eauto. }
  destruct (accum_pair _ _ _ _ _ HA (ext_trans _ _ _ HE E1)) as (Q1 & Q2).
  { intros a gx Hagx. destruct (in_combine_nth _ _ _ _ Hagx) as (k & E2 & E3). destruct (HVal k a gx E2 E3) as (H1 & H2).
    split; [apply Hin; eapply nth_error_In; eauto|]. split; [assumption|]. intros Hax i Hi. rewrite H2 by assumption. eapply HOkk; eauto. }
  { exact Hact1. }
  split; [exact Q1|].
  (* f has not been used, nor its operands *)
  assert (Hf1 : ~ In f l1) by (rewrite Eo in O1; apply NoDup_remove_2 in O1; intros H; apply O1; apply in_app_iff; now left).
  assert (Hin1 : forall a, In a (n_in nd) -> ~ In a l1).
  { intros a Ha Hal. apply in_split in Hal as (p & q & ->).
    assert (Hfp : In f p) by (eapply (O3 p a (q ++ f :: l2)); [rewrite Eo, <- app_assoc; reflexivity|assumption|exists nd; auto]).
    apply Hf1. apply in_app_iff. now left. }
  assert (Hq : forall a gx, In (a, gx) (combine (n_in nd) gxs) -> used l1 a = false).
  { intros a gx Hagx. apply in_combine_l in Hagx. unfold used. destruct (nmem a l1) eqn:E; [|reflexivity]. apply nmem_In in E. exfalso. eapply Hin1; eauto. }
  specialize (Q2 (used l1) Hq).
  assert (EW : Wsum (used l1) G1 gs = C).
  { rewrite <- HP2. apply rsum_ext. intros n _. destruct (used l1 n); [reflexivity|]. now apply pair_same. }
  rewrite EW in Q2.
  assert (Hff : used l1 f = false) by (unfold used; destruct (nmem f l1) eqn:E; [apply nmem_In in E; contradiction|reflexivity]).
  assert (Hpf : pair G2 gs2 f = bra (shape_of g f) (t_at (den RA G gr)) (T f)).
  { assert (E2 : gs2 f = gs f).
    { eapply accum_other; [exact HA|]. intros H. apply in_map_iff in H as ((a & gx) & E2 & H). cbn in E2. subst a. apply in_combine_l in H. destruct (Hin f H). lia. }
    unfold pair. rewrite E2, Sg. destruct (HO f gr Sg) as (_ & Vr & _).
    assert (EG2 : extends G G2). { destruct (bi_ext _ _ _ _ _ _ HB2) as (h & Eh). clear - HA E1. eapply ext_trans; [exact E1|]. clear E1. induction HA; [apply ext_refl|eapply ext_trans; eauto]. }
    now rewrite (ext_den RA _ _ _ EG2 Vr). }
  (* the contributions add up to what f held *)
  assert (HD : rsum (combine (n_in nd) gxs) (fun p => bra (shape_of g (fst p)) (t_at (den RA G1 (snd p))) (T (fst p))) = if Nat.eqb f x then 0 else pair G2 gs2 f).
  { rewrite <- (combine_seq_sum (n_in nd) gxs (fun k a => bra (shape_of g a) (Bv k) (T a)) (fun a gx => bra (shape_of g a) (t_at (den RA G1 gx)) (T a)) L1 0%nat).
    2:{ intros k a gx E2 E3. cbn [Nat.add]. apply bra_ext. intros i Hi. symmetry. eapply HVal; eauto. }
    assert (HZ : (forall a, In a (n_in nd) -> ~ depends g a x) ->
              rsum (combine (seq 0 (length (n_in nd))) (n_in nd)) (fun p => bra (shape_of g (snd p)) (Bv (fst p)) (T (snd p))) = 0).
    { intros HN. apply rsum_zero. intros (k, a) Hka. apply in_combine_r in Hka. cbn [fst snd]. apply bra_zero. apply T_out; [now apply Hin|now apply HN]. }
    destruct (Nat.eqb_spec f x) as [->|Hnx].
    - apply HZ. intros a Ha Hax. pose proof (depends_le g Hlt _ _ Hax). destruct (Hin a Ha). lia.
    - rewrite Hpf. destruct (dep_dec g x Hlt f) as [Hfx|Hfx].
      + destruct (rule_pairs f nd (t_at (den RA G gr)) Hdf Hn Hne Hnx Hfx (HfG (conj Hdf Hfx))) as (_ & Q). cbn zeta in Q. symmetry. exact Q.
      + rewrite HZ; [|intros a Ha Hax; apply Hfx; eapply dep_step; eauto]. symmetry. apply bra_zero. now apply T_out. }
  rewrite HD in Q2.
  assert (HN : forall n, used (l1 ++ [f]) n = used l1 n || (Nat.eqb n f && negb (Nat.eqb n x))).
  { intros n. unfold used, nmem. rewrite existsb_app. cbn [existsb]. destruct (existsb (Nat.eqb n) l1), (Nat.eqb n f), (Nat.eqb n x); reflexivity. }
  destruct (Nat.eqb_spec f x) as [->|Hnx].
  - rewrite <- (Rplus_0_r C), <- Q2. apply rsum_ext. intros n _. rewrite HN. destruct (Nat.eqb n x), (used l1 n); reflexivity.
  - assert (HS : Wsum (used l1) G2 gs2 = Wsum (used (l1 ++ [f])) G2 gs2 + pair G2 gs2 f).
    { unfold Wsum. apply (rsum_upd gnodes f); [apply nodup_gnodes|now apply in_gnodes| |].
      - intros n _ Hnf. rewrite HN. destruct (Nat.eqb_spec n f); [contradiction|]. cbn [andb]. now rewrite orb_false_r.
      - rewrite HN, Hff, Nat.eqb_refl. destruct (Nat.eqb_spec f x); [contradiction|]. cbn. ring. }
    lra.
Qed.

(* the end of the loop *)
Lemma run_grad gs0 gs1 C : binv g y gs0 g gs1 [] -> act_ok g gs1 -> Wsum (fun _ => false) g gs1 = C ->
  exists g' gs' tr r, run_funcs g gs1 (order g y) = Done (g', gs', tr) /\ reach g' /\ extends g g' /\ grads_ok g' gs' /\
    gs' x = Some r /\ okAt (t_at (den RA g' r)) (shape_of g x) /\ bra (shape_of g x) (t_at (den RA g' r)) e = C.
Proof.
  intros HB Hok HC.
  destruct (run_total RA RA_co g y Hr Hvy Hreg (PG C) gs0 (fun G gs l1 f l2 gr G1 gxs G2 gs2 => step_PG C gs0 G gs l1 f l2 gr G1 gxs G2 gs2) (order g y) [] g gs1 eq_refl HB)
    as (g' & gs' & tr & D & B & (P1 & P2) & E & _).
  { split; [assumption|]. exact HC. }
  destruct (order_spec g Hlt y Hvy) as (O1 & O2 & O3).
  assert (Hx : gs' x <> None).
  { apply (bi_some _ _ _ _ _ _ B). destruct (depends_consumer g y x Hyx) as [Exy|(c & Hc & Hu)]; [left; exact Exy|]. right. exists c. split; [|assumption].
    apply O2. split; [assumption|]. destruct Hu as (nd & E' & Hi). exists nd. split; [assumption|]. intros Hx. rewrite Hx in Hi. destruct Hi. }
  destruct (gs' x) as [r|] eqn:Ex; [|congruence]. exists g', gs', tr, r.
  split; [exact D|]. split; [exact (bi_reach _ _ _ _ _ _ B)|]. split; [exact E|]. split; [exact (bi_ok _ _ _ _ _ _ B)|]. split; [exact Ex|].
  split; [exact (P1 x r (conj Hyx (dep_refl g x)) Ex)|].
  rewrite <- P2. unfold Wsum. rewrite (rsum_single gnodes x); [|apply nodup_gnodes|now apply in_gnodes|].
  - unfold used. rewrite Nat.eqb_refl, andb_false_r. unfold pair. rewrite Ex. apply rsum_ext. intros i Hi. apply in_all_idx in Hi.
    f_equal. symmetry. exact (T_x g Hr x y Hvx e Hsm i Hyx Hi).
  - intros n Hn Hne. apply in_gnodes in Hn. unfold used. destruct (nmem n (order g y)) eqn:Em.
    + cbn [andb]. destruct (Nat.eqb_spec n x); [contradiction|reflexivity].
    + cbn [andb]. unfold pair. destruct (gs' n) as [r'|]; [|reflexivity]. apply bra_zero. apply T_out; [assumption|].
      intros Hnx. assert (HI : In n (order g y)).
      { apply O2. split; [assumption|]. exact (dep_op _ _ _ Hnx Hne). }
      apply nmem_In in HI. congruence.
Qed.

(* derivative of the weighted sum of y along e *)
Lemma weighted_derive w : is_derive (fun t => weighted (shape_of g y) w (den_with x (moved g x e t) g y)) 0 (rsum (all_idx (shape_of g y)) (fun j => w j * T y j)) /\
  locally 0 (fun t => forall j, in_range (shape_of g y) j -> exists v, t_at (den_with x (moved g x e t) g y) j = Ok v).
Proof.
  assert (HD : forall j, in_range (shape_of g y) j -> dOk (fun t => t_at (Fx g x e t y) j) (T y j)).
  { intros j Hj. exact (tangents g Hr x y Hvx Hvy e Hsm y (dep_refl g y) j Hj). }
  assert (HI : forall l, (forall j, In j l -> in_range (shape_of g y) j) ->
     is_derive (fun t => rsum l (fun j => w j * rv (t_at (Fx g x e t y) j))) 0 (rsum l (fun j => w j * T y j)) /\
     locally 0 (fun t => forall j, In j l -> exists v, t_at (Fx g x e t y) j = Ok v)).
  { induction l as [|j l IH]; intros Hl; cbn [rsum].
    - split; [apply (is_derive_const (K := R_AbsRing) (V := R_NormedModule))|]. apply filter_forall. intros t j [].
    - destruct (IH ltac:(intros; apply Hl; now right)) as (I1 & I2). pose proof (HD j ltac:(apply Hl; now left)) as Dj. split.
      + exact (is_derive_plus (K := R_AbsRing) (V := R_NormedModule) _ _ 0 _ _ (is_derive_scal _ 0 (w j) _ (dOk_rv _ _ Dj)) I1).
      + generalize (filter_and _ _ (dOk_near _ _ Dj) I2). apply filter_imp. intros t (E1 & E2) k [<-|Hk]; [eauto|now apply E2]. }
  destruct (HI (all_idx (shape_of g y))) as (I1 & I2); [intros j Hj; now apply in_all_idx|].
  split; [exact I1|]. eapply filter_imp; [|exact I2]. intros t Ht j Hj. apply Ht. now apply in_all_idx.
Qed.
End G.

(* ---- the whole call ---- *)
Lemma moved_ext g g' x e t : extends g g' -> valid g x -> moved g' x e t = moved g x e t.
Proof. intros He Hv. unfold moved. now rewrite (ext_den RA _ _ _ He Hv). Qed.
Lemma dw_ext x tx g g' n : extends g g' -> valid g n -> den_with x tx g' n = den_with x tx g n.
Proof. intros (h & ->) Hv. apply dw_app. exact Hv. Qed.
Lemma smooth_ext g g' y x : extends g g' -> reach g -> valid g y -> depends g y x -> smooth g y x -> smooth g' y x.
Proof.
  intros He Hr Hv Hyx [S1 S2 S3].
  assert (HD : forall n, depends g' y n -> depends g y n) by (intros n H; now apply (depends_ext _ _ _ _ He Hr Hv)).
  assert (HN : forall n nd, depends g y n -> nth_error g' n = Some nd -> nth_error g n = Some nd).
  { intros n nd Hd Hn. destruct (valid_node _ _ (depends_valid _ _ _ Hr Hv Hd)) as (nd' & Hn'). pose proof (ext_node _ _ _ _ He Hn') as E. congruence. }
  assert (HI : forall n nd a, depends g y n -> nth_error g n = Some nd -> In a (n_in nd) -> depends g y a).
  { intros n nd a Hd Hn Ha. eapply depends_trans; [exact Hd|]. eapply dep_step; eauto. constructor. }
  assert (HS : forall n, depends g y n -> shape_of g' n = shape_of g n /\ den RA g' n = den RA g n /\ (depends g' n x <-> depends g n x)).
  { intros n Hd. pose proof (depends_valid _ _ _ Hr Hv Hd) as Vn. split; [now apply ext_shape|]. split; [now apply ext_den|]. now apply depends_ext. }
  constructor.
  - intros n idx Hd Hi. apply HD in Hd. destruct (HS n Hd) as (E1 & E2 & _). rewrite E1 in Hi. rewrite E2. eauto.
  - intros n nd a idx v Hd Hn Ho Ha Hax Hi Hval. apply HD in Hd. apply (HN n nd Hd) in Hn.
    destruct (HS a (HI _ _ _ Hd Hn (nth_error_In _ _ Ha))) as (E1 & E2 & E3). rewrite E1 in Hi. rewrite E2 in Hval. apply E3 in Hax. eapply S2; eauto.
  - intros n nd a b idx u w Hd Hn Ho Ha Hb Hax Hi Hu Hw. apply HD in Hd. apply (HN n nd Hd) in Hn.
    destruct (HS a (HI _ _ _ Hd Hn (nth_error_In _ _ Ha))) as (E1 & E2 & E3). destruct (HS b (HI _ _ _ Hd Hn (nth_error_In _ _ Hb))) as (_ & E5 & E6).
    rewrite E1 in Hi. rewrite E2 in Hu. rewrite E5 in Hw. rewrite E3, E6 in Hax. rewrite E6. eapply S3; eauto.
Qed.
Lemma bra_unit s X i : in_range s i -> bra s X (unit_at i) = rv (X i).
Proof.
  intros Hi. unfold bra. rewrite (rsum_single (all_idx s) i); [|apply NoDup_all_idx|now apply in_all_idx|].
  - unfold unit_at. replace (list_zeqb i i) with true by (symmetry; now apply list_zeqb_eq). ring.
  - intros j _ Hj. unfold unit_at. destruct (list_zeqb j i) eqn:E; [apply list_zeqb_eq in E; contradiction|]. ring.
Qed.

Theorem gradient_main g gs y x w : reach g -> valid g y -> grads_ok g gs -> regular g y -> depends g y x -> smooth g y x ->
  (forall n, depends g y n -> is_op g n -> n <> y -> gs n = None) ->
  (forall s i, gs y = Some s -> in_range (shape_of g y) i -> t_at (den RA g s) i = Ok (w i)) ->
  (forall i, gs y = None -> in_range (shape_of g y) i -> w i = 1) ->
  (forall r i, gs x = Some r -> in_range (shape_of g x) i -> exists v, t_at (den RA g r) i = Ok v) ->
  exists g' gs' tr r, backward_trace g gs y = Done (g', gs', tr) /\ gs' x = Some r /\ shape_of g' r = shape_of g x /\
    forall i, in_range (shape_of g x) i ->
      let F t := den_with x (moved g x (unit_at i) t) g y in
      exists d, is_derive (fun t => weighted (shape_of g y) w (F t)) 0 d /\
        locally 0 (fun t => forall j, in_range (shape_of g y) j -> exists v, t_at (F t) j = Ok v) /\
        t_at (den RA g' r) i = Ok (match gs x with Some r0 => if Nat.eqb x y then 0 else rv (t_at (den RA g r0) i) | None => 0 end + d).
Proof.
  intros Hr Hv Hg HR Hyx Hsm Hops Hseed Hone Hold.
  pose proof (depends_valid _ _ _ Hr Hv Hyx) as Vx'.
  destruct (start_total RA RA_co g gs y Hr Hv Hg HR) as (g1 & gs1 & HS & HB & HE & HR1 & Hv1 & HD & Hgs).
  pose proof (bi_reach _ _ _ _ _ _ HB) as Hr1.
  assert (Hyx1 : depends g1 y x) by (now apply (depends_ext _ _ _ _ HE Hr Hv)).
  pose proof (smooth_ext _ _ _ _ HE Hr Hv Hyx Hsm) as Hsm1.
  (* the seed *)
  assert (Hy1 : exists o, gs1 y = Some o /\ forall i, in_range (shape_of g y) i -> t_at (den RA g1 o) i = Ok (w i)).
  { unfold started in HS. destruct (gs y) as [s|] eqn:Ey.
    - destruct HS as (-> & ->). exists s. split; [assumption|]. intros i Hi. now apply Hseed.
    - destruct HS as (o & z & -> & Vo & So & Hz & Ho). exists o. split; [apply set_grad_same|]. intros i Hi. rewrite Ho by assumption. rewrite (Hone i eq_refl Hi).
      destruct Hz as [->| ->]; cbn; f_equal; unfold r_num; cbn; try ring; lra. }
  destruct Hy1 as (o & Eo & Ho).
  assert (Sx : shape_of g1 x = shape_of g x) by (now apply ext_shape).
  assert (Sy : shape_of g1 y = shape_of g y) by (now apply ext_shape).
  (* every gradient that matters is defined *)
  assert (Hact : act_ok g1 x y g1 gs1).
  { intros n r (Hd & Hnx) Hn i Hi. destruct (Nat.eq_dec n y) as [->|Hne].
    - rewrite Eo in Hn. injection Hn as <-. rewrite Ho by (now rewrite <- Sy). reflexivity.
    - rewrite (Hgs n Hne) in Hn. pose proof (proj1 (depends_ext _ _ _ _ HE Hr Hv) Hd) as Hd0. destruct (Hg n r Hn) as (_ & Vr & _).
      rewrite (ext_den RA _ _ _ HE Vr). destruct (Nat.eq_dec n x) as [->|Hnex].
      + rewrite Sx in Hi. destruct (Hold r i Hn Hi) as (v & ->). reflexivity.
      + rewrite Hops in Hn; [discriminate|assumption| |assumption]. apply (dep_op g n x); [|assumption].
        apply (depends_ext _ _ _ _ HE Hr); [|assumption]. exact (depends_valid _ _ _ Hr Hv Hd0). }
  assert (HC : forall e, Wsum g1 Hr1 x y e (fun _ => false) g1 gs1 =
     rsum (all_idx (shape_of g y)) (fun j => w j * Tx g1 x e y j) +
     match gs x with Some r0 => if Nat.eqb x y then 0 else bra (shape_of g x) (t_at (den RA g r0)) e | None => 0 end).
  { intros e. unfold Wsum.
    assert (HPy : pair g1 x e g1 gs1 y = rsum (all_idx (shape_of g y)) (fun j => w j * Tx g1 x e y j)).
    { unfold pair. rewrite Eo, Sy. apply rsum_ext. intros j Hj. apply in_all_idx in Hj. now rewrite Ho. }
    assert (HPn : forall n, depends g1 y n -> n <> y -> n <> x -> pair g1 x e g1 gs1 n = 0).
    { intros n Hd Hne Hnx. unfold pair. rewrite (Hgs n Hne). destruct (gs n) as [r|] eqn:En; [|reflexivity].
      pose proof (proj1 (depends_ext _ _ _ _ HE Hr Hv) Hd) as Hd0. apply bra_zero.
      intros i Hi. refine (T_indep g1 Hr1 x y _ Hv1 e Hsm1 n i Hd Hi _ _); [exact (depends_valid _ _ _ Hr1 Hv1 Hyx1)|exact (depends_valid _ _ _ Hr1 Hv1 Hd)|].
      intros Hdx. rewrite Hops in En; [discriminate|assumption| |assumption]. apply (dep_op g n x); [|assumption].
      apply (depends_ext _ _ _ _ HE Hr); [|assumption]. exact (depends_valid _ _ _ Hr Hv Hd0). }
    assert (HGn : forall n, In n (gnodes g1 Hr1 y) <-> depends g1 y n) by (intros n; eapply in_gnodes; eassumption).
    destruct (Nat.eqb_spec x y) as [Exy|Hxy]; [subst x|].
    - rewrite (rsum_single _ y); [|apply nodup_gnodes|apply HGn; constructor|].
      + rewrite HPy. destruct (gs y); ring.
      + intros n Hn Hne. apply HGn in Hn. now apply HPn.
    - rewrite (rsum_upd _ y (fun n => if Nat.eqb n y then 0 else pair g1 x e g1 gs1 n) _ (pair g1 x e g1 gs1 y)); [|apply nodup_gnodes|apply HGn; constructor| |].
      + rewrite (rsum_single _ x); [|apply nodup_gnodes|now apply HGn|].
        * destruct (Nat.eqb_spec x y); [contradiction|]. rewrite HPy, Rplus_comm. f_equal. unfold pair. rewrite (Hgs x Hxy).
          destruct (gs x) as [r|] eqn:Ex; [|reflexivity]. destruct (Hg x r Ex) as (_ & Vr & _). rewrite Sx, (ext_den RA _ _ _ HE Vr).
          apply rsum_ext. intros j Hj. apply in_all_idx in Hj. f_equal. refine (T_x g1 Hr1 x y _ e Hsm1 j Hyx1 _); [exact (depends_valid _ _ _ Hr1 Hv1 Hyx1)|now rewrite Sx].
        * intros n Hn Hne. destruct (Nat.eqb_spec n y); [reflexivity|]. apply HGn in Hn. now apply HPn.
      + intros n _ Hne. destruct (Nat.eqb_spec n y); [contradiction|reflexivity].
      + rewrite Nat.eqb_refl. ring. }
  (* one direction at a time; the run itself does not depend on the direction *)
  destruct (run_grad g1 Hr1 x y Hv1 HR1 Hyx1 (fun _ => 0) Hsm1 gs gs1 _ HB Hact eq_refl) as (g' & gs' & tr & r & D & R' & E' & O' & Gx & Q1 & _).
  exists g', gs', tr, r. split; [now rewrite HD|]. split; [assumption|].
  destruct (O' x r Gx) as (_ & _ & Sr). assert (Vx1 : valid g1 x) by exact (depends_valid _ _ _ Hr1 Hv1 Hyx1).
  rewrite (ext_shape _ _ _ E' Vx1), Sx in Sr. split; [assumption|].
  intros i Hi F. exists (rsum (all_idx (shape_of g y)) (fun j => w j * Tx g1 x (unit_at i) y j)).
  destruct (weighted_derive g1 Hr1 x y Hv1 Hyx1 (unit_at i) Hsm1 w) as (W1 & W2). rewrite Sy in W1, W2.
  assert (EF : forall t, den_with x (moved g1 x (unit_at i) t) g1 y = F t).
  { intros t. unfold F. rewrite (moved_ext _ _ _ _ _ HE Vx'). now apply dw_ext. }
  split; [eapply is_derive_ext; [|exact W1]; intros t; cbn; now rewrite EF|].
  split; [eapply filter_imp; [|exact W2]; intros t Ht j Hj; rewrite <- EF; auto|].
  destruct (run_grad g1 Hr1 x y Hv1 HR1 Hyx1 (unit_at i) Hsm1 gs gs1 _ HB Hact (HC (unit_at i))) as (g2 & gs2 & tr2 & r2 & D2 & _ & _ & _ & Gx2 & P1 & P2).
  rewrite D in D2. injection D2 as <- <- <-. rewrite Gx in Gx2. injection Gx2 as <-.
  rewrite Sx in P1, P2. rewrite bra_unit in P2 by assumption. rewrite (P1 i Hi), P2. f_equal. rewrite Rplus_comm. f_equal.
  destruct (gs x); [|reflexivity]. destruct (Nat.eqb x y); [reflexivity|]. now apply bra_unit.
Qed.
