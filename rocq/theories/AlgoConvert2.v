(* The result of convert. *)
From Verif Require Import Base BaseFacts Util UtilFacts Lang Spec Graph Api Denote SpecFacts DenoteFacts Reach Algo AlgoSem AlgoConv AlgoConv2 AlgoFuse AlgoFuse2 AlgoConvert.

(* array f is the k-th operand of array n *)
Definition operand (g : graph) (n k f : nat) : Prop := exists nd, nth_error g n = Some nd /\ nth_error (n_in nd) k = Some f.
(* f is used at least twice in the computation of a *)
Definition used_twice (g : graph) (a f : nat) : Prop :=
  exists n1 k1 n2 k2, (n1, k1) <> (n2, k2) /\ cone g a n1 /\ cone g a n2 /\ operand g n1 k1 f /\ operand g n2 k2 f.

Fixpoint positions (l : list nat) (f k : nat) : list nat :=
  match l with [] => [] | x :: r => if Nat.eq_dec x f then k :: positions r f (S k) else positions r f (S k) end.
Lemma positions_length l f k : length (positions l f k) = occ l f.
Proof. revert k; induction l as [|x l IH]; intros k; cbn; auto. unfold occ in *. destruct (Nat.eq_dec x f); cbn; auto. Qed.
Lemma positions_in l f k j : In j (positions l f k) -> (k <= j)%nat /\ nth_error l (j - k) = Some f.
Proof.
  revert k; induction l as [|x l IH]; intros k H; cbn in *; [tauto|].
  assert (HS : In j (positions l f (S k)) -> (k <= j)%nat /\ nth_error (x :: l) (j - k) = Some f).
  { intros Hj. destruct (IH _ Hj) as [H1 H2]. split; [lia|]. replace (j - k)%nat with (S (j - S k)) by lia. exact H2. }
  destruct (Nat.eq_dec x f) as [->|]; [destruct H as [<-|H]|]; auto.
  rewrite Nat.sub_diag. auto.
Qed.
Lemma positions_NoDup l f k : NoDup (positions l f k).
Proof.
  revert k; induction l as [|x l IH]; intros k; cbn; [constructor|].
  destruct (Nat.eq_dec x f); auto. constructor; auto. intros H. apply positions_in in H. lia.
Qed.
Lemma NoDup_app_intro {A} (l1 l2 : list A) : NoDup l1 -> NoDup l2 -> (forall x, In x l1 -> ~ In x l2) -> NoDup (l1 ++ l2).
Proof.
  induction 1 as [|x l1 Hx H1 IH]; intros H2 HD; cbn; auto. constructor.
  - rewrite in_app_iff. intros [H|H]; [tauto|]. apply (HD x); [now left|assumption].
  - apply IH; auto. intros y Hy. apply HD. now right.
Qed.

Lemma two_uses (h : nat -> list nat) ns f : NoDup ns -> (2 <= nsum (map (fun n => occ (h n) f) ns))%nat ->
  exists n1 k1 n2 k2, (n1, k1) <> (n2, k2) /\ In n1 ns /\ In n2 ns /\ nth_error (h n1) k1 = Some f /\ nth_error (h n2) k2 = Some f.
Proof.
  intros HN H2. set (l := flat_map (fun n => map (pair n) (positions (h n) f 0)) ns).
  assert (HLen : length l = nsum (map (fun n => occ (h n) f) ns)).
  { unfold l. clear. induction ns as [|n ns IH]; cbn; auto. rewrite app_length, map_length, positions_length, IH. reflexivity. }
  assert (HIn : forall n k, In (n, k) l -> In n ns /\ nth_error (h n) k = Some f).
  { intros n k Hl. apply in_flat_map in Hl as (m & Hm & Hk). apply in_map_iff in Hk as (k' & Heq & Hk). injection Heq as -> ->.
    apply positions_in in Hk as [_ Hk]. rewrite Nat.sub_0_r in Hk. auto. }
  assert (HND : NoDup l).
  { unfold l. clear - HN. induction HN as [|n ns Hn _ IH]; cbn; [constructor|]. apply NoDup_app_intro; auto.
    - apply FinFun.Injective_map_NoDup; [intros x y H; congruence|apply positions_NoDup].
    - intros [m k] Hm Hl. apply in_map_iff in Hm as (k' & Heq & _). injection Heq as -> ->.
      apply in_flat_map in Hl as (m' & Hm' & Hk). apply in_map_iff in Hk as (k2 & Heq & _). injection Heq as -> ->. tauto. }
  clearbody l. destruct l as [|[n1 k1] [|[n2 k2] l]]; cbn in HLen; try lia.
  exists n1, k1, n2, k2. inversion HND as [|? ? Hx _]; subst.
  split; [intros Heq; apply Hx; rewrite Heq; now left|].
  destruct (HIn n1 k1) as [A1 A2]; [now left|]. destruct (HIn n2 k2) as [B1 B2]; [right; now left|]. auto.
Qed.

(* A kernel of the result: [f] computes array f from [reads] (earlier kernels) and constant arrays. *)
Section Convert.
Context (L : lang) (HL : lang_ok L) (g : graph) (Hw : wf_graph g) (a : nat) (nda : node) (Ha : nth_error g a = Some nda)
        (Hns : no_scalar_reshape g a).
Let shp := shape_of g.

Record convert_spec (E : fenv) (fs : list nat) : Prop := {
  cs_nodup : NoDup fs;
  cs_last : exists l, fs = l ++ [a];
  cs_cone : forall f, In f fs -> cone g a f;
  cs_topo : forall l1 f l2, fs = l1 ++ f :: l2 -> forall fd, E f = Some fd -> forall d, In d (func_refs (f_expr fd)) -> In d l1;
  cs_entry : forall f, In f fs -> exists fd, E f = Some fd /\ entry g f fd;
  cs_keep : forall f, In f fs -> f = a \/ exists nd, nth_error g f = Some nd /\ is_const (n_op nd) = false /\
              ((exists ax kd, n_op nd = OSum ax kd) \/ used_twice g a f);
  cs_bufs : forall D f fd nd, one_dtype L g a D -> In f fs -> E f = Some fd -> nth_error g f = Some nd -> dtok L g D (n_dtype nd) (f_expr fd);
  cs_value : forall D f fd nd idx, one_dtype L g a D -> fits L g a -> In f fs -> E f = Some fd -> nth_error g f = Some nd ->
     in_range (n_shape nd) idx -> evalV L shp (Fden L g) D (f_expr fd) (lenv f (n_shape nd) idx) = Fden L g f idx
}.

Theorem convert_ok : exists E fs, convert g a = Done (E, fs) /\ convert_spec E fs.
Proof using HL Hw Ha Hns.
  assert (Hlen : (a < length g)%nat) by (apply nth_error_Some; congruence).
  unfold convert.
  destruct (arr_to_func_ok L HL g Hw a Hns (S (length g)) a (fun _ => None)) as (E & EE & CEE & _ & HEa & _); auto.
  { apply cone_self. } { intros n fd Hn. discriminate. }
  rewrite EE. cbn [obind].
  destruct (E a) as [fda|] eqn:Ea; [|congruence]. cbn [throw_none obind].
  (* what conversion of each array gives *)
  assert (HC : forall f fd, E f = Some fd -> exists nd, nth_error g f = Some nd /\ cone g a f /\
     fd = mkF (out_loops f (n_shape nd)) (n_shape nd) (n_dtype nd) (f_expr fd) f /\
     wff shp (isc g) f (out_loops f (n_shape nd)) (f_expr fd) /\ func_refs (f_expr fd) = n_in nd /\
     (has_reduce (f_expr fd) = true <-> exists ax kd, n_op nd = OSum ax kd) /\
     (is_buf (f_expr fd) = true <-> is_const (n_op nd) = true) /\
     (forall D, one_dtype L g a D -> dtok L g D (n_dtype nd) (f_expr fd)) /\
     (forall D, one_dtype L g a D -> fits L g a -> forall idx, in_range (n_shape nd) idx ->
         evalV L shp (Fden L g) D (f_expr fd) (lenv f (n_shape nd) idx) = Fden L g f idx)).
  { intros f fd Hf. destruct (CEE _ _ Hf) as (Hcone & (nd & e & Hnd & Hce & ->) & _). exists nd. cbn [f_expr].
    destruct (conv_expr_ok L HL g Hw f nd Hnd (Hns f nd Hcone Hnd)) as (e' & He' & W & R & HR & HB & HV & HF & HS).
    rewrite Hce in He'. injection He' as <-.
    split; [assumption|]. split; [assumption|]. split; [reflexivity|]. split; [exact W|]. split; [assumption|].
    split; [assumption|]. split; [assumption|].
    assert (HD : forall D, one_dtype L g a D -> dtok L g D (n_dtype nd) e).
    { intros D Hone. split; [intros Hv; eapply Hone; eauto|].
      intros f0 ix -> x Hx. destruct (HF eq_refl f0 ix eq_refl) as (x' & Hx' & Hdt). congruence. }
    split; [exact HD|].
    intros D Hone Hfit idx Hi. rewrite <- (HS) with (idx := idx); auto.
    - symmetry. apply evalV_dt. intros Hv. eapply Hone; eauto.
    - intros nd' Hnd'. eapply Hfit; eauto.
    - apply Forall_forall. intros i Hin nd' Hnd'. eapply Hfit; [|exact Hnd']. eapply cone_step; eauto. }
  assert (HE : forall f fd, E f = Some fd -> forall i, In i (func_refs (f_expr fd)) -> (i < f)%nat /\ E i <> None).
  { intros f fd Hf i Hi. destruct (HC _ _ Hf) as (nd & Hnd & Hcone & _ & W & R & _). split.
    - eapply wff_refs; eauto.
    - apply (CE_cone g a E i CEE); [congruence|]. rewrite R in Hi. eapply cone_step; eauto. }
  assert (HN : forall f fd, E f = Some fd -> (f < length g)%nat).
  { intros f fd Hf. destruct (HC _ _ Hf) as (nd & Hnd & _). apply nth_error_Some. congruence. }
  (* reference counts *)
  destruct (count_refs_ok E (length g) HE HN (S (length g)) (f_expr fda) (fun _ => 0%nat) a (HE _ _ Ea)) as (rc & Erc & Hrc); [lia|].
  rewrite Erc. cbn [obind].
  assert (Hself : forall f, rc f <> 0%nat -> f <> a).
  { intros f Hf ->. apply Hf. rewrite (Hrc a).
    assert (Hz : forall n fd, E n = Some fd -> occ (func_refs (f_expr fd)) a = 0%nat).
    { intros n fd Hn. apply count_occ_not_In. intros Hi. destruct (HE _ _ Hn _ Hi) as [Hlt _].
      destruct (HC _ _ Hn) as (nd & _ & Hcone & _). pose proof (cone_le g Hw a n Hcone). lia. }
    rewrite (Hz _ _ Ea). unfold uses. rewrite (nsum_map_ext _ (fun _ => 0%nat)); [induction (seq 0 (length g)); cbn; auto|].
    intros n _. destruct (fresh _ _ n); auto. unfold erefs. destruct (E n) eqn:En; [eapply Hz; eauto|reflexivity]. }
  assert (Hpos : forall f, E f <> None -> f = a \/ rc f <> 0%nat).
  { assert (G : forall f, cone g a f -> f = a \/ rc f <> 0%nat).
    { induction 1 as [|n nd b Hcone IH Hn Hb]; auto. right. rewrite (Hrc b).
      assert (HEn : E n <> None) by (apply (CE_cone g a E n CEE); [congruence|assumption]).
      destruct (E n) as [fd|] eqn:En; [|congruence].
      destruct (HC _ _ En) as (nd' & Hnd' & _ & _ & _ & R & _). assert (nd' = nd) by congruence. subst nd'.
      assert (Hocc : (0 < occ (func_refs (f_expr fd)) b)%nat) by (rewrite R; apply count_occ_In; assumption).
      destruct IH as [->|IH].
      - assert (fd = fda) by congruence. subst. lia.
      - assert (Hu : (occ (func_refs (f_expr fd)) b <= uses E (length g) (fun _ => 0%nat) rc b)%nat); [|lia].
        unfold uses. assert (HS : In n (seq 0 (length g))) by (apply in_seq; pose proof (HN _ _ En); lia).
        clear - HS IH En. induction (seq 0 (length g)) as [|m l IHl]; [destruct HS|]. cbn [map nsum]. destruct HS as [->|HS].
        + unfold fresh at 1. cbn. destruct (Nat.eqb_spec (rc n) 0); [congruence|]. cbn. unfold erefs. rewrite En. lia.
        + specialize (IHl HS). lia. }
    intros f Hf. destruct (E f) as [fd|] eqn:Ef; [|congruence]. destruct (HC _ _ Ef) as (nd & _ & Hcone & _). auto. }
  assert (Htw : forall f, (2 <= rc f)%nat -> used_twice g a f).
  { intros f Hf. rewrite (Hrc f) in Hf. cbv beta in Hf.
    set (ns := a :: filter (fun n => fresh (fun _ => 0%nat) rc n) (seq 0 (length g))).
    assert (Hns' : NoDup ns).
    { constructor; [|apply NoDup_filter, seq_NoDup]. intros Hi. apply filter_In in Hi as [_ Hi]. unfold fresh in Hi. cbn in Hi.
      apply negb_true_iff, Nat.eqb_neq in Hi. now apply Hself in Hi. }
    assert (Hsum : nsum (map (fun n => occ (erefs E n) f) ns) = (occ (func_refs (f_expr fda)) f + uses E (length g) (fun _ => 0%nat) rc f)%nat).
    { unfold ns. cbn [map nsum]. f_equal; [unfold erefs; now rewrite Ea|]. unfold uses. clear.
      induction (seq 0 (length g)) as [|n l IH]; cbn [map nsum filter]; auto. destruct (fresh (fun _ => 0%nat) rc n); cbn [map nsum]; lia. }
    destruct (two_uses (erefs E) ns f Hns') as (n1 & k1 & n2 & k2 & Hne & H1 & H2 & U1 & U2); [rewrite Hsum; lia|].
    assert (HU : forall n k, nth_error (erefs E n) k = Some f -> cone g a n /\ operand g n k f).
    { intros n k Hk. unfold erefs in Hk. destruct (E n) as [fd|] eqn:En; [|destruct k; discriminate].
      destruct (HC _ _ En) as (nd & Hnd & Hcone & _ & _ & R & _). split; auto. exists nd. split; auto. congruence. }
    exists n1, k1, n2, k2. destruct (HU _ _ U1), (HU _ _ U2). auto. }
  (* the invariant of fusion *)
  assert (HIE : IE g rc E).
  { intros f fd Hf. destruct (HC _ _ Hf) as (nd & Hnd & Hcone & Hfd & W & R & HR & HB & _). split.
    - exists nd. split; [assumption|]. split; [assumption|]. split; [assumption|]. split; [assumption|]. apply HB.
    - intros i Hi. destruct (HE _ _ Hf i Hi) as [Hlt HEi]. split; auto.
      destruct (Hpos i HEi) as [->|?]; auto. pose proof (cone_le g Hw a f Hcone). lia. }
  destruct (HC _ _ Ea) as (nd0 & Hnd0 & _ & Hfda & Wa & Ra & HRa & HBa & _).
  assert (nd0 = nda) by congruence. subst nd0.
  (* the statements about values hold for every D; structure does not depend on it *)
  assert (TF : forall D, exists e E1, try_fuse (S (length g)) rc (f_expr fda) E = Done (e, E1) /\
      wff shp (isc g) a (out_loops a (n_shape nda)) e /\ post L g D rc E (f_expr fda) E1 e /\ same_kind (f_expr fda) e).
  { intros D. apply (tf_wff L g D rc (S (length g)) (try_fuse_ok L g Hw D rc _) (f_expr fda) E a (out_loops a (n_shape nda))); auto.
    - intros i Hi. exact (proj2 (HIE _ _ Ea) i Hi).
    - lia. }
  destruct (TF Int64) as (e & E1 & ETF & We & (P1 & P2 & P3 & _ & _) & [SK1 SK2]).
  assert (TFD : forall D, post L g D rc E (f_expr fda) E1 e).
  { intros D. destruct (TF D) as (e' & E1' & ETF' & _ & HP & _). rewrite ETF in ETF'. injection ETF' as <- <-. exact HP. }
  rewrite ETF. cbn [obind].
  set (E2 := fset E1 a (set_expr fda e)).
  assert (Hne2 : forall i, i <> a -> E2 i = E1 i).
  { intros i Hi. unfold E2, fset. destruct (Nat.eqb_spec i a); [lia|reflexivity]. }
  assert (Hf2 : E2 a = Some (set_expr fda e)) by (unfold E2, fset; now rewrite Nat.eqb_refl).
  assert (Hnone : forall i, E1 i = None <-> E2 i = None).
  { intros i. destruct (Nat.eq_dec i a) as [->|Hne]; [|now rewrite Hne2].
    rewrite Hf2, <- (proj1 P2 a), Ea. split; discriminate. }
  assert (HI2 : IE g rc E2).
  { intros i fdi Hi. destruct (Nat.eq_dec i a) as [->|Hne].
    - rewrite Hf2 in Hi. injection Hi as <-. split.
      + exists nda. split; [assumption|]. cbn. split; [unfold set_expr; rewrite Hfda; reflexivity|].
        split; [assumption|]. split; [now rewrite SK1|]. intros Hc. apply SK2, HBa, Hc.
      + intros j Hj. cbn in Hj. destruct (P3 j Hj) as (H1 & H2 & _). split; auto. now rewrite <- Hnone.
    - rewrite Hne2 in Hi by assumption. destruct (P1 _ _ Hi) as [H1 H2]. split; auto.
      intros j Hj. destruct (H2 j Hj). split; auto. now rewrite <- Hnone. }
  assert (HE2 : forall f fd, E2 f = Some fd -> forall i, In i (func_refs (f_expr fd)) -> (i < f)%nat /\ E2 i <> None).
  { intros f fd Hf i Hi. destruct (HI2 _ _ Hf) as [(nd & _ & _ & W & _) HR]. split; [eapply wff_refs; eauto|apply HR; assumption]. }
  destruct (order_ok E2 HE2 (S (length g)) a ([], [])) as ([seen fs] & EO & (O1 & O2 & O3 & O4 & O5) & ((l & Hl & Hrch) & _) & Hin & Hlast).
  { lia. } { rewrite Hf2. discriminate. }
  { split; [intros l1 x l2 H; destruct l1; discriminate|]. split; [constructor|]. split; [intros x []|]. split; [intros x []|constructor]. }
  rewrite EO. cbn [obind]. exists E2, fs. split; [reflexivity|].
  cbn in Hl, Hlast. subst l.
  assert (Hdn : forall f, rch E2 a f -> f = a \/ dn g rc E2 f).
  { assert (Hp : processed g rc E2 a).
    { intros fd Hfd j Hj. rewrite Hf2 in Hfd. injection Hfd as <-. cbn in Hj.
      eapply (dn_below g rc E1 E2 a P1); [|apply P3; exact Hj|eapply wff_refs; eauto].
      intros i Hi. apply Hne2. lia. }
    induction 1 as [|x d Hx IH Hd]; auto. right. unfold deps in Hd. destruct (E2 x) as [fdx|] eqn:Ex; [|destruct Hd].
    destruct IH as [->|IH]; [eapply Hp; eauto|]. destruct IH as [_ IH]. eapply IH; eauto. }
  assert (HfsE : forall f, In f fs -> E2 f <> None) by (rewrite Forall_forall in O5; exact O5).
  rewrite Forall_forall in Hrch.
  split.
  - exact O2.
  - apply Hlast. tauto.
  - intros f Hf. specialize (HfsE f Hf). assert (HEf : E f <> None).
    { intros Hz. apply HfsE. now apply Hnone, (proj1 P2 f). }
    destruct (E f) as [fd|] eqn:Ef; [|congruence]. destruct (HC _ _ Ef) as (nd & _ & Hcone & _). exact Hcone.
  - intros l1 f l2 Hfs fd Hfd d Hd. eapply O1; eauto. unfold deps. now rewrite Hfd.
  - intros f Hf. specialize (HfsE f Hf). destruct (E2 f) as [fd|] eqn:Ef; [|congruence]. exists fd. split; auto.
    apply (HI2 _ _ Ef).
  - intros f Hf. destruct (Hdn f (Hrch f Hf)) as [?|[(nd & H1 & H2 & H3) _]]; auto. right. exists nd.
    split; [assumption|]. split; [assumption|]. destruct H3 as [?|H3]; auto.
  - intros D f fd nd Hone Hf Hfd Hnd.
    assert (HD0 : dts L g D E).
    { intros f0 fd0 nd0 Hf0 Hnd0'. destruct (HC _ _ Hf0) as (nd' & Hnd' & _ & _ & _ & _ & _ & _ & Hdt & _).
      assert (nd' = nd0) by congruence. subst. auto. }
    destruct (TFD D) as (_ & _ & _ & _ & Hpd). destruct (Hpd HD0) as [HD1 HDr].
    destruct (Nat.eq_dec f a) as [->|Hne].
    + rewrite Hf2 in Hfd. injection Hfd as <-. cbn. apply HDr. eapply HD0; eauto.
    + rewrite Hne2 in Hfd by assumption. eapply HD1; eauto.
  - intros D f fd nd idx Hone Hfit Hf Hfd Hnd Hi.
    assert (HS0 : sem L g D E).
    { intros f0 fd0 nd0 Hf0 Hnd0' i0 Hi0. destruct (HC _ _ Hf0) as (nd' & Hnd' & _ & _ & _ & _ & _ & _ & _ & Hv).
      assert (nd' = nd0) by congruence. subst. now apply Hv. }
    destruct (TFD D) as (_ & _ & _ & Hps & _). destruct (Hps HS0) as [HS1 HSr].
    destruct (Nat.eq_dec f a) as [->|Hne].
    + rewrite Hf2 in Hfd. injection Hfd as <-. cbn [set_expr f_expr]. rewrite <- (HS0 a fda nd Ea Hnd idx Hi).
      apply HSr. rewrite (HS0 a fda nd Ea Hnd idx Hi). eapply Fd_nofault; eauto.
    + rewrite Hne2 in Hfd by assumption. eapply HS1; eauto.
Qed.
End Convert.
