(* What every backward rule computes: it succeeds on regular operations, yields one gradient of the
   right shape per operand, and its elements are the following expressions. *)
From Verif Require Import Base BaseFacts Util UtilFacts Lang Spec SpecFacts Graph Api Denote DenoteFacts Reach ApiFacts
  FrontSpec FrontFacts FrontFacts2 FrontFacts3 FrontFacts4 Backward BackSpec BackSteps BackIdx BackSlice.

Section R.
Context (A : valg) (Hco : forall dt v, coerce A dt v = v).
Let T := list Z -> res (val A).

(* elements of the k-th gradient: s, so = shapes of operand 0 and of the result; X, Y = operands,
   O = result, G = gradient of the result *)
Definition bw_val (op : nop) (s so : list Z) (X Y O G : T) (k : nat) : T := fun idx =>
  let x := X idx in let y := Y idx in let o := O idx in let g := G idx in
  let u f a := (v <- a ;; of_opt (un A f v)) in
  let b f p q := (v <- p ;; w <- q ;; of_opt (bin A f v w)) in
  match op with
  | OUn UNeg => u UNeg g
  | OUn USin => b BMul (u UCos x) g
  | OUn UCos => b BMul (u UNeg (u USin x)) g
  | OUn UExp => b BMul o g
  | OUn ULog => b BTruediv g x
  | OUn USqrt => b BTruediv g (b BMul o (Ok (lit A 2)))
  | OBin BAdd => g
  | OBin BSub => match k with O => g | _ => u UNeg g end
  | OBin BMul => match k with O => b BMul g y | _ => b BMul g x end
  | OBin BTruediv => match k with O => b BTruediv g y
                     | _ => b BMul g (b BTruediv (u UNeg x) (b BPow y (Ok (lit A 2)))) end
  | OBin BPow => match k with O => b BMul (b BMul y (b BPow x (b BSub y (Ok (lit A 1))))) g
                 | _ => b BMul (b BMul (b BPow x y) (u ULog x)) g end
  | OSum ax kd => G (if kd then squash (ones_axes ax 0 s) idx else drop_axes ax 0 idx)
  | OReshape _ => G (unflat so (flat s idx))
  | OBroadcast _ => fold_res (fun p q => of_opt (bin A BAdd p q)) (lit A 0)
      (map G (filter (fun f => list_zeqb (squash s (skipn (length so - length s) f)) idx) (all_idx so)))
  | OTranspose axes => G (unpermute (argsort axes) idx)
  | OSlice subs => match slice_inv subs idx with Some q => G q | None => Ok (lit A 0) end
  | OContiguous => G idx
  | OPad d bf _ => G (upd idx (Z.to_nat d) (bf + nth (Z.to_nat d) idx 0))
  | ODilate d st => G (upd idx (Z.to_nat d) (nth (Z.to_nat d) idx 0 * st))
  | _ => Fault
  end.

Record ruled (g : graph) (o : outcome (graph * list nat)) (ins : list nat) (V : nat -> T) (g' : graph) (rs : list nat) : Prop := {
  ru_done : o = Done (g', rs);
  ru_reach : reach g';
  ru_ext : extends g g';
  ru_len : length rs = length ins;
  ru_at : forall k a r, nth_error ins k = Some a -> nth_error rs k = Some r ->
     valid g' r /\ shape_of g' r = shape_of g a /\
     forall idx, in_range (shape_of g a) idx -> t_at (den A g' r) idx = V k idx
}.

Lemma ruled1 g o a V g' r s : o = Done (g', [r]) -> reach g' -> extends g g' -> valid g' r -> shape_of g' r = s -> shape_of g a = s ->
  (forall idx, in_range s idx -> t_at (den A g' r) idx = V O idx) -> ruled g o [a] V g' [r].
Proof.
  intros HD HR HE HV HS Hs HA. constructor; auto. intros [|[|k]] a' r'; cbn; intros Q1 Q2; try (try destruct k; discriminate).
  injection Q1 as <-. injection Q2 as <-. split; [assumption|]. split; [congruence|]. intros. apply HA. congruence.
Qed.
Lemma ruled2 g o a b V g' r q s : o = Done (g', [r; q]) -> reach g' -> extends g g' ->
  valid g' r -> shape_of g' r = s -> shape_of g a = s -> valid g' q -> shape_of g' q = s -> shape_of g b = s ->
  (forall idx, in_range s idx -> t_at (den A g' r) idx = V O idx) ->
  (forall idx, in_range s idx -> t_at (den A g' q) idx = V 1%nat idx) -> ruled g o [a; b] V g' [r; q].
Proof.
  intros HD HR HE HV HS Hs HV2 HS2 Hs2 HA HB. constructor; auto.
  intros [|[|[|k]]] a' r'; cbn; intros Q1 Q2; try (try destruct k; discriminate); injection Q1 as <-; injection Q2 as <-.
  - split; [assumption|]. split; [congruence|]. intros. apply HA. congruence.
  - split; [assumption|]. split; [congruence|]. intros. apply HB. congruence.
Qed.

(* facts about one operation node *)
Lemma op_node g o nd : reach g -> nth_error g o = Some nd -> is_const (n_op nd) = false ->
  exists a x, nth_error (n_in nd) 0 = Some a /\ (a < o)%nat /\ nth_error g a = Some x /\
    forward_node (n_op nd) (n_in nd) x = Done nd /\ arg_ok g o (n_op nd) (n_in nd) x.
Proof.
  intros Hr Hn Hc. pose proof (reach_wf _ Hr _ _ Hn) as Hw. unfold wf_node in Hw. destruct (n_op nd); try discriminate; exact Hw.
Qed.
Lemma one_input {X} (l : list X) a : length l = 1%nat -> nth_error l 0 = Some a -> l = [a].
Proof. destruct l as [|x [|y l]]; cbn; try discriminate. congruence. Qed.
Lemma two_inputs {X} (l : list X) a b : length l = 2%nat -> nth_error l 0 = Some a -> nth_error l 1 = Some b -> l = [a; b].
Proof. destruct l as [|x [|y [|z l]]]; cbn; try discriminate. congruence. Qed.

Ltac chain E := repeat (first [exact E | eapply ext_trans; [exact E|]]).

Lemma bw_rule_spec g nd o gr : reach g -> nth_error g o = Some nd -> n_in nd <> [] -> valid g gr -> shape_of g gr = shape_of g o ->
  (forall a, nth_error (n_in nd) 0 = Some a -> op_regular (n_op nd) (shape_of g a)) ->
  let X k := match nth_error (n_in nd) k with Some a => t_at (den A g a) | None => fun _ => Fault end in
  let s := match nth_error (n_in nd) 0 with Some a => shape_of g a | None => [] end in
  exists g' rs, ruled g (bw_rule g nd o gr) (n_in nd)
    (bw_val (n_op nd) s (shape_of g o) (X 0%nat) (X 1%nat) (t_at (den A g o)) (t_at (den A g gr))) g' rs.
Proof.
  intros Hr Hn Hne Hgv Hgs Hreg X s.
  assert (Hc : is_const (n_op nd) = false).
  { destruct (is_const (n_op nd)) eqn:E; [|reflexivity]. pose proof (reach_wf _ Hr _ _ Hn) as Hw. unfold wf_node in Hw.
    destruct (n_op nd); try discriminate. destruct Hw as (Hw & _). congruence. }
  destruct (op_node g o nd Hr Hn Hc) as (a & x & Ha & Hao & Hx & Hf & Hok).
  specialize (Hreg a Ha). subst s X. cbn beta zeta. rewrite Ha.
  pose proof (shape_node _ _ _ Hx) as Hsx. pose proof (shape_node _ _ _ Hn) as Hso.
  assert (Hva : valid g a) by (apply nth_error_Some; congruence).
  assert (Hvo : valid g o) by (apply nth_error_Some; congruence).
  unfold bw_rule, inp. rewrite Ha.
  destruct (n_op nd) as [vals|u|b|ax kd|t|t|axes|subs| |d bf af|d st] eqn:Eop; try discriminate; cbn [arg_ok] in Hok; try rewrite <- Hsx in Hok.
  - (* unary *)
    rewrite (one_input _ _ Hok Ha) in *. assert (Hs : shape_of g a = shape_of g o) by (cbn in Hf; injection Hf as <-; rewrite Hsx, Hso; reflexivity).
    assert (Hsg : shape_of g gr = shape_of g a) by congruence.
    destruct u; cbn [obind].
    + destruct (st_unary A Hco g UNeg gr Hr Hgv) as (g1 & r1 & [D1 R1 E1 V1 S1 A1]). rewrite D1. cbn [obind]. rewrite Hsg in *.
      eexists _, _. eapply ruled1 with (s := shape_of g a); eauto.
    + destruct (st_unary A Hco g UCos a Hr Hva) as (g1 & r1 & [D1 R1 E1 V1 S1 A1]). rewrite D1. cbn [obind].
      destruct (st_binary A Hco g1 BMul r1 gr (shape_of g a) R1 V1 (ext_valid _ _ _ E1 Hgv) S1) as (g2 & r2 & [D2 R2 E2 V2 S2 A2]); [rewrite (ext_shape _ _ _ E1); auto|].
      rewrite D2. cbn [obind]. eexists _, _. eapply ruled1 with (s := shape_of g a); eauto using ext_trans. intros idx Hi. rewrite A2, A1, (ext_den A _ _ _ E1 Hgv) by assumption. reflexivity.
    + destruct (st_unary A Hco g USin a Hr Hva) as (g1 & r1 & [D1 R1 E1 V1 S1 A1]). rewrite D1. cbn [obind].
      destruct (st_unary A Hco g1 UNeg r1 R1 V1) as (g2 & r2 & [D2 R2 E2 V2 S2 A2]). rewrite D2. cbn [obind]. rewrite S1 in *.
      pose proof (ext_trans _ _ _ E1 E2) as E12.
      destruct (st_binary A Hco g2 BMul r2 gr (shape_of g a) R2 V2 (ext_valid _ _ _ E12 Hgv) S2) as (g3 & r3 & [D3 R3 E3 V3 S3 A3]); [rewrite (ext_shape _ _ _ E12); auto|].
      rewrite D3. cbn [obind]. eexists _, _. eapply ruled1 with (s := shape_of g a); eauto using ext_trans. intros idx Hi. rewrite A3, A2, A1, (ext_den A _ _ _ E12 Hgv) by assumption. reflexivity.
    + destruct (st_binary A Hco g BMul o gr (shape_of g a) Hr Hvo Hgv (eq_sym Hs) Hsg) as (g1 & r1 & [D1 R1 E1 V1 S1 A1]).
      rewrite D1. cbn [obind]. eexists _, _. eapply ruled1 with (s := shape_of g a); eauto.
    + destruct (st_binary A Hco g BTruediv gr a (shape_of g a) Hr Hgv Hva Hsg eq_refl) as (g1 & r1 & [D1 R1 E1 V1 S1 A1]).
      rewrite D1. cbn [obind]. eexists _, _. eapply ruled1 with (s := shape_of g a); eauto.
    + destruct (st_binary_scalar A Hco g BMul o 2 Hr Hvo) as (g1 & r1 & [D1 R1 E1 V1 S1 A1]). rewrite D1. cbn [obind]. rewrite <- Hs in *.
      destruct (st_binary A Hco g1 BTruediv gr r1 (shape_of g a) R1 (ext_valid _ _ _ E1 Hgv) V1) as (g2 & r2 & [D2 R2 E2 V2 S2 A2]); [rewrite (ext_shape _ _ _ E1); auto|auto|].
      rewrite D2. cbn [obind]. eexists _, _. eapply ruled1 with (s := shape_of g a); eauto using ext_trans. intros idx Hi. rewrite A2, A1, (ext_den A _ _ _ E1 Hgv) by assumption. reflexivity.
  - (* binary *)
    destruct Hok as (a2 & y & Ha2 & Hl & Ha2o & Hy & Hsy). rewrite Ha2. rewrite (two_inputs _ _ _ Hl Ha Ha2) in *.
    assert (Hs : shape_of g a = shape_of g o) by (cbn in Hf; injection Hf as <-; rewrite Hsx, Hso; reflexivity).
    assert (Hsg : shape_of g gr = shape_of g a) by congruence.
    assert (Hv2 : valid g a2) by (apply nth_error_Some; congruence).
    assert (Hs2 : shape_of g a2 = shape_of g a) by (rewrite (shape_node _ _ _ Hy); congruence).
    destruct b; try discriminate; cbn [obind].
    + eexists _, _. eapply ruled2 with (s := shape_of g a); eauto using ext_refl.
    + destruct (st_unary A Hco g UNeg gr Hr Hgv) as (g1 & r1 & [D1 R1 E1 V1 S1 A1]). rewrite D1. cbn [obind]. rewrite Hsg in *.
      eexists _, _. eapply ruled2 with (s := shape_of g a); eauto using ext_valid.
      * now rewrite (ext_shape _ _ _ E1).
      * intros idx Hi. now rewrite (ext_den A _ _ _ E1 Hgv).
    + destruct (st_binary A Hco g BMul gr a2 (shape_of g a) Hr Hgv Hv2 Hsg Hs2) as (g1 & r1 & [D1 R1 E1 V1 S1 A1]). rewrite D1. cbn [obind].
      destruct (st_binary A Hco g1 BMul gr a (shape_of g a) R1 (ext_valid _ _ _ E1 Hgv) (ext_valid _ _ _ E1 Hva)) as (g2 & r2 & [D2 R2 E2 V2 S2 A2]); [rewrite (ext_shape _ _ _ E1); auto..|].
      rewrite D2. cbn [obind]. eexists _, _. eapply ruled2 with (s := shape_of g a); eauto using ext_trans, ext_valid.
      * now rewrite (ext_shape _ _ _ E2).
      * intros idx Hi. rewrite (ext_den A _ _ _ E2 V1). now apply A1.
      * intros idx Hi. rewrite A2 by assumption. now rewrite (ext_den A _ _ _ E1 Hgv), (ext_den A _ _ _ E1 Hva).
    + destruct (st_binary A Hco g BTruediv gr a2 (shape_of g a) Hr Hgv Hv2 Hsg Hs2) as (g1 & r1 & [D1 R1 E1 V1 S1 A1]). rewrite D1. cbn [obind].
      destruct (st_unary A Hco g1 UNeg a R1 (ext_valid _ _ _ E1 Hva)) as (g2 & r2 & [D2 R2 E2 V2 S2 A2]). rewrite D2. cbn [obind].
      rewrite (ext_shape _ _ _ E1 Hva) in *. pose proof (ext_trans _ _ _ E1 E2) as E12.
      destruct (st_binary_scalar A Hco g2 BPow a2 2 R2 (ext_valid _ _ _ E12 Hv2)) as (g3 & r3 & [D3 R3 E3 V3 S3 A3]). rewrite D3. cbn [obind].
      rewrite (ext_shape _ _ _ E12 Hv2), Hs2 in *. pose proof (ext_trans _ _ _ E12 E3) as E13.
      destruct (st_binary A Hco g3 BTruediv r2 r3 (shape_of g a) R3 (ext_valid _ _ _ E3 V2) V3) as (g4 & r4 & [D4 R4 E4 V4 S4 A4]); [rewrite (ext_shape _ _ _ E3); auto|auto|].
      rewrite D4. cbn [obind]. pose proof (ext_trans _ _ _ E13 E4) as E14.
      destruct (st_binary A Hco g4 BMul gr r4 (shape_of g a) R4 (ext_valid _ _ _ E14 Hgv) V4) as (g5 & r5 & [D5 R5 E5 V5 S5 A5]); [rewrite (ext_shape _ _ _ E14); auto|auto|].
      rewrite D5. cbn [obind]. pose proof (ext_trans _ _ _ E2 (ext_trans _ _ _ E3 (ext_trans _ _ _ E4 E5))) as E25.
      eexists _, _. eapply ruled2 with (s := shape_of g a); eauto using ext_trans, ext_valid.
      * now rewrite (ext_shape _ _ _ E25).
      * intros idx Hi. rewrite (ext_den A _ _ _ E25 V1). now apply A1.
      * intros idx Hi. rewrite A5, A4, A3 by assumption. rewrite (ext_den A _ _ _ E3 V2), A2 by assumption.
        rewrite (ext_den A _ _ _ E14 Hgv), (ext_den A _ _ _ E1 Hva), (ext_den A _ _ _ E12 Hv2). reflexivity.
    + (* pow *)
      destruct (st_binary_scalar A Hco g BSub a2 1 Hr Hv2) as (g1 & r1 & [D1 R1 E1 V1 S1 A1]). rewrite D1. cbn [obind]. rewrite Hs2 in *.
      destruct (st_binary A Hco g1 BPow a r1 (shape_of g a) R1 (ext_valid _ _ _ E1 Hva) V1) as (g2 & r2 & [D2 R2 E2 V2 S2 A2]); [rewrite (ext_shape _ _ _ E1); auto|auto|].
      rewrite D2. cbn [obind]. pose proof (ext_trans _ _ _ E1 E2) as E12.
      destruct (st_binary A Hco g2 BMul a2 r2 (shape_of g a) R2 (ext_valid _ _ _ E12 Hv2) V2) as (g3 & r3 & [D3 R3 E3 V3 S3 A3]); [rewrite (ext_shape _ _ _ E12); auto|auto|].
      rewrite D3. cbn [obind]. pose proof (ext_trans _ _ _ E12 E3) as E13.
      destruct (st_binary A Hco g3 BMul r3 gr (shape_of g a) R3 V3 (ext_valid _ _ _ E13 Hgv)) as (g4 & r4 & [D4 R4 E4 V4 S4 A4]); [auto|rewrite (ext_shape _ _ _ E13); auto|].
      rewrite D4. cbn [obind]. pose proof (ext_trans _ _ _ E13 E4) as E14.
      destruct (st_binary A Hco g4 BPow a a2 (shape_of g a) R4 (ext_valid _ _ _ E14 Hva) (ext_valid _ _ _ E14 Hv2)) as (g5 & r5 & [D5 R5 E5 V5 S5 A5]); [rewrite (ext_shape _ _ _ E14); auto..|].
      rewrite D5. cbn [obind]. pose proof (ext_trans _ _ _ E14 E5) as E15.
      destruct (st_unary A Hco g5 ULog a R5 (ext_valid _ _ _ E15 Hva)) as (g6 & r6 & [D6 R6 E6 V6 S6 A6]). rewrite D6. cbn [obind].
      rewrite (ext_shape _ _ _ E15 Hva) in *. pose proof (ext_trans _ _ _ E15 E6) as E16.
      destruct (st_binary A Hco g6 BMul r5 r6 (shape_of g a) R6 (ext_valid _ _ _ E6 V5) V6) as (g7 & r7 & [D7 R7 E7 V7 S7 A7]); [rewrite (ext_shape _ _ _ E6); auto|auto|].
      rewrite D7. cbn [obind]. pose proof (ext_trans _ _ _ E16 E7) as E17.
      destruct (st_binary A Hco g7 BMul r7 gr (shape_of g a) R7 V7 (ext_valid _ _ _ E17 Hgv)) as (g8 & r8 & [D8 R8 E8 V8 S8 A8]); [auto|rewrite (ext_shape _ _ _ E17); auto|].
      rewrite D8. cbn [obind]. pose proof (ext_trans _ _ _ E5 (ext_trans _ _ _ E6 (ext_trans _ _ _ E7 E8))) as E48.
      eexists _, _. eapply ruled2 with (s := shape_of g a); eauto using ext_trans, ext_valid.
      * now rewrite (ext_shape _ _ _ E48).
      * intros idx Hi. rewrite (ext_den A _ _ _ E48 V4). rewrite A4, A3, A2, A1 by assumption.
        rewrite (ext_den A _ _ _ E13 Hgv), (ext_den A _ _ _ E12 Hv2), (ext_den A _ _ _ E1 Hva). reflexivity.
      * intros idx Hi. rewrite A8, A7, A6 by assumption. rewrite (ext_den A _ _ _ E6 V5), A5 by assumption.
        rewrite (ext_den A _ _ _ E17 Hgv), (ext_den A _ _ _ E14 Hv2), (ext_den A _ _ _ E14 Hva), (ext_den A _ _ _ E15 Hva). reflexivity.
  - (* sum *)
    destruct Hok as (Hl & Hax). rewrite (one_input _ _ Hl Ha) in *. cbn [obind].
    unfold get at 1. rewrite Hx. cbn [obind].
    assert (Hs : shape_of g o = if kd then ones_axes ax 0 (shape_of g a) else drop_axes ax 0 (shape_of g a)).
    { cbn in Hf. injection Hf as <-. rewrite Hso, Hsx. cbn. apply reduce_shape_spec. }
    rewrite <- Hsx in *. rewrite set_ones_eq by assumption. set (s1 := ones_axes ax 0 (shape_of g a)) in *.
    assert (Hs1 : nonneg s1) by (apply ones_axes_nonneg, shape_nonneg; auto).
    assert (HY : exists g1 h, yields A g (if kd then Done (g, gr) else api_reshape g gr s1) s1
              (fun i => if kd then t_at (den A g gr) i else t_at (den A g gr) (unflat (shape_of g gr) (flat s1 i))) g1 h).
    { destruct kd; [exists g, gr; constructor; auto using ext_refl; congruence|].
      apply st_reshape; auto. rewrite Hgs, Hs. unfold s1. apply zprod_ones. }
    destruct HY as (g1 & h & [D1 R1 E1 V1 S1 A1]). rewrite D1. cbn [obind].
    destruct (st_broadcast_to A g1 h (shape_of g a) R1 V1 (shape_nonneg g a Hr)) as (g2 & r2 & [D2 R2 E2 V2 S2 A2]); [rewrite S1; apply bcast_ones|].
    rewrite D2. cbn [obind]. eexists _, _. eapply ruled1 with (s := shape_of g a); eauto using ext_trans. intros idx Hi. rewrite A2 by assumption. rewrite S1.
    assert (Hp : np_pick s1 idx = squash s1 idx).
    { rewrite np_pick_squash; unfold s1; rewrite ones_axes_length, (in_range_length _ _ Hi); [now rewrite Nat.sub_diag|lia]. }
    rewrite Hp, A1.
    + cbn [bw_val]. destruct kd; [reflexivity|]. f_equal. unfold s1. rewrite flat_ones_squash by assumption. rewrite Hgs, Hs.
      apply unflat_flat. now apply drop_axes_in_range.
    + rewrite <- Hp. rewrite Hp. assert (HB : bcast_ok s1 (shape_of g a)) by apply bcast_ones.
      pose proof (squash_in_range s1 _ idx HB Hi) as HH. unfold s1 in HH at 2 3. rewrite ones_axes_length, Nat.sub_diag in HH. exact HH.
  - (* reshape *)
    destruct Hok as (Hl & Hnt & Hp & _). rewrite (one_input _ _ Hl Ha) in *. cbn [obind]. unfold get at 1. rewrite Hx. cbn [obind].
    assert (Hs : shape_of g o = t) by (cbn in Hf; injection Hf as <-; now rewrite Hso).
    rewrite <- Hsx in *.
    destruct (st_reshape A g gr (shape_of g a) Hr Hgv (shape_nonneg g a Hr)) as (g1 & r1 & [D1 R1 E1 V1 S1 A1]); [rewrite Hgs, Hs; auto|].
    rewrite D1. cbn [obind]. eexists _, _. eapply ruled1 with (s := shape_of g a); eauto. intros idx Hi. rewrite A1 by assumption. now rewrite Hgs.
  - (* broadcast *)
    destruct Hok as (Hl & Hnt & Hb). rewrite (one_input _ _ Hl Ha) in *. cbn [obind]. unfold get at 1. rewrite Hx. cbn [obind].
    destruct (valid_node _ _ Hgv) as [gn Hgn]. unfold get at 1. rewrite Hgn. cbn [obind]. rewrite <- (shape_node _ _ _ Hgn).
    assert (Hs : shape_of g o = t) by (cbn in Hf; injection Hf as <-; now rewrite Hso).
    rewrite <- Hsx in *. rewrite Hgs, Hs in *. set (s := shape_of g a) in *. fold (bw_axes t s). pose proof (proj1 Hb) as Hlen.
    destruct (st_sum_keep A Hco g gr (bw_axes t s) Hr Hgv) as (g1 & r1 & [D1 R1 E1 V1 S1 A1]).
    { rewrite Hgs. now apply bw_axes_range. }
    { rewrite Hgs. cbn [op_regular] in Hreg. destruct Hreg as [->|[Hr1|Hr1]]; [now right| |].
      - left. intros E. assert (HI : In 0 (bw_axes t s)) by (apply bw_axes_in; [assumption|]; left; lia). rewrite E in HI. destruct HI.
      - left. intros E. apply In_nth_error in Hr1 as (m & Hm). assert (HI : In (Z.of_nat ((length t - length s) + m)) (bw_axes t s)) by (apply bw_axes_in; [assumption|]; right; eauto).
        rewrite E in HI. destruct HI. }
    rewrite Hgs in *. rewrite bw_axes_ones in * by assumption. set (k := (length t - length s)%nat) in *.
    rewrite D1. cbn [obind].
    assert (HF : forall idx, in_range s idx -> t_at (den A g1 r1) (repeat 0 k ++ idx) =
        bw_val (OBroadcast t) s t (t_at (den A g a)) (match nth_error [a] 1 with Some a0 => t_at (den A g a0) | None => fun _ => Fault end) (t_at (den A g o)) (t_at (den A g gr)) 0 idx).
    { intros idx Hi. rewrite A1 by (now apply in_range_repeat1). cbn [bw_val]. do 2 f_equal. unfold sum_positions. apply filter_ext_in.
      intros f Hf'. apply in_all_idx in Hf'. pose proof (bw_positions_iff t s f idx Hb Hf' Hi) as HI. cbn zeta in HI. fold k in HI. fold k.
      destruct (list_zeqb (squash s (skipn k f)) idx) eqn:E1'.
      - apply list_zeqb_eq in E1'. apply list_zeqb_eq. now apply HI.
      - destruct (list_zeqb (drop_axes _ _ _) _) eqn:E2'; [|reflexivity]. apply list_zeqb_eq, HI in E2'. apply list_zeqb_eq in E2'. congruence. }
    rewrite bw_added_eq by assumption. fold k. destruct (zrange (Z.of_nat k)) as [|z0 l0] eqn:Ez.
    + assert (k = O) as Ek by (destruct k; [reflexivity|]; pose proof (zrange_length (Z.of_nat (S k))) as HH; rewrite Ez in HH; cbn in HH; lia).
      rewrite Ek in *. cbn [repeat app] in *. eexists _, _. eapply ruled1 with (s := shape_of g a); eauto.
    + rewrite <- Ez. destruct (valid_node _ _ V1) as [yn Hyn]. unfold get at 1. rewrite Hyn. cbn [obind].
      rewrite reduce_shape_drop, <- (shape_node _ _ _ Hyn), S1, drop_added.
      destruct (st_reshape A g1 r1 s R1 V1 (shape_nonneg g a Hr)) as (g2 & r2 & [D2 R2 E2 V2 S2 A2]); [now rewrite S1, zprod_repeat1|].
      rewrite D2. cbn [obind]. eexists _, _. eapply ruled1 with (s := shape_of g a); eauto using ext_trans. intros idx Hi. rewrite A2 by assumption. rewrite S1, unflat_repeat1 by assumption. now apply HF.
  - (* transpose *)
    destruct Hok as (Hl & Hp). rewrite (one_input _ _ Hl Ha) in *. cbn [obind].
    assert (Hs : shape_of g o = map (fun k => nth (Z.to_nat k) (shape_of g a) 0) axes) by (cbn in Hf; injection Hf as <-; now rewrite Hso, Hsx).
    assert (HL : length axes = length (shape_of g a)) by (now apply perm_zrange_len).
    destruct (st_transpose A g gr (argsort axes) Hr Hgv) as (g1 & r1 & [D1 R1 E1 V1 S1 A1]).
    { rewrite Hgs, Hs, map_length, HL. apply argsort_is_perm; [lia|assumption]. }
    rewrite D1. cbn [obind]. rewrite Hgs, Hs, transpose_shape_back in * by assumption. eexists _, _. eapply ruled1 with (s := shape_of g a); eauto.
  - (* slice *)
    destruct Hok as (Hl & HS). rewrite (one_input _ _ Hl Ha) in *. cbn [obind]. unfold get at 1. rewrite Hx. cbn [obind]. rewrite <- Hsx in *.
    assert (Hs : shape_of g o = slice_shape subs).
    { rewrite Hso. pose proof (wf_strides_len A g a x (reach_wf _ Hr) Hx) as HL. cbn in Hf. unfold fwd_slice in Hf. destruct (slice_loop subs (n_strides x)) as [[o' sh] ss] eqn:Es. injection Hf as <-.
      rewrite <- Hsx in HL. destruct (slice_loop_spec _ _ _ HS HL _ _ _ Es) as (H1 & _). exact H1. }
    destruct (bw_slice_spec A Hco subs (shape_of g a) [] g gr Hr Hgv HS Hreg) as (g1 & r1 & [D1 R1 E1 V1 S1 A1]); [rewrite Hgs, Hs; reflexivity|].
    cbn [length app] in *. rewrite D1. cbn [obind]. eexists _, _. eapply ruled1 with (s := shape_of g a); eauto.
  - (* contiguous *)
    rewrite (one_input _ _ Hok Ha) in *. cbn [obind].
    assert (Hs : shape_of g a = shape_of g o) by (cbn in Hf; injection Hf as <-; rewrite Hsx, Hso; reflexivity).
    eexists _, _. eapply ruled1 with (s := shape_of g a); eauto using ext_refl. congruence.
  - (* pad *)
    destruct Hok as (Hl & Hd & Hbf & Haf). rewrite (one_input _ _ Hl Ha) in *. cbn [obind]. unfold get at 1. rewrite Hx. cbn [obind]. rewrite <- Hsx in *.
    destruct (valid_node _ _ Hgv) as [gn Hgn]. unfold get at 1. rewrite Hgn. cbn [obind]. rewrite <- (shape_node _ _ _ Hgn).
    assert (Ed : d = Z.of_nat (Z.to_nat d)) by lia. set (dn := Z.to_nat d) in *.
    assert (Hdn : (dn < length (shape_of g a))%nat) by lia.
    assert (Hpy : pynth (shape_of g a) d = Some (nth dn (shape_of g a) 0)).
    { rewrite pynth_pos by lia. rewrite Ed, znth_of_nat. now apply nth_error_nth'. }
    rewrite Hpy. cbn [obind]. set (n := nth dn (shape_of g a) 0) in *.
    assert (Hn0 : 0 <= n) by (apply (proj1 (Forall_forall _ _) (shape_nonneg g a Hr)); unfold n; now apply nth_In).
    assert (Hs : shape_of g o = upd (shape_of g a) dn (bf + n + af)).
    { cbn in Hf. unfold fwd_pad in Hf. rewrite <- Hsx, pyupdate_nonneg in Hf by lia. fold dn in Hf. fold n in Hf. rewrite Hso. injection Hf as <-. cbn. f_equal. lia. }
    assert (Hpos : py_positions (nth dn (shape_of g gr) 0) (Some bf) (Some (bf + n)) None = map (fun i => bf + i * 1) (zrange n)).
    { rewrite Hgs, Hs, nth_upd_same by assumption. unfold py_positions, py_bound. replace (bf <? 0) with false by lia. replace (bf + n <? 0) with false by lia.
      replace (Z.min (bf + n + af) bf) with bf by lia. replace (Z.min (bf + n + af) (bf + n)) with (bf + n) by lia.
      rewrite progression_filter by lia. f_equal. f_equal. destruct (bf <? bf + n) eqn:E; [rewrite Z.div_1_r|]; lia. }
    destruct (st_slice_axis A g gr dn (Some bf) (Some (bf + n)) None (fun i => bf + i * 1) n Hr Hgv ltac:(rewrite Hgs, Hs, upd_length; assumption) I Hpos Hn0) as (g1 & r1 & [D1 R1 E1 V1 S1 A1]).
    rewrite <- Ed in D1. rewrite D1. cbn [obind]. rewrite Hgs, Hs, upd_upd_same in S1, A1. unfold n in S1, A1 at 1. rewrite upd_nth_self in S1, A1.
    eexists _, _. eapply ruled1 with (s := shape_of g a); eauto. intros idx Hi. rewrite A1 by assumption. cbn [bw_val]. fold dn. now rewrite Z.mul_1_r.
  - (* dilate *)
    destruct Hok as (Hl & Hd & Hst & Hn1). rewrite (one_input _ _ Hl Ha) in *. cbn [obind].
    destruct (valid_node _ _ Hgv) as [gn Hgn]. unfold get at 1. rewrite Hgn. cbn [obind]. rewrite <- (shape_node _ _ _ Hgn).
    assert (Ed : d = Z.of_nat (Z.to_nat d)) by lia. set (dn := Z.to_nat d) in *.
    assert (Hdn : (dn < length (shape_of g a))%nat) by lia. set (n := nth dn (shape_of g a) 0) in *.
    assert (Hs : shape_of g o = upd (shape_of g a) dn ((n - 1) * st + 1)).
    { cbn in Hf. unfold fwd_dilate in Hf. rewrite <- Hsx, pyupdate_nonneg in Hf by lia. fold dn in Hf. fold n in Hf. rewrite Hso. injection Hf as <-. reflexivity. }
    assert (Hpos : py_positions (nth dn (shape_of g gr) 0) None None (Some st) = map (fun i => 0 + i * st) (zrange n)).
    { rewrite Hgs, Hs, nth_upd_same by assumption. unfold py_positions. rewrite progression_filter by nia. f_equal. f_equal.
      replace (0 <? (n - 1) * st + 1) with true by nia. replace ((n - 1) * st + 1 - 0 - 1) with ((n - 1) * st) by lia. rewrite Z.div_mul by lia. lia. }
    destruct (st_slice_axis A g gr dn None None (Some st) (fun i => 0 + i * st) n Hr Hgv ltac:(rewrite Hgs, Hs, upd_length; assumption) ltac:(cbn; lia) Hpos ltac:(lia)) as (g1 & r1 & [D1 R1 E1 V1 S1 A1]).
    rewrite <- Ed in D1. rewrite D1. cbn [obind]. rewrite Hgs, Hs, upd_upd_same in S1, A1. unfold n in S1, A1 at 1. rewrite upd_nth_self in S1, A1.
    eexists _, _. eapply ruled1 with (s := shape_of g a); eauto.
Qed.
End R.
