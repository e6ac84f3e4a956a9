(* The rule of slicing (ndarray.py:147-162): the loop over axes scatters the gradient. *)
From Verif Require Import Base BaseFacts Util UtilFacts Lang Spec SpecFacts Graph Api Denote DenoteFacts Reach ApiFacts
  FrontSpec FrontFacts FrontFacts2 FrontFacts3 FrontFacts4 Backward BackSpec BackSteps BackIdx.

Lemma upd_mid {X} (p : list X) x y r : upd (p ++ x :: r) (length p) y = p ++ y :: r.
Proof. induction p as [|a p IH]; cbn; [reflexivity|]. now rewrite IH. Qed.
Lemma nth_mid {X} (p : list X) x r d : nth (length p) (p ++ x :: r) d = x.
Proof. rewrite app_nth2 by lia. now rewrite Nat.sub_diag. Qed.
Lemma in_range_split pre n rest idx : in_range (pre ++ n :: rest) idx ->
  exists p j q, idx = p ++ j :: q /\ length p = length pre /\ in_range pre p /\ 0 <= j < n /\ in_range rest q.
Proof.
  unfold in_range. intros H. apply Forall2_app_inv_r in H as (p & r & H1 & H2 & ->). inversion H2 as [|j ? q ? Hj Hq]; subst.
  exists p, j, q. split; [reflexivity|]. split; [now apply Forall2_len in H1|]. auto.
Qed.
Lemma in_range_mid pre n rest p j q : in_range pre p -> 0 <= j < n -> in_range rest q -> in_range (pre ++ n :: rest) (p ++ j :: q).
Proof. intros H1 H2 H3. apply Forall2_app; [exact H1|]. constructor; auto. Qed.
Lemma in_range_app a b p q : in_range a p -> in_range b q -> in_range (a ++ b) (p ++ q).
Proof. apply Forall2_app. Qed.
Lemma in_range_app_inv a b i : in_range (a ++ b) i -> exists p q, i = p ++ q /\ in_range a p /\ in_range b q.
Proof. intros H. apply Forall2_app_inv_r in H as (p & q & H1 & H2 & ->). eauto. Qed.
Lemma flat_mid1 : forall pre rest p q, length p = length pre -> flat (pre ++ 1 :: rest) (p ++ 0 :: q) = flat (pre ++ rest) (p ++ q).
Proof.
  induction pre as [|d pre IH]; intros rest [|x p] q H; cbn in H; try discriminate; cbn [app].
  - rewrite flat_cons. lia.
  - rewrite !flat_cons, IH by lia. rewrite !zprod_app, zprod_cons. lia.
Qed.
Lemma firstn_snoc_mid {X} (p : list X) j q : firstn (S (length p)) (p ++ j :: q) = p ++ [j].
Proof. induction p as [|x p IH]; cbn [length app]; [reflexivity|]. cbn [firstn]. f_equal. exact IH. Qed.
Lemma skipn_snoc_mid {X} (p : list X) j q : skipn (S (length p)) (p ++ j :: q) = q.
Proof. induction p as [|x p IH]; cbn [length app]; [reflexivity|]. exact IH. Qed.
Lemma firstn_app_exact {X} (p q : list X) : firstn (length p) (p ++ q) = p.
Proof. rewrite firstn_app, Nat.sub_diag, firstn_all. cbn. apply app_nil_r. Qed.
Lemma skipn_app_exact {X} (p q : list X) : skipn (length p) (p ++ q) = q.
Proof. rewrite skipn_app, Nat.sub_diag, skipn_all. reflexivity. Qed.
Lemma nonneg_app a b : nonneg (a ++ b) <-> nonneg a /\ nonneg b.
Proof. apply Forall_app. Qed.

Section S.
Context (A : valg) (Hco : forall dt v, coerce A dt v = v).

Lemma bw_slice_spec subs : forall ish pre g gr, reach g -> valid g gr -> Forall2 sub_ok subs ish -> Forall sub_regular subs ->
  shape_of g gr = pre ++ slice_shape subs ->
  exists g' r, yields A g (bw_slice g gr (length pre) subs ish) (pre ++ ish)
    (fun i => match slice_inv subs (skipn (length pre) i) with
              | Some q => t_at (den A g gr) (firstn (length pre) i ++ q)
              | None => Ok (lit A 0) end) g' r.
Proof.
  induction subs as [|x subs IH]; intros ish pre g gr Hr Hv HS HR Hsh.
  { inversion HS; subst. exists g, gr. cbn [slice_shape] in Hsh. rewrite app_nil_r in *. constructor; auto using ext_refl.
    intros idx Hi. pose proof (in_range_length _ _ Hi) as HL.
    replace (skipn (length pre) idx) with (@nil Z) by (symmetry; apply skipn_all2; lia). cbn [slice_inv]. rewrite app_nil_r, firstn_all2 by lia. reflexivity. }
  inversion HS as [|? n ? ish' Hx HS']; subst. pose proof (Forall_inv HR) as HRx. apply Forall_inv_tail in HR.
  pose proof (shape_nonneg g gr Hr) as Hnn. rewrite Hsh in Hnn. apply nonneg_app in Hnn as [Hnp Hns].
  destruct (valid_node _ _ Hv) as [nd Hnd].
  assert (Hlen : length (pre ++ [n]) = S (length pre)) by (rewrite app_length; cbn; lia).
  destruct x as [s|a b st]; cbn [slice_shape sub_ok] in *.
  - (* integer *)
    cbn [bw_slice]. unfold get at 1. rewrite Hnd. cbn [obind]. rewrite <- (shape_node _ _ _ Hnd), Hsh.
    rewrite firstn_app_exact, skipn_app_exact.
    set (ns := pre ++ [1] ++ slice_shape subs).
    assert (Hnsn : nonneg ns) by (apply nonneg_app; split; [assumption|]; constructor; [lia|assumption]).
    destruct (st_reshape A g gr ns Hr Hv Hnsn) as (g1 & r1 & [D1 R1 E1 V1 S1 A1]).
    { rewrite Hsh. unfold ns. cbn [app]. rewrite !zprod_app, zprod_cons. lia. }
    rewrite D1. cbn [obind].
    assert (Hnth : nth (length pre) (shape_of g1 r1) 0 = 1) by (rewrite S1; apply nth_mid).
    destruct (st_pad A Hco g1 r1 (length pre) s (n - s - 1) R1 V1) as (g2 & r2 & [D2 R2 E2 V2 S2 A2]); [rewrite S1; unfold ns; rewrite app_length; cbn; lia|lia|lia|].
    rewrite Hnth in *. rewrite D2. cbn [obind].
    assert (S2' : shape_of g2 r2 = (pre ++ [n]) ++ slice_shape subs).
    { rewrite S2, S1. unfold ns. cbn [app]. rewrite upd_mid, <- app_assoc. cbn. do 2 f_equal. lia. }
    destruct (IH ish' (pre ++ [n]) g2 r2 R2 V2 HS' HR S2') as (g3 & r3 & [D3 R3 E3 V3 S3 A3]). rewrite Hlen in *.
    exists g3, r3. constructor; auto.
    + eapply ext_trans; [exact E1|]. eapply ext_trans; eauto.
    + rewrite S3, <- app_assoc. reflexivity.
    + intros idx Hi. rewrite A3 by (rewrite <- app_assoc; exact Hi).
      apply in_range_split in Hi as (p & j & q & -> & Lp & Hp & Hj & Hq). rewrite <- Lp, firstn_snoc_mid, skipn_snoc_mid, skipn_app_exact, firstn_app_exact.
      cbn [slice_inv]. destruct (slice_inv subs q) as [q'|] eqn:Eq.
      * apply (slice_inv_some subs ish' q q' HS' Hq) in Eq as (Hq1 & Hq2). rewrite <- app_assoc. cbn [app].
        rewrite A2.
        -- rewrite <- Lp, nth_mid, upd_mid. destruct ((s <=? j) && (j <? s + 1)) eqn:Ej.
           ++ replace (j =? s) with true by lia. rewrite A1.
              ** replace (j - s) with 0 by lia. unfold ns. cbn [app]. rewrite flat_mid1 by assumption. rewrite Hsh. rewrite unflat_flat; [reflexivity|now apply in_range_app].
              ** apply in_range_mid; auto. lia.
           ++ replace (j =? s) with false by lia. reflexivity.
        -- rewrite S1. unfold ns. cbn [app]. rewrite upd_mid. apply in_range_mid; auto. lia.
      * destruct (j =? s); reflexivity.
  - (* slice *)
    fold (slice_count a b st) in *. set (c := slice_count a b st) in *. destruct Hx as (Ha & Hb & Hst). cbn [sub_regular] in HRx.
    assert (Hc : 0 <= c) by (apply (Forall_inv Hns)). apply Forall_inv_tail in Hns.
    (* after dilation *)
    set (len := if st >? 1 then (c - 1) * st + 1 else c).
    assert (Hstep1 : exists g1 r1, yields A g (if st >? 1 then api_dilate g gr (Z.of_nat (length pre)) st else Done (g, gr)) (pre ++ len :: slice_shape subs)
        (fun i => if nth (length pre) i 0 mod st =? 0 then t_at (den A g gr) (upd i (length pre) (nth (length pre) i 0 / st)) else Ok (lit A 0)) g1 r1).
    { unfold len. destruct (st >? 1) eqn:Est.
      - destruct HRx as [->|Hab]; [lia|].
        assert (Hn1 : nth (length pre) (shape_of g gr) 0 = c) by (rewrite Hsh; apply nth_mid).
        assert (Hc1 : 1 <= c) by (unfold c, slice_count; replace (a <? b) with true by lia; pose proof (Z.div_pos (b - a - 1) st ltac:(lia) ltac:(lia)); lia).
        destruct (st_dilate A Hco g gr (length pre) st Hr Hv) as (g1 & r1 & HY); [rewrite Hsh, app_length; cbn; lia|lia|lia|].
        exists g1, r1. rewrite Hn1, Hsh, upd_mid in HY. exact HY.
      - replace st with 1 by lia. exists g, gr. constructor; auto using ext_refl. intros idx Hi. rewrite Z.mod_1_r, Z.div_1_r. cbn [Z.eqb].
        now rewrite upd_nth_self. }
    destruct Hstep1 as (g1 & r1 & [D1 R1 E1 V1 S1 A1]). cbn [bw_slice]. rewrite D1. cbn [obind].
    destruct (valid_node _ _ V1) as [nd1 Hnd1]. unfold get at 1. rewrite Hnd1. cbn [obind].
    assert (Hne : nth_error (n_shape nd1) (length pre) = Some len).
    { rewrite <- (shape_node _ _ _ Hnd1), S1. rewrite nth_error_app2 by lia. now rewrite Nat.sub_diag. }
    rewrite Hne. cbn [obind].
    assert (Hlen0 : 0 <= len) by (unfold len; destruct (st >? 1) eqn:Est; [destruct HRx as [->|Hab]; [lia|]; assert (1 <= c) by (unfold c, slice_count; replace (a <? b) with true by lia; pose proof (Z.div_pos (b - a - 1) st ltac:(lia) ltac:(lia)); lia); nia|lia]).
    assert (Hfit : a + len <= n).
    { unfold len, c, slice_count. destruct (a <? b) eqn:Eab.
      - pose proof (Z.mul_div_le (b - a - 1) st ltac:(lia)). destruct (st >? 1) eqn:Est; [nia|]. replace st with 1 in * by lia. lia.
      - destruct (st >? 1) eqn:Est; [lia|lia]. }
    assert (Hstep2 : exists g2 r2, yields A g1 (if (a >? 0) || (n - a - len >? 0) then api_pad g1 r1 (Z.of_nat (length pre)) a (n - a - len) else Done (g1, r1)) (pre ++ n :: slice_shape subs)
        (fun i => if (a <=? nth (length pre) i 0) && (nth (length pre) i 0 <? a + len) then t_at (den A g1 r1) (upd i (length pre) (nth (length pre) i 0 - a)) else Ok (lit A 0)) g2 r2).
    { assert (Hn1 : nth (length pre) (shape_of g1 r1) 0 = len) by (rewrite S1; apply nth_mid).
      destruct ((a >? 0) || (n - a - len >? 0)) eqn:Ep.
      - destruct (st_pad A Hco g1 r1 (length pre) a (n - a - len) R1 V1) as (g2 & r2 & HY); [rewrite S1, app_length; cbn; lia|lia|lia|].
        exists g2, r2. rewrite Hn1, S1, upd_mid in HY. replace (a + len + (n - a - len)) with n in HY by lia. exact HY.
      - exists g1, r1. assert (En : len = n) by lia. rewrite En in *. constructor; auto using ext_refl. intros idx Hi.
        apply in_range_split in Hi as (p & j & q & -> & Lp & Hp & Hj & Hq). rewrite <- Lp, nth_mid. replace ((a <=? j) && (j <? a + n)) with true by lia.
        rewrite upd_mid. replace (j - a) with j by lia. reflexivity. }
    destruct Hstep2 as (g2 & r2 & [D2 R2 E2 V2 S2 A2]). cbv zeta. rewrite D2. cbn [obind].
    assert (S2' : shape_of g2 r2 = (pre ++ [n]) ++ slice_shape subs) by (rewrite S2, <- app_assoc; reflexivity).
    destruct (IH ish' (pre ++ [n]) g2 r2 R2 V2 HS' HR S2') as (g3 & r3 & [D3 R3 E3 V3 S3 A3]). rewrite Hlen in *.
    exists g3, r3. constructor; auto.
    + eapply ext_trans; [exact E1|]. eapply ext_trans; eauto.
    + rewrite S3, <- app_assoc. reflexivity.
    + intros idx Hi. rewrite A3 by (rewrite <- app_assoc; exact Hi).
      apply in_range_split in Hi as (p & j & q & -> & Lp & Hp & Hj & Hq). rewrite <- Lp, firstn_snoc_mid, skipn_snoc_mid, skipn_app_exact, firstn_app_exact.
      cbn [slice_inv]. fold c. destruct (slice_inv subs q) as [q'|] eqn:Eq.
      2:{ destruct (_ && _); reflexivity. }
      apply (slice_inv_some subs ish' q q' HS' Hq) in Eq as (Hq1 & Hq2). rewrite <- app_assoc. cbn [app option_map].
      rewrite A2 by (apply in_range_mid; auto). rewrite <- Lp, nth_mid, upd_mid.
      destruct ((a <=? j) && (j <? a + len)) eqn:Ej.
      * rewrite A1 by (apply in_range_mid; auto; lia). rewrite <- Lp, nth_mid, upd_mid.
        replace (a <=? j) with true by lia. cbn [andb]. destruct ((j - a) mod st =? 0) eqn:Em; cbn [andb]; [|reflexivity].
        assert (Hd : j - a = st * ((j - a) / st)) by (pose proof (Z.div_mod (j - a) st ltac:(lia)); lia).
        replace ((j - a) / st <? c) with true; [reflexivity|]. symmetry. apply Z.ltb_lt.
        unfold len in Ej. destruct (st >? 1) eqn:Est; [nia|]. replace st with 1 by lia. rewrite Z.div_1_r. lia.
      * destruct (a <=? j) eqn:Eaj; cbn [andb]; [|reflexivity]. destruct ((j - a) mod st =? 0) eqn:Em; cbn [andb]; [|reflexivity].
        assert (Hd : j - a = st * ((j - a) / st)) by (pose proof (Z.div_mod (j - a) st ltac:(lia)); lia).
        replace ((j - a) / st <? c) with false; [reflexivity|]. symmetry. apply Z.ltb_ge.
        unfold len in Ej. destruct (st >? 1) eqn:Est; [nia|]. replace st with 1 by lia. rewrite Z.div_1_r. lia.
Qed.
End S.
