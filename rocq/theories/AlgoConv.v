(* Conversion of one array to a Func expression (algo.py arr_to_func) is meaning preserving. *)
From Verif Require Import Base BaseFacts Util UtilFacts Lang Spec Graph Api Denote SpecFacts DenoteFacts Reach Algo AlgoSem.

(* ------------------------------------------------------------------ syntactic well-formedness *)
Fixpoint is_ix (P : lidx -> Prop) (e : expr) : Prop :=
  match e with
  | EIdx l => P l
  | EConst _ => True
  | EBin _ x y => is_ix P x /\ is_ix P y
  | _ => False
  end.
Fixpoint wfe (shp : nat -> list Z) (isc : nat -> Prop) (lim : nat) (P : lidx -> Prop) (e : expr) : Prop :=
  match e with
  | EIdx _ => False
  | EConst _ => True
  | EBin _ x y => wfe shp isc lim P x /\ wfe shp isc lim P y
  | EUn _ x => wfe shp isc lim P x
  | EWhere c t f => is_ix P c /\ wfe shp isc lim P t /\ wfe shp isc lim P f
  | ESum _ _ => False
  | EFunc f idx => (f < lim)%nat /\ length idx = length (shp f) /\ Forall (is_ix P) idx
  | EBuf n idx => isc n /\ length idx = length (shp n) /\ Forall (is_ix P) idx
  end.
Definition wff (shp : nat -> list Z) (isc : nat -> Prop) (a : nat) (loops : list lidx) (e : expr) : Prop :=
  match e with
  | ESum x red => wfe shp isc a (fun l => In l loops \/ In l red) x /\
                  NoDup (map l_pos red) /\ Forall (fun l => l_own l = a /\ l_red l = true /\ 0 <= l_ext l) red
  | _ => wfe shp isc a (fun l => In l loops) e
  end.
Definition isc (g : graph) (n : nat) : Prop := exists nd, nth_error g n = Some nd /\ is_const (n_op nd) = true.

Lemma is_ix_mono (P Q : lidx -> Prop) e : (forall l, P l -> Q l) -> is_ix P e -> is_ix Q e.
Proof. intros H. induction e using expr_ind'; cbn; auto. intuition. Qed.

Lemma wff_nored shp ic a loops e : has_reduce e = false -> wff shp ic a loops e -> wfe shp ic a (fun l => In l loops) e.
Proof. destruct e; cbn; auto. discriminate. Qed.
Lemma wff_of_wfe shp ic a loops e : wfe shp ic a (fun l => In l loops) e -> wff shp ic a loops e.
Proof. destruct e; cbn; auto. tauto. Qed.

(* ------------------------------------------------------------------ loops and environments *)
Lemma nth_error_mapi {A B} (f : nat -> A -> B) k l i : nth_error (mapi_from k f l) i = option_map (f (k + i)%nat) (nth_error l i).
Proof.
  revert k i; induction l as [|x l IH]; intros k [|i]; cbn; auto.
  - now rewrite Nat.add_0_r.
  - rewrite IH. now replace (S k + i)%nat with (k + S i)%nat by lia.
Qed.
Lemma mapi_length {A B} (f : nat -> A -> B) k l : length (mapi_from k f l) = length l.
Proof. revert k; induction l; intros; cbn; auto. Qed.
Lemma nth_error_out_loops a s k : nth_error (out_loops a s) k = option_map (fun d => mkL a false k d) (nth_error s k).
Proof. unfold out_loops. now rewrite nth_error_mapi. Qed.
Lemma out_loops_length a s : length (out_loops a s) = length s.
Proof. apply mapi_length. Qed.
Lemma out_loops_in a s l : In l (out_loops a s) -> l_own l = a /\ l_red l = false /\ nth_error s (l_pos l) = Some (l_ext l).
Proof.
  intros H. apply In_nth_error in H as [k H]. rewrite nth_error_out_loops in H.
  destruct (nth_error s k) eqn:E; [|discriminate]. injection H as <-. cbn. auto.
Qed.
Lemma out_loops_NoDup a s : NoDup (out_loops a s).
Proof.
  apply NoDup_nth_error. intros i j Hi H.
  rewrite out_loops_length in Hi. rewrite !nth_error_out_loops in H.
  destruct (nth_error s i) eqn:E1; [|apply nth_error_None in E1; lia].
  destruct (nth_error s j) eqn:E2; cbn in H; congruence.
Qed.
Lemma out_loops_pos_NoDup a s : NoDup (map l_pos (out_loops a s)).
Proof.
  apply NoDup_nth_error. intros i j Hi H. rewrite map_length, out_loops_length in Hi.
  rewrite !nth_error_map, !nth_error_out_loops in H.
  destruct (nth_error s i) eqn:E1; [|apply nth_error_None in E1; lia].
  destruct (nth_error s j) eqn:E2; cbn in H; congruence.
Qed.
Lemma out_loops_ext a s : map l_ext (out_loops a s) = s.
Proof.
  apply nth_error_ext'. intros k. rewrite nth_error_map, nth_error_out_loops. destruct (nth_error s k); reflexivity.
Qed.

Lemma ibinds_other ls zs r l : ~ In l ls -> ibinds ls zs r l = r l.
Proof.
  revert zs r; induction ls as [|x ls IH]; intros [|z zs] r H; cbn; auto.
  rewrite IH by (cbn in H; tauto). unfold ibind. destruct (lidx_eqb x l) eqn:E; auto.
  apply lidx_eqb_eq in E. subst. cbn in H; tauto.
Qed.
Lemma ibinds_nth ls zs r k l z : NoDup ls -> nth_error ls k = Some l -> nth_error zs k = Some z -> ibinds ls zs r l = Some z.
Proof.
  intros HN; revert zs r k; induction HN as [|x ls Hx _ IH]; intros zs r [|k] H1 H2; cbn in *; try discriminate.
  - injection H1 as ->. destruct zs as [|z' zs]; [discriminate|]. injection H2 as ->.
    rewrite ibinds_other by assumption. unfold ibind. now rewrite lidx_eqb_refl.
  - destruct zs as [|z' zs]; [discriminate|]. eapply IH; eauto.
Qed.
Lemma ibinds_inv_gen ls zs r l z : ibinds ls zs r l = Some z ->
  (exists k, nth_error ls k = Some l /\ nth_error zs k = Some z) \/ r l = Some z.
Proof.
  revert zs r; induction ls as [|x ls IH]; intros [|z0 zs] r H; cbn in H; auto.
  destruct (IH _ _ H) as [(k & H1 & H2)|H1].
  - left. exists (S k). auto.
  - unfold ibind in H1. destruct (lidx_eqb x l) eqn:E; auto.
    apply lidx_eqb_eq in E. subst. left. exists 0%nat. auto.
Qed.
Lemma ibinds_inv ls zs l z : ibinds ls zs ienv0 l = Some z -> exists k, nth_error ls k = Some l /\ nth_error zs k = Some z.
Proof. intros H. destruct (ibinds_inv_gen _ _ _ _ _ H) as [?|?]; [assumption|discriminate]. Qed.

Lemma mapOut_done {A B} (f : A -> outcome B) l ys : mapOut f l = Done ys <-> Forall2 (fun x y => f x = Done y) l ys.
Proof.
  revert ys; induction l as [|x l IH]; intros ys; cbn.
  - split; intros H; [injection H as <-; constructor|]. inversion H; reflexivity.
  - split; intros H.
    + apply obind_done in H as (y & Hy & H). apply obind_done in H as (r & Hr & H). injection H as <-.
      constructor; auto. now apply IH.
    + inversion H; subst. rewrite H2. cbn. apply IH in H4. now rewrite H4.
Qed.
Lemma mapOut_total {A B} (f : A -> outcome B) l : (forall x, In x l -> exists y, f x = Done y) -> exists ys, mapOut f l = Done ys.
Proof.
  induction l as [|x l IH]; cbn; intros H; [eauto|].
  destruct (H x) as [y Hy]; auto. rewrite Hy. cbn. destruct IH as [ys Hys]; auto. rewrite Hys. cbn. eauto.
Qed.
Lemma pynth_nat {A} (l : list A) k : 0 <= k -> pynth l k = nth_error l (Z.to_nat k).
Proof. intros H. unfold pynth, znth. destruct (k <? 0) eqn:E; [lia|reflexivity]. Qed.

Lemma nth_error_skipn' {A} (l : list A) n k : nth_error (skipn n l) k = nth_error l (n + k).
Proof. revert l; induction n as [|n IH]; intros [|x l]; cbn; auto. now destruct k. Qed.

Section Conv.
Context (L : lang) (HL : lang_ok L).
Notation V := (val L).

Lemma inB0 : inB L 0.
Proof. eapply inB_le; [apply (ok_bound _ HL)|lia]. Qed.

Lemma dims_le s idx : in_range s idx -> Forall (fun d => d <= zprod s) s.
Proof.
  unfold in_range. induction 1 as [|i d idx s H Hr IH]; [constructor|].
  pose proof (in_range_zprod_pos s idx Hr) as HP. rewrite zprod_cons. constructor; [nia|].
  eapply Forall_impl; [|exact IH]. cbn. intros; nia.
Qed.
Lemma idx_inB s idx : in_range s idx -> ltB L (zprod s) -> Forall (inB L) idx.
Proof.
  intros Hi Hb. pose proof (dims_le s idx Hi) as Hd. unfold in_range in Hi.
  assert (HG : forall z, Forall (fun d => d <= z) s -> ltB L z -> Forall (inB L) idx).
  { clear Hb Hd. induction Hi as [|i d idx s H _ IH]; intros z Hz Hb; constructor.
    - inversion Hz; subst. apply inB_intro; [lia|]. eapply ltB_le; [exact Hb|]. lia.
    - inversion Hz; subst. eapply IH; eauto. }
  eauto.
Qed.

Definition lenv (a : nat) (s idx : list Z) : ienv := ibinds (out_loops a s) idx ienv0.

Section Env.
Context (a : nat) (s idx : list Z) (Hi : in_range s idx) (Hb : ltB L (zprod s)).
Let r := lenv a s idx.

Lemma env_nth k l : nth_error (out_loops a s) k = Some l -> exists z, nth_error idx k = Some z /\ r l = Some z /\ evalI L r (EIdx l) = Ok z.
Proof using HL Hb Hi.
  intros H. pose proof (in_range_length _ _ Hi) as HLn.
  assert (Hk : (k < length s)%nat).
  { rewrite <- (out_loops_length a s). apply nth_error_Some. congruence. }
  destruct (nth_error idx k) as [z|] eqn:E; [|apply nth_error_None in E; lia].
  exists z. split; auto.
  assert (Hr : r l = Some z) by (eapply ibinds_nth; eauto; apply out_loops_NoDup).
  split; auto. cbn. rewrite Hr. cbn. apply chk_ok.
  pose proof (idx_inB _ _ Hi Hb) as HF. rewrite Forall_forall in HF. apply HF. eapply nth_error_In; eauto.
Qed.

Lemma env_same : mapM (evalI L r) (map EIdx (out_loops a s)) = Ok idx.
Proof using HL Hb Hi.
  apply mapM_ok. apply Forall2_of_nth.
  - rewrite map_length, out_loops_length. symmetry. now apply in_range_length.
  - intros k x y H1 H2. rewrite nth_error_map in H1.
    destruct (nth_error (out_loops a s) k) as [l|] eqn:E; [|discriminate]. injection H1 as <-.
    destruct (env_nth k l E) as (z & Hz & _ & He). congruence.
Qed.
End Env.

(* ---------------------------------------------------------------- views *)
Lemma conv_transpose_ok a s axes (inp : list Z) :
  Permutation axes (zrange (Z.of_nat (length inp))) -> s = map (fun x => nth (Z.to_nat x) inp 0) axes ->
  exists ix, conv_transpose (out_loops a s) axes = Done ix /\ length ix = length inp /\
    Forall (is_ix (fun l => In l (out_loops a s))) ix /\
    forall idx, in_range s idx -> ltB L (zprod s) -> mapM (evalI L (lenv a s idx)) ix = Ok (unpermute axes idx).
Proof using HL.
  intros HP Hs. pose proof (perm_zrange_len _ _ HP) as HLn.
  assert (Hls : length s = length axes) by (subst s; now rewrite map_length).
  assert (Hstep : forall k, In k (zrange (Z.of_nat (length axes))) ->
     exists l j, (p <~ throw_none IndexErr (znth (argsort axes) k) ;; l <~ throw_none IndexErr (pynth (out_loops a s) p) ;; Done (EIdx l)) = Done (EIdx l)
       /\ nth_error (out_loops a s) j = Some l /\ pos_in axes k = Z.of_nat j).
  { intros k Hk. apply in_zrange in Hk. rewrite HLn in Hk.
    destruct (argsort_inverse axes _ k HP Hk) as (j & H1 & H2). rewrite H1. cbn.
    pose proof (znth_Some_range _ _ _ H2) as Hj. rewrite pynth_nat by lia.
    destruct (nth_error (out_loops a s) (Z.to_nat j)) as [l|] eqn:E;
      [|apply nth_error_None in E; rewrite out_loops_length in E; lia].
    cbn. exists l, (Z.to_nat j). split; [reflexivity|]. split; [assumption|].
    apply pos_in_unique; [|unfold znth in H2; destruct (j <? 0); [discriminate|assumption]].
    eapply Permutation_NoDup; [symmetry; exact HP|apply NoDup_zrange]. }
  unfold conv_transpose.
  destruct (mapOut_total _ _ (fun k Hk => let '(ex_intro _ l (ex_intro _ j (conj H _))) := Hstep k Hk in ex_intro _ _ H)) as [ix Hix].
  exists ix. split; [exact Hix|]. apply mapOut_done in Hix.
  assert (Hlen : length ix = length inp).
  { rewrite <- (Forall2_len _ _ _ Hix), zrange_length. lia. }
  split; [assumption|]. split.
  - apply Forall_forall. intros e He. apply In_nth_error in He as [k He].
    destruct (Forall2_nth_error_r _ _ _ _ _ Hix He) as (x & Hx & Hd).
    destruct (Hstep x (nth_error_In _ _ Hx)) as (l & j & H1 & H2 & _). rewrite H1 in Hd. injection Hd as <-.
    cbn. eapply nth_error_In; eauto.
  - intros idx Hi Hb. apply mapM_ok, Forall2_of_nth; [rewrite unpermute_length; lia|].
    intros k e y He Hy.
    destruct (Forall2_nth_error_r _ _ _ _ _ Hix He) as (x & Hx & Hd).
    assert (Hkl : (k < length axes)%nat).
    { assert (k < length ix)%nat by (apply nth_error_Some; congruence). lia. }
    rewrite nth_error_zrange in Hx by lia. injection Hx as <-.
    destruct (Hstep (Z.of_nat k)) as (l & j & H1 & H2 & H3).
    { apply in_zrange. lia. }
    rewrite H1 in Hd. injection Hd as <-.
    destruct (env_nth a s idx Hi Hb j l H2) as (z & Hz & _ & He'). rewrite He'. f_equal.
    rewrite nth_error_unpermute in Hy by assumption. rewrite H3, Nat2Z.id in Hy.
    injection Hy as <-. symmetry. now apply nth_error_nth.
Qed.

Lemma conv_broadcast_ok a target (inp : list Z) : bcast_ok inp target ->
  exists ix, conv_broadcast (out_loops a target) target inp = Done ix /\ length ix = length inp /\
    Forall (is_ix (fun l => In l (out_loops a target))) ix /\
    forall idx, in_range target idx -> ltB L (zprod target) ->
      mapM (evalI L (lenv a target idx)) ix = Ok (squash inp (skipn (length target - length inp) idx)).
Proof using HL.
  intros [Hle HF]. unfold conv_broadcast.
  set (diff := Z.of_nat (length target) - Z.of_nat (length inp)).
  assert (Hdiff : diff = Z.of_nat (length target - length inp)) by (unfold diff; lia).
  replace (Z.of_nat (length target) - diff) with (Z.of_nat (length inp)) by (unfold diff; lia).
  set (padded := repeat 1 (Z.to_nat diff) ++ inp).
  assert (Hstep : forall k, In k (zrange (Z.of_nat (length inp))) ->
     exists e, (p <~ throw_none IndexErr (pynth padded (k + diff)) ;;
            if p =? 1 then Done (EConst 0)
            else l <~ throw_none IndexErr (pynth (out_loops a target) (k + diff)) ;; Done (EIdx l)) = Done e /\
       exists d, nth_error inp (Z.to_nat k) = Some d /\
         ((d = 1 /\ e = EConst 0) \/ (d <> 1 /\ exists l, e = EIdx l /\ nth_error (out_loops a target) (Z.to_nat k + (length target - length inp)) = Some l))).
  { intros k Hk. apply in_zrange in Hk. rewrite !pynth_nat by lia.
    unfold padded. rewrite nth_error_app2 by (rewrite repeat_length; lia). rewrite repeat_length.
    replace (Z.to_nat (k + diff) - Z.to_nat diff)%nat with (Z.to_nat k) by lia.
    destruct (nth_error inp (Z.to_nat k)) as [d|] eqn:E; [|apply nth_error_None in E; lia].
    cbn. destruct (d =? 1) eqn:E1.
    - eexists; split; [reflexivity|]. exists d. split; auto. left. split; [lia|reflexivity].
    - replace (Z.to_nat (k + diff)) with (Z.to_nat k + (length target - length inp))%nat by lia.
      destruct (nth_error (out_loops a target) (Z.to_nat k + (length target - length inp))) as [l|] eqn:E2;
        [|apply nth_error_None in E2; rewrite out_loops_length in E2; lia].
      eexists; split; [reflexivity|]. exists d. split; auto. right. split; [lia|]. eauto. }
  destruct (mapOut_total _ _ (fun k Hk => let '(ex_intro _ e (conj H _)) := Hstep k Hk in ex_intro _ _ H)) as [ix Hix].
  exists ix. split; [exact Hix|]. apply mapOut_done in Hix.
  assert (Hlen : length ix = length inp) by (rewrite <- (Forall2_len _ _ _ Hix), zrange_length; lia).
  split; [assumption|]. split.
  - apply Forall_forall. intros e He. apply In_nth_error in He as [k He].
    destruct (Forall2_nth_error_r _ _ _ _ _ Hix He) as (x & Hx & Hd).
    destruct (Hstep x (nth_error_In _ _ Hx)) as (e' & H1 & d & H2 & H3). rewrite H1 in Hd. injection Hd as <-.
    destruct H3 as [(_ & ->)|(_ & l & -> & H3)]; cbn; auto. eapply nth_error_In; eauto.
  - intros idx Hi Hb. pose proof (in_range_length _ _ Hi) as HLi.
    assert (Hsq : forall s i k d z, nth_error s k = Some d -> nth_error i k = Some z -> nth_error (squash s i) k = Some (if d =? 1 then 0 else z)).
    { induction s as [|d0 s IH]; intros [|z0 i] [|k] d z H1 H2; cbn in *; try discriminate.
      - injection H1 as ->. injection H2 as ->. reflexivity.
      - now apply IH. }
    assert (Hsl : forall s i, length s = length i -> length (squash s i) = length s).
    { induction s as [|d0 s IH]; intros [|z0 i] H; cbn in *; try discriminate; auto. }
    apply mapM_ok, Forall2_of_nth.
    { rewrite Hsl; [lia|]. rewrite skipn_length. lia. }
    intros k e y He Hy.
    assert (Hkl : (k < length inp)%nat) by (rewrite <- Hlen; apply nth_error_Some; congruence).
    destruct (Forall2_nth_error_r _ _ _ _ _ Hix He) as (x & Hx & Hd).
    rewrite nth_error_zrange in Hx by lia. injection Hx as <-.
    destruct (Hstep (Z.of_nat k)) as (e' & H1 & d & H2 & H3); [apply in_zrange; lia|].
    rewrite H1 in Hd. injection Hd as <-. rewrite Nat2Z.id in *.
    assert (Hz : exists z, nth_error (skipn (length target - length inp) idx) k = Some z).
    { destruct (nth_error (skipn (length target - length inp) idx) k) eqn:E; [eauto|].
      apply nth_error_None in E. rewrite skipn_length in E. lia. }
    destruct Hz as [z Hz]. rewrite (Hsq _ _ _ _ _ H2 Hz) in Hy. injection Hy as <-.
    destruct H3 as [(-> & ->)|(Hn & l & -> & H3)].
    + cbn. apply chk_ok, inB0.
    + destruct (env_nth a target idx Hi Hb _ l H3) as (z' & Hz' & _ & He'). rewrite He'.
      replace (d =? 1) with false by lia. f_equal.
      rewrite nth_error_skipn' in Hz. rewrite Nat.add_comm in Hz. congruence.
Qed.

(* ---------------------------------------------------------------- slice *)
Lemma conv_slice_ok subs shape ls : Forall2 sub_ok subs shape -> length ls = length (slice_shape subs) ->
  exists ix, conv_slice ls subs = Done ix /\ length ix = length shape /\ Forall (is_ix (fun l => In l ls)) ix /\
    forall r zs, Forall2 (fun l z => evalI L r (EIdx l) = Ok z) ls zs -> in_range (slice_shape subs) zs ->
      Forall (ltB L) shape -> Forall (ltB L) (flat_map (fun s => match s with NSInt _ => [] | NSSlice _ _ st => [st] end) subs) ->
      mapM (evalI L r) ix = Ok (slice_idx subs zs).
Proof using HL.
  intros H; revert ls; induction H as [|s d subs shape Hs _ IH]; intros ls Hlen.
  - exists []. cbn. repeat split; auto.
  - destruct s as [i|st sp step]; cbn in Hs, Hlen.
    + destruct (IH ls Hlen) as (ix & H1 & H2 & H3 & H4). cbn [conv_slice]. rewrite H1. cbn.
      eexists; split; [reflexivity|]. split; [cbn; congruence|]. split; [constructor; cbn; auto|].
      intros r zs HF Hi Hd Hst. inversion Hd; subst. cbn.
      rewrite chk_ok by (apply inB_intro; [lia|eapply ltB_le; [eassumption|lia]]). cbn.
      rewrite (H4 r zs) by assumption. reflexivity.
    + destruct ls as [|l ls]; [discriminate|].
      destruct (IH ls ltac:(cbn in Hlen; lia)) as (ix & H1 & H2 & H3 & H4). cbn [conv_slice]. rewrite H1. cbn.
      eexists; split; [reflexivity|]. split; [cbn; congruence|]. split.
      { constructor.
        - destruct (st =? 0), (step =? 1); cbn; auto.
        - eapply Forall_impl; [|exact H3]. intros e. apply is_ix_mono. cbn; auto. }
      intros r zs HF Hi Hd Hst. inversion HF as [|l0 z ls0 zs0 Hl HF']; subst.
      inversion Hi as [|z0 d0 zs1 s1 Hz Hi']; subst. inversion Hd as [|? ? Hdd Hd']; subst.
      cbn in Hst. inversion Hst as [|? ? Hstep Hst']; subst.
      pose proof (slice_pos_bound st sp step z ltac:(lia) Hz) as Hpos.
      assert (E : evalI L r (if (st =? 0) && (step =? 1) then EIdx l
         else if st =? 0 then EBin BMul (EIdx l) (EConst step)
         else if step =? 1 then EBin BAdd (EConst st) (EIdx l)
         else EBin BAdd (EConst st) (EBin BMul (EIdx l) (EConst step))) = Ok (st + z * step)).
      { assert (B1 : inB L st) by (apply inB_intro; [lia|eapply ltB_le; [exact Hdd|lia]]).
        assert (B2 : inB L step) by (apply inB_intro; [lia|assumption]).
        assert (B3 : inB L (st + z * step)) by (apply inB_intro; [nia|eapply ltB_le; [exact Hdd|lia]]).
        assert (B4 : inB L (z * step)) by (eapply inB_le; [exact B3|nia]).
        destruct (st =? 0) eqn:E1, (step =? 1) eqn:E2; cbn [andb]; cbn [evalI ibin] in *.
        - rewrite Hl. f_equal. nia.
        - rewrite Hl. cbn. rewrite (chk_ok L step) by assumption. cbn. rewrite chk_ok by assumption. f_equal. lia.
        - rewrite (chk_ok L st) by assumption. cbn. rewrite Hl. cbn. replace (st + z) with (st + z * step) by nia. now apply chk_ok.
        - rewrite (chk_ok L st) by assumption. cbn. rewrite Hl. cbn. rewrite (chk_ok L step) by assumption. cbn.
          rewrite (chk_ok L (z * step)) by assumption. cbn. now apply chk_ok. }
      cbn [mapM]. rewrite E. cbn. rewrite (H4 r zs0) by assumption. reflexivity.
Qed.

(* ---------------------------------------------------------------- reshape *)
Lemma fold_add_eval r ts vs x a : Forall2 (fun t v => evalI L r t = Ok v) ts vs -> evalI L r x = Ok a ->
  0 <= a -> Forall (fun v => 0 <= v) vs -> inB L (a + zsum vs) ->
  evalI L r (fold_left (fun p q => EBin BAdd p q) ts x) = Ok (a + zsum vs).
Proof.
  intros H; revert x a; induction H as [|t v ts vs Ht _ IH]; intros x a Hx Ha Hv Hb; cbn [fold_left zsum].
  - rewrite Z.add_0_r. assumption.
  - inversion Hv; subst. cbn [zsum] in Hb.
    assert (0 <= zsum vs) by (clear -H2; induction H2; cbn; lia).
    rewrite (IH (EBin BAdd x t) (a + v)); auto; try lia.
    + f_equal. lia.
    + cbn. rewrite Hx, Ht. cbn. apply chk_ok. eapply inB_le; [exact Hb|lia].
    + now replace (a + v + zsum vs) with (a + (v + zsum vs)) by lia.
Qed.

Definition idx_terms (ls : list lidx) (s : list Z) : list expr :=
  map (fun '(l, s) => EBin BMul (EIdx l) (EConst s)) (combine ls (strides_from_shape s)).
Lemma terms_eval r s ls zs : in_range s zs -> ltB L (zprod s) -> Forall2 (fun l z => evalI L r (EIdx l) = Ok z) ls zs ->
  exists vs, Forall2 (fun t v => evalI L r t = Ok v) (idx_terms ls s) vs /\ Forall (fun v => 0 <= v) vs /\ zsum vs = flat s zs.
Proof.
  unfold in_range. intros Hi; revert ls; induction Hi as [|z d zs s Hz Hi IH]; intros ls Hb HF; inversion HF as [|l0 z0 ls' zs' Hl0 HF']; subst.
  - exists []. repeat split; constructor.
  - pose proof (in_range_zprod_pos s zs Hi) as HP. rewrite zprod_cons in Hb.
    destruct (IH ls') as (vs & H1 & H2 & H3); [eapply ltB_le; [exact Hb|nia]|assumption|].
    exists (z * zprod s :: vs). unfold idx_terms. rewrite strides_cons. cbn [combine map]. split; [|split].
    + constructor; [|exact H1]. cbn [evalI ibin] in Hl0 |- *. rewrite Hl0. cbn. rewrite (chk_ok L (zprod s)); [|apply inB_intro; [lia|eapply ltB_le; [exact Hb|nia]]].
      cbn. apply chk_ok. apply inB_intro; [nia|eapply ltB_le; [exact Hb|nia]].
    + constructor; [nia|assumption].
    + cbn [zsum]. rewrite flat_cons. lia.
Qed.

Lemma reduce_add_eval r s ls zs fl : in_range s zs -> ltB L (zprod s) -> Forall2 (fun l z => evalI L r (EIdx l) = Ok z) ls zs ->
  reduce_add (idx_terms ls s) = Done fl -> evalI L r fl = Ok (flat s zs).
Proof using HL.
  intros Hi Hb HF HR. destruct (terms_eval r s ls zs Hi Hb HF) as (vs & H1 & H2 & H3).
  pose proof (flat_bounds s zs Hi) as Hfb.
  destruct (idx_terms ls s) as [|t ts]; [discriminate|]. cbn in HR. injection HR as <-.
  inversion H1; subst. inversion H2; subst. cbn [zsum] in H3. rewrite <- H3.
  apply fold_add_eval; auto. rewrite H3. apply inB_intro; [lia|eapply ltB_le; [exact Hb|lia]].
Qed.

Lemma reshape_split_eval r s rem k zs : in_range s zs -> ltB L (zprod s) -> evalI L r rem = Ok k -> 0 <= k < zprod s ->
  mapM (evalI L r) (conv_reshape_split rem (strides_from_shape s)) = Ok (unflat s k).
Proof using HL.
  unfold in_range. intros Hi; revert rem k; induction Hi as [|z d zs s Hz Hi IH]; intros rem k Hb Hr Hk.
  - reflexivity.
  - rewrite strides_cons. destruct s as [|d' s].
    + cbn. rewrite Hr. cbn. now rewrite Z.div_1_r.
    + pose proof (in_range_zprod_pos _ _ Hi) as HP.
      rewrite zprod_cons in Hb, Hk. set (q := zprod (d' :: s)) in *.
      assert (B1 : inB L q) by (apply inB_intro; [lia|eapply ltB_le; [exact Hb|nia]]).
      assert (Bk : inB L k) by (apply inB_intro; [lia|eapply ltB_le; [exact Hb|lia]]).
      assert (Hm : 0 <= k mod q < q) by (apply Z.mod_pos_bound; lia).
      assert (Hdv : 0 <= k / q <= k) by (split; [apply Z.div_pos; lia|apply Z.div_le_upper_bound; nia]).
      assert (E : evalI L r (EBin BMod rem (EConst q)) = Ok (k mod q)).
      { cbn [evalI]. rewrite Hr. cbn [rbind]. rewrite (chk_ok L q) by assumption. cbn [rbind ibin]. replace (0 <? q) with true by lia.
        apply chk_ok. eapply inB_le; [exact B1|lia]. }
      specialize (IH (EBin BMod rem (EConst q)) (k mod q) ltac:(eapply ltB_le; [exact Hb|nia]) E Hm).
      rewrite strides_cons in IH |- *. cbn [conv_reshape_split mapM unflat].
      cbn [evalI]. rewrite Hr. cbn [rbind]. rewrite (chk_ok L q) by assumption. cbn [rbind ibin].
      replace (0 <? q) with true by lia. rewrite chk_ok by (eapply inB_le; [exact Bk|lia]). cbn [rbind].
      fold q. cbn [conv_reshape_split] in IH. rewrite IH. reflexivity.
Qed.
Lemma reshape_split_length rem l : length (conv_reshape_split rem l) = length l.
Proof. revert rem; induction l as [|x [|y l] IH]; intros rem; cbn in *; auto. Qed.
Lemma reshape_split_ix (P : lidx -> Prop) rem l : is_ix P rem -> Forall (is_ix P) (conv_reshape_split rem l).
Proof.
  revert rem; induction l as [|x [|y l] IH]; intros rem H; cbn; constructor; cbn; auto.
  apply (IH (EBin BMod rem (EConst x))). cbn. auto.
Qed.

Lemma conv_reshape_ok a s inp : s <> [] -> zprod s = zprod inp -> nonneg inp ->
  exists ix, conv_reshape (out_loops a s) s inp = Done ix /\ length ix = length inp /\
    Forall (is_ix (fun l => In l (out_loops a s))) ix /\
    forall idx, in_range s idx -> ltB L (zprod s) -> mapM (evalI L (lenv a s idx)) ix = Ok (unflat inp (flat s idx)).
Proof using HL.
  intros Hne HP Hnn. unfold conv_reshape. fold (idx_terms (out_loops a s) s).
  assert (Hfl : exists fl, reduce_add (idx_terms (out_loops a s) s) = Done fl /\ is_ix (fun l => In l (out_loops a s)) fl).
  { assert (Hix : Forall (is_ix (fun l => In l (out_loops a s))) (idx_terms (out_loops a s) s)).
    { unfold idx_terms. apply Forall_forall. intros e He. apply in_map_iff in He as ([l st] & <- & He).
      cbn. split; auto. eapply in_combine_l; eauto. }
    assert (Hl : (0 < length (idx_terms (out_loops a s) s))%nat).
    { unfold idx_terms. rewrite map_length, combine_length, out_loops_length, strides_length. destruct s; [congruence|cbn; lia]. }
    destruct (idx_terms (out_loops a s) s) as [|t ts]; [cbn in Hl; lia|]. cbn. eexists; split; [reflexivity|].
    inversion Hix as [|? ? H1 H2]; subst. clear -H1 H2. revert t H1.
    induction H2 as [|x ts Hx _ IH]; intros t Ht; cbn; auto. apply IH. cbn; auto. }
  destruct Hfl as (fl & Hfl & Hix). rewrite Hfl. cbn. eexists; split; [reflexivity|].
  split; [now rewrite reshape_split_length, strides_length|]. split; [now apply reshape_split_ix|].
  intros idx Hi Hb. pose proof (flat_bounds s idx Hi) as Hfb.
  assert (HF : Forall2 (fun l z => evalI L (lenv a s idx) (EIdx l) = Ok z) (out_loops a s) idx).
  { apply mapM_ok. rewrite <- (env_same a s idx Hi Hb). now rewrite mapM_map. }
  eapply reshape_split_eval with (zs := unflat inp (flat s idx)).
  - apply unflat_in_range; auto. now rewrite <- HP.
  - now rewrite <- HP.
  - eapply reduce_add_eval; eauto.
  - now rewrite <- HP.
Qed.

(* ---------------------------------------------------------------- pad and dilate *)
Lemma at_dim_length ls dim f : length (at_dim ls dim f) = length ls.
Proof. unfold at_dim. rewrite map_length. generalize 0. induction ls; intros; cbn; auto. Qed.
Lemma nth_error_enum {A} (l : list A) k i : nth_error (enum k l) i = option_map (fun x => (k + Z.of_nat i, x)) (nth_error l i).
Proof.
  revert k i; induction l as [|x l IH]; intros k [|i]; cbn [enum nth_error option_map]; auto.
  - now rewrite Z.add_0_r.
  - rewrite IH. destruct (nth_error l i); cbn [option_map]; auto. do 2 f_equal. lia.
Qed.
Lemma at_dim_nth ls dim f k : nth_error (at_dim ls dim f) k = option_map (fun l => if Z.of_nat k =? dim then f l else EIdx l) (nth_error ls k).
Proof. unfold at_dim. rewrite nth_error_map, nth_error_enum. destruct (nth_error ls k); reflexivity. Qed.
Lemma at_dim_ix (P : lidx -> Prop) ls dim f : (forall l, In l ls -> P l) -> (forall l, In l ls -> is_ix P (f l)) -> Forall (is_ix P) (at_dim ls dim f).
Proof.
  intros H1 H2. apply Forall_forall. intros e He. apply In_nth_error in He as [k He]. rewrite at_dim_nth in He.
  destruct (nth_error ls k) as [l|] eqn:E; [|discriminate]. apply nth_error_In in E. injection He as <-.
  destruct (_ =? _); cbn; auto.
Qed.
Lemma at_dim_eval r ls zs dim f v : Forall2 (fun l z => evalI L r (EIdx l) = Ok z) ls zs -> 0 <= dim < Z.of_nat (length ls) ->
  (forall l, nth_error ls (Z.to_nat dim) = Some l -> evalI L r (f l) = Ok v) ->
  mapM (evalI L r) (at_dim ls dim f) = Ok (upd zs (Z.to_nat dim) v).
Proof.
  intros HF Hd Hv. apply mapM_ok, Forall2_of_nth.
  - rewrite at_dim_length, upd_length. eapply Forall2_len; eauto.
  - intros k e y He Hy. rewrite at_dim_nth in He. destruct (nth_error ls k) as [l|] eqn:E; [|discriminate].
    injection He as <-. rewrite nth_error_upd in Hy.
    destruct (Forall2_nth_error _ _ _ _ _ HF E) as (z & Hz & Hzl).
    destruct (Nat.eqb_spec k (Z.to_nat dim)).
    + subst k. rewrite Hz in Hy. cbn in Hy. injection Hy as <-. replace (Z.of_nat (Z.to_nat dim) =? dim) with true by lia. auto.
    + replace (Z.of_nat k =? dim) with false by lia. congruence.
Qed.

(* ---------------------------------------------------------------- sum *)
Fixpoint take_axes (axes : list Z) (k : Z) (l : list Z) : list Z :=
  match l with
  | [] => []
  | x :: r => if zmem k axes then x :: take_axes axes (k + 1) r else take_axes axes (k + 1) r
  end.
Fixpoint merge (axes : list Z) (k : Z) (m : nat) (rs out : list Z) : list Z :=
  match m with
  | O => []
  | S m' => if zmem k axes then match rs with x :: rs' => x :: merge axes (k + 1) m' rs' out | [] => [] end
            else match out with o :: out' => o :: merge axes (k + 1) m' rs out' | [] => [] end
  end.

Lemma filter_flat_map {A B} (p : B -> bool) (f : A -> list B) l : filter p (flat_map f l) = flat_map (fun x => filter p (f x)) l.
Proof. induction l as [|x l IH]; cbn; auto. now rewrite filter_app, IH. Qed.
Lemma filter_map' {A B} (p : B -> bool) (f : A -> B) l : filter p (map f l) = map f (filter (fun x => p (f x)) l).
Proof. induction l as [|x l IH]; cbn; auto. destruct (p (f x)); cbn; now rewrite IH. Qed.
Lemma flat_map_ext_in {A B} (f g : A -> list B) l : (forall x, In x l -> f x = g x) -> flat_map f l = flat_map g l.
Proof. induction l as [|x l IH]; cbn; intros H; auto. rewrite H by auto. rewrite IH by auto. reflexivity. Qed.
Lemma flat_map_single {A B} (f : A -> list B) l x : NoDup l -> In x l -> (forall y, In y l -> y <> x -> f y = []) -> flat_map f l = f x.
Proof.
  induction 1 as [|y l Hy _ IH]; cbn; intros Hx H; [tauto|].
  destruct Hx as [->|Hx].
  - assert (E : flat_map f l = []).
    { clear IH. induction l as [|z l IHl]; auto. cbn in *. rewrite (H z); [|auto|intros ->; tauto]. cbn.
      apply IHl; [tauto|]. intros; apply H; intuition. }
    rewrite E. apply app_nil_r.
  - rewrite (H y); [|auto|intros ->; tauto]. cbn. apply IH; auto.
Qed.

Lemma sum_positions_merge axes k shape out : in_range (drop_axes axes k shape) out ->
  filter (fun full => list_zeqb (drop_axes axes k full) out) (all_idx shape) =
  map (fun rs => merge axes k (length shape) rs out) (all_idx (take_axes axes k shape)).
Proof.
  revert k out; induction shape as [|d s IH]; intros k out Ho; cbn [drop_axes take_axes length merge all_idx] in *.
  - inversion Ho; subst. reflexivity.
  - rewrite filter_flat_map. destruct (zmem k axes) eqn:E.
    + cbn [all_idx]. 
      transitivity (flat_map (fun i => map (cons i) (map (fun rs => merge axes (k + 1) (length s) rs out) (all_idx (take_axes axes (k + 1) s)))) (zrange d)).
      * apply flat_map_ext_in. intros i _. rewrite filter_map'. f_equal. rewrite <- (IH (k + 1) out Ho).
        apply filter_ext. intros full. cbn [drop_axes]. now rewrite E.
      * rewrite !flat_map_concat_map, concat_map, map_map. f_equal. apply map_ext. intros i. now rewrite !map_map.
    + inversion Ho as [|o d0 out' s0 Hod Ho']; subst.
      rewrite (flat_map_single _ _ o).
      * rewrite filter_map'. rewrite <- (map_map (fun rs => merge axes (k + 1) (length s) rs out') (cons o)).
        f_equal. rewrite <- (IH (k + 1) out' Ho'). apply filter_ext. intros full. cbn [drop_axes]. rewrite E. cbn. now rewrite Z.eqb_refl.
      * apply NoDup_zrange.
      * now apply in_zrange.
      * intros y Hy Hne. rewrite filter_map'.
        assert (E2 : filter (fun x => list_zeqb (drop_axes axes k (y :: x)) (o :: out')) (all_idx s) = []).
        { rewrite (filter_ext _ (fun _ => false)); [clear; induction (all_idx s); cbn; auto|].
          intros x. cbn [drop_axes]. rewrite E. cbn. now replace (y =? o) with false by lia. }
        now rewrite E2.
Qed.
Lemma merge_in_range axes k shape rs out : in_range (take_axes axes k shape) rs -> in_range (drop_axes axes k shape) out ->
  in_range shape (merge axes k (length shape) rs out).
Proof.
  revert k rs out; induction shape as [|d s IH]; intros k rs out H1 H2; cbn in *; [constructor|].
  destruct (zmem k axes); [inversion H1|inversion H2]; subst; constructor; auto; now apply IH.
Qed.
End Conv.
