(* How large cache keys and kernel texts get, as a function of the number of API calls. *)
From Coq Require Import String Ascii.
From Verif Require Import Base BaseFacts Util UtilFacts Lang Spec SpecFacts Graph Api Denote DenoteFacts Reach ApiFacts LangInst Prog Algo AlgoSem AlgoConv AlgoConv2 AlgoFuse AlgoFuse2
  AlgoConvert AlgoConvert2 Kernel Sched Codegen Backends KernFacts RenderFacts KernelOk RunFacts SchedFacts SchedGpu KernelRun KernelRun2 BackendFacts AlgoTop AlgoMore CacheKey Runtime RuntimeFacts RuntimeFacts2 Text TextPrint TextParse TextTop PropText.
From Coq Require Import ZifyBool ZifyNat.
Open Scope list_scope.
Open Scope nat_scope.

(* ------------------------------------------------------------------ sizes *)
(* tuples in a cache key (materialize.py:74-92): what str() and md5 have to go through *)
Fixpoint key_size (k : ekey) : nat :=
  S (match k with
     | KyBin _ l r => key_size l + key_size r
     | KyUn _ x | KyRed _ x => key_size x
     | KyFnc x idx => key_size x + nsum (map key_size idx)
     | KyBuf _ _ _ _ _ idx => nsum (map key_size idx)
     | KyIdx _ _ | KyConst _ | KyNone => 0
     end).
(* binary operations in an expression *)
Fixpoint nbin (e : expr) : nat :=
  match e with
  | EBin _ x y => S (nbin x + nbin y)
  | EUn _ x | ESum x _ => nbin x
  | EWhere c t f => nbin c + nbin t + nbin f
  | EFunc _ idx | EBuf _ idx => nsum (map nbin idx)
  | EIdx _ | EConst _ => 0
  end.

(* the steps of convert *)
Lemma convert_parts g a E2 fs : reach g -> valid g a -> no_scalar_reshape g a -> convert g a = Done (E2, fs) ->
  exists E fd rc e E1, CE g a E /\ E a = Some fd /\ (forall n, cone g a n -> E n <> None) /\
    count_refs (S (length g)) E (f_expr fd) (fun _ => 0) = Done rc /\ try_fuse (S (length g)) rc (f_expr fd) E = Done (e, E1) /\
    E2 = fset E1 a (set_expr fd e).
Proof.
  intros Hr Hv Hns HC. pose proof (reach_wf g Hr) as Hw.
  destruct (arr_to_func_ok _ any_lang_ok g Hw a Hns (S (length g)) a (fun _ => None)) as (E & HA & HE & _ & Ha & _); [unfold valid in Hv; lia|exact Hv|constructor|intros n fd Hn; discriminate|].
  unfold convert in HC. rewrite HA in HC. cbn [obind] in HC. destruct (E a) as [fd|] eqn:Ea; [|congruence]. cbn [throw_none obind] in HC.
  apply obind_Done in HC as (rc & Hrc & HC). apply obind_Done in HC as ([e E1] & Hf & HC). apply obind_Done in HC as ([st fs'] & Ho & HC). injection HC as <- <-.
  exists E, fd, rc, e, E1. split; [exact HE|]. split; [exact Ea|]. split; [|auto]. intros n Hn. eapply CE_cone; eauto. congruence.
Qed.
Lemma rinc_same rc f : rinc rc f f = S (rc f).
Proof. unfold rinc. now rewrite Nat.eqb_refl. Qed.
Lemma rinc_other rc f x : x <> f -> rinc rc f x = rc x.
Proof. unfold rinc. intros H. apply Nat.eqb_neq in H. now rewrite H. Qed.
Lemma rinc_le rc f x : rc x <= rinc rc f x.
Proof. unfold rinc. destruct (Nat.eqb x f); lia. Qed.
Lemma count_func fuel E f i rc : count_refs fuel E (EFunc f i) rc =
  if Nat.eqb (rinc rc f f) 1 then match fuel with O => Throw InternalErr | S k => fd <~ throw_none InternalErr (E f) ;; count_refs k E (f_expr fd) (rinc rc f) end else Done (rinc rc f).
Proof. destruct fuel; reflexivity. Qed.
Lemma count_bin fuel E b x y rc : count_refs fuel E (EBin b x y) rc = (rc1 <~ count_refs fuel E x rc ;; count_refs fuel E y rc1).
Proof. destruct fuel; reflexivity. Qed.
Lemma fuse_func fuel rc f idx E : try_fuse fuel rc (EFunc f idx) E =
  match fuel with
  | O => Throw InternalErr
  | S k =>
      fd <~ throw_none InternalErr (E f) ;;
      if Nat.eqb (rc f) 0 then Throw KeyErr
      else if negb (fusable rc f (f_expr fd)) then '(e', E1) <~ try_fuse k rc (f_expr fd) E ;; Done (EFunc f idx, fset E1 f (set_expr fd e'))
      else fused <~ replace_index (combine (f_loops fd) idx) (f_expr fd) ;; try_fuse k rc fused E
  end.
Proof. destruct fuel; reflexivity. Qed.
Lemma fuse_bin fuel rc b x y E : try_fuse fuel rc (EBin b x y) E = ('(x', E1) <~ try_fuse fuel rc x E ;; '(y', E2) <~ try_fuse fuel rc y E1 ;; Done (EBin b x' y', E2)).
Proof. destruct fuel; reflexivity. Qed.
Lemma fuse_buf fuel rc n i E : try_fuse fuel rc (EBuf n i) E = Done (EBuf n i, E).
Proof. destruct fuel; reflexivity. Qed.
Lemma key_bin g E fuel b x y ids : expr_key g E fuel (EBin b x y) ids = ('(k1, ids1) <~ expr_key g E fuel x ids ;; '(k2, ids2) <~ expr_key g E fuel y ids1 ;; Done (KyBin b k1 k2, ids2)).
Proof. destruct fuel; reflexivity. Qed.

(* ------------------------------------------------------------------ y = y + y, n times *)
Definition doubling (n : nat) : list call := CArange 2 :: map (fun k => CBinary BAdd k k) (seq 0 n).
Definition dn0 : node := const_node [2%Z] [NInt 0; NInt 1].
Definition dnode (k : nat) : node := mkNode Int64 [2%Z] [1%Z] 0 (OBin BAdd) [k; k] 2.
Definition dgraph (n : nat) : graph := dn0 :: map dnode (seq 0 n).
Lemma dgraph_len n : length (dgraph n) = S n.
Proof. cbn. now rewrite map_length, seq_length. Qed.
Lemma dgraph_S n : dgraph (S n) = dgraph n ++ [dnode n].
Proof. unfold dgraph. rewrite seq_S, map_app. reflexivity. Qed.
Lemma dgraph_nth n k : k < n -> nth_error (dgraph n) (S k) = Some (dnode k).
Proof. intros H. cbn. rewrite nth_error_map. rewrite (nth_error_nth' _ 0) by (rewrite seq_length; lia). rewrite seq_nth by lia. reflexivity. Qed.
Lemma dgraph_top n : exists nd, nth_error (dgraph n) n = Some nd /\ n_shape nd = [2%Z] /\ n_dtype nd = Int64.
Proof. destruct n; [eexists; split; [reflexivity|auto]|]. exists (dnode n). split; [apply dgraph_nth; lia|auto]. Qed.
Lemma doubling_step n : run_prog (dgraph n) [CBinary BAdd n n] = Some (dgraph (S n)).
Proof.
  destruct (dgraph_top n) as (nd & Hnd & Hs & Hd). cbn [run_prog call_okb]. unfold validb.
  replace (Nat.ltb n (length (dgraph n))) with true by (symmetry; apply Nat.ltb_lt; rewrite dgraph_len; lia). cbn [andb run_call].
  unfold api_binary, api_broadcasted, get. rewrite Hnd. cbn [obind]. rewrite Hs. cbn. unfold forward, get. rewrite Hnd. cbn [obind forward_node]. unfold fwd_elemwise. rewrite Hs, Hd, dgraph_S. reflexivity.
Qed.

Lemma run_prog_app cs1 : forall g cs2, run_prog g (cs1 ++ cs2) = match run_prog g cs1 with Some g1 => run_prog g1 cs2 | None => None end.
Proof. induction cs1 as [|c cs1 IH]; intros g cs2; cbn; [reflexivity|]. destruct (call_okb g c); [|reflexivity]. destruct (run_call g c) as [[g1 r]|]; [apply IH|reflexivity]. Qed.
Lemma doubling_run n : run_prog [] (doubling n) = Some (dgraph n).
Proof.
  induction n as [|n IH]; [reflexivity|]. unfold doubling in *. rewrite seq_S, map_app, app_comm_cons, run_prog_app, IH. exact (doubling_step n).
Qed.
Lemma dgraph_reach n : reach (dgraph n).
Proof. eapply run_prog_reach; [constructor|apply doubling_run]. Qed.
Lemma dgraph_in n k nd : nth_error (dgraph n) k = Some nd -> (k = 0 /\ nd = dn0) \/ exists j, k = S j /\ j < n /\ nd = dnode j.
Proof.
  destruct k as [|j]; intros H; [left; cbn in H; split; congruence|]. right. exists j. assert (j < n).
  { assert (HL : nth_error (dgraph n) (S j) <> None) by congruence. apply nth_error_Some in HL. rewrite dgraph_len in HL. lia. }
  rewrite dgraph_nth in H by assumption. repeat split; auto. congruence.
Qed.
Lemma dgraph_ns n a : no_scalar_reshape (dgraph n) a.
Proof. intros k nd _ H. apply dgraph_in in H as [[_ ->]|(j & _ & _ & ->)]; discriminate. Qed.
Lemma dgraph_cone n m k : k <= m -> m <= n -> cone (dgraph n) m k.
Proof.
  intros Hk Hm. replace k with (m - (m - k)) by lia. assert (Hd : m - k <= m) by lia. revert Hd. generalize (m - k). intros d. induction d as [|d IH]; intros Hd.
  - replace (m - 0) with m by lia. constructor.
  - eapply cone_step; [apply IH; lia| |]; [replace (m - d) with (S (m - S d)) by lia; apply dgraph_nth; lia|cbn; auto].
Qed.

Section Doubling.
Context (n : nat).
Definition dix (k : nat) : list expr := [EIdx (mkL k false 0 2%Z)].
Definition dexpr (k : nat) : expr := match k with O => EBuf 0 (dix 0) | S j => EBin BAdd (EFunc j (dix k)) (EFunc j (dix k)) end.
Lemma dconv k fd : cfunc (dgraph n) k fd -> fd = mkF [mkL k false 0 2%Z] [2%Z] Int64 (dexpr k) k.
Proof. intros (nd & e & Hn & He & ->). apply dgraph_in in Hn as [[-> ->]|(j & -> & _ & ->)]; cbn in He; injection He as <-; reflexivity. Qed.

(* every array but the last is counted at least twice *)
Lemma dcount_mono E fuel : forall e rc rc', count_refs fuel E e rc = Done rc' -> forall c, rc c <= rc' c.
Proof.
  induction fuel as [|m IHm]; intros e; induction e using expr_ind'; intros rc rc' HQ c; cbn in HQ; try (injection HQ as <-; auto; fail); eauto.
  all: try (repeat match goal with HQ : obind _ _ = Done _ |- _ => apply obind_Done in HQ as (? & ? & HQ) end;
    repeat match goal with H1 : (forall rc rc', _ = Done rc' -> _), H2 : _ = Done _ |- _ => apply H1 with (c := c) in H2 end; lia).
  - destruct (Nat.eqb (rinc rc f f) 1); [discriminate|]. injection HQ as <-. apply rinc_le.
  - destruct (Nat.eqb (rinc rc f f) 1); [|injection HQ as <-; apply rinc_le]. apply obind_Done in HQ as (fd & _ & HQ). apply IHm with (c := c) in HQ. pose proof (rinc_le rc f c). lia.
Qed.
Lemma dcount E : (forall k, k < n -> exists fd, E k = Some fd /\ f_expr fd = dexpr k) -> forall b i j fuel rc rc', b < n -> count_refs fuel E (EBin BAdd (EFunc b i) (EFunc b j)) rc = Done rc' ->
  (forall c, c <= b -> rc c = 0) -> forall c, c <= b -> 2 <= rc' c.
Proof.
  intros HE. induction b as [|b IH]; intros i j fuel rc rc' Hb H H0 c Hc; rewrite count_bin in H; apply obind_Done in H as (rc1 & H1 & H2).
  all: rewrite count_func, rinc_same, H0 in H1 by lia; cbn [Nat.eqb] in H1.
  all: destruct fuel as [|k]; [discriminate|].
  all: match type of H1 with obind (throw_none _ (_ ?x)) _ = _ => destruct (HE x) as (fd & Hfd & He); [lia|] end; rewrite Hfd in H1; cbn [throw_none obind] in H1; rewrite He in H1.
  - assert (c = 0) by lia. subst c. cbn [dexpr] in H1. assert (rc1 = rinc rc 0) by (destruct k; cbn in H1; congruence). subst rc1.
    rewrite count_func in H2. rewrite !rinc_same, H0 in H2 by lia. cbn in H2. injection H2 as <-. rewrite !rinc_same, H0 by lia. lia.
  - assert (Hrc' : 1 <= rc1 (S b)). { apply dcount_mono with (c := S b) in H1. rewrite rinc_same in H1. lia. }
    rewrite count_func, rinc_same in H2. replace (Nat.eqb (S (rc1 (S b))) 1) with false in H2 by (symmetry; apply Nat.eqb_neq; lia). injection H2 as <-.
    destruct (Nat.eq_dec c (S b)) as [->|Hne]; [rewrite rinc_same; lia|]. rewrite rinc_other by assumption.
    cbn [dexpr] in H1. eapply IH; [|exact H1| |]; [lia| |lia]. intros c' Hc'. rewrite rinc_other by lia. apply H0. lia.
Qed.
(* fusion leaves all the sums that are read twice in place *)
Definition leafy (e : expr) : Prop := (exists i, e = EFunc 0 i /\ length i = 1) \/ exists i, e = EBuf 0 i.
Definition dform (k : nat) (e : expr) : Prop :=
  match k with O => e = dexpr 0 | S O => exists x y, e = EBin BAdd x y /\ leafy x /\ leafy y | _ => e = dexpr k end.
Definition dinv (E : fenv) : Prop := forall k, k <= n -> exists fd, E k = Some fd /\ f_loops fd = [mkL k false 0 2%Z] /\ dform k (f_expr fd).
Context (rc : refs) (Hrc : forall c, c < n -> 2 <= rc c).
Lemma fset_dinv E k fd e : dinv E -> E k = Some fd -> k <= n -> dform k e -> dinv (fset E k (set_expr fd e)).
Proof.
  intros HI Hfd Hk He c Hc. unfold fset. destruct (Nat.eqb c k) eqn:Ec; [|now apply HI]. apply Nat.eqb_eq in Ec. subst c.
  eexists; split; [reflexivity|]. destruct (HI k Hk) as (fd' & H1 & H2 & _). cbn. split; [congruence|exact He].
Qed.
Lemma leaf_fuse fuel x E x' E' : 1 <= n -> dinv E -> leafy x -> try_fuse fuel rc x E = Done (x', E') -> leafy x' /\ E' = E.
Proof.
  intros Hn HI [(i & -> & Hi)|(i & ->)] H; [|rewrite fuse_buf in H; injection H as <- <-; split; [right; eauto|auto]].
  rewrite fuse_func in H. destruct fuel as [|k]; [discriminate|]. destruct (HI 0 ltac:(lia)) as (fd & Hfd & Hl & He). rewrite Hfd in H. cbn [throw_none obind] in H.
  cbn [dform] in He. rewrite He, Hl in H. pose proof (Hrc 0 ltac:(lia)). destruct (Nat.eqb (rc 0) 0) eqn:E0; [discriminate|]. cbn [fusable dexpr is_buf orb negb] in H.
  destruct i as [|e0 [|]]; try discriminate Hi. cbn in H. rewrite fuse_buf in H. injection H as <- <-. split; [right; eauto|auto].
Qed.
Lemma dfuse k : forall fuel e E e' E', 1 <= k -> k <= n -> dinv E -> dform k e -> try_fuse fuel rc e E = Done (e', E') -> dinv E' /\ dform k e'.
Proof.
  induction k as [|k IH]; intros fuel e E e' E' H1 Hk HI He H; [lia|]. destruct k as [|k].
  - destruct He as (x & y & -> & Hx & Hy). rewrite fuse_bin in H. apply obind_Done in H as ([x' E1] & Fx & H). apply obind_Done in H as ([y' E2] & Fy & H). injection H as <- <-.
    apply leaf_fuse in Fx as [Lx ->]; auto. apply leaf_fuse in Fy as [Ly ->]; auto. split; [exact HI|]. exists x', y'. auto.
  - cbn [dform] in He. subst e. cbn [dexpr] in H. rewrite fuse_bin in H. apply obind_Done in H as ([x' E1] & Fx & H). apply obind_Done in H as ([y' E2] & Fy & H). injection H as <- <-.
    assert (HS : forall z E0 E3 z', dinv E0 -> z = EFunc (S k) (dix (S (S k))) -> try_fuse fuel rc z E0 = Done (z', E3) -> dinv E3 /\ z' = z).
    { intros z E0 E3 z' HI0 -> F. rewrite fuse_func in F. destruct fuel as [|m]; [discriminate|]. destruct (HI0 (S k) ltac:(lia)) as (fd & Hfd & Hl & Hf). rewrite Hfd in F. cbn [throw_none obind] in F.
      pose proof (Hrc (S k) ltac:(lia)) as Hr. destruct (Nat.eqb (rc (S k)) 0) eqn:E0'; [discriminate|].
      assert (Hfus : fusable rc (S k) (f_expr fd) = false).
      { unfold fusable. replace (Nat.eqb (rc (S k)) 1) with false by (symmetry; apply Nat.eqb_neq; lia). rewrite Bool.andb_false_r, Bool.orb_false_r.
        destruct k; cbn [dform] in Hf; [destruct Hf as (u & v & -> & _)|rewrite Hf]; reflexivity. }
      rewrite Hfus in F. cbn [negb] in F. apply obind_Done in F as ([e1 E4] & F1 & F). injection F as <- <-.
      destruct (IH _ _ _ _ _ ltac:(lia) ltac:(lia) HI0 Hf F1) as [HI4 Hf4]. split; [|reflexivity].
      intros c Hc. unfold fset. destruct (Nat.eqb c (S k)) eqn:Ec; [|now apply HI4]. apply Nat.eqb_eq in Ec. subst c. eexists; split; [reflexivity|]. cbn. auto. }
    destruct (HS _ _ _ _ HI eq_refl Fx) as [HI1 ->]. destruct (HS _ _ _ _ HI1 eq_refl Fy) as [HI2 ->]. split; [exact HI2|]. reflexivity.
Qed.
(* the key of the k-th sum contains the key of the previous one twice *)
Lemma key_size_pos k : 1 <= key_size k.
Proof. destruct k; cbn; lia. Qed.
Lemma dkey g E : dinv E -> forall k fuel ids e ky ids', k <= n -> dform k e -> expr_key g E fuel e ids = Done (ky, ids') -> 2 ^ k <= key_size ky.
Proof.
  intros HI. induction k as [|k IH]; intros fuel ids e ky ids' Hk He H; [cbn; apply key_size_pos|].
  assert (HB : exists x y, e = EBin BAdd x y /\ (k = 0 \/ (x = EFunc k (dix (S k)) /\ y = EFunc k (dix (S k))))).
  { destruct k; cbn [dform] in He; [destruct He as (x & y & -> & _); exists x, y; auto|subst e; eexists _, _; split; [reflexivity|auto]]. }
  destruct HB as (x & y & -> & Hxy). rewrite key_bin in H. apply obind_Done in H as ([k1 i1] & K1 & H). apply obind_Done in H as ([k2 i2] & K2 & H). injection H as <- <-. cbn [key_size].
  destruct Hxy as [->|[-> ->]]; [pose proof (key_size_pos k1); pose proof (key_size_pos k2); cbn; lia|].
  assert (HF : forall ids0 ky0 i0, expr_key g E fuel (EFunc k (dix (S k))) ids0 = Done (ky0, i0) -> 2 ^ k <= key_size ky0).
  { intros ids0 ky0 i0 F. rewrite expr_key_func in F. destruct fuel as [|m]; [discriminate|]. destruct (HI k ltac:(lia)) as (fd & Hfd & _ & Hf). rewrite Hfd in F. cbn [throw_none obind] in F.
    apply obind_Done in F as ([k0 j0] & F1 & F). apply obind_Done in F as ([ks j1] & _ & F). injection F as <- <-. apply (IH _ _ _ _ _ ltac:(lia) Hf) in F1. cbn [key_size]. lia. }
  apply HF in K1, K2. cbn [Nat.pow]. lia.
Qed.
End Doubling.

(* the largest key after n doublings *)
Lemma doubling_key n (sc : schedule) : 1 <= n -> exists E fs fd key, convert (dgraph n) n = Done (E, fs) /\ In n fs /\ E n = Some fd /\
  cache_key (dgraph n) E fd sc = Done key /\ 2 ^ n <= key_size (ky_expr key).
Proof.
  intros Hn. assert (Hv : valid (dgraph n) n) by (unfold valid; rewrite dgraph_len; lia).
  destruct (compilation_total Python _ _ (dgraph_reach n) Hv (dgraph_ns n n)) as (E2 & fs & HC & _).
  pose proof (convert_inv _ _ _ _ _ any_lang_ok (dgraph_reach n) Hv (dgraph_ns n n) HC) as HS.
  destruct (cs_last _ _ _ _ _ HS) as (l & Hl). assert (Hf : In n fs) by (rewrite Hl; apply in_elt).
  destruct (convert_parts _ _ _ _ (dgraph_reach n) Hv (dgraph_ns n n) HC) as (E & fd & rc & e & E1 & HE & Ha & Hall & Hc & HF & ->).
  assert (HK : forall k, k <= n -> E k = Some (mkF [mkL k false 0 2%Z] [2%Z] Int64 (dexpr k) k)).
  { intros k Hk. destruct (E k) as [fk|] eqn:Ek; [|exfalso; apply (Hall k); [apply dgraph_cone; lia|assumption]]. destruct (HE k fk Ek) as (_ & HC' & _). f_equal. now apply (dconv n). }
  assert (Hfd : fd = mkF [mkL n false 0 2%Z] [2%Z] Int64 (dexpr n) n) by (rewrite HK in Ha by lia; congruence).
  assert (HI : dinv n E). { intros k Hk. eexists; split; [apply HK; lia|]. split; [reflexivity|]. cbn [f_expr]. destruct k as [|[|k]]; cbn [dform]; auto. exists (EFunc 0 (dix 1)), (EFunc 0 (dix 1)). split; [reflexivity|]. split; left; eexists; split; reflexivity. }
  assert (Hrc : forall c, c < n -> 2 <= rc c).
  { intros c Hc'. rewrite Hfd in Hc. cbn [f_expr] in Hc. destruct n as [|m]; [lia|]. cbn [dexpr] in Hc. eapply (dcount (S m) E); [|  |exact Hc| |]; [|lia|auto|lia].
    intros k Hk. eexists; split; [apply HK; lia|reflexivity]. }
  assert (Hdf : dform n (f_expr fd)). { destruct (HI n (le_n n)) as (f' & H1 & _ & H2). congruence. }
  destruct (dfuse n rc Hrc n _ _ _ _ _ Hn (le_n n) HI Hdf HF) as [HI1 He].
  assert (HI2 : dinv n (fset E1 n (set_expr fd e))). { intros c Hc'. unfold fset. destruct (Nat.eqb c n) eqn:Ec; [|now apply HI1]. apply Nat.eqb_eq in Ec. subst c. eexists; split; [reflexivity|]. cbn. split; [now rewrite Hfd|exact He]. }
  destruct (cs_entry _ _ _ _ _ HS n Hf) as (fd2 & Hfd2 & _).
  destruct (cache_key_total (dgraph n) (fset E1 n (set_expr fd e)) fs) with (f := n) (sc := sc) (fd := fd2) as (key & Hkey); auto.
  { intros f0 Hf0. destruct (convert_kctx _ _ _ _ _ f0 HS Hf0) as (fd0 & nd0 & H1 & HK0).
    exists fd0, (shape_of (dgraph n)), nd0. split; auto. split; [exact (kc_wff _ _ f0 fd0 nd0 HK0)|]. intros d Hd.
    apply in_split in Hf0 as (k1 & k2 & Hk). rewrite Hk. apply in_or_app. left. exact (cs_topo _ _ _ _ _ HS k1 f0 k2 Hk fd0 H1 d Hd). }
  exists (fset E1 n (set_expr fd e)), fs, fd2, key. split; [exact HC|]. split; [exact Hf|]. split; [exact Hfd2|]. split; [exact Hkey|].
  unfold cache_key in Hkey. apply obind_Done in Hkey as ([ky ids] & HKy & Hkey). injection Hkey as <-. cbn [ky_expr].
  destruct (HI2 n (le_n n)) as (f' & H1 & _ & H2). assert (f' = fd2) by congruence. subst f'. eapply (dkey n); eauto.
Qed.

(* ------------------------------------------------------------------ x.reshape(2, 2), n times *)
Definition reshaping (n : nat) : list call :=
  CArray (Nest [Nest [Leaf (NInt 0); Leaf (NInt 1)]; Nest [Leaf (NInt 2); Leaf (NInt 3)]]) :: map (fun k => CReshape k [2%Z; 2%Z]) (seq 0 n) ++ [CUnary UNeg n].
Definition rn0 : node := const_node [2%Z; 2%Z] [NInt 0; NInt 1; NInt 2; NInt 3].
Definition rnode (k : nat) : node := mkNode Int64 [2%Z; 2%Z] [2%Z; 1%Z] 0 (OReshape [2%Z; 2%Z]) [k] 4.
Definition rneg (n : nat) : node := mkNode Int64 [2%Z; 2%Z] [2%Z; 1%Z] 0 (OUn UNeg) [n] 4.
Definition rviews (n : nat) : graph := rn0 :: map rnode (seq 0 n).
Definition rgraph (n : nat) : graph := rviews n ++ [rneg n].
Lemma rviews_len n : length (rviews n) = S n.
Proof. cbn. now rewrite map_length, seq_length. Qed.
Lemma rgraph_len n : length (rgraph n) = S (S n).
Proof. unfold rgraph. rewrite app_length, rviews_len. cbn. lia. Qed.
Lemma rviews_S n : rviews (S n) = rviews n ++ [rnode n].
Proof. unfold rviews. rewrite seq_S, map_app. reflexivity. Qed.
Lemma rviews_nth n k : k < n -> nth_error (rviews n) (S k) = Some (rnode k).
Proof. intros H. cbn. rewrite nth_error_map. rewrite (nth_error_nth' _ 0) by (rewrite seq_length; lia). rewrite seq_nth by lia. reflexivity. Qed.
Lemma rviews_top n : exists nd, nth_error (rviews n) n = Some nd /\ n_shape nd = [2%Z; 2%Z] /\ n_strides nd = [2%Z; 1%Z] /\ n_dtype nd = Int64 /\ n_len nd = 4%Z /\ n_offset nd = 0%Z.
Proof. destruct n; [eexists; split; [reflexivity|cbn; auto]|]. exists (rnode n). split; [apply rviews_nth; lia|cbn; auto]. Qed.
Lemma reshaping_step n : run_prog (rviews n) [CReshape n [2%Z; 2%Z]] = Some (rviews (S n)).
Proof.
  destruct (rviews_top n) as (nd & Hnd & Hs & Ht & Hd & Hl & Ho). cbn [run_prog call_okb]. unfold validb.
  replace (Nat.ltb n (length (rviews n))) with true by (symmetry; apply Nat.ltb_lt; rewrite rviews_len; lia). cbn [andb run_call nonnegb forallb Z.leb Z.compare].
  unfold api_reshape, api_contiguous, is_contiguous, get. rewrite Hnd. cbn [obind]. rewrite Hs, Ht. cbn. unfold forward, get. rewrite Hnd. cbn [obind forward_node]. unfold fwd_reshape.
  rewrite ?Hs, ?Hd, ?Hl, ?Ho, rviews_S. reflexivity.
Qed.
Lemma reshaping_views n : run_prog [] (CArray (Nest [Nest [Leaf (NInt 0); Leaf (NInt 1)]; Nest [Leaf (NInt 2); Leaf (NInt 3)]]) :: map (fun k => CReshape k [2%Z; 2%Z]) (seq 0 n)) = Some (rviews n).
Proof. induction n as [|n IH]; [reflexivity|]. rewrite seq_S, map_app, app_comm_cons, run_prog_app, IH. exact (reshaping_step n). Qed.
Lemma reshaping_run n : run_prog [] (reshaping n) = Some (rgraph n).
Proof.
  unfold reshaping. rewrite app_comm_cons, run_prog_app, reshaping_views. destruct (rviews_top n) as (nd & Hnd & Hs & Ht & Hd & Hl & Ho). cbn [run_prog call_okb]. unfold validb.
  replace (Nat.ltb n (length (rviews n))) with true by (symmetry; apply Nat.ltb_lt; rewrite rviews_len; lia). cbn [run_call]. unfold api_unary, forward, get. rewrite Hnd. cbn [obind forward_node].
  unfold fwd_elemwise. rewrite Hs, Hd. reflexivity.
Qed.
Lemma rgraph_reach n : reach (rgraph n).
Proof. eapply run_prog_reach; [constructor|apply reshaping_run]. Qed.
Lemma rgraph_view n k : k < n -> nth_error (rgraph n) (S k) = Some (rnode k).
Proof. intros H. unfold rgraph. rewrite nth_error_app1 by (rewrite rviews_len; lia). now apply rviews_nth. Qed.
Lemma rgraph_last n : nth_error (rgraph n) (S n) = Some (rneg n).
Proof. unfold rgraph. rewrite nth_error_app2 by (rewrite rviews_len; lia). now rewrite rviews_len, Nat.sub_diag. Qed.
Lemma rgraph_in n k nd : nth_error (rgraph n) k = Some nd -> (k = 0 /\ nd = rn0) \/ (exists j, k = S j /\ j < n /\ nd = rnode j) \/ (k = S n /\ nd = rneg n).
Proof.
  intros H. assert (HL : k < length (rgraph n)) by (apply nth_error_Some; congruence). rewrite rgraph_len in HL. destruct k as [|j]; [left; cbn in H; split; congruence|]. right.
  destruct (Nat.eq_dec j n) as [->|Hne]; [right; rewrite rgraph_last in H; split; congruence|]. left. exists j. rewrite rgraph_view in H by lia. repeat split; [lia|congruence].
Qed.
Lemma rgraph_ns n a : no_scalar_reshape (rgraph n) a.
Proof. intros k nd _ H. apply rgraph_in in H as [[_ ->]|[(j & _ & _ & ->)|[_ ->]]]; discriminate. Qed.
Lemma rgraph_cone n k : k <= S n -> cone (rgraph n) (S n) k.
Proof.
  intros Hk. replace k with (S n - (S n - k)) by lia. assert (Hd : S n - k <= S n) by lia. revert Hd. generalize (S n - k). intros d. induction d as [|d IH]; intros Hd.
  - replace (S n - 0) with (S n) by lia. constructor.
  - destruct (Nat.eq_dec d 0) as [->|Hd0].
    + eapply cone_step; [constructor|apply rgraph_last|]. cbn. left. lia.
    + eapply cone_step; [apply IH; lia| |]; [replace (S n - d) with (S (S n - S d)) by lia; apply rgraph_view; lia|cbn; auto].
Qed.
Section Reshaping.
Context (n : nat).
Definition ri (k : nat) : expr := EIdx (mkL k false 0 2%Z).
Definition rj (k : nat) : expr := EIdx (mkL k false 1 2%Z).
Definition rflat (x y : expr) : expr := EBin BAdd (EBin BMul x (EConst 2)) (EBin BMul y (EConst 1)).
Definition rsub (x y : expr) : list expr := [EBin BFloordiv (rflat x y) (EConst 2); EBin BMod (rflat x y) (EConst 2)].
Definition rexpr (k : nat) : expr := match k with O => EBuf 0 [ri 0; rj 0] | S j => if Nat.eqb j n then EUn UNeg (EFunc n [ri k; rj k]) else EFunc j (rsub (ri k) (rj k)) end.
Definition rfunc (k : nat) : func := mkF [mkL k false 0 2%Z; mkL k false 1 2%Z] [2%Z; 2%Z] Int64 (rexpr k) k.
Lemma rconv k fd : cfunc (rgraph n) k fd -> fd = rfunc k.
Proof.
  intros (nd & e & Hn & He & ->). apply rgraph_in in Hn as [[-> ->]|[(j & -> & Hj & ->)|[-> ->]]].
  - cbn in He. injection He as <-. reflexivity.
  - assert (HG : exists x, get (rgraph n) j = Done x /\ n_shape x = [2%Z; 2%Z]).
    { unfold get. destruct j as [|j]; [eexists; split; reflexivity|]. rewrite rgraph_view by lia. eexists; split; reflexivity. }
    destruct HG as (x & HG & Hx). unfold conv_expr in He. cbn [rnode n_op n_in n_shape nth_error throw_none obind] in He. rewrite HG in He. cbn [obind] in He. rewrite Hx in He. cbn in He. injection He as <-.
    unfold rfunc, rexpr. replace (Nat.eqb j n) with false by (symmetry; apply Nat.eqb_neq; lia). reflexivity.
  - cbn in He. injection He as <-. unfold rfunc, rexpr. rewrite Nat.eqb_refl. reflexivity.
Qed.
Context (E : fenv) (HE : forall k, k <= S n -> E k = Some (rfunc k)).
Lemma rcount : forall b i fuel rc rc', b <= n -> count_refs fuel E (EFunc b i) rc = Done rc' -> (forall c, c <= b -> rc c = 0) -> forall c, c <= b -> rc' c = 1.
Proof.
  induction b as [|b IH]; intros i fuel rc rc' Hb H H0 c Hc; rewrite count_func, rinc_same, H0 in H by lia; cbn [Nat.eqb] in H; destruct fuel as [|k]; try discriminate;
    rewrite HE in H by lia; cbn [throw_none obind rfunc f_expr rexpr] in H.
  - assert (rc' = rinc rc 0) by (destruct k; cbn in H; congruence). subst rc'. assert (c = 0) by lia. subst c. rewrite rinc_same, H0 by lia. reflexivity.
  - replace (Nat.eqb b n) with false in H by (symmetry; apply Nat.eqb_neq; lia). destruct (Nat.eq_dec c (S b)) as [->|Hne].
    + assert (HX : forall b i fuel rc rc', b <= n -> count_refs fuel E (EFunc b i) rc = Done rc' -> forall c, b < c -> rc' c = rc c).
      { clear - HE. induction b as [|b IH]; intros i fuel rc rc' Hb H c Hc; rewrite count_func in H; (destruct (Nat.eqb (rinc rc _ _) 1); [|injection H as <-; apply rinc_other; lia]); (destruct fuel as [|k]; [discriminate|]);
          rewrite HE in H by lia; cbn [throw_none obind rfunc f_expr rexpr] in H.
        - assert (rc' = rinc rc 0) by (destruct k; cbn in H; congruence). subst rc'. apply rinc_other. lia.
        - replace (Nat.eqb b n) with false in H by (symmetry; apply Nat.eqb_neq; lia). apply IH with (c := c) in H; [|lia|lia]. rewrite H. apply rinc_other. lia. }
      assert (Hb' : b <= n) by lia. assert (Hb2 : b < S b) by lia. rewrite (HX b _ _ _ _ Hb' H (S b) Hb2). rewrite rinc_same, H0 by lia. reflexivity.
    + eapply IH; [|exact H| |]; [lia| |lia]. intros c' Hc'. rewrite rinc_other by lia. apply H0. lia.
Qed.
Context (rc : refs) (Hrc : forall c, c <= n -> rc c = 1).
Lemma rfuse : forall b fuel x y e' E', b <= n -> try_fuse fuel rc (EFunc b [x; y]) E = Done (e', E') -> exists u v, e' = EBuf 0 [u; v] /\ 2 ^ b * S (nbin x + nbin y) <= S (nbin u + nbin v).
Proof.
  induction b as [|b IH]; intros fuel x y e' E' Hb H; rewrite fuse_func in H; destruct fuel as [|k]; try discriminate; rewrite HE in H by lia; cbn [throw_none obind] in H; rewrite Hrc in H by lia; cbn [Nat.eqb] in H.
  - unfold fusable in H. cbn [rfunc f_expr rexpr is_buf orb negb f_loops combine] in H. cbn in H. rewrite fuse_buf in H. injection H as <- <-. exists x, y. split; [reflexivity|]. cbn. lia.
  - unfold fusable in H. rewrite Hrc in H by lia. cbn [rfunc f_expr rexpr f_loops] in H. replace (Nat.eqb b n) with false in H by (symmetry; apply Nat.eqb_neq; lia). cbn [is_buf has_reduce orb negb andb Nat.eqb combine] in H.
    assert (HR : replace_index [(mkL (S b) false 0 2%Z, x); (mkL (S b) false 1 2%Z, y)] (EFunc b (rsub (ri (S b)) (rj (S b)))) = Done (EFunc b (rsub x y))).
    { cbn. unfold lidx_eqb. cbn. rewrite Nat.eqb_refl. cbn. reflexivity. }
    rewrite HR in H. cbn [obind] in H. destruct (IH _ _ _ _ _ ltac:(lia) H) as (u & v & -> & HN). exists u, v. split; [reflexivity|]. eapply Nat.le_trans; [|exact HN]. rewrite Nat.pow_succ_r', (Nat.mul_comm 2), <- Nat.mul_assoc. apply Nat.mul_le_mono_l. cbn. lia.
Qed.
End Reshaping.

(* every binary operation becomes a line of the text *)
Section Lines.
Context (b : backend) (g : graph) (E : fenv).
Definition lines (s : gst) : nat := length (g_buf s).
Lemma write_lines_len l s : lines (write l s) = lines s + length l.
Proof. unfold write. revert s. induction l as [|x l IH]; intros s; cbn [fold_left length]; [unfold lines; lia|]. rewrite IH. unfold lines. cbn. rewrite app_length. cbn. lia. Qed.
Lemma nest_len s : lines (nest s) = lines s.
Proof. reflexivity. Qed.
Lemma unnest_len s : lines (unnest s) = lines s.
Proof. reflexivity. Qed.
Definition t_many (args : list (string * arg)) : list expr -> gst -> outcome (list string * gst) :=
  fix many (l : list expr) (s : gst) : outcome (list string * gst) :=
    match l with [] => Done ([], s) | x :: l' => '(v, s1) <~ t_render b g E args x Int64 s ;; '(vs, s2) <~ many l' s1 ;; Done (v :: vs, s2) end.
Lemma done2 {A B} (x x' : A) (y y' : B) : Done (x, y) = Done (x', y') -> x = x' /\ y = y'.
Proof. intros H. injection H as -> ->. auto. Qed.
Lemma render_lines args : forall e dt s v s', t_render b g E args e dt s = Done (v, s') -> lines s + nbin e <= lines s'.
Proof.
  assert (HM : forall idx, Forall (fun e => forall dt s v s', t_render b g E args e dt s = Done (v, s') -> lines s + nbin e <= lines s') idx ->
    forall s0 vs s1, t_many args idx s0 = Done (vs, s1) -> lines s0 + nsum (map nbin idx) <= lines s1).
  { induction 1 as [|x l Hx _ IHl]; intros s0 vs s1 HM; cbn in HM; [injection HM as <- <-; cbn; lia|].
    apply obind_Done in HM as ([v1 s2] & H1 & HM). apply obind_Done in HM as ([v2 s3] & H2 & HM). injection HM as <- <-. apply Hx in H1. apply IHl in H2. cbn [map nsum]. lia. }
  assert (HL : forall A (h : gst -> A -> gst) l s, (forall s x, lines s <= lines (h s x)) -> lines s <= lines (fold_left h l s)).
  { intros A h l. induction l as [|x l IH]; intros s Hh; cbn; [lia|]. specialize (IH (h s x) Hh). specialize (Hh s x). lia. }
  intros e. induction e using expr_ind'; intros dt s v s' HQ; cbn [nbin].
  - apply done2 in HQ as [<- <-]. lia.
  - apply done2 in HQ as [<- <-]. lia.
  - cbn [t_render] in HQ. apply obind_Done in HQ as ([v1 s1] & H1 & HQ). apply obind_Done in HQ as ([v2 s2] & H2 & HQ). apply done2 in HQ as [<- <-]. rewrite write_lines_len. apply IHe1 in H1. apply IHe2 in H2. unfold lines in *. cbn. lia.
  - cbn [t_render] in HQ. apply obind_Done in HQ as ([v1 s1] & H1 & HQ). apply done2 in HQ as [<- <-]. rewrite write_lines_len. apply IHe in H1. unfold lines in *. cbn. lia.
  - cbn [t_render tmpvar] in HQ. apply obind_Done in HQ as ([v1 s1] & H1 & HQ). apply obind_Done in HQ as ([v2 s2] & H2 & HQ). apply obind_Done in HQ as ([v3 s3] & H3 & HQ). apply done2 in HQ as [<- <-].
    apply IHe1 in H1. apply IHe2 in H2. apply IHe3 in H3. rewrite write_lines_len in H1. rewrite nest_len, write_lines_len in H2. rewrite nest_len, write_lines_len, unnest_len, write_lines_len in H3. rewrite write_lines_len, unnest_len, write_lines_len. unfold lines in *. cbn [g_buf length] in *. lia.
  - cbn [t_render] in HQ. apply obind_Done in HQ as ([v1 s1] & H1 & HQ). apply done2 in HQ as [<- <-]. apply IHe in H1.
    etransitivity; [|apply HL; intros s0 x; cbv beta; rewrite write_lines_len; unfold lines, unnest; cbn; lia]. rewrite write_lines_len.
    match type of H1 with context [lines (fold_left ?h ?l ?s0)] => assert (HX : lines s0 <= lines (fold_left h l s0)) end.
    { apply HL. intros s0 x. cbv beta. unfold nest, lines. cbn [g_buf]. change (length (g_buf ?x)) with (lines x). rewrite write_lines_len. lia. }
    rewrite write_lines_len in HX. lia.
  - cbn [t_render] in HQ. fold (t_many args) in HQ. apply obind_Done in HQ as (x1 & _ & HQ). apply obind_Done in HQ as (x2 & _ & HQ). apply obind_Done in HQ as ([v1 s1] & H1 & HQ). apply done2 in HQ as [<- <-]. eapply HM; eauto.
  - cbn [t_render] in HQ. fold (t_many args) in HQ. apply obind_Done in HQ as (x1 & _ & HQ). apply obind_Done in HQ as (x2 & _ & HQ). apply obind_Done in HQ as ([v1 s1] & H1 & HQ). apply done2 in HQ as [<- <-]. eapply HM; eauto.
Qed.
Lemma loops_lines l : forall s c s', t_loops b l s = Done (c, s') -> lines s <= lines s'.
Proof.
  induction l as [|x l IH]; intros s c s' HQ; cbn [t_loops] in HQ; [injection HQ as <- <-; lia|]. destruct (is_spatial x); [|eauto].
  apply obind_Done in HQ as ([lns lp] & _ & HQ). apply obind_Done in HQ as ([k s1] & H1 & HQ). apply done2 in HQ as [_ <-]. apply IH in H1. destruct lp; unfold nest, lines in *; cbn [g_buf] in H1; pose proof (write_lines_len lns s) as HW; unfold lines in HW; lia.
Qed.
Lemma splits_lines l : forall s, lines s <= lines (t_splits b l s).
Proof. unfold t_splits. induction l as [|x l IH]; intros s; cbn [fold_left]; [lia|]. etransitivity; [|apply IH]. rewrite write_lines_len. lia. Qed.
Lemma guards_lines l : forall s, lines s <= lines (t_guards b l s).
Proof.
  unfold t_guards. induction l as [|x l IH]; intros s; cbn [fold_left]; [lia|]. etransitivity; [|apply IH]. destruct (sp_guard x); [|lia]. rewrite write_lines_len. unfold unnest, nest, lines. cbn [g_buf].
  change (length (g_buf ?x)) with (lines x). rewrite write_lines_len. unfold lines. cbn [g_buf]. change (length (g_buf ?x)) with (lines x). rewrite write_lines_len. lia.
Qed.
Lemma finish_lines k : forall s, lines s <= lines (loop_finish b k s).
Proof. induction k as [|k IH]; intros s; cbn [loop_finish]; [lia|]. etransitivity; [|apply IH]. rewrite write_lines_len. unfold lines, unnest. cbn. lia. Qed.
Lemma join_len l : length l <= S (String.length (join (String (ascii_of_nat 10) "") l)).
Proof.
  induction l as [|x l IH]; [cbn; lia|]. destruct l as [|y l]; [cbn; lia|]. change (join (String (ascii_of_nat 10) "") (x :: y :: l)) with (x +++ (String (ascii_of_nat 10) "") +++ join (String (ascii_of_nat 10) "") (y :: l)).
  assert (HA : forall s t, String.length (s +++ t) = String.length s + String.length t) by (induction s; intros; cbn; auto). rewrite !HA. cbn [length String.length] in *. lia.
Qed.
Lemma codegen_lines kname inputs f sc k text k1 : t_codegen b g E kname inputs f sc k = Done (text, k1) -> nbin (f_expr f) <= String.length text.
Proof.
  unfold t_codegen. intros HQ. apply obind_Done in HQ as (ts & _ & HQ). apply obind_Done in HQ as ([cnt s1] & H1 & HQ). apply obind_Done in HQ as ([r s2] & H2 & HQ). apply done2 in HQ as [<- _].
  apply loops_lines in H1. apply render_lines in H2. pose proof (guards_lines (s_splits sc) (t_splits b (s_splits sc) s1)). pose proof (splits_lines (s_splits sc) s1).
  match goal with |- context [join _ (g_buf ?S)] => set (sF := S); pose proof (join_len (g_buf sF)) as HJ; fold (lines sF) in HJ; assert (HF : lines s2 + 2 <= lines sF) end.
  { unfold sF. rewrite write_lines_len. unfold unnest, lines at 2. cbn [g_buf]. fold (lines (loop_finish b cnt (write [assign b (index "out" (arr_idx_calc_expr b (f_shape f) (map (fun l : lidx => pname (lname l)) (f_loops f)))) r] s2))).
    match goal with |- context [loop_finish b cnt ?x] => pose proof (finish_lines cnt x) as HY end. rewrite write_lines_len in HY. cbn [length] in *. lia. }
  lia.
Qed.
End Lines.

Lemma fuse_un fuel rc u x E : try_fuse fuel rc (EUn u x) E = ('(x', E1) <~ try_fuse fuel rc x E ;; Done (EUn u x', E1)).
Proof. destruct fuel; reflexivity. Qed.
Lemma count_un fuel E u x rc : count_refs fuel E (EUn u x) rc = count_refs fuel E x rc.
Proof. destruct fuel; reflexivity. Qed.
Lemma reshaping_text n (b : backend) key k : exists E fs fd sc text k1, convert (rgraph n) (S n) = Done (E, fs) /\ In (S n) fs /\ E (S n) = Some fd /\
  auto_schedule (is_gpu b) fd = Done sc /\ t_codegen b (rgraph n) E (kernel_name key) (func_args (f_expr fd)) fd sc k = Done (text, k1) /\ 2 ^ n <= S (String.length text).
Proof.
  assert (Hv : valid (rgraph n) (S n)) by (unfold valid; rewrite rgraph_len; lia).
  destruct (compilation_total b _ _ (rgraph_reach n) Hv (rgraph_ns n (S n))) as (E2 & fs & HC & HG).
  pose proof (convert_inv _ _ _ _ _ any_lang_ok (rgraph_reach n) Hv (rgraph_ns n (S n)) HC) as HS.
  destruct (cs_last _ _ _ _ _ HS) as (l & Hl). assert (Hf : In (S n) fs) by (rewrite Hl; apply in_elt).
  destruct (convert_parts _ _ _ _ (rgraph_reach n) Hv (rgraph_ns n (S n)) HC) as (E & fd & rc & e & E1 & HE & Ha & Hall & Hc & HF & HE2).
  assert (HK : forall k, k <= S n -> E k = Some (rfunc n k)).
  { intros j Hj. destruct (E j) as [fk|] eqn:Ek; [|exfalso; apply (Hall j); [apply rgraph_cone; lia|assumption]]. destruct (HE j fk Ek) as (_ & HC' & _). f_equal. now apply (rconv n). }
  assert (Hfd : fd = rfunc n (S n)) by (rewrite HK in Ha by lia; congruence).
  assert (Hex : f_expr fd = EUn UNeg (EFunc n [ri (S n); rj (S n)])) by (rewrite Hfd; cbn [rfunc f_expr rexpr]; now rewrite Nat.eqb_refl).
  rewrite Hex in Hc, HF. rewrite count_un in Hc. rewrite fuse_un in HF. apply obind_Done in HF as ([x' E1'] & HF & HX). apply done2 in HX as [<- <-].
  assert (Hrc : forall c, c <= n -> rc c = 1) by (intros c Hc'; eapply (rcount n E HK); [|exact Hc| |]; auto).
  destruct (rfuse n E HK rc Hrc _ _ _ _ _ _ (le_n n) HF) as (u & v & -> & HN). cbn [nbin ri rj] in HN.
  destruct (HG _ Hf) as (fd2 & Hfd2 & HT). destruct (HT k) as (sc & kern & k1 & Hgen).
  destruct (C40_text_exists b _ _ E2 fs (S n) fd2 k key (rgraph_reach n) Hv HC Hf Hfd2 _ _ _ Hgen) as (text & Htext).
  exists E2, fs, fd2, sc, text, k1. split; [exact HC|]. split; [exact Hf|]. split; [exact Hfd2|].
  split. { unfold gen in Hgen. apply obind_Done in Hgen as (s' & H1 & Hgen). destruct (forallb _ _); [|discriminate]. apply obind_Done in Hgen as ([? ?] & _ & Hgen). congruence. }
  split; [exact Htext|]. apply codegen_lines in Htext. subst E2. unfold fset in Hfd2. rewrite Nat.eqb_refl in Hfd2. injection Hfd2 as <-. cbn [set_expr f_expr nbin map nsum] in Htext. lia.
Qed.
