(* The kernels of a copy are the kernels of the original: same cache keys, same code. *)
From Verif Require Import Base BaseFacts Util UtilFacts Lang Spec Graph Api ApiFacts Denote SpecFacts DenoteFacts Reach Tolist TolistFacts
  Algo AlgoSem AlgoConv AlgoConv2 AlgoFuse AlgoFuse2 AlgoConvert AlgoConvert2
  Kernel Sched Codegen Backends CacheKey KernFacts RenderFacts KernelOk RunFacts SchedFacts SchedGpu KernelRun KernelRun2 BackendFacts AlgoTop AlgoMore Runtime RuntimeFacts RuntimeFacts2 LangInst
  Copy CopyConv CopyKey CopyRun.

Lemma rnl_id l : rnl (fun n => n) l = l. Proof. now destruct l. Qed.
Lemma rne_id e : rne (fun n => n) e = e.
Proof.
  induction e using expr_rect'; cbn; rewrite ?rnl_id; try congruence.
  - rewrite IHe. f_equal. induction red as [|x l IH]; cbn; rewrite ?rnl_id; congruence.
  - f_equal. induction H as [|x l Hx Hl IH]; cbn; congruence.
  - f_equal. induction H as [|x l Hx Hl IH]; cbn; congruence.
Qed.
Lemma rnf_id fd : rnf (fun n => n) fd = fd.
Proof. destruct fd. unfold rnf. cbn. rewrite rne_id. f_equal. induction f_loops as [|x l IH]; cbn; rewrite ?rnl_id; congruence. Qed.

Lemma same_node_id x : same_node (fun n => n) x x.
Proof. unfold same_node. rewrite map_id. repeat split; auto. destruct (n_op x); cbn; auto. Qed.

(* keys, with an explicit fuel *)
Definition cache_key_n (n : nat) (g : graph) (E : fenv) (f : func) (s : schedule) : outcome kkey :=
  '(k, _) <~ expr_key g E n (f_expr f) [] ;;
  Done (mkKey (map (fun l => (lname l, l_ext l)) (f_loops f)) (f_shape f) (f_dtype f) k
              (map (fun l => (lv_name (ls_lv l), lv_ext (ls_lv l), ls_kind l, ls_exec l)) (s_loops s))
              (map (fun p => (lv_name (sp_orig p), sp_factor p, sp_guard p)) (s_splits s))).
Lemma cache_key_n_rn r (Hinj : forall n m, r n = r m -> n = m) g1 g2 (D : nat -> Prop)
  (HD : forall n, D n -> exists x y, nth_error g1 n = Some x /\ nth_error g2 (r n) = Some y /\ same_node r x y /\ Forall D (n_in x))
  E E' (HE : Erel r D E E') (HDe : EDe D E) fd sc key k m : De D (f_expr fd) -> (k <= m)%nat -> cache_key_n k g1 E fd sc = Done key -> cache_key_n m g2 E' (rnf r fd) sc = Done key.
Proof.
  intros He Hl HX. unfold cache_key_n in *. destruct (expr_key g1 E k (f_expr fd) []) as [[ky ids]|] eqn:X; cbn [obind] in HX; [|discriminate].
  cbn [CopyConv.rnf f_expr]. pose proof (expr_key_rn r Hinj g1 g2 D HD E E' HE HDe k m _ [] ky ids Hl He X) as HY. cbn [map] in HY. rewrite HY. cbn [obind]. injection HX as <-.
  cbn. rewrite map_map. reflexivity.
Qed.

Section Copy.
Context (dom : list nat) (r0 : nat -> nat) (g1 g2 : graph) (HC : copies dom r0 g1 g2) (R1 : reach g1) (R2 : reach g2).
Let r := ext_r dom r0.
Let D n := In n dom.
Let Hinj : forall n m, r n = r m -> n = m := proj1 (copies_ext dom r0 g1 g2 HC).
Let HD : forall n, D n -> exists x y, nth_error g1 n = Some x /\ nth_error g2 (r n) = Some y /\ same_node r x y /\ Forall D (n_in x) := proj2 (copies_ext dom r0 g1 g2 HC).
Let D2 n := exists m, D m /\ n = r m.
Let I : nat -> nat := fun n => n.
Let HI : forall n m, I n = I m -> n = m := fun n m H => H.
Let HD2 : forall n, D2 n -> exists x y, nth_error g2 n = Some x /\ nth_error g2 (I n) = Some y /\ same_node I x y /\ Forall D2 (n_in x).
Proof.
  intros n (m & Hm & ->). destruct (HD m Hm) as (x & y & H1 & H2 & (_ & _ & _ & _ & _ & S6) & HF). exists y, y. split; auto. split; auto. split; [apply same_node_id|].
  rewrite S6. rewrite Forall_forall in *. intros k Hk. apply in_map_iff in Hk as (j & <- & Hj). exists j. auto.
Qed.

Lemma base_fuel_copy k : forall m a b, (k <= m)%nat -> In a dom -> base_fuel k g1 a = Some b -> base_fuel m g2 (r a) = Some (r b) /\ In b dom.
Proof using HC.
  induction k as [|k IH]; intros m a b Hm Ha H; [discriminate|]. destruct m as [|m]; [lia|]. cbn [base_fuel] in *.
  destruct (HD a Ha) as (x & y & N1 & N2 & (_ & _ & _ & _ & So & Si) & HF). rewrite N1 in H. rewrite N2. destruct (same_op_view _ _ So) as [-> _]. rewrite Si.
  destruct (is_view (n_op x)); [|injection H as <-; auto]. destruct (n_in x) as [|c l]; [discriminate|]. cbn [map]. inversion HF; subst. apply (IH m c b); auto. lia.
Qed.
Lemma base_fuel_mono g k : forall m a b, (k <= m)%nat -> base_fuel k g a = Some b -> base_fuel m g a = Some b.
Proof.
  induction k as [|k IH]; intros m a b Hm H; [discriminate|]. destruct m as [|m]; [lia|]. cbn [base_fuel] in *. destruct (nth_error g a); auto. destruct (is_view _); auto. destruct (n_in _); auto. apply IH; auto. lia.
Qed.
Lemma base_copy a b2 : In a dom -> base g2 (r a) = Some b2 -> exists b, base g1 a = Some b /\ In b dom /\ b2 = r b.
Proof using HC R1.
  intros Ha Hb2. destruct (HD a Ha) as (x & y & N1 & N2 & _). destruct (base_total g1 a (reach_wf _ R1)) as (b & Hb & _); [eapply nth_error_Some; congruence|].
  exists b. split; auto. unfold base in *. destruct (base_fuel_copy (length g1) (Nat.max (length g1) (length g2)) a b ltac:(lia) Ha Hb) as [Hc Hd]. split; auto.
  apply (base_fuel_mono g2 (length g2) (Nat.max (length g1) (length g2))) in Hb2; [congruence|lia].
Qed.
Lemma cone_copy a n : In a dom -> cone g1 a n -> In n dom /\ cone g2 (r a) (r n).
Proof using HC.
  intros Ha H. induction H as [|n nd b Hn [IH1 IH2] Hnd Hb]; [split; [auto|constructor]|].
  destruct (HD n IH1) as (x & y & N1 & N2 & (_ & _ & _ & _ & _ & Si) & HF). assert (x = nd) by congruence. subst x. rewrite Forall_forall in HF. split; [apply HF; auto|].
  eapply cone_step; [exact IH2|exact N2|]. rewrite Si. now apply in_map.
Qed.
Lemma nsr_copy a : In a dom -> no_scalar_reshape g2 (r a) -> no_scalar_reshape g1 a.
Proof using HC.
  intros Ha H n nd Hn Hnd E. destruct (cone_copy a n Ha Hn) as [Dn Cn]. destruct (HD n Dn) as (x & y & N1 & N2 & (_ & _ & _ & _ & So & _) & _). assert (x = nd) by congruence. subst x.
  apply (H (r n) y Cn N2). rewrite E in So. cbn in So. congruence.
Qed.

Lemma kernel_copy a d2 : In a dom -> kernel_of g2 (r a) d2 -> exists d1, kernel_of g1 a d1 /\ (forall k, code_of d2 k = code_of d1 k) /\
  forall key, key_of d2 = Done key -> key_of d1 = Done key.
Proof using HC R1 R2.
  intros Ha (b2 & bd2 & E2 & fs2 & f2 & fd2 & sc & Hb2 & Hbd2 & Hnc & Hcv2 & Hf2 & Hfd2 & Hsc & ->).
  destruct (base_copy a b2 Ha Hb2) as (b & Hb & Db & ->).
  destruct (HD b Db) as (bx & bd & Nb & Nb2 & (_ & _ & _ & _ & Sob & _) & _).
  assert (bd = bd2) by congruence. subst bd. destruct (same_op_view _ _ Sob) as [_ Vc].
  assert (Vb : valid g1 b) by (eapply nth_error_Some; congruence). assert (Vb2 : valid g2 (r b)) by (eapply nth_error_Some; congruence).
  pose proof (converted_ns _ _ _ _ R2 Vb2 Hcv2) as NS2. pose proof (nsr_copy b Db NS2) as NS1.
  destruct (convert_ok (py_lang no_libm) (py_lang_ok _) g1 (reach_wf g1 R1) b bx Nb NS1) as (E & fs & Hcv & HS).
  set (M := Nat.max (S (length g1)) (S (length g2))).
  pose proof Hcv as Hcv'. pose proof Hcv2 as Hcv2'. rewrite convert_is in Hcv', Hcv2'.
  destruct (convert_n_rn r Hinj g1 g2 D HD (S (length g1)) M b E fs ltac:(lia) Db Hcv') as (E' & C2 & HE & HDe & HF).
  destruct (convert_n_rn I HI g2 g2 D2 HD2 (S (length g2)) M (r b) E2 fs2 ltac:(lia) ltac:(exists b; auto) Hcv2') as (E'' & C3 & HE2 & HDe2 & HF2).
  unfold I at 1 in C3. rewrite C2 in C3. injection C3 as <- Hfs. unfold I in Hfs. rewrite map_id in Hfs. subst fs2.
  apply in_map_iff in Hf2 as (f & <- & Hf). assert (Df : D f) by (rewrite Forall_forall in HF; auto).
  pose proof (HE f Df) as He1. pose proof (HE2 (r f) ltac:(exists f; auto)) as He2. unfold I in He2 at 1. rewrite He1, Hfd2 in He2. cbn [option_map] in He2.
  destruct (E f) as [fd|] eqn:Ef; cbn [option_map] in He2; [|discriminate]. unfold I in He2. rewrite rnf_id in He2.
  assert (HFD : rnf r fd = fd2) by congruence. clear He2.
  assert (Sc1 : auto_schedule false fd = Done sc) by (rewrite <- (auto_schedule_rn r false fd), HFD; exact Hsc).
  exists (mkD g1 E fd sc). split; [exists b, bx, E, fs, f, fd, sc; repeat split; auto; congruence|]. unfold code_of, key_of. cbn [d_g d_E d_f d_s].
  pose proof (HDe f fd Ef) as De1. pose proof (HDe2 (r f) fd2 Hfd2) as De2. split.
  - intros k. rewrite <- (codegen_rn r Hinj g1 g2 D HD E E' HE HDe fd sc k De1). rewrite HFD.
    rewrite <- (codegen_rn I HI g2 g2 D2 HD2 E2 E' HE2 HDe2 fd2 sc k De2). unfold I. rewrite rnf_id. reflexivity.
  - assert (HK : exists key, cache_key g1 E fd sc = Done key).
    { eapply (cache_key_total g1 E fs); eauto.
      - intros f0 Hf0. destruct (convert_kctx (py_lang no_libm) g1 b E fs f0 HS Hf0) as (fd0 & nd0 & H1 & HK0).
        exists fd0, (shape_of g1), nd0. split; auto. split; [exact (kc_wff g1 E f0 fd0 nd0 HK0)|]. intros d Hd.
        apply in_split in Hf0 as (k1 & k2 & Hk). rewrite Hk. apply in_or_app. left. exact (cs_topo _ _ _ _ _ HS k1 f0 k2 Hk fd0 H1 d Hd).
      - destruct (HD f Df) as (? & ? & ? & _). eapply nth_error_Some. congruence. }
    destruct HK as [key1 HK]. intros key HK2.
    assert (K1 : cache_key_n M g2 E' (rnf r fd) sc = Done key1) by (eapply (cache_key_n_rn r Hinj g1 g2 D HD E E' HE HDe fd sc key1 (S (length g1))); [exact De1|lia|exact HK]).
    assert (K2 : cache_key_n M g2 E' (rnf I fd2) sc = Done key) by (eapply (cache_key_n_rn I HI g2 g2 D2 HD2 E2 E' HE2 HDe2 fd2 sc key (S (length g2))); [exact De2|lia|exact HK2]).
    unfold I in K2. rewrite rnf_id in K2. rewrite HFD, K2 in K1. congruence.
Qed.
End Copy.

(* kernels of copies of arrays in [refs] *)
Definition copied_kernel (g : graph) (refs : nat -> Prop) (d : desc) : Prop :=
  exists a g2 a2, refs a /\ reach g2 /\ same_expr g a g2 a2 /\ kernel_of g2 a2 d.
Lemma copied_safe g (refs : nat -> Prop) : reach g -> key_safe (fun d => exists a, refs a /\ kernel_of g a d) -> key_safe (copied_kernel g refs).
Proof.
  intros Hr HK d1 d2 key (a1 & g1 & x1 & F1 & R1 & (dom1 & r1 & I1 & <- & C1) & K1) (a2 & g2 & x2 & F2 & R2 & (dom2 & r2 & I2 & <- & C2) & K2) Y1 Y2 k.
  rewrite <- (ext_in dom1 r1 a1 I1) in K1. rewrite <- (ext_in dom2 r2 a2 I2) in K2.
  destruct (kernel_copy dom1 r1 g g1 C1 Hr R1 a1 d1 I1 K1) as (e1 & J1 & -> & L1). destruct (kernel_copy dom2 r2 g g2 C2 Hr R2 a2 d2 I2 K2) as (e2 & J2 & -> & L2).
  eapply HK; eauto.
Qed.
