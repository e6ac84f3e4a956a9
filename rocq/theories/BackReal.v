(* Tangents: how every array moves when x moves, and the equations they satisfy. *)
From Coq Require Import Reals Lra.
From Coquelicot Require Import Coquelicot.
From Verif Require Import Base BaseFacts Util UtilFacts Lang Spec SpecFacts Graph Api Denote DenoteFacts Reach ApiFacts
  FrontFacts2 FrontFacts3 Backward BackSpec BackOrder BackSteps BackIdx BackRules BackRun BackTop RealAlg GradSpec BackAdj.
Local Open Scope R_scope.

Lemma dw_snoc x tx g nd : dens_with x tx (g ++ [nd]) =
  dens_with x tx g ++ [if Nat.eqb (length (dens_with x tx g)) x then tx else den_node RA (dens_with x tx g) nd].
Proof. unfold dens_with. now rewrite fold_left_app. Qed.
Lemma dw_length x tx g : length (dens_with x tx g) = length g.
Proof. induction g as [|nd g IH] using rev_ind; [reflexivity|]. rewrite dw_snoc, !app_length, IH. reflexivity. Qed.
Lemma dw_prefix x tx g h : exists l, dens_with x tx (g ++ h) = dens_with x tx g ++ l.
Proof.
  induction h as [|nd h IH] using rev_ind; [exists []; now rewrite !app_nil_r|].
  destruct IH as [l IH]. rewrite app_assoc, dw_snoc, IH. rewrite <- app_assoc. eauto.
Qed.
Lemma dw_app x tx g h n : (n < length g)%nat -> den_with x tx (g ++ h) n = den_with x tx g n.
Proof. intros H. unfold den_with. destruct (dw_prefix x tx g h) as [l ->]. apply app_nth1. now rewrite dw_length. Qed.
Lemma dw_eq x tx g n nd : nth_error g n = Some nd -> Forall (fun a => (a < n)%nat) (n_in nd) ->
  den_with x tx g n = if Nat.eqb n x then tx else den_node RA (dens_with x tx g) nd.
Proof.
  intros Hn Hin. destruct (nth_error_split _ _ Hn) as (g1 & g2 & -> & HL).
  replace (g1 ++ nd :: g2) with ((g1 ++ [nd]) ++ g2) by (now rewrite <- app_assoc).
  rewrite dw_app by (rewrite app_length; cbn; lia).
  unfold den_with at 1. rewrite dw_snoc, app_nth2 by (rewrite dw_length; lia). rewrite dw_length, HL, Nat.sub_diag. cbn [nth].
  destruct (Nat.eqb n x); [reflexivity|]. apply (den_node_ext RA).
  intros a Ha. rewrite Forall_forall in Hin. specialize (Hin _ Ha).
  change (den_with x tx g1 a = den_with x tx ((g1 ++ [nd]) ++ g2) a). rewrite <- app_assoc. symmetry. apply dw_app. lia.
Qed.

Lemma den_node_pt ts ts' nd :
  (forall a, In a (n_in nd) -> t_shape (nth a ts dummy_tensor) = t_shape (nth a ts' dummy_tensor) /\
                              forall i, t_at (nth a ts dummy_tensor) i = t_at (nth a ts' dummy_tensor) i) ->
  t_shape (den_node RA ts nd) = t_shape (den_node RA ts' nd) /\ forall i, t_at (den_node RA ts nd) i = t_at (den_node RA ts' nd) i.
Proof.
  intros H.
  assert (HT : forall k, t_shape (tin RA ts nd k) = t_shape (tin RA ts' nd k) /\ forall i, t_at (tin RA ts nd k) i = t_at (tin RA ts' nd k) i).
  { intros k. unfold tin. destruct (nth_error (n_in nd) k) eqn:E; [apply H; eapply nth_error_In; eauto|auto]. }
  destruct (HT 0%nat) as (S0 & A0). destruct (HT 1%nat) as (S1 & A1). unfold den_node.
  destruct (n_op nd); cbn [t_data t_map t_map2 t_sum t_reshape t_broadcast t_transpose t_slice t_pad t_dilate t_shape t_at]; cbn zeta;
    rewrite ?S0; (split; [reflexivity|]); intros i; rewrite ?A0, ?A1; auto.
  - f_equal. apply map_ext. exact A0.
Qed.
Lemma den_node_shape ts ts' nd :
  (forall a, In a (n_in nd) -> t_shape (nth a ts dummy_tensor) = t_shape (nth a ts' dummy_tensor)) ->
  t_shape (den_node RA ts nd) = t_shape (den_node RA ts' nd).
Proof.
  intros H. assert (HT : t_shape (tin RA ts nd 0) = t_shape (tin RA ts' nd 0)).
  { unfold tin. destruct (nth_error (n_in nd) 0) eqn:E; [apply H; eapply nth_error_In; eauto|auto]. }
  unfold den_node. destruct (n_op nd); cbn [t_data t_map t_map2 t_sum t_reshape t_broadcast t_transpose t_slice t_pad t_dilate t_shape]; cbn zeta; now rewrite ?HT.
Qed.

Lemma dep_dec g x : (forall n nd, nth_error g n = Some nd -> Forall (fun a => (a < n)%nat) (n_in nd)) ->
  forall n, {depends g n x} + {~ depends g n x}.
Proof.
  intros Hlt n. induction n as [n IH] using lt_wf_rec. destruct (Nat.eq_dec n x) as [->|Hx]; [left; constructor|].
  destruct (nth_error g n) as [nd|] eqn:Hn; [|right; intros H; inversion H; congruence].
  pose proof (Hlt _ _ Hn) as HF.
  assert (HD : {a | In a (n_in nd) /\ depends g a x} + {forall a, In a (n_in nd) -> ~ depends g a x}).
  { clear Hn. induction (n_in nd) as [|a l IHl]; [right; intros a []|].
    destruct (IH a (Forall_inv HF)) as [Ha|Ha]; [left; exists a; split; [now left|assumption]|].
    destruct (IHl (Forall_inv_tail HF)) as [[b [Hb1 Hb2]]|Hb]; [left; exists b; split; [now right|assumption]|].
    right. intros b [<-|Hb']; auto. }
  destruct HD as [[a [H1 H2]]|H]; [left; eapply dep_step; eauto|].
  right. intros HD. inversion HD as [|? nd' a ? E Ha Hd]; subst; [congruence|]. rewrite Hn in E. injection E as <-. eapply H; eauto.
Qed.

Section Tan.
Context (g : graph) (Hr : reach g) (x y : nat) (Hvx : valid g x) (Hvy : valid g y) (e : list Z -> R) (Hsm : smooth g y x).
Let Hw : wf_graph g := reach_wf _ Hr.
Definition Fx (t : R) (n : nat) : tensor R := den_with x (moved g x e t) g n.
Definition Tx (n : nat) (idx : list Z) : R := rdiff (fun t => t_at (Fx t n) idx).
Definition Vx (n : nat) (idx : list Z) : R := rv (t_at (den RA g n) idx).

Lemma in_lt n nd a : nth_error g n = Some nd -> In a (n_in nd) -> (a < n)%nat.
Proof. intros Hn Ha. pose proof (reach_inputs_lt _ Hr _ _ Hn) as H. rewrite Forall_forall in H. auto. Qed.
Lemma F_eq t n nd : nth_error g n = Some nd -> n <> x -> Fx t n = den_node RA (dens_with x (moved g x e t) g) nd.
Proof.
  intros Hn Hne. unfold Fx. rewrite (dw_eq _ _ _ _ _ Hn (reach_inputs_lt _ Hr _ _ Hn)). destruct (Nat.eqb_spec n x); [contradiction|reflexivity].
Qed.
Lemma F_x t : Fx t x = moved g x e t.
Proof.
  destruct (valid_node _ _ Hvx) as [nd Hn]. unfold Fx. rewrite (dw_eq _ _ _ _ _ Hn (reach_inputs_lt _ Hr _ _ Hn)). now rewrite Nat.eqb_refl.
Qed.
Lemma F_shape t : forall n, valid g n -> t_shape (Fx t n) = shape_of g n.
Proof.
  intros n. induction n as [n IH] using lt_wf_ind. intros Hv. destruct (valid_node _ _ Hv) as [nd Hn].
  assert (HD : t_shape (den RA g n) = shape_of g n) by (rewrite (sf_den _ _ _ _ (wf_shape_facts RA _ _ _ Hw Hn)); symmetry; now apply shape_node).
  destruct (Nat.eq_dec n x) as [->|Hne]; [rewrite F_x; exact HD|].
  rewrite (F_eq t n nd Hn Hne). rewrite <- HD, (den_wf_eq RA g n nd Hw Hn). apply den_node_shape. intros a Ha.
  pose proof (in_lt _ _ _ Hn Ha) as Hlt. assert (Va : valid g a) by (unfold valid in *; lia).
  change (t_shape (Fx t a) = t_shape (den RA g a)). rewrite IH by assumption. destruct (valid_node _ _ Va) as [na Hna].
  rewrite (sf_den _ _ _ _ (wf_shape_facts RA _ _ _ Hw Hna)). now apply shape_node.
Qed.
Lemma den_shape n : valid g n -> t_shape (den RA g n) = shape_of g n.
Proof. intros Hv. destruct (valid_node _ _ Hv) as [nd Hn]. rewrite (sf_den _ _ _ _ (wf_shape_facts RA _ _ _ Hw Hn)). symmetry. now apply shape_node. Qed.
Lemma F_indep t : forall n, valid g n -> ~ depends g n x -> forall i, t_at (Fx t n) i = t_at (den RA g n) i.
Proof.
  intros n. induction n as [n IH] using lt_wf_ind. intros Hv Hd. destruct (valid_node _ _ Hv) as [nd Hn].
  assert (Hne : n <> x) by (intros ->; apply Hd; constructor).
  rewrite (F_eq t n nd Hn Hne), (den_wf_eq RA g n nd Hw Hn). apply den_node_pt. intros a Ha.
  pose proof (in_lt _ _ _ Hn Ha) as Hlt. assert (Va : valid g a) by (unfold valid in *; lia).
  change (t_shape (Fx t a) = t_shape (den RA g a) /\ forall i, t_at (Fx t a) i = t_at (den RA g a) i).
  split; [rewrite F_shape, den_shape by assumption; reflexivity|]. apply IH; auto. intros H. apply Hd. eapply dep_step; eauto.
Qed.
Lemma F_zero : forall n, valid g n -> forall i, t_at (Fx 0 n) i = t_at (den RA g n) i.
Proof.
  intros n. induction n as [n IH] using lt_wf_ind. intros Hv. destruct (valid_node _ _ Hv) as [nd Hn].
  destruct (Nat.eq_dec n x) as [->|Hne].
  { intros i. rewrite F_x. assert (H : forall r : res R, (v <- r ;; Ok (v + 0 * e i)) = r) by (intros [v| |]; cbn; auto; f_equal; ring). apply H. }
  rewrite (F_eq 0 n nd Hn Hne), (den_wf_eq RA g n nd Hw Hn). apply den_node_pt. intros a Ha.
  pose proof (in_lt _ _ _ Hn Ha) as Hlt. assert (Va : valid g a) by (unfold valid in *; lia).
  change (t_shape (Fx 0 a) = t_shape (den RA g a) /\ forall i, t_at (Fx 0 a) i = t_at (den RA g a) i).
  split; [rewrite F_shape, den_shape by assumption; reflexivity|]. apply IH; auto.
Qed.

Lemma V_ok n idx : depends g y n -> in_range (shape_of g n) idx -> t_at (den RA g n) idx = Ok (Vx n idx).
Proof. intros Hd Hi. destruct (sm_defined _ _ _ Hsm n idx Hd Hi) as [v E]. unfold Vx. now rewrite E. Qed.
Lemma F_rv0 n idx : valid g n -> rv (t_at (Fx 0 n) idx) = Vx n idx.
Proof. intros Hv. now rewrite F_zero. Qed.

(* partial derivatives of the element operations *)
Definition d_un (u : uop) (v : R) : R :=
  match u with UNeg => -1 | USin => cos v | UCos => - sin v | UExp => exp v | ULog => / v | USqrt => / (2 * sqrt v) end.
Definition d_pow0 (u w : R) : R := match r_int w with Some z => IZR z * powerRZ u (z - 1) | None => w * Rpower u (w - 1) end.
Definition d_bin0 (b : bop) (u w : R) : R :=
  match b with BAdd | BSub => 1 | BMul => w | BTruediv => / w | BPow => d_pow0 u w | _ => 0 end.
Definition d_bin1 (b : bop) (u w : R) : R :=
  match b with BAdd => 1 | BSub => -1 | BMul => u | BTruediv => - u / (w * w) | BPow => Rpower u w * ln u | _ => 0 end.
Lemma d_pow0_pos u w : 0 < u -> d_pow0 u w = w * Rpower u (w - 1).
Proof.
  intros H. unfold d_pow0. destruct (r_int w) as [z|] eqn:E; [|reflexivity]. apply r_int_some in E. subst w. f_equal.
  rewrite powerRZ_Rpower by assumption. f_equal. now rewrite minus_IZR.
Qed.

(* the equation of the tangent of an operation's result *)
Definition Tform (nd : node) (idx : list Z) : R :=
  match n_op nd, n_in nd with
  | OUn u, a :: _ => d_un u (Vx a idx) * Tx a idx
  | OBin b, a :: c :: _ => d_bin0 b (Vx a idx) (Vx c idx) * Tx a idx + d_bin1 b (Vx a idx) (Vx c idx) * Tx c idx
  | op, a :: _ => rsum (srcs op (shape_of g a) idx) (Tx a)
  | _, [] => 0
  end.

Lemma dOk_indep n idx : depends g y n -> in_range (shape_of g n) idx -> valid g n -> ~ depends g n x -> dOk (fun t => t_at (Fx t n) idx) 0.
Proof. intros Hd Hi Hv Hn. apply dOk_const with (Vx n idx). intros t. rewrite F_indep by assumption. now apply V_ok. Qed.
Lemma T_indep n idx : depends g y n -> in_range (shape_of g n) idx -> valid g n -> ~ depends g n x -> Tx n idx = 0.
Proof. intros. apply dOk_rdiff. now apply dOk_indep. Qed.
Lemma dep_valid n : depends g y n -> valid g n.
Proof. now apply depends_valid. Qed.
Lemma dep_in n nd a : depends g y n -> nth_error g n = Some nd -> In a (n_in nd) -> depends g y a.
Proof. intros Hd Hn Ha. eapply depends_trans; [exact Hd|]. eapply dep_step; eauto. constructor. Qed.
Lemma tin_F t nd k a : nth_error (n_in nd) k = Some a -> tin RA (dens_with x (moved g x e t) g) nd k = Fx t a.
Proof. intros H. unfold tin. rewrite H. reflexivity. Qed.

Lemma op_shape n nd : nth_error g n = Some nd -> n_in nd <> [] -> exists a, nth_error (n_in nd) 0 = Some a /\ valid g a /\
  (is_lin (n_op nd) = true -> shape_of g n = out_shape (n_op nd) (shape_of g a) /\ lin_ok (n_op nd) (shape_of g a) /\ n_in nd = [a]) /\
  (forall u, n_op nd = OUn u -> shape_of g n = shape_of g a /\ n_in nd = [a]) /\
  (forall b, n_op nd = OBin b -> exists c, n_in nd = [a; c] /\ shape_of g n = shape_of g a /\ shape_of g c = shape_of g a) /\
  is_const (n_op nd) = false.
Proof.
  intros Hn Hne.
  assert (Hc : is_const (n_op nd) = false).
  { destruct (is_const (n_op nd)) eqn:E; [|reflexivity]. pose proof (Hw _ _ Hn) as Hw'. unfold wf_node in Hw'.
    destruct (n_op nd); try discriminate. destruct Hw' as (Hw' & _). congruence. }
  destruct (op_node g n nd Hr Hn Hc) as (a & xa & Ha & Hlt & Hxa & Hf & Hok). exists a. split; [assumption|].
  assert (Hva : valid g a) by (apply nth_error_Some; congruence). assert (Hvn : valid g n) by (apply nth_error_Some; congruence).
  pose proof (den_shape a Hva) as Sa. pose proof (den_shape n Hvn) as Sn. pose proof (shape_node _ _ _ Hxa) as Sx.
  split; [assumption|]. split; [|split; [|split; [|assumption]]].
  - intros HL. assert (HN : nonneg (n_shape xa)) by (rewrite <- Sx; now apply shape_nonneg).
    destruct (arg_lin _ _ _ _ _ HL HN Hok) as (H1 & H2). split; [|split; [now rewrite Sx|now apply one_input]].
    rewrite <- Sn, (den_wf_eq RA g n nd Hw Hn). rewrite (lin_shape _ _ HL). rewrite (tin_den RA g nd 0 a Ha), Sa. reflexivity.
  - intros u H. split; [|rewrite H in Hok; now apply one_input].
    rewrite <- Sn, (den_wf_eq RA g n nd Hw Hn). unfold den_node. rewrite H. cbn [t_map t_shape]. now rewrite (tin_den RA g nd 0 a Ha), Sa.
  - intros b Hb. rewrite Hb in Hok. destruct Hok as (c & yc & Hcc & Hl & _ & Hyc & Hs). exists c. split; [now apply two_inputs|].
    split; [|rewrite (shape_node _ _ _ Hyc), Sx; exact Hs].
    rewrite <- Sn, (den_wf_eq RA g n nd Hw Hn). unfold den_node. rewrite Hb. cbn [t_map2 t_shape]. now rewrite (tin_den RA g nd 0 a Ha), Sa.
Qed.

Lemma un_defined u v w : r_un u v = Some w -> (u = ULog -> 0 < v).
Proof. intros H ->. cbn in H. destruct (Rlt_dec 0 v); [assumption|discriminate]. Qed.

Lemma node_tangent n nd : depends g y n -> nth_error g n = Some nd -> n_in nd <> [] -> n <> x -> depends g n x ->
  (forall a, In a (n_in nd) -> forall idx, in_range (shape_of g a) idx -> dOk (fun t => t_at (Fx t a) idx) (Tx a idx)) ->
  forall idx, in_range (shape_of g n) idx -> dOk (fun t => t_at (Fx t n) idx) (Tform nd idx).
Proof.
  intros Hd Hn Hne Hnx Hdx IH idx Hi. destruct (op_shape n nd Hn Hne) as (a & Ha & Hva & HL & HU & HB & Hc).
  assert (Hin : In a (n_in nd)) by (eapply nth_error_In; eauto). pose proof (dep_in n nd a Hd Hn Hin) as Hda.
  assert (Heq : forall t, t_at (den_node RA (dens_with x (moved g x e t) g) nd) idx = t_at (Fx t n) idx) by (intros t; now rewrite (F_eq t n nd Hn Hnx)).
  assert (Hval : t_at (den_node RA (dens RA g) nd) idx = Ok (Vx n idx)) by (rewrite <- (den_wf_eq RA g n nd Hw Hn); now apply V_ok).
  eapply dOk_ext; [exact Heq|]. unfold Tform. destruct (is_lin (n_op nd)) eqn:El.
  - destruct (HL eq_refl) as (So & Hok & Ein).
    assert (Hs : dOk (fun t => fold_res (fun p q => of_opt (r_bin BAdd p q)) 0 (map (fun j => t_at (Fx t a) j) (srcs (n_op nd) (shape_of g a) idx)))
               (rsum (srcs (n_op nd) (shape_of g a) idx) (Tx a))).
    { apply (dOk_sum (fun j t => t_at (Fx t a) j) (Tx a)). intros j Hj. apply IH; [assumption|]. eapply srcs_in; eauto. now rewrite <- So. }
    assert (Hs' : dOk (fun t => t_at (den_node RA (dens_with x (moved g x e t) g) nd) idx) (rsum (srcs (n_op nd) (shape_of g a) idx) (Tx a))).
    { eapply dOk_ext; [|exact Hs]. intros t. cbn beta. rewrite (lin_at _ _ _ El), (tin_F t nd 0 a Ha), F_shape by assumption. reflexivity. }
    rewrite Ein. clear - Hs' El. destruct (n_op nd); try discriminate; exact Hs'.
  - destruct (n_op nd) as [vals|u|b|ax kd|tt|tt|axes|subs| |dd bf af|dd st] eqn:Eop; try discriminate.
    + (* unary *)
      destruct (HU u eq_refl) as (Hs & Ein). rewrite Ein in *. rewrite Hs in Hi.
      specialize (IH a ltac:(now left) idx Hi).
      assert (HE : forall t, (v <- t_at (Fx t a) idx ;; of_opt (r_un u v)) = t_at (den_node RA (dens_with x (moved g x e t) g) nd) idx).
      { intros t. unfold den_node. rewrite Eop. cbn [t_map t_at]. rewrite (tin_F t nd 0 a) by (now rewrite Ein).
        unfold op1. cbn. destruct (t_at (Fx t a) idx); cbn; auto. destruct (r_un u a0); reflexivity. }
      eapply dOk_ext; [exact HE|]. pose proof (F_rv0 a idx Hva) as E0.
      assert (Hdef : exists w, r_un u (Vx a idx) = Some w).
      { unfold den_node in Hval. rewrite Eop in Hval. cbn [t_map t_at] in Hval. rewrite (tin_den RA g nd 0 a) in Hval by (now rewrite Ein).
        rewrite (V_ok a idx Hda Hi) in Hval. cbn in Hval. unfold op1 in Hval. cbn in Hval. destruct (r_un u (Vx a idx)); [eauto|discriminate]. }
      destruct Hdef as (w & Hw').
      destruct u; cbn [d_un].
      * eapply dOk_eq; [apply dOk_neg; exact IH|ring].
      * rewrite <- E0. now apply dOk_sin.
      * rewrite <- E0. now apply dOk_cos.
      * rewrite <- E0. now apply dOk_exp.
      * rewrite <- E0. apply dOk_log; [assumption|]. rewrite E0. eapply un_defined; eauto.
      * rewrite <- E0. apply dOk_sqrt; [assumption|]. rewrite E0.
        eapply (sm_sqrt _ _ _ Hsm n nd a idx); eauto; [rewrite Ein; reflexivity| |now apply V_ok].
        inversion Hdx as [|? nd' a' ? E Ha' Hd']; subst; [congruence|]. rewrite Hn in E. injection E as <-. rewrite Ein in Ha'. destruct Ha' as [<-|[]]. assumption.
    + (* binary *)
      destruct (HB b eq_refl) as (c & Ein & Hs & Hsc). rewrite Ein in *. rewrite Hs in Hi.
      assert (Hdc : depends g y c) by (apply (dep_in n nd c Hd Hn); rewrite Ein; right; now left). pose proof (dep_valid c Hdc) as Hvc.
      pose proof (IH a ltac:(now left) idx Hi) as DA. pose proof (IH c ltac:(right; now left) idx ltac:(now rewrite Hsc)) as DC.
      assert (HE : forall t, rb b (t_at (Fx t a) idx) (t_at (Fx t c) idx) = t_at (den_node RA (dens_with x (moved g x e t) g) nd) idx).
      { intros t. unfold den_node. rewrite Eop. cbn [t_map2 t_at]. rewrite (tin_F t nd 0 a), (tin_F t nd 1 c) by (now rewrite Ein).
        unfold op2, rb. cbn. destruct (t_at (Fx t a) idx); cbn; auto. destruct (t_at (Fx t c) idx); cbn; auto. destruct (r_bin b _ _); reflexivity. }
      eapply dOk_ext; [exact HE|]. pose proof (F_rv0 a idx Hva) as E0. pose proof (F_rv0 c idx Hvc) as E1.
      assert (Vc : t_at (den RA g c) idx = Ok (Vx c idx)) by (apply V_ok; [assumption|now rewrite Hsc]).
      assert (Hdef : exists w, r_bin b (Vx a idx) (Vx c idx) = Some w).
      { unfold den_node in Hval. rewrite Eop in Hval. cbn [t_map2 t_at] in Hval. rewrite (tin_den RA g nd 0 a), (tin_den RA g nd 1 c) in Hval by (now rewrite Ein).
        rewrite (V_ok a idx Hda Hi), Vc in Hval. cbn in Hval. unfold op2 in Hval. cbn in Hval. destruct (r_bin b (Vx a idx) (Vx c idx)); [eauto|discriminate]. }
      destruct Hdef as (w & Hw').
      destruct b; try discriminate; cbn [d_bin0 d_bin1].
      * eapply dOk_eq; [apply dOk_add; eassumption|ring].
      * eapply dOk_eq; [apply dOk_sub; eassumption|ring].
      * eapply dOk_eq; [apply dOk_mul; eassumption|]. cbn beta; rewrite E0, E1. ring.
      * cbn in Hw'. destruct (Req_EM_T (Vx c idx) 0) as [|Hnz]; [discriminate|].
        eapply dOk_eq; [apply dOk_div; [eassumption|eassumption|cbn beta; now rewrite E1]|]. cbn beta; rewrite E0, E1. unfold Rsqr. field. assumption.
      * assert (Hor : depends g a x \/ depends g c x).
        { inversion Hdx as [|? nd' a' ? E Ha' Hd']; subst; [congruence|]. rewrite Hn in E. injection E as <-. rewrite Ein in Ha'. destruct Ha' as [<-|[<-|[]]]; auto. }
        destruct (sm_pow _ _ _ Hsm n nd a c idx (Vx a idx) (Vx c idx) Hd Hn Eop) as [Hpos|(Hnc & z & Hz & Hcase)]; auto; try (rewrite Ein; reflexivity).
        -- now apply V_ok.
        -- eapply dOk_eq; [apply dOk_pow_pos; [exact DA|exact DC|cbn beta; now rewrite E0]|]. cbn zeta. cbn beta; rewrite E0, E1, d_pow0_pos by assumption. ring.
        -- assert (T0 : Tx c idx = 0) by (apply T_indep; auto; now rewrite Hsc). rewrite T0. unfold d_pow0. rewrite Hz, r_int_IZR.
           eapply dOk_eq; [apply (dOk_pow_int (fun t => t_at (Fx t a) idx) (fun t => t_at (Fx t c) idx) z); [exact DA| |cbn beta; now rewrite E0]|].
           ++ intros t. rewrite F_indep by assumption. rewrite Vc, Hz. reflexivity.
           ++ cbn beta; rewrite E0. ring.
Qed.

Lemma x_tangent idx : depends g y x -> in_range (shape_of g x) idx -> dOk (fun t => t_at (Fx t x) idx) (e idx).
Proof.
  intros Hd Hi. exists (fun t => Vx x idx + t * e idx). split.
  - apply filter_forall. intros t. rewrite F_x. assert (H : forall (r : res R) v, r = Ok v -> (w <- r ;; Ok (w + t * e idx)) = Ok (v + t * e idx)) by (intros r v ->; reflexivity).
    exact (H _ _ (V_ok x idx Hd Hi)).
  - auto_derive; [trivial|ring].
Qed.

Theorem tangents : forall n, depends g y n -> forall idx, in_range (shape_of g n) idx -> dOk (fun t => t_at (Fx t n) idx) (Tx n idx).
Proof.
  intros n. induction n as [n IH] using lt_wf_ind. intros Hd idx Hi. pose proof (dep_valid n Hd) as Hv.
  enough (H : exists l, dOk (fun t => t_at (Fx t n) idx) l) by (destruct H as (l & H); unfold Tx; now rewrite (dOk_rdiff _ _ H)).
  destruct (dep_dec g x (reach_inputs_lt _ Hr) n) as [Hdx|Hdx]; [|exists 0; now apply dOk_indep].
  destruct (Nat.eq_dec n x) as [->|Hne]; [exists (e idx); now apply x_tangent|].
  destruct (valid_node _ _ Hv) as [nd Hn]. exists (Tform nd idx).
  assert (Hin : n_in nd <> []). { inversion Hdx as [|? nd' a' ? E Ha' Hd']; subst; [congruence|]. rewrite Hn in E. injection E as <-. intros E. rewrite E in Ha'. destruct Ha'. }
  eapply node_tangent; eauto. intros a Ha j Hj. apply IH; auto; [eapply in_lt; eauto|eapply dep_in; eauto].
Qed.
Lemma T_x idx : depends g y x -> in_range (shape_of g x) idx -> Tx x idx = e idx.
Proof. intros Hd Hi. apply dOk_rdiff. now apply x_tangent. Qed.
Lemma T_op n nd : depends g y n -> nth_error g n = Some nd -> n_in nd <> [] -> n <> x -> depends g n x ->
  forall idx, in_range (shape_of g n) idx -> Tx n idx = Tform nd idx.
Proof.
  intros Hd Hn Hne Hnx Hdx idx Hi. apply dOk_rdiff. eapply node_tangent; eauto. intros a Ha j Hj. apply tangents; auto. eapply dep_in; eauto.
Qed.
End Tan.
