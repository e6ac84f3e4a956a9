(* Property C49: the numbers a user reads are the exact results of the expression up to rounding.
   Specification: ErrSpec.v (ebound, shows_py, shows_c, exactly, libm_within), RealAlg.v (RA, real arithmetic),
   IEEE.v (fr = the real number of a double, rnd = rounding to the nearest double, ties to even). *)
From Coq Require Import Reals Lra ZArith Floats.SpecFloat.
From Coquelicot Require Import Rcomplements.
From Flocq Require Import Core IEEE754.BinarySingleNaN.
From Verif Require Import Base BaseFacts Util Lang Spec Graph Api Denote DenoteFacts ArrayLit Reach ApiFacts Tolist LangInst Kernel Backends Prog AlgoSem CacheKey Runtime RuntimeFacts RuntimeFacts2
  History HistFacts RtInst CacheFacts Frame HistTools Tidy TidyTools Safety RuntimeTop AlgoTop Agree PropLang RealAlg IEEE ErrSpec ErrFacts.
Local Open Scope R_scope.

(* ---------------------------------------------------------------- whole expressions *)
Lemma bounds_read (A : valg) (P : approx -> val A -> Prop) c k g a le l : reach g -> valid g a ->
  (forall nd, node_agrees (ebound c k) A P g nd) ->
  t_tolist (den (ebound c k) g a) = Ok le -> t_tolist (den A g a) = Ok l ->
  exists lr, t_tolist (den RA g a) = Ok lr /\ nest_rel exactly le lr /\ nest_rel P le l.
Proof.
  intros Hr Ha HA He Hl. destruct (valid_nth _ _ Ha) as [nd Hn]. pose proof (reach_wf _ Hr) as Hw.
  destruct (tolist_rel (ebound c k) RA exactly g a nd le Hw Hn) as (lr & R1 & R2); [intros; apply agrees_exact|exact He|].
  destruct (tolist_rel (ebound c k) A P g a nd le Hw Hn) as (l' & L1 & L2); [intros; apply HA|exact He|].
  assert (Hq : Ok l' = Ok l) by exact (eq_trans (eq_sym L1) Hl). injection Hq as ->. eauto.
Qed.
(* Python.  Where the bounds are defined (le), the list read is, element by element: the exact integer, or a finite
   double within the computed bound of the exact real result (lr). *)
Theorem C49_python : forall lm k C s a b s' le, let B := py_backend lm in libm_within lm k -> key_safe C -> hist B C s -> valid (r_graph B s) a ->
  view_of (r_graph B s) true a b -> computed (r_graph B s) b -> (forall d, kernel_of (r_graph B s) a d -> C d) ->
  materialize B s a = (s', Done tt) -> t_tolist (den (ebound false k) (r_graph B s) a) = Ok le ->
  exists l lr, tolist (r_graph B s') (r_cpu B s') a = Done l /\ t_tolist (den RA (r_graph B s) a) = Ok lr /\
    nest_rel exactly le lr /\ nest_rel shows_py le l.
Proof.
  intros lm k C s a b s' le B HL HC Hs Ha Hv Hc Hk HM He.
  destruct (value_correct_python lm C s a b s' HC Hs Ha Hv Hc Hk HM) as (l & L1 & L2).
  pose proof (i_reach _ _ _ (hist_inv B (py_backend_ok lm) C HC s Hs)) as Hr.
  destruct (bounds_read (py_alg lm) shows_py false k (r_graph B s) a le l Hr Ha) as (lr & R1 & R2 & R3); auto; [intros; now apply agrees_py|].
  exists l, lr. auto.
Qed.
Print Assumptions C49_python.
(* the same for processes whose kernels are all tidy (C11: such kernels never collide in the cache) *)
Theorem C49_tidy_python : forall lm k s a b s' le, let B := py_backend lm in libm_within lm k -> hist B (tidy_kernel false) s -> valid (r_graph B s) a ->
  view_of (r_graph B s) true a b -> computed (r_graph B s) b -> (forall d, kernel_of (r_graph B s) a d -> tidy_kernel false d) ->
  materialize B s a = (s', Done tt) -> t_tolist (den (ebound false k) (r_graph B s) a) = Ok le ->
  exists l lr, tolist (r_graph B s') (r_cpu B s') a = Done l /\ t_tolist (den RA (r_graph B s) a) = Ok lr /\
    nest_rel exactly le lr /\ nest_rel shows_py le l.
Proof. intros lm k s a b s' le B HL. apply (C49_python lm k (tidy_kernel false) s a b s' le HL (tidy_safe false)). Qed.
Print Assumptions C49_tidy_python.
(* and if the bounds are defined for all the intermediate results, reading succeeds *)
Theorem C49_python_succeeds : forall lm k C s a b, let B := py_backend lm in libm_within lm k -> key_safe C -> hist B C s -> valid (r_graph B s) a ->
  base (r_graph B s) a = Some b -> (forall d, kernel_of (r_graph B s) a d -> C d) ->
  no_scalar_reshape (r_graph B s) b -> (forall n, cone (r_graph B s) b n -> ~ refused B (r_graph B s) n) ->
  (forall n idx, cone (r_graph B s) b n -> in_range (shape_of (r_graph B s) n) idx -> exists v, t_at (den (ebound false k) (r_graph B s) n) idx = Ok v) ->
  exists s', materialize B s a = (s', Done tt).
Proof.
  intros lm k C s a b B HL HC Hs Ha Hb Hk HS HR HE. pose proof (i_reach _ _ _ (hist_inv B (py_backend_ok lm) C HC s Hs)) as Hr.
  apply (materialize_succeeds B C s a b (or_introl (ex_intro _ lm eq_refl)) HC Hs Ha Hb (py_mat_ok lm _ b) Hk HS HR). intros n idx Hc Hi Hf.
  destruct (HE n idx Hc Hi) as (v & Hv). destruct (nth_error (r_graph B s) n) as [nd|] eqn:En.
  - unfold shape_of in Hi. rewrite En in Hi.
    destruct (den_rel (ebound false k) (py_alg lm) shows_py (r_graph B s) n (reach_wf _ Hr) (fun m nd _ _ => agrees_py lm k _ nd HL) n nd idx v (cone_self _ _) En Hi Hv) as (w & W & _).
    assert (Hq : Ok w = Raise) by exact (eq_trans (eq_sym W) Hf). discriminate.
  - apply nth_error_None in En. unfold den in Hv. rewrite nth_overflow in Hv by (rewrite dens_length; exact En). discriminate.
Qed.
Print Assumptions C49_python_succeeds.

(* C: the same, with the restrictions of C01 (sizes below 2^31, one dtype per expression) *)
Theorem C49_c_partial : forall lm k C s a b s' le, let B := c_backend lm in libm_within lm k -> key_safe C -> hist B C s -> valid (r_graph B s) a ->
  view_of (r_graph B s) true a b -> computed (r_graph B s) b -> mat_ok (c_lang lm) (r_graph B s) b -> (forall d, kernel_of (r_graph B s) a d -> C d) ->
  materialize B s a = (s', Done tt) -> t_tolist (den (ebound true k) (r_graph B s) a) = Ok le ->
  exists l lr, tolist (r_graph B s') (r_cpu B s') a = Done l /\ t_tolist (den RA (r_graph B s) a) = Ok lr /\
    nest_rel exactly le lr /\ nest_rel shows_c le l.
Proof.
  intros lm k C s a b s' le B HL HC Hs Ha Hv Hc Hm Hk HM He.
  destruct (value_correct B C s a b s' (or_intror (ex_intro _ lm eq_refl)) HC Hs Ha Hv Hc Hm Hk HM) as (l & L1 & L2).
  pose proof (i_reach _ _ _ (hist_inv B (c_backend_ok lm) C HC s Hs)) as Hr.
  destruct (bounds_read (c_alg lm) shows_c true k (r_graph B s) a le l Hr Ha) as (lr & R1 & R2 & R3); auto; [intros; now apply agrees_c|].
  exists l, lr. auto.
Qed.
Print Assumptions C49_c_partial.

(* ---------------------------------------------------------------- single operations *)
(* On finite doubles, + - * / and sqrt of both languages are the exact result rounded once to the nearest double
   (ties to even), unless that overflows; -x is exact. *)
Theorem C49_operation : forall lm u f r, fin f -> u = UNeg \/ u = USqrt -> r_un u (fr f) = Some r ->
  exists f', py_un lm u (PF f) = Some (PF f') /\ c_un lm u (CF f) = Some (CF f') /\ fin f' /\ fr f' = rnd r.
Proof.
  intros lm u f r F [->| ->] H; cbn in H.
  - injection H as <-. destruct (SFopp_ok f F) as (F' & E). exists (SFopp f). repeat split; auto; try apply F'.
    rewrite E. symmetry. apply round_generic; [apply valid_rnd_N|]. apply generic_format_opp. now apply fin_format.
  - destruct (Rle_dec 0 (fr f)) as [Hp|]; [|discriminate]. injection H as <-. destruct (f64_sqrt_ok f F) as (F' & E); [lra|]. exists (f64_sqrt f).
    cbn. rewrite (fr_neg f F) by assumption. cbn. repeat split; auto; apply F'.
Qed.
Print Assumptions C49_operation.
Theorem C49_binary_operation : forall lm b f g r, fin f -> fin g -> In b [BAdd; BSub; BMul; BTruediv] -> r_bin b (fr f) (fr g) = Some r -> Rabs r <= maxf ->
  exists h, py_bin lm b (PF f) (PF g) = Some (PF h) /\ c_bin lm b (CF f) (CF g) = Some (CF h) /\ fin h /\ fr h = rnd r.
Proof.
  intros lm b f g r F G Hb H Hm. apply rnd_top in Hm. destruct Hb as [<-|[<-|[<-|[<-|[]]]]]; cbn in H.
  - injection H as <-. destruct (f64_add_ok f g F G Hm) as (F' & E). exists (f64_add f g). repeat split; auto; apply F'.
  - injection H as <-. destruct (f64_sub_ok f g F G Hm) as (F' & E). exists (f64_sub f g). repeat split; auto; apply F'.
  - injection H as <-. destruct (f64_mul_ok f g F G Hm) as (F' & E). exists (f64_mul f g). repeat split; auto; apply F'.
  - destruct (Req_EM_T (fr g) 0) as [|Hg]; [discriminate|]. injection H as <-. destruct (f64_div_ok f g F G Hg Hm) as (F' & E). exists (f64_div f g).
    cbn. destruct (f64_zero g) eqn:Z; [apply fr_zero in Z; auto; contradiction|]. repeat split; auto; apply F'.
Qed.
Print Assumptions C49_binary_operation.

(* ---------------------------------------------------------------- integers *)
(* integer arithmetic: no bound, no rounding *)
Definition z_num (n : num) : Z := match n with NInt z => z | NFlt _ _ => 0%Z end.
Definition z_un (u : uop) (x : Z) : option Z := match u with UNeg => Some (- x)%Z | _ => None end.
Definition z_bin (b : bop) (x y : Z) : option Z := match b with BAdd => Some (x + y)%Z | BSub => Some (x - y)%Z | BMul => Some (x * y)%Z | _ => None end.
Definition ZA : valg := mkValg Z z_num z_un z_bin (fun _ v => v).
(* integer constants, +, -, *, -x, sum, pad, dilate and views *)
Definition int_expr (nd : node) : Prop :=
  match n_op nd with
  | OConst vals => Forall (fun v => exists z, v = NInt z) vals
  | OUn u => u = UNeg
  | OBin b => b = BAdd \/ b = BSub \/ b = BMul
  | _ => True
  end.
Lemma za_py_bin lm dt b x y v w : In b [BAdd; BSub; BMul] -> op2 (py_alg lm) dt b (PI x) (PI y) = Ok v -> z_bin b x y = Some w -> v = PI w.
Proof. unfold op2. intros [<-|[<-|[<-|[]]]]; cbn; intros E H; injection E as <-; injection H as <-; reflexivity. Qed.
Lemma za_py lm g nd : int_expr nd -> node_agrees (py_alg lm) ZA (fun w z => w = PI z) g nd.
Proof.
  unfold int_expr, node_agrees. destruct (n_op nd); cbn; auto; intros Hop.
  - eapply Forall_impl; [|exact Hop]. intros v (z & ->). reflexivity.
  - subst u. intros x y v -> H. cbn in H. injection H as <-. exists (- y)%Z. split; reflexivity.
  - intros x y x' y' v -> -> H.
    destruct Hop as [->|[->| ->]]; (cbn in H; injection H as <-; eexists; split; reflexivity).
  - split; [|split; [|now left]].
    + intros x y x' y' v -> -> H. cbn in H. injection H as <-. eexists; split; reflexivity.
    + intros x y v -> H. cbn in H. injection H as <-. eexists; split; reflexivity.
Qed.
Lemma za_c lm g nd : int_node nd -> node_agrees (c_alg lm) ZA (fun w z => w = CI64 z) g nd.
Proof.
  intros [Hd Hop]. unfold node_agrees. rewrite Hd. destruct (n_op nd); auto; try reflexivity.
  - eapply Forall_impl; [|exact Hop]. intros [z|m e] H; [|contradiction]. cbn [is_i64] in H. cbn -[wrap64 Z.pow c_fits].
    destruct (c_fits false z); rewrite wrap64_small by lia; reflexivity.
  - subst u. intros x y v -> H. exists (- y)%Z. split; [reflexivity|]. unfold op1 in H. cbn [c_alg un coerce c_un] in H. now apply c_int64_ok in H.
  - intros x y x' y' v -> -> H. unfold op2 in H. destruct Hop as [->|[->| ->]]; cbn [c_alg bin coerce c_bin c_ints] in H; apply c_int64_ok in H; subst v; eexists; split; reflexivity.
  - split; [|split; [|left; reflexivity]].
    + intros x y x' y' v -> -> H. unfold op2 in H. cbn [c_alg bin coerce c_bin c_ints] in H; apply c_int64_ok in H; subst v; eexists; split; reflexivity.
    + intros x y v -> H. change (zero_of (c_alg lm) Int64) with (CI64 0) in H. unfold op2 in H. cbn [c_alg bin coerce c_bin c_ints] in H; apply c_int64_ok in H; subst v; eexists; split; reflexivity.
Qed.
(* Python: integer expressions are exact, however large *)
Theorem C49_integers_python : forall lm C s a b s', let B := py_backend lm in key_safe C -> hist B C s -> valid (r_graph B s) a ->
  view_of (r_graph B s) true a b -> computed (r_graph B s) b -> (forall d, kernel_of (r_graph B s) a d -> C d) ->
  (forall n nd, cone (r_graph B s) a n -> nth_error (r_graph B s) n = Some nd -> int_expr nd) ->
  materialize B s a = (s', Done tt) ->
  exists l lz, tolist (r_graph B s') (r_cpu B s') a = Done l /\ t_tolist (den ZA (r_graph B s) a) = Ok lz /\ nest_rel (fun w z => w = PI z) l lz.
Proof.
  intros lm C s a b s' B HC Hs Ha Hv Hc Hk HI HM. destruct (value_correct_python lm C s a b s' HC Hs Ha Hv Hc Hk HM) as (l & L1 & L2).
  pose proof (i_reach _ _ _ (hist_inv B (py_backend_ok lm) C HC s Hs)) as Hr. destruct (valid_nth _ _ Ha) as [nd Hn].
  destruct (tolist_rel (py_alg lm) ZA (fun w z => w = PI z) (r_graph B s) a nd l (reach_wf _ Hr) Hn) as (lz & Z1 & Z2); [intros; apply za_py; eauto|exact L2|]. eauto.
Qed.
Print Assumptions C49_integers_python.
(* C: int64 expressions, whenever nothing overflows (an overflow is undefined behaviour: materialize is not Done) *)
Theorem C49_integers_c_partial : forall lm C s a b s', let B := c_backend lm in key_safe C -> hist B C s -> valid (r_graph B s) a ->
  view_of (r_graph B s) true a b -> computed (r_graph B s) b -> mat_ok (c_lang lm) (r_graph B s) b -> (forall d, kernel_of (r_graph B s) a d -> C d) ->
  (forall n nd, cone (r_graph B s) a n -> nth_error (r_graph B s) n = Some nd -> int_node nd) ->
  materialize B s a = (s', Done tt) ->
  exists l lz, tolist (r_graph B s') (r_cpu B s') a = Done l /\ t_tolist (den ZA (r_graph B s) a) = Ok lz /\ nest_rel (fun w z => w = CI64 z) l lz.
Proof.
  intros lm C s a b s' B HC Hs Ha Hv Hc Hm Hk HI HM. destruct (value_correct B C s a b s' (or_intror (ex_intro _ lm eq_refl)) HC Hs Ha Hv Hc Hm Hk HM) as (l & L1 & L2).
  pose proof (i_reach _ _ _ (hist_inv B (c_backend_ok lm) C HC s Hs)) as Hr. destruct (valid_nth _ _ Ha) as [nd Hn].
  destruct (tolist_rel (c_alg lm) ZA (fun w z => w = CI64 z) (r_graph B s) a nd l (reach_wf _ Hr) Hn) as (lz & Z1 & Z2); [intros; apply za_c; eauto|exact L2|]. eauto.
Qed.
Print Assumptions C49_integers_c_partial.

(* ---------------------------------------------------------------- sums *)
Definition rsum (fs : list sf) : R := fold_right (fun f t => fr f + t) 0 fs.
Definition rasum (fs : list sf) : R := fold_right (fun f t => Rabs (fr f) + t) 0 fs.
Lemma rasum_pos fs : 0 <= rasum fs.
Proof. unfold rasum. induction fs; cbn [fold_right]; [lra|]. pose proof (Rabs_pos (fr a)). lra. Qed.
Lemma pow_u_pos n : 1 <= (1 + uu) ^ n.
Proof. apply pow_R1_Rle. pose proof uu_pos. lra. Qed.
Lemma pow_u_S n : (1 + uu) ^ n <= (1 + uu) ^ S n.
Proof. rewrite <- tech_pow_Rmult. pose proof uu_pos. pose proof (pow_u_pos n). set (q := (1 + uu) ^ n) in *. clearbody q. nra. Qed.
Lemma pow_u_le n m : (n <= m)%nat -> (1 + uu) ^ n <= (1 + uu) ^ m.
Proof. induction 1; [lra|]. pose proof (pow_u_S m). lra. Qed.
(* a running sum *)
Lemma run_sum fs : forall f S T j, Forall fin fs -> fin f -> Rabs S <= T -> Rabs (fr f - S) <= ((1 + uu) ^ j - 1) * T ->
  (1 + uu) ^ (j + length fs) * (T + rasum fs) <= maxf ->
  let h := fold_left f64_add fs f in fin h /\ Rabs (fr h - (S + rsum fs)) <= ((1 + uu) ^ (j + length fs) - 1) * (T + rasum fs).
Proof.
  induction fs as [|x fs IH]; intros f S T j HF Hf HS He Hm.
  - cbn in *. rewrite Nat.add_0_r, !Rplus_0_r in *. auto.
  - apply Forall_cons_iff in HF as (Hx & HF). cbn [fold_left rsum rasum fold_right length] in *. fold (rasum fs) in *. fold (rsum fs) in *.
    replace (j + Datatypes.S (length fs))%nat with (Datatypes.S j + length fs)%nat in * by lia.
    pose proof (Rabs_pos (fr x)) as Px. pose proof (rasum_pos fs) as Pr. pose proof uu_pos as Pu. pose proof (pow_u_pos j) as P1. pose proof (Rabs_pos S) as PS.
    assert (HS' : Rabs (S + fr x) <= T + Rabs (fr x)) by (eapply Rle_trans; [apply Rabs_triang|]; lra).
    assert (HA : Rabs (fr f + fr x) <= (1 + uu) ^ j * (T + Rabs (fr x))).
    { replace (fr f + fr x) with ((S + fr x) + (fr f - S)) by ring. eapply Rle_trans; [apply Rabs_triang|]. nra. }
    assert (HM : Rabs (fr f + fr x) <= maxf).
    { eapply Rle_trans; [exact HA|]. eapply Rle_trans; [|exact Hm]. apply Rmult_le_compat; try lra. apply pow_u_le. lia. }
    destruct (f64_add_ok f x Hf Hx (rnd_top _ HM)) as (F' & E).
    assert (HE : Rabs (fr (f64_add f x) - (S + fr x)) <= ((1 + uu) ^ (Datatypes.S j) - 1) * (T + Rabs (fr x))).
    { rewrite E. replace (rnd (fr f + fr x) - (S + fr x)) with ((rnd (fr f + fr x) - (fr f + fr x)) + (fr f - S)) by ring. eapply Rle_trans; [apply Rabs_triang|].
      pose proof (rnd_plus_err (fr f) (fr x) (fin_format _ Hf) (fin_format _ Hx)) as HR. rewrite <- tech_pow_Rmult. set (q := (1 + uu) ^ j) in *. clearbody q. set (t := Rabs (fr x)) in *. clearbody t.
      set (a0 := Rabs (fr f + fr x)) in *. clearbody a0. nra. }
    destruct (IH (f64_add f x) (S + fr x) (T + Rabs (fr x)) (Datatypes.S j) HF F' HS' HE) as (H1 & H2).
    { now rewrite (Rplus_assoc T). }
    split; [exact H1|]. rewrite !(Rplus_assoc S), !(Rplus_assoc T) in H2. exact H2.
Qed.
Lemma add_zero f : fin f -> let h := f64_add (S754_zero false) f in fin h /\ fr h = fr f.
Proof.
  intros F. assert (Z : fin (S754_zero false)) by (split; reflexivity). assert (E : fr (S754_zero false) = 0) by reflexivity.
  assert (G : rnd (fr (S754_zero false) + fr f) = fr f) by (rewrite E, Rplus_0_l; apply round_generic; [apply valid_rnd_N|now apply fin_format]).
  assert (H : Rabs (rnd (fr (S754_zero false) + fr f)) < top).
  { rewrite G. destruct (fin_B f F) as (b & <- & Hb & <-). apply BinarySingleNaN.abs_B2R_lt_emax. }
  destruct (f64_add_ok _ _ Z F H) as (H1 & H2). split; [exact H1|]. now rewrite H2.
Qed.
Lemma py_fold lm dt fs : forall f xs, Forall2 (fun x g => x = Ok (PF g)) xs fs ->
  fold_res (op2 (py_alg lm) dt BAdd) (PF f) xs = Ok (PF (fold_left f64_add fs f)).
Proof. induction fs as [|x fs IH]; intros f xs H; inversion H; subst; [reflexivity|]. cbn [fold_res rbind]. apply IH. assumption. Qed.
Lemma c_fold lm dt fs : c_coerce dt (CF (S754_zero false)) = CF (S754_zero false) -> forall f xs, Forall2 (fun x g => x = Ok (CF g)) xs fs ->
  fold_res (op2 (c_alg lm) dt BAdd) (CF f) xs = Ok (CF (fold_left f64_add fs f)).
Proof.
  intros Hd. induction fs as [|x fs IH]; intros f xs H; inversion H; subst; [reflexivity|]. cbn [fold_res rbind].
  replace (op2 (c_alg lm) dt BAdd (CF f) (CF x)) with (Ok (CF (f64_add f x))) by (destruct dt; try discriminate; reflexivity). cbn [rbind]. apply IH. assumption.
Qed.
Lemma sum_node (A : valg) (inj : sf -> val A) g a nd b axis kd idx fs :
  (forall f fs xs, Forall2 (fun x f => x = Ok (inj f)) xs fs ->
     fold_res (op2 A (n_dtype nd) BAdd) (zero_of A (n_dtype nd)) (Ok (inj f) :: xs) = Ok (inj (fold_left f64_add fs (f64_add (S754_zero false) f)))) ->
  reach g -> nth_error g a = Some nd -> n_op nd = OSum axis kd -> n_in nd = [b] -> fs <> [] -> Forall fin fs ->
  Forall2 (fun p f => t_at (den A g b) p = Ok (inj f)) (sum_positions axis (shape_of g b) (if kd then drop_axes axis 0 idx else idx)) fs ->
  (1 + uu) ^ (length fs - 1) * rasum fs <= maxf ->
  exists f, t_at (den A g a) idx = Ok (inj f) /\ fin f /\ Rabs (fr f - rsum fs) <= ((1 + uu) ^ (length fs - 1) - 1) * rasum fs.
Proof.
  intros HA Hr Hn Hop Hin Hne HF H2 Hm. pose proof (reach_wf _ Hr) as Hw.
  destruct fs as [|f fs]; [congruence|]. cbn [length] in *. rewrite Nat.sub_succ, Nat.sub_0_r in *. apply Forall_cons_iff in HF as (Hf & HF).
  destruct (add_zero f Hf) as (Z1 & Z2).
  assert (HB : exists bd, nth_error g b = Some bd).
  { pose proof (Hw _ _ Hn) as Hwn. unfold wf_node in Hwn. rewrite Hop, Hin in Hwn. destruct Hwn as (a0 & x & Ha & _ & Hx & _). cbn in Ha. injection Ha as <-. eauto. }
  destruct HB as (bd & Hb).
  assert (HT : t_at (den A g a) idx = fold_res (op2 A (n_dtype nd) BAdd) (zero_of A (n_dtype nd)) (map (t_at (den A g b)) (sum_positions axis (shape_of g b) (if kd then drop_axes axis 0 idx else idx)))).
  { rewrite (den_wf_eq A g a nd Hw Hn). unfold den_node. rewrite Hop. cbn [t_sum t_at]. rewrite (tin_den A g nd 0 b) by now rewrite Hin.
    pose proof (wf_shape_facts A g b bd Hw Hb) as [Ix _ _ _]. unfold shape_of. now rewrite Hb, Ix. }
  set (ps := sum_positions _ _ _) in *. clearbody ps.
  assert (HX : Forall2 (fun x f => x = Ok (inj f)) (map (t_at (den A g b)) ps) (f :: fs)).
  { clear -H2. induction H2; cbn; constructor; auto. }
  exists (fold_left f64_add fs (f64_add (S754_zero false) f)). split.
  - rewrite HT. inversion HX as [|x ? xs ? E1 E2 E3]; subst x. now apply HA.
  - cbn [rsum rasum fold_right] in *. fold (rasum fs) in *. fold (rsum fs) in *.
    destruct (run_sum fs (f64_add (S754_zero false) f) (fr f) (Rabs (fr f)) 0 HF Z1 (Rle_refl _)) as (R1 & R2).
    + cbn [pow]. rewrite Z2, Rminus_diag_eq, Rabs_R0 by reflexivity. lra.
    + exact Hm.
    + split; [exact R1|exact R2].
Qed.
(* x.sum(axis): if the n >= 1 elements that make up an element of the sum are the finite doubles fs (in row-major
   order), it is a finite double within ((1 + 2^-53)^(n-1) - 1) * sum |fs| of their exact sum. *)
Theorem C49_sum_accuracy_python : forall lm g a nd b axis kd idx fs,
  reach g -> nth_error g a = Some nd -> n_op nd = OSum axis kd -> n_in nd = [b] -> fs <> [] -> Forall fin fs ->
  Forall2 (fun p f => t_at (den (py_alg lm) g b) p = Ok (PF f)) (sum_positions axis (shape_of g b) (if kd then drop_axes axis 0 idx else idx)) fs ->
  (1 + uu) ^ (length fs - 1) * rasum fs <= maxf ->
  exists f, t_at (den (py_alg lm) g a) idx = Ok (PF f) /\ fin f /\ Rabs (fr f - rsum fs) <= ((1 + uu) ^ (length fs - 1) - 1) * rasum fs.
Proof.
  intros lm g a nd b axis kd idx fs. apply (sum_node (py_alg lm) PF). intros f fs0 xs H. cbn [fold_res rbind].
  change (op2 (py_alg lm) (n_dtype nd) BAdd (zero_of (py_alg lm) (n_dtype nd)) (PF f)) with (@Ok pyval (PF (f64_add (S754_zero false) f))).
  cbn [rbind]. now apply py_fold.
Qed.
Print Assumptions C49_sum_accuracy_python.
Theorem C49_sum_accuracy_c : forall lm g a nd b axis kd idx fs, n_dtype nd = Float64 ->
  reach g -> nth_error g a = Some nd -> n_op nd = OSum axis kd -> n_in nd = [b] -> fs <> [] -> Forall fin fs ->
  Forall2 (fun p f => t_at (den (c_alg lm) g b) p = Ok (CF f)) (sum_positions axis (shape_of g b) (if kd then drop_axes axis 0 idx else idx)) fs ->
  (1 + uu) ^ (length fs - 1) * rasum fs <= maxf ->
  exists f, t_at (den (c_alg lm) g a) idx = Ok (CF f) /\ fin f /\ Rabs (fr f - rsum fs) <= ((1 + uu) ^ (length fs - 1) - 1) * rasum fs.
Proof.
  intros lm g a nd b axis kd idx fs Hd. apply (sum_node (c_alg lm) CF). intros f fs0 xs H. rewrite Hd. cbn [fold_res rbind].
  change (op2 (c_alg lm) Float64 BAdd (zero_of (c_alg lm) Float64) (CF f)) with (@Ok cval (CF (f64_add (S754_zero false) f))).
  cbn [rbind]. now apply c_fold.
Qed.
Print Assumptions C49_sum_accuracy_c.

(* ---------------------------------------------------------------- concrete cases *)
Lemma uu_small : 0 < uu <= / 1000.
Proof. split; [apply uu_pos|]. unfold uu. change (bpow radix2 (-53)) with (/ IZR (Z.pow_pos 2 53)). apply Rinv_le_contravar; [lra|]. apply IZR_le. vm_compute. discriminate. Qed.
Lemma eta_small : 0 < eta <= / 1000.
Proof. split; [apply eta_pos|]. apply Rle_trans with uu; [|apply uu_small]. unfold eta, uu. apply bpow_le. lia. Qed.
Lemma maxf_big : 1000 <= maxf.
Proof.
  unfold maxf. replace (bpow radix2 1024) with (2 ^ 53 * bpow radix2 971). 2:{ replace (2 ^ 53) with (bpow radix2 53) by (cbn; lra). now rewrite <- bpow_plus. }
  assert (1 <= bpow radix2 971) by (change 1 with (bpow radix2 0); apply bpow_le; lia). nra.
Qed.
Lemma nearest_small x : Rabs x <= 8 -> exists e, nearest x = VF x e /\ 0 <= e <= / 100.
Proof.
  intros H. pose proof uu_small. pose proof eta_small. pose proof maxf_big. unfold nearest.
  destruct (Rlt_dec _ _) as [|C]; [|exfalso; apply C, rnd_top; lra]. eexists. split; [reflexivity|].
  pose proof (rnd_err x). pose proof (Rabs_pos (rnd x - x)). nra.
Qed.
Lemma rounded_small t x e : Rabs x <= 100 -> 0 <= e <= 10 -> 0 <= t <= / 100 -> exists e', rounded t x e = Some (VF x e') /\ 0 <= e' <= e + 1.
Proof.
  intros H1 H2 H3. pose proof uu_small. pose proof maxf_big. unfold rounded. destruct (Rle_dec _ _); [|lra]. eexists. split; [reflexivity|].
  pose proof (Rabs_pos x). nra.
Qed.
(* 0 = array([1.0, 2.0]), 1 = array([3.0, 7.0]), 2 = 0 / 1, 3 = sum(2): 1/3 and 2/7 are not doubles *)
Definition exErr : list call := [CArray (Nest [F 1 0; F 2 0]); CArray (Nest [F 3 0; F 7 0]); CBinary BTruediv 0 1; CSum 2 None false].
Definition exErrG : graph := r_graph pyB (prun exErr).
Lemma exErr_bound c : exists x e, t_tolist (den (ebound c None) exErrG 3) = Ok (Leaf (VF x e)) /\ e <= 10.
Proof.
  let g := eval vm_compute in exErrG in change exErrG with g.
  assert (HX : forall z, (0 < z <= 7)%Z -> exists e, e_coerce c Float64 (e_num (NFlt z 0)) = VF (IZR z) e /\ 0 <= e <= / 100).
  { intros z Hz. destruct (nearest_small (IZR z)) as (e & E1 & E2).
    - rewrite Rabs_pos_eq; [apply (IZR_le z 8)|apply (IZR_le 0 z)]; lia.
    - exists e. unfold e_num, r_num. change (powerRZ 2 0) with 1. rewrite Rmult_1_r, E1. split; [destruct c; reflexivity|exact E2]. }
  assert (H0 : exists e z, nearest 0 = VF 0 e /\ 0 <= e <= / 100 /\ e_coerce c Float64 (e_num (NInt 0)) = z /\ (z = VI 0 \/ z = VF 0 e)).
  { destruct (nearest_small 0) as (e & E1 & E2); [rewrite Rabs_R0; lra|]. exists e, (if c then VF 0 e else VI 0). split; [exact E1|]. split; [exact E2|].
    destruct c; cbn [e_coerce e_num as_float]; rewrite ?E1; auto. }
  assert (HC : forall x e, e_coerce c Float64 (VF x e) = VF x e) by (intros; destruct c; reflexivity).
  lazy -[e_bin e_coerce e_num IZR Rle].
  destruct (HX 1%Z ltac:(lia)) as (e1 & -> & E1). destruct (HX 2%Z ltac:(lia)) as (e2 & -> & E2).
  destruct (HX 3%Z ltac:(lia)) as (e3 & -> & E3). destruct (HX 7%Z ltac:(lia)) as (e7 & -> & E7).
  assert (Q : forall x e y d, 0 <= x <= 2 -> 0 <= e <= / 100 -> 3 <= y <= 7 -> 0 <= d <= / 100 ->
     exists e', e_bin c None BTruediv (VF x e) (VF y d) = Some (VF (x / y) e') /\ 0 <= e' <= 2).
  { intros x e y d Hx He Hy Hd. unfold e_bin, as_float. rewrite (Rabs_pos_eq x), (Rabs_pos_eq y), Rmax_right by lra. destruct (Rlt_dec d y); [|lra].
    assert (0 <= x / y <= 1). { split; [apply Rdiv_le_0_compat; lra|apply (Rle_div_l x 1 y); lra]. }
    assert (0 <= (e * y + x * d) / (y * (y - d)) <= 1). { split; [apply Rdiv_le_0_compat; nra|apply Rle_div_l; nra]. }
    destruct (rounded_small eta (x / y) ((e * y + x * d) / (y * (y - d)))) as (e' & R1 & R2); [rewrite Rabs_pos_eq; lra|lra|pose proof eta_small; lra|].
    exists e'. split; [exact R1|lra]. }
  destruct (Q 1 e1 3 e3) as (q1 & -> & Q1); try lra. destruct (Q 2 e2 7 e7) as (q2 & -> & Q2); try lra.
  cbv beta iota. rewrite !HC. destruct H0 as (e0 & z & F0 & E0 & -> & Hz).
  assert (S1 : exists r, e_bin c None BAdd z (VF (1 / 3) q1) = Some (VF (0 + 1 / 3) r) /\ 0 <= r <= e0 + q1 + 1).
  { destruct (rounded_small 0 (0 + 1 / 3) (e0 + q1)) as (r & R1 & R2); [rewrite Rabs_pos_eq; lra|lra|lra|]. exists r. split; [|exact R2].
    destruct Hz as [->| ->]; cbn [e_bin as_float]; [rewrite F0|]; exact R1. }
  destruct S1 as (r1 & -> & R1). cbv beta iota. rewrite !HC.
  destruct (rounded_small 0 (0 + 1 / 3 + 2 / 7) (r1 + q2)) as (r2 & R2 & R3); [rewrite Rabs_pos_eq; lra|lra|lra|].
  replace (e_bin c None BAdd (VF (0 + 1 / 3) r1) (VF (2 / 7) q2)) with (Some (VF (0 + 1 / 3 + 2 / 7) r2)) by (rewrite <- R2; reflexivity). cbv beta iota. rewrite HC.
  eexists _, r2. split; [reflexivity|lra].
Qed.
Example C49_nonvacuous_python : let g := exErrG in
  libm_within no_libm None /\ key_safe (kernel_of g 3) /\ hist pyB (kernel_of g 3) (prun exErr) /\ valid g 3 /\ view_of g true 3 3 /\ computed g 3 /\
  snd (materialize pyB (prun exErr) 3) = Done tt /\ exists x e, t_tolist (den (ebound false None) g 3) = Ok (Leaf (VF x e)) /\ e <= 10.
Proof.
  cbv zeta. split; [intros q H; discriminate|]. split; [apply own_safeb_ok; vm_compute; reflexivity|]. split; [apply calls_state_hist|].
  split; [vm_compute; lia|]. split; [eapply vo_self; vm_compute; reflexivity|]. split; [eexists; split; vm_compute; reflexivity|]. split; [vm_compute; reflexivity|].
  apply exErr_bound.
Qed.
Example C49_nonvacuous_c : let g := r_graph cB (crun exErr) in g = exErrG /\
  key_safe (kernel_of g 3) /\ hist cB (kernel_of g 3) (crun exErr) /\ valid g 3 /\ view_of g true 3 3 /\ computed g 3 /\ mat_ok (c_lang no_libm) g 3 /\
  snd (materialize cB (crun exErr) 3) = Done tt /\ exists x e, t_tolist (den (ebound true None) g 3) = Ok (Leaf (VF x e)) /\ e <= 10.
Proof.
  cbv zeta. assert (Hg : r_graph cB (crun exErr) = exErrG) by (vm_compute; reflexivity). split; [exact Hg|].
  split; [apply own_safeb_ok; vm_compute; reflexivity|]. split; [apply calls_state_hist|]. rewrite Hg.
  split; [vm_compute; lia|]. split; [eapply vo_self; vm_compute; reflexivity|]. split; [eexists; split; vm_compute; reflexivity|].
  split; [split; [apply fits_all; vm_compute; reflexivity|]|split; [vm_compute; reflexivity|apply exErr_bound]].
  exists Float64. intros n nd _ Hn _ v. assert (Hd : n_dtype nd = Float64); [|now rewrite Hd].
  destruct n as [|[|[|[|[|n]]]]]; vm_compute in Hn; try discriminate; injection Hn as <-; reflexivity.
Qed.
(* 2^70 * 2^70 - 1, too large for any machine integer *)
Definition exBig : list call := [CArray (Nest [Leaf (NInt (2 ^ 70)); Leaf (NInt 3)]); CBinary BMul 0 0; CUnary UNeg 1; CBinary BAdd 2 0].
Example C49_nonvacuous_integers : let g := r_graph pyB (prun exBig) in
  key_safe (kernel_of g 3) /\ hist pyB (kernel_of g 3) (prun exBig) /\ valid g 3 /\ view_of g true 3 3 /\ computed g 3 /\
  (forall n nd, cone g 3 n -> nth_error g n = Some nd -> int_expr nd) /\ snd (materialize pyB (prun exBig) 3) = Done tt /\
  t_tolist (den ZA g 3) = Ok (Nest [Leaf (2 ^ 70 - 2 ^ 140)%Z; Leaf (-6)%Z]).
Proof.
  cbv zeta. split; [apply own_safeb_ok; vm_compute; reflexivity|]. split; [apply calls_state_hist|].
  split; [vm_compute; lia|]. split; [eapply vo_self; vm_compute; reflexivity|]. split; [eexists; split; vm_compute; reflexivity|].
  split; [|split; [vm_compute; reflexivity|vm_compute; reflexivity]].
  intros n nd _ Hn. destruct n as [|[|[|[|[|n]]]]]; vm_compute in Hn; try discriminate; injection Hn as <-; unfold int_expr; cbn [n_op]; auto.
  repeat constructor; eexists; reflexivity.
Qed.
(* 1.0 + 2^-53 + 2^-53: the sum read is 1.0, the exact sum is 1 + 2^-52 *)
Definition exS : list call := [CArray (Nest [F 1 0; F 1 (-53); F 1 (-53)]); CSum 0 None false].
Example C49_nonvacuous_sum : let g := Prog.prog exS in let fs := [f64_of 1 0; f64_of 1 (-53); f64_of 1 (-53)] in
  reach g /\ (exists nd, nth_error g 1 = Some nd /\ n_op nd = OSum [0%Z] false /\ n_in nd = [0%nat]) /\ Forall fin fs /\
  Forall2 (fun p f => t_at (den (py_alg no_libm) g 0) p = Ok (PF f)) (sum_positions [0%Z] (shape_of g 0) []) fs /\
  (1 + uu) ^ (length fs - 1) * rasum fs <= maxf /\ t_at (den (py_alg no_libm) g 1) [] = Ok (PF (f64_of 1 0)).
Proof.
  cbv zeta. split; [apply prog_reach|]. split; [eexists; split; [vm_compute; reflexivity|split; reflexivity]|].
  split; [repeat constructor|]. split; [vm_compute; repeat constructor|]. split; [|vm_compute; reflexivity].
  assert (H1 : fr (f64_of 1 0) = 1). { destruct (f64_of_ok 1 0) as (_ & E); [apply rnd_top|rewrite E]; replace (1 * bpow radix2 0) with 1 by (cbn; lra).
    - rewrite Rabs_pos_eq by lra. pose proof maxf_big. lra.
    - apply round_generic; [apply valid_rnd_N|]. apply (generic_format_bpow radix2 (FLT_exp (-1074) 53) 0). unfold FLT_exp. lia. }
  assert (H2 : fr (f64_of 1 (-53)) = uu). { destruct (f64_of_ok 1 (-53)) as (_ & E); [apply rnd_top|rewrite E]; rewrite Rmult_1_l; change (bpow radix2 (-53)) with uu; pose proof uu_small; pose proof maxf_big.
    - rewrite Rabs_pos_eq; lra.
    - apply round_generic; [apply valid_rnd_N|]. apply (generic_format_bpow radix2 (FLT_exp (-1074) 53) (-53)). unfold FLT_exp. lia. }
  unfold rasum. cbn [fold_right length]. rewrite H1, H2. pose proof uu_small. pose proof maxf_big. rewrite !Rabs_pos_eq by lra. cbn [Nat.sub pow]. nra.
Qed.
(* The assumption on the math library can be met: a correctly rounding library errs by at most 1 (u |r| + eta) *)
Definition correctly_rounded (r : R) : sf := f64_of (ZnearestE (scaled_mantissa radix2 (FLT_exp (-1074) 53) r)) (cexp radix2 (FLT_exp (-1074) 53) r).
Definition ideal_libm : libm := mkLibm (fun u f => option_map correctly_rounded (r_un u (fr f))) (fun f g => option_map correctly_rounded (r_pow (fr f) (fr g))).
Lemma correctly_rounded_ok r : Rabs r <= maxf -> fin (correctly_rounded r) /\ Rabs (fr (correctly_rounded r) - r) <= 1 * (uu * Rabs r + eta).
Proof.
  intros H. assert (E : rnd (IZR (ZnearestE (scaled_mantissa radix2 (FLT_exp (-1074) 53) r)) * bpow radix2 (cexp radix2 (FLT_exp (-1074) 53) r)) = rnd r).
  { change (rnd (rnd r) = rnd r). apply round_generic; [apply valid_rnd_N|]. apply generic_format_round; [apply FLT_exp_valid; reflexivity|apply valid_rnd_N]. }
  destruct (f64_of_ok _ _ (eq_ind_r (fun t => Rabs t < top) (rnd_top r H) E)) as (F & G). split; [exact F|]. unfold correctly_rounded. rewrite G, E, Rmult_1_l. apply rnd_err.
Qed.
Example C49_library_nonvacuous : libm_within ideal_libm (Some 1).
Proof.
  intros q Hq. injection Hq as <-. split; intros.
  - exists (correctly_rounded r). cbn [lm_un ideal_libm]. rewrite H2. split; [reflexivity|]. now apply correctly_rounded_ok.
  - exists (correctly_rounded r). cbn [lm_pow ideal_libm]. rewrite H1. split; [reflexivity|]. now apply correctly_rounded_ok.
Qed.
(* array([-1.5]) ** array([2.0]) with that library: a negative base, an exponent that is exactly a natural number *)
Definition exPow : list call := [CArray (Nest [F (-3) (-1)]); CArray (Nest [F 2 0]); CBinary BPow 0 1].
Definition exPowS : rt (py_backend ideal_libm) := sc_state (py_backend ideal_libm) (map Call exPow).
Lemma rnd_pow2 n : (-1074 <= n)%Z -> rnd (bpow radix2 n) = bpow radix2 n.
Proof. intros H. apply round_generic; [apply valid_rnd_N|]. apply generic_format_bpow. unfold FLT_exp. lia. Qed.
Example C49_nonvacuous_power : let B := py_backend ideal_libm in let g := r_graph B exPowS in
  key_safe (kernel_of g 2) /\ hist B (kernel_of g 2) exPowS /\ valid g 2 /\ view_of g true 2 2 /\ computed g 2 /\
  (exists e, t_tolist (den (ebound false (Some 1)) g 2) = Ok (Nest [Leaf (VF (9 / 4) e)]) /\ e <= / 10) /\
  exists s' f, materialize B exPowS 2 = (s', Done tt) /\ tolist (r_graph B s') (r_cpu B s') 2 = Done (Nest [Leaf (PF f)]) /\ fin f /\ Rabs (fr f - 9 / 4) <= / 10.
Proof.
  cbv zeta. assert (Hg : r_graph (py_backend ideal_libm) exPowS = Prog.prog exPow) by (lazy; reflexivity). rewrite Hg.
  assert (A1 : key_safe (kernel_of (Prog.prog exPow) 2)) by (apply own_safeb_ok; vm_compute; reflexivity).
  assert (A2 : hist (py_backend ideal_libm) (kernel_of (Prog.prog exPow) 2) exPowS) by apply calls_state_hist.
  assert (A3 : valid (Prog.prog exPow) 2) by (vm_compute; lia).
  assert (A4 : view_of (Prog.prog exPow) true 2 2) by (eapply vo_self; vm_compute; reflexivity).
  assert (A5 : computed (Prog.prog exPow) 2) by (eexists; split; vm_compute; reflexivity).
  destruct (nearest_small (r_num (NFlt (-3) (-1)))) as (e & E1 & E2); [unfold r_num; change (powerRZ 2 (-1)) with (/ (2 * 1)); rewrite Rabs_left; lra|].
  assert (N2 : nearest (r_num (NFlt 2 0)) = VF 2 0).
  { replace (r_num (NFlt 2 0)) with (bpow radix2 1) by (unfold r_num; cbn; lra). unfold nearest. rewrite rnd_pow2 by lia. rewrite Rminus_diag_eq, Rabs_R0 by reflexivity.
    destruct (Rlt_dec _ _) as [|C]; [reflexivity|]. exfalso. apply C. unfold top. rewrite Rabs_pos_eq by apply bpow_ge_0. apply bpow_lt. lia. }
  assert (HP : exists d, e_bin false (Some 1) BPow (nearest (r_num (NFlt (-3) (-1)))) (nearest (r_num (NFlt 2 0))) = Some (VF (9 / 4) d) /\ d <= / 10).
  { rewrite E1, N2. set (x := r_num (NFlt (-3) (-1))). assert (Hx : x = - 3 / 2) by (unfold x, r_num; change (powerRZ 2 (-1)) with (/ (2 * 1)); lra).
    cbn [e_bin as_float]. unfold e_pow. destruct (Rlt_dec _ _) as [Hl|_]; [apply Rmax_Rlt in Hl; lra|]. destruct (Req_EM_T 0 0); [|lra]. rewrite (r_int_IZR 2). change (2 <? 0)%Z with false.
    assert (HA : Rabs x = 3 / 2) by (rewrite Hx, Rabs_left; lra). unfold library. change (powerRZ x 2) with (x * (x * 1)). change (Z.to_nat 2) with 2%nat. rewrite HA. cbn [pow].
    replace (x * (x * 1)) with (9 / 4) by (rewrite Hx; lra). pose proof maxf_big. pose proof uu_small. pose proof eta_small. rewrite (Rabs_pos_eq (9 / 4)) by lra. destruct (Rle_dec _ _) as [|C]; [|exfalso; apply C; nra].
    eexists. split; [reflexivity|]. nra. }
  destruct HP as (d & HP & Hd).
  assert (A6 : t_tolist (den (ebound false (Some 1)) (Prog.prog exPow) 2) = Ok (Nest [Leaf (VF (9 / 4) d)])).
  { let g := eval vm_compute in (Prog.prog exPow) in change (Prog.prog exPow) with g. lazy -[e_bin nearest r_num IZR Rdiv]. rewrite HP. reflexivity. }
  split; [exact A1|]. split; [exact A2|]. split; [exact A3|]. split; [exact A4|]. split; [exact A5|]. split; [eauto|].
  destruct (C49_python_succeeds ideal_libm (Some 1) (kernel_of (Prog.prog exPow) 2) exPowS 2 2 C49_library_nonvacuous A1 A2) as (s' & HM); rewrite ?Hg; auto.
  - intros n nd Hc Hn. destruct n as [|[|[|[|n]]]]; vm_compute in Hn; try discriminate; injection Hn as <-; discriminate.
  - intros n _ (nd & vals & Hn & _ & Hf & _). discriminate Hf.
  - intros n idx Hc Hi. assert (Hn : n = 0%nat \/ n = 1%nat \/ n = 2%nat). { pose proof (cone_lt_graph (Prog.prog exPow) 2 n (reach_wf _ (prog_reach _)) ltac:(vm_compute; lia) Hc) as Hl. vm_compute in Hl. lia. }
    assert (Hidx : idx = [0%Z]). { apply in_all_idx in Hi. destruct Hn as [->|[->| ->]]; vm_compute in Hi; destruct Hi as [<-|[]]; reflexivity. } subst idx.
    destruct Hn as [->|[->| ->]]; (let g := eval vm_compute in (Prog.prog exPow) in change (Prog.prog exPow) with g); lazy -[e_bin nearest r_num IZR Rdiv]; eauto. rewrite HP. eauto.
  - destruct (C49_python ideal_libm (Some 1) (kernel_of (Prog.prog exPow) 2) exPowS 2 2 s' _ C49_library_nonvacuous A1 A2 ltac:(now rewrite Hg) ltac:(now rewrite Hg) ltac:(now rewrite Hg) ltac:(now rewrite Hg) HM ltac:(rewrite Hg; exact A6))
      as (l & lr & L1 & _ & _ & L4). exists s'. inversion L4 as [|? ys Hys]; subst. inversion Hys as [|? y ? ? Hy Hr]; subst. inversion Hr; subst. inversion Hy as [? w Hw|]; subst.
    destruct Hw as (f & -> & F & N). exists f. split; [exact HM|]. split; [exact L1|]. split; [exact F|lra].
Qed.
(* C's conversions between the two kinds of elements: a double stored in an int64 array is cut off towards zero, an
   integer stored in a float64 array becomes the nearest double *)
Lemma Ztrunc_dyadic p e : (0 <= p)%Z -> Ztrunc (IZR p * bpow radix2 e) = (if (0 <=? e)%Z then p * 2 ^ e else p / 2 ^ (- e))%Z.
Proof.
  intros Hp. rewrite Ztrunc_floor by (apply Rmult_le_pos; [apply (IZR_le 0); exact Hp|apply bpow_ge_0]).
  destruct (Z.leb_spec 0 e) as [He|He].
  - rewrite <- (IZR_Zpower radix2 e He), <- mult_IZR, Zfloor_IZR. reflexivity.
  - replace (bpow radix2 e) with (/ IZR (2 ^ (- e))). 2:{ replace e with (- (- e))%Z at 2 by lia. rewrite bpow_opp, <- (IZR_Zpower radix2 (- e)) by lia. reflexivity. }
    change (IZR p * / IZR (2 ^ - e)) with (IZR p / IZR (2 ^ - e)). rewrite Zfloor_div; [reflexivity|]. apply Z.pow_nonzero; lia.
Qed.
Theorem C49_float_to_int : forall f dt, fin f -> dt = Int32 \/ dt = Int64 -> c_fits true (Ztrunc (fr f)) = true -> c_coerce dt (CF f) = CI64 (Ztrunc (fr f)).
Proof.
  intros f dt (_ & Hf) Hdt Hfit. assert (E : f64_trunc f = Some (Ztrunc (fr f))).
  { destruct f as [s|s| |s m e]; try discriminate Hf; unfold fr; cbn [f64_trunc SF2R].
    - now rewrite (Ztrunc_IZR 0).
    - unfold F2R. cbn [Fnum Fexp]. destruct s; cbn [cond_Zopp].
      + change (Z.neg m) with (- Z.pos m)%Z. rewrite opp_IZR, Ropp_mult_distr_l_reverse, Ztrunc_opp, Ztrunc_dyadic by lia. reflexivity.
      + now rewrite Ztrunc_dyadic by lia. }
  destruct Hdt as [->| ->]; cbn [c_coerce]; now rewrite E, Hfit.
Qed.
Print Assumptions C49_float_to_int.
Theorem C49_int_to_float : forall z dt, dt = Float32 \/ dt = Float64 -> (- 2 ^ 63 <= z < 2 ^ 63)%Z ->
  exists f, c_coerce dt (CI64 z) = CF f /\ fin f /\ fr f = rnd (IZR z).
Proof.
  intros z dt Hdt Hz. exists (f64_of z 0). split; [destruct Hdt as [->| ->]; reflexivity|].
  replace (IZR z) with (IZR z * bpow radix2 0) by (cbn; lra). apply f64_of_ok, rnd_top. replace (IZR z * bpow radix2 0) with (IZR z) by (cbn; lra).
  unfold maxf. replace (bpow radix2 1024) with (2 ^ 53 * bpow radix2 971). 2:{ replace (2 ^ 53) with (bpow radix2 53) by (cbn; lra). now rewrite <- bpow_plus. }
  assert (bpow radix2 64 <= bpow radix2 971) by (apply bpow_le; lia). assert (E : bpow radix2 64 = IZR (2 ^ 64)) by (rewrite <- (IZR_Zpower radix2) by lia; reflexivity).
  assert (IZR (- 2 ^ 64) <= IZR z <= IZR (2 ^ 64)) by (split; apply IZR_le; lia). rewrite opp_IZR in *. apply Rabs_le. rewrite <- E in *. nra.
Qed.
Print Assumptions C49_int_to_float.
Example C49_conversion_nonvacuous : fin (f64_of (-7) (-1)) /\ c_fits true (Ztrunc (fr (f64_of (-7) (-1)))) = true /\ c_coerce Int64 (CF (f64_of (-7) (-1))) = CI64 (-3).
Proof.
  split; [split; reflexivity|]. split; [|vm_compute; reflexivity].
  let f := eval vm_compute in (f64_of (-7) (-1)) in change (f64_of (-7) (-1)) with f. unfold fr. cbn [SF2R]. unfold F2R. cbn [Fnum Fexp cond_Zopp].
  rewrite opp_IZR, Ropp_mult_distr_l_reverse, Ztrunc_opp, Ztrunc_dyadic by lia. vm_compute. reflexivity.
Qed.
