(* The arithmetic of both kernel languages stays within the bounds of ErrSpec.v. *)
From Coq Require Import Reals Lra ZArith Floats.SpecFloat.
From Flocq Require Import Core.
From Verif Require Import Base Lang LangInst RealAlg Spec Graph Denote AlgoSem Agree IEEE ErrSpec.
Local Open Scope R_scope.

Definition near (f : sf) (x e : R) : Prop := fin f /\ Rabs (fr f - x) <= e.

Lemma near_pos f x e : near f x e -> 0 <= e.
Proof. intros (_ & H). pose proof (Rabs_pos (fr f - x)). lra. Qed.
Lemma near_abs f x e : near f x e -> Rabs (fr f) <= Rabs x + e.
Proof. intros (_ & H). replace (fr f) with (x + (fr f - x)) by ring. eapply Rle_trans; [apply Rabs_triang|]. lra. Qed.

(* one rounding *)
Lemma rounded_near t x e v r f : rounded t x e = Some v -> Rabs (r - x) <= e -> Rabs (rnd r - r) <= uu * Rabs r + t ->
  (Rabs (rnd r) < top -> fin f /\ fr f = rnd r) -> exists e', v = VF x e' /\ near f x e'.
Proof.
  unfold rounded. intros H Hr Hu Hf. destruct (Rle_dec _ _) as [Hm|]; [|discriminate]. injection H as <-. eexists. split; [reflexivity|].
  assert (Ha : Rabs r <= Rabs x + e). { replace r with (x + (r - x)) by ring. eapply Rle_trans; [apply Rabs_triang|]. lra. }
  destruct Hf as (F & E); [apply rnd_top; lra|]. split; [exact F|]. rewrite E. replace (rnd r - x) with ((rnd r - r) + (r - x)) by ring.
  eapply Rle_trans; [apply Rabs_triang|]. assert (uu * Rabs r <= uu * (Rabs x + e)) by (apply Rmult_le_compat_l; [left; apply uu_pos|exact Ha]). lra.
Qed.

Lemma add_near v f g x e y d : near f x e -> near g y d -> rounded 0 (x + y) (e + d) = Some v -> exists e', v = VF (x + y) e' /\ near (f64_add f g) (x + y) e'.
Proof.
  intros (F & Hf) (G & Hg) H. eapply (rounded_near 0 _ _ v (fr f + fr g)); [exact H| | |].
  - replace (fr f + fr g - (x + y)) with ((fr f - x) + (fr g - y)) by ring. eapply Rle_trans; [apply Rabs_triang|]. lra.
  - rewrite Rplus_0_r. apply rnd_plus_err; now apply fin_format.
  - now apply f64_add_ok.
Qed.
Lemma sub_near v f g x e y d : near f x e -> near g y d -> rounded 0 (x - y) (e + d) = Some v -> exists e', v = VF (x - y) e' /\ near (f64_sub f g) (x - y) e'.
Proof.
  intros (F & Hf) (G & Hg) H. eapply (rounded_near 0 _ _ v (fr f - fr g)); [exact H| | |].
  - replace (fr f - fr g - (x - y)) with ((fr f - x) + - (fr g - y)) by ring. eapply Rle_trans; [apply Rabs_triang|]. rewrite Rabs_Ropp. lra.
  - rewrite Rplus_0_r. unfold Rminus at 2 4. apply rnd_plus_err; [now apply fin_format|]. apply generic_format_opp. now apply fin_format.
  - now apply f64_sub_ok.
Qed.
Lemma mul_near v f g x e y d : near f x e -> near g y d -> rounded eta (x * y) (Rabs x * d + Rabs y * e + e * d) = Some v ->
  exists e', v = VF (x * y) e' /\ near (f64_mul f g) (x * y) e'.
Proof.
  intros Nf Ng H. pose proof (near_pos _ _ _ Nf). pose proof (near_pos _ _ _ Ng). destruct Nf as (F & Hf), Ng as (G & Hg).
  eapply (rounded_near eta _ _ v (fr f * fr g)); [exact H| |apply rnd_err|now apply f64_mul_ok].
  replace (fr f * fr g - x * y) with (x * (fr g - y) + (fr f - x) * y + (fr f - x) * (fr g - y)) by ring.
  eapply Rle_trans; [apply Rabs_triang|]. eapply Rle_trans; [apply Rplus_le_compat_r, Rabs_triang|]. rewrite !Rabs_mult.
  apply Rplus_le_compat; [apply Rplus_le_compat|].
  - apply Rmult_le_compat_l; [apply Rabs_pos|exact Hg].
  - rewrite Rmult_comm. apply Rmult_le_compat_l; [apply Rabs_pos|exact Hf].
  - apply Rmult_le_compat; auto using Rabs_pos.
Qed.
Lemma div_near v f g x e y d : near f x e -> near g y d -> d < Rabs y -> rounded eta (x / y) ((e * Rabs y + Rabs x * d) / (Rabs y * (Rabs y - d))) = Some v ->
  fr g <> 0 /\ exists e', v = VF (x / y) e' /\ near (f64_div f g) (x / y) e'.
Proof.
  intros Nf Ng Hd H. pose proof (near_pos _ _ _ Nf) as He. pose proof (near_pos _ _ _ Ng) as Hd0. destruct Nf as (F & Hf), Ng as (G & Hg).
  assert (Hy : y <> 0) by (intros ->; rewrite Rabs_R0 in Hd; lra).
  assert (Hgl : Rabs y - d <= Rabs (fr g)).
  { replace y with (fr g - (fr g - y)) at 1 by ring. pose proof (Rabs_triang (fr g) (- (fr g - y))) as T. rewrite Rabs_Ropp in T. replace (fr g - (fr g - y)) with (fr g + - (fr g - y)) by ring. lra. }
  assert (Hg0 : fr g <> 0) by (intros E; rewrite E, Rabs_R0 in Hgl; lra). split; [exact Hg0|].
  eapply (rounded_near eta _ _ v (fr f / fr g)); [exact H| |apply rnd_err|now apply f64_div_ok].
  replace (fr f / fr g - x / y) with (((fr f - x) * y + - (x * (fr g - y))) / (y * fr g)) by (field; auto).
  unfold Rdiv. rewrite Rabs_mult, Rabs_inv, (Rabs_mult y). apply Rmult_le_compat; [apply Rabs_pos| | |].
  - left. apply Rinv_0_lt_compat. apply Rmult_lt_0_compat; apply Rabs_pos_lt; auto.
  - eapply Rle_trans; [apply Rabs_triang|]. rewrite Rabs_Ropp, !Rabs_mult. apply Rplus_le_compat; [apply Rmult_le_compat_r; auto using Rabs_pos|apply Rmult_le_compat_l; auto using Rabs_pos].
  - apply Rinv_le_contravar; [apply Rmult_lt_0_compat; [now apply Rabs_pos_lt|lra]|]. apply Rmult_le_compat_l; auto using Rabs_pos.
Qed.
Lemma sqrt_near v f x e : near f x e -> e < x -> rounded eta (sqrt x) (e / sqrt x) = Some v ->
  0 < fr f /\ exists e', v = VF (sqrt x) e' /\ near (f64_sqrt f) (sqrt x) e'.
Proof.
  intros Nf Hx H. pose proof (near_pos _ _ _ Nf) as He. destruct Nf as (F & Hf).
  assert (Hp : 0 < fr f). { pose proof (Rle_abs (- (fr f - x))) as T. rewrite Rabs_Ropp in T. lra. } split; [exact Hp|].
  eapply (rounded_near eta _ _ v (sqrt (fr f))); [exact H| |apply rnd_err|intros _; apply f64_sqrt_ok; [exact F|lra]].
  assert (S1 : 0 < sqrt x) by (apply sqrt_lt_R0; lra). assert (S2 : 0 < sqrt (fr f)) by now apply sqrt_lt_R0.
  assert (E : (sqrt (fr f) - sqrt x) * (sqrt (fr f) + sqrt x) = fr f - x).
  { replace ((sqrt (fr f) - sqrt x) * (sqrt (fr f) + sqrt x)) with (sqrt (fr f) * sqrt (fr f) - sqrt x * sqrt x) by ring. rewrite !sqrt_sqrt; lra. }
  apply Rmult_le_reg_r with (sqrt x); [exact S1|]. unfold Rdiv. rewrite Rmult_assoc, Rinv_l, Rmult_1_r by lra.
  apply Rle_trans with (Rabs (sqrt (fr f) - sqrt x) * (sqrt (fr f) + sqrt x)); [apply Rmult_le_compat_l; [apply Rabs_pos|lra]|].
  rewrite <- (Rabs_pos_eq (sqrt (fr f) + sqrt x)) by lra. rewrite <- Rabs_mult, E. exact Hf.
Qed.
Lemma opp_near f x e : near f x e -> near (SFopp f) (- x) e.
Proof.
  intros (F & H). destruct (SFopp_ok f F) as (F' & E). split; [exact F'|]. rewrite E. replace (- fr f - - x) with (- (fr f - x)) by ring. now rewrite Rabs_Ropp.
Qed.

(* library functions *)
Lemma sin_abs t : Rabs (sin t) <= Rabs t.
Proof.
  destruct (Rtotal_order t 0) as [H|[->|H]].
  - rewrite <- (Rabs_Ropp (sin t)), <- sin_neg, <- (Rabs_Ropp t). set (s := - t). assert (0 < s) by (unfold s; lra). clearbody s.
    rewrite (Rabs_pos_eq s) by lra. apply Rabs_le. pose proof (sin_lt_x s H0). destruct (Rle_lt_dec s Rtrigo1.PI).
    + pose proof (sin_ge_0 s ltac:(lra) r). lra.
    + pose proof (SIN_bound s). pose proof PI_RGT_0. pose proof PI2_1. lra.
  - rewrite sin_0, Rabs_R0. lra.
  - rewrite (Rabs_pos_eq t) by lra. apply Rabs_le. pose proof (sin_lt_x t H). destruct (Rle_lt_dec t Rtrigo1.PI).
    + pose proof (sin_ge_0 t ltac:(lra) r). lra.
    + pose proof (SIN_bound t). pose proof PI2_1. lra.
Qed.
Lemma sin_lip a b : Rabs (sin a - sin b) <= Rabs (a - b).
Proof.
  rewrite form4. replace (2 * cos ((a + b) / 2) * sin ((a - b) / 2)) with (cos ((a + b) / 2) * (2 * sin ((a - b) / 2))) by ring. rewrite Rabs_mult.
  apply Rle_trans with (1 * Rabs (2 * sin ((a - b) / 2))); [apply Rmult_le_compat_r; [apply Rabs_pos|apply Rabs_le; apply COS_bound]|].
  rewrite Rmult_1_l, Rabs_mult, (Rabs_pos_eq 2) by lra. pose proof (sin_abs ((a - b) / 2)) as H. unfold Rdiv in H at 2. rewrite Rabs_mult, (Rabs_pos_eq (/ 2)) in H by lra. lra.
Qed.
Lemma cos_lip a b : Rabs (cos a - cos b) <= Rabs (a - b).
Proof. rewrite !cos_sin. eapply Rle_trans; [apply sin_lip|]. right. f_equal. ring. Qed.
Lemma exp_near r x e : Rabs (r - x) <= e -> Rabs (exp r - exp x) <= exp x * (exp e - 1).
Proof.
  intros H. assert (H1 : x - e <= r <= x + e) by (apply Rabs_le_inv in H; lra).
  assert (M : forall a b, a <= b -> exp a <= exp b) by (intros a b [Hl| ->]; [left; now apply exp_increasing|lra]).
  assert (U : exp r <= exp x * exp e) by (rewrite <- exp_plus; apply M; lra).
  assert (L : exp x * exp (- e) <= exp r) by (rewrite <- exp_plus; apply M; lra).
  assert (He : exp (- e) * exp e = 1) by (rewrite <- exp_plus; replace (- e + e) with 0 by ring; apply exp_0).
  assert (E2 : 2 <= exp e + exp (- e)). { pose proof (Rle_0_sqr (exp e - 1)) as Q. unfold Rsqr in Q. pose proof (exp_pos e). pose proof (exp_pos (- e)).
    apply Rmult_le_reg_r with (exp e); [lra|]. replace ((exp e + exp (- e)) * exp e) with (exp e * exp e + exp (- e) * exp e) by ring. rewrite He. lra. }
  pose proof (exp_pos x) as Px. apply Rabs_le. split; [|rewrite Rmult_minus_distr_l; lra].
  assert (exp x * 2 <= exp x * (exp e + exp (- e))) by (apply Rmult_le_compat_l; lra). rewrite !Rmult_plus_distr_l in H0. rewrite Rmult_minus_distr_l. lra.
Qed.
Lemma ln_le_m1 t : 0 < t -> ln t <= t - 1.
Proof. intros H. pose proof (exp_ineq1_le (ln t)) as E. rewrite exp_ln in E by exact H. lra. Qed.
Lemma ln_near r x e : Rabs (r - x) <= e -> e < x -> Rabs (ln r - ln x) <= e / (x - e).
Proof.
  intros H Hx. assert (H1 : x - e <= r <= x + e) by (apply Rabs_le_inv in H; lra). assert (He : 0 <= e) by (pose proof (Rabs_pos (r - x)); lra).
  assert (K : forall a b, 0 < x - e -> x - e <= a -> x - e <= b -> b - a <= e -> ln b - ln a <= e / (x - e)).
  { intros a b Hp Ha Hb Hab. replace (ln b - ln a) with (ln (b / a)) by (unfold Rdiv; rewrite ln_mult, ln_Rinv; [ring|lra|lra|apply Rinv_0_lt_compat; lra]). eapply Rle_trans; [apply ln_le_m1; apply Rdiv_lt_0_compat; lra|].
    replace (b / a - 1) with ((b - a) / a) by (field; lra). destruct (Rle_lt_dec (b - a) 0).
    - apply Rle_trans with 0; [|apply Rle_mult_inv_pos; lra]. unfold Rdiv. assert (0 < / a) by (apply Rinv_0_lt_compat; lra). apply Ropp_le_cancel. rewrite Ropp_0, Ropp_mult_distr_l. apply Rmult_le_pos; lra.
    - unfold Rdiv. apply Rmult_le_compat; [lra|left; apply Rinv_0_lt_compat; lra|lra|apply Rinv_le_contravar; lra]. }
  apply Rabs_le. split.
  - pose proof (K r x). lra.
  - apply K; lra.
Qed.
Lemma library_err q x e r f' : fin f' -> Rabs (fr f' - r) <= q * (uu * Rabs r + eta) -> Rabs (r - x) <= e -> near f' x (e + q * (uu * (Rabs x + e) + eta)).
Proof.
  intros F' N He. split; [exact F'|].
  assert (Ha : Rabs r <= Rabs x + e). { replace r with (x + (r - x)) by ring. eapply Rle_trans; [apply Rabs_triang|]. lra. }
  replace (fr f' - x) with ((fr f' - r) + (r - x)) by ring. eapply Rle_trans; [apply Rabs_triang|].
  assert (0 <= q). { pose proof (Rabs_pos (fr f' - r)). pose proof (Rabs_pos r). pose proof uu_pos. pose proof eta_pos. destruct (Rle_lt_dec 0 q); [assumption|].
    assert (0 < uu * Rabs r + eta) by (assert (0 <= uu * Rabs r) by (apply Rmult_le_pos; lra); lra). assert (q * (uu * Rabs r + eta) < 0) by (rewrite <- (Rmult_0_l (uu * Rabs r + eta)); apply Rmult_lt_compat_r; assumption). lra. }
  assert (uu * Rabs r <= uu * (Rabs x + e)) by (apply Rmult_le_compat_l; [left; apply uu_pos|exact Ha]).
  assert (q * (uu * Rabs r + eta) <= q * (uu * (Rabs x + e) + eta)) by (apply Rmult_le_compat_l; lra). lra.
Qed.
Lemma library_small r x e : Rabs (r - x) <= e -> Rabs x + e <= maxf -> Rabs r <= maxf.
Proof. intros He Hm. replace r with (x + (r - x)) by ring. eapply Rle_trans; [apply Rabs_triang|]. lra. Qed.
Lemma library_near k lm u x e v r f : libm_within lm k -> library k x e = Some v -> u <> UNeg -> u <> USqrt -> r_un u (fr f) = Some r -> fin f -> Rabs (r - x) <= e ->
  exists e' f', lm_un lm u f = Some f' /\ v = VF x e' /\ near f' x e'.
Proof.
  unfold library. intros HL H U1 U2 Hr F He. destruct k as [q|]; [|discriminate]. destruct (Rle_dec _ _) as [Hm|]; [|discriminate]. injection H as <-.
  destruct (proj1 (HL q eq_refl) u f r F U1 U2 Hr (library_small _ _ _ He Hm)) as (f' & E & F' & N). exists (e + q * (uu * (Rabs x + e) + eta)), f'. split; [exact E|]. split; [reflexivity|].
  now apply library_err with r.
Qed.
Lemma pow_lib_near k lm x e v r f g : libm_within lm k -> library k x e = Some v -> r_pow (fr f) (fr g) = Some r -> fin f -> fin g -> Rabs (r - x) <= e ->
  exists e' f', lm_pow lm f g = Some f' /\ v = VF x e' /\ near f' x e'.
Proof.
  unfold library. intros HL H Hr F G He. destruct k as [q|]; [|discriminate]. destruct (Rle_dec _ _) as [Hm|]; [|discriminate]. injection H as <-.
  destruct (proj2 (HL q eq_refl) f g r F G Hr (library_small _ _ _ He Hm)) as (f' & E & F' & N). exists (e + q * (uu * (Rabs x + e) + eta)), f'. split; [exact E|]. split; [reflexivity|].
  now apply library_err with r.
Qed.
(* powers: a ^ b for a near x > 0 and b near y *)
Lemma rpower_near a b x y e d : Rabs (a - x) <= e -> Rabs (b - y) <= d -> e < x ->
  Rabs (Rpower a b - Rpower x y) <= Rpower x y * (exp (Rabs y * (e / (x - e)) + d * (Rabs (ln x) + e / (x - e))) - 1).
Proof.
  intros Ha Hb Hx. unfold Rpower. apply exp_near. pose proof (ln_near a x e Ha Hx) as HL. set (t := e / (x - e)) in *.
  assert (0 <= d) by (pose proof (Rabs_pos (b - y)); lra).
  replace (b * ln a - y * ln x) with (y * (ln a - ln x) + (b - y) * ln a) by ring.
  eapply Rle_trans; [apply Rabs_triang|]. rewrite !Rabs_mult. apply Rplus_le_compat; [apply Rmult_le_compat_l; [apply Rabs_pos|exact HL]|].
  apply Rmult_le_compat; try apply Rabs_pos; [exact Hb|]. replace (ln a) with (ln x + (ln a - ln x)) by ring. eapply Rle_trans; [apply Rabs_triang|]. lra.
Qed.
Lemma pow_near a x e n : Rabs (a - x) <= e -> Rabs (a ^ n - x ^ n) <= (Rabs x + e) ^ n - Rabs x ^ n.
Proof.
  intros H. assert (He : 0 <= e) by (pose proof (Rabs_pos (a - x)); lra).
  assert (Ha : Rabs a <= Rabs x + e). { replace a with (x + (a - x)) by ring. eapply Rle_trans; [apply Rabs_triang|]. lra. }
  pose proof (Rabs_pos x) as Px. pose proof (Rabs_pos a) as Pa.
  induction n as [|n IH]; cbn [pow]; [rewrite Rminus_diag_eq, Rabs_R0 by reflexivity; lra|].
  replace (a * a ^ n - x * x ^ n) with (a * (a ^ n - x ^ n) + (a - x) * x ^ n) by ring. eapply Rle_trans; [apply Rabs_triang|]. rewrite !Rabs_mult.
  rewrite <- RPow_abs.
  assert (M1 : Rabs a * Rabs (a ^ n - x ^ n) <= (Rabs x + e) * ((Rabs x + e) ^ n - Rabs x ^ n)) by (apply Rmult_le_compat; auto using Rabs_pos).
  assert (M2 : Rabs (a - x) * Rabs x ^ n <= e * Rabs x ^ n) by (apply Rmult_le_compat_r; [now apply pow_le|exact H]).
  lra.
Qed.
Lemma e_pow_near k lm x e y d v f g : libm_within lm k -> near f x e -> near g y d -> e_pow k x e y d = Some v ->
  exists h z e', lm_pow lm f g = Some h /\ r_pow x y = Some z /\ v = VF z e' /\ near h z e'.
Proof.
  unfold e_pow. intros HL (F & N) (G & N') H. destruct (Rlt_dec _ _) as [Hx|Hx].
  - apply Rmax_Rlt in Hx as (H0 & Hx). assert (0 < fr f) by (apply Rabs_le_inv in N; lra).
    destruct (pow_lib_near k lm _ _ _ (Rpower (fr f) (fr g)) f g HL H) as (e' & f' & E & -> & M); auto; [now apply r_pow_pos|now apply rpower_near|].
    exists f', (Rpower x y), e'. rewrite r_pow_pos by exact H0. auto.
  - destruct (Req_EM_T d 0) as [->|]; [|discriminate]. destruct (r_int y) as [n|] eqn:Ey; [|discriminate]. destruct (n <? 0)%Z eqn:En; [discriminate|]. apply Z.ltb_ge in En.
    apply r_int_some in Ey. subst y. assert (Eg : fr g = IZR n). { apply Rminus_diag_uniq. destruct (Req_dec (fr g - IZR n) 0) as [|Hne]; [assumption|]. apply Rabs_pos_lt in Hne. lra. }
    destruct (pow_lib_near k lm _ _ _ (powerRZ (fr f) n) f g HL H) as (e' & f' & E & -> & M); auto; [rewrite Eg; apply r_pow_int; auto|
      rewrite <- (Z2Nat.id n En), <- !pow_powerRZ, Nat2Z.id; now apply pow_near|].
    exists f', (powerRZ x n), e'. rewrite r_pow_int by auto. auto.
Qed.

(* ---- conversions ---- *)
Lemma nearest_near x v : nearest x = VF v (Rabs (rnd x - x)) -> v = x /\ Rabs (rnd x) < top.
Proof. unfold nearest. destruct (Rlt_dec _ _) as [H|]; [|discriminate]. intros E. injection E as <-. auto. Qed.
Lemma nearest_cases x : (nearest x = VN) \/ (nearest x = VF x (Rabs (rnd x - x)) /\ Rabs (rnd x) < top).
Proof. unfold nearest. destruct (Rlt_dec _ _); auto. Qed.
Lemma num_real m e : r_num (NFlt m e) = IZR m * bpow radix2 e.
Proof. cbn. now rewrite bpow_powerRZ. Qed.
Lemma of_near m e x d : nearest (r_num (NFlt m e)) = VF x d -> near (f64_of m e) x d.
Proof.
  rewrite num_real. destruct (nearest_cases (IZR m * bpow radix2 e)) as [->|(-> & H)]; [discriminate|]. intros E. injection E as <- <-.
  destruct (f64_of_ok m e H) as (F & E). split; [exact F|]. rewrite E. apply Rle_refl.
Qed.
Lemma int_near z x d : nearest (IZR z) = VF x d -> near (f64_of z 0) x d /\ x = IZR z.
Proof.
  intros E. assert (Ez : r_num (NFlt z 0) = IZR z) by (rewrite num_real; change (bpow radix2 0) with 1; ring). split.
  - apply of_near. now rewrite Ez.
  - destruct (nearest_cases (IZR z)) as [F|(F & _)]; rewrite F in E; [discriminate|]. now injection E as <- _.
Qed.
Lemma fin_not_inf f : fin f -> f64_inf f = false.
Proof. intros (_ & H). now destruct f. Qed.
Lemma fr_zero f : fin f -> f64_zero f = true -> fr f = 0.
Proof. intros _ H. destruct f; try discriminate. reflexivity. Qed.
Lemma fr_neg f : fin f -> 0 <= fr f -> f64_neg f = false.
Proof.
  intros F H. destruct f as [s|s| |s m e]; cbn in *; auto; [destruct F as (_ & F); discriminate|]. destruct s; auto. exfalso.
  pose proof (F2R_lt_0 radix2 (Float radix2 (Z.neg m) e) ltac:(reflexivity)) as L. unfold fr, BinarySingleNaN.SF2R in H. cbn [cond_Zopp Z.opp] in H. lra.
Qed.

(* ---- Python ---- *)
Lemma py_as_float v w x e : shows_py v w -> as_float v = VF x e -> exists f, py_float w = Some f /\ near f x e.
Proof.
  destruct v as [z|x0 e0|]; cbn; intros Hw E; [|injection E as -> ->|discriminate].
  - subst w. destruct (int_near z x e E) as (N & _). exists (f64_of z 0). cbn. rewrite (fin_not_inf _ (proj1 N)). auto.
  - destruct Hw as (f & -> & H). exists f. auto.
Qed.
Lemma py_un_ok lm k u v w r : libm_within lm k -> shows_py v w -> e_un false k u v = Some r -> exists q, py_un lm u w = Some q /\ shows_py r q.
Proof.
  intros HL Hw H. destruct u.
  { destruct v as [z|x e|]; cbn in *; [|injection H as <-|discriminate].
    - subst w. injection H as <-. eexists. split; [reflexivity|]. reflexivity.
    - destruct Hw as (f & -> & N). eexists. split; [reflexivity|]. exists (SFopp f). split; [reflexivity|]. now apply opp_near. }
  all: cbn [e_un] in H; destruct (as_float v) as [|x e|] eqn:Ea; try discriminate H;
    destruct (py_as_float v w x e Hw Ea) as (f & Ef & N); cbn [py_un]; rewrite Ef.
  - destruct (library_near k lm USin _ _ _ (sin (fr f)) f HL H) as (e' & f' & E & -> & N'); try discriminate; [reflexivity|apply N|eapply Rle_trans; [apply sin_lip|apply N]|].
    rewrite E. eexists. split; [reflexivity|]. exists f'. auto.
  - destruct (library_near k lm UCos _ _ _ (cos (fr f)) f HL H) as (e' & f' & E & -> & N'); try discriminate; [reflexivity|apply N|eapply Rle_trans; [apply cos_lip|apply N]|].
    rewrite E. eexists. split; [reflexivity|]. exists f'. auto.
  - destruct (library_near k lm UExp _ _ _ (exp (fr f)) f HL H) as (e' & f' & E & -> & N'); try discriminate; [reflexivity|apply N|apply exp_near, N|].
    rewrite E. eexists. split; [reflexivity|]. exists f'. auto.
  - destruct (Rlt_dec (Rmax 0 e) x) as [Hx|]; [|discriminate]. apply Rmax_Rlt in Hx as (_ & Hx). assert (0 < fr f) by (destruct N as (_ & N); apply Rabs_le_inv in N; lra).
    destruct (library_near k lm ULog _ _ _ (ln (fr f)) f HL H) as (e' & f' & E & -> & N'); try discriminate; [cbn; destruct (Rlt_dec 0 (fr f)); [reflexivity|lra]|apply N|apply ln_near; [apply N|exact Hx]|].
    rewrite E. eexists. split; [reflexivity|]. exists f'. auto.
  - destruct (Rlt_dec (Rmax 0 e) x) as [Hx|]; [|discriminate]. apply Rmax_Rlt in Hx as (_ & Hx). destruct (sqrt_near _ f x e N Hx H) as (Hp & e' & -> & N').
    rewrite (fr_neg f (proj1 N) (Rlt_le _ _ Hp)). eexists. split; [reflexivity|]. exists (f64_sqrt f). auto.
Qed.
Lemma py_bin_float v w v' w' x e y d : shows_py v w -> shows_py v' w' -> as_float v = VF x e -> as_float v' = VF y d ->
  exists f g, near f x e /\ near g y d /\ forall h, fbin h w w' = match h f g with Some r => Some (PF r) | None => None end.
Proof.
  intros Hw Hw' Ev Ev'. destruct (py_as_float v w x e Hw Ev) as (f & Ef & N), (py_as_float v' w' y d Hw' Ev') as (g & Eg & N').
  exists f, g. split; [exact N|]. split; [exact N'|]. intros h. unfold fbin. now rewrite Ef, Eg.
Qed.
Lemma nearest_div a c q : (c <> 0)%Z -> match nearest (IZR a / IZR c) with VN => None | q => Some q end = Some q ->
  exists f, f64_div (raw a) (raw c) = f /\ f64_inf f = false /\ exists d, q = VF (IZR a / IZR c) d /\ near f (IZR a / IZR c) d.
Proof.
  intros Hc H. destruct (nearest_cases (IZR a / IZR c)) as [E|(E & Ht)]; rewrite E in H; [discriminate|]. injection H as <-.
  destruct (f64_div_raw a c Hc Ht) as (F & Er). eexists. split; [reflexivity|]. split; [now apply fin_not_inf|]. eexists. split; [reflexivity|]. split; [exact F|]. rewrite Er. lra.
Qed.
(* the two kinds of binary operations *)
Definition fcase (k : option R) (b : bop) (x e y d : R) : option approx :=
  match b with
  | BAdd => rounded 0 (x + y) (e + d)
  | BSub => rounded 0 (x - y) (e + d)
  | BMul => rounded eta (x * y) (Rabs x * d + Rabs y * e + e * d)
  | BTruediv => if Rlt_dec (Rmax 0 d) (Rabs y) then rounded eta (x / y) ((e * Rabs y + Rabs x * d) / (Rabs y * (Rabs y - d))) else None
  | BPow => e_pow k x e y d
  | _ => None
  end.
Definition icase (c : bool) (b : bop) (x y : Z) : option approx :=
  match b with
  | BAdd => e_int c (x + y)
  | BSub => e_int c (x - y)
  | BMul => e_int c (x * y)
  | BTruediv => if c || (y =? 0)%Z then None else match nearest (IZR x / IZR y) with VN => None | q => Some q end
  | BPow => if c || (y <? 0)%Z then None else Some (VI (x ^ y))
  | _ => None
  end.
Definition both_int (v w : approx) : Prop := match v, w with VI _, VI _ => True | _, _ => False end.
Lemma e_bin_cases c k b v w r : e_bin c k b v w = Some r ->
  (exists x y, v = VI x /\ w = VI y /\ icase c b x y = Some r) \/
  (~ both_int v w /\ exists x e y d, as_float v = VF x e /\ as_float w = VF y d /\ fcase k b x e y d = Some r).
Proof.
  intros H. destruct v as [z|x e|], w as [z'|y d|].
  - left. exists z, z'. split; [reflexivity|]. split; [reflexivity|]. destruct b; try exact H; exfalso; cbn [e_bin as_float] in H; destruct (nearest (IZR z)), (nearest (IZR z')); discriminate.
  - right. split; [intros []|]. destruct b; cbn [e_bin] in H; destruct (as_float (VI z)) as [|x e|] eqn:E; try discriminate; exists x, e, y, d; auto.
  - exfalso. destruct b; cbn [e_bin] in H; destruct (as_float (VI z)); discriminate.
  - right. split; [intros []|]. destruct b; cbn [e_bin] in H; change (as_float (VF x e)) with (VF x e) in H; cbv iota in H; destruct (as_float (VI z')) as [|y d|] eqn:E; try discriminate; exists x, e, y, d; auto.
  - right. split; [intros []|]. exists x, e, y, d. destruct b; auto.
  - exfalso. destruct b; discriminate.
  - exfalso. destruct b; discriminate.
  - exfalso. destruct b; discriminate.
  - exfalso. destruct b; discriminate.
Qed.
(* a double operation on near operands *)
Lemma fcase_near lm k b x e y d r f g : libm_within lm k -> near f x e -> near g y d -> fcase k b x e y d = Some r ->
  exists h z e', (b = BAdd /\ h = f64_add f g /\ z = x + y \/ b = BSub /\ h = f64_sub f g /\ z = x - y \/ b = BMul /\ h = f64_mul f g /\ z = x * y \/
     b = BTruediv /\ f64_zero g = false /\ h = f64_div f g /\ z = x / y /\ y <> 0 \/
     b = BPow /\ lm_pow lm f g = Some h /\ r_pow x y = Some z) /\ r = VF z e' /\ near h z e'.
Proof.
  intros HL N N' H. destruct b; try discriminate; cbn [fcase] in H.
  - destruct (add_near _ f g x e y d N N' H) as (e' & -> & M). exists (f64_add f g), (x + y), e'. split; [tauto|]. auto.
  - destruct (sub_near _ f g x e y d N N' H) as (e' & -> & M). exists (f64_sub f g), (x - y), e'. split; [tauto|]. auto.
  - destruct (mul_near _ f g x e y d N N' H) as (e' & -> & M). exists (f64_mul f g), (x * y), e'. split; [tauto|]. auto.
  - destruct (Rlt_dec _ _) as [Hd|]; [|discriminate]. apply Rmax_Rlt in Hd as (_ & Hd). destruct (div_near _ f g x e y d N N' Hd H) as (Hz & e' & -> & M). exists (f64_div f g), (x / y), e'. split; [|auto].
    right. right. right. left. split; [reflexivity|]. split; [destruct (f64_zero g) eqn:Eg; auto; exfalso; apply Hz; apply fr_zero; auto; apply N'|]. split; [reflexivity|]. split; [reflexivity|].
    intros ->. pose proof (near_pos _ _ _ N'). rewrite Rabs_R0 in Hd. lra.
  - destruct (e_pow_near k lm x e y d r f g HL N N' H) as (h & z & e' & E & Ez & -> & M). exists h, z, e'. split; [tauto|]. auto.
Qed.
Lemma py_bin_ok lm k b v v' w w' r : libm_within lm k -> shows_py v w -> shows_py v' w' -> e_bin false k b v v' = Some r -> exists q, py_bin lm b w w' = Some q /\ shows_py r q.
Proof.
  intros HL Hw Hw' H. destruct (e_bin_cases _ _ _ _ _ _ H) as [(z & z' & -> & -> & HI)|(Hn & x & e & y & d & Ev & Ew & HF)].
  - cbn in Hw, Hw'. subst w w'. destruct b; try discriminate HI; cbn [icase e_int andb orb] in HI; cbn [py_bin].
    + injection HI as <-. eexists. split; reflexivity.
    + injection HI as <-. eexists. split; reflexivity.
    + injection HI as <-. eexists. split; reflexivity.
    + destruct (Z.eqb_spec z' 0) as [|Hc]; [discriminate|]. destruct (nearest_div z z' r Hc HI) as (f & Ef & Ei & d & -> & N). rewrite Ef. cbv zeta. rewrite Ei.
      eexists. split; [reflexivity|]. exists f. auto.
    + destruct (Z.ltb_spec z' 0); [discriminate|]. injection HI as <-. replace (0 <=? z')%Z with true by (symmetry; apply Z.leb_le; lia). eexists. split; reflexivity.
  - destruct (py_bin_float v w v' w' x e y d Hw Hw' Ev Ew) as (f & g & N & N' & HB).
    assert (HP : forall h, match b with BAdd => h = (fun a c => Some (f64_add a c)) | BSub => h = (fun a c => Some (f64_sub a c)) | BMul => h = (fun a c => Some (f64_mul a c))
        | BTruediv => h = (fun a c => if f64_zero c then None else Some (f64_div a c)) | BPow => h = lm_pow lm | _ => False end -> py_bin lm b w w' = fbin h w w').
    { intros h Hh. destruct b; try contradiction; subst h; destruct w as [a|a], w' as [c|c]; try reflexivity; exfalso; apply Hn;
        (destruct v as [|? ?|]; cbn in Hw; [|destruct Hw as (? & Hw & _); discriminate|cbn in Ev; discriminate]);
        (destruct v' as [|? ?|]; cbn in Hw'; [|destruct Hw' as (? & Hw' & _); discriminate|cbn in Ew; discriminate]); exact I. }
    destruct (fcase_near lm k b x e y d r f g HL N N' HF) as (h & z & e' & HC & -> & M).
    destruct HC as [(-> & -> & ->)|[(-> & -> & ->)|[(-> & -> & ->)|[(-> & Hz & -> & -> & _)|(-> & Hp & _)]]]]; rewrite (HP _ eq_refl), HB.
    1-3: eexists; split; [reflexivity|]; eexists; split; [reflexivity|exact M].
    + rewrite Hz. eexists; split; [reflexivity|]; eexists; split; [reflexivity|exact M].
    + rewrite Hp. eexists; split; [reflexivity|]; eexists; split; [reflexivity|exact M].
Qed.
Lemma py_num_ok n : shows_py (e_num n) (py_num n).
Proof.
  destruct n as [z|m e]; [reflexivity|]. cbn [e_num py_num]. destruct (nearest (r_num (NFlt m e))) as [z|x d|] eqn:E; [|exists (f64_of m e); split; [reflexivity|now apply of_near]|exact I].
  destruct (nearest_cases (r_num (NFlt m e))) as [F|(F & _)]; rewrite F in E; discriminate.
Qed.

(* ---- C ---- *)
Lemma c_as_float v w x e : shows_c v w -> as_float v = VF x e -> near (c_float w) x e.
Proof.
  destruct v as [z|x0 e0|]; cbn; intros Hw E; [|injection E as -> ->|discriminate].
  - destruct Hw as (-> & _). now apply (int_near z x e).
  - destruct Hw as (f & -> & H). exact H.
Qed.
Lemma c_int_ok z r : e_int true z = Some r -> c_fits true z = true /\ r = VI z.
Proof. unfold e_int. cbn [andb]. destruct (c_fits true z); [|discriminate]. cbn. intros H. injection H as <-. auto. Qed.
Lemma c_un_ok lm k u v w r : libm_within lm k -> shows_c v w -> e_un true k u v = Some r -> exists q, c_un lm u w = Some q /\ shows_c r q.
Proof.
  intros HL Hw H. destruct u.
  { destruct v as [z|x e|]; cbn [e_un as_float] in H; [|injection H as <-|discriminate].
    - destruct (c_int_ok _ _ H) as (Hf & ->). destruct Hw as (-> & _). cbn [c_un]. unfold c_int. rewrite Hf. eexists. split; [reflexivity|]. split; [reflexivity|exact Hf].
    - destruct Hw as (f & -> & N). eexists. split; [reflexivity|]. exists (SFopp f). split; [reflexivity|]. now apply opp_near. }
  all: cbn [e_un] in H; destruct (as_float v) as [|x e|] eqn:Ea; try discriminate H;
    pose proof (c_as_float v w x e Hw Ea) as N; cbn [c_un]; set (f := c_float w) in *.
  - destruct (library_near k lm USin _ _ _ (sin (fr f)) f HL H) as (e' & f' & E & -> & N'); try discriminate; [reflexivity|apply N|eapply Rle_trans; [apply sin_lip|apply N]|].
    rewrite E. eexists. split; [reflexivity|]. exists f'. auto.
  - destruct (library_near k lm UCos _ _ _ (cos (fr f)) f HL H) as (e' & f' & E & -> & N'); try discriminate; [reflexivity|apply N|eapply Rle_trans; [apply cos_lip|apply N]|].
    rewrite E. eexists. split; [reflexivity|]. exists f'. auto.
  - destruct (library_near k lm UExp _ _ _ (exp (fr f)) f HL H) as (e' & f' & E & -> & N'); try discriminate; [reflexivity|apply N|apply exp_near, N|].
    rewrite E. eexists. split; [reflexivity|]. exists f'. auto.
  - destruct (Rlt_dec (Rmax 0 e) x) as [Hx|]; [|discriminate]. apply Rmax_Rlt in Hx as (_ & Hx). assert (0 < fr f) by (destruct N as (_ & N); apply Rabs_le_inv in N; lra).
    destruct (library_near k lm ULog _ _ _ (ln (fr f)) f HL H) as (e' & f' & E & -> & N'); try discriminate; [cbn; destruct (Rlt_dec 0 (fr f)); [reflexivity|lra]|apply N|apply ln_near; [apply N|exact Hx]|].
    rewrite E. eexists. split; [reflexivity|]. exists f'. auto.
  - destruct (Rlt_dec (Rmax 0 e) x) as [Hx|]; [|discriminate]. apply Rmax_Rlt in Hx as (_ & Hx). destruct (sqrt_near _ f x e N Hx H) as (Hp & e' & -> & N').
    eexists. split; [reflexivity|]. exists (f64_sqrt f). auto.
Qed.
Lemma c_bin_ok lm k b v v' w w' r : libm_within lm k -> shows_c v w -> shows_c v' w' -> e_bin true k b v v' = Some r -> exists q, c_bin lm b w w' = Some q /\ shows_c r q.
Proof.
  intros HL Hw Hw' H. destruct (e_bin_cases _ _ _ _ _ _ H) as [(z & z' & -> & -> & HI)|(Hn & x & e & y & d & Ev & Ew & HF)].
  - destruct Hw as (-> & _), Hw' as (-> & _). destruct b; try discriminate HI; cbn [icase orb] in HI; try discriminate HI; destruct (c_int_ok _ _ HI) as (Hf & ->);
      cbn [c_bin c_ints]; unfold c_int; rewrite Hf; eexists; (split; [reflexivity|]); (split; [reflexivity|exact Hf]).
  - pose proof (c_as_float _ _ _ _ Hw Ev) as N. pose proof (c_as_float _ _ _ _ Hw' Ew) as N'.
    assert (HI : c_ints w w' = None).
    { destruct v as [z|x0 e0|], v' as [z'|y0 d0|]; try (cbn in Ev; discriminate); try (cbn in Ew; discriminate); [exfalso; exact (Hn I)|..].
      - destruct Hw as (-> & _), Hw' as (? & -> & _). reflexivity.
      - destruct Hw as (? & -> & _), Hw' as (-> & _). reflexivity.
      - destruct Hw as (? & -> & _), Hw' as (? & -> & _). reflexivity. }
    destruct (fcase_near lm k b x e y d r _ _ HL N N' HF) as (h & z & e' & HC & -> & M).
    destruct HC as [(-> & -> & ->)|[(-> & -> & ->)|[(-> & -> & ->)|[(-> & Hz & -> & -> & _)|(-> & Hp & _)]]]]; cbn [c_bin]; rewrite ?HI, ?Hp; eexists; (split; [reflexivity|]); eexists; (split; [reflexivity|exact M]).
Qed.
Lemma c_coerce_ok dt v w : shows_c v w -> shows_c (e_coerce true dt v) (c_coerce dt w).
Proof.
  intros H. destruct dt; cbn [e_coerce c_coerce].
  1,2: destruct v as [z|x e|]; try exact I; destruct H as (-> & Hf); rewrite Hf; split; [|exact Hf]; rewrite wrap64_small; [reflexivity|];
    unfold c_fits in Hf; apply andb_prop in Hf as (A1 & A2); apply Z.leb_le in A1; apply Z.ltb_lt in A2; lia.
  all: destruct (as_float v) as [z|x e|] eqn:E; [destruct v as [z0| |]; cbn in E; [|discriminate..]; destruct (nearest_cases (IZR z0)) as [F|(F & _)]; rewrite F in E; discriminate|eexists; split; [reflexivity|exact (c_as_float _ _ _ _ H E)]|exact I].
Qed.
(* constants: ctypes converts the numbers of the list *)
Lemma c_num_ok dt n : shows_c (e_coerce true dt (e_num n)) (c_coerce dt (c_num n)).
Proof.
  assert (K : forall w x, nearest x = VF x (Rabs (rnd x - x)) \/ nearest x = VN -> (forall d, nearest x = VF x d -> near (c_float w) x d) -> shows_c (nearest x) (CF (c_float w))).
  { intros w x [E|E] Hk; rewrite E; [|exact I]. eexists. split; [reflexivity|]. exact (Hk _ E). }
  assert (C : forall x, nearest x = VF x (Rabs (rnd x - x)) \/ nearest x = VN) by (intros x; destruct (nearest_cases x) as [F|(F & _)]; auto).
  destruct n as [z|m e].
  - assert (HZ : shows_c (nearest (IZR z)) (CF (c_float (c_num (NInt z))))).
    { apply K; [apply C|]. intros d E. cbn [c_num]. destruct (int_near z _ d E) as (N & _). now destruct (c_fits false z). }
    destruct dt; cbn [e_coerce e_num as_float]; try exact HZ.
    1,2: destruct (c_fits true z) eqn:Hf; [|exact I]; split; [|exact Hf]; cbn [c_num]; unfold c_fits in Hf; apply andb_prop in Hf as (A1 & A2); apply Z.leb_le in A1; apply Z.ltb_lt in A2;
      destruct (c_fits false z); cbn [c_coerce]; now rewrite wrap64_small by lia.
  - assert (HF : shows_c (nearest (r_num (NFlt m e))) (CF (f64_of m e))).
    { apply (K (CF (f64_of m e))); [apply C|]. intros d E. cbn [c_float]. now apply of_near. }
    destruct dt; cbn [e_coerce e_num c_num c_coerce c_float]; [| |destruct (C (r_num (NFlt m e))) as [E|E]; rewrite E in *; exact HF..].
    all: destruct (C (r_num (NFlt m e))) as [E|E]; rewrite E; exact I.
Qed.

(* ---- the exact component is real arithmetic ---- *)
Lemma as_float_exact v x e r : as_float v = VF x e -> exactly v r -> r = x.
Proof.
  destruct v as [z|x0 e0|]; cbn; [|now injection 1 as -> ->|discriminate]. intros E ->. now destruct (int_near z x e E).
Qed.
Lemma rounded_exact t x e v : rounded t x e = Some v -> exactly v x.
Proof. unfold rounded. destruct (Rle_dec _ _); [|discriminate]. injection 1 as <-. reflexivity. Qed.
Lemma library_exact k x e v : library k x e = Some v -> exactly v x.
Proof. unfold library. destruct k as [q|]; [|discriminate]. destruct (Rle_dec _ _); [|discriminate]. injection 1 as <-. reflexivity. Qed.
Lemma e_int_exact c z v : e_int c z = Some v -> exactly v (IZR z).
Proof. unfold e_int. destruct (_ && _); [discriminate|]. injection 1 as <-. reflexivity. Qed.
Lemma nearest_exact x : exactly (nearest x) x.
Proof. unfold nearest. destruct (Rlt_dec _ _); [reflexivity|exact I]. Qed.
Lemma un_exact c k u v r x : exactly v x -> e_un c k u v = Some r -> exists y, r_un u x = Some y /\ exactly r y.
Proof.
  intros Hx H. destruct u.
  { eexists. split; [reflexivity|]. destruct v as [z|x0 e0|]; cbn [e_un as_float] in H; [|injection H as <-; cbn in *; now subst|discriminate].
    cbn in Hx. subst x. rewrite <- opp_IZR. exact (e_int_exact _ _ _ H). }
  all: cbn [e_un] in H; destruct (as_float v) as [|x0 e|] eqn:Ea; try discriminate H; pose proof (as_float_exact _ _ _ _ Ea Hx); subst x0; cbn [r_un].
  1-3: eexists; split; [reflexivity|]; eapply library_exact; exact H.
  - destruct (Rlt_dec _ _) as [Hl|]; [|discriminate]. apply Rmax_Rlt in Hl as (Hl & _). destruct (Rlt_dec 0 x); [|lra]. eexists; split; [reflexivity|]; eapply library_exact; exact H.
  - destruct (Rlt_dec _ _) as [Hl|]; [|discriminate]. apply Rmax_Rlt in Hl as (Hl & _). destruct (Rle_dec 0 x); [|lra]. eexists; split; [reflexivity|]; eapply rounded_exact; exact H.
Qed.
Lemma bin_exact c k b v w r x y : exactly v x -> exactly w y -> e_bin c k b v w = Some r -> exists q, r_bin b x y = Some q /\ exactly r q.
Proof.
  intros Hx Hy H. destruct (e_bin_cases _ _ _ _ _ _ H) as [(z & z' & -> & -> & HI)|(_ & x0 & e & y0 & d & Ev & Ew & HF)].
  - cbn in Hx, Hy. subst x y. destruct b; try discriminate HI; cbn [icase] in HI; cbn [r_bin].
    + eexists. split; [reflexivity|]. rewrite <- plus_IZR. exact (e_int_exact _ _ _ HI).
    + eexists. split; [reflexivity|]. rewrite <- minus_IZR. exact (e_int_exact _ _ _ HI).
    + eexists. split; [reflexivity|]. rewrite <- mult_IZR. exact (e_int_exact _ _ _ HI).
    + destruct (c || (z' =? 0)%Z) eqn:Eo; [discriminate|]. apply Bool.orb_false_elim in Eo as (_ & Ez). apply Z.eqb_neq in Ez.
      destruct (Req_EM_T (IZR z') 0) as [E0|]; [apply eq_IZR in E0; contradiction|]. eexists. split; [reflexivity|].
      pose proof (nearest_exact (IZR z / IZR z')) as N. destruct (nearest (IZR z / IZR z')); try discriminate; injection HI as <-; exact N.
    + destruct (c || (z' <? 0)%Z) eqn:Eo; [discriminate|]. apply Bool.orb_false_elim in Eo as (_ & Ez). apply Z.ltb_ge in Ez. injection HI as <-.
      rewrite r_pow_int by (right; exact Ez). eexists. split; [reflexivity|]. change (powerRZ (IZR z) z' = IZR (z ^ z')).
      rewrite <- (Z2Nat.id z' Ez), <- pow_powerRZ. apply pow_IZR.
  - rewrite (as_float_exact _ _ _ _ Ev Hx), (as_float_exact _ _ _ _ Ew Hy). destruct b; try discriminate HF; cbn [fcase] in HF; cbn [r_bin].
    1-3: eexists; split; [reflexivity|]; eapply rounded_exact; exact HF.
    + destruct (Rlt_dec _ _) as [Hl|]; [|discriminate]. apply Rmax_Rlt in Hl as (Hl & _). destruct (Req_EM_T y0 0) as [->|]; [rewrite Rabs_R0 in Hl; lra|].
      eexists; split; [reflexivity|]; eapply rounded_exact; exact HF.
    + unfold e_pow in HF. destruct (Rlt_dec _ _) as [Hl|]; [apply Rmax_Rlt in Hl as (Hl & _); rewrite r_pow_pos by exact Hl; eexists; split; [reflexivity|]; eapply library_exact; exact HF|].
      destruct (Req_EM_T d 0); [|discriminate]. destruct (r_int y0) as [m|] eqn:Ey; [|discriminate]. destruct (m <? 0)%Z eqn:En; [discriminate|]. apply Z.ltb_ge in En.
      apply r_int_some in Ey. subst y0. rewrite r_pow_int by auto. eexists; split; [reflexivity|]; eapply library_exact; exact HF.
Qed.
Lemma coerce_exact c dt v x : exactly v x -> exactly (e_coerce c dt v) x.
Proof.
  intros H. destruct c; [|exact H]. destruct dt; cbn [e_coerce].
  1,2: destruct v as [z|? ?|]; try exact I; destruct (c_fits true z); [exact H|exact I].
  all: destruct v as [z|? ?|]; try exact H; cbn in *; subst; apply nearest_exact.
Qed.
Lemma num_exact n : exactly (e_num n) (r_num n).
Proof. destruct n; [reflexivity|apply nearest_exact]. Qed.

(* ---- every node of every graph ---- *)
Lemma agrees_exact c k g nd : node_agrees (ebound c k) RA exactly g nd.
Proof.
  assert (HB : forall dt b, bin_agrees (ebound c k) RA exactly dt b).
  { intros dt b x y x' y' v Hx Hy H. unfold op2 in *. cbn in *. destruct (e_bin c k b x x') as [r|] eqn:E; [|discriminate]. cbn in H. injection H as <-.
    destruct (bin_exact c k b x x' r y y' Hx Hy E) as (q & -> & Hq). eexists. split; [reflexivity|]. now apply coerce_exact. }
  assert (HZ : forall dt, exactly (zero_of (ebound c k) dt) (zero_of RA dt)) by (intros dt; apply coerce_exact; reflexivity).
  unfold node_agrees. destruct (n_op nd); auto.
  - apply Forall_forall. intros n _. apply coerce_exact, num_exact.
  - intros x y v Hx H. unfold op1 in *. cbn in *. destruct (e_un c k u x) as [r|] eqn:E; [|discriminate]. cbn in H. injection H as <-.
    destruct (un_exact c k u x r y Hx E) as (q & -> & Hq). eexists. split; [reflexivity|]. now apply coerce_exact.
  - split; [apply HB|]. split; [|left; apply HZ]. intros x y v Hx H. exact (HB _ _ _ _ _ _ _ (HZ _) Hx H).
Qed.
Lemma agrees_py lm k g nd : libm_within lm k -> node_agrees (ebound false k) (py_alg lm) shows_py g nd.
Proof.
  intros HL.
  assert (HB : forall dt b, bin_agrees (ebound false k) (py_alg lm) shows_py dt b).
  { intros dt b x y x' y' v Hx Hy H. unfold op2 in *. cbn in *. destruct (e_bin false k b x x') as [r|] eqn:E; [|discriminate]. cbn in H. injection H as <-.
    destruct (py_bin_ok lm k b x x' y y' r HL Hx Hy E) as (q & -> & Hq). eexists. split; [reflexivity|exact Hq]. }
  assert (HZ : forall dt, shows_py (zero_of (ebound false k) dt) (zero_of (py_alg lm) dt)) by reflexivity.
  unfold node_agrees. destruct (n_op nd); auto; try apply HZ.
  - apply Forall_forall. intros n _. apply py_num_ok.
  - intros x y v Hx H. unfold op1 in *. cbn in *. destruct (e_un false k u x) as [r|] eqn:E; [|discriminate]. cbn in H. injection H as <-.
    destruct (py_un_ok lm k u x y r HL Hx E) as (q & -> & Hq). eexists. split; [reflexivity|exact Hq].
  - split; [apply HB|]. split; [|left; apply HZ]. intros x y v Hx H. exact (HB _ _ _ _ _ _ _ (HZ _) Hx H).
Qed.
Lemma agrees_c lm k g nd : libm_within lm k -> node_agrees (ebound true k) (c_alg lm) shows_c g nd.
Proof.
  intros HL.
  assert (HB : forall dt b, bin_agrees (ebound true k) (c_alg lm) shows_c dt b).
  { intros dt b x y x' y' v Hx Hy H. unfold op2 in *. cbn [bin ebound c_alg] in *. destruct (e_bin true k b x x') as [r|] eqn:E; [|discriminate]. cbn in H. injection H as <-.
    destruct (c_bin_ok lm k b x x' y y' r HL Hx Hy E) as (q & -> & Hq). eexists. split; [reflexivity|]. now apply (c_coerce_ok dt). }
  assert (HZ : forall dt, shows_c (zero_of (ebound true k) dt) (zero_of (c_alg lm) dt)) by (intros dt; exact (c_num_ok dt (NInt 0))).
  unfold node_agrees. destruct (n_op nd); auto; try apply HZ.
  - apply Forall_forall. intros n _. apply c_num_ok.
  - intros x y v Hx H. unfold op1 in *. cbn [un ebound c_alg] in *. destruct (e_un true k u x) as [r|] eqn:E; [|discriminate]. cbn in H. injection H as <-.
    destruct (c_un_ok lm k u x y r HL Hx E) as (q & -> & Hq). eexists. split; [reflexivity|]. now apply (c_coerce_ok (n_dtype nd)).
  - split; [apply HB|]. split; [|left; apply HZ]. intros x y v Hx H. exact (HB _ _ _ _ _ _ _ (HZ _) Hx H).
Qed.
