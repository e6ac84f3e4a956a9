(* The double arithmetic of LangInst.v (Coq's SpecFloat) is IEEE: every operation returns the exact real result
   rounded to nearest, ties to even.  Bridges to Flocq's theorems. *)
From Coq Require Import Reals Lra ZArith Floats.SpecFloat.
From Flocq Require Import Core BinarySingleNaN Relative Plus_error.
From Verif Require Import Base Lang LangInst.
Local Open Scope R_scope.

(* the real number a float stands for; rounding to the nearest double *)
Definition fr (f : sf) : R := SF2R radix2 f.
Definition rnd (x : R) : R := round radix2 (FLT_exp (-1074) 53) ZnearestE x.
(* a finite double *)
Definition fin (f : sf) : Prop := valid_binary 53 1024 f = true /\ is_finite_SF f = true.
Definition top : R := bpow radix2 1024.
Definition uu : R := bpow radix2 (-53).
Definition eta : R := bpow radix2 (-1075).
Definition maxf : R := bpow radix2 1024 - bpow radix2 971.

#[local] Instance Hprec : Prec_gt_0 53 := eq_refl _.
#[local] Instance Hmax : Prec_lt_emax 53 1024 := eq_refl _.

Lemma ne_equiv s m l : round_nearest_even m l = choice_mode mode_NE s m l.
Proof. case l; [reflexivity|intro c]. case c; [|reflexivity..]. now simpl; unfold Round.cond_incr; case Z.even. Qed.
Lemma aux_equiv sx mx ex lx : SpecFloat.binary_round_aux 53 1024 sx mx ex lx = binary_round_aux 53 1024 mode_NE sx mx ex lx.
Proof.
  unfold SpecFloat.binary_round_aux, binary_round_aux. set (mrse' := shr_fexp _ _ _). case mrse'; intros mrs' e'; simpl. now rewrite (ne_equiv sx).
Qed.
Lemma round_equiv s m e : SpecFloat.binary_round 53 1024 s m e = binary_round 53 1024 mode_NE s m e.
Proof. unfold SpecFloat.binary_round, binary_round, shl_align_fexp. set (mez := shl_align _ _ _); case mez as [mz ez]. apply aux_equiv. Qed.
Lemma norm_equiv m e sz : SpecFloat.binary_normalize 53 1024 m e sz = B2SF (binary_normalize 53 1024 Hprec Hmax mode_NE m e sz).
Proof. case m as [|p|p]; [now simpl|..]; simpl; rewrite B2SF_SF2B; apply round_equiv. Qed.
Definition bf : sf -> forall f, valid_binary 53 1024 f = true -> binary_float 53 1024 := fun _ f H => SF2B f H.

Lemma fin_B f : fin f -> exists b : binary_float 53 1024, B2SF b = f /\ is_finite b = true /\ B2R b = fr f.
Proof.
  intros (Hv & Hf). exists (SF2B f Hv). split; [apply B2SF_SF2B|]. split; [now rewrite is_finite_SF2B|]. apply B2R_SF2B.
Qed.
Lemma B_fin (b : binary_float 53 1024) : is_finite b = true -> fin (B2SF b).
Proof. intros H. split; [apply valid_binary_B2SF|now rewrite is_finite_SF_B2SF]. Qed.
Lemma B_fr (b : binary_float 53 1024) : fr (B2SF b) = B2R b.
Proof. apply SF2R_B2SF. Qed.

Lemma fin_format f : fin f -> generic_format radix2 (FLT_exp (-1074) 53) (fr f).
Proof. intros H. destruct (fin_B f H) as (b & _ & _ & <-). apply (generic_format_B2R 53 1024). Qed.

Lemma add_equiv (x y : binary_float 53 1024) : f64_add (B2SF x) (B2SF y) = B2SF (Bplus mode_NE x y).
Proof. destruct x, y; [now (trivial || simpl; case Bool.eqb)..|]. apply norm_equiv. Qed.
Lemma sub_equiv (x y : binary_float 53 1024) : f64_sub (B2SF x) (B2SF y) = B2SF (Bminus mode_NE x y).
Proof. destruct x, y; [now (trivial || simpl; case Bool.eqb)..|]. simpl. unfold Zminus. rewrite <- cond_Zopp_negb. apply norm_equiv. Qed.
Lemma mul_equiv (x y : binary_float 53 1024) : f64_mul (B2SF x) (B2SF y) = B2SF (Bmult mode_NE x y).
Proof. destruct x, y; [now trivial..|]. simpl. rewrite B2SF_SF2B. apply aux_equiv. Qed.
Lemma div_equiv (x y : binary_float 53 1024) : f64_div (B2SF x) (B2SF y) = B2SF (Bdiv mode_NE x y).
Proof.
  destruct x, y; [now (trivial || simpl; case Bool.eqb)..|]. simpl. rewrite B2SF_SF2B. set (melz := SFdiv_core_binary _ _ _ _ _ _). case melz as [[mz ez] lz]. apply aux_equiv.
Qed.
Lemma sqrt_equiv (x : binary_float 53 1024) : f64_sqrt (B2SF x) = B2SF (Bsqrt mode_NE x).
Proof.
  destruct x as [sx|sx| |sx mx ex Bx]; [now (trivial || case sx)..|]. case sx; [reflexivity|]. simpl. rewrite B2SF_SF2B.
  set (melz := SFsqrt_core_binary _ _ _ _). case melz as [[mz ez] lz]. apply aux_equiv.
Qed.

(* ---- the operations ---- *)
Lemma f64_of_ok m e : Rabs (rnd (IZR m * bpow radix2 e)) < top -> fin (f64_of m e) /\ fr (f64_of m e) = rnd (IZR m * bpow radix2 e).
Proof.
  intros H. unfold f64_of. rewrite norm_equiv. pose proof (binary_normalize_correct 53 1024 Hprec Hmax mode_NE m e false) as C. cbv zeta in C.
  rewrite Rlt_bool_true in C by exact H. destruct C as (C1 & C2 & _). split; [now apply B_fin|]. rewrite B_fr. exact C1.
Qed.
Lemma f64_add_ok a b : fin a -> fin b -> Rabs (rnd (fr a + fr b)) < top -> fin (f64_add a b) /\ fr (f64_add a b) = rnd (fr a + fr b).
Proof.
  intros Ha Hb H. destruct (fin_B a Ha) as (x & <- & Fx & Ex), (fin_B b Hb) as (y & <- & Fy & Ey). rewrite <- Ex, <- Ey in *. rewrite add_equiv.
  pose proof (Bplus_correct 53 1024 Hprec Hmax mode_NE x y Fx Fy) as C. rewrite Rlt_bool_true in C by exact H. destruct C as (C1 & C2 & _).
  split; [now apply B_fin|]. rewrite B_fr. exact C1.
Qed.
Lemma f64_sub_ok a b : fin a -> fin b -> Rabs (rnd (fr a - fr b)) < top -> fin (f64_sub a b) /\ fr (f64_sub a b) = rnd (fr a - fr b).
Proof.
  intros Ha Hb H. destruct (fin_B a Ha) as (x & <- & Fx & Ex), (fin_B b Hb) as (y & <- & Fy & Ey). rewrite <- Ex, <- Ey in *. rewrite sub_equiv.
  pose proof (Bminus_correct 53 1024 Hprec Hmax mode_NE x y Fx Fy) as C. rewrite Rlt_bool_true in C by exact H. destruct C as (C1 & C2 & _).
  split; [now apply B_fin|]. rewrite B_fr. exact C1.
Qed.
Lemma f64_mul_ok a b : fin a -> fin b -> Rabs (rnd (fr a * fr b)) < top -> fin (f64_mul a b) /\ fr (f64_mul a b) = rnd (fr a * fr b).
Proof.
  intros Ha Hb H. destruct (fin_B a Ha) as (x & <- & Fx & Ex), (fin_B b Hb) as (y & <- & Fy & Ey). rewrite <- Ex, <- Ey in *. rewrite mul_equiv.
  pose proof (Bmult_correct 53 1024 Hprec Hmax mode_NE x y) as C. rewrite Rlt_bool_true in C by exact H. destruct C as (C1 & C2 & _).
  split; [apply B_fin; rewrite C2, Fx, Fy; reflexivity|]. rewrite B_fr. exact C1.
Qed.
Lemma f64_div_ok a b : fin a -> fin b -> fr b <> 0 -> Rabs (rnd (fr a / fr b)) < top -> fin (f64_div a b) /\ fr (f64_div a b) = rnd (fr a / fr b).
Proof.
  intros Ha Hb Hz H. destruct (fin_B a Ha) as (x & <- & Fx & Ex), (fin_B b Hb) as (y & <- & Fy & Ey). rewrite <- Ex, <- Ey in *. rewrite div_equiv.
  pose proof (Bdiv_correct 53 1024 Hprec Hmax mode_NE x y Hz) as C. rewrite Rlt_bool_true in C by exact H. destruct C as (C1 & C2 & _).
  split; [apply B_fin; rewrite C2; exact Fx|]. rewrite B_fr. exact C1.
Qed.
Lemma f64_sqrt_ok a : fin a -> 0 <= fr a -> fin (f64_sqrt a) /\ fr (f64_sqrt a) = rnd (sqrt (fr a)).
Proof.
  intros Ha Hz. destruct (fin_B a Ha) as (x & <- & Fx & Ex). rewrite <- Ex in *. rewrite sqrt_equiv.
  destruct (Bsqrt_correct 53 1024 Hprec Hmax mode_NE x) as (C1 & C2 & _). split; [|rewrite B_fr; exact C1].
  apply B_fin. rewrite C2. destruct x as [s|s| |s m e Hx]; try discriminate; auto. destruct s; auto. exfalso. cbn in Hz.
  apply Rle_not_lt in Hz. apply Hz. now apply F2R_lt_0.
Qed.
Lemma SFopp_ok a : fin a -> fin (SFopp a) /\ fr (SFopp a) = - fr a.
Proof.
  intros Ha. destruct (fin_B a Ha) as (x & <- & Fx & Ex). rewrite <- Ex.
  assert (E : SFopp (B2SF x) = B2SF (Bopp x)) by now destruct x. rewrite E. split; [apply B_fin; now rewrite is_finite_Bopp|]. rewrite B_fr. apply B2R_Bopp.
Qed.
(* int / int in Python: the exact quotient of the integers, rounded once *)
Lemma f64_div_raw a c : (c <> 0)%Z -> Rabs (rnd (IZR a / IZR c)) < top -> fin (f64_div (raw a) (raw c)) /\ fr (f64_div (raw a) (raw c)) = rnd (IZR a / IZR c).
Proof.
  intros Hc H.
  assert (Z0 : rnd 0 = 0) by (apply round_0; typeclasses eauto).
  assert (K : forall sx mx sy my, IZR a = F2R (Float radix2 (cond_Zopp sx (Zpos mx)) 0) -> IZR c = F2R (Float radix2 (cond_Zopp sy (Zpos my)) 0) ->
    fin (f64_div (S754_finite sx mx 0) (S754_finite sy my 0)) /\ fr (f64_div (S754_finite sx mx 0) (S754_finite sy my 0)) = rnd (IZR a / IZR c)).
  { intros sx mx sy my Ea Ec. pose proof (Bdiv_correct_aux 53 1024 Hprec Hmax mode_NE sx mx 0 sy my 0) as C. cbv zeta in C. rewrite <- Ea, <- Ec in C.
    unfold f64_div. cbn [SFdiv]. destruct (SFdiv_core_binary 53 1024 (Z.pos mx) 0 (Z.pos my) 0) as [[mz ez] lz]. rewrite aux_equiv. destruct C as (C0 & C).
    rewrite Rlt_bool_true in C by exact H. destruct C as (C1 & C2 & _). split; [split; assumption|exact C1]. }
  assert (I : forall (s : bool) p, IZR (if s then Zneg p else Zpos p) = F2R (Float radix2 (cond_Zopp s (Zpos p)) 0)).
  { intros s p. unfold F2R. cbn. destruct s; cbn; now rewrite Rmult_1_r. }
  destruct c as [|q|q]; [congruence|..]; destruct a as [|p|p]; cbn [raw].
  - split; [split; reflexivity|]. unfold Rdiv. rewrite Rmult_0_l, Z0. reflexivity.
  - exact (K false p false q (I false p) (I false q)).
  - exact (K true p false q (I true p) (I false q)).
  - split; [split; reflexivity|]. unfold Rdiv. rewrite Rmult_0_l, Z0. reflexivity.
  - exact (K false p true q (I false p) (I true q)).
  - exact (K true p true q (I true p) (I true q)).
Qed.

(* ---- rounding errors ---- *)
Lemma rnd_top x : Rabs x <= maxf -> Rabs (rnd x) < top.
Proof.
  intros H. assert (F : generic_format radix2 (FLT_exp (-1074) 53) maxf).
  { unfold maxf. replace (bpow radix2 1024 - bpow radix2 971) with (F2R (Float radix2 (2 ^ 53 - 1) 971)).
    - apply generic_format_FLT. exists (Float radix2 (2 ^ 53 - 1) 971); [reflexivity|cbn; lia|cbn; lia].
    - unfold F2R. cbn [Fnum Fexp]. rewrite minus_IZR. replace (IZR (2 ^ 53)) with (bpow radix2 53) by reflexivity. rewrite Rmult_minus_distr_r, <- bpow_plus, Rmult_1_l. reflexivity. }
  apply Rle_lt_trans with maxf; [|unfold maxf, top; pose proof (bpow_gt_0 radix2 971); lra].
  unfold rnd. apply abs_round_le_generic; auto; typeclasses eauto.
Qed.
Lemma u_ro_uu : u_ro radix2 53 = uu.
Proof. unfold u_ro, uu. replace (/ 2) with (bpow radix2 (-1)) by reflexivity. rewrite <- bpow_plus. reflexivity. Qed.
Lemma uu_pos : 0 < uu. Proof. apply bpow_gt_0. Qed.
Lemma eta_pos : 0 < eta. Proof. apply bpow_gt_0. Qed.
Lemma rnd_err x : Rabs (rnd x - x) <= uu * Rabs x + eta.
Proof.
  destruct (relative_error_N_FLT'_ex radix2 (-1074) 53 Hprec (fun x => negb (Z.even x)) x) as (eps & et & H1 & H2 & _ & H4).
  fold (rnd x) in H4. rewrite H4. rewrite u_ro_uu in H1. assert (HU : Rabs eps <= uu).
  { pose proof (u_rod1pu_ro_le_u_ro radix2 53) as HH. rewrite u_ro_uu in HH. lra. }
  replace (x * (1 + eps) + et - x) with (eps * x + et) by ring. eapply Rle_trans; [apply Rabs_triang|]. rewrite Rabs_mult.
  apply Rplus_le_compat; [apply Rmult_le_compat_r; [apply Rabs_pos|exact HU]|].
  assert (E : eta = / 2 * bpow radix2 (-1074)). { unfold eta. replace (/ 2) with (bpow radix2 (-1)) by reflexivity. rewrite <- bpow_plus. reflexivity. }
  now rewrite E.
Qed.
(* a sum or difference of doubles has no underflow error *)
Lemma rnd_plus_err x y : generic_format radix2 (FLT_exp (-1074) 53) x -> generic_format radix2 (FLT_exp (-1074) 53) y -> Rabs (rnd (x + y) - (x + y)) <= uu * Rabs (x + y).
Proof.
  intros Fx Fy. destruct (FLT_plus_error_N_ex radix2 (-1074) 53 (fun x => negb (Z.even x)) x y Fx Fy) as (eps & H1 & H2). fold (rnd (x + y)) in H2. rewrite H2.
  rewrite u_ro_uu in H1. assert (HU : Rabs eps <= uu). { pose proof (u_rod1pu_ro_le_u_ro radix2 53) as HH. rewrite u_ro_uu in HH. lra. }
  replace ((x + y) * (1 + eps) - (x + y)) with (eps * (x + y)) by ring. rewrite Rabs_mult. apply Rmult_le_compat_r; [apply Rabs_pos|exact HU].
Qed.
