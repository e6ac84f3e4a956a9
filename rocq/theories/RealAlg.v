(* Exact real arithmetic as an element arithmetic, and differentiation of possibly undefined
   real expressions.  Uses the standard library's reals and Coquelicot's is_derive. *)
From Coq Require Import Reals Lra.
From Coquelicot Require Import Coquelicot.
From Verif Require Import Base Lang Spec.
Local Open Scope R_scope.

(* the integer a real is equal to, if any *)
Definition r_int (y : R) : option Z := if Req_EM_T y (IZR (Int_part y)) then Some (Int_part y) else None.

(* x ** y: integer exponents for every base (0 only with exponent >= 0), real exponents for x > 0 *)
Definition r_pow (x y : R) : option R :=
  match r_int y with
  | Some z => if Req_EM_T x 0 then (if (z <? 0)%Z then None else Some (powerRZ x z)) else Some (powerRZ x z)
  | None => if Rlt_dec 0 x then Some (Rpower x y) else None
  end.
Definition r_un (u : uop) (x : R) : option R :=
  match u with
  | UNeg => Some (- x)
  | USin => Some (sin x)
  | UCos => Some (cos x)
  | UExp => Some (exp x)
  | ULog => if Rlt_dec 0 x then Some (ln x) else None
  | USqrt => if Rle_dec 0 x then Some (sqrt x) else None
  end.
Definition r_bin (b : bop) (x y : R) : option R :=
  match b with
  | BAdd => Some (x + y)
  | BSub => Some (x - y)
  | BMul => Some (x * y)
  | BTruediv => if Req_EM_T y 0 then None else Some (x / y)
  | BPow => r_pow x y
  | _ => None                 (* //, % and comparisons are not part of the public array API *)
  end.
Definition r_num (v : num) : R := match v with NInt z => IZR z | NFlt m e => IZR m * powerRZ 2 e end.
Definition RA : valg := mkValg R r_num r_un r_bin (fun _ v => v).
Lemma RA_co : forall dt v, coerce RA dt v = v.
Proof. reflexivity. Qed.

Lemma r_int_IZR z : r_int (IZR z) = Some z.
Proof.
  unfold r_int. assert (E : Int_part (IZR z) = z).
  { destruct (base_Int_part (IZR z)) as (H1 & H2). apply Z.le_antisymm.
    - apply le_IZR. lra.
    - assert (IZR z < IZR (Int_part (IZR z) + 1)) by (rewrite plus_IZR; lra). apply lt_IZR in H. lia. }
  rewrite E. destruct (Req_EM_T (IZR z) (IZR z)); congruence.
Qed.
Lemma r_int_some y z : r_int y = Some z -> y = IZR z.
Proof. unfold r_int. destruct (Req_EM_T _ _); [|discriminate]. now injection 1 as <-. Qed.
Lemma r_pow_pos x y : 0 < x -> r_pow x y = Some (Rpower x y).
Proof.
  intros H. unfold r_pow. destruct (r_int y) as [z|] eqn:E.
  - apply r_int_some in E. subst y. destruct (Req_EM_T x 0); [lra|]. f_equal. now apply powerRZ_Rpower.
  - destruct (Rlt_dec 0 x); [reflexivity|lra].
Qed.
Lemma r_pow_int x z : (x <> 0 \/ (0 <= z)%Z) -> r_pow x (IZR z) = Some (powerRZ x z).
Proof.
  intros H. unfold r_pow. rewrite r_int_IZR. destruct (Req_EM_T x 0); [|reflexivity].
  destruct (z <? 0)%Z eqn:E; [|reflexivity]. apply Z.ltb_lt in E. destruct H; [contradiction|lia].
Qed.

(* ---- finite sums ---- *)
Fixpoint rsum {X} (l : list X) (f : X -> R) : R := match l with [] => 0 | x :: r => f x + rsum r f end.
Lemma rsum_ext {X} (l : list X) f g : (forall x, In x l -> f x = g x) -> rsum l f = rsum l g.
Proof. induction l as [|x l IH]; intros H; cbn; [reflexivity|]. rewrite (H x) by now left. rewrite IH; [reflexivity|]. intros; apply H; now right. Qed.
Lemma rsum_plus {X} (l : list X) f g : rsum l (fun x => f x + g x) = rsum l f + rsum l g.
Proof. induction l as [|x l IH]; cbn; [lra|]. rewrite IH. lra. Qed.
Lemma rsum_scal {X} (l : list X) c f : rsum l (fun x => c * f x) = c * rsum l f.
Proof. induction l as [|x l IH]; cbn; [lra|]. rewrite IH. lra. Qed.
Lemma rsum_zero {X} (l : list X) f : (forall x, In x l -> f x = 0) -> rsum l f = 0.
Proof. induction l as [|x l IH]; intros H; cbn; [reflexivity|]. rewrite (H x) by now left. rewrite IH; [lra|]. intros; apply H; now right. Qed.
Lemma rsum_swap {X Y} (l : list X) (m : list Y) f : rsum l (fun x => rsum m (fun y => f x y)) = rsum m (fun y => rsum l (fun x => f x y)).
Proof.
  induction l as [|x l IH]; cbn; [symmetry; now apply rsum_zero|]. rewrite IH. now rewrite <- rsum_plus.
Qed.
Lemma rsum_app {X} (l m : list X) f : rsum (l ++ m) f = rsum l f + rsum m f.
Proof. induction l as [|x l IH]; cbn; [lra|]. rewrite IH. lra. Qed.
Lemma rsum_filter {X} (l : list X) (p : X -> bool) f : rsum (filter p l) f = rsum l (fun x => if p x then f x else 0).
Proof. induction l as [|x l IH]; cbn; [reflexivity|]. destruct (p x); cbn; rewrite IH; lra. Qed.
Lemma rsum_single {X} (l : list X) x f : NoDup l -> In x l -> (forall y, In y l -> y <> x -> f y = 0) -> rsum l f = f x.
Proof.
  intros HN. induction HN as [|z l Hz HN IH]; intros Hx H; [destruct Hx|]. cbn. destruct Hx as [->|Hx].
  - rewrite rsum_zero; [lra|]. intros y Hy. apply H; [now right|]. intros ->. contradiction.
  - rewrite (H z); [|now left|intros ->; contradiction]. rewrite IH; [lra|assumption|]. intros y Hy. apply H. now right.
Qed.

(* ---- derivative at 0 of an expression that is defined near 0 ---- *)
Definition dOk (f : R -> res R) (l : R) : Prop :=
  exists phi, locally 0 (fun t => f t = Ok (phi t)) /\ is_derive phi 0 l.
Definition rv (x : res R) : R := match x with Ok v => v | _ => 0 end.
Definition rdiff (f : R -> res R) : R := Derive (fun t => rv (f t)) 0.

Lemma dOk_at f l : dOk f l -> f 0 = Ok (rv (f 0)).
Proof. intros (phi & H & _). apply locally_singleton in H. rewrite H. reflexivity. Qed.
Lemma dOk_rv f l : dOk f l -> is_derive (fun t => rv (f t)) 0 l.
Proof.
  intros (phi & H & D). eapply is_derive_ext_loc; [|exact D]. eapply filter_imp; [|exact H]. intros t E. rewrite E. reflexivity.
Qed.
Lemma dOk_rdiff f l : dOk f l -> rdiff f = l.
Proof. intros H. apply is_derive_unique. now apply dOk_rv. Qed.
Lemma dOk_near f l : dOk f l -> locally 0 (fun t => f t = Ok (rv (f t))).
Proof. intros (phi & H & D). eapply filter_imp; [|exact H]. intros t E. rewrite E. reflexivity. Qed.
Lemma dOk_canon f l : dOk f l -> exists phi, locally 0 (fun t => f t = Ok (phi t)) /\ is_derive phi 0 l /\ f 0 = Ok (phi 0).
Proof. intros (phi & H & D). exists phi. split; [assumption|]. split; [assumption|]. now apply locally_singleton in H. Qed.
Lemma dOk_ext f g l : (forall t, f t = g t) -> dOk f l -> dOk g l.
Proof. intros E (phi & H & D). exists phi. split; [|assumption]. eapply filter_imp; [|exact H]. intros t Ht. cbn beta in *. now rewrite <- E. Qed.
Lemma dOk_const f v : (forall t, f t = Ok v) -> dOk f 0.
Proof. intros H. exists (fun _ => v). split; [now apply filter_forall|]. apply (is_derive_const (K := R_AbsRing) (V := R_NormedModule)). Qed.
Lemma dOk_eq f l l' : dOk f l -> l = l' -> dOk f l'.
Proof. now intros H <-. Qed.

(* a unary step through a function given by an open condition *)
Lemma dOk_step1 (f : R -> res R) (h : R -> option R) (F : R -> R) l d :
  dOk f l -> locally (rv (f 0)) (fun x => h x = Some (F x)) -> is_derive F (rv (f 0)) d ->
  dOk (fun t => x <- f t ;; of_opt (h x)) (d * l).
Proof.
  intros H Hh HF. destruct (dOk_canon f l H) as (phi & H1 & D & E). rewrite E in *. cbn [rv] in *.
  exists (fun t => F (phi t)). split.
  - assert (Hc : continuous phi 0) by (apply (ex_derive_continuous (K := R_AbsRing) (V := R_NormedModule)); now exists l).
    specialize (Hc _ Hh). unfold filtermap in Hc.
    generalize (filter_and _ _ H1 Hc). apply filter_imp. intros t (E1 & E2). rewrite E1. cbn. rewrite E2. reflexivity.
  - replace (d * l) with (scal l d) by (unfold scal; cbn; unfold mult; cbn; ring). apply (is_derive_comp F phi 0 d l); assumption.
Qed.
Lemma locally_open_pos x : 0 < x -> locally x (fun y => 0 < y).
Proof. intros H. exact (open_gt 0 x H). Qed.
Lemma locally_neq x : x <> 0 -> locally x (fun y => y <> 0).
Proof. intros H. exact (open_neq 0 x H). Qed.

Lemma dOk_neg f l : dOk f l -> dOk (fun t => x <- f t ;; of_opt (r_un UNeg x)) (- l).
Proof.
  intros H. eapply dOk_eq; [eapply (dOk_step1 f (r_un UNeg) (fun x => - x) l (-1)); [exact H|now apply filter_forall|]|ring].
  apply is_derive_Reals. replace (-1) with (-(1)) by ring. apply derivable_pt_lim_opp, derivable_pt_lim_id.
Qed.
Lemma dOk_sin f l : dOk f l -> dOk (fun t => x <- f t ;; of_opt (r_un USin x)) (cos (rv (f 0)) * l).
Proof. intros H. apply (dOk_step1 f (r_un USin) sin l _ H); [now apply filter_forall|]. apply is_derive_Reals, derivable_pt_lim_sin. Qed.
Lemma dOk_cos f l : dOk f l -> dOk (fun t => x <- f t ;; of_opt (r_un UCos x)) (- sin (rv (f 0)) * l).
Proof. intros H. apply (dOk_step1 f (r_un UCos) cos l _ H); [now apply filter_forall|]. apply is_derive_Reals, derivable_pt_lim_cos. Qed.
Lemma dOk_exp f l : dOk f l -> dOk (fun t => x <- f t ;; of_opt (r_un UExp x)) (exp (rv (f 0)) * l).
Proof. intros H. apply (dOk_step1 f (r_un UExp) exp l _ H); [now apply filter_forall|]. apply is_derive_Reals, derivable_pt_lim_exp. Qed.
Lemma dOk_log f l : dOk f l -> 0 < rv (f 0) -> dOk (fun t => x <- f t ;; of_opt (r_un ULog x)) (/ rv (f 0) * l).
Proof.
  intros H Hp. apply (dOk_step1 f (r_un ULog) ln l _ H).
  - eapply filter_imp; [|exact (locally_open_pos _ Hp)]. intros x Hx. cbn. destruct (Rlt_dec 0 x); [reflexivity|contradiction].
  - apply is_derive_Reals. now apply derivable_pt_lim_ln.
Qed.
Lemma dOk_sqrt f l : dOk f l -> 0 < rv (f 0) -> dOk (fun t => x <- f t ;; of_opt (r_un USqrt x)) (/ (2 * sqrt (rv (f 0))) * l).
Proof.
  intros H Hp. apply (dOk_step1 f (r_un USqrt) sqrt l _ H).
  - eapply filter_imp; [|exact (locally_open_pos _ Hp)]. intros x Hx. cbn. destruct (Rle_dec 0 x); [reflexivity|lra].
  - apply is_derive_Reals. now apply derivable_pt_lim_sqrt.
Qed.

(* ---- binary ---- *)
Definition rb (b : bop) (p q : res R) : res R := u <- p ;; v <- q ;; of_opt (r_bin b u v).
Lemma dOk_add f g l m : dOk f l -> dOk g m -> dOk (fun t => rb BAdd (f t) (g t)) (l + m).
Proof.
  intros (p & H1 & D1) (q & H2 & D2). exists (fun t => p t + q t). split.
  - generalize (filter_and _ _ H1 H2). apply filter_imp. intros t (E1 & E2). unfold rb. now rewrite E1, E2.
  - exact (is_derive_plus (K := R_AbsRing) (V := R_NormedModule) p q 0 l m D1 D2).
Qed.
Lemma dOk_sub f g l m : dOk f l -> dOk g m -> dOk (fun t => rb BSub (f t) (g t)) (l - m).
Proof.
  intros (p & H1 & D1) (q & H2 & D2). exists (fun t => p t - q t). split.
  - generalize (filter_and _ _ H1 H2). apply filter_imp. intros t (E1 & E2). unfold rb. now rewrite E1, E2.
  - exact (is_derive_minus (K := R_AbsRing) (V := R_NormedModule) p q 0 l m D1 D2).
Qed.
Lemma dOk_mul f g l m : dOk f l -> dOk g m -> dOk (fun t => rb BMul (f t) (g t)) (l * rv (g 0) + rv (f 0) * m).
Proof.
  intros H H'. destruct (dOk_canon _ _ H) as (p & H1 & D1 & E1). destruct (dOk_canon _ _ H') as (q & H2 & D2 & E2).
  rewrite E1, E2. cbn [rv]. exists (fun t => p t * q t). split.
  - generalize (filter_and _ _ H1 H2). apply filter_imp. intros t (Q1 & Q2). unfold rb. now rewrite Q1, Q2.
  - apply is_derive_Reals. apply is_derive_Reals in D1. apply is_derive_Reals in D2. exact (derivable_pt_lim_mult p q 0 l m D1 D2).
Qed.
Lemma dOk_div f g l m : dOk f l -> dOk g m -> rv (g 0) <> 0 ->
  dOk (fun t => rb BTruediv (f t) (g t)) ((l * rv (g 0) - m * rv (f 0)) / Rsqr (rv (g 0))).
Proof.
  intros H H' Hn. destruct (dOk_canon _ _ H) as (p & H1 & D1 & E1). destruct (dOk_canon _ _ H') as (q & H2 & D2 & E2).
  rewrite E1, E2 in *. cbn [rv] in *. exists (fun t => p t / q t). split.
  - assert (Hc : continuous q 0) by (apply (ex_derive_continuous (K := R_AbsRing) (V := R_NormedModule)); now exists m).
    specialize (Hc _ (locally_neq _ Hn)). unfold filtermap in Hc.
    generalize (filter_and _ _ Hc (filter_and _ _ H1 H2)). apply filter_imp. intros t (Q0 & Q1 & Q2). unfold rb. rewrite Q1, Q2. cbn.
    destruct (Req_EM_T (q t) 0); [contradiction|reflexivity].
  - apply is_derive_Reals. apply is_derive_Reals in D1. apply is_derive_Reals in D2. exact (derivable_pt_lim_div p q 0 l m D1 D2 Hn).
Qed.
(* base > 0: both operands may vary *)
Lemma dOk_pow_pos f g l m : dOk f l -> dOk g m -> 0 < rv (f 0) ->
  let x := rv (f 0) in let y := rv (g 0) in
  dOk (fun t => rb BPow (f t) (g t)) (y * Rpower x (y - 1) * l + Rpower x y * ln x * m).
Proof.
  intros H H' Hp x y. subst x y. destruct (dOk_canon _ _ H) as (p & H1 & D1 & E1). destruct (dOk_canon _ _ H') as (q & H2 & D2 & E2).
  rewrite E1, E2 in *. cbn [rv] in *. exists (fun t => exp (q t * ln (p t))). split.
  - assert (Hc : continuous p 0) by (apply (ex_derive_continuous (K := R_AbsRing) (V := R_NormedModule)); now exists l).
    specialize (Hc _ (locally_open_pos _ Hp)). unfold filtermap in Hc.
    generalize (filter_and _ _ Hc (filter_and _ _ H1 H2)). apply filter_imp. intros t (Q0 & Q1 & Q2). unfold rb. rewrite Q1, Q2.
    cbn [rbind r_bin]. rewrite r_pow_pos by assumption. reflexivity.
  - apply is_derive_Reals. apply is_derive_Reals in D1. apply is_derive_Reals in D2.
    assert (DL : derivable_pt_lim (fun t => ln (p t)) 0 (/ p 0 * l)) by (apply (derivable_pt_lim_comp p ln); [assumption|now apply derivable_pt_lim_ln]).
    assert (DM : derivable_pt_lim (fun t => q t * ln (p t)) 0 (m * ln (p 0) + q 0 * (/ p 0 * l))) by exact (derivable_pt_lim_mult q (fun t => ln (p t)) 0 _ _ D2 DL).
    pose proof (derivable_pt_lim_comp (fun t => q t * ln (p t)) exp 0 _ _ DM (derivable_pt_lim_exp _)) as DE.
    match goal with |- derivable_pt_lim _ _ ?a => match type of DE with derivable_pt_lim _ _ ?b => replace a with b end end; [exact DE|].
    replace (Rpower (p 0) (q 0 - 1)) with (Rpower (p 0) (q 0) * / p 0).
    + unfold Rpower. ring.
    + unfold Rminus. rewrite Rpower_plus. rewrite Rpower_Ropp, Rpower_1 by assumption. reflexivity.
Qed.
(* a fixed integer exponent: any base, 0 only if the exponent is at least 1 *)
Lemma derive_powerRZ x z : (x <> 0 \/ (1 <= z)%Z) -> is_derive (fun u => powerRZ u z) x (IZR z * powerRZ x (z - 1)).
Proof.
  intros H. apply is_derive_Reals. destruct z as [|n|n].
  - cbn. rewrite Rmult_0_l. apply derivable_pt_lim_const.
  - assert (E : powerRZ x (Z.pos n - 1) = x ^ pred (Pos.to_nat n)).
    { rewrite pow_powerRZ. f_equal. lia. }
    rewrite E. cbn [powerRZ]. rewrite <- INR_IPR, <- (INR_IPR n) || idtac.
    replace (IZR (Z.pos n)) with (INR (Pos.to_nat n)) by (rewrite INR_IZR_INZ; f_equal; lia).
    apply derivable_pt_lim_pow.
  - assert (Hx : x <> 0) by (destruct H; [assumption|lia]). set (k := Pos.to_nat n).
    assert (E : powerRZ x (Z.neg n - 1) = / (x ^ S k)).
    { replace (Z.neg n - 1)%Z with (Z.neg (Pos.succ n)) by lia. cbn [powerRZ]. rewrite Pos2Nat.inj_succ. reflexivity. }
    rewrite E. assert (D : derivable_pt_lim (fun u => u ^ k) x (INR k * x ^ pred k)) by apply derivable_pt_lim_pow.
    apply is_derive_Reals in D. pose proof (is_derive_inv (fun u => u ^ k) x _ D (pow_nonzero x k Hx)) as DI. apply is_derive_Reals in DI.
    match goal with |- derivable_pt_lim _ _ ?a => match type of DI with derivable_pt_lim _ _ ?b => replace a with b end end; [exact DI|].
    replace (IZR (Z.neg n)) with (- INR k) by (unfold k; rewrite INR_IZR_INZ, <- opp_IZR; f_equal; lia).
    clear D DI E. generalize (INR k). intros c. assert (Hk : k = S (pred k)) by (unfold k; lia). generalize dependent k. intros k Hk. generalize dependent (pred k). intros j ->.
    assert (Hj : x ^ j <> 0) by now apply pow_nonzero. cbn [pow]. field. auto.
Qed.
Lemma dOk_pow_int f g z l : dOk f l -> (forall t, g t = Ok (IZR z)) -> (rv (f 0) <> 0 \/ (1 <= z)%Z) ->
  dOk (fun t => rb BPow (f t) (g t)) (IZR z * powerRZ (rv (f 0)) (z - 1) * l).
Proof.
  intros H Hg Hz. eapply dOk_ext; [|apply (dOk_step1 f (fun x => r_pow x (IZR z)) (fun x => powerRZ x z) l _ H)].
  - intros t. unfold rb. rewrite Hg. destruct (f t); reflexivity.
  - destruct Hz as [Hz|Hz].
    + eapply filter_imp; [|exact (locally_neq _ Hz)]. intros x Hx. apply r_pow_int. now left.
    + apply filter_forall. intros x. apply r_pow_int. right. lia.
  - now apply derive_powerRZ.
Qed.

(* ---- sums of many ---- *)
Lemma dOk_fold {X} (f : X -> R -> res R) (l : X -> R) : forall (xs : list X) (acc : R -> res R) a,
  dOk acc a -> (forall x, In x xs -> dOk (f x) (l x)) ->
  dOk (fun t => v <- acc t ;; fold_res (fun p q => of_opt (r_bin BAdd p q)) v (map (fun x => f x t) xs)) (a + rsum xs l).
Proof.
  induction xs as [|x xs IH]; intros acc a Ha H; cbn [map rsum].
  - eapply dOk_ext; [|eapply dOk_eq; [exact Ha|ring]]. intros t. cbn. now destruct (acc t).
  - eapply dOk_ext; [|eapply dOk_eq; [apply (IH (fun t => rb BAdd (acc t) (f x t)) (a + l x))|ring]].
    + intros t. unfold rb. cbn. destruct (acc t); cbn; auto. destruct (f x t); cbn; auto.
    + apply dOk_add; [assumption|]. apply H. now left.
    + intros y Hy. apply H. now right.
Qed.
Lemma dOk_sum {X} (f : X -> R -> res R) (l : X -> R) xs :
  (forall x, In x xs -> dOk (f x) (l x)) ->
  dOk (fun t => fold_res (fun p q => of_opt (r_bin BAdd p q)) 0 (map (fun x => f x t) xs)) (rsum xs l).
Proof.
  intros H. eapply dOk_ext; [|eapply dOk_eq; [apply (dOk_fold f l xs (fun _ => Ok 0) 0)|ring]]; auto. now apply dOk_const with 0.
Qed.
Lemma fold_rsum {X} (f : X -> res R) : forall (xs : list X) a, (forall x, In x xs -> f x = Ok (rv (f x))) ->
  fold_res (fun p q => of_opt (r_bin BAdd p q)) a (map f xs) = Ok (a + rsum xs (fun x => rv (f x))).
Proof.
  induction xs as [|x xs IH]; intros a H; cbn; [f_equal; ring|].
  rewrite (H x) by now left. cbn. rewrite IH by (intros; apply H; now right). f_equal. ring.
Qed.
