(* Python and C arithmetic run in lockstep.

   A value is the pair of what the Python kernel and what the C kernel hold at the same point, plus a
   mark.  The mark is on only as long as the value is an integer computed from literals and loop
   counters, the two languages agree on it, and it - and every intermediate result it was computed
   from - is in [0, 2^31).  Data read from a buffer is never marked.  Using an unmarked value as a
   list index is a fault, and a branch on an unmarked value is decided by an arbitrary [adv]ersary. *)
From Verif Require Import Base BaseFacts Util UtilFacts Lang Spec Graph Api ApiFacts Denote SpecFacts DenoteFacts LangInst Reach
  Algo AlgoSem AlgoConv AlgoConv2 AlgoFuse AlgoFuse2 AlgoConvert AlgoConvert2
  Kernel Sched Codegen Backends KernFacts RenderFacts KernelOk RunFacts SchedFacts SchedGpu KernelRun KernelRun2 BackendFacts AlgoTop AlgoMore Safety.

Record duo := mkDuo { w_ok : bool; w_py : option pyval; w_c : option cval }.
Definition c_intval (c : cval) : option Z := match c with CI32 z | CI64 z => Some z | CF _ => None end.
(* the integer on which both languages agree, if it is in [0, 2^31) *)
Definition same_int (p : option pyval) (c : option cval) : option Z :=
  match p, c with
  | Some (PI z), Some v => match c_intval v with
                           | Some z' => if (z =? z') && (0 <=? z) && (z <? 2 ^ 31) then Some z else None
                           | None => None
                           end
  | _, _ => None
  end.
Definition duo_mk (t : bool) (p : option pyval) (c : option cval) : duo :=
  mkDuo (t && match same_int p c with Some _ => true | None => false end) p c.
Definition omap1 {A B} (f : A -> option B) (x : option A) : option B := match x with Some a => f a | None => None end.
Definition omap2 {A B} (f : A -> A -> option B) (x y : option A) : option B :=
  match x, y with Some a, Some b => f a b | _, _ => None end.
(* what a buffer holds *)
Definition duo_data (p : pyval) (c : cval) : duo := mkDuo false (Some p) (Some c).

Section Duo.
Context (lp lc : libm) (adv : duo -> bool).
Definition duo_alg : valg := mkValg duo
  (fun n => duo_mk true (Some (py_num n)) (Some (c_num n)))
  (fun u x => Some (duo_mk (w_ok x) (omap1 (py_un lp u) (w_py x)) (omap1 (c_un lc u) (w_c x))))
  (fun b x y => Some (duo_mk (w_ok x && w_ok y) (omap2 (py_bin lp b) (w_py x) (w_py y)) (omap2 (c_bin lc b) (w_c x) (w_c y))))
  (fun dt x => duo_mk (w_ok x) (w_py x) (option_map (c_coerce dt) (w_c x))).
Definition duo_lang : lang := mkLang duo_alg
  (fun x => if w_ok x then same_int (w_py x) (w_c x) else None)
  (fun x => if w_ok x then match same_int (w_py x) (w_c x) with Some z => negb (z =? 0) | None => false end else adv x)
  (fun x z => w_ok x = true /\ same_int (w_py x) (w_c x) = Some z)
  (Some (2 ^ 31)).

Lemma same_int_inv p c z : same_int p c = Some z -> p = Some (PI z) /\ (exists v, c = Some v /\ reps (c_lang lc) v z) /\ inB (c_lang lc) z.
Proof.
  unfold same_int, inB. cbn -[Z.pow]. destruct p as [[x|]|]; try discriminate. destruct c as [v|]; try discriminate.
  destruct (c_intval v) as [y|] eqn:Ey; [|discriminate]. destruct ((x =? y) && (0 <=? x) && (x <? 2 ^ 31)) eqn:E; [|discriminate].
  intros H; injection H as <-. apply andb_true_iff in E as [E E3]. apply andb_true_iff in E as [E1 E2].
  apply Z.eqb_eq in E1. subst y. split; auto. split; [|lia]. exists v. split; auto. destruct v; cbn in Ey; try discriminate; injection Ey as ->; auto.
Qed.
Lemma same_int_intro v z : reps (c_lang lc) v z -> inB (c_lang lc) z -> same_int (Some (PI z)) (Some v) = Some z.
Proof.
  unfold inB. cbn -[Z.pow]. intros [->| ->] [H1 H2]; cbn -[Z.pow]; rewrite Z.eqb_refl; cbn -[Z.pow];
    replace ((0 <=? z) && (z <? 2 ^ 31)) with true; auto; symmetry; apply andb_true_iff; split; [apply Z.leb_le|apply Z.ltb_lt|apply Z.leb_le|apply Z.ltb_lt]; lia.
Qed.
Lemma duo_inB z : inB duo_lang z <-> inB (c_lang lc) z.
Proof. unfold inB. cbn -[Z.pow]. tauto. Qed.
Lemma duo_inB_py z : inB duo_lang z -> inB (py_lang lp) z.
Proof. unfold inB. cbn -[Z.pow]. tauto. Qed.
Lemma duo_reps_inv x z : reps duo_lang x z -> w_ok x = true /\ w_py x = Some (PI z) /\ exists v, w_c x = Some v /\ reps (c_lang lc) v z.
Proof. intros [H1 H2]. apply same_int_inv in H2 as (A & B & _). auto. Qed.
Lemma duo_mk_reps v z : reps (c_lang lc) v z -> inB (c_lang lc) z -> reps duo_lang (duo_mk true (Some (PI z)) (Some v)) z.
Proof. intros H1 H2. pose proof (same_int_intro v z H1 H2) as HS. unfold duo_mk. cbn [duo_lang reps w_ok w_py w_c]. rewrite HS. auto. Qed.

(* binary index operation: agreement of the two instances lifts *)
Lemma duo_bin b x y u w z : reps duo_lang x u -> reps duo_lang y w -> inB (c_lang lc) z ->
  (forall p q, reps (py_lang lp) p u -> reps (py_lang lp) q w -> exists v, bin (py_lang lp) b p q = Some v /\ reps (py_lang lp) v z) ->
  (forall p q, reps (c_lang lc) p u -> reps (c_lang lc) q w -> exists v, bin (c_lang lc) b p q = Some v /\ reps (c_lang lc) v z) ->
  exists v, bin duo_lang b x y = Some v /\ reps duo_lang v z.
Proof.
  intros Hx Hy Hz HP HC. apply duo_reps_inv in Hx as (X1 & X2 & cx & X3 & X4). apply duo_reps_inv in Hy as (Y1 & Y2 & cy & Y3 & Y4).
  destruct (HP (PI u) (PI w) eq_refl eq_refl) as (pv & P1 & P2). destruct (HC cx cy X4 Y4) as (cv & C1 & C2).
  cbn in P2. subst pv. exists (duo_mk true (Some (PI z)) (Some cv)). split; [|now apply duo_mk_reps].
  cbn [duo_lang duo_alg alg bin]. rewrite X1, X2, X3, Y1, Y2, Y3. cbn [omap2 andb]. cbn [py_lang py_alg alg bin] in P1. cbn [c_lang c_alg alg bin] in C1. now rewrite P1, C1.
Qed.
Lemma duo_lang_ok : lang_ok duo_lang.
Proof.
  pose proof (py_lang_ok lp) as HP. pose proof (c_lang_ok lc) as HC.
  assert (HB : forall b, inB (c_lang lc) (b2z b)) by (intros []; unfold inB; cbn -[Z.pow]; lia).
  constructor.
  - intros z Hz. apply duo_inB in Hz. unfold lit. cbn [duo_lang duo_alg alg of_num]. apply duo_mk_reps; auto. apply (ok_lit _ HC z Hz).
  - intros v z [H1 H2] _. cbn [duo_lang to_idx]. now rewrite H1.
  - intros v z [H1 H2] _. cbn [duo_lang truth]. now rewrite H1, H2.
  - intros x z H Hz. apply duo_inB in Hz. apply duo_reps_inv in H as (X1 & X2 & cx & X3 & X4). cbn [duo_lang duo_alg alg coerce].
    rewrite X1, X2, X3. cbn [option_map]. apply duo_mk_reps; auto. apply (ok_coerce _ HC cx z X4 Hz).
  - unfold inB. cbn -[Z.pow]. lia.
  - intros a b x y Ha Hb Hx Hy Hz. apply duo_inB in Hx, Hy, Hz. apply (duo_bin BAdd a b x y); auto; intros p q Hp Hq.
    + apply (ok_add _ HP p q x y); auto; now apply duo_inB_py, duo_inB.
    + apply (ok_add _ HC p q x y); auto.
  - intros a b x y Ha Hb Hx Hy Hz. apply duo_inB in Hx, Hy, Hz. apply (duo_bin BSub a b x y); auto; intros p q Hp Hq.
    + apply (ok_sub _ HP p q x y); auto; now apply duo_inB_py, duo_inB.
    + apply (ok_sub _ HC p q x y); auto.
  - intros a b x y Ha Hb Hx Hy Hz. apply duo_inB in Hx, Hy, Hz. apply (duo_bin BMul a b x y); auto; intros p q Hp Hq.
    + apply (ok_mul _ HP p q x y); auto; now apply duo_inB_py, duo_inB.
    + apply (ok_mul _ HC p q x y); auto.
  - intros a b x y Ha Hb Hx Hy Hz. apply duo_inB in Hx, Hy. apply (duo_bin BFloordiv a b x y); auto.
    + unfold inB in *. cbn -[Z.pow] in *. pose proof (Z.div_pos x y). assert (x / y <= x) by (apply Z.div_le_upper_bound; nia). lia.
    + intros p q Hp Hq. apply (ok_floordiv _ HP p q x y); auto; now apply duo_inB_py, duo_inB.
    + intros p q Hp Hq. apply (ok_floordiv _ HC p q x y); auto.
  - intros a b x y Ha Hb Hx Hy Hz. apply duo_inB in Hx, Hy. apply (duo_bin BMod a b x y); auto.
    + unfold inB in *. cbn -[Z.pow] in *. pose proof (Z.mod_pos_bound x y). lia.
    + intros p q Hp Hq. apply (ok_mod _ HP p q x y); auto; now apply duo_inB_py, duo_inB.
    + intros p q Hp Hq. apply (ok_mod _ HC p q x y); auto.
  - intros a b x y Ha Hb Hx Hy. apply duo_inB in Hx, Hy. apply (duo_bin BEq a b x y); auto; intros p q Hp Hq.
    + apply (ok_eq _ HP p q x y); auto; now apply duo_inB_py, duo_inB.
    + apply (ok_eq _ HC p q x y); auto.
  - intros a b x y Ha Hb Hx Hy. apply duo_inB in Hx, Hy. apply (duo_bin BGe a b x y); auto; intros p q Hp Hq.
    + apply (ok_ge _ HP p q x y); auto; now apply duo_inB_py, duo_inB.
    + apply (ok_ge _ HC p q x y); auto.
  - intros a b x y Ha Hb Hx Hy. apply duo_inB in Hx, Hy. apply (duo_bin BLt a b x y); auto; intros p q Hp Hq.
    + apply (ok_lt _ HP p q x y); auto; now apply duo_inB_py, duo_inB.
    + apply (ok_lt _ HC p q x y); auto.
  - intros a b x y Ha Hb Hx Hy. apply duo_inB in Hx, Hy. apply (duo_bin BLe a b x y); auto; intros p q Hp Hq.
    + apply (ok_le _ HP p q x y); auto; now apply duo_inB_py, duo_inB.
    + apply (ok_le _ HC p q x y); auto.
  - intros a b x y Ha Hb. apply (duo_bin BAnd a b (b2z x) (b2z y)); auto; intros p q Hp Hq.
    + apply (ok_and _ HP p q x y); auto.
    + apply (ok_and _ HC p q x y); auto.
  - intros dt [t p c]. cbn [duo_lang duo_alg alg coerce duo_mk w_ok w_py w_c]. unfold duo_mk.
    assert (HI : option_map (c_coerce dt) (option_map (c_coerce dt) c) = option_map (c_coerce dt) c).
    { destruct c; cbn [option_map]; auto. f_equal. apply (ok_idem _ HC dt c). }
    rewrite HI. cbn. f_equal. destruct t, (same_int _ _); reflexivity.
Qed.
End Duo.

(* ------------------------------------------------------------------ forgetting one of the two languages *)
Definition o2r {A} (x : option A) : res A := match x with Some v => Ok v | None => Raise end.

Section Proj.
Context (lp lc : libm) (adv : duo -> bool) (M : lang) (pr : duo -> option (val M)).
Notation D := (duo_lang lp lc adv).
Context (Hnum : forall n, pr (of_num D n) = Some (of_num M n)).
Context (Hun : forall u x v, un D u x = Some v -> pr v = omap1 (un M u) (pr x)).
Context (Hbin : forall b x y v, bin D b x y = Some v -> pr v = omap2 (bin M b) (pr x) (pr y)).
Context (Hco : forall dt x, pr (coerce D dt x) = option_map (coerce M dt) (pr x)).
Context (Hbd : forall z, inB D z -> inB M z).

Lemma proj_chk z y : chk D z = Ok y -> chk M z = Ok y.
Proof using Hbd. intros H. apply chk_inv in H as [-> H]. apply chk_ok. auto. Qed.
Lemma proj_ibin b u w z : ibin D b u w = Ok z -> ibin M b u w = Ok z.
Proof using Hbd. destruct b; cbn [ibin]; auto using proj_chk; destruct (0 <? w); auto using proj_chk. Qed.
Lemma proj_evalI r e : forall q, evalI D r e = Ok q -> evalI M r e = Ok q.
Proof using Hbd.
  induction e using expr_ind'; intros q; cbn [evalI]; try discriminate; auto using proj_chk.
  - destruct (r l); cbn [or_fault rbind]; auto using proj_chk.
  - destruct (evalI D r e1) as [u| |]; try discriminate. destruct (evalI D r e2) as [w| |]; try discriminate.
    rewrite (IHe1 u eq_refl), (IHe2 w eq_refl). cbn [rbind]. apply proj_ibin.
Qed.
Lemma proj_mapM r es : forall zs, mapM (evalI D r) es = Ok zs -> mapM (evalI M r) es = Ok zs.
Proof using Hbd.
  induction es as [|e es IH]; intros zs; cbn [mapM]; auto. destruct (evalI D r e) as [z| |] eqn:Ez; try discriminate.
  rewrite (proj_evalI _ _ _ Ez). cbn [rbind]. destruct (mapM (evalI D r) es) as [w| |]; try discriminate. rewrite (IH w eq_refl). auto.
Qed.
Lemma proj_op2 dt b x y w : op2 D dt b x y = Ok w ->
  match pr x, pr y with Some u, Some v => op2 M dt b u v = o2r (pr w) | _, _ => pr w = None end.
Proof using Hbin Hco.
  unfold op2. destruct (bin D b x y) as [v|] eqn:E; cbn [of_opt rbind]; [|discriminate]. intros H; assert (Hw : w = coerce D dt v) by congruence; rewrite Hw.
  rewrite Hco, (Hbin _ _ _ _ E). destruct (pr x) as [u|]; cbn [omap2]; auto. destruct (pr y) as [u'|]; cbn [omap2]; auto.
  destruct (bin M b u u'); reflexivity.
Qed.
Lemma proj_op1 dt u x w : op1 D dt u x = Ok w -> match pr x with Some v => op1 M dt u v = o2r (pr w) | None => pr w = None end.
Proof using Hun Hco.
  unfold op1. destruct (un D u x) as [v|] eqn:E; cbn [of_opt rbind]; [|discriminate]. intros H; assert (Hw : w = coerce D dt v) by congruence; rewrite Hw.
  rewrite Hco, (Hun _ _ _ E). destruct (pr x) as [u'|]; cbn [omap1]; auto. destruct (un M u u'); reflexivity.
Qed.
Lemma proj_fold dt xs ys : Forall2 (fun x y => forall w, x = Ok w -> y = o2r (pr w)) xs ys -> forall acc w,
  fold_res (op2 D dt BAdd) acc xs = Ok w ->
  match pr acc with Some a => fold_res (op2 M dt BAdd) a ys = o2r (pr w) | None => pr w = None end.
Proof using Hbin Hco.
  induction 1 as [|x y xs ys Hxy _ IH]; intros acc w; cbn [fold_res].
  - intros H; injection H as <-. destruct (pr acc); auto.
  - destruct x as [v| |]; try discriminate. cbn [rbind]. destruct (op2 D dt BAdd acc v) as [a'| |] eqn:Eo; try discriminate.
    cbn [rbind]. intros HF. specialize (IH _ _ HF). rewrite (Hxy v eq_refl). apply proj_op2 in Eo.
    destruct (pr acc) as [a|]; [|now rewrite Eo in IH]. destruct (pr v) as [u|]; cbn [o2r rbind].
    + rewrite Eo. destruct (pr a') as [a''|]; cbn [o2r rbind]; [auto|now rewrite IH].
    + rewrite Eo in IH. now rewrite IH.
Qed.
Theorem proj_evalV shp (G : nat -> list Z -> res duo) (F : nat -> list Z -> res (val M)) dt e :
  (forall f zs w, in_range (shp f) zs -> G f zs = Ok w -> F f zs = o2r (pr w)) ->
  forall r w, evalV D shp G dt e r = Ok w -> evalV M shp F dt e r = o2r (pr w).
Proof using Hnum Hun Hbin Hco Hbd.
  intros HG. assert (HR : forall f zs w, readF D shp G f zs = Ok w -> readF M shp F f zs = o2r (pr w)).
  { intros f zs w. unfold readF. destruct (in_rangeb (shp f) zs) eqn:Ei; [apply HG; now apply in_rangeb_spec|discriminate]. }
  induction e using expr_ind'; intros r w; cbn [evalV].
  - discriminate.
  - intros H. assert (Hw : w = of_num D (NInt z)) by (unfold lit in H; congruence). rewrite Hw, Hnum. reflexivity.
  - destruct (evalV D shp G dt e1 r) as [u| |] eqn:E1; try discriminate. destruct (evalV D shp G dt e2 r) as [v| |] eqn:E2; try discriminate.
    cbn [rbind]. intros Ho. apply proj_op2 in Ho. rewrite (IHe1 _ _ E1). destruct (pr u); cbn [o2r rbind]; [|now rewrite Ho].
    rewrite (IHe2 _ _ E2). destruct (pr v); cbn [o2r rbind]; [auto|now rewrite Ho].
  - destruct (evalV D shp G dt e r) as [v| |] eqn:E1; try discriminate. cbn [rbind]. intros Ho. apply proj_op1 in Ho.
    rewrite (IHe _ _ E1). destruct (pr v); cbn [o2r rbind]; [auto|now rewrite Ho].
  - destruct (evalI D r e1) as [z| |] eqn:Ez; try discriminate. rewrite (proj_evalI _ _ _ Ez). cbn [rbind]. destruct (z =? 0).
    + destruct (evalV D shp G dt e3 r) as [v| |] eqn:E3; try discriminate. cbn [rbind]. intros H; assert (Hw : w = coerce D dt v) by congruence. rewrite (IHe3 _ _ E3), Hw, Hco.
      destruct (pr v); reflexivity.
    + destruct (evalV D shp G dt e2 r) as [v| |] eqn:E3; try discriminate. cbn [rbind]. intros H; assert (Hw : w = coerce D dt v) by congruence. rewrite (IHe2 _ _ E3), Hw, Hco.
      destruct (pr v); reflexivity.
  - rewrite !sum_loops_fold. intros H. assert (HF : Forall2 (fun x y => forall w, x = Ok w -> y = o2r (pr w))
        (map (fun zs => evalV D shp G dt e (ibinds red zs r)) (all_idx (map l_ext red)))
        (map (fun zs => evalV M shp F dt e (ibinds red zs r)) (all_idx (map l_ext red)))).
    { clear H. induction (all_idx (map l_ext red)); cbn [map]; constructor; auto. }
    pose proof (proj_fold dt _ _ HF _ _ H) as HP. rewrite Hco in HP. unfold lit in HP. rewrite Hnum in HP. exact HP.
  - destruct (mapM (evalI D r) idx) as [zs| |] eqn:Em; try discriminate. rewrite (proj_mapM _ _ _ Em). cbn [rbind]. apply HR.
  - destruct (mapM (evalI D r) idx) as [zs| |] eqn:Em; try discriminate. rewrite (proj_mapM _ _ _ Em). cbn [rbind]. apply HR.
Qed.
End Proj.

Lemma duo_noraise lp lc adv shp (G : nat -> list Z -> res duo) dt e : (forall f zs, G f zs <> Raise) ->
  forall r, evalV (duo_lang lp lc adv) shp G dt e r <> Raise.
Proof.
  intros HG. induction e using expr_ind'; intros r; cbn [evalV]; try (intros HH; discriminate HH).
  - specialize (IHe1 r). specialize (IHe2 r). destruct (evalV _ _ _ _ e1 r); [|auto|intros HH; discriminate HH].
    destruct (evalV _ _ _ _ e2 r); [intros HH; discriminate HH|auto|intros HH; discriminate HH].
  - specialize (IHe r). destruct (evalV _ _ _ _ e r); [intros HH; discriminate HH|auto|intros HH; discriminate HH].
  - pose proof (AlgoSem.evalI_noraise (duo_lang lp lc adv) r e1) as HI. destruct (evalI _ r e1) as [z| |]; [cbn [rbind]|now destruct HI|intros HH; discriminate HH]. destruct (z =? 0).
    + specialize (IHe3 r). destruct (evalV _ _ _ _ e3 r); [intros HH; discriminate HH|auto|intros HH; discriminate HH].
    + specialize (IHe2 r). destruct (evalV _ _ _ _ e2 r); [intros HH; discriminate HH|auto|intros HH; discriminate HH].
  - rewrite sum_loops_fold. apply fold_res_noraise; [intros x y HH; discriminate HH|]. apply Forall_forall. intros q Hq. apply in_map_iff in Hq as (zs & <- & _). apply IHe.
  - pose proof (mapM_evalI_noraise (duo_lang lp lc adv) r idx) as HI. destruct (mapM _ idx); [cbn [rbind]|now destruct HI|intros HH; discriminate HH].
    unfold readF. destruct (in_rangeb _ _); [apply HG|intros HH; discriminate HH].
  - pose proof (mapM_evalI_noraise (duo_lang lp lc adv) r idx) as HI. destruct (mapM _ idx); [cbn [rbind]|now destruct HI|intros HH; discriminate HH].
    unfold readF. destruct (in_rangeb _ _); [apply HG|intros HH; discriminate HH].
Qed.

(* ------------------------------------------------------------------ a kernel is a function of its input buffers *)
Definition memF (L : lang) (g : graph) (xs : list arg) (ls : list nat) (m : store L) (n : nat) (idx : list Z) : res (val L) :=
  Ok match loc_of xs ls n with
     | Some l => match m l with Some vs => match znth vs (flat (shape_of g n) idx) with Some v => v | None => lit L 0 end | None => lit L 0 end
     | None => lit L 0
     end.
Lemma loc_of_inv xs : forall ls n l, loc_of xs ls n = Some l -> exists i x, nth_error xs i = Some x /\ nth_error ls i = Some l /\ arg_id x = n.
Proof.
  induction xs as [|x xs IH]; intros [|l0 ls] n l; cbn; try discriminate. destruct (Nat.eqb_spec (arg_id x) n) as [Hn|].
  - intros H; injection H as <-. exists 0%nat, x. auto.
  - intros H. destruct (IH _ _ _ H) as (i & y & A & B & C). exists (S i), y. auto.
Qed.

Section Fun.
Context (L : lang) (HL : lang_ok L) (g : graph) (Hr : reach g) (a : nat) (Ha : valid g a) (Hns : no_scalar_reshape g a) (Hfit : fits L g a)
  (E : fenv) (fs : list nat) (Hcv : convert g a = Done (E, fs)) (f : nat) (fd : func) (Hf : In f fs) (Hfd : E f = Some fd).
Theorem kernel_fun scoped gp nd sc k kern k1 lo ls (m : store L) out :
  nth_error g f = Some nd -> schedule_cpu (sched_init fd) = Done sc -> codegen g E (func_args (f_expr fd)) fd sc k = Done (kern, k1) ->
  length ls = length (func_args (f_expr fd)) -> ~ In lo ls -> m lo = Some out -> Z.of_nat (length out) = zprod (n_shape nd) ->
  (forall i x l, nth_error (func_args (f_expr fd)) i = Some x -> nth_error ls i = Some l ->
     exists vs, m l = Some vs /\ Z.of_nat (length vs) = zprod (shape_of g (arg_id x))) ->
  exists m' oc out', run (bind_params (k_params kern) (lo :: ls)) (exec L scoped gp (pty_of (k_params kern)) (k_body kern) [[]]) m = (m', oc) /\
    (forall b, m' b = if Nat.eqb b lo then Some out' else m b) /\ length out' = length out /\
    match oc with
    | OkO _ => filled L (n_shape nd) (kval L g f fd nd (memF L g (func_args (f_expr fd)) ls m)) out'
    | RaiseO => exists idx, in_range (n_shape nd) idx /\ kval L g f fd nd (memF L g (func_args (f_expr fd)) ls m) idx = Raise
    | FaultO => False
    end.
Proof using HL Hr Ha Hns Hfit Hcv Hf Hfd.
  intros Hnd HS HC Hlen Hlo Hm Hout Hin.
  pose proof (convert_inv L g a E fs HL Hr Ha Hns Hcv) as HSp.
  destruct (convert_kctx L g a E fs f HSp Hf) as (fd' & nd' & Hfd' & HK). assert (fd' = fd) by congruence. subst fd'.
  assert (nd' = nd) by (pose proof (kc_nd _ _ _ _ _ HK); congruence). subst nd'.
  set (args := func_args (f_expr fd)) in *.
  pose proof (args_distinct L HL g Hr a Ha Hns E fs Hcv f fd Hf Hfd HSp) as HND. fold args in HND.
  assert (HF : forall n i, memF L g args ls m n i <> Fault) by (intros; discriminate).
  assert (Hfitf : ltB L (zprod (n_shape nd))) by (apply (Hfit f nd (cs_cone _ _ _ _ _ HSp f Hf) Hnd)).
  pose proof (reach_wf g Hr) as Hw.
  apply (kernel_run L HL scoped gp g Hw E f fd nd HK Hfitf (memF L g args ls m)) with (s := sc) (k := k) (k1 := k1); auto.
  - intros idx Hi. unfold kval. pose proof (kval_any L HL g Hr a Ha Hns Hfit E fs Hcv f fd Hf Hfd _ nd (n_dtype nd) idx Hnd HF Hi) as HN.
    destruct (evalV _ _ _ _ _ _); cbn; congruence.
  - intros i x l H1 H2. fold args in H1. destruct (Hin i x l H1 H2) as (vs & V1 & V2). assert (Hx : In x args) by (eapply nth_error_In; eauto).
    split.
    + destruct (arg_node g Hw E f fd nd HK x Hx) as (xd & X1 & _ & X2). rewrite X2. apply (Hfit (arg_id x) xd); auto.
      exact (arg_cone L HL g Hr a Ha Hns E fs Hcv f fd Hf Hfd x HSp Hx).
    + exists vs. split; auto. intros idx Hi. unfold memF. rewrite (loc_of_nth args ls i x l HND H1 H2), V1.
      pose proof (flat_bounds (shape_of g (arg_id x)) idx Hi) as HFB. destruct (znth_in_range vs (flat (shape_of g (arg_id x)) idx)) as [v Hv]; [lia|].
      rewrite Hv. eauto.
Qed.
End Fun.

(* ------------------------------------------------------------------ the lockstep run of a kernel *)
Definition duo_zip (x : list pyval) (y : list cval) : list duo := map (fun '(p, c) => duo_data p c) (combine x y).
Definition duo_mem (mp : nat -> option (list pyval)) (mc : nat -> option (list cval)) (b : nat) : option (list duo) :=
  match mp b, mc b with Some x, Some y => Some (duo_zip x y) | _, _ => None end.

Lemma duo_zip_length x y : length (duo_zip x y) = Nat.min (length x) (length y).
Proof. unfold duo_zip. now rewrite map_length, combine_length. Qed.
Lemma duo_zip_len x y z : Z.of_nat (length x) = z -> Z.of_nat (length y) = z -> Z.of_nat (length (duo_zip x y)) = z.
Proof. rewrite duo_zip_length. lia. Qed.
Lemma znth_map_combine x y i p c : znth x i = Some p -> znth y i = Some c -> znth (duo_zip x y) i = Some (duo_data p c).
Proof.
  unfold duo_zip, znth. destruct (i <? 0); [discriminate|]. revert y. generalize (Z.to_nat i). intros j. revert x.
  induction j; intros [|u x] [|v y]; cbn; try discriminate; auto. intros H1 H2. congruence.
Qed.

Section Lock.
Context (lp lc : libm) (adv : duo -> bool).
Notation D := (duo_lang lp lc adv).
Context (g : graph) (Hr : reach g) (a : nat) (Ha : valid g a) (Hns : no_scalar_reshape g a) (Hfit : fits (c_lang lc) g a)
  (E : fenv) (fs : list nat) (Hcv : convert g a = Done (E, fs)) (f : nat) (fd : func) (Hf : In f fs) (Hfd : E f = Some fd)
  (nd : node) (Hnd : nth_error g f = Some nd) (sc : schedule) (k : nat) (kern : kernel) (k1 : nat)
  (HS : schedule_cpu (sched_init fd) = Done sc) (HC : codegen g E (func_args (f_expr fd)) fd sc k = Done (kern, k1))
  (lo : nat) (ls : list nat) (Hlen : length ls = length (func_args (f_expr fd))) (Hlo : ~ In lo ls)
  (mp : store (py_lang lp)) (mc : store (c_lang lc)) (outp : list pyval) (outc : list cval)
  (Hmp : mp lo = Some outp) (Hmc : mc lo = Some outc) (Hop : Z.of_nat (length outp) = zprod (n_shape nd)) (Hoc : Z.of_nat (length outc) = zprod (n_shape nd))
  (Hin : forall i x l, nth_error (func_args (f_expr fd)) i = Some x -> nth_error ls i = Some l ->
     exists vp vc, mp l = Some vp /\ mc l = Some vc /\ Z.of_nat (length vp) = zprod (shape_of g (arg_id x)) /\ Z.of_nat (length vc) = zprod (shape_of g (arg_id x))).
Notation kprog L scoped gp := (exec L scoped gp (pty_of (k_params kern)) (k_body kern) [[]]).
Notation loc := (bind_params (k_params kern) (lo :: ls)).
Notation args := (func_args (f_expr fd)).

Lemma nonneg_nd : Forall (fun d => 0 <= d) (n_shape nd).
Proof using Hr Hnd. exact (ApiFacts.wf_nonneg (py_alg no_libm) g f nd (reach_wf g Hr) Hnd). Qed.
Lemma fits_D : fits D g a.
Proof using Hfit. intros n x Hc Hn. exact (Hfit n x Hc Hn). Qed.

Lemma lock_read (M : lang) (pr : duo -> option (val M)) (m : store M)
  (Hnum : forall n, pr (of_num D n) = Some (of_num M n)) :
  (forall l vp vc, mp l = Some vp -> mc l = Some vc -> length vp = length vc -> exists vs, m l = Some vs /\
     forall i p c, znth vp i = Some p -> znth vc i = Some c -> exists v, znth vs i = Some v /\ pr (duo_data p c) = Some v) ->
  forall n zs w, in_range (shape_of g n) zs -> memF D g args ls (duo_mem mp mc) n zs = Ok w -> memF M g args ls m n zs = o2r (pr w).
Proof using All.
  intros HM n zs w Hz. unfold memF. intros H. cbn [o2r]. destruct (loc_of args ls n) as [l|] eqn:El.
  - destruct (loc_of_inv _ _ _ _ El) as (i & x & X1 & X2 & X3). destruct (Hin i x l X1 X2) as (vp & vc & V1 & V2 & V3 & V4).
    assert (Hd : duo_mem mp mc l = Some (duo_zip vp vc)) by (unfold duo_mem; now rewrite V1, V2).
    rewrite Hd in H. destruct (HM l vp vc V1 V2 ltac:(lia)) as (vs & S1 & S2). rewrite S1.
    rewrite X3 in *. pose proof (flat_bounds (shape_of g n) zs Hz) as HFB.
    destruct (znth_in_range vp (flat (shape_of g n) zs)) as [p Hp]; [lia|]. destruct (znth_in_range vc (flat (shape_of g n) zs)) as [c Hc]; [lia|].
    pose proof (znth_map_combine _ _ _ _ _ Hp Hc) as HZ.
    change (@znth (val D) (duo_zip vp vc) (flat (shape_of g n) zs) = Some (duo_data p c)) in HZ. rewrite HZ in H. destruct (S2 _ _ _ Hp Hc) as (v & Q1 & Q2). rewrite Q1.
    assert (Hw : w = duo_data p c) by congruence. now rewrite Hw, Q2.
  - assert (Hw : w = of_num D (NInt 0)) by (unfold lit in H; congruence). rewrite Hw, Hnum. reflexivity.
Qed.

Theorem lock_proj (M : lang) (pr : duo -> option (val M)) (m : store M) out' outm
  (Hnum : forall n, pr (of_num D n) = Some (of_num M n))
  (Hun : forall u x v, un D u x = Some v -> pr v = omap1 (un M u) (pr x))
  (Hbin : forall b x y v, bin D b x y = Some v -> pr v = omap2 (bin M b) (pr x) (pr y))
  (Hco : forall dt x, pr (coerce D dt x) = option_map (coerce M dt) (pr x))
  (Hbd : forall z, inB D z -> inB M z) :
  (forall l vp vc, mp l = Some vp -> mc l = Some vc -> length vp = length vc -> exists vs, m l = Some vs /\
     forall i p c, znth vp i = Some p -> znth vc i = Some c -> exists v, znth vs i = Some v /\ pr (duo_data p c) = Some v) ->
  filled D (n_shape nd) (kval D g f fd nd (memF D g args ls (duo_mem mp mc))) out' ->
  filled M (n_shape nd) (kval M g f fd nd (memF M g args ls m)) outm ->
  Z.of_nat (length out') = zprod (n_shape nd) -> Z.of_nat (length outm) = zprod (n_shape nd) ->
  map pr out' = map Some outm.
Proof using All.
  intros HM HD HMf L1 L2. pose proof nonneg_nd as HN.
  assert (Hlen2 : length out' = length outm) by lia.
  assert (HP : forall j, 0 <= j < zprod (n_shape nd) -> option_map pr (znth out' j) = option_map Some (znth outm j)).
  { intros j Hj. pose proof (unflat_in_range (n_shape nd) j HN Hj) as Hi. destruct (HD _ Hi) as (w & W1 & W2). destruct (HMf _ Hi) as (u & U1 & U2).
    rewrite flat_unflat in W2, U2 by auto. rewrite W2, U2. cbn [option_map]. f_equal. unfold kval in W1, U1.
    destruct (evalV D _ _ _ _ _) as [v| |] eqn:Ev; try discriminate.
    rewrite (proj_evalV lp lc adv M pr Hnum Hun Hbin Hco Hbd (shape_of g) (memF D g args ls (duo_mem mp mc)) (memF M g args ls m) (n_dtype nd) (f_expr fd)
               (lock_read M pr m Hnum HM) _ _ Ev) in U1.
    assert (Hw : w = coerce D (n_dtype nd) v) by (cbn [rbind] in W1; congruence). rewrite Hw, Hco.
    destruct (pr v) as [v'|]; cbn [o2r rbind] in U1; [|discriminate]. cbn [option_map]. congruence. }
  apply nth_error_ext'. intros j. rewrite !nth_error_map.
  destruct (Nat.lt_ge_cases j (length out')) as [Hj|Hj].
  - specialize (HP (Z.of_nat j) ltac:(lia)). unfold znth in HP. destruct (Z.of_nat j <? 0) eqn:Ej; [lia|]. rewrite Nat2Z.id in HP. exact HP.
  - assert (N1 : nth_error out' j = None) by (apply nth_error_None; lia). assert (N2 : nth_error outm j = None) by (apply nth_error_None; lia).
    change (option_map pr (@nth_error (val D) out' j) = option_map Some (nth_error outm j)). rewrite N1, N2. reflexivity.
Qed.

(* The lockstep run always ends normally: no index, address or branch ever depends on an integer on
   which the languages differ or that left [0, 2^31).  And it is the run of both languages. *)
Theorem lockstep_run scoped gp :
  exists m' r out', run loc (kprog D scoped gp) (duo_mem mp mc) = (m', OkO r) /\ m' lo = Some out' /\
    (forall sp gpp mp' rp, run loc (kprog (py_lang lp) sp gpp) mp = (mp', OkO rp) -> exists op, mp' lo = Some op /\ map w_py out' = map Some op) /\
    (forall sp gpc mc' rc, run loc (kprog (c_lang lc) sp gpc) mc = (mc', OkO rc) -> exists oc, mc' lo = Some oc /\ map w_c out' = map Some oc).
Proof using All.
  assert (HinP : forall i x l, nth_error args i = Some x -> nth_error ls i = Some l -> exists vs, mp l = Some vs /\ Z.of_nat (length vs) = zprod (shape_of g (arg_id x))).
  { intros i x l H1 H2. destruct (Hin i x l H1 H2) as (vp & vc & V1 & V2 & V3 & V4). eauto. }
  assert (HinC : forall i x l, nth_error args i = Some x -> nth_error ls i = Some l -> exists vs, mc l = Some vs /\ Z.of_nat (length vs) = zprod (shape_of g (arg_id x))).
  { intros i x l H1 H2. destruct (Hin i x l H1 H2) as (vp & vc & V1 & V2 & V3 & V4). eauto. }
  assert (HinD : forall i x l, nth_error args i = Some x -> nth_error ls i = Some l -> exists vs, duo_mem mp mc l = Some vs /\ Z.of_nat (length vs) = zprod (shape_of g (arg_id x))).
  { intros i x l H1 H2. destruct (Hin i x l H1 H2) as (vp & vc & V1 & V2 & V3 & V4). unfold duo_mem. rewrite V1, V2. eexists. split; [reflexivity|].
    exact (duo_zip_len _ _ _ V3 V4). }
  assert (HlD : duo_mem mp mc lo = Some (duo_zip outp outc)) by (unfold duo_mem; now rewrite Hmp, Hmc).
  destruct (kernel_fun D (duo_lang_ok lp lc adv) g Hr a Ha Hns fits_D E fs Hcv f fd Hf Hfd scoped gp nd sc k kern k1 lo ls (duo_mem mp mc)
     (duo_zip outp outc) Hnd HS HC Hlen Hlo HlD (duo_zip_len _ _ _ Hop Hoc) HinD)
     as (m' & oc & out' & R & Hm' & Hl & HO).
  assert (Hl' : Z.of_nat (length out') = zprod (n_shape nd)) by (rewrite Hl; exact (duo_zip_len _ _ _ Hop Hoc)).
  assert (HlO : m' lo = Some out') by (rewrite Hm', Nat.eqb_refl; reflexivity).
  destruct oc as [r| |]; [|exfalso|contradiction].
  2:{ destruct HO as (idx & Hi & HR). unfold kval in HR.
      pose proof (duo_noraise lp lc adv (shape_of g) (memF D g args ls (duo_mem mp mc)) (n_dtype nd) (f_expr fd) (fun f zs H => ltac:(discriminate H)) (lenv f (n_shape nd) idx)) as HQ.
      destruct (evalV _ _ _ _ _ _); [discriminate HR|auto|discriminate HR]. }
  exists m', r, out'. split; [exact R|]. split; [exact HlO|]. split.
  - intros sp gpp mp' rp Rp.
    destruct (kernel_fun (py_lang lp) (py_lang_ok lp) g Hr a Ha Hns (fits_py lp g a) E fs Hcv f fd Hf Hfd sp gpp nd sc k kern k1 lo ls mp outp
       Hnd HS HC Hlen Hlo Hmp Hop HinP) as (m2 & oc2 & op & R2 & Hm2 & Hl2 & HO2).
    rewrite Rp in R2. injection R2 as <- <-. exists op. split; [rewrite Hm2, Nat.eqb_refl; reflexivity|].
    apply (lock_proj (py_lang lp) w_py mp out' op); auto; [..|rewrite Hl2; exact Hop].
    + intros u x v H. injection H as <-. reflexivity.
    + intros b x y v H. injection H as <-. reflexivity.
    + intros dt x. cbn. destruct (w_py x); reflexivity.
    + apply duo_inB_py.
    + intros l vp vc V1 V2 V3. exists vp. split; auto. intros i p c Hp Hc. exists p. auto.
  - intros sp gpc mc' rc Rc.
    destruct (kernel_fun (c_lang lc) (c_lang_ok lc) g Hr a Ha Hns Hfit E fs Hcv f fd Hf Hfd sp gpc nd sc k kern k1 lo ls mc outc
       Hnd HS HC Hlen Hlo Hmc Hoc HinC) as (m2 & oc2 & oc & R2 & Hm2 & Hl2 & HO2).
    rewrite Rc in R2. injection R2 as <- <-. exists oc. split; [rewrite Hm2, Nat.eqb_refl; reflexivity|].
    apply (lock_proj (c_lang lc) w_c mc out' oc); auto; [..|rewrite Hl2; exact Hoc].
    + intros u x v H. injection H as <-. reflexivity.
    + intros b x y v H. injection H as <-. reflexivity.
    + intros l vp vc V1 V2 V3. exists vc. split; auto. intros i p c Hp Hc. exists c. auto.
Qed.
End Lock.
