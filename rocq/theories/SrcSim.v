(* Executing the printed form of a kernel does what executing the kernel does. *)
From Coq Require Import String.
From Verif Require Import Base BaseFacts Lang LangInst Kernel Backends KernelRun TextParse Text TextPrint TextName TextExpr TextStmt TextBind SrcSem.
Open Scope string_scope.
Open Scope Z_scope.
Open Scope list_scope.

Lemma run_bind {L A B} loc (p : Kernel.prog L A) (f : A -> Kernel.prog L B) m :
  run loc (pbind p f) m = match run loc p m with (m1, OkO a) => run loc (f a) m1 | (m1, RaiseO) => (m1, RaiseO) | (m1, FaultO) => (m1, FaultO) end.
Proof.
  revert m. induction p; intros m'; cbn; auto.
  - destruct (loc n); auto. destruct (m' n0); auto. destruct (znth l i); auto.
  - destruct (loc n); auto. destruct (m' n0); auto. destruct (zupd l i v); auto.
Qed.
Lemma run_bind_ok {L A B} loc (p : Kernel.prog L A) (f : A -> Kernel.prog L B) m m' y : run loc (pbind p f) m = (m', OkO y) ->
  exists m1 a, run loc p m = (m1, OkO a) /\ run loc (f a) m1 = (m', OkO y).
Proof. rewrite run_bind. destruct (run loc p m) as [m1 [a| |]]; try discriminate. eauto. Qed.
Lemma run_exc {L A} loc (o : option A) (m m' : store L) y : run loc (p_exc o) m = (m', OkO y) -> m' = m /\ o = Some y.
Proof. destruct o; cbn; intros H; [injection H as <- <-; auto|discriminate]. Qed.
Lemma run_flt {L A} loc (o : option A) (m m' : store L) y : run loc (p_flt o) m = (m', OkO y) -> m' = m /\ o = Some y.
Proof. destruct o; cbn; intros H; [injection H as <- <-; auto|discriminate]. Qed.

(* ------------------------------------------------------------------ what the language parts must satisfy *)
Definition ty_of (b : backend) (dt : dtype) : string := if is_py b then "" else typename dt.
Definition okdt (dt : dtype) : Prop := dt = Int64 \/ dt = Float64.
Definition litok (b : backend) (z : Z) : Prop := is_py b = true \/ Z.abs z < 2 ^ 31.
Record sl_ok (b : backend) (S : slang) : Prop := {
  so_py : sl_py S = is_py b;
  so_lit : forall z, 0 <= z -> litok b z -> sl_lit S z = Some (lit S z);
  so_neg : forall z, z < 0 -> litok b z -> exists v, sl_lit S (- z) = Some v /\ un S UNeg v = Some (lit S z);
  so_bin : forall o u w, o <> BPow -> o <> BAnd -> o <> BOr ->
    opt_bind (sl_bin S (op_text b o)) (fun b' => bin S b' u w) = bin S o u w /\ op_text b o <> sl_and S /\ op_text b o <> sl_or S;
  so_and : op_text b BAnd = sl_and S;
  so_or : op_text b BOr = sl_or S;
  so_andor : sl_or S <> sl_and S;
  so_land : forall u w, bin S BAnd u w = Some (if truth S u then sl_logic S (truth S w) w else sl_logic S false u);
  so_lor : forall u w, bin S BOr u w = Some (if truth S u then sl_logic S true u else sl_logic S (truth S w) w);
  so_conv : forall dt v, okdt dt -> sl_conv S (ty_of b dt) v = Some (coerce S dt v);
  so_elem : forall A (l : list A) z, 0 <= z < Z.of_nat (length l) -> sl_elem S A l z = Some z
}.
Lemma py_sl_ok lm : sl_ok Python (py_sl lm).
Proof.
  constructor; cbn; auto.
  - intros z Hz _. exists (PI (- z)). split; auto. now rewrite Z.opp_involutive.
  - intros o u w H1 H2 H3. destruct o; try congruence; (split; [reflexivity|split; discriminate]).
  - discriminate.
  - intros A l z Hz. replace ((0 <=? z) && (z <? Z.of_nat (length l))) with true by lia. reflexivity.
Qed.
Lemma c_sl_ok b lm : is_py b = false -> sl_ok b (c_sl lm).
Proof.
  intros Hb. constructor; cbn -[Z.pow]; auto.
  - intros z Hz [H|H]; [congruence|]. cbn -[Z.pow]. unfold lit. cbn -[Z.pow]. unfold c_num, c_fits. replace ((- 2 ^ 31 <=? z) && (z <? 2 ^ 31)) with true by lia. reflexivity.
  - intros z Hz [H|H]; [congruence|]. unfold lit. cbn -[Z.pow]. unfold c_num, c_fits. replace ((- 2 ^ 31 <=? - z) && (- z <? 2 ^ 31)) with true by lia.
    replace ((- 2 ^ 31 <=? z) && (z <? 2 ^ 31)) with true by lia. eexists. split; [reflexivity|]. unfold c_un, c_int, c_fits. rewrite Z.opp_involutive.
    replace ((- 2 ^ 31 <=? z) && (z <? 2 ^ 31)) with true by lia. reflexivity.
  - intros o u w H1 H2 H3. destruct o; try congruence; unfold op_text; rewrite ?Hb; (split; [reflexivity|split; discriminate]).
  - now rewrite Hb.
  - now rewrite Hb.
  - discriminate.
  - intros u w. unfold c_bool. destruct (c_true u); reflexivity.
  - intros u w. unfold c_bool. destruct (c_true u); reflexivity.
  - intros dt v. unfold ty_of. rewrite Hb. intros [->| ->]; reflexivity.
  - intros A l z Hz. replace ((0 <=? z) && (z <? Z.of_nat (length l))) with true by lia. reflexivity.
Qed.

(* ------------------------------------------------------------------ side conditions on the code *)
Section Ok.
Context (b : backend) (pty : name -> dtype) (hasgp : bool).
Fixpoint xok (e : kx) : Prop :=
  match e with
  | KName _ | KFlt0 => True
  | KInt z => litok b z
  | KBin _ x y => xok x /\ xok y
  | KUn _ x => xok x
  | KIdx _ i => xok i
  end.
Definition isloop (n : name) : Prop := match n with NLoop _ _ _ => True | _ => False end.
Fixpoint cok (c : code) : Prop :=
  match c with
  | CNil | CRet => True
  | CDecl dt n e k => okdt dt /\ xok e /\ cok k
  | CAssign n e k => ~ isloop n /\ xok e /\ cok k
  | CStore a i e k => okdt (pty a) /\ xok i /\ xok e /\ cok k
  | CFor n ext _ body k => isloop n /\ litok b ext /\ cok body /\ cok k
  | CIf c t f k => xok c /\ cok t /\ cok f /\ cok k
  | CGpu n _ _ k => hasgp = true /\ cok k
  end.
End Ok.

(* ------------------------------------------------------------------ parameters *)
Lemma bind_arrays_name b ps ls n : bind_arrays (map (param_tree b) ps) ls (pname n) = option_map (fun l => (ty_of b (pty_of ps n), l)) (bind_params ps ls n).
Proof.
  revert ls. induction ps as [|[x dt] ps IH]; intros [|l ls]; cbn [map bind_arrays bind_params param_tree fst snd]; auto; cbn.
  destruct (name_eqb x n) eqn:E.
  - apply name_eqb_eq in E. subst x. rewrite String.eqb_refl. reflexivity.
  - destruct (String.eqb_spec (pname x) (pname n)) as [H|H]; [apply pname_inj in H; subst; now rewrite name_eqb_refl in E|]. apply IH.
Qed.
Lemma bind_arrays_pname b ps ls x y : bind_arrays (map (param_tree b) ps) ls x = Some y -> exists n, x = pname n.
Proof.
  revert ls. induction ps as [|[z dt] ps IH]; intros [|l ls]; cbn [map bind_arrays param_tree fst snd]; try discriminate.
  destruct (String.eqb_spec (pname z) x) as [<-|]; eauto.
Qed.

Section Sim.
Context (b : backend) (S : slang) (HS : sl_ok b S) (ps : list (name * dtype)) (ls : list nat).
Context (coord : string -> string -> option Z).
Notation V := (val S).
Notation loc := (bind_params ps ls).
Notation pty := (pty_of ps).
Notation arrays := (bind_arrays (map (param_tree b) ps) ls).
Notation Run := (@run S _ loc).

(* variables agree *)
Definition agree (r : Kernel.env S) (s : SrcSem.env S) : Prop :=
  (forall n, option_map snd (look S s (pname n)) = option_map snd (lk S r n)) /\ (forall x, look S s x <> None -> exists n, x = pname n).
(* parameters are not hidden *)
Definition visible (r : Kernel.env S) : Prop := forall n, loc n <> None -> lk S r n = None.

Lemma agree_free r s x : agree r s -> (forall n, x <> pname n) -> SrcSem.free S arrays s x = true.
Proof.
  intros [_ H] Hx. unfold SrcSem.free. destruct (look S s x) eqn:E; [destruct (H x) as (n & Hn); [congruence|]; now destruct (Hx n)|].
  destruct (arrays x) eqn:E2; auto. destruct (bind_arrays_pname _ _ _ _ _ E2) as (n & Hn). now destruct (Hx n).
Qed.
Lemma word_not_name w : looks w = false -> forall n, w <> pname n.
Proof. intros H n ->. now rewrite pname_looks in H. Qed.
Lemma agree_none r s n : agree r s -> lk S r n = None -> look S s (pname n) = None.
Proof. intros [H _] Hn. specialize (H n). rewrite Hn in H. destruct (look S s (pname n)); [discriminate|auto]. Qed.

Lemma eval_sim r s e : agree r s -> visible r -> forall m m' v, xok b e -> Run (Kernel.eval S r e) m = (m', OkO v) ->
  m' = m /\ SrcSem.eval S arrays coord s m (tree b e) = Some v.
Proof using HS.
  intros Ha Hv. induction e as [n|z| |o x IHx y IHy|u x IHx|a i IHi]; intros m m' v Hx; cbn [Kernel.eval].
  - intros H. apply run_flt in H as [-> H]. split; auto. cbn [tree SrcSem.eval]. rewrite (proj1 Ha n). exact H.
  - cbn. intros H. injection H as <- <-. split; auto. cbn [tree]. unfold int_tree. cbn in Hx. destruct (z <? 0) eqn:E.
    + cbn [SrcSem.eval]. destruct (so_neg _ _ HS z ltac:(lia) Hx) as (w & H1 & H2). rewrite H1. exact H2.
    + cbn [SrcSem.eval]. apply (so_lit _ _ HS); auto. lia.
  - cbn. intros H. injection H as <- <-. auto.
  - cbn in Hx. destruct Hx as [Hx1 Hx2]. intros H. apply run_bind_ok in H as (m1 & u & H1 & H). apply run_bind_ok in H as (m2 & w & H2 & H). apply run_exc in H as [-> H].
    destruct (IHx _ _ _ Hx1 H1) as [-> E1]. destruct (IHy _ _ _ Hx2 H2) as [-> E2]. split; auto.
    destruct (match o with BPow => true | _ => false end) eqn:EP.
    { destruct o; try discriminate. cbn [tree SrcSem.eval]. rewrite (agree_free r s "pow" Ha (word_not_name "pow" eq_refl)). cbn. now rewrite E1, E2. }
    replace (tree b (KBin o x y)) with (SBin (op_text b o) (tree b x) (tree b y)) by (destruct o; try discriminate; reflexivity).
    cbn [SrcSem.eval]. rewrite E1. cbn [opt_bind].
    destruct (match o with BAnd => true | _ => false end) eqn:EA.
    { destruct o; try discriminate. rewrite (so_and _ _ HS), String.eqb_refl. rewrite (so_land _ _ HS) in H. rewrite E2. cbn. destruct (truth S u); exact H. }
    destruct (match o with BOr => true | _ => false end) eqn:EO.
    { destruct o; try discriminate. rewrite (so_or _ _ HS), String.eqb_refl. destruct (String.eqb_spec (sl_or S) (sl_and S)) as [E|_]; [now destruct (so_andor _ _ HS)|].
      rewrite (so_lor _ _ HS) in H. rewrite E2. cbn. destruct (truth S u); exact H. }
    destruct (so_bin _ _ HS o u w) as (B1 & B2 & B3); [intros ->; discriminate|intros ->; discriminate|intros ->; discriminate|].
    destruct (String.eqb_spec (op_text b o) (sl_and S)) as [E|_]; [contradiction|]. destruct (String.eqb_spec (op_text b o) (sl_or S)) as [E|_]; [contradiction|].
    rewrite E2. cbn [opt_bind]. now rewrite B1.
  - cbn in Hx. intros H. apply run_bind_ok in H as (m1 & w & H1 & H). apply run_exc in H as [-> H]. destruct (IHx _ _ _ Hx H1) as [-> E1]. split; auto.
    destruct (match u with UNeg => true | _ => false end) eqn:EN.
    { destruct u; try discriminate. cbn [tree SrcSem.eval]. rewrite E1. exact H. }
    assert (HF : math_fn (un_name u) = Some u /\ forall n, un_name u <> pname n).
    { destruct u; try discriminate; (split; [reflexivity|apply word_not_name; reflexivity]). }
    destruct HF as [HF1 HF2].
    replace (tree b (KUn u x)) with (SCall (fn_tree b u) [tree b x]) by (destruct u; try discriminate; reflexivity).
    unfold fn_tree. destruct (is_py b) eqn:Eb; cbn [SrcSem.eval].
    + rewrite (agree_free r s "math" Ha (word_not_name "math" eq_refl)), (so_py _ _ HS), Eb. cbn [andb String.eqb Ascii.eqb Bool.eqb]. rewrite HF1. cbn [opt_bind]. now rewrite E1.
    + rewrite (agree_free r s _ Ha HF2), (so_py _ _ HS), Eb. cbn [andb negb]. rewrite HF1. cbn [opt_bind]. now rewrite E1.
  - cbn in Hx. intros H. apply run_bind_ok in H as (m1 & w & H1 & H). destruct (IHi _ _ _ Hx H1) as [-> E1]. apply run_bind_ok in H as (m2 & z & H2 & H).
    apply run_flt in H2 as [-> H2]. cbn [run] in H. destruct (loc a) as [l|] eqn:El; [|discriminate]. destruct (m l) as [vs|] eqn:Em; [|discriminate].
    destruct (znth vs z) as [v'|] eqn:Ez; [|discriminate]. injection H as <- <-. split; auto.
    cbn [tree SrcSem.eval]. rewrite (agree_none r s a Ha) by (apply Hv; congruence). rewrite bind_arrays_name, El. cbn [option_map opt_bind]. rewrite Em. cbn [opt_bind]. rewrite E1. cbn [opt_bind].
    rewrite H2. cbn [opt_bind]. rewrite (so_elem _ _ HS) by (eapply znth_Some_range; eauto). cbn [opt_bind]. exact Ez.
Qed.
Context (gp : bool -> axis -> Z) (hasgp : bool).
Context (Hgp : hasgp = true -> forall bl ax, coord (if bl : bool then "blockIdx" else "threadIdx") (axis_name ax) = Some (gp bl ax)).

Definition fl_of (f : Kernel.flow) : SrcSem.flow := match f with FNorm => Norm | FReturn => Ret end.
(* binders are new, parameters are not hidden *)
Definition nctx (B : list name) (r : Kernel.env S) : Prop :=
  NoDup B /\ (forall n, In n B -> lk S r n = None /\ loc n = None) /\ visible r.
Definition doms (B : list name) (r r' : Kernel.env S) : Prop := forall n, lk S r' n <> None -> lk S r n <> None \/ In n B.
Lemma doms_refl B r : doms B r r.
Proof. intros n H. now left. Qed.
Lemma doms_trans B1 B2 r r1 r2 : doms B1 r r1 -> doms B2 r1 r2 -> doms (B1 ++ B2) r r2.
Proof. intros H1 H2 n H. destruct (H2 n H) as [G|G]; [destruct (H1 n G) as [Q|Q]; auto|]; right; apply in_or_app; auto. Qed.
Lemma doms_inc B1 B2 r r1 : doms B1 r r1 -> (forall n, In n B1 -> In n B2) -> doms B2 r r1.
Proof. intros H1 H2 n H. destruct (H1 n H); auto. Qed.
Lemma nctx_step B1 B2 r r' : nctx (B1 ++ B2) r -> doms B1 r r' -> nctx B2 r'.
Proof.
  intros (H1 & H2 & H3) HD. split; [|split].
  - clear - H1. induction B1; auto. inversion H1; auto.
  - intros n Hn. destruct (H2 n) as [G1 G2]; [apply in_or_app; auto|]. split; auto. destruct (lk S r' n) eqn:E; auto. destruct (HD n) as [Q|Q]; [congruence|contradiction|].
    exfalso. clear - H1 Hn Q. induction B1 as [|x B1 IH]; [destruct Q|]. inversion H1; subst. destruct Q as [->|Q]; [apply H2; apply in_or_app; auto|auto].
  - intros n Hn. destruct (lk S r' n) eqn:E; auto. destruct (HD n) as [Q|Q]; [congruence|now destruct (Q (H3 n Hn))|].
    destruct (H2 n) as [_ G]; [apply in_or_app; auto|contradiction].
Qed.
Lemma NoDup_app_l {A} (l1 l2 : list A) : NoDup (l1 ++ l2) -> NoDup l1.
Proof. induction l1; intros H; [constructor|]. inversion H; subst. constructor; auto. intros Q. apply H2. apply in_or_app; auto. Qed.
Lemma nctx_sub B1 B2 r r' : nctx (B1 ++ B2) r -> doms [] r r' -> nctx B1 r'.
Proof.
  intros (H1 & H2 & H3) HD. split; [|split].
  - eapply NoDup_app_l; eauto.
  - intros n Hn. destruct (H2 n) as [G1 G2]; [apply in_or_app; auto|]. split; auto. destruct (lk S r' n) eqn:E; auto. destruct (HD n) as [Q|[]]; [congruence|contradiction].
  - intros n Hn. destruct (lk S r' n) eqn:E; auto. destruct (HD n) as [Q|[]]; [congruence|]. now destruct (Q (H3 n Hn)).
Qed.
Lemma lk_enter r : forall n, lk S ([] :: r) n = lk S r n.
Proof. reflexivity. Qed.
End Sim.

(* ------------------------------------------------------------------ C *)
(* int counters *)
Record c_ok (S : slang) : Prop := {
  co_int : forall z, Z.abs z < 2 ^ 31 -> sl_conv S "int" (lit S z) = Some (lit S z);
  co_add : forall z, Z.abs z < 2 ^ 31 -> Z.abs (z + 1) < 2 ^ 31 -> bin S BAdd (lit S z) (lit S 1) = Some (lit S (z + 1));
  co_lt : forall y z, Z.abs y < 2 ^ 31 -> Z.abs z < 2 ^ 31 -> exists v, bin S BLt (lit S y) (lit S z) = Some v /\ truth S v = (y <? z);
}.
Lemma c_sl_c_ok lm : c_ok (c_sl lm).
Proof.
  assert (E : forall z, Z.abs z < 2 ^ 31 -> (- 2 ^ 31 <=? z) && (z <? 2 ^ 31) = true) by (intros; lia).
  constructor; intros; unfold lit; cbn -[Z.pow]; unfold c_num, c_fits; rewrite ?E; auto; try lia; unfold c_to_int; auto.
  - cbn -[Z.pow]. unfold c_int, c_fits. rewrite E by lia. reflexivity.
  - eexists. split; [reflexivity|]. cbn. destruct (y <? z); reflexivity.
Qed.
Section C.
Context (b : backend) (Hb : is_py b = false) (S : slang) (HS : sl_ok b S) (HC : c_ok S) (ps : list (name * dtype)) (ls : list nat).
Context (coord : string -> string -> option Z) (gp : bool -> axis -> Z) (hasgp : bool).
Notation L := (sl_lang S).
Notation loc := (bind_params ps ls).
Notation pty := (pty_of ps).
Notation arrays := (bind_arrays (map (param_tree b) ps) ls).
Notation X := (SrcSem.exec S arrays coord).
Notation kexec := (Kernel.exec L true gp pty).

Definition ftree (f : Kernel.frame L) : SrcSem.frame S := map (fun p => (pname (fst p), (typename (fst (snd p)), snd (snd p)))) f.
Definition okframe (f : Kernel.frame L) : Prop := Forall (fun p => okdt (fst (snd p))) f.
(* scopes: plain, or the scope of a loop variable (with its value) and the block inside it *)
Inductive crel : list (option (name * Z)) -> Kernel.env L -> SrcSem.env S -> Prop :=
| cr_nil : crel [] [] []
| cr_plain f sh r s : crel sh r s -> okframe f -> crel (None :: sh) (f :: r) (ftree f :: s)
| cr_loop f n z sh r s : crel sh r s -> okframe f -> isloop n ->
    crel (Some (n, z) :: sh) ((f ++ [(n, (Int32, lit L z))]) :: r) (ftree f :: [(pname n, ("int", lit L z))] :: s).

Lemma look1_ftree f n : look1 S (ftree f) (pname n) = option_map (fun p => (typename (fst p), snd p)) (flook L f n).
Proof.
  induction f as [|[m [dt v]] f IH]; cbn; auto. destruct (name_eqb m n) eqn:E.
  - apply name_eqb_eq in E. subst. now rewrite String.eqb_refl.
  - destruct (String.eqb_spec (pname m) (pname n)) as [H|H]; [apply pname_inj in H; subst; now rewrite name_eqb_refl in E|]. exact IH.
Qed.
Lemma look1_pname f x y : look1 S (ftree f) x = Some y -> exists n, x = pname n.
Proof. induction f as [|[m [dt v]] f IH]; cbn; [discriminate|]. destruct (String.eqb_spec (pname m) x) as [<-|]; eauto. Qed.
Lemma flook_app f1 f2 n : flook L (f1 ++ f2) n = match flook L f1 n with Some x => Some x | None => flook L f2 n end.
Proof. induction f1 as [|[m x] f1 IH]; cbn; auto. destruct (name_eqb m n); auto. Qed.
Lemma crel_agree sh r s : crel sh r s -> agree S r s.
Proof.
  induction 1 as [|f sh r s H IH Hf|f n z sh r s H IH Hf Hn].
  - split; [reflexivity|]. intros x Hx. now destruct Hx.
  - destruct IH as [I1 I2]. split.
    + intros n. cbn [look lk]. rewrite look1_ftree. destruct (flook L f n) as [[dt v]|]; auto. apply I1.
    + intros x. cbn [look]. destruct (look1 S (ftree f) x) eqn:E; [intros _; eapply look1_pname; eauto|apply I2].
  - destruct IH as [I1 I2]. split.
    + intros k. cbn [look lk look1]. rewrite look1_ftree, flook_app. destruct (flook L f k) as [[dt v]|]; auto. cbn [option_map flook].
      destruct (name_eqb n k) eqn:E.
      * apply name_eqb_eq in E. subst. now rewrite String.eqb_refl.
      * destruct (String.eqb_spec (pname n) (pname k)) as [G|G]; [apply pname_inj in G; subst; now rewrite name_eqb_refl in E|]. apply I1.
    + intros x. cbn [look look1]. destruct (look1 S (ftree f) x) eqn:E; [intros _; eapply look1_pname; eauto|].
      destruct (String.eqb_spec (pname n) x) as [<-|]; [eauto|apply I2].
Qed.
Lemma set1_ftree f n v : set1 S (ftree f) (pname n) v = match flook L f n with Some (dt, _) => ftree (fset_ L f n (dt, v)) | None => ftree f end.
Proof.
  induction f as [|[m [dt w]] f IH]; cbn; auto. destruct (name_eqb m n) eqn:E.
  - apply name_eqb_eq in E. subst. rewrite String.eqb_refl. reflexivity.
  - destruct (String.eqb_spec (pname m) (pname n)) as [H|H]; [apply pname_inj in H; subst; now rewrite name_eqb_refl in E|].
    fold (ftree f). rewrite IH. destruct (flook L f n) as [[dt' w']|]; reflexivity.
Qed.
Lemma fset_app f1 f2 n x : flook L f1 n <> None -> fset_ L (f1 ++ f2) n x = fset_ L f1 n x ++ f2.
Proof. induction f1 as [|[m y] f1 IH]; cbn; [congruence|]. destruct (name_eqb m n); auto. intros H. now rewrite IH. Qed.
Lemma okframe_set f n x : okframe f -> okdt (fst x) -> okframe (fset_ L f n x).
Proof. unfold okframe. induction 1 as [|[m y] f Hm Hf IH]; cbn; intros Hx; [constructor|]. destruct (name_eqb m n); constructor; auto. Qed.
Lemma okframe_look f n dt v : okframe f -> flook L f n = Some (dt, v) -> okdt dt.
Proof. unfold okframe. induction 1 as [|[m [d w]] f Hm Hf IH]; cbn; [discriminate|]. destruct (name_eqb m n); auto. intros H; injection H as <- <-. exact Hm. Qed.
Lemma conv_c dt v : okdt dt -> sl_conv S (typename dt) v = Some (coerce L dt v).
Proof using HS Hb. intros H. pose proof (so_conv _ _ HS dt v H) as G. unfold ty_of in G. now rewrite Hb in G. Qed.
Lemma assign_sim sh r s n v r' : crel sh r s -> ~ isloop n -> upd_env L r n v = Some r' -> exists s', c_assign S s (pname n) v = Some s' /\ crel sh r' s'.
Proof.
  intros H Hn. revert r'. induction H as [|f sh r s H IH Hf|f k z sh r s H IH Hf Hk]; intros r'; cbn [upd_env c_assign]; [discriminate| |].
  - rewrite look1_ftree. destruct (flook L f n) as [[dt w]|] eqn:E; cbn [option_map fst snd].
    + intros G. injection G as <-. rewrite (conv_c dt v (okframe_look _ _ _ _ Hf E)). cbn. eexists. split; [reflexivity|]. rewrite set1_ftree, E. constructor; auto. apply okframe_set; auto. eapply okframe_look; eauto.
    + destruct (upd_env L r n v) as [r1|] eqn:Er; [|discriminate]. intros G. injection G as <-. destruct (IH r1 eq_refl) as (s1 & -> & Hs1). eexists. split; [reflexivity|]. now constructor.
  - rewrite flook_app, look1_ftree. destruct (flook L f n) as [[dt w]|] eqn:E; cbn [option_map fst snd].
    + intros G. injection G as <-. rewrite (conv_c dt v (okframe_look _ _ _ _ Hf E)). cbn. eexists. split; [reflexivity|]. rewrite set1_ftree, E. rewrite fset_app by congruence. constructor; auto. apply okframe_set; auto. eapply okframe_look; eauto.
    + cbn [flook look1]. destruct (name_eqb k n) eqn:Ek; [apply name_eqb_eq in Ek; subst; contradiction|].
      destruct (String.eqb_spec (pname k) (pname n)) as [G|G]; [apply pname_inj in G; subst; now rewrite name_eqb_refl in Ek|].
      destruct (upd_env L r n v) as [r1|] eqn:Er; [|discriminate]. cbn [option_map]. intros Q. injection Q as <-. destruct (IH r1 eq_refl) as (s1 & -> & Hs1). eexists. split; [reflexivity|]. now constructor.
Qed.
Lemma declare_sim sh r s n dt v r' : crel sh r s -> okdt dt -> declare L true r n dt v = Some r' ->
  exists f s1, s = f :: s1 /\ crel sh r' (((pname n, (typename dt, coerce L dt v)) :: f) :: s1) /\ forall k, lk L r' k = if name_eqb n k then Some (dt, coerce L dt v) else lk L r k.
Proof.
  intros H Hd. destruct H as [|f sh r s H Hf|f k z sh r s H Hf Hk]; cbn [declare]; [discriminate| |].
  - destruct (flook L f n) eqn:E; [discriminate|]. intros G. injection G as <-. eexists _, _. split; [reflexivity|]. split.
    + apply (cr_plain ((n, (dt, coerce L dt v)) :: f)); auto. constructor; auto.
    + intros j. cbn [lk flook]. destruct (name_eqb n j); auto.
  - destruct (flook L (f ++ _) n) eqn:E; [discriminate|]. intros G. injection G as <-. eexists _, _. split; [reflexivity|]. split.
    + apply (cr_loop ((n, (dt, coerce L dt v)) :: f)); auto. constructor; auto.
    + intros j. cbn [lk flook app]. destruct (name_eqb n j); auto.
Qed.

Lemma flook_fset f n k x : (flook L (fset_ L f n x) k <> None) <-> (flook L f k <> None).
Proof.
  induction f as [|[j y] f IH]; cbn; [tauto|]. destruct (name_eqb j n) eqn:E; cbn.
  - destruct (name_eqb j k); [split; congruence|tauto].
  - destruct (name_eqb j k); [split; congruence|exact IH].
Qed.
Lemma upd_doms r n v : forall r', upd_env L r n v = Some r' -> forall j, doms S [] (skipn j r) (skipn j r').
Proof.
  induction r as [|f r IH]; intros r'; cbn [upd_env]; [discriminate|]. destruct (flook L f n) as [[dt w]|] eqn:E.
  - intros H. injection H as <-. intros [|j]; [|apply doms_refl]. cbn [skipn]. intros k. cbn [lk]. left. revert H. pose proof (flook_fset f n k (dt, coerce L dt v)) as Q.
    destruct (flook L (fset_ L f n (dt, coerce L dt v)) k) eqn:E1; destruct (flook L f k) eqn:E2; auto; try congruence. exfalso. now apply (proj1 Q).
  - destruct (upd_env L r n v) as [r1|]; [|discriminate]. intros H. injection H as <-. intros [|j]; [|exact (IH r1 eq_refl j)].
    intros k. cbn [lk skipn]. destruct (flook L f k); [left; congruence|]. apply (IH r1 eq_refl 0%nat).
Qed.
Lemma declare_tl r n dt v r' : declare L true r n dt v = Some r' -> tl r' = tl r.
Proof. destruct r as [|f r]; cbn; [discriminate|]. destruct (flook L f n); [discriminate|]. intros H; injection H as <-; reflexivity. Qed.

(* C: the variables declared inside go with their block *)
Definition scoped (B : list name) (r r' : Kernel.env L) : Prop := doms S B r r' /\ forall k, doms S [] (skipn (1 + k) r) (skipn (1 + k) r').
Lemma scoped_trans B1 B2 r r1 r2 : scoped B1 r r1 -> scoped B2 r1 r2 -> scoped (B1 ++ B2) r r2.
Proof. intros [A1 A2] [C1 C2]. split; [eapply doms_trans; eauto|intros k; exact (doms_trans _ [] [] _ _ _ (A2 k) (C2 k))]. Qed.
Lemma scoped_refl B r : scoped B r r.
Proof. split; intros; apply doms_refl. Qed.
Lemma scoped_inc B1 B2 r r1 : scoped B1 r r1 -> (forall n, In n B1 -> In n B2) -> scoped B2 r r1.
Proof. intros [H1 H2] H. split; auto. eapply doms_inc; eauto. Qed.
(* leaving a block *)
Lemma scoped_tl B f r r' : scoped B (f :: r) r' -> scoped [] r (tl r').
Proof. intros [_ H]. split; [apply (H 0%nat)|]. intros k. specialize (H (Datatypes.S k)). destruct r'; exact H. Qed.

Definition Sim (c : code) : Prop := forall sh r s m m' fl r', cok b pty hasgp c -> crel sh r s -> nctx S ps ls (binders c) r ->
  run loc (kexec c r) m = (m', OkO (fl, r')) -> exists s', X s m (stmts b c) (fl_of fl) s' m' /\ crel sh r' s' /\ scoped (binders c) r r'.

Lemma eval_int s m z : litok b z -> SrcSem.eval S arrays coord s m (int_tree z) = Some (lit L z).
Proof using HS gp hasgp.
  intros Hz. unfold int_tree. destruct (z <? 0) eqn:E; cbn [SrcSem.eval].
  - destruct (so_neg _ _ HS z ltac:(lia) Hz) as (v & -> & H). exact H.
  - apply (so_lit _ _ HS); auto. lia.
Qed.
Lemma eval_bin s m x y u w o : o <> BPow -> o <> BAnd -> o <> BOr -> SrcSem.eval S arrays coord s m x = Some u -> SrcSem.eval S arrays coord s m y = Some w ->
  SrcSem.eval S arrays coord s m (SBin (op_text b o) x y) = bin L o u w.
Proof using HS gp hasgp.
  intros H1 H2 H3 E1 E2. cbn [SrcSem.eval]. rewrite E1. cbn [opt_bind]. destruct (so_bin _ _ HS o u w) as (B1 & B2 & B3); auto.
  destruct (String.eqb_spec (op_text b o) (sl_and S)) as [E|_]; [contradiction|]. destruct (String.eqb_spec (op_text b o) (sl_or S)) as [E|_]; [contradiction|].
  rewrite E2. cbn [opt_bind]. now rewrite B1.
Qed.

Lemma loop_sim body n ext : Sim body -> cok b pty hasgp body -> isloop n -> Z.abs ext < 2 ^ 31 -> forall j k sh r s m m' fl r', 0 <= k -> Z.max k ext = k + Z.of_nat j ->
  Z.abs k < 2 ^ 31 -> crel sh r s -> nctx S ps ls (n :: binders body) r ->
  run loc (for_loop L true (kexec body) n (map (fun i => k + Z.of_nat i) (seq 0 j)) r) m = (m', OkO (fl, r')) ->
  exists z s', SrcSem.loop S arrays coord ([(pname n, ("int", lit L k))] :: s) m (SBin "<" (SVar (pname n)) (int_tree ext)) (pname n) (SInt 1) (stmts b body) (fl_of fl) ([(pname n, ("int", lit L z))] :: s') m' /\
    crel sh r' s' /\ scoped [] r r'.
Proof using HS HC Hb.
  intros HB Hc Hn He. induction j as [|j IH]; intros k sh r s m m' fl r' Hk Hj Hk2 HR HX HRun.
  - cbn in HRun. injection HRun as <- <- <-. exists k, s. split; [|split; [auto|apply scoped_refl]].
    destruct (co_lt _ HC k ext Hk2 He) as (v & Hv & Ht). eapply l_stop with (v := v).
    + rewrite (eval_bin _ _ _ _ (lit L k) (lit L ext) BLt); auto; try discriminate.
      * cbn. now rewrite String.eqb_refl.
      * apply eval_int. now right.
    + rewrite Ht. lia.
  - cbn [seq map for_loop] in HRun. apply run_bind_ok in HRun as (m1 & [fl1 r1] & H1 & H2). replace (k + Z.of_nat 0) with k in * by lia.
    assert (Hlt : k < ext) by lia. destruct (co_lt _ HC k ext Hk2 He) as (v & Hv & Ht).
    assert (Hcond : SrcSem.eval S arrays coord ([(pname n, ("int", lit L k))] :: s) m (SBin "<" (SVar (pname n)) (int_tree ext)) = Some v).
    { rewrite (eval_bin _ _ _ _ (lit L k) (lit L ext) BLt); auto; try discriminate; [cbn; now rewrite String.eqb_refl|apply eval_int; now right]. }
    assert (Htv : truth L v = true) by (rewrite Ht; lia).
    assert (HX1 : nctx S ps ls (binders body) (bind_loop L true r n k)).
    { apply (nctx_step S ps ls [n] (binders body) r); auto. intros q. cbn [bind_loop lk flook]. destruct (name_eqb n q) eqn:E; [apply name_eqb_eq in E; subst; right; now left|now left]. }
    destruct (HB (Some (n, k) :: sh) (bind_loop L true r n k) ([] :: [(pname n, ("int", lit L k))] :: s) m m1 fl1 r1 Hc) as (s1 & E1 & R1 & D1); auto.
    { exact (cr_loop [] n k sh r s HR (Forall_nil _) Hn). }
    inversion R1 as [| |f n0 z0 sh0 r0 s0 R0 Hf Hn0]; subst. apply scoped_tl in D1. cbn [tl] in D1.
    destruct fl1; cbn [fl_of] in E1.
    + cbn [Kernel.leave tl] in H2. rewrite <- seq_shift, map_map in H2.
      replace (map (fun x => k + Z.of_nat (Datatypes.S x)) (seq 0 j)) with (map (fun i => (k + 1) + Z.of_nat i) (seq 0 j)) in H2 by (apply map_ext; intros; lia).
      assert (HX2 : nctx S ps ls (n :: binders body) r0) by (apply (nctx_sub S ps ls (n :: binders body) [] r); [now rewrite app_nil_r|apply D1]).
      destruct (IH (k + 1) sh r0 s0 m1 m' fl r') as (z & s' & G1 & G2 & G3); auto; try lia.
      exists z, s'. split; [|split; [auto|exact (scoped_trans [] [] _ _ _ D1 G3)]].
      eapply l_next with (v := v) (w := lit L (k + 1)); eauto; cbn [tl].
      * rewrite (eval_bin _ _ _ _ (lit L k) (lit L 1) BAdd); auto; try discriminate.
        -- apply (co_add _ HC); auto; lia.
        -- cbn. now rewrite String.eqb_refl.
        -- cbn [SrcSem.eval]. apply (so_lit _ _ HS); [lia|right; cbn; lia].
      * unfold assign. rewrite (so_py _ _ HS), Hb. cbn [c_assign look1]. rewrite String.eqb_refl, (co_int _ HC) by lia. cbn [option_map set1]. rewrite String.eqb_refl. reflexivity.
    + cbn in H2. injection H2 as <- <- <-. cbn [fl_of]. exists k, s0. split; [|split; [auto|]].
      * change ([(pname n, ("int", lit L k))] :: s0) with (tl (ftree f :: [(pname n, ("int", lit L k))] :: s0)). eapply l_ret; eauto.
      * exact D1.
Qed.
Context (Hgp : hasgp = true -> forall bl ax, coord (if bl : bool then "blockIdx" else "threadIdx") (axis_name ax) = Some (gp bl ax)).
Lemma x_seq s m st ss s1 m1 fl s2 m2 : SrcSem.exec1 S arrays coord s m st Norm s1 m1 -> X s1 m1 ss fl s2 m2 -> X s m (st :: ss) fl s2 m2.
Proof. intros. eapply x_cons; eauto. Qed.
Lemma declare_step sh r s m n dt t v w r1 : okdt dt -> crel sh r s -> lk L r n = None -> loc n = None -> SrcSem.eval S arrays coord s m t = Some v -> coerce L dt v = w ->
  declare L true r n dt v = Some r1 -> exists s1, SrcSem.exec1 S arrays coord s m (SDecl (typename dt) (pname n) t) Norm s1 m /\ crel sh r1 s1 /\ scoped [n] r r1.
Proof using HS Hb.
  intros Hd HR Hn Hl He Hw HD. pose proof (declare_tl _ _ _ _ _ HD) as HT. destruct (declare_sim sh r s n dt v r1 HR Hd HD) as (f & s1 & -> & HR1 & Hlk).
  eexists. split; [|split; [exact HR1|]].
  - eapply x_decl.
    + now rewrite (so_py _ _ HS).
    + apply (agree_none S r); auto. eapply crel_agree; eauto.
    + rewrite bind_arrays_name, Hl. reflexivity.
    + exact He.
    + apply conv_c; auto.
  - split.
    + intros q. rewrite Hlk. destruct (name_eqb n q) eqn:E; [apply name_eqb_eq in E; subst; right; now left|now left].
    + intros k. destruct r as [|g r]; [discriminate HD|]. destruct r1 as [|g1 r1]; [inversion HR1|]. cbn in HT. subst. apply doms_refl.
Qed.
Lemma c_sim c : Sim c.
Proof using HS HC Hb Hgp.
  induction c as [|dt n e k IH|n e k IH|a i e k IH|n ext x body IHb k IH|e t IHt f IHf k IH| |n bl ax k IH]; intros sh r s m m' fl r' HC1 HR HX HRun; cbn [Kernel.exec] in HRun; cbn [cok] in HC1; cbn [stmts].
  - cbn in HRun. injection HRun as <- <- <-. exists s. split; [constructor|]. split; [auto|apply scoped_refl].
  - destruct HC1 as (Hd & Hx & Hk). apply run_bind_ok in HRun as (m1 & v & H1 & HRun). apply run_bind_ok in HRun as (m2 & r1 & H2 & HRun). apply run_flt in H2 as [-> H2].
    pose proof (crel_agree _ _ _ HR) as HA. destruct HX as (X1 & X2 & X3).
    destruct (eval_sim b S HS ps ls coord r s e HA X3 _ _ _ Hx H1) as [-> Ev].
    destruct (X2 n (or_introl eq_refl)) as [N1 N2].
    destruct (declare_step sh r s m n dt (tree b e) v _ r1 Hd HR N1 N2 Ev eq_refl H2) as (s1 & E1 & R1 & D1).
    destruct (IH sh r1 s1 m m' fl r') as (s' & E2 & R2 & D2); auto.
    { apply (nctx_step S ps ls [n] (binders k) r); [exact (conj X1 (conj X2 X3))|apply D1]. }
    exists s'. split; [|split; [auto|exact (scoped_trans [n] _ _ _ _ D1 D2)]].
    unfold decl_tree. rewrite Hb. eapply x_seq; eauto.
  - destruct HC1 as (Hd & Hx & Hk). apply run_bind_ok in HRun as (m1 & v & H1 & HRun). apply run_bind_ok in HRun as (m2 & r1 & H2 & HRun). apply run_flt in H2 as [-> H2].
    pose proof (crel_agree _ _ _ HR) as HA.
    destruct (eval_sim b S HS ps ls coord r s e HA (proj2 (proj2 HX)) _ _ _ Hx H1) as [-> Ev].
    destruct (assign_sim _ _ _ _ _ _ HR Hd H2) as (s1 & E1 & R1). pose proof (upd_doms _ _ _ _ H2) as D1.
    destruct (IH sh r1 s1 m m' fl r') as (s' & E2 & R2 & D2); auto.
    { apply (nctx_step S ps ls [] (binders k) r); [exact HX|apply (D1 0%nat)]. }
    exists s'. split; [|split; [auto|apply (scoped_trans [] _ _ r1 _); auto; split; [apply (D1 0%nat)|intros j; apply D1]]].
    eapply x_seq; [|exact E2]. eapply x_assign; eauto.
    + rewrite bind_arrays_name. destruct (loc n) as [l|] eqn:El; auto. exfalso.
      assert (Q : lk L r n = None) by (apply (proj2 (proj2 HX)); congruence). clear - H2 Q. revert r1 H2. induction r as [|f r IH]; intros r1; cbn in *; [discriminate|].
      destruct (flook L f n); [discriminate|]. destruct (upd_env L r n v); [|discriminate]. intros _. eapply IH; eauto.
    + unfold assign. now rewrite (so_py _ _ HS), Hb.
  - destruct HC1 as (Hd & Hi & Hx & Hk). apply run_bind_ok in HRun as (m1 & v & H1 & HRun). apply run_bind_ok in HRun as (m2 & w & H2 & HRun). apply run_bind_ok in HRun as (m3 & z & H3 & HRun). apply run_flt in H3 as [-> H3].
    pose proof (crel_agree _ _ _ HR) as HA. pose proof (proj2 (proj2 HX)) as HV.
    destruct (eval_sim b S HS ps ls coord r s e HA HV _ _ _ Hx H1) as [-> Ev]. destruct (eval_sim b S HS ps ls coord r s i HA HV _ _ _ Hi H2) as [-> Ei].
    cbn [run] in HRun. destruct (loc a) as [l|] eqn:El; [|discriminate]. destruct (m l) as [vs|] eqn:Em; [|discriminate].
    destruct (zupd vs z (coerce L (pty a) v)) as [vs'|] eqn:Ez; [|discriminate].
    destruct (IH sh r s _ m' fl r' Hk HR HX HRun) as (s' & E2 & R2 & D2). exists s'. split; [|split; auto].
    eapply x_seq; [|exact E2]. eapply x_store with (ty := typename (pty a)); eauto.
    + apply (agree_none S r); auto. apply HV. congruence.
    + rewrite bind_arrays_name, El. unfold ty_of. rewrite Hb. reflexivity.
    + apply (so_elem _ _ HS). unfold zupd in Ez. destruct ((0 <=? z) && (z <? Z.of_nat (length vs))) eqn:Eq; [lia|discriminate].
    + apply conv_c; auto.
  - destruct HC1 as (Hn & He & Hbo & Hk). destruct He as [He|He]; [congruence|]. apply run_bind_ok in HRun as (m1 & [fl1 r1] & H1 & HRun).
    cbn [binders] in HX. change (n :: binders body ++ binders k) with ((n :: binders body) ++ binders k) in HX.
    assert (HX1 : nctx S ps ls (n :: binders body) r) by (eapply nctx_sub; [exact HX|exact (doms_refl S [] r)]).
    unfold zrange in H1. destruct (loop_sim body n ext IHb Hbo Hn He (Z.to_nat ext) 0 sh r s m m1 fl1 r1) as (z & s1 & E1 & R1 & D1); auto; try lia.
    assert (HF : SrcSem.exec1 S arrays coord s m (for_tree b x (pname n) ext (stmts b body)) (fl_of fl1) s1 m1).
    { unfold for_tree. rewrite Hb. destruct HX1 as (_ & Q & _). destruct (Q n (or_introl eq_refl)) as [Q1 Q2]. refine (x_for S arrays coord s m (pragma b x) (pname n) _ _ _ _ _ (lit L 0) _ _ _ m1 _ _ _ _ _ E1).
      - now rewrite (so_py _ _ HS).
      - apply (agree_none S r); auto. eapply crel_agree; eauto.
      - rewrite bind_arrays_name, Q2. reflexivity.
      - cbn [SrcSem.eval]. apply (so_lit _ _ HS); [lia|right; cbn; lia].
      - apply (co_int _ HC). cbn. lia. }
    destruct fl1.
    + destruct (IH sh r1 s1 m1 m' fl r') as (s' & E2 & R2 & D2); auto.
      { eapply nctx_step; [exact HX|]. eapply doms_inc; [apply D1|intros q []]. }
      exists s'. split; [eapply x_seq; eauto|split; [auto|]]. cbn [binders]. change (n :: binders body ++ binders k) with ((n :: binders body) ++ binders k).
      eapply scoped_trans; [|exact D2]. eapply scoped_inc; [exact D1|intros q []].
    + cbn in HRun. injection HRun as <- <- <-. exists s1. split; [eapply x_ret; exact HF|split; auto]. eapply scoped_inc; [exact D1|intros q []].
  - destruct HC1 as (Hx & Ht & Hf & Hk). apply run_bind_ok in HRun as (m1 & v & H1 & HRun). pose proof (crel_agree _ _ _ HR) as HA. pose proof (proj2 (proj2 HX)) as HV.
    destruct (eval_sim b S HS ps ls coord r s e HA HV _ _ _ Hx H1) as [-> Ev]. apply run_bind_ok in HRun as (m2 & [fl1 r1] & H2 & HRun). cbn [binders] in HX.
    assert (HE : exists s1, X ([] :: s) m (if truth L v then stmts b t else stmts b f) (fl_of fl1) s1 m2 /\ crel (None :: sh) r1 s1 /\ scoped (binders t ++ binders f) ([] :: r) r1).
    { assert (R0 : crel (None :: sh) ([] :: r) ([] :: s)) by (apply (cr_plain []); auto; constructor). unfold Kernel.enter in H2. destruct (truth L v).
      - assert (HXt : nctx S ps ls (binders t) ([] :: r)) by (eapply nctx_sub; [exact HX|exact (doms_refl S [] r)]).
        destruct (IHt _ _ _ _ _ _ _ Ht R0 HXt H2) as (s1 & E1 & R1 & D1). exists s1. split; [exact E1|split; [exact R1|]]. eapply scoped_inc; [exact D1|]. intros q Hq. apply in_or_app. now left.
      - assert (HXf : nctx S ps ls (binders f) ([] :: r)) by (eapply nctx_sub with (B2 := binders k) (r := r); [eapply nctx_step; [exact HX|apply doms_refl]|exact (doms_refl S [] r)]).
        destruct (IHf _ _ _ _ _ _ _ Hf R0 HXf H2) as (s1 & E1 & R1 & D1). exists s1. split; [exact E1|split; [exact R1|]]. eapply scoped_inc; [exact D1|]. intros q Hq. apply in_or_app. now right. }
    destruct HE as (s1 & E1 & R1 & D1). inversion R1 as [|f0 sh0 r0 s0 R0 Hf0|]; subst. apply scoped_tl in D1. cbn [tl] in D1. cbn [Kernel.leave tl] in HRun.
    assert (HI : SrcSem.exec1 S arrays coord s m (SIf (tree b e) (stmts b t) (stmts b f)) (fl_of fl1) s0 m2).
    { replace s0 with (SrcSem.leave S (ftree f0 :: s0)) by (unfold SrcSem.leave; now rewrite (so_py _ _ HS), Hb). eapply x_if; [exact Ev|]. unfold SrcSem.enter. rewrite (so_py _ _ HS), Hb. exact E1. }
    destruct fl1.
    + destruct (IH sh r0 s0 m2 m' fl r') as (s' & E2 & R2 & D2); auto.
      { rewrite app_assoc in HX. eapply nctx_step; [exact HX|]. eapply doms_inc; [apply D1|intros q []]. }
      exists s'. split; [eapply x_seq; eauto|split; [auto|]]. cbn [binders]. rewrite app_assoc.
      eapply scoped_trans; [|exact D2]. eapply scoped_inc; [exact D1|intros q []].
    + cbn in HRun. injection HRun as <- <- <-. exists s0. split; [eapply x_ret; exact HI|split; auto]. eapply scoped_inc; [exact D1|intros q []].
  - cbn in HRun. injection HRun as <- <- <-. exists s. split; [eapply x_ret; constructor|split; [auto|apply scoped_refl]].
  - destruct HC1 as (Hg & Hk). apply run_bind_ok in HRun as (m2 & r1 & H2 & HRun). apply run_flt in H2 as [-> H2].
    pose proof (crel_agree _ _ _ HR) as HA. destruct HX as (X1 & X2 & X3). destruct (X2 n (or_introl eq_refl)) as [N1 N2].
    assert (Ev : SrcSem.eval S arrays coord s m (gpu_tree bl ax) = Some (lit L (gp bl ax))).
    { unfold gpu_tree. cbn [SrcSem.eval]. rewrite (agree_free b S ps ls r s) by (auto; destruct bl; apply word_not_name; reflexivity). now rewrite (Hgp Hg). }
    destruct (declare_step sh r s m n Int64 (gpu_tree bl ax) _ _ r1 (or_introl eq_refl) HR N1 N2 Ev eq_refl H2) as (s1 & E1 & R1 & D1).
    destruct (IH sh r1 s1 m m' fl r') as (s' & E2 & R2 & D2); auto.
    { apply (nctx_step S ps ls [n] (binders k) r); [exact (conj X1 (conj X2 X3))|apply D1]. }
    exists s'. split; [|split; [auto|exact (scoped_trans [n] _ _ _ _ D1 D2)]].
    unfold decl_tree. rewrite Hb. eapply x_seq; eauto.
Qed.
End C.

(* ------------------------------------------------------------------ Python *)
Record py_ok (S : slang) : Prop := {
  po_coerce : forall dt v, coerce S dt v = v;
  po_idx : forall z, to_idx S (lit S z) = Some z
}.
Lemma py_sl_py_ok lm : py_ok (py_sl lm).
Proof. constructor; reflexivity. Qed.
Section Py.
Context (b : backend) (Hb : is_py b = true) (S : slang) (HS : sl_ok b S) (HP : py_ok S) (ps : list (name * dtype)) (ls : list nat).
Context (coord : string -> string -> option Z) (gp : bool -> axis -> Z).
Notation L := (sl_lang S).
Notation loc := (bind_params ps ls).
Notation pty := (pty_of ps).
Notation arrays := (bind_arrays (map (param_tree b) ps) ls).
Notation X := (SrcSem.exec S arrays coord).
Notation kexec := (Kernel.exec L false gp pty).

Definition pyrel (r : Kernel.env L) (s : SrcSem.env S) : Prop := exists f g, r = [f] /\ s = [g] /\ agree S [f] [g].
Lemma pyrel_agree r s : pyrel r s -> agree S r s.
Proof. intros (f & g & -> & -> & H). exact H. Qed.
Lemma look1_set g n k v : look1 S g (pname n) <> None -> option_map snd (look1 S (set1 S g (pname n) v) (pname k)) = if name_eqb n k then Some v else option_map snd (look1 S g (pname k)).
Proof.
  induction g as [|[y [ty w]] g IH]; cbn; [congruence|]. destruct (String.eqb_spec y (pname n)) as [->|Hy]; cbn.
  - intros _. destruct (name_eqb n k) eqn:E.
    + apply name_eqb_eq in E. subst. now rewrite String.eqb_refl.
    + destruct (String.eqb_spec (pname n) (pname k)) as [H|H]; [apply pname_inj in H; subst; now rewrite name_eqb_refl in E|reflexivity].
  - intros H. destruct (String.eqb_spec y (pname k)) as [->|Hk]; auto. cbn. destruct (name_eqb n k) eqn:E; auto. apply name_eqb_eq in E. subst. congruence.
Qed.
Lemma set1_dom g x v y : look1 S (set1 S g x v) y <> None -> look1 S g y <> None.
Proof.
  induction g as [|[z [ty w]] g IH]; cbn; auto. destruct (String.eqb z x); cbn; destruct (String.eqb z y); auto; congruence.
Qed.
(* an assignment, and what it corresponds to *)
Lemma py_assign r s n v r' : pyrel r s -> (forall k, option_map snd (lk L r' k) = if name_eqb n k then Some v else option_map snd (lk L r k)) -> length r' = 1%nat ->
  exists s', assign S s (pname n) v = Some s' /\ pyrel r' s'.
Proof using HS Hb.
  intros (f & g & -> & -> & H1 & H2) Hr Hl. unfold assign. rewrite (so_py _ _ HS), Hb. eexists. split; [reflexivity|].
  destruct r' as [|f' [|? ?]]; try discriminate. exists f'. eexists. split; [reflexivity|]. split; [reflexivity|]. split.
  - intros k. rewrite Hr, <- H1. cbn [look]. destruct (look1 S g (pname n)) eqn:E.
    + assert (HO : forall g0 x, option_map snd (look S [g0] x) = option_map snd (look1 S g0 x)) by (intros g0 x; cbn; now destruct (look1 S g0 x)).
      change (option_map snd (look S [set1 S g (pname n) v] (pname k)) = (if name_eqb n k then Some v else option_map snd (look S [g] (pname k)))). rewrite !HO. apply look1_set. congruence.
    + cbn [look1]. destruct (name_eqb n k) eqn:En.
      * apply name_eqb_eq in En. subst. rewrite String.eqb_refl. reflexivity.
      * destruct (String.eqb_spec (pname n) (pname k)) as [G|G]; [apply pname_inj in G; subst; now rewrite name_eqb_refl in En|]. reflexivity.
  - intros x. cbn [look]. destruct (look1 S g (pname n)) eqn:E.
    + intros Hx. apply H2. cbn [look]. destruct (look1 S (set1 S g (pname n) v) x) eqn:E1; [|congruence]. pose proof (set1_dom g (pname n) v x) as Q. destruct (look1 S g x); [congruence|]. exfalso. apply Q; congruence.
    + cbn [look1]. destruct (String.eqb_spec (pname n) x) as [<-|]; eauto.
Qed.
Lemma lk_upd r n v r' : upd_env L r n v = Some r' -> length r' = length r /\ (lk L r n <> None) /\ forall k, option_map snd (lk L r' k) = if name_eqb n k then Some v else option_map snd (lk L r k).
Proof using HP.
  revert r'. induction r as [|f r IH]; intros r'; cbn [upd_env]; [discriminate|]. destruct (flook L f n) as [[dt w]|] eqn:E.
  - intros H. injection H as <-. split; [reflexivity|]. cbn [lk]. rewrite E. split; [congruence|]. intros k. rewrite (po_coerce _ HP).
    assert (HF : flook L (fset_ L f n (dt, v)) k = if name_eqb n k then Some (dt, v) else flook L f k).
    { clear - E. induction f as [|[j y] f IH]; cbn in *; [discriminate|]. destruct (name_eqb j n) eqn:Ej; cbn.
      - apply name_eqb_eq in Ej. subst. destruct (name_eqb n k); auto.
      - destruct (name_eqb j k) eqn:Ek; auto. apply name_eqb_eq in Ek. subst. destruct (name_eqb n k) eqn:En; auto. apply name_eqb_eq in En. subst. now rewrite name_eqb_refl in Ej. }
    rewrite HF. destruct (name_eqb n k); auto.
  - destruct (upd_env L r n v) as [r1|]; [|discriminate]. intros H. injection H as <-. destruct (IH r1 eq_refl) as (I1 & I2 & I3). cbn [length lk]. rewrite E. split; [now rewrite I1|]. split; auto.
    intros k. destruct (flook L f k) eqn:Ef; auto. destruct (name_eqb n k) eqn:En; auto. apply name_eqb_eq in En. subst. congruence.
Qed.
Lemma visible_upd r r' n v : visible S ps ls r -> loc n = None -> (forall k, option_map snd (lk L r' k) = if name_eqb n k then Some v else option_map snd (lk L r k)) -> visible S ps ls r'.
Proof.
  intros H Hn Hr k Hk. specialize (Hr k). destruct (name_eqb n k) eqn:E; [apply name_eqb_eq in E; subst; contradiction|]. rewrite (H k Hk) in Hr. destruct (lk L r' k); [discriminate|auto].
Qed.

Definition PSim (c : code) : Prop := forall r s m m' fl r', cok b pty false c -> pyrel r s -> (forall n, In n (binders c) -> loc n = None) -> visible S ps ls r ->
  run loc (kexec c r) m = (m', OkO (fl, r')) -> exists s', X s m (stmts b c) (fl_of fl) s' m' /\ pyrel r' s' /\ visible S ps ls r'.
Lemma each_sim body n : PSim body -> cok b pty false body -> loc n = None -> (forall q, In q (binders body) -> loc q = None) -> forall zs r s m m' fl r', pyrel r s -> visible S ps ls r ->
  run loc (for_loop L false (kexec body) n zs r) m = (m', OkO (fl, r')) ->
  exists s', SrcSem.each S arrays coord s m (pname n) zs (stmts b body) (fl_of fl) s' m' /\ pyrel r' s' /\ visible S ps ls r'.
Proof using HS Hb.
  intros HB Hc Hn Hl. induction zs as [|z zs IH]; intros r s m m' fl r' HR HV HRun; cbn [for_loop] in HRun.
  - cbn in HRun. injection HRun as <- <- <-. exists s. split; [constructor|auto].
  - apply run_bind_ok in HRun as (m1 & [fl1 r1] & H1 & H2).
    assert (HQ : forall k, option_map snd (lk L (bind_loop L false r n z) k) = if name_eqb n k then Some (lit L z) else option_map snd (lk L r k)).
    { destruct HR as (f & g & -> & _). intros k. cbn [bind_loop lk flook]. destruct (name_eqb n k); reflexivity. }
    destruct (py_assign r s n (lit L z) _ HR HQ) as (s1 & A1 & R1); [destruct HR as (f & g & -> & _); reflexivity|].
    assert (V1 : visible S ps ls (bind_loop L false r n z)) by (eapply visible_upd; eauto).
    destruct (HB _ _ _ _ _ _ Hc R1 Hl V1 H1) as (s2 & E2 & R2 & V2). destruct fl1; cbn [fl_of Kernel.leave] in *.
    + destruct (IH _ _ _ _ _ _ R2 V2 H2) as (s3 & E3 & R3 & V3). exists s3. split; [eapply e_next; eauto|auto].
    + cbn in H2. injection H2 as <- <- <-. exists s2. split; [eapply e_ret; eauto|auto].
Qed.
Lemma range_zrange ext : SrcSem.range 0 ext 1 = zrange ext.
Proof.
  unfold SrcSem.range. replace ((ext - 0 + 1 - 1) / 1) with ext by (rewrite Z.div_1_r; lia). rewrite <- (map_id (zrange ext)) at 2. apply map_ext. intros; lia.
Qed.
Lemma py_decl r s m n dt t v r1 : pyrel r s -> visible S ps ls r -> loc n = None -> SrcSem.eval S arrays coord s m t = Some v -> declare L false r n dt v = Some r1 ->
  exists s1, SrcSem.exec1 S arrays coord s m (SAssign (SVar (pname n)) t) Norm s1 m /\ pyrel r1 s1 /\ visible S ps ls r1.
Proof using HS HP Hb.
  intros HR HV Hn Ev HD. assert (HQ : forall k, option_map snd (lk L r1 k) = if name_eqb n k then Some v else option_map snd (lk L r k)).
  { destruct HR as (f & g & -> & _). cbn [declare] in HD. injection HD as <-. intros k. cbn [lk flook]. rewrite (po_coerce _ HP). destruct (name_eqb n k); reflexivity. }
  destruct (py_assign r s n v r1 HR HQ) as (s1 & A1 & R1); [destruct HR as (f & g & -> & _); cbn in HD; injection HD as <-; reflexivity|].
  exists s1. split; [|split; [auto|eapply visible_upd; eauto]]. eapply x_assign; eauto. rewrite bind_arrays_name, Hn. reflexivity.
Qed.
Lemma py_sim c : PSim c.
Proof using HS HP Hb.
  induction c as [|dt n e k IH|n e k IH|a i e k IH|n ext x body IHb k IH|e t IHt f IHf k IH| |n bl ax k IH]; intros r s m m' fl r' HC1 HR HX HV HRun; cbn [Kernel.exec] in HRun; cbn [cok] in HC1; cbn [stmts]; cbn [binders] in HX;
    pose proof (pyrel_agree _ _ HR) as HA.
  - cbn in HRun. injection HRun as <- <- <-. exists s. split; [constructor|auto].
  - destruct HC1 as (Hd & Hx & Hk). apply run_bind_ok in HRun as (m1 & v & H1 & HRun). apply run_bind_ok in HRun as (m2 & r1 & H2 & HRun). apply run_flt in H2 as [-> H2].
    destruct (eval_sim b S HS ps ls coord r s e HA HV _ _ _ Hx H1) as [-> Ev].
    destruct (py_decl r s m n dt (tree b e) v r1) as (s1 & E1 & R1 & V1); auto; [apply HX; now left|].
    destruct (IH r1 s1 m m' fl r') as (s' & E2 & R2 & V2); auto; [intros q Hq; apply HX; now right|].
    exists s'. split; [|auto]. unfold decl_tree. rewrite Hb. eapply x_cons; eauto.
  - destruct HC1 as (Hd & Hx & Hk). apply run_bind_ok in HRun as (m1 & v & H1 & HRun). apply run_bind_ok in HRun as (m2 & r1 & H2 & HRun). apply run_flt in H2 as [-> H2].
    destruct (eval_sim b S HS ps ls coord r s e HA HV _ _ _ Hx H1) as [-> Ev]. destruct (lk_upd _ _ _ _ H2) as (U1 & U2 & U3).
    assert (Hn : loc n = None) by (destruct (loc n) eqn:E; auto; exfalso; apply U2, HV; congruence).
    destruct (py_assign r s n v r1 HR U3) as (s1 & A1 & R1); [rewrite U1; destruct HR as (f & g & -> & _); reflexivity|].
    destruct (IH r1 s1 m m' fl r') as (s' & E2 & R2 & V2); auto; [eapply visible_upd; eauto|].
    exists s'. split; [|auto]. eapply x_cons; [|exact E2]. eapply x_assign; eauto. rewrite bind_arrays_name, Hn. reflexivity.
  - destruct HC1 as (Hd & Hi & Hx & Hk). apply run_bind_ok in HRun as (m1 & v & H1 & HRun). apply run_bind_ok in HRun as (m2 & w & H2 & HRun). apply run_bind_ok in HRun as (m3 & z & H3 & HRun). apply run_flt in H3 as [-> H3].
    destruct (eval_sim b S HS ps ls coord r s e HA HV _ _ _ Hx H1) as [-> Ev]. destruct (eval_sim b S HS ps ls coord r s i HA HV _ _ _ Hi H2) as [-> Ei].
    cbn [run] in HRun. destruct (loc a) as [l|] eqn:El; [|discriminate]. destruct (m l) as [vs|] eqn:Em; [|discriminate].
    destruct (zupd vs z (coerce L (pty a) v)) as [vs'|] eqn:Ez; [|discriminate].
    destruct (IH r s _ m' fl r' Hk HR HX HV HRun) as (s' & E2 & R2 & V2). exists s'. split; [|auto].
    eapply x_cons; [|exact E2]. eapply x_store with (ty := ty_of b (pty a)); eauto.
    + apply (agree_none S r); auto. apply HV. congruence.
    + rewrite bind_arrays_name, El. reflexivity.
    + apply (so_elem _ _ HS). unfold zupd in Ez. destruct ((0 <=? z) && (z <? Z.of_nat (length vs))) eqn:Eq; [lia|discriminate].
    + apply (so_conv _ _ HS); auto.
  - destruct HC1 as (Hn & He & Hbo & Hk). apply run_bind_ok in HRun as (m1 & [fl1 r1] & H1 & HRun).
    destruct (each_sim body n IHb Hbo) with (zs := zrange ext) (5 := H1) (s := s) as (s1 & E1 & R1 & V1); auto; [apply HX; now left|intros q Hq; apply HX; right; apply in_or_app; now left|].
    assert (HF : SrcSem.exec1 S arrays coord s m (for_tree b x (pname n) ext (stmts b body)) (fl_of fl1) s1 m1).
    { unfold for_tree. rewrite Hb. eapply x_for_in with (u := lit L 0) (v := lit L ext) (w := lit L 1) (a := 0) (b := ext) (c := 1); try apply (po_idx _ HP); try lia.
      - now rewrite (so_py _ _ HS).
      - apply (agree_free b S ps ls r); auto. apply word_not_name. reflexivity.
      - rewrite bind_arrays_name, HX by now left. reflexivity.
      - cbn [SrcSem.eval]. apply (so_lit _ _ HS); [lia|now left].
      - unfold int_tree. destruct (ext <? 0) eqn:E; cbn [SrcSem.eval].
        + destruct (so_neg _ _ HS ext ltac:(lia) He) as (v & -> & Q). exact Q.
        + apply (so_lit _ _ HS); auto. lia.
      - cbn [SrcSem.eval]. apply (so_lit _ _ HS); [lia|now left].
      - rewrite range_zrange. exact E1. }
    destruct fl1.
    + destruct (IH r1 s1 m1 m' fl r') as (s' & E2 & R2 & V2); auto; [intros q Hq; apply HX; right; apply in_or_app; now right|].
      exists s'. split; [eapply x_cons; eauto|auto].
    + cbn in HRun. injection HRun as <- <- <-. exists s1. split; [eapply x_ret; exact HF|auto].
  - destruct HC1 as (Hx & Ht & Hf & Hk). apply run_bind_ok in HRun as (m1 & v & H1 & HRun).
    destruct (eval_sim b S HS ps ls coord r s e HA HV _ _ _ Hx H1) as [-> Ev]. apply run_bind_ok in HRun as (m2 & [fl1 r1] & H2 & HRun).
    assert (HE : exists s1, X s m (if truth L v then stmts b t else stmts b f) (fl_of fl1) s1 m2 /\ pyrel r1 s1 /\ visible S ps ls r1).
    { unfold Kernel.enter in H2. destruct (truth L v).
      - eapply IHt; eauto. intros q Hq. apply HX. apply in_or_app; now left.
      - eapply IHf; eauto. intros q Hq. apply HX. apply in_or_app; right. apply in_or_app; now left. }
    destruct HE as (s1 & E1 & R1 & V1). cbn [Kernel.leave] in HRun.
    assert (HI : SrcSem.exec1 S arrays coord s m (SIf (tree b e) (stmts b t) (stmts b f)) (fl_of fl1) s1 m2).
    { replace s1 with (SrcSem.leave S s1) by (unfold SrcSem.leave; now rewrite (so_py _ _ HS), Hb). eapply x_if; [exact Ev|]. unfold SrcSem.enter. rewrite (so_py _ _ HS), Hb. exact E1. }
    destruct fl1.
    + destruct (IH r1 s1 m2 m' fl r') as (s' & E2 & R2 & V2); auto; [intros q Hq; apply HX; apply in_or_app; right; apply in_or_app; now right|].
      exists s'. split; [eapply x_cons; eauto|auto].
    + cbn in HRun. injection HRun as <- <- <-. exists s1. split; [eapply x_ret; exact HI|auto].
  - cbn in HRun. injection HRun as <- <- <-. exists s. split; [eapply x_ret; constructor|auto].
  - destruct HC1 as (Hg & _). discriminate.
Qed.
End Py.
