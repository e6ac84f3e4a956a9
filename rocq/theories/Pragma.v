(* What clang -fopenmp asks of a loop with a directive, stated on the source as read (TextParse.v), and when
   the generated text satisfies it. *)
From Coq Require Import String Ascii Decimal DecimalString DecimalZ DecimalFacts.
From Verif Require Import Base BaseFacts Util Lang Spec Graph Api Reach Algo AlgoSem Kernel Sched Codegen Backends SchedUser SchedUser2 SchedReach
  Text TextPrint TextParse TextLex TextName TextExpr TextStmt.
Open Scope string_scope.
Open Scope Z_scope.
Open Scope list_scope.

(* ------------------------------------------------------------------ the rule *)
(* a return statement somewhere in s *)
Fixpoint returns (s : stmt) : bool :=
  match s with
  | SReturn => true
  | SForC _ _ _ _ _ _ body | SForIn _ _ body => existsb returns body
  | SIf _ t f => existsb returns t || existsb returns f
  | _ => false
  end.
(* an assignment to variable x somewhere in s *)
Fixpoint assigns (x : string) (s : stmt) : bool :=
  match s with
  | SAssign (SVar y) _ => String.eqb x y
  | SForC _ _ _ _ _ _ body | SForIn _ _ body => existsb (assigns x) body
  | SIf _ t f => existsb (assigns x) t || existsb (assigns x) f
  | _ => false
  end.
Definition int_literal (e : sx) : option Z := match e with SInt z => Some z | SNeg (SInt z) => Some (- z) | _ => None end.
(* OpenMP canonical loop form (restricted to literal bounds): for (int x = lo; x < hi; x += step) with a
   positive step, x not modified by the body *)
Definition canonical_loop (x : string) (lo c : sx) (y : string) (st : sx) (body : list stmt) : Prop :=
  (exists z, int_literal lo = Some z) /\ (exists e z, c = SBin "<" (SVar x) e /\ int_literal e = Some z) /\ y = x /\
  (exists z, int_literal st = Some z /\ 0 < z) /\ existsb (assigns x) body = false.
(* - parallel for: canonical form, and no branch out of the structured block
   - vectorize: a hint
   - unroll_count(k): an integer constant, 1 <= k < 2^31 ("invalid value; must be positive" / "value is too large") *)
Definition directive_ok (d : string) (x : string) (lo c : sx) (y : string) (st : sx) (body : list stmt) : Prop :=
  (d = "#pragma omp parallel for" /\ canonical_loop x lo c y st body /\ existsb returns body = false) \/
  d = "#pragma clang loop vectorize(enable)" \/
  (exists arg i, d = "#pragma clang loop unroll_count(" +++ arg +++ ")" /\ NilEmpty.int_of_string arg = Some i /\ 1 <= Z.of_int i < 2 ^ 31).
Fixpoint directives_ok (s : stmt) : Prop :=
  match s with
  | SForC dirs x lo c y st body => (forall d, In d dirs -> directive_ok d x lo c y st body) /\ (fix all l := match l with [] => True | s :: r => directives_ok s /\ all r end) body
  | SForIn _ _ body => (fix all l := match l with [] => True | s :: r => directives_ok s /\ all r end) body
  | SIf _ t f => (fix all l := match l with [] => True | s :: r => directives_ok s /\ all r end) t /\ (fix all l := match l with [] => True | s :: r => directives_ok s /\ all r end) f
  | _ => True
  end.
Definition clang_accepts (p : source) : Prop := Forall directives_ok (s_body p).

(* ------------------------------------------------------------------ facts *)
Lemma all_Forall l : (fix all l := match l with [] => True | s :: r => directives_ok s /\ all r end) l <-> Forall directives_ok l.
Proof. induction l as [|s l IH]; split; intros H; auto; [constructor; tauto|]. inversion H; subst. tauto. Qed.
Lemma ok_for dirs x lo c y st body : directives_ok (SForC dirs x lo c y st body) <-> (forall d, In d dirs -> directive_ok d x lo c y st body) /\ Forall directives_ok body.
Proof. cbn [directives_ok]. now rewrite all_Forall. Qed.
Lemma ok_if c t f : directives_ok (SIf c t f) <-> Forall directives_ok t /\ Forall directives_ok f.
Proof. cbn [directives_ok]. now rewrite !all_Forall. Qed.

(* of the generated statements *)
Fixpoint plain (c : code) : Prop :=
  match c with
  | CNil => True
  | CDecl _ _ _ k | CStore _ _ _ k => plain k
  | CAssign n _ k => (forall r p q, n <> NLoop r p q) /\ plain k
  | CFor _ _ x body k => x = XSeq /\ plain body /\ plain k
  | CIf _ t f k => plain t /\ plain f /\ plain k
  | CRet => True
  | CGpu _ _ _ _ => False
  end.
Fixpoint cret (c : code) : bool :=
  match c with
  | CNil => false
  | CDecl _ _ _ k | CStore _ _ _ k | CAssign _ _ k | CGpu _ _ _ k => cret k
  | CFor _ _ _ body k => cret body || cret k
  | CIf _ t f k => cret t || cret f || cret k
  | CRet => true
  end.
Lemma plain_capp a c : plain a -> plain c -> plain (capp a c).
Proof. induction a; cbn; tauto. Qed.
Lemma cret_capp a c : cret a = false -> cret (capp a c) = cret c.
Proof.
  induction a; cbn; auto; intros H; try discriminate.
  - apply orb_false_iff in H as [H1 H2]. now rewrite H1, IHa2.
  - apply orb_false_iff in H as [H H2]. now rewrite H, IHa3.
Qed.
Notation b := Clang.
Lemma stmts_ok c : plain c -> Forall directives_ok (stmts b c).
Proof.
  induction c; cbn [plain stmts]; intros H; auto; try (constructor; [exact I|]; tauto).
  - destruct H as (-> & H1 & H2). constructor; auto. unfold for_tree. cbn [is_py pragma]. apply ok_for. split; auto. intros d [].
  - destruct H as (H1 & H2 & H3). constructor; auto. apply ok_if. auto.
Qed.
Lemma stmts_returns c : existsb returns (stmts b c) = cret c.
Proof.
  induction c; cbn [stmts cret existsb]; auto.
  - unfold for_tree. cbn [is_py returns]. now rewrite IHc1, IHc2.
  - cbn [returns]. rewrite IHc1, IHc2, IHc3. reflexivity.
Qed.
Lemma stmts_assigns r p q c : plain c -> existsb (assigns (pname (NLoop r p q))) (stmts b c) = false.
Proof.
  induction c; cbn [plain stmts existsb]; intros H; auto.
  - cbn [assigns]. rewrite IHc by tauto. destruct (String.eqb_spec (pname (NLoop r p q)) (pname n)) as [He|]; auto. apply pname_inj in He. destruct H as [H _]. now destruct (H r p q).
  - unfold for_tree. cbn [is_py assigns]. rewrite IHc1, IHc2 by tauto. reflexivity.
  - cbn [assigns]. rewrite IHc1, IHc2, IHc3 by tauto. reflexivity.
  - contradiction.
Qed.

Lemma render_plain g E args e : forall dt k c v k1, render g E args e dt k = Done (c, v, k1) -> plain c /\ cret c = false.
Proof.
  assert (HM : forall l, (forall x, In x l -> forall dt k c v k1, render g E args x dt k = Done (c, v, k1) -> plain c /\ cret c = false) ->
    forall k c vs k1, (fix many (l : list expr) (k : nat) : outcome (code * list kx * nat) :=
      match l with [] => Done (CNil, [], k) | x :: l' => '(c, v, k1) <~ render g E args x Int64 k ;; '(c', vs, k2) <~ many l' k1 ;; Done (capp c c', v :: vs, k2) end) l k = Done (c, vs, k1) ->
    plain c /\ cret c = false).
  { induction l as [|x l IH]; intros HI k c vs k1 H.
    - injection H as <- <- <-. cbn; auto.
    - apply obind_done in H as ([[c1 v1] k2] & D1 & H). apply obind_done in H as ([[c2 vs2] k3] & D2 & H). injection H as <- <- <-.
      destruct (HI x (or_introl eq_refl) _ _ _ _ _ D1) as [A1 A2].
      destruct (IH (fun y Hy => HI y (or_intror Hy)) _ _ _ _ D2) as [B1 B2].
      split; [now apply plain_capp|now rewrite cret_capp]. }
  induction e using expr_ind'; intros dt k c v k1 HR; cbn [render] in HR.
  - injection HR as <- <- <-. cbn; auto.
  - injection HR as <- <- <-. cbn; auto.
  - apply obind_done in HR as ([[c1 v1] k2] & D1 & HR). apply obind_done in HR as ([[c2 v2] k3] & D2 & HR). injection HR as <- <- <-.
    destruct (IHe1 _ _ _ _ _ D1) as [A1 A2]. destruct (IHe2 _ _ _ _ _ D2) as [B1 B2]. split; [repeat apply plain_capp; cbn; auto|now rewrite !cret_capp].
  - apply obind_done in HR as ([[c1 v1] k2] & D1 & HR). injection HR as <- <- <-. destruct (IHe _ _ _ _ _ D1) as [A1 A2]. split; [apply plain_capp; cbn; auto|now rewrite cret_capp].
  - apply obind_done in HR as ([[c1 v1] k2] & D1 & HR). apply obind_done in HR as ([[c2 v2] k3] & D2 & HR). apply obind_done in HR as ([[c3 v3] k4] & D3 & HR). injection HR as <- <- <-.
    destruct (IHe1 _ _ _ _ _ D1) as [A1 A2]. destruct (IHe2 _ _ _ _ _ D2) as [B1 B2]. destruct (IHe3 _ _ _ _ _ D3) as [C1 C2]. cbn [plain cret].
    split; [apply plain_capp; auto; cbn; split; [|split; auto]; apply plain_capp; cbn; auto; split; auto; discriminate|].
    rewrite cret_capp by auto. cbn. now rewrite !cret_capp.
  - apply obind_done in HR as ([[c1 v1] k2] & D1 & HR). injection HR as <- <- <-. destruct (IHe _ _ _ _ _ D1) as [A1 A2]. cbn [plain cret].
    match goal with |- context [fold_right _ _ ?r] => induction r as [|l r IH] end; cbn [fold_right plain cret]; [split; [apply plain_capp; cbn; auto; split; auto; discriminate|now rewrite cret_capp]|].
    destruct IH as [I1 I2]. rewrite I2. auto.
  - apply obind_done in HR as (nm & _ & HR). apply obind_done in HR as (fd & _ & HR). apply obind_done in HR as ([[c1 vs] k2] & D1 & HR). injection HR as <- <- <-.
    eapply HM; [|exact D1]. match goal with H : Forall _ _ |- _ => rewrite Forall_forall in H; exact H end.
  - apply obind_done in HR as (nm & _ & HR). apply obind_done in HR as (fd & _ & HR). apply obind_done in HR as ([[c1 vs] k2] & D1 & HR). injection HR as <- <- <-.
    eapply HM; [|exact D1]. match goal with H : Forall _ _ |- _ => rewrite Forall_forall in H; exact H end.
Qed.
Lemma splits_plain sps : plain (render_splits sps) /\ cret (render_splits sps) = false.
Proof. induction sps; cbn; auto. Qed.
Lemma guards_plain sps c : plain c -> plain (capp (render_guards sps) c) /\ cret (capp (render_guards sps) c) = existsb sp_guard sps || cret c.
Proof. intros Hc. induction sps as [|x sps [I1 I2]]; cbn; auto. destruct (sp_guard x); cbn; auto. Qed.

(* the loops *)
Definition exec_ok (guarded : bool) (x : lexec) : Prop :=
  match x with XPar => guarded = false | XUnroll u => 1 <= u < 2 ^ 31 | _ => True end.
Lemma app_inj_l p x y : p +++ x = p +++ y -> x = y.
Proof. induction p as [|c p IH]; cbn; intros H; auto. injection H as H. auto. Qed.
Lemma app_len x y : String.length (x +++ y) = (String.length x + String.length y)%nat.
Proof. induction x as [|c x IH]; cbn; auto. Qed.
Lemma app_inj_r p : forall x y, x +++ p = y +++ p -> x = y.
Proof.
  induction x as [|c x IH]; intros [|d y] H; auto.
  - exfalso. apply (f_equal String.length) in H. cbn in H. rewrite app_len in H. lia.
  - exfalso. apply (f_equal String.length) in H. cbn in H. rewrite app_len in H. lia.
  - cbn in H. injection H as -> H. f_equal. auto.
Qed.
Lemma dec_read u : NilEmpty.int_of_string (dec u) = Some (Z.to_int u).
Proof. unfold dec. apply NilEmpty.isi. Qed.
Lemma for_dir x n ext body : handles b x = true -> nests x = true -> existsb (assigns (pname n)) body = false ->
  ((forall d, In d (pragma b x) -> directive_ok d (pname n) (SInt 0) (SBin "<" (SVar (pname n)) (int_tree ext)) (pname n) (SInt 1) body) <-> exec_ok (existsb returns body) x).
Proof.
  intros Hh Hn Ha. destruct x as [| | |u|ax|ax]; try discriminate; cbn [pragma exec_ok].
  - split; auto. intros _ d [].
  - split.
    + intros H. destruct (H _ (or_introl eq_refl)) as [(_ & _ & R)|[R|(arg & i & R & _)]]; [exact R|discriminate|discriminate].
    + intros HR d [<-|[]]. left. split; auto. split; auto. unfold canonical_loop. split; [now exists 0|]. split; [|split; [auto|split; [|exact Ha]]].
      * exists (int_tree ext), ext. split; auto. unfold int_tree. destruct (ext <? 0); cbn; f_equal. lia.
      * exists 1. split; auto. lia.
  - split; auto. intros _ d [<-|[]]. right. now left.
  - split.
    + intros H. destruct (H _ (or_introl eq_refl)) as [(R & _)|[R|(arg & i & R & R2 & R3)]]; [discriminate|discriminate|].
      apply app_inj_l in R. apply app_inj_r in R. subst arg. rewrite dec_read in R2. injection R2 as <-. now rewrite DecimalZ.of_to in R3.
    + intros HR d [<-|[]]. right. right. exists (dec u), (Z.to_int u). split; auto. split; [apply dec_read|]. now rewrite DecimalZ.of_to.
Qed.
Lemma loops_ok loops inner : handled b loops = true -> Forall (fun l => is_loop (lv_name (ls_lv l))) loops -> plain inner ->
  (Forall directives_ok (stmts b (render_loops loops inner)) <-> forall l, In l loops -> ls_kind l = Spatial -> exec_ok (cret inner) (ls_exec l)) /\
  cret (render_loops loops inner) = cret inner /\ forall r p q, existsb (assigns (pname (NLoop r p q))) (stmts b (render_loops loops inner)) = false.
Proof.
  intros HH HL HP. induction loops as [|l loops IH].
  - cbn [render_loops]. split; [|split; auto]; [|intros; now apply stmts_assigns]. split; [intros _ l []|]. intros _. now apply stmts_ok.
  - rewrite handled_cons in HH. inversion HL as [|? ? HLl HLs]; subst. cbn [render_loops]. destruct (is_spatial l) eqn:Es.
    + apply andb_true_iff in HH as [Hh HH]. destruct (IH HH HLs) as (I1 & I2 & I3). destruct (lv_name (ls_lv l)) as [| | | |r p q] eqn:En; try contradiction.
      assert (G : match ls_exec l with XBlock _ | XThread _ => False | _ => True end) by (destruct (ls_exec l); auto; discriminate).
      assert (Hn : nests (ls_exec l) = true) by (destruct (ls_exec l); auto; contradiction).
      replace (match ls_exec l with
        | XBlock ax => CGpu (NLoop r p q) true ax (render_loops loops inner) | XThread ax => CGpu (NLoop r p q) false ax (render_loops loops inner)
        | x => CFor (NLoop r p q) (lv_ext (ls_lv l)) x (render_loops loops inner) CNil end)
        with (CFor (NLoop r p q) (lv_ext (ls_lv l)) (ls_exec l) (render_loops loops inner) CNil) by (destruct (ls_exec l); auto; contradiction).
      cbn [stmts cret existsb]. unfold for_tree. cbn [is_py assigns]. rewrite I2, orb_false_r. split; [|split; auto].
      * rewrite Forall_cons_iff, ok_for, I1, (for_dir _ (NLoop r p q)) by auto. rewrite stmts_returns, I2. split.
        -- intros ((H1 & H2) & _) y [<-|Hy] Hk; auto.
        -- intros H. split; [|constructor]. split; [apply H; [now left|]|intros; apply H; auto; now right]. unfold is_spatial in Es. destruct (ls_kind l); [auto|discriminate].
      * intros r' p' q'. now rewrite I3.
    + destruct (IH HH HLs) as (I1 & I2 & I3). split; [|auto]. rewrite I1. split; intros H y Hy Hk; [|apply H; auto; now right].
      destruct Hy as [<-|Hy]; auto. unfold is_spatial in Es. rewrite Hk in Es. discriminate.
Qed.
Theorem accepts_iff g E args f s k kname kern k1 : codegen g E args f s k = Done (kern, k1) -> handled b (s_loops s) = true -> Forall (fun l => is_loop (lv_name (ls_lv l))) (s_loops s) ->
  clang_accepts (source_of b kname kern) <-> forall l, In l (s_loops s) -> ls_kind l = Spatial -> exec_ok (existsb sp_guard (s_splits s)) (ls_exec l).
Proof.
  intros HC HH HL. unfold codegen in HC. apply obind_done in HC as (ps & _ & HC). apply obind_done in HC as ([[c v] k2] & HR & HC). injection HC as <- <-.
  unfold clang_accepts. cbn [source_of s_body k_body]. destruct (render_plain _ _ _ _ _ _ _ _ _ HR) as [P1 P2].
  match goal with |- context [render_loops _ (capp _ (capp _ (capp c ?st)))] => set (store := st) end.
  assert (Q : plain (capp c store) /\ cret (capp c store) = false) by (split; [apply plain_capp; cbn; auto|now rewrite cret_capp]).
  destruct Q as [Q1 Q2]. destruct (guards_plain (s_splits s) _ Q1) as [G1 G2]. destruct (splits_plain (s_splits s)) as [S1 S2].
  destruct (loops_ok (s_loops s) (capp (render_splits (s_splits s)) (capp (render_guards (s_splits s)) (capp c store))) HH HL) as (H & _); [now apply plain_capp|].
  rewrite cret_capp, G2, Q2, orb_false_r in H by auto. exact H.
Qed.
