(* A text has at most one reading. *)
From Coq Require Import String Ascii Decimal DecimalString.
From Verif Require Import Base BaseFacts Lang Kernel Backends Text TextPrint TextParse TextLex TextName TextExpr TextStmt TextRead.
Open Scope string_scope.
Open Scope Z_scope.
Open Scope list_scope.

Section Expr.
Context (T : list level) (K : list string).
Definition more {A} (a b : option A) : Prop := forall x, a = Some x -> b = Some x.
Lemma more_refl {A} (a : option A) : more a a.
Proof. intros x H; exact H. Qed.
Lemma more_bnd {A B} (a a' : option A) (f f' : A -> option B) : more a a' -> (forall x, more (f x) (f' x)) -> more (obnd a f) (obnd a' f').
Proof. intros H1 H2 x. destruct a as [y|]; [|discriminate]. rewrite (H1 y eq_refl). cbn. apply H2. Qed.
Lemma pa_eq n ts : p_atom T K (S n) ts =
  match ts with
  | TId s :: r => if mem s K then None else Some (SVar s, r)
  | TNum z :: r => Some (SInt z, r)
  | TReal s :: r => Some (SReal s, r)
  | _ => do r <- eat "(" ts; do (a, r) <- p_expr T K n T r; do r <- eat ")" r; Some (a, r)
  end.
Proof. reflexivity. Qed.
Lemma pt_eq n L lv a ts : p_tail T K (S n) L lv a ts =
  match ts with
  | t :: r =>
      match op_of L t with
      | Some o =>
          do (b, r) <- p_expr T K n lv r;
          if assoc L then p_tail T K n L lv (SBin o a b) r
          else match r with
               | t' :: _ => match op_of L t' with Some _ => None | None => Some (SBin o a b, r) end
               | [] => Some (SBin o a b, r)
               end
      | None => Some (a, ts)
      end
  | [] => Some (a, [])
  end.
Proof. destruct ts; reflexivity. Qed.
Lemma expr_mono n : (forall lv ts, more (p_expr T K n lv ts) (p_expr T K (S n) lv ts)) /\ (forall L lv a ts, more (p_tail T K n L lv a ts) (p_tail T K (S n) L lv a ts)) /\
  (forall ts, more (p_atom T K n ts) (p_atom T K (S n) ts)) /\ (forall a ts, more (p_post T K n a ts) (p_post T K (S n) a ts)) /\ (forall ts, more (p_args T K n ts) (p_args T K (S n) ts)).
Proof.
  induction n as [|n (IE & IT & IA & IP & IG)]; [repeat split; intros; intros x H; discriminate H|]. repeat split.
  - intros [|L lv] ts.
    + rewrite (pe_nil T K (S n)), (pe_nil T K n). destruct (eat "-" ts) as [r|]; apply more_bnd; auto.
      * intros []. apply more_refl.
      * intros []. apply IP.
    + rewrite (pe_cons T K (S n)), (pe_cons T K n). apply more_bnd; auto. intros []. apply IT.
  - intros L lv a ts. rewrite (pt_eq (S n)), (pt_eq n). destruct ts as [|t r]; [apply more_refl|]. destruct (op_of L t); [|apply more_refl]. apply more_bnd; auto. intros [].
    destruct (assoc L); [apply IT|apply more_refl].
  - intros ts. rewrite (pa_eq (S n)), (pa_eq n). destruct ts as [|[] r]; try apply more_refl; (apply more_bnd; [apply more_refl|intros q]; apply more_bnd; auto; intros []; apply more_refl).
  - intros a ts. rewrite (pp_eq T K (S n)), (pp_eq T K n). destruct (eat "[" ts).
    + apply more_bnd; auto. intros []. apply more_bnd; [apply more_refl|]. intros. apply IP.
    + destruct (eat "(" ts); [apply more_bnd; auto; intros []; apply IP|]. destruct (eat "." ts) as [[|[] r]|]; try apply more_refl. apply IP.
  - intros ts. rewrite (pg_eq T K (S n)), (pg_eq T K n). apply more_bnd; auto. intros []. destruct (eat "," l); [apply more_bnd; auto; intros []|]; apply more_refl.
Qed.
Lemma pe_mono n lv ts : more (p_expr T K n lv ts) (p_expr T K (S n) lv ts).
Proof. apply expr_mono. Qed.
End Expr.
Ltac grow := repeat first [apply more_refl | apply more_bnd; [first [apply more_refl|apply pe_mono|solve [auto]]|intros; try match goal with x : _ * _ |- _ => destruct x end]].

Lemma cs_eq n ts : c_stmt (S n) ts =
  match ts with
  | TDir d :: r =>
      do (s, r) <- c_stmt n r;
      match s with SForC ds x lo c y st body => Some (SForC (d :: ds) x lo c y st body, r) | _ => None end
  | TId w :: r =>
      if String.eqb w "for" then
        do r <- eat "(" r; do r <- eat_id "int" r; do (x, r) <- ident c_keywords r; do r <- eat "=" r;
        do (lo, r) <- p_expr c_levels c_keywords n c_levels r; do r <- eat ";" r;
        do (c, r) <- p_expr c_levels c_keywords n c_levels r; do r <- eat ";" r;
        do (y, r) <- ident c_keywords r; do r <- eat "+=" r; do (st, r) <- p_expr c_levels c_keywords n c_levels r; do r <- eat ")" r;
        do (body, r) <- c_block n r;
        Some (SForC [] x lo c y st body, r)
      else if String.eqb w "if" then
        do r <- eat "(" r; do (c, r) <- p_expr c_levels c_keywords n c_levels r; do r <- eat ")" r; do (t, r) <- c_block n r;
        match eat_id "else" r with
        | Some r => do (f, r) <- c_block n r; Some (SIf c t f, r)
        | None => Some (SIf c t [], r)
        end
      else if String.eqb w "return" then do r <- eat ";" r; Some (SReturn, r)
      else if mem w c_types then
        do (x, r) <- ident c_keywords r; do r <- eat "=" r; do (e, r) <- p_expr c_levels c_keywords n c_levels r; do r <- eat ";" r; Some (SDecl w x e, r)
      else c_simple n ts
  | _ => c_simple n ts
  end.
Proof. reflexivity. Qed.
Lemma c_simple_mono n ts : more (c_simple n ts) (c_simple (S n) ts).
Proof. unfold c_simple. grow. Qed.
Lemma cb_full n ts : c_block (S n) ts = (do r <- eat "{" ts; c_stmts n r).
Proof. reflexivity. Qed.
Lemma c_mono n : (forall ts, more (c_stmt n ts) (c_stmt (S n) ts)) /\ (forall ts, more (c_block n ts) (c_block (S n) ts)) /\ (forall ts, more (c_stmts n ts) (c_stmts (S n) ts)).
Proof.
  induction n as [|n (IS & IB & IL)]; [repeat split; intros; intros x H; discriminate H|]. repeat split; intros ts.
  - rewrite (cs_eq (S n)), (cs_eq n). destruct ts as [|[] r]; try apply c_simple_mono.
    + destruct (String.eqb s "for"); [grow|]. destruct (String.eqb s "if"); [|destruct (String.eqb s "return"); [grow|destruct (mem s c_types); [grow|apply c_simple_mono]]].
      grow. match goal with |- context [eat_id "else" ?l] => destruct (eat_id "else" l); grow end.
    + grow.
  - rewrite (cb_full (S n)), (cb_full n). grow. apply IL.
  - rewrite (css_eq (S n)), (css_eq n). destruct (eat "}" ts); grow.
Qed.
Lemma c_params_mono n : forall ts, more (c_params n ts) (c_params (S n) ts).
Proof.
  induction n as [|n IH]; intros ts; [intros x H; discriminate H|]. cbn [c_params]. destruct ts as [|[] r]; try apply more_refl. destruct (mem s c_types); [|apply more_refl]. grow.
  destruct (eat "," l); [|grow]. apply more_bnd; [exact (IH l0)|intros []; apply more_refl].
Qed.
Lemma c_source_mono n ts : more (c_source n ts) (c_source (S n) ts).
Proof.
  unfold c_source. destruct (c_libs ts) as [libs r]. destruct (c_attr r) as [attr r']. apply more_bnd; [apply more_refl|intros]. apply more_bnd; [apply more_refl|intros [? ?]].
  apply more_bnd; [apply more_refl|intros]. apply more_bnd; [apply c_params_mono|intros [? ?]]. apply more_bnd; [apply c_mono|intros [? ?]]. apply more_refl.
Qed.

Lemma ps_eq n i ts : py_stmt (S n) i ts =
  match ts with
  | TId w :: r =>
      if String.eqb w "for" then
        do (x, r) <- ident py_keywords r; do r <- eat_id "in" r; do (it, r) <- p_expr py_levels py_keywords n py_levels r; do r <- eat ":" r;
        do (body, r) <- py_suite n i r; Some (SForIn x it body, r)
      else if String.eqb w "if" then
        do (c, r) <- p_expr py_levels py_keywords n py_levels r; do r <- eat ":" r; do (t, r) <- py_suite n i r;
        match r with
        | TInd k :: r' =>
            match (if Nat.eqb k i then eat_id "else" r' else None) with
            | Some r' => do r' <- eat ":" r'; do (f, r') <- py_suite n i r'; Some (SIf c t f, r')
            | None => Some (SIf c t [], r)
            end
        | _ => Some (SIf c t [], r)
        end
      else if String.eqb w "return" then if eol r then Some (SReturn, r) else None
      else py_simple n ts
  | _ => py_simple n ts
  end.
Proof. reflexivity. Qed.
Lemma py_simple_mono n ts : more (py_simple n ts) (py_simple (S n) ts).
Proof. unfold py_simple. grow. Qed.
Lemma py_mono n : (forall i ts, more (py_stmt n i ts) (py_stmt (S n) i ts)) /\ (forall i ts, more (py_suite n i ts) (py_suite (S n) i ts)) /\ (forall i ts, more (py_stmts n i ts) (py_stmts (S n) i ts)).
Proof.
  induction n as [|n (IS & IB & IL)]; [repeat split; intros; intros x H; discriminate H|]. repeat split; intros i ts.
  - rewrite (ps_eq (S n)), (ps_eq n). destruct ts as [|[] r]; try apply py_simple_mono.
    destruct (String.eqb s "for"); [grow|]. destruct (String.eqb s "if"); [|destruct (String.eqb s "return"); [grow|apply py_simple_mono]].
    grow. match goal with |- more (match ?l with _ => _ end) _ => destruct l as [|[] r'] end; grow. match goal with |- context [if ?c then eat_id "else" r' else None] => destruct (if c then eat_id "else" r' else None); grow end.
  - destruct ts as [|[] r]; try apply more_refl. rewrite (psu_eq (S n)), (psu_eq n). destruct (i <? n0)%nat; grow.
  - destruct ts as [|[] r]; try apply more_refl. rewrite (pss_eq (S n)), (pss_eq n). destruct (Nat.eqb n0 i); grow.
Qed.
Lemma py_params_mono n : forall ts, more (py_params n ts) (py_params (S n) ts).
Proof.
  induction n as [|n IH]; intros ts; [intros x H; discriminate H|]. cbn [py_params]. grow. destruct (eat "," l); [|grow]. apply more_bnd; [exact (IH l0)|intros []; apply more_refl].
Qed.
(* py_libs reads at most as many imports as its bound; a source read with a smaller bound is read the same with a larger one *)
Lemma py_libs_stop n : forall ts l r, py_libs n ts = (l, r) -> (exists w q, r = TInd 0 :: TId w :: q /\ w <> "import") -> forall m, (n <= m)%nat -> py_libs m ts = (l, r).
Proof.
  induction n as [|n IH]; intros ts l r H HR m Hm.
  - injection H as <- <-. destruct HR as (w & q & -> & Hw). destruct m; [reflexivity|]. cbn [py_libs]. destruct q as [|[] q]; auto.
    destruct (String.eqb_spec w "import"); [contradiction|reflexivity].
  - destruct m as [|m]; [lia|]. cbn [py_libs] in H |- *. destruct ts as [|[] [|[] ts]]; auto.
    all: try (destruct n0 as [|n0]; auto). destruct ts as [|[] ts]; auto. destruct (String.eqb s "import" && eol ts); auto.
    destruct (py_libs n ts) as [l' r'] eqn:El. injection H as <- <-. rewrite (IH _ _ _ El HR m); auto. lia.
Qed.
Lemma le_more {A} (f : nat -> option A) n m : (forall n, more (f n) (f (S n))) -> (n <= m)%nat -> more (f n) (f m).
Proof. intros H. induction 1 as [|m Hm IH]; [apply more_refl|]. intros x Hx. apply H, IH, Hx. Qed.
Lemma py_source_mono n m ts : (n <= m)%nat -> more (py_source n ts) (py_source m ts).
Proof.
  intros Hm p. unfold py_source. destruct (py_libs n ts) as [libs r] eqn:El. intros H. destruct r as [|[] r]; try discriminate. destruct n0 as [|n0]; [|discriminate].
  destruct r as [|[] r]; try discriminate. destruct (String.eqb_spec s "def") as [->|Hd]; [|cbn [eat_id] in H; destruct (String.eqb_spec "def" s); [congruence|discriminate]].
  rewrite (py_libs_stop _ _ _ _ El ltac:(do 2 eexists; split; [reflexivity|discriminate]) m Hm).
  revert p H. assert (HP : forall ts, more (py_params n ts) (py_params m ts)).
  { intros q. apply (le_more (fun n => py_params n q)); auto. intros. apply py_params_mono. }
  assert (HS : forall i ts, more (py_suite n i ts) (py_suite m i ts)).
  { intros i q. apply (le_more (fun n => py_suite n i q)); auto. intros. apply py_mono. }
  cbn [eat_id]. change (String.eqb "def" "def") with true. cbv iota. cbn [obnd]. fold (more (A := source)).
  match goal with |- forall p, ?a = Some p -> ?c = Some p => change (more a c) end.
  apply more_bnd; [apply more_refl|intros [? ?]]. apply more_bnd; [apply more_refl|intros]. apply more_bnd; [apply HP|intros [? ?]]. apply more_bnd; [apply more_refl|intros].
  apply more_bnd; [apply HS|intros [? ?]]. apply more_refl.
Qed.
Lemma c_source_le n m ts : (n <= m)%nat -> more (c_source n ts) (c_source m ts).
Proof. induction 1 as [|m Hm IH]; [apply more_refl|]. intros x Hx. apply c_source_mono, IH, Hx. Qed.

(* the language of a backend *)
Definition reads (b : backend) (text : string) (p : source) : Prop := if is_py b then py_reads text p else c_reads text p.
Theorem reads_unique b text p q : reads b text p -> reads b text q -> p = q.
Proof.
  unfold reads. destruct (is_py b); intros (n & ts & H1 & H2) (m & us & H3 & H4); rewrite H1 in H3; injection H3 as <-;
    destruct (Nat.le_ge_cases n m) as [Hl|Hl].
  - pose proof (py_source_mono _ _ _ Hl _ H2). congruence.
  - pose proof (py_source_mono _ _ _ Hl _ H4). congruence.
  - pose proof (c_source_le _ _ _ Hl _ H2). congruence.
  - pose proof (c_source_le _ _ _ Hl _ H4). congruence.
Qed.
