(* Printed kernels are read back, as C or Python source, as the intended program. *)
From Coq Require Import String Ascii Decimal DecimalString.
From Verif Require Import Base BaseFacts Lang Kernel Backends Text TextPrint TextParse TextLex TextName TextExpr TextStmt.
Open Scope string_scope.
Open Scope Z_scope.
Open Scope list_scope.

(* every expression respects the precedence rules, no block is empty *)
Fixpoint cwf (b : backend) (c : code) : bool :=
  match c with
  | CNil => true
  | CDecl _ _ e k => fitsp b 0 e && cwf b k
  | CAssign _ e k => fitsp b 0 e && cwf b k
  | CStore _ i e k => fitsp b 0 i && fitsp b 0 e && cwf b k
  | CFor _ _ _ body k => negb (match body with CNil => true | _ => false end) && cwf b body && cwf b k
  | CIf c t f k => fitsp b 0 c && negb (match t with CNil => true | _ => false end) && cwf b t && cwf b f && cwf b k
  | CRet => true
  | CGpu _ _ _ k => cwf b k
  end.

Ltac sane := cbn [eat eat_id String.eqb Ascii.eqb Bool.eqb obnd app].

(* ------------------------------------------------------------------ C *)
Section C.
Context (b : backend) (Hb : is_py b = false).
Lemma ce e r : fitsp b 0 e = true -> stops b 0 r -> ev (fun n => p_expr c_levels c_keywords n c_levels (toks b e ++ r) = Some (tree b e, r)).
Proof. intros H Hr. assert (HE := expr_reads b e r H Hr). unfold tbl, kws in HE. now rewrite Hb in HE. Qed.
Lemma c_at ts a r : reads_at b 0 ts a -> stops b 0 r -> ev (fun n => p_expr c_levels c_keywords n c_levels (ts ++ r) = Some (a, r)).
Proof. intros H Hr. assert (HE := H r Hr). unfold tbl, kws in HE. now rewrite Hb in HE. Qed.
Lemma cstop s r : mem s [")"; "]"; ","; ";"; ":"; "="; "+="; "{"] = true -> stops b 0 (TOp s :: r).
Proof. apply close_stops. Qed.
Lemma pn_id n r : ident c_keywords (TId (pname n) :: r) = Some (pname n, r).
Proof. unfold ident. now rewrite pname_c_kw. Qed.

Lemma cs_dir n d r : c_stmt (S n) (TDir d :: r) =
  (do (s, r) <- c_stmt n r; match s with SForC ds x lo c y st body => Some (SForC (d :: ds) x lo c y st body, r) | _ => None end).
Proof. reflexivity. Qed.
Lemma cs_for n r : c_stmt (S n) (TId "for" :: r) =
  (do r <- eat "(" r; do r <- eat_id "int" r; do (x, r) <- ident c_keywords r; do r <- eat "=" r;
   do (lo, r) <- p_expr c_levels c_keywords n c_levels r; do r <- eat ";" r;
   do (c, r) <- p_expr c_levels c_keywords n c_levels r; do r <- eat ";" r;
   do (y, r) <- ident c_keywords r; do r <- eat "+=" r; do (st, r) <- p_expr c_levels c_keywords n c_levels r; do r <- eat ")" r;
   do (body, r) <- c_block n r;
   Some (SForC [] x lo c y st body, r)).
Proof. reflexivity. Qed.
Lemma cs_if n r : c_stmt (S n) (TId "if" :: r) =
  (do r <- eat "(" r; do (c, r) <- p_expr c_levels c_keywords n c_levels r; do r <- eat ")" r; do (t, r) <- c_block n r;
   match eat_id "else" r with
   | Some r => do (f, r) <- c_block n r; Some (SIf c t f, r)
   | None => Some (SIf c t [], r)
   end).
Proof. reflexivity. Qed.
Lemma cs_decl n w r : mem w c_types = true -> c_stmt (S n) (TId w :: r) =
  (do (x, r) <- ident c_keywords r; do r <- eat "=" r; do (e, r) <- p_expr c_levels c_keywords n c_levels r; do r <- eat ";" r; Some (SDecl w x e, r)).
Proof.
  intros H. unfold mem in H. cbn in H. rewrite !orb_true_iff in H. repeat (destruct H as [H|H]; [apply String.eqb_eq in H; subst w; reflexivity|]). discriminate.
Qed.
Lemma pn_not n s : mem s c_keywords = true -> String.eqb (pname n) s = false.
Proof. intros H. destruct (String.eqb_spec (pname n) s) as [E|]; auto. assert (HK := pname_c_kw n). congruence. Qed.
Lemma cs_simple n x r : c_stmt (S n) (TId (pname x) :: r) = c_simple n (TId (pname x) :: r).
Proof.
  cbn [c_stmt]. rewrite !pn_not by reflexivity. assert (H : mem (pname x) c_types = false).
  { unfold mem. cbn. rewrite !pn_not by reflexivity. reflexivity. }
  now rewrite H.
Qed.
Lemma cb_eq n r : c_block (S n) (TOp "{" :: r) = c_stmts n r.
Proof. reflexivity. Qed.
Lemma css_eq n ts : c_stmts (S n) ts = match eat "}" ts with Some r => Some ([], r) | None => do (s, r) <- c_stmt n ts; do (ss, r) <- c_stmts n r; Some (s :: ss, r) end.
Proof. reflexivity. Qed.
Definition head_tok (ts : list tok) : bool := match ts with TId _ :: _ => true | TDir _ :: _ => true | _ => false end.
Lemma css_step h rest s ss r : head_tok h = true -> ev (fun n => c_stmt n (h ++ rest) = Some (s, rest)) -> ev (fun n => c_stmts n rest = Some (ss, r)) ->
  ev (fun n => c_stmts n (h ++ rest) = Some (s :: ss, r)).
Proof.
  intros Hh H1 H2. eapply ev_step; [|exact (ev_and _ _ H1 H2)]. intros n [E1 E2]. rewrite css_eq.
  destruct h as [|t h]; [discriminate|]. assert (HN : eat "}" ((t :: h) ++ rest) = None) by (destruct t; try discriminate; reflexivity).
  rewrite HN, E1. cbn [obnd]. now rewrite E2.
Qed.
Lemma block_of ts ss r : ev (fun n => c_stmts n (ts ++ TOp "}" :: r) = Some (ss, r)) -> ev (fun n => c_block n (TOp "{" :: ts ++ TOp "}" :: r) = Some (ss, r)).
Proof. apply ev_step. auto. Qed.
Lemma decl_stmt ty x e a rest : mem ty c_types = true -> reads_at b 0 e a ->
  ev (fun n => c_stmt n (TId ty :: TId (pname x) :: TOp "=" :: e ++ TOp ";" :: rest) = Some (SDecl ty (pname x) a, rest)).
Proof.
  intros Ht He. eapply ev_step; [|exact (c_at _ _ _ He (cstop ";" rest eq_refl))]. intros n E. rewrite cs_decl by auto. rewrite pn_id. sane. now rewrite E.
Qed.
Lemma reads_ts e : fitsp b 0 e = true -> reads_at b 0 (toks b e) (tree b e).
Proof. intros H. destruct (kprint_parse b e) as [HM _]. exact (HM 0%nat (Nat.le_0_l _) H). Qed.
Lemma gpu_reads bl ax : reads_at b 0 (gpu_toks bl ax) (gpu_tree bl ax).
Proof.
  apply un_at; [lia|]. intros r Hr. unfold gpu_toks, gpu_tree. set (s := if bl then "blockIdx" else "threadIdx").
  assert (Hs : mem s c_keywords = false) by (unfold s; destruct bl; reflexivity).
  cbn [app]. apply (un_atom b [TId s] (SVar s) (TOp "." :: TId (axis_name ax) :: r)); auto.
  - apply atom_id. unfold name_ok, kws. now rewrite Hb.
  - eapply ev_step; [|exact (post_stop b _ (SAttr (SVar s) (axis_name ax)) r Hr)]. intros n E. rewrite pp_attr. exact E.
Qed.
Lemma id_reads s : name_ok b s -> reads_at b 0 [TId s] (SVar s).
Proof.
  intros Hs. apply un_at; [lia|]. intros r Hr. apply (un_atom b [TId s] (SVar s) r); auto; [now apply atom_id|]. eapply post_stop; eauto.
Qed.
Lemma simple_stmt l e x a rest : (exists t, l = TId (pname x) :: t) -> reads_at b 0 l a -> fitsp b 0 e = true ->
  ev (fun n => c_stmt n (l ++ TOp "=" :: toks b e ++ TOp ";" :: rest) = Some (SAssign a (tree b e), rest)).
Proof.
  intros [t El] Hl He. eapply ev_step; [|exact (ev_and _ _ (c_at _ _ _ Hl (cstop "=" (toks b e ++ TOp ";" :: rest) eq_refl)) (ce e _ He (cstop ";" rest eq_refl)))].
  intros n [E1 E2]. assert (EQ : c_stmt (S n) (l ++ TOp "=" :: toks b e ++ TOp ";" :: rest) = c_simple n (l ++ TOp "=" :: toks b e ++ TOp ";" :: rest)).
  { rewrite El. cbn [app]. apply cs_simple. }
  rewrite EQ. unfold c_simple. rewrite E1. sane. now rewrite E2.
Qed.
Lemma for_stmt m ext body ss rest : ev (fun n => c_stmts n (body ++ TOp "}" :: rest) = Some (ss, rest)) ->
  ev (fun n => c_stmt n (for_toks b (pname m) ext ++ body ++ TOp "}" :: rest) =
    Some (SForC [] (pname m) (SInt 0) (SBin "<" (SVar (pname m)) (int_tree ext)) (pname m) (SInt 1) ss, rest)).
Proof.
  intros HB. unfold for_toks. rewrite Hb. set (tl := TOp "{" :: body ++ TOp "}" :: rest).
  assert (H0 := ce (KInt 0) (TOp ";" :: TId (pname m) :: TOp "<" :: toks_int ext ++ TOp ";" :: TId (pname m) :: TOp "+=" :: TNum 1 :: TOp ")" :: tl) eq_refl (cstop ";" _ eq_refl)).
  assert (H1 := c_at _ _ (TOp ")" :: tl) (reads_ts (KInt 1) eq_refl) (cstop ")" _ eq_refl)).
  assert (H2 : ev (fun n => p_expr c_levels c_keywords n c_levels (TId (pname m) :: TOp "<" :: toks_int ext ++ TOp ";" :: TId (pname m) :: TOp "+=" :: TNum 1 :: TOp ")" :: tl) =
     Some (SBin "<" (SVar (pname m)) (int_tree ext), TOp ";" :: TId (pname m) :: TOp "+=" :: TNum 1 :: TOp ")" :: tl))).
  { assert (HR : reads_at b 3 (TId (pname m) :: TOp "<" :: toks_int ext) (SBin "<" (SVar (pname m)) (int_tree ext))).
    { intros r Hr. destruct (op_level b BLt) as (L & EL & EO & EA & ES); [discriminate|]. assert (Hp : prec b BLt = 3%nat) by (unfold prec; now rewrite Hb). rewrite Hp in *.
      assert (HC : chains b (KName m)) by apply kprint_parse.
      assert (Hlen : (3 < length (tbl b))%nat) by (rewrite len_tbl, Hb; lia).
      assert (HI := proj1 (kprint_parse b (KInt ext)) 4%nat ltac:(lia) eq_refl r (stops_S _ _ _ Hr)).
      apply (HC 3%nat L EL Hlen) with (r := TOp "<" :: toks_int ext ++ r).
      - now rewrite EA, Hb.
      - reflexivity.
      - exact (ES _).
      - eapply ev_step; [|exact (ev_and _ _ HI (tail_stop b 3%nat L _ (SBin "<" (SVar (pname m)) (int_tree ext)) r EL Hr))]. intros n [E1 E2]. change (TOp "<") with (op_tok b BLt).
        rewrite pt_cons, EO. cbn [toks tree] in E1. rewrite E1. cbn [obnd]. rewrite EA, Hb. exact E2. }
    assert (HR0 : ev (fun n => p_expr (tbl b) (kws b) n (skipn 0 (tbl b)) (TId (pname m) :: TOp "<" :: toks_int ext ++ TOp ";" :: TId (pname m) :: TOp "+=" :: TNum 1 :: TOp ")" :: tl) =
       Some (SBin "<" (SVar (pname m)) (int_tree ext), TOp ";" :: TId (pname m) :: TOp "+=" :: TNum 1 :: TOp ")" :: tl))).
    { apply (climb b _ _ _ 3); [lia|rewrite len_tbl, Hb; lia|exact (cstop ";" _ eq_refl)|].
      apply (HR (TOp ";" :: TId (pname m) :: TOp "+=" :: TNum 1 :: TOp ")" :: tl)). eapply stops_le; [|exact (cstop ";" _ eq_refl)]. lia. }
    unfold tbl, kws in HR0. rewrite Hb in HR0. exact HR0. }
  eapply ev_step; [|exact (ev_and _ _ H0 (ev_and _ _ H1 (ev_and _ _ H2 (block_of _ _ _ HB))))]. intros n (E0 & E1 & E2 & E3).
  cbn [app]. rewrite <- app_assoc. cbn [app]. fold tl. rewrite cs_for. sane. rewrite pn_id. sane. cbn [toks app] in E0, E1. change (toks_int 0) with [TNum 0] in E0.
  change (toks_int 1) with [TNum 1] in E1. cbn [app] in E0, E1. rewrite E0. sane. rewrite E2. sane. rewrite pn_id. sane. rewrite E1. sane. unfold tl. rewrite E3. reflexivity.
Qed.
Lemma pragma_one x : exists d, pragma b x = d /\ (d = [] \/ exists s, d = [s]).
Proof. destruct b, x; cbn; eauto. Qed.
Lemma not_else c r : eat_id "else" (ctoks b 0 c ++ TOp "}" :: r) = None.
Proof.
  destruct c as [|dt n e k|n e k|a x e k|n ext x body k|e t f k| |n bl ax k]; cbn [ctoks]; unfold bol, decl_toks, assign_toks, for_toks, if_toks; rewrite ?Hb; try reflexivity.
  - destruct dt; reflexivity.
  - cbn [app]. unfold eat_id. destruct (String.eqb_spec "else" (pname n)) as [E|]; auto. assert (HK := pname_c_kw n). rewrite <- E in HK. discriminate.
  - cbn [app toks]. unfold eat_id. destruct (String.eqb_spec "else" (pname a)) as [E|]; auto. assert (HK := pname_c_kw a). rewrite <- E in HK. discriminate.
  - destruct (pragma_one x) as (d & -> & [->|[s ->]]); reflexivity.
Qed.
Lemma no_ind c : forall i j, ctoks b i c = ctoks b j c.
Proof.
  assert (HB : forall i, bol b i = []) by (intros; unfold bol; now rewrite Hb).
  induction c as [|dt n e k IH|n e k IH|a x e k IH|n ext x body IHb k IH|e t IHt f IHf k IH| |n bl ax k IH]; intros i j; cbn [ctoks]; rewrite ?(HB i), ?(HB j); rewrite ?(IH i j); auto.
  - now rewrite (IHb (S i) (S j)).
  - rewrite (IHt (S i) (S j)). destruct f; auto; now rewrite (IHf (S i) (S j)).
Qed.
Lemma pragma_stmt d n lo c y st ss h rest : d = [] \/ (exists s : string, d = [s]) -> ev (fun m => c_stmt m (h ++ rest) = Some (SForC [] n lo c y st ss, rest)) ->
  ev (fun m => c_stmt m ((map TDir d ++ h) ++ rest) = Some (SForC d n lo c y st ss, rest)).
Proof.
  intros [->|[s ->]] H; [exact H|]. cbn [map app]. eapply ev_step; [|exact H]. intros m E. rewrite cs_dir, E. reflexivity.
Qed.
Theorem c_reads_code c : cwf b c = true -> forall i r, ev (fun n => c_stmts n (ctoks b i c ++ TOp "}" :: r) = Some (stmts b c, r)).
Proof.
  assert (HB : forall i, bol b i = []) by (intros; unfold bol; now rewrite Hb).
  induction c as [|dt n e k IH|n e k IH|a x e k IH|n ext x body IHb k IH|e t IHt f IHf k IH| |n bl ax k IH]; cbn [cwf]; intros HW i r; cbn [ctoks stmts]; rewrite ?HB; cbn [app].
  - apply ev_one. reflexivity.
  - apply andb_true_iff in HW as [He Hk]. rewrite <- app_assoc. apply css_step; [unfold decl_toks; rewrite Hb; reflexivity| |auto].
    unfold decl_toks, decl_tree, semi. rewrite Hb. cbn [app]. rewrite <- app_assoc. cbn [app]. apply decl_stmt; [destruct dt; reflexivity|now apply reads_ts].
  - apply andb_true_iff in HW as [He Hk]. rewrite <- app_assoc. apply css_step; [reflexivity| |auto].
    unfold assign_toks, semi. rewrite Hb. cbn [app]. rewrite <- app_assoc. cbn [app]. apply (simple_stmt [TId (pname n)] e n); eauto. apply id_reads, pname_ok.
  - apply andb_true_iff in HW as [HW Hk]. apply andb_true_iff in HW as [Hx He]. rewrite <- app_assoc. apply css_step; [reflexivity| |auto].
    unfold assign_toks, semi. rewrite Hb. rewrite <- !app_assoc. cbn [app]. rewrite <- app_assoc. cbn [app]. apply (simple_stmt (toks b (KIdx a x)) e a); [cbn [toks]; eauto| |auto].
    apply (reads_ts (KIdx a x)). exact Hx.
  - apply andb_true_iff in HW as [HW Hk]. apply andb_true_iff in HW as [_ Hbd]. destruct (pragma_one x) as (d & Ed & Hd). rewrite Ed.
    replace ((map TDir d ++ for_toks b (pname n) ext ++ ctoks b (S i) body ++ end_toks b ++ ctoks b i k) ++ TOp "}" :: r)
      with ((map TDir d ++ for_toks b (pname n) ext ++ ctoks b (S i) body ++ [TOp "}"]) ++ ctoks b i k ++ TOp "}" :: r)
      by (unfold end_toks; rewrite Hb; rewrite <- !app_assoc; reflexivity).
    apply css_step; [|unfold for_tree; rewrite Hb, Ed|auto].
    + unfold for_toks. rewrite Hb. destruct Hd as [->|[s ->]]; reflexivity.
    + apply pragma_stmt; auto. rewrite <- !app_assoc. cbn [app]. apply for_stmt; auto.
  - apply andb_true_iff in HW as [HW Hk]. apply andb_true_iff in HW as [HW Hf]. apply andb_true_iff in HW as [HW Ht]. apply andb_true_iff in HW as [He _].
    unfold if_toks, end_toks, else_toks. rewrite Hb.
    set (el := match f with CNil => [] | _ => [TOp "}"; TId "else"; TOp "{"] ++ ctoks b (S i) f end).
    replace ((TId "if" :: TOp "(" :: toks b e ++ [TOp ")"; TOp "{"]) ++ ctoks b (S i) t ++ el ++ [TOp "}"] ++ ctoks b i k)
      with ((TId "if" :: TOp "(" :: toks b e ++ TOp ")" :: TOp "{" :: ctoks b (S i) t ++ el ++ [TOp "}"]) ++ ctoks b i k)
      by (cbn [app]; rewrite <- !app_assoc; cbn [app]; rewrite <- !app_assoc; reflexivity).
    rewrite <- app_assoc. set (rest := ctoks b i k ++ TOp "}" :: r).
    apply (css_step (TId "if" :: TOp "(" :: toks b e ++ TOp ")" :: TOp "{" :: ctoks b (S i) t ++ el ++ [TOp "}"]) rest); [reflexivity| |unfold rest; auto].
    cbn [app]. rewrite <- app_assoc. cbn [app]. rewrite <- !app_assoc. cbn [app].
    assert (HE := ce e (TOp ")" :: TOp "{" :: ctoks b (S i) t ++ el ++ TOp "}" :: rest) He (cstop ")" _ eq_refl)).
    destruct f as [|dt' n' e' k'|n' e' k'|a' x' e' k'|n' ext' x' body' k'|c' t' f' k'| |n' bl' ax' k'] eqn:Ef.
    1: { unfold el. cbn [app]. assert (HT := block_of _ _ rest (IHt Ht (S i) rest)). eapply ev_step; [|exact (ev_and _ _ HE HT)]. intros m [E1 E2].
         rewrite cs_if. sane. unfold el in E1. cbn [app] in E1. rewrite E1. sane. rewrite E2. cbn [obnd]. unfold rest. rewrite (no_ind k i 0), not_else. reflexivity. }
    all: rewrite <- Ef in *; replace el with (TOp "}" :: TId "else" :: TOp "{" :: ctoks b (S i) f) in * by (unfold el; subst f; reflexivity); clear el; cbn [app] in *;
      assert (HT := block_of _ _ (TId "else" :: TOp "{" :: ctoks b (S i) f ++ TOp "}" :: rest) (IHt Ht (S i) _)); assert (HF := block_of _ _ rest (IHf Hf (S i) rest));
      eapply ev_step; [|exact (ev_and _ _ HE (ev_and _ _ HT HF))]; intros m (E1 & E2 & E3); rewrite cs_if; sane; rewrite E1; sane; rewrite E2; sane; rewrite E3; reflexivity.
  - unfold semi. rewrite Hb. cbn [app]. apply (css_step [TId "return"; TOp ";"]); [reflexivity|apply ev_one; reflexivity|apply ev_one; reflexivity].
  - rewrite <- app_assoc. apply css_step; [unfold decl_toks; rewrite Hb; reflexivity| |auto].
    unfold decl_toks, decl_tree, semi. rewrite Hb. cbn [app]. apply (decl_stmt "int64_t" n (gpu_toks bl ax)); [reflexivity|apply gpu_reads].
Qed.
End C.

(* ------------------------------------------------------------------ Python *)
Section Py.
Notation b := Python.
Notation ppe := (p_expr py_levels py_keywords).
Lemma pye e r : fitsp b 0 e = true -> stops b 0 r -> ev (fun n => ppe n py_levels (toks b e ++ r) = Some (tree b e, r)).
Proof. exact (expr_reads b e r). Qed.
Lemma py_at ts a r : reads_at b 0 ts a -> stops b 0 r -> ev (fun n => ppe n py_levels (ts ++ r) = Some (a, r)).
Proof. intros H Hr. exact (H r Hr). Qed.
Lemma ppn_id n r : ident py_keywords (TId (pname n) :: r) = Some (pname n, r).
Proof. unfold ident. now rewrite pname_py_kw. Qed.
Lemma ppn_not n s : mem s py_keywords = true -> String.eqb (pname n) s = false.
Proof. intros H. destruct (String.eqb_spec (pname n) s) as [E|]; auto. assert (HK := pname_py_kw n). congruence. Qed.

Lemma ps_for n i r : py_stmt (S n) i (TId "for" :: r) =
  (do (x, r) <- ident py_keywords r; do r <- eat_id "in" r; do (it, r) <- ppe n py_levels r; do r <- eat ":" r;
   do (body, r) <- py_suite n i r; Some (SForIn x it body, r)).
Proof. reflexivity. Qed.
Lemma ps_if n i r : py_stmt (S n) i (TId "if" :: r) =
  (do (c, r) <- ppe n py_levels r; do r <- eat ":" r; do (t, r) <- py_suite n i r;
   match r with
   | TInd k :: r' =>
       match (if Nat.eqb k i then eat_id "else" r' else None) with
       | Some r' => do r' <- eat ":" r'; do (f, r') <- py_suite n i r'; Some (SIf c t f, r')
       | None => Some (SIf c t [], r)
       end
   | _ => Some (SIf c t [], r)
   end).
Proof. reflexivity. Qed.
Lemma ps_ret n i r : py_stmt (S n) i (TId "return" :: r) = (if eol r then Some (SReturn, r) else None).
Proof. reflexivity. Qed.
Lemma ps_simple n i x r : py_stmt (S n) i (TId (pname x) :: r) = py_simple n (TId (pname x) :: r).
Proof. cbn [py_stmt]. now rewrite !ppn_not by reflexivity. Qed.
Lemma psu_eq n i k r : py_suite (S n) i (TInd k :: r) = (if (i <? k)%nat then do (s, r) <- py_stmt n k r; do (ss, r) <- py_stmts n k r; Some (s :: ss, r) else None).
Proof. reflexivity. Qed.
Lemma pss_eq n k j r : py_stmts (S n) k (TInd j :: r) =
  (if Nat.eqb j k then do (s, r) <- py_stmt n k r; do (ss, r) <- py_stmts n k r; Some (s :: ss, r) else if (j <? k)%nat then Some ([], TInd j :: r) else None).
Proof. reflexivity. Qed.

(* what may follow a block of indentation level i *)
Definition outer (i : nat) (r : list tok) : Prop := match r with [] => True | TInd j :: _ => (j < 4 * i)%nat | _ => False end.
Definition tailc (c : code) : code :=
  match c with CNil => CNil | CDecl _ _ _ k | CAssign _ _ k | CStore _ _ _ k | CFor _ _ _ _ k | CIf _ _ _ k | CGpu _ _ _ k => k | CRet => CNil end.
(* tokens of the first statement after its indentation *)
Definition htoks (i : nat) (c : code) : list tok :=
  match c with
  | CNil => []
  | CDecl dt n e _ => decl_toks b dt (pname n) (toks b e)
  | CAssign n e _ => assign_toks b [TId (pname n)] (toks b e)
  | CStore a x e _ => assign_toks b (toks b (KIdx a x)) (toks b e)
  | CFor n ext x body _ => for_toks b (pname n) ext ++ ctoks b (S i) body
  | CIf e t f _ => if_toks b (toks b e) ++ ctoks b (S i) t ++ match f with CNil => [] | _ => bol b i ++ else_toks b ++ ctoks b (S i) f end
  | CRet => [TId "return"]
  | CGpu n bl ax _ => decl_toks b Int64 (pname n) (gpu_toks bl ax)
  end.
Lemma ctoks_head i c : c <> CNil -> ctoks b i c = TInd (4 * i) :: htoks i c ++ ctoks b i (tailc c).
Proof.
  intros Hc. destruct c as [|dt n e k|n e k|a x e k|n ext x body k|e t f k| |n bl ax k]; try congruence; try reflexivity.
  - destruct x; cbn [ctoks htoks tailc pragma map end_toks is_py app bol]; rewrite <- ?app_assoc; reflexivity.
  - cbn [ctoks htoks tailc end_toks is_py bol]. rewrite <- !app_assoc. cbn [app]. do 3 f_equal.
Qed.
Lemma stmts_head c : c <> CNil -> exists s, stmts b c = s :: stmts b (tailc c).
Proof. destruct c; try congruence; cbn [stmts tailc]; eauto. Qed.
Lemma outer_S i r : outer i r -> outer (S i) r.
Proof. destruct r as [|[] r]; cbn; try tauto. lia. Qed.
Lemma follow i c r : outer i r -> eol (ctoks b i c ++ r) = true /\ stops b 0 (ctoks b i c ++ r) /\ outer (S i) (ctoks b i c ++ r).
Proof.
  intros Ho. destruct c as [|dt n e k|n e k|a x e k|n ext x body k|e t f k| |n bl ax k] eqn:Ec.
  1: { cbn. destruct r as [|[] r]; cbn in *; try tauto. repeat split; lia. }
  all: rewrite <- Ec, ctoks_head by congruence; cbn; repeat split; lia.
Qed.
Lemma outer_stop i r : outer i r -> eol r = true /\ stops b 0 r.
Proof. destruct r as [|[] r]; cbn; tauto. Qed.
Lemma not_pelse i c r : outer i r -> forall k q, ctoks b i c ++ r = TInd k :: q -> (if Nat.eqb k (4 * i) then eat_id "else" q else None) = None.
Proof.
  intros Ho k q. destruct c as [|dt n e kk|n e kk|a x e kk|n ext x body kk|e t f kk| |n bl ax kk] eqn:Ec.
  1: { cbn [ctoks app]. intros ->. cbn in Ho. destruct (Nat.eqb_spec k (4 * i)); auto. lia. }
  all: rewrite <- Ec, ctoks_head by congruence; cbn [app]; intros H; injection H as <- <-; rewrite Nat.eqb_refl; subst c; cbn [htoks decl_toks assign_toks is_py for_toks if_toks app toks]; try reflexivity;
    unfold eat_id; match goal with |- context [String.eqb "else" (pname ?x)] => rewrite (String.eqb_sym "else" (pname x)), ppn_not by reflexivity; reflexivity end.
Qed.
Lemma py_assign i l e x a q rest : (exists t, l = TId (pname x) :: t) -> reads_at b 0 l a -> reads_at b 0 e q -> eol rest = true -> stops b 0 rest ->
  ev (fun n => py_stmt n i (l ++ TOp "=" :: e ++ rest) = Some (SAssign a q, rest)).
Proof.
  intros [t El] Hl He Hr Hs. eapply ev_step; [|exact (ev_and _ _ (py_at _ _ _ Hl (close_stops b "=" (e ++ rest) eq_refl)) (py_at _ _ _ He Hs))].
  intros n [E1 E2]. assert (EQ : py_stmt (S n) i (l ++ TOp "=" :: e ++ rest) = py_simple n (l ++ TOp "=" :: e ++ rest)) by (rewrite El; cbn [app]; apply ps_simple).
  rewrite EQ. unfold py_simple. rewrite E1. sane. rewrite E2. cbn [obnd]. now rewrite Hr.
Qed.
Lemma py_id_reads s : mem s py_keywords = false -> reads_at b 0 [TId s] (SVar s).
Proof.
  intros Hs. apply un_at; [lia|]. intros r Hr. apply (un_atom b [TId s] (SVar s) r); auto; [now apply atom_id|]. eapply post_stop; eauto.
Qed.
Lemma py_gpu_reads bl ax : reads_at b 0 (gpu_toks bl ax) (gpu_tree bl ax).
Proof.
  apply un_at; [lia|]. intros r Hr. unfold gpu_toks, gpu_tree. set (s := if bl then "blockIdx" else "threadIdx").
  assert (Hs : mem s py_keywords = false) by (unfold s; destruct bl; reflexivity).
  cbn [app]. apply (un_atom b [TId s] (SVar s) (TOp "." :: TId (axis_name ax) :: r)); auto; [now apply atom_id|].
  eapply ev_step; [|exact (post_stop b _ (SAttr (SVar s) (axis_name ax)) r Hr)]. intros n E. rewrite pp_attr. exact E.
Qed.
Lemma py_ts e : fitsp b 0 e = true -> reads_at b 0 (toks b e) (tree b e).
Proof. intros H. destruct (kprint_parse b e) as [HM _]. exact (HM 0%nat (Nat.le_0_l _) H). Qed.
Lemma range_reads ext r : ev (fun n => ppe n py_levels (TId "range" :: TOp "(" :: TNum 0 :: TOp "," :: toks_int ext ++ TOp "," :: TNum 1 :: TOp ")" :: TOp ":" :: r) =
  Some (SCall (SVar "range") [SInt 0; int_tree ext; SInt 1], TOp ":" :: r)).
Proof.
  assert (H : reads_un b (TId "range" :: TOp "(" :: TNum 0 :: TOp "," :: toks_int ext ++ [TOp ","; TNum 1; TOp ")"]) (SCall (SVar "range") [SInt 0; int_tree ext; SInt 1])).
  { intros q Hq. cbn [app]. rewrite <- app_assoc. cbn [app].
    apply (un_atom b [TId "range"] (SVar "range") (TOp "(" :: TNum 0 :: TOp "," :: toks_int ext ++ TOp "," :: TNum 1 :: TOp ")" :: q)); auto; [now apply atom_id|].
    assert (H2 := args2 b (toks_int ext) (int_tree ext) [TNum 1] (SInt 1) q (py_ts (KInt ext) eq_refl) (py_ts (KInt 1) eq_refl)).
    assert (H0 := py_ts (KInt 0) eq_refl (TOp "," :: toks_int ext ++ TOp "," :: TNum 1 :: TOp ")" :: q) (close_stops b "," _ eq_refl)).
    assert (H1 : ev (fun n => p_args (tbl b) (kws b) n (TNum 0 :: TOp "," :: toks_int ext ++ TOp "," :: TNum 1 :: TOp ")" :: q) = Some ([SInt 0; int_tree ext; SInt 1], q))).
    { eapply ev_step; [|exact (ev_and _ _ H0 H2)]. intros n [E1 E2]. rewrite pg_eq. cbn [skipn toks app] in E1. change (toks_int 0) with [TNum 0] in E1. cbn [app] in E1, E2. rewrite E1. sane. now rewrite E2. }
    eapply ev_step; [|exact (ev_and _ _ H1 (post_stop b _ (SCall (SVar "range") [SInt 0; int_tree ext; SInt 1]) q Hq))]. intros n [E1 E2]. rewrite pp_call, E1. exact E2. }
  assert (HR := un_at b 0 _ _ (Nat.le_0_l _) H (TOp ":" :: r) (close_stops b ":" r eq_refl)). cbn [app] in HR. rewrite <- app_assoc in HR. exact HR.
Qed.
Lemma suite_of i body ss r : body <> CNil -> outer (S i) r -> ev (fun n => py_stmts n (4 * S i) (ctoks b (S i) body ++ r) = Some (ss, r)) ->
  ev (fun n => py_suite n (4 * i) (ctoks b (S i) body ++ r) = Some (ss, r)).
Proof.
  intros Hc Ho [n0 H]. exists (S n0). intros [|n] Hn; [lia|]. assert (HS := H (S n) ltac:(lia)). rewrite ctoks_head in * by auto. cbn [app] in *. rewrite pss_eq in HS. rewrite psu_eq.
  rewrite Nat.eqb_refl in HS. replace (4 * i <? 4 * S i)%nat with true by (symmetry; apply Nat.ltb_lt; lia). exact HS.
Qed.
Lemma nonnil (c : code) : negb (match c with CNil => true | _ => false end) = true -> c <> CNil.
Proof. intros H ->. discriminate. Qed.
Theorem py_reads_code c : cwf b c = true -> forall i r, outer i r -> ev (fun n => py_stmts n (4 * i) (ctoks b i c ++ r) = Some (stmts b c, r)).
Proof.
  assert (Step : forall i c s r, c <> CNil -> outer i r -> stmts b c = s :: stmts b (tailc c) ->
    ev (fun n => py_stmt n (4 * i) (htoks i c ++ ctoks b i (tailc c) ++ r) = Some (s, ctoks b i (tailc c) ++ r)) ->
    ev (fun n => py_stmts n (4 * i) (ctoks b i (tailc c) ++ r) = Some (stmts b (tailc c), r)) -> ev (fun n => py_stmts n (4 * i) (ctoks b i c ++ r) = Some (stmts b c, r))).
  { intros i c' s r Hc Ho Es H1 H2. rewrite ctoks_head, Es by auto. cbn [app]. rewrite <- app_assoc. eapply ev_step; [|exact (ev_and _ _ H1 H2)]. intros n [E1 E2].
    rewrite pss_eq, Nat.eqb_refl, E1. cbn [obnd]. now rewrite E2. }
  induction c as [|dt n e k IH|n e k IH|a x e k IH|n ext x body IHb k IH|e t IHt f IHf k IH| |n bl ax k IH]; cbn [cwf]; intros HW i r Ho.
  - cbn [ctoks stmts app]. destruct r as [|[] r]; cbn in Ho; try tauto; [apply ev_one; reflexivity|]. apply ev_one. intros m. rewrite pss_eq.
    destruct (Nat.eqb_spec n (4 * i)); [lia|]. now replace (n <? 4 * i)%nat with true by (symmetry; apply Nat.ltb_lt; lia).
  - apply andb_true_iff in HW as [He Hk]. eapply Step; try reflexivity; [discriminate|auto| |auto]. destruct (follow i k r Ho) as (F1 & F2 & _).
    cbn [htoks tailc decl_toks is_py app semi]. rewrite app_nil_r. apply (py_assign (4 * i) [TId (pname n)] (toks b e) n); eauto; [apply py_id_reads, pname_py_kw|now apply py_ts].
  - apply andb_true_iff in HW as [He Hk]. eapply Step; try reflexivity; [discriminate|auto| |auto]. destruct (follow i k r Ho) as (F1 & F2 & _).
    cbn [htoks tailc assign_toks is_py app semi]. rewrite app_nil_r. apply (py_assign (4 * i) [TId (pname n)] (toks b e) n); eauto; [apply py_id_reads, pname_py_kw|now apply py_ts].
  - apply andb_true_iff in HW as [HW Hk]. apply andb_true_iff in HW as [Hx He]. eapply Step; try reflexivity; [discriminate|auto| |auto]. destruct (follow i k r Ho) as (F1 & F2 & _).
    cbn [htoks tailc assign_toks is_py semi]. unfold assign_toks. cbn [is_py semi]. rewrite app_nil_r. rewrite <- app_assoc. cbn [app].
    apply (py_assign (4 * i) (toks b (KIdx a x)) (toks b e) a); auto; [cbn [toks]; eauto|apply (py_ts (KIdx a x)); exact Hx|now apply py_ts].
  - apply andb_true_iff in HW as [HW Hk]. apply andb_true_iff in HW as [Hn Hbd]. apply nonnil in Hn. eapply Step; try reflexivity; [discriminate|auto| |auto].
    destruct (follow i k r Ho) as (F1 & F2 & F3). cbn [tailc htoks]. rewrite <- app_assoc. set (rest := ctoks b i k ++ r) in *.
    assert (HS := suite_of i body _ rest Hn F3 (IHb Hbd (S i) rest F3)). assert (HG := range_reads ext (ctoks b (S i) body ++ rest)).
    unfold for_toks. cbn [is_py app]. rewrite <- app_assoc. cbn [app]. eapply ev_step; [|exact (ev_and _ _ HG HS)]. intros m [E1 E2]. rewrite ps_for, ppn_id. sane. rewrite E1. sane. now rewrite E2.
  - apply andb_true_iff in HW as [HW Hk]. apply andb_true_iff in HW as [HW Hf]. apply andb_true_iff in HW as [HW Ht]. apply andb_true_iff in HW as [He Hn]. apply nonnil in Hn.
    apply (Step i (CIf e t f k) (SIf (tree b e) (stmts b t) (stmts b f)) r); [discriminate|auto|reflexivity| |cbn [tailc]; auto].
    destruct (follow i k r Ho) as (F1 & F2 & F3). cbn [tailc htoks]. assert (HNE := not_pelse i k r Ho). set (rest := ctoks b i k ++ r) in *.
    set (el := match f with CNil => [] | _ => bol b i ++ else_toks b ++ ctoks b (S i) f end). unfold if_toks. cbn [is_py]. rewrite <- !app_assoc. cbn [app]. rewrite <- !app_assoc. cbn [app].
    assert (HE := pye e (TOp ":" :: ctoks b (S i) t ++ el ++ rest) He (close_stops b ":" _ eq_refl)).
    destruct f as [|dt' n' e' k'|n' e' k'|a' x' e' k'|n' ext' x' body' k'|c' t' f' k'| |n' bl' ax' k'] eqn:Ef.
    1: { unfold el in *. cbn [app] in *. assert (HT := suite_of i t _ rest Hn F3 (IHt Ht (S i) rest F3)). eapply ev_step; [|exact (ev_and _ _ HE HT)]. intros m [E1 E2].
         rewrite ps_if, E1. sane. rewrite E2. cbn [obnd]. destruct rest as [|[] q]; auto. rewrite (HNE n q eq_refl). reflexivity. }
    all: rewrite <- Ef in *; replace el with (TInd (4 * i) :: TId "else" :: TOp ":" :: ctoks b (S i) f) in * by (unfold el; subst f; reflexivity); clear el; cbn [app] in *;
      assert (HO : outer (S i) (TInd (4 * i) :: TId "else" :: TOp ":" :: ctoks b (S i) f ++ rest)) by (cbn; lia);
      assert (HT := suite_of i t _ _ Hn HO (IHt Ht (S i) _ HO));
      assert (HF := suite_of i f _ rest ltac:(subst f; discriminate) F3 (IHf Hf (S i) rest F3));
      eapply ev_step; [|exact (ev_and _ _ HE (ev_and _ _ HT HF))]; intros m (E1 & E2 & E3); rewrite ps_if, E1; sane; rewrite E2; cbn [obnd]; rewrite Nat.eqb_refl; sane; rewrite E3; reflexivity.
  - eapply Step; try reflexivity; [discriminate|auto| |].
    + cbn [htoks tailc ctoks app]. destruct (outer_stop i r Ho) as [F1 _]. apply ev_one. intros m. rewrite ps_ret, F1. reflexivity.
    + cbn [tailc ctoks stmts app]. destruct r as [|[] r]; cbn in Ho; try tauto; [apply ev_one; reflexivity|]. apply ev_one. intros m. rewrite pss_eq.
      destruct (Nat.eqb_spec n (4 * i)); [lia|]. now replace (n <? 4 * i)%nat with true by (symmetry; apply Nat.ltb_lt; lia).
  - eapply Step; try reflexivity; [discriminate|auto| |auto]. destruct (follow i k r Ho) as (F1 & F2 & _).
    cbn [htoks tailc decl_toks is_py app semi]. rewrite app_nil_r. apply (py_assign (4 * i) [TId (pname n)] (gpu_toks bl ax) n); eauto; [apply py_id_reads, pname_py_kw|apply py_gpu_reads].
Qed.
End Py.
