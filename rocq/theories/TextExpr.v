(* Printed expressions are read back as the intended tree. *)
From Coq Require Import String Ascii Decimal DecimalString.
From Verif Require Import Base BaseFacts Lang Kernel Backends Text TextPrint TextParse TextLex TextName.
Open Scope string_scope.
Open Scope Z_scope.
Open Scope list_scope.

(* ------------------------------------------------------------------ the intended tree *)
Definition op_text (b : backend) (o : bop) : string :=
  match o with
  | BAdd => "+" | BSub => "-" | BMul => "*" | BTruediv => "/" | BFloordiv => if is_py b then "//" else "/" | BMod => "%" | BPow => "pow"
  | BAnd => if is_py b then "and" else "&&" | BOr => if is_py b then "or" else "||"
  | BEq => "==" | BGt => ">" | BGe => ">=" | BLt => "<" | BLe => "<="
  end.
Definition int_tree (z : Z) : sx := if z <? 0 then SNeg (SInt (- z)) else SInt z.
Definition fn_tree (b : backend) (u : uop) : sx := if is_py b then SAttr (SVar "math") (un_name u) else SVar (un_name u).
Fixpoint tree (b : backend) (e : kx) : sx :=
  match e with
  | KName n => SVar (pname n)
  | KInt z => int_tree z
  | KFlt0 => SReal "0.0"
  | KBin BPow l r => SCall (SVar "pow") [tree b l; tree b r]
  | KBin o l r => SBin (op_text b o) (tree b l) (tree b r)
  | KUn UNeg x => SNeg (tree b x)
  | KUn u x => SCall (fn_tree b u) [tree b x]
  | KIdx a i => SIndex (SVar (pname a)) (tree b i)
  end.

(* ------------------------------------------------------------------ its tokens *)
Definition op_tok (b : backend) (o : bop) : tok :=
  match o with BAnd | BOr => if is_py b then TId (op_text b o) else TOp (op_text b o) | _ => TOp (op_text b o) end.
Definition paren (b : backend) (o : bop) : bool :=
  negb (is_py b) && match o with BAnd | BOr | BEq | BGt | BGe | BLt | BLe => true | _ => false end.
Definition fn_toks (b : backend) (u : uop) : list tok := if is_py b then [TId "math"; TOp "."; TId (un_name u)] else [TId (un_name u)].
Fixpoint toks (b : backend) (e : kx) : list tok :=
  match e with
  | KName n => [TId (pname n)]
  | KInt z => toks_int z
  | KFlt0 => [TReal "0.0"]
  | KBin BPow l r => TId "pow" :: TOp "(" :: toks b l ++ TOp "," :: toks b r ++ [TOp ")"]
  | KBin o l r =>
      if paren b o then TOp "(" :: toks b l ++ op_tok b o :: toks b r ++ [TOp ")"]
      else toks b l ++ op_tok b o :: toks b r
  | KUn UNeg x => TOp "-" :: TOp "(" :: toks b x ++ [TOp ")"]
  | KUn u x => fn_toks b u ++ TOp "(" :: toks b x ++ [TOp ")"]
  | KIdx a i => TId (pname a) :: TOp "[" :: toks b i ++ [TOp "]"]
  end.

Ltac lit := match goal with |- emits_lit ?py _ _ => apply lit_scan; vm_compute; reflexivity end.
Lemma emits_infix py l ls m r rs w t : emits py l ls -> emits py r rs -> m = " " +++ w +++ " " -> emits_lit py m [t] ->
  emits py (l +++ m +++ r) (ls ++ t :: rs).
Proof.
  intros H1 H2 -> H3. change (t :: rs) with ([t] ++ rs). apply emits_then; auto. apply lit_then; auto.
Qed.
Lemma emits_close py w ts c t : emits py w ts -> negb (id_char c || is_dot c) = true -> emits_lit py (str1 c) [t] -> emits_lit py (w +++ str1 c) (ts ++ [t]).
Proof. intros H Hc Hl. apply emits_lit_then; auto. Qed.
Theorem kprint_lex b e : emits (is_py b) (kprint b e) (toks b e).
Proof.
  induction e as [n|z| |o l IHl r IHr|u x IHx|a i IHi]; cbn [kprint toks].
  - apply emits_id, pname_ident.
  - apply emits_dec.
  - intros r Hr. rewrite (scan_lex (is_py b) "0.0" L0 [] (LNum "0.0") r) by (destruct b; vm_compute; reflexivity). rewrite omap_nil.
    apply lex_pending; [eauto|auto|vm_compute; reflexivity].
  - assert (HP : emits (is_py b) ("pow(" +++ kprint b l +++ ", " +++ kprint b r +++ ")") (TId "pow" :: TOp "(" :: toks b l ++ TOp "," :: toks b r ++ [TOp ")"])).
    { change (TId "pow" :: TOp "(" :: toks b l ++ TOp "," :: toks b r ++ [TOp ")"]) with ([TId "pow"; TOp "("] ++ (toks b l ++ ([TOp ","] ++ (toks b r ++ [TOp ")"])))).
      apply lit_then; [destruct b; lit|]. apply emits_then; auto. apply lit_then; [destruct b; lit|]. apply lit_emits, emits_lit_then; auto. destruct b; lit. }
    assert (HI : forall w t, emits_lit (is_py b) (" " +++ w +++ " ") [t] -> emits (is_py b) (kprint b l +++ (" " +++ w +++ " ") +++ kprint b r) (toks b l ++ t :: toks b r)).
    { intros w t H. eapply emits_infix; eauto. }
    assert (HC : forall w t, emits_lit (is_py b) (" " +++ w +++ " ") [t] ->
      emits (is_py b) ("(" +++ kprint b l +++ (" " +++ w +++ " ") +++ kprint b r +++ ")") (TOp "(" :: toks b l ++ t :: toks b r ++ [TOp ")"])).
    { intros w t H. change (TOp "(" :: toks b l ++ t :: toks b r ++ [TOp ")"]) with ([TOp "("] ++ (toks b l ++ ([t] ++ (toks b r ++ [TOp ")"])))).
      apply lit_then; [destruct b; lit|]. apply emits_then; auto. apply lit_then; auto. apply lit_emits, emits_lit_then; auto. destruct b; lit. }
    destruct b; cbn [is_py] in *; destruct o; cbn [t_bin is_py paren negb andb op_tok op_text]; try exact HP.
    all: try exact (HI "+" (TOp "+") ltac:(lit)); try exact (HI "-" (TOp "-") ltac:(lit)); try exact (HI "*" (TOp "*") ltac:(lit)); try exact (HI "/" (TOp "/") ltac:(lit)); try exact (HI "//" (TOp "//") ltac:(lit)); try exact (HI "%" (TOp "%") ltac:(lit)).
    all: try exact (HI "and" (TId "and") ltac:(lit)); try exact (HI "or" (TId "or") ltac:(lit)); try exact (HI "==" (TOp "==") ltac:(lit)); try exact (HI ">" (TOp ">") ltac:(lit)); try exact (HI ">=" (TOp ">=") ltac:(lit)); try exact (HI "<" (TOp "<") ltac:(lit)); try exact (HI "<=" (TOp "<=") ltac:(lit)).
    all: try exact (HC "&&" (TOp "&&") ltac:(lit)); try exact (HC "||" (TOp "||") ltac:(lit)); try exact (HC "==" (TOp "==") ltac:(lit)); try exact (HC ">" (TOp ">") ltac:(lit)); try exact (HC ">=" (TOp ">=") ltac:(lit)); try exact (HC "<" (TOp "<") ltac:(lit)); try exact (HC "<=" (TOp "<=") ltac:(lit)).
  - assert (HF : forall w ts, emits_lit (is_py b) w ts -> emits (is_py b) (w +++ kprint b x +++ ")") (ts ++ toks b x ++ [TOp ")"])).
    { intros w ts H. apply lit_then; auto. apply lit_emits, emits_lit_then; auto. destruct b; lit. }
    destruct b; cbn [is_py] in *; destruct u; cbn [t_un is_py un_name fn_toks String.append];
      try exact (HF "-(" [TOp "-"; TOp "("] ltac:(lit)).
    all: try exact (HF "math.sin(" [TId "math"; TOp "."; TId "sin"; TOp "("] ltac:(lit)); try exact (HF "math.cos(" [TId "math"; TOp "."; TId "cos"; TOp "("] ltac:(lit));
         try exact (HF "math.exp(" [TId "math"; TOp "."; TId "exp"; TOp "("] ltac:(lit)); try exact (HF "math.log(" [TId "math"; TOp "."; TId "log"; TOp "("] ltac:(lit));
         try exact (HF "math.sqrt(" [TId "math"; TOp "."; TId "sqrt"; TOp "("] ltac:(lit)).
    all: try exact (HF "sin(" [TId "sin"; TOp "("] ltac:(lit)); try exact (HF "cos(" [TId "cos"; TOp "("] ltac:(lit));
         try exact (HF "exp(" [TId "exp"; TOp "("] ltac:(lit)); try exact (HF "log(" [TId "log"; TOp "("] ltac:(lit));
         try exact (HF "sqrt(" [TId "sqrt"; TOp "("] ltac:(lit)).
  - unfold index. change (TId (pname a) :: TOp "[" :: toks b i ++ [TOp "]"]) with ([TId (pname a)] ++ ([TOp "["] ++ (toks b i ++ [TOp "]"]))).
    apply emits_then; auto; [apply emits_id, pname_ident|]. apply lit_then; [destruct b; lit|]. apply lit_emits, emits_lit_then; auto. destruct b; lit.
Qed.

(* ------------------------------------------------------------------ precedence *)
Definition tbl (b : backend) : list level := if is_py b then py_levels else c_levels.
Definition kws (b : backend) : list string := if is_py b then py_keywords else c_keywords.
(* level of an operator in the table *)
Definition prec (b : backend) (o : bop) : nat :=
  if is_py b then match o with BOr => 0 | BAnd => 1 | BEq | BGt | BGe | BLt | BLe => 2 | BAdd | BSub => 3 | _ => 4 end
  else match o with BOr => 0 | BAnd => 1 | BEq => 2 | BGt | BGe | BLt | BLe => 3 | BAdd | BSub => 4 | _ => 5 end.
Definition comparison (o : bop) : bool := match o with BEq | BGt | BGe | BLt | BLe => true | _ => false end.
(* may stand, as printed, where operators of levels lvl and above are allowed *)
Fixpoint fitsp (b : backend) (lvl : nat) (e : kx) : bool :=
  match e with
  | KName _ | KInt _ | KFlt0 => true
  | KBin BPow l r => fitsp b 0 l && fitsp b 0 r
  | KBin o l r => (paren b o || (lvl <=? prec b o)%nat) && fitsp b (if is_py b && comparison o then S (prec b o) else prec b o) l && fitsp b (S (prec b o)) r
  | KUn _ x => fitsp b 0 x
  | KIdx _ i => fitsp b 0 i
  end.

Definition ev (P : nat -> Prop) : Prop := exists n0, forall n, (n0 <= n)%nat -> P n.
Lemma ev_and P Q : ev P -> ev Q -> ev (fun n => P n /\ Q n).
Proof. intros [i Hi] [j Hj]. exists (Nat.max i j). intros n Hn. split; [apply Hi|apply Hj]; lia. Qed.
Lemma ev_imp (P Q : nat -> Prop) : (forall n, P n -> Q n) -> ev P -> ev Q.
Proof. intros H [i Hi]. exists i. auto. Qed.
Lemma ev_step (P Q : nat -> Prop) : (forall n, P n -> Q (S n)) -> ev P -> ev Q.
Proof. intros H [i Hi]. exists (S i). intros [|n] Hn; [lia|]. apply H, Hi. lia. Qed.
Lemma ev_all (P : nat -> Prop) : (forall n, P n) -> ev P.
Proof. intros H. exists 0%nat. auto. Qed.
Lemma ev_one (P : nat -> Prop) : (forall n, P (S n)) -> ev P.
Proof. intros H. exists 1%nat. intros [|n] Hn; [lia|auto]. Qed.

(* unfolding equations of the reader *)
Section Eqns.
Context (T : list level) (K : list string).
Lemma pe_nil n ts : p_expr T K (S n) [] ts =
  match eat "-" ts with
  | Some r => do (a, r) <- p_expr T K n [] r; Some (SNeg a, r)
  | None => do (a, r) <- p_atom T K n ts; p_post T K n a r
  end.
Proof. reflexivity. Qed.
Lemma pe_cons n L lv ts : p_expr T K (S n) (L :: lv) ts = (do (a, r) <- p_expr T K n lv ts; p_tail T K n L lv a r).
Proof. reflexivity. Qed.
Lemma pt_cons n L lv a t r : p_tail T K (S n) L lv a (t :: r) =
  match op_of L t with
  | Some o =>
      do (b, r) <- p_expr T K n lv r;
      if assoc L then p_tail T K n L lv (SBin o a b) r
      else match r with
           | t' :: _ => match op_of L t' with Some _ => None | None => Some (SBin o a b, r) end
           | [] => Some (SBin o a b, r)
           end
  | None => Some (a, t :: r)
  end.
Proof. reflexivity. Qed.
Lemma pp_eq n a ts : p_post T K (S n) a ts =
  match eat "[" ts with
  | Some r => do (i, r) <- p_expr T K n T r; do r <- eat "]" r; p_post T K n (SIndex a i) r
  | None =>
      match eat "(" ts with
      | Some r => do (args, r) <- p_args T K n r; p_post T K n (SCall a args) r
      | None =>
          match eat "." ts with
          | Some (TId s :: r) => p_post T K n (SAttr a s) r
          | Some _ => None
          | None => Some (a, ts)
          end
      end
  end.
Proof. reflexivity. Qed.
Lemma pg_eq n ts : p_args T K (S n) ts =
  (do (a, r) <- p_expr T K n T ts;
   match eat "," r with
   | Some r => do (l, r) <- p_args T K n r; Some (a :: l, r)
   | None => do r <- eat ")" r; Some ([a], r)
   end).
Proof. reflexivity. Qed.
Lemma pa_paren n r : p_atom T K (S n) (TOp "(" :: r) = (do (a, r) <- p_expr T K n T r; do r <- eat ")" r; Some (a, r)).
Proof. reflexivity. Qed.
Lemma pp_idx n a r : p_post T K (S n) a (TOp "[" :: r) = (do (i, r) <- p_expr T K n T r; do r <- eat "]" r; p_post T K n (SIndex a i) r).
Proof. reflexivity. Qed.
Lemma pp_call n a r : p_post T K (S n) a (TOp "(" :: r) = (do (args, r) <- p_args T K n r; p_post T K n (SCall a args) r).
Proof. reflexivity. Qed.
Lemma pp_attr n a s r : p_post T K (S n) a (TOp "." :: TId s :: r) = p_post T K n (SAttr a s) r.
Proof. reflexivity. Qed.
End Eqns.

Section Parse.
Context (b : backend).
Notation pe := (p_expr (tbl b) (kws b)).
Notation pt := (p_tail (tbl b) (kws b)).
Notation pa := (p_atom (tbl b) (kws b)).
Notation pp := (p_post (tbl b) (kws b)).
Notation pg := (p_args (tbl b) (kws b)).
Definition post (t : tok) : bool := match t with TOp s => mem s ["["; "("; "."] | _ => false end.
Definition stopb (lvl : nat) (t : tok) : bool :=
  forallb (fun L => match op_of L t with None => true | Some _ => false end) (skipn lvl (tbl b)) && negb (post t).
Definition stops (lvl : nat) (r : list tok) : Prop := match r with [] => True | t :: _ => stopb lvl t = true end.
Lemma skipn_step {A} lvl (l : list A) : (lvl < length l)%nat -> exists x, skipn lvl l = x :: skipn (S lvl) l.
Proof. revert lvl. induction l as [|y l IH]; intros [|lvl] H; cbn in *; try lia; eauto. apply IH. lia. Qed.
Lemma stops_S lvl r : stops lvl r -> stops (S lvl) r.
Proof.
  destruct r as [|t r]; cbn; auto. unfold stopb. rewrite !andb_true_iff. intros [H1 H2]. split; auto.
  destruct (Nat.lt_ge_cases lvl (length (tbl b))) as [Hl|Hl].
  - destruct (skipn_step _ _ Hl) as [x E]. rewrite E in H1. cbn in H1. now apply andb_true_iff in H1.
  - rewrite skipn_all2 by lia. reflexivity.
Qed.
Lemma stops_le lvl m r : (lvl <= m)%nat -> stops lvl r -> stops m r.
Proof. induction 1; auto using stops_S. Qed.
Lemma tail_stop lvl L lv' a r : skipn lvl (tbl b) = L :: lv' -> stops lvl r -> ev (fun n => pt n L lv' a r = Some (a, r)).
Proof.
  intros E H. apply ev_one. intros n. cbn. destruct r as [|t r]; auto. cbn in H. unfold stopb in H. rewrite E in H. cbn in H.
  destruct (op_of L t); [discriminate|reflexivity].
Qed.
Lemma post_stop lvl a r : stops lvl r -> ev (fun n => pp n a r = Some (a, r)).
Proof.
  intros H. apply ev_one. intros n. rewrite pp_eq. destruct r as [|t r]; auto. cbn in H. unfold stopb in H. apply andb_true_iff in H as [_ H].
  apply negb_true_iff in H. unfold eat. destruct t as [| | |s| | |]; auto. cbn in H. unfold mem in H. cbn in H.
  rewrite !orb_false_iff in H. destruct H as (H1 & H2 & H3 & _).
  rewrite (String.eqb_sym "[" s), (String.eqb_sym "(" s), (String.eqb_sym "." s), H1, H2, H3. reflexivity.
Qed.
Lemma climb ts a r m : forall lvl, (lvl <= m)%nat -> (m <= length (tbl b))%nat -> stops lvl r -> ev (fun n => pe n (skipn m (tbl b)) ts = Some (a, r)) ->
  ev (fun n => pe n (skipn lvl (tbl b)) ts = Some (a, r)).
Proof.
  intros lvl H. induction H as [|m Hm IH]; intros Hl Hs HE; auto. apply IH; auto; [lia|]. destruct (skipn_step m (tbl b)) as [L E]; [lia|]. rewrite E.
  assert (HT := tail_stop m L _ a r E (stops_le _ _ _ Hm Hs)). eapply ev_step; [|exact (ev_and _ _ HE HT)].
  intros n [H1 H2]. rewrite pe_cons, H1. exact H2.
Qed.

Definition reads_at (lvl : nat) (ts : list tok) (a : sx) : Prop := forall r, stops lvl r -> ev (fun n => pe n (skipn lvl (tbl b)) (ts ++ r) = Some (a, r)).
Lemma len_tbl : length (tbl b) = if is_py b then 5%nat else 6%nat.
Proof. unfold tbl. destruct (is_py b); reflexivity. Qed.
(* tokens read by the tightest level *)
Definition reads_un (ts : list tok) (a : sx) : Prop := forall r, stops (length (tbl b)) r -> ev (fun n => pe n [] (ts ++ r) = Some (a, r)).
Lemma un_at lvl ts a : (lvl <= length (tbl b))%nat -> reads_un ts a -> reads_at lvl ts a.
Proof.
  intros Hl H r Hs. apply (climb _ _ _ (length (tbl b))); auto. rewrite skipn_all. apply H. eapply stops_le; eauto.
Qed.
(* an atom followed by postfix operators *)
Lemma un_atom ts a r res : (forall q, eat "-" (ts ++ q) = None) -> ev (fun n => pa n (ts ++ r) = Some (a, r)) -> ev (fun n => pp n a r = Some res) ->
  ev (fun n => pe n [] (ts ++ r) = Some res).
Proof. intros Hm H1 H2. eapply ev_step; [|exact (ev_and _ _ H1 H2)]. intros n [E1 E2]. rewrite pe_nil, Hm, E1. exact E2. Qed.
Definition name_ok (s : string) : Prop := mem s (kws b) = false.
Lemma atom_id s r : name_ok s -> ev (fun n => pa n (TId s :: r) = Some (SVar s, r)).
Proof. intros H. apply ev_one. intros n. cbn. unfold name_ok in H. now rewrite H. Qed.
Lemma pname_ok n : name_ok (pname n).
Proof. unfold name_ok, kws. destruct (is_py b); [apply pname_py_kw|apply pname_c_kw]. Qed.
Lemma stops_tok lvl t r : stopb lvl t = true -> stops lvl (t :: r).
Proof. auto. Qed.
Lemma close_stops s r : mem s [")"; "]"; ","; ";"; ":"; "="; "+="; "{"] = true -> stops 0 (TOp s :: r).
Proof.
  intros H. unfold mem in H. cbn in H. rewrite !orb_true_iff in H. unfold stops, stopb, tbl.
  repeat (destruct H as [H|H]; [apply String.eqb_eq in H; subst s; destruct b; reflexivity|]). discriminate.
Qed.
(* arguments of a call of one or two *)
Lemma args1 ts a r : reads_at 0 ts a -> ev (fun n => pg n (ts ++ TOp ")" :: r) = Some ([a], r)).
Proof.
  intros H. eapply ev_step; [|exact (H (TOp ")" :: r) (close_stops ")" r eq_refl))]. intros n E. cbn [skipn] in E. rewrite pg_eq, E. reflexivity.
Qed.
Lemma args2 ts a us c r : reads_at 0 ts a -> reads_at 0 us c -> ev (fun n => pg n (ts ++ TOp "," :: us ++ TOp ")" :: r) = Some ([a; c], r)).
Proof.
  intros H1 H2. eapply ev_step; [|exact (ev_and _ _ (H1 (TOp "," :: us ++ TOp ")" :: r) (close_stops "," _ eq_refl)) (args1 us c r H2))].
  intros n [E1 E2]. cbn [skipn] in E1. rewrite pg_eq, E1. cbn [obnd]. change (eat "," (TOp "," :: us ++ TOp ")" :: r)) with (Some (us ++ TOp ")" :: r)). cbv iota. now rewrite E2.
Qed.
Lemma paren_atom ts a r : reads_at 0 ts a -> ev (fun n => pa n (TOp "(" :: ts ++ TOp ")" :: r) = Some (a, r)).
Proof.
  intros H. eapply ev_step; [|exact (H (TOp ")" :: r) (close_stops ")" r eq_refl))]. intros n E. cbn [skipn] in E. rewrite pa_paren, E. reflexivity.
Qed.

Lemma op_level o : o <> BPow -> exists L, skipn (prec b o) (tbl b) = L :: skipn (S (prec b o)) (tbl b) /\ op_of L (op_tok b o) = Some (op_text b o) /\
  assoc L = negb (is_py b && comparison o) /\ (forall r, stops (S (prec b o)) (op_tok b o :: r)).
Proof.
  intros Ho. unfold tbl, prec, stops, stopb, op_tok, tbl. destruct b, o; try congruence; cbn [is_py]; (eexists; split; [reflexivity|]); repeat split; vm_compute; reflexivity.
Qed.
Lemma prec_lt o : (prec b o < length (tbl b))%nat.
Proof. rewrite len_tbl. unfold prec. destruct (is_py b), o; lia. Qed.

Definition plain (e : kx) : option (bop * kx * kx) :=
  match e with KBin BPow _ _ => None | KBin o l r => if paren b o then None else Some (o, l, r) | _ => None end.
Lemma plain_spec e o l r : plain e = Some (o, l, r) -> e = KBin o l r /\ o <> BPow /\ paren b o = false.
Proof.
  destruct e as [| | |o' l' r'| |]; cbn; try discriminate.
  destruct (match o' with BPow => true | _ => false end) eqn:Ep.
  - destruct o'; discriminate.
  - intros H. assert (H' : (if paren b o' then None else Some (o', l', r')) = Some (o, l, r)) by (destruct o'; auto; discriminate).
    clear H. destruct (paren b o') eqn:E; [discriminate|]. injection H' as <- <- <-. repeat split; auto. intros ->. discriminate.
Qed.
Lemma kbin_facts o l r lvl : o <> BPow -> paren b o = false ->
  toks b (KBin o l r) = toks b l ++ op_tok b o :: toks b r /\ tree b (KBin o l r) = SBin (op_text b o) (tree b l) (tree b r) /\
  fitsp b lvl (KBin o l r) = ((lvl <=? prec b o)%nat && fitsp b (if is_py b && comparison o then S (prec b o) else prec b o) l && fitsp b (S (prec b o)) r).
Proof. intros Ho Hp. destruct o; try congruence; cbn [toks tree fitsp]; rewrite Hp; auto. Qed.

(* left operand of an associative operator, the rest of the chain still to come *)
Definition chains (e : kx) : Prop := forall p L, skipn p (tbl b) = L :: skipn (S p) (tbl b) -> (p < length (tbl b))%nat -> assoc L = true -> fitsp b p e = true ->
  forall r res, stops (S p) r -> ev (fun n => pt n L (skipn (S p) (tbl b)) (tree b e) r = Some res) -> ev (fun n => pe n (skipn p (tbl b)) (toks b e ++ r) = Some res).
Lemma plain_case o l r : o <> BPow -> paren b o = false ->
  (forall lvl, (lvl <= length (tbl b))%nat -> fitsp b lvl l = true -> reads_at lvl (toks b l) (tree b l)) -> chains l ->
  (forall lvl, (lvl <= length (tbl b))%nat -> fitsp b lvl r = true -> reads_at lvl (toks b r) (tree b r)) ->
  (forall lvl, (lvl <= length (tbl b))%nat -> fitsp b lvl (KBin o l r) = true -> reads_at lvl (toks b (KBin o l r)) (tree b (KBin o l r))) /\ chains (KBin o l r).
Proof.
  intros Ho Hp Hl Cl Hr. destruct (op_level o Ho) as (L & EL & EO & EA & ES). assert (HPL := prec_lt o).
  assert (Main : forall lvl, (lvl <= length (tbl b))%nat -> fitsp b lvl (KBin o l r) = true -> reads_at lvl (toks b (KBin o l r)) (tree b (KBin o l r))).
  { intros lvl Hlv HF q Hq. destruct (kbin_facts o l r lvl Ho Hp) as (-> & -> & E). rewrite E in HF. apply andb_true_iff in HF as [HF HFr].
    apply andb_true_iff in HF as [HF HFl]. apply Nat.leb_le in HF. apply (climb _ _ _ (prec b o)); auto; [lia|].
    assert (Hq' : stops (prec b o) q) by (eapply stops_le; eauto). rewrite <- app_assoc. cbn [app].
    assert (HR := Hr (S (prec b o)) HPL HFr q (stops_S _ _ Hq')).
    destruct (is_py b && comparison o) eqn:Ec.
    - assert (HL := Hl (S (prec b o)) HPL HFl (op_tok b o :: toks b r ++ q) (ES _)). rewrite EL.
      assert (HT : ev (fun n => pt n L (skipn (S (prec b o)) (tbl b)) (tree b l) (op_tok b o :: toks b r ++ q) = Some (SBin (op_text b o) (tree b l) (tree b r), q))).
      { eapply ev_step; [|exact HR]. intros n E1. rewrite pt_cons, EO, E1. cbn [obnd]. rewrite EA. cbn [negb]. destruct q as [|t q]; auto. cbn in Hq'. unfold stopb in Hq'. rewrite EL in Hq'.
        cbn in Hq'. destruct (op_of L t); [discriminate|reflexivity]. }
      eapply ev_step; [|exact (ev_and _ _ HL HT)]. intros n [E1 E2]. rewrite pe_cons, E1. exact E2.
    - apply Cl with (L := L); auto. assert (HT := tail_stop _ _ _ (SBin (op_text b o) (tree b l) (tree b r)) q EL Hq').
      eapply ev_step; [|exact (ev_and _ _ HR HT)]. intros n [E1 E2]. rewrite pt_cons, EO, E1. cbn [obnd]. rewrite EA. cbn [negb]. exact E2. }
  split; [exact Main|]. intros p L' E' Hpl HA HF q res Hq HT.
  destruct (Nat.eq_dec p (prec b o)) as [->|Hne].
  - rewrite EL in E'. injection E' as <-. destruct (kbin_facts o l r (prec b o) Ho Hp) as (Et & Ett & E). rewrite E in HF. rewrite Et. rewrite Ett in HT.
    apply andb_true_iff in HF as [HF HFr]. apply andb_true_iff in HF as [HF HFl]. rewrite HA in EA. symmetry in EA. apply negb_true_iff in EA. rewrite EA in HFl.
    rewrite <- app_assoc. cbn [app]. apply Cl with (L := L); auto. assert (HR := Hr (S (prec b o)) HPL HFr q Hq). eapply ev_step; [|exact (ev_and _ _ HR HT)].
    intros n [E1 E2]. rewrite pt_cons, EO, E1. cbn [obnd]. rewrite HA. exact E2.
  - assert (HF' : fitsp b (S p) (KBin o l r) = true).
    { destruct (kbin_facts o l r p Ho Hp) as (_ & _ & E). destruct (kbin_facts o l r (S p) Ho Hp) as (_ & _ & E2). rewrite E2. rewrite E in HF.
      rewrite !andb_true_iff in HF |- *. destruct HF as [[H1 H2] H3]. repeat split; auto. apply Nat.leb_le in H1. apply Nat.leb_le. lia. }
    rewrite E'. eapply ev_step; [|exact (ev_and _ _ (Main (S p) Hpl HF' q Hq) HT)]. intros n [E1 E2]. rewrite pe_cons, E1. exact E2.
Qed.
Lemma un_case e : (forall p, fitsp b p e = fitsp b 0 e) -> (fitsp b 0 e = true -> reads_un (toks b e) (tree b e)) ->
  (forall lvl, (lvl <= length (tbl b))%nat -> fitsp b lvl e = true -> reads_at lvl (toks b e) (tree b e)) /\ chains e.
Proof.
  intros Hf H. split.
  - intros lvl Hl HF. rewrite Hf in HF. apply un_at; auto.
  - intros p L E Hp HA HF r res Hr HT. rewrite Hf in HF. rewrite E. eapply ev_step; [|exact (ev_and _ _ (un_at (S p) _ _ Hp (H HF) r Hr) HT)].
    intros n [E1 E2]. rewrite pe_cons, E1. exact E2.
Qed.
Lemma int_un z : reads_un (toks_int z) (int_tree z).
Proof.
  intros r Hr. unfold toks_int, int_tree. assert (HP := fun a => post_stop _ a r Hr).
  assert (HN : forall z, ev (fun n => pe n [] (TNum z :: r) = Some (SInt z, r))).
  { intros z'. apply (un_atom [TNum z'] (SInt z') r); auto. apply ev_one. reflexivity. }
  destruct (z <? 0); cbn [app]; auto. eapply ev_step; [|exact (HN (- z))]. intros n E. rewrite pe_nil. change (eat "-" (TOp "-" :: TNum (- z) :: r)) with (Some (TNum (- z) :: r)). cbv iota. rewrite E. reflexivity.
Qed.
Theorem kprint_parse e : (forall lvl, (lvl <= length (tbl b))%nat -> fitsp b lvl e = true -> reads_at lvl (toks b e) (tree b e)) /\ chains e.
Proof.
  induction e as [n|z| |o l [IHl Cl] r [IHr Cr]|u x [IHx Cx]|a i [IHi Ci]].
  - apply un_case; auto. intros _ r Hr. apply (un_atom [TId (pname n)] (SVar (pname n)) r); auto; [apply atom_id, pname_ok|]. eapply post_stop; eauto.
  - apply un_case; auto. intros _. apply int_un.
  - apply un_case; auto. intros _ r Hr. apply (un_atom [TReal "0.0"] (SReal "0.0") r); auto; [apply ev_one; reflexivity|]. eapply post_stop; eauto.
  - destruct (match o with BPow => true | _ => false end) eqn:Eo.
    + destruct o; try discriminate. apply un_case; auto. cbn [fitsp toks tree]. intros HF q Hq. apply andb_true_iff in HF as [F1 F2].
      apply (un_atom [TId "pow"] (SVar "pow") (TOp "(" :: (toks b l ++ TOp "," :: toks b r ++ [TOp ")"]) ++ q)); auto.
      * apply atom_id. unfold name_ok, kws. destruct (is_py b); reflexivity.
      * rewrite <- app_assoc. cbn [app]. rewrite <- app_assoc. cbn [app]. eapply ev_step; [|exact (ev_and _ _ (args2 _ _ _ _ q (IHl 0%nat (Nat.le_0_l _) F1) (IHr 0%nat (Nat.le_0_l _) F2)) (post_stop _ (SCall (SVar "pow") [tree b l; tree b r]) q Hq))].
        intros n [E1 E2]. rewrite pp_call, E1. exact E2.
    + assert (Ho : o <> BPow) by (intros ->; discriminate). destruct (paren b o) eqn:Ep; [|now apply plain_case].
      assert (HT : toks b (KBin o l r) = TOp "(" :: toks b l ++ op_tok b o :: toks b r ++ [TOp ")"] /\ tree b (KBin o l r) = SBin (op_text b o) (tree b l) (tree b r) /\
        forall p, fitsp b p (KBin o l r) = fitsp b (if is_py b && comparison o then S (prec b o) else prec b o) l && fitsp b (S (prec b o)) r).
      { destruct o; try congruence; cbn [toks tree fitsp]; rewrite Ep; auto. }
      destruct HT as (HT1 & HT2 & HT3). apply un_case; [intros p; now rewrite !HT3|]. rewrite HT3, HT1, HT2. intros HF q Hq.
      apply (un_atom (TOp "(" :: toks b l ++ op_tok b o :: toks b r ++ [TOp ")"]) (SBin (op_text b o) (tree b l) (tree b r)) q); auto; [|eapply post_stop; eauto].
      replace ((TOp "(" :: toks b l ++ op_tok b o :: toks b r ++ [TOp ")"]) ++ q) with (TOp "(" :: (toks b l ++ op_tok b o :: toks b r) ++ TOp ")" :: q)
        by (cbn [app]; rewrite <- !app_assoc; cbn [app]; now rewrite <- app_assoc).
      apply paren_atom.
      (* inside the parentheses the operator stands at its own level *)
      assert (HPL := prec_lt o). destruct (op_level o Ho) as (L & EL & EO & EA & ES). apply andb_true_iff in HF as [HFl HFr].
      assert (Epy : is_py b = false) by (unfold paren in Ep; destruct (is_py b); auto; discriminate). rewrite Epy in *. cbn [andb negb] in *.
      intros s Hs. apply (climb _ _ _ (prec b o)); auto; [lia|lia|]. rewrite <- app_assoc. cbn [app]. apply Cl with (L := L); auto.
      assert (Hs' : stops (prec b o) s) by (eapply stops_le; [|exact Hs]; lia).
      eapply ev_step; [|exact (ev_and _ _ (IHr (S (prec b o)) HPL HFr s (stops_S _ _ Hs')) (tail_stop _ _ _ (SBin (op_text b o) (tree b l) (tree b r)) s EL Hs'))].
      intros n [E1 E2]. rewrite pt_cons, EO, E1. cbn [obnd]. rewrite EA. exact E2.
  - apply un_case; auto. cbn [fitsp]. intros HF r Hr.
    assert (HX := IHx 0%nat (Nat.le_0_l _) HF).
    destruct (match u with UNeg => true | _ => false end) eqn:Eu.
    + destruct u; try discriminate. cbn [toks tree app]. rewrite <- app_assoc. cbn [app].
      assert (HU : ev (fun n => pe n [] (TOp "(" :: toks b x ++ TOp ")" :: r) = Some (tree b x, r))).
      { replace (TOp "(" :: toks b x ++ TOp ")" :: r) with ((TOp "(" :: toks b x ++ [TOp ")"]) ++ r) by (cbn [app]; now rewrite <- app_assoc).
        apply (un_atom (TOp "(" :: toks b x ++ [TOp ")"]) (tree b x) r); [reflexivity| |eapply post_stop; eauto].
        cbn [app]. rewrite <- app_assoc. now apply paren_atom. }
      eapply ev_step; [|exact HU]. intros n E. rewrite pe_nil. change (eat "-" (TOp "-" :: TOp "(" :: toks b x ++ TOp ")" :: r)) with (Some (TOp "(" :: toks b x ++ TOp ")" :: r)). cbv iota. rewrite E. reflexivity.
    + assert (HT : toks b (KUn u x) = fn_toks b u ++ TOp "(" :: toks b x ++ [TOp ")"] /\ tree b (KUn u x) = SCall (fn_tree b u) [tree b x]) by (destruct u; auto; discriminate).
      destruct HT as [-> ->]. unfold fn_toks, fn_tree.
      assert (HK : forall f, ev (fun n => pp n f (TOp "(" :: toks b x ++ TOp ")" :: r) = Some (SCall f [tree b x], r))).
      { intros f. eapply ev_step; [|exact (ev_and _ _ (args1 _ _ r HX) (post_stop _ (SCall f [tree b x]) r Hr))]. intros n [E1 E2]. rewrite pp_call, E1. exact E2. }
      rewrite <- app_assoc. cbn [app]. rewrite <- app_assoc. cbn [app]. destruct (is_py b) eqn:Epy.
      * cbn [app]. apply (un_atom [TId "math"] (SVar "math") (TOp "." :: TId (un_name u) :: TOp "(" :: toks b x ++ TOp ")" :: r)); auto.
        -- apply atom_id. unfold name_ok, kws. rewrite Epy. reflexivity.
        -- eapply ev_step; [|exact (HK (SAttr (SVar "math") (un_name u)))]. intros n E1. rewrite pp_attr. exact E1.
      * cbn [app]. apply (un_atom [TId (un_name u)] (SVar (un_name u)) (TOp "(" :: toks b x ++ TOp ")" :: r)); auto. apply atom_id. unfold name_ok, kws. rewrite Epy. destruct u; reflexivity.
  - apply un_case; auto. cbn [fitsp toks tree]. intros HF r Hr. cbn [app]. rewrite <- app_assoc. cbn [app].
    apply (un_atom [TId (pname a)] (SVar (pname a)) (TOp "[" :: toks b i ++ TOp "]" :: r)); auto; [apply atom_id, pname_ok|].
    eapply ev_step; [|exact (ev_and _ _ (IHi 0%nat (Nat.le_0_l _) HF (TOp "]" :: r) (close_stops "]" r eq_refl)) (post_stop _ (SIndex (SVar (pname a)) (tree b i)) r Hr))].
    intros n [E1 E2]. cbn [skipn] in E1. rewrite pp_idx, E1. exact E2.
Qed.
Theorem expr_reads e r : fitsp b 0 e = true -> stops 0 r -> ev (fun n => pe n (tbl b) (toks b e ++ r) = Some (tree b e, r)).
Proof. intros H Hr. destruct (kprint_parse e) as [HM _]. exact (HM 0%nat (Nat.le_0_l _) H r Hr). Qed.
End Parse.
