(* Printed statements: the lines, their tokens, the intended statement trees. *)
From Coq Require Import String Ascii Decimal DecimalString.
From Verif Require Import Base BaseFacts Lang Kernel Backends Text TextPrint TextParse TextLex TextName TextExpr.
Open Scope string_scope.
Open Scope Z_scope.
Open Scope list_scope.

(* ------------------------------------------------------------------ the intended statements *)
Definition gpu_tree (bl : bool) (ax : axis) : sx := SAttr (SVar (if bl then "blockIdx" else "threadIdx")) (axis_name ax).
Definition decl_tree (b : backend) (dt : dtype) (x : string) (e : sx) : stmt := if is_py b then SAssign (SVar x) e else SDecl (typename dt) x e.
Definition for_tree (b : backend) (x : lexec) (n : string) (ext : Z) (body : list stmt) : stmt :=
  if is_py b then SForIn n (SCall (SVar "range") [SInt 0; int_tree ext; SInt 1]) body
  else SForC (pragma b x) n (SInt 0) (SBin "<" (SVar n) (int_tree ext)) n (SInt 1) body.
Fixpoint stmts (b : backend) (c : code) : list stmt :=
  match c with
  | CNil => []
  | CDecl dt n e k => decl_tree b dt (pname n) (tree b e) :: stmts b k
  | CAssign n e k => SAssign (SVar (pname n)) (tree b e) :: stmts b k
  | CStore a i e k => SAssign (SIndex (SVar (pname a)) (tree b i)) (tree b e) :: stmts b k
  | CFor n ext x body k => for_tree b x (pname n) ext (stmts b body) :: stmts b k
  | CIf c t f k => SIf (tree b c) (stmts b t) (stmts b f) :: stmts b k
  | CRet => [SReturn]
  | CGpu n bl ax k => decl_tree b Int64 (pname n) (gpu_tree bl ax) :: stmts b k
  end.
Definition libs_tree (b : backend) : list string := if is_py b then ["math"] else ["#include <stdint.h>"; "#include <math.h>"].
Definition attr_tree (b : backend) : list string := match b with CUDA => ["extern"; "C"; "__global__"] | _ => [] end.
Definition param_tree (b : backend) (p : name * dtype) : string * string := (if is_py b then "" else typename (snd p), pname (fst p)).
Definition source_of (b : backend) (kname : string) (kern : kernel) : source :=
  mkSrc (libs_tree b) (attr_tree b) kname (map (param_tree b) (k_params kern)) (stmts b (k_body kern)).

(* ------------------------------------------------------------------ tokens *)
Definition bol (b : backend) (i : nat) : list tok := if is_py b then [TInd (4 * i)] else [].
Definition semi (b : backend) : list tok := if is_py b then [] else [TOp ";"].
Definition tid (s : string) : tok := TId s.
Definition decl_toks (b : backend) (dt : dtype) (x : string) (e : list tok) : list tok :=
  (if is_py b then [] else [TId (typename dt)]) ++ TId x :: TOp "=" :: e ++ semi b.
Definition assign_toks (b : backend) (l e : list tok) : list tok := l ++ TOp "=" :: e ++ semi b.
Definition for_toks (b : backend) (n : string) (ext : Z) : list tok :=
  if is_py b then TId "for" :: TId n :: TId "in" :: TId "range" :: TOp "(" :: TNum 0 :: TOp "," :: toks_int ext ++ [TOp ","; TNum 1; TOp ")"; TOp ":"]
  else TId "for" :: TOp "(" :: TId "int" :: TId n :: TOp "=" :: TNum 0 :: TOp ";" :: TId n :: TOp "<" :: toks_int ext ++
       [TOp ";"; TId n; TOp "+="; TNum 1; TOp ")"; TOp "{"].
Definition if_toks (b : backend) (e : list tok) : list tok :=
  if is_py b then TId "if" :: e ++ [TOp ":"] else TId "if" :: TOp "(" :: e ++ [TOp ")"; TOp "{"].
Definition else_toks (b : backend) : list tok := if is_py b then [TId "else"; TOp ":"] else [TOp "}"; TId "else"; TOp "{"].
Definition end_toks (b : backend) : list tok := if is_py b then [] else [TOp "}"].
Definition gpu_toks (bl : bool) (ax : axis) : list tok := [TId (if bl then "blockIdx" else "threadIdx"); TOp "."; TId (axis_name ax)].
Fixpoint ctoks (b : backend) (i : nat) (c : code) : list tok :=
  match c with
  | CNil => []
  | CDecl dt n e k => bol b i ++ decl_toks b dt (pname n) (toks b e) ++ ctoks b i k
  | CAssign n e k => bol b i ++ assign_toks b [TId (pname n)] (toks b e) ++ ctoks b i k
  | CStore a x e k => bol b i ++ assign_toks b (toks b (KIdx a x)) (toks b e) ++ ctoks b i k
  | CFor n ext x body k => map TDir (pragma b x) ++ bol b i ++ for_toks b (pname n) ext ++ ctoks b (S i) body ++ end_toks b ++ ctoks b i k
  | CIf e t f k =>
      bol b i ++ if_toks b (toks b e) ++ ctoks b (S i) t ++
      match f with CNil => [] | _ => bol b i ++ else_toks b ++ ctoks b (S i) f end ++ end_toks b ++ ctoks b i k
  | CRet => bol b i ++ TId "return" :: semi b
  | CGpu n bl ax k => bol b i ++ decl_toks b Int64 (pname n) (gpu_toks bl ax) ++ ctoks b i k
  end.

(* ------------------------------------------------------------------ lines *)
Fixpoint lines (l : list string) : string := match l with [] => "" | x :: r => x +++ nl +++ lines r end.
Lemma join_lines l e : join nl (l ++ [e]) = lines l +++ e.
Proof.
  induction l as [|x r IH]; [reflexivity|]. cbn [app lines]. rewrite !sapp_assoc, <- IH. destruct r; reflexivity.
Qed.
Lemma lines_app a c : lines (a ++ c) = lines a +++ lines c.
Proof. induction a as [|x a IH]; cbn; auto. now rewrite IH, !sapp_assoc. Qed.
Definition lines_ok (b : backend) (l : list string) (ts : list tok) : Prop :=
  forall r, lex (is_py b) (LBol 0) (lines l +++ r) = option_map (app ts) (lex (is_py b) (LBol 0) r).
Lemma lines_ok_nil b : lines_ok b [] [].
Proof. intros r. cbn. now rewrite omap_nil. Qed.
Lemma lines_ok_app b l ts l' ts' : lines_ok b l ts -> lines_ok b l' ts' -> lines_ok b (l ++ l') (ts ++ ts').
Proof. intros H1 H2 r. rewrite lines_app, sapp_assoc, H1, H2. now rewrite omap_app. Qed.
Lemma lines_ok_cons b x ts l' ts' : lines_ok b [x] ts -> lines_ok b l' ts' -> lines_ok b (x :: l') (ts ++ ts').
Proof. apply (lines_ok_app b [x]). Qed.
Lemma spaces py i : forall n r, lex py (LBol n) (times i indent_str +++ r) = lex py (LBol (n + 4 * i)) r.
Proof.
  induction i as [|i IH]; intros n r; cbn [times].
  - cbn [String.append]. now replace (n + 4 * 0)%nat with n by lia.
  - rewrite sapp_assoc. rewrite (scan_lex py indent_str (LBol n) [] (LBol (4 + n))) by reflexivity. rewrite omap_nil, IH. f_equal. f_equal. lia.
Qed.
Definition headok (w : string) : bool := match w with String c _ => negb (is_space c || is_nl c || is_hash c) | EmptyString => false end.
Lemma nl_delim r : delim (nl +++ r) = true.
Proof. reflexivity. Qed.
Lemma lex_nl py r : lex py L0 (nl +++ r) = lex py (LBol 0) r.
Proof. unfold nl. cbn. now rewrite omap_nil. Qed.
Lemma line_lex b i w ts : headok w = true -> emits (is_py b) w ts -> lines_ok b [line i w] (bol b i ++ ts).
Proof.
  intros Hh He r. unfold line. cbn [lines]. rewrite !sapp_assoc. rewrite spaces. cbn [String.append Nat.add].
  destruct w as [|c w]; [discriminate|]. cbn [headok] in Hh. apply negb_true_iff in Hh. rewrite !orb_false_iff in Hh. destruct Hh as ((H1 & H2) & H3).
  specialize (He (nl +++ r) (nl_delim r)). rewrite lex_nl in He. cbn [String.append lex step] in He |- *. rewrite H1, H2, H3. rewrite omap_app, <- He. unfold bol.
  destruct (start c) as [[t s']|]; [|destruct (is_py b); reflexivity]. rewrite omap_app. destruct (is_py b); reflexivity.
Qed.
Lemma blank_lex b i : is_py b = true -> lines_ok b [line i ""] [].
Proof. intros Hp r. unfold line. cbn [lines]. rewrite !sapp_assoc, spaces. unfold nl. cbn. now rewrite !omap_nil. Qed.
Definition not_nl (c : ascii) : bool := negb (is_nl c).
Lemma lex_dir py w : forall a r, all_chars not_nl w = true -> lex py (LDir a) (w +++ nl +++ r) = option_map (app [TDir (a +++ w)]) (lex py (LBol 0) r).
Proof.
  induction w as [|c w IH]; intros a r H.
  - cbn [String.append]. rewrite sapp_nil. unfold nl. reflexivity.
  - cbn [all_chars] in H. apply andb_true_iff in H as [H1 H2]. unfold not_nl in H1. apply negb_true_iff in H1. cbn [String.append lex step]. rewrite H1, omap_nil, IH by auto.
    now rewrite sapp_assoc.
Qed.
Lemma dir_lex b i w : is_py b = false -> all_chars not_nl w = true -> lines_ok b [line i (String "#" w)] [TDir (String "#" w)].
Proof.
  intros Hp Hw r. unfold line. cbn [lines]. rewrite !sapp_assoc, spaces. cbn [String.append Nat.add lex step]. rewrite Hp. cbn [is_space is_nl is_hash].
  change (is_space "#") with false. change (is_nl "#") with false. change (is_hash "#") with true. cbv iota. rewrite omap_nil, lex_dir by auto. reflexivity.
Qed.
Lemma digits_not_nl s : all_chars is_digit s = true -> all_chars not_nl s = true.
Proof.
  apply all_imp. intros c H. unfold not_nl, is_nl. unfold is_digit, in_codes in H. rewrite andb_true_iff, !N.leb_le in H. apply negb_true_iff, N.eqb_neq. lia.
Qed.
Lemma dec_not_nl z : all_chars not_nl (dec z) = true.
Proof.
  destruct z as [|p|p]; [reflexivity| |].
  - apply digits_not_nl. apply number_dec. lia.
  - rewrite dec_neg. cbn [String.append all_chars]. apply andb_true_iff; split; [reflexivity|]. apply digits_not_nl. apply number_dec. lia.
Qed.
Lemma pragma_lex b i x : lines_ok b (map (line i) (pragma b x)) (map TDir (pragma b x)).
Proof.
  destruct b; try (destruct x; cbn [pragma map]; apply lines_ok_nil).
  - destruct x as [| | |f|ax|ax]; cbn [pragma map]; try apply lines_ok_nil; try (apply dir_lex; reflexivity). apply dir_lex; [reflexivity|].
    cbn. rewrite all_chars_app, dec_not_nl. reflexivity.
  - destruct x as [| | |f|ax|ax]; cbn [pragma map]; try apply lines_ok_nil. apply dir_lex; [reflexivity|]. cbn. apply dec_not_nl.
Qed.

(* ------------------------------------------------------------------ each kind of line *)
Lemma head_id s w : is_ident s = true -> headok (s +++ w) = true.
Proof.
  destruct s as [|c s]; [discriminate|]. cbn. intros H. apply andb_true_iff in H as [H _]. unfold id_start, in_codes in H. unfold is_space, is_nl, is_hash.
  rewrite !orb_true_iff, !andb_true_iff, !N.leb_le, N.eqb_eq in H. apply negb_true_iff. rewrite !orb_false_iff, !N.eqb_neq. lia.
Qed.
Lemma ident_emits b s : is_ident s = true -> emits (is_py b) s [TId s].
Proof. apply emits_id. Qed.
Lemma typename_ident dt : is_ident (typename dt) = true.
Proof. destruct dt; reflexivity. Qed.
Lemma init_lex b i dt x e ts : is_ident x = true -> emits (is_py b) e ts -> lines_ok b [line i (init b dt x e)] (bol b i ++ decl_toks b dt x ts).
Proof.
  intros Hx He. unfold init, decl_toks, semi. apply line_lex.
  - destruct (is_py b); apply head_id; auto. apply typename_ident.
  - destruct b; cbn [is_py] in *.
    + change ([] ++ TId x :: TOp "=" :: ts ++ []) with ([TId x] ++ ([TOp "="] ++ (ts ++ []))). rewrite app_nil_r. apply emits_then; auto; [now apply emits_id|]. apply lit_then; auto; lit.
    + change ([TId (typename dt)] ++ TId x :: TOp "=" :: ts ++ [TOp ";"]) with ([TId (typename dt)] ++ ([] ++ ([TId x] ++ ([TOp "="] ++ (ts ++ [TOp ";"]))))).
      apply emits_then; auto; [apply emits_id, typename_ident|]. apply lit_then; [lit|]. apply emits_then; auto; [now apply emits_id|]. apply lit_then; [lit|].
      apply lit_emits, emits_lit_then; auto. lit.
    + change ([TId (typename dt)] ++ TId x :: TOp "=" :: ts ++ [TOp ";"]) with ([TId (typename dt)] ++ ([] ++ ([TId x] ++ ([TOp "="] ++ (ts ++ [TOp ";"]))))).
      apply emits_then; auto; [apply emits_id, typename_ident|]. apply lit_then; [lit|]. apply emits_then; auto; [now apply emits_id|]. apply lit_then; [lit|].
      apply lit_emits, emits_lit_then; auto. lit.
Qed.
Lemma assign_lex b i l e ls ts : headok l = true -> emits (is_py b) l ls -> emits (is_py b) e ts -> lines_ok b [line i (assign b l e)] (bol b i ++ assign_toks b ls ts).
Proof.
  intros Hh Hl He. unfold assign, assign_toks, semi. apply line_lex.
  - destruct (is_py b); (destruct l as [|c l]; [discriminate|exact Hh]).
  - destruct b; cbn [is_py] in *.
    + change (TOp "=" :: ts ++ []) with ([TOp "="] ++ (ts ++ [])). rewrite app_nil_r. apply emits_then; auto. apply lit_then; auto; lit.
    + change (TOp "=" :: ts ++ [TOp ";"]) with ([TOp "="] ++ (ts ++ [TOp ";"])). apply emits_then; auto. apply lit_then; [lit|]. apply lit_emits, emits_lit_then; auto. lit.
    + change (TOp "=" :: ts ++ [TOp ";"]) with ([TOp "="] ++ (ts ++ [TOp ";"])). apply emits_then; auto. apply lit_then; [lit|]. apply lit_emits, emits_lit_then; auto. lit.
Qed.
Lemma for_lex b i n ext : lines_ok b [line i (sequential_loop_start b (pname n) "0" (dec ext) "1")] (bol b i ++ for_toks b (pname n) ext).
Proof.
  assert (Hn := fun b => ident_emits b (pname n) (pname_ident n)). assert (Hd := fun b => emits_dec (is_py b) ext). unfold for_toks, sequential_loop_start. apply line_lex.
  - destruct (is_py b); reflexivity.
  - assert (HC : emits false ("for (int " +++ pname n +++ " = " +++ "0" +++ "; " +++ pname n +++ " < " +++ dec ext +++ "; " +++ pname n +++ " += " +++ "1" +++ ") {")
      (TId "for" :: TOp "(" :: TId "int" :: TId (pname n) :: TOp "=" :: TNum 0 :: TOp ";" :: TId (pname n) :: TOp "<" :: toks_int ext ++
       [TOp ";"; TId (pname n); TOp "+="; TNum 1; TOp ")"; TOp "{"])).
    { change (TId "for" :: TOp "(" :: TId "int" :: TId (pname n) :: TOp "=" :: TNum 0 :: TOp ";" :: TId (pname n) :: TOp "<" :: toks_int ext ++
       [TOp ";"; TId (pname n); TOp "+="; TNum 1; TOp ")"; TOp "{"]) with ([TId "for"; TOp "("; TId "int"] ++ ([TId (pname n)] ++ ([TOp "="; TNum 0; TOp ";"] ++ ([TId (pname n)] ++ ([TOp "<"] ++
       (toks_int ext ++ ([TOp ";"] ++ ([TId (pname n)] ++ [TOp "+="; TNum 1; TOp ")"; TOp "{"])))))))).
      apply lit_then; [lit|]. apply emits_then; [apply (Hn Clang)|reflexivity|]. apply (lit_then _ " = 0; "); [lit|]. apply emits_then; [apply (Hn Clang)|reflexivity|]. apply lit_then; [lit|].
      apply emits_then; [apply (Hd Clang)|reflexivity|]. apply lit_then; [lit|]. apply emits_then; [apply (Hn Clang)|reflexivity|]. apply (lit_emits _ " += 1) {"). lit. }
    destruct b; cbn [is_py]; auto.
    change (TId "for" :: TId (pname n) :: TId "in" :: TId "range" :: TOp "(" :: TNum 0 :: TOp "," :: toks_int ext ++ [TOp ","; TNum 1; TOp ")"; TOp ":"]) with
      ([TId "for"] ++ ([TId (pname n)] ++ ([TId "in"; TId "range"; TOp "("; TNum 0; TOp ","] ++ (toks_int ext ++ [TOp ","; TNum 1; TOp ")"; TOp ":"])))).
    apply lit_then; [lit|]. apply emits_then; [apply (Hn Python)|reflexivity|]. apply (lit_then _ " in range(0, "); [lit|]. apply emits_then; [apply (Hd Python)|reflexivity|].
    apply (lit_emits _ ", 1):"). lit.
Qed.
Lemma if_lex b i e ts : emits (is_py b) e ts -> lines_ok b [line i (if_start b e)] (bol b i ++ if_toks b ts).
Proof.
  intros He. unfold if_start, if_toks. apply line_lex; [destruct (is_py b); reflexivity|]. destruct b; cbn [is_py] in *.
  - change (TId "if" :: ts ++ [TOp ":"]) with ([TId "if"] ++ (ts ++ [TOp ":"])). apply lit_then; [lit|]. apply lit_emits, emits_lit_then; auto. lit.
  - change (TId "if" :: TOp "(" :: ts ++ [TOp ")"; TOp "{"]) with ([TId "if"; TOp "("] ++ (ts ++ [TOp ")"; TOp "{"])). apply lit_then; [lit|]. apply lit_emits, emits_lit_then; auto. lit.
  - change (TId "if" :: TOp "(" :: ts ++ [TOp ")"; TOp "{"]) with ([TId "if"; TOp "("] ++ (ts ++ [TOp ")"; TOp "{"])). apply lit_then; [lit|]. apply lit_emits, emits_lit_then; auto. lit.
Qed.
Lemma else_lex b i : lines_ok b [line i (else_ b)] (bol b i ++ else_toks b).
Proof. apply line_lex; destruct b; try reflexivity; apply lit_emits; lit. Qed.
Lemma end_lex b i : lines_ok b [line i (loop_end b)] (end_toks b).
Proof.
  destruct b; [now apply blank_lex|apply (line_lex Clang i "}" [TOp "}"])|apply (line_lex CUDA i "}" [TOp "}"])]; try reflexivity; apply lit_emits; lit.
Qed.
Lemma ret_lex b i : lines_ok b [line i (return_function b)] (bol b i ++ TId "return" :: semi b).
Proof.
  apply line_lex; [destruct b; reflexivity|]. destruct b; [now apply emits_id| |]; apply lit_emits; lit.
Qed.
Lemma gpu_emits b (bl : bool) ax : emits (is_py b) ((if bl then "blockIdx." else "threadIdx.") +++ axis_name ax) (gpu_toks bl ax).
Proof.
  assert (H : forall s : string, emits_lit (is_py b) (s +++ ".") [TId s; TOp "."] -> emits (is_py b) ((s +++ ".") +++ axis_name ax) [TId s; TOp "."; TId (axis_name ax)]).
  { intros s Hs. apply (lit_then _ _ [TId s; TOp "."] _ [TId (axis_name ax)]); auto. apply emits_id. destruct ax; reflexivity. }
  destruct bl; [apply (H "blockIdx")|apply (H "threadIdx")]; destruct b; lit.
Qed.
Theorem cprint_lex b c : forall i, lines_ok b (cprint b i c) (ctoks b i c).
Proof.
  induction c as [|dt n e k IH|n e k IH|a x e k IH|n ext x body IHb k IH|e t IHt f IHf k IH| |n bl ax k IH]; intros i; cbn [cprint ctoks].
  - apply lines_ok_nil.
  - rewrite app_assoc. apply lines_ok_cons; auto. apply init_lex; [apply pname_ident|apply kprint_lex].
  - rewrite app_assoc. apply lines_ok_cons; auto. apply assign_lex; [|apply emits_id, pname_ident|apply kprint_lex].
    rewrite <- (sapp_nil (pname n)). apply head_id, pname_ident.
  - rewrite app_assoc. apply lines_ok_cons; auto. apply assign_lex; [|apply (kprint_lex b (KIdx a x))|apply kprint_lex]. unfold index. apply head_id, pname_ident.
  - apply lines_ok_app; [apply pragma_lex|]. rewrite app_assoc. apply lines_ok_cons; [apply for_lex|]. apply lines_ok_app; auto. apply lines_ok_cons; auto. apply end_lex.
  - rewrite (app_assoc (bol b i) (if_toks b (toks b e))). apply lines_ok_cons; [apply if_lex, kprint_lex|]. apply lines_ok_app; auto. apply lines_ok_app; [|apply lines_ok_cons; auto; apply end_lex].
    destruct f; try apply lines_ok_nil; rewrite app_assoc; apply lines_ok_cons; auto; apply else_lex.
  - apply ret_lex.
  - rewrite app_assoc. apply lines_ok_cons; auto. apply init_lex; [apply pname_ident|apply gpu_emits].
Qed.
