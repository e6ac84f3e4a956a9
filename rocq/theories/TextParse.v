(* Reading source text: the part of the lexical rules, precedence rules and block rules of Python and C
   that the emitted kernels use.  Nothing here refers to the generator.  A text outside this
   fragment is not read (None). *)
From Coq Require Import String Ascii Decimal DecimalString.
From Verif Require Import Base.
Open Scope string_scope.
Open Scope Z_scope.
Open Scope list_scope.

(* ------------------------------------------------------------------ tokens *)
Inductive tok :=
| TId (s : string)        (* identifier or keyword *)
| TNum (z : Z)            (* decimal integer *)
| TReal (s : string)      (* number with a decimal point *)
| TOp (s : string)        (* operator or punctuation *)
| TStr (s : string)       (* string literal *)
| TDir (s : string)       (* C: a # line *)
| TInd (n : nat).         (* Python: a new non-blank line, indented by n spaces *)

Definition code_of (c : ascii) : N := N_of_ascii c.
Definition in_codes (lo hi : N) (c : ascii) : bool := (lo <=? code_of c)%N && (code_of c <=? hi)%N.
Definition is_digit : ascii -> bool := in_codes 48 57.
Definition id_start (c : ascii) : bool := in_codes 97 122 c || in_codes 65 90 c || (code_of c =? 95)%N.
Definition id_char (c : ascii) : bool := id_start c || is_digit c.
Definition is_space (c : ascii) : bool := (code_of c =? 32)%N.
Definition is_nl (c : ascii) : bool := (code_of c =? 10)%N.
Definition is_quote (c : ascii) : bool := (code_of c =? 34)%N.
Definition is_hash (c : ascii) : bool := (code_of c =? 35)%N.
Definition is_dot (c : ascii) : bool := (code_of c =? 46)%N.
Fixpoint mem_char (c : ascii) (s : string) : bool := match s with EmptyString => false | String d r => Ascii.eqb c d || mem_char c r end.
Fixpoint all_chars (p : ascii -> bool) (s : string) : bool := match s with EmptyString => true | String d r => p d && all_chars p r end.
(* punctuation that is always a token by itself *)
Definition solo (c : ascii) : bool := mem_char c "()[]{},;:.".
Definition op_char (c : ascii) : bool := mem_char c "+-*/%<>=&|!^".
(* operators of two characters of either language (and the start of a C comment) *)
Definition two_ops : list string :=
  ["**"; "//"; "/*"; "<<"; ">>"; "<="; ">="; "=="; "!="; "->"; "++"; "--"; "&&"; "||"; "+="; "-="; "*="; "/="; "%="; "&="; "|="; "^="].
Definition two (c d : ascii) : bool := existsb (String.eqb (String c (String d ""))) two_ops.
Definition str1 (c : ascii) : string := String c "".

(* A decimal number: no leading zero (octal in C, an error in Python). *)
Definition canonical (s : string) : bool :=
  match s with String c EmptyString => true | String c _ => negb (Ascii.eqb c "0") | EmptyString => false end.
Definition number (s : string) : option tok :=
  match NilEmpty.uint_of_string s with
  | Some u => if canonical s then Some (TNum (Z.of_uint u)) else None
  | None => Some (TReal s)
  end.

(* the lexer: a state machine; longest match for identifiers, numbers and operators *)
Inductive lst :=
| LBol (n : nat)          (* beginning of a line, after n spaces *)
| L0
| LId (acc : string)
| LNum (acc : string)
| LOp (c : ascii)
| LStr (acc : string)
| LDir (acc : string).
Definition flush (s : lst) : option (list tok) :=
  match s with
  | LBol _ | L0 => Some []
  | LId a => Some [TId a]
  | LNum a => option_map (fun t => [t]) (number a)
  | LOp c => Some [TOp (str1 c)]
  | LStr _ => None
  | LDir a => Some [TDir a]
  end.
Definition start (c : ascii) : option (list tok * lst) :=
  if is_space c then Some ([], L0)
  else if is_nl c then Some ([], LBol 0)
  else if is_digit c then Some ([], LNum (str1 c))
  else if id_start c then Some ([], LId (str1 c))
  else if is_quote c then Some ([], LStr "")
  else if solo c then Some ([TOp (str1 c)], L0)
  else if op_char c then Some ([], LOp c)
  else None.
(* end the pending token, then start again with c *)
Definition restart (s : lst) (c : ascii) : option (list tok * lst) :=
  match flush s, start c with Some ts, Some (ts', s') => Some (ts ++ ts', s') | _, _ => None end.
Definition step (py : bool) (s : lst) (c : ascii) : option (list tok * lst) :=
  match s with
  | LBol n =>
      if is_space c then Some ([], LBol (S n))
      else if is_nl c then Some ([], LBol 0)
      else if is_hash c then (if py then None else Some ([], LDir (str1 c)))
      else match start c with Some (ts, s') => Some ((if py then [TInd n] else []) ++ ts, s') | None => None end
  | L0 => start c
  | LId a => if id_char c then Some ([], LId (String.append a (str1 c))) else restart s c
  | LNum a => if is_digit c || is_dot c then Some ([], LNum (String.append a (str1 c)))
              else if id_start c then None else restart s c
  | LOp d => if two d c then Some ([TOp (String d (str1 c))], L0) else restart s c
  | LStr a => if is_quote c then Some ([TStr a], L0) else if is_nl c then None else Some ([], LStr (String.append a (str1 c)))
  | LDir a => if is_nl c then Some ([TDir a], LBol 0) else Some ([], LDir (String.append a (str1 c)))
  end.
Fixpoint lex (py : bool) (s : lst) (str : string) : option (list tok) :=
  match str with
  | EmptyString => flush s
  | String c r => match step py s c with Some (ts, s') => option_map (app ts) (lex py s' r) | None => None end
  end.

(* ------------------------------------------------------------------ expressions *)
Inductive sx :=
| SVar (s : string)
| SInt (z : Z)
| SReal (s : string)
| SBin (o : string) (l r : sx)
| SNeg (x : sx)
| SCall (f : sx) (args : list sx)
| SIndex (a i : sx)
| SAttr (a : sx) (s : string).

(* binary operators from the loosest to the tightest level; all associate to the left.
   assoc = false: a second operator of the level may not follow (Python chains comparisons) *)
Record level := mkLevel { ops : list string; assoc : bool }.
(* Python reference, 6.17 (the levels |, ^, &, <<, and the operators not, in, is, !=, ** are not used) *)
Definition py_levels : list level :=
  [mkLevel ["or"] true; mkLevel ["and"] true; mkLevel ["<"; "<="; ">"; ">="; "=="] false;
   mkLevel ["+"; "-"] true; mkLevel ["*"; "/"; "//"; "%"] true].
(* C11 6.5 (the levels |, ^, &, <<, ?: are not used) *)
Definition c_levels : list level :=
  [mkLevel ["||"] true; mkLevel ["&&"] true; mkLevel ["=="; "!="] true; mkLevel ["<"; "<="; ">"; ">="] true;
   mkLevel ["+"; "-"] true; mkLevel ["*"; "/"; "%"] true].
Definition py_keywords : list string :=
  ["False"; "None"; "True"; "and"; "as"; "assert"; "async"; "await"; "break"; "class"; "continue"; "def"; "del"; "elif"; "else"; "except";
   "finally"; "for"; "from"; "global"; "if"; "import"; "in"; "is"; "lambda"; "nonlocal"; "not"; "or"; "pass"; "raise"; "return"; "try";
   "while"; "with"; "yield"].
Definition c_keywords : list string :=
  ["auto"; "break"; "case"; "char"; "const"; "continue"; "default"; "do"; "double"; "else"; "enum"; "extern"; "float"; "for"; "goto"; "if";
   "inline"; "int"; "long"; "register"; "restrict"; "return"; "short"; "signed"; "sizeof"; "static"; "struct"; "switch"; "typedef"; "union";
   "unsigned"; "void"; "volatile"; "while"; "_Alignas"; "_Alignof"; "_Atomic"; "_Bool"; "_Complex"; "_Generic"; "_Imaginary"; "_Noreturn";
   "_Static_assert"; "_Thread_local"; "__global__"; "int32_t"; "int64_t"].
Definition mem (s : string) (l : list string) : bool := existsb (String.eqb s) l.

Definition obnd {A B} (o : option A) (f : A -> option B) : option B := match o with Some a => f a | None => None end.
Notation "'do' x <- e ; f" := (obnd e (fun x => f)) (at level 200, x pattern, e at level 100, f at level 200).
(* the next token must be the operator o *)
Definition eat (o : string) (ts : list tok) : option (list tok) :=
  match ts with TOp p :: r => if String.eqb o p then Some r else None | _ => None end.
Definition eat_id (o : string) (ts : list tok) : option (list tok) :=
  match ts with TId p :: r => if String.eqb o p then Some r else None | _ => None end.

Section Expr.
Context (tbl : list level) (kws : list string).
(* a token as an operator of a level *)
Definition op_of (L : level) (t : tok) : option string :=
  match t with TOp s | TId s => if mem s (ops L) then Some s else None | _ => None end.
Fixpoint p_expr (n : nat) (lv : list level) (ts : list tok) {struct n} : option (sx * list tok) :=
  match n with
  | O => None
  | S n =>
      match lv with
      | L :: lv' => do (a, r) <- p_expr n lv' ts; p_tail n L lv' a r
      | [] => (* unary minus and postfix operators *)
          match eat "-" ts with
          | Some r => do (a, r) <- p_expr n [] r; Some (SNeg a, r)
          | None => do (a, r) <- p_atom n ts; p_post n a r
          end
      end
  end
with p_tail (n : nat) (L : level) (lv' : list level) (a : sx) (ts : list tok) {struct n} : option (sx * list tok) :=
  match n with
  | O => None
  | S n =>
      match ts with
      | t :: r =>
          match op_of L t with
          | Some o =>
              do (b, r) <- p_expr n lv' r;
              if assoc L then p_tail n L lv' (SBin o a b) r
              else match r with
                   | t' :: _ => match op_of L t' with Some _ => None | None => Some (SBin o a b, r) end
                   | [] => Some (SBin o a b, r)
                   end
          | None => Some (a, ts)
          end
      | [] => Some (a, [])
      end
  end
with p_atom (n : nat) (ts : list tok) {struct n} : option (sx * list tok) :=
  match n with
  | O => None
  | S n =>
      match ts with
      | TId s :: r => if mem s kws then None else Some (SVar s, r)
      | TNum z :: r => Some (SInt z, r)
      | TReal s :: r => Some (SReal s, r)
      | _ => do r <- eat "(" ts; do (a, r) <- p_expr n tbl r; do r <- eat ")" r; Some (a, r)
      end
  end
with p_post (n : nat) (a : sx) (ts : list tok) {struct n} : option (sx * list tok) :=
  match n with
  | O => None
  | S n =>
      match eat "[" ts with
      | Some r => do (i, r) <- p_expr n tbl r; do r <- eat "]" r; p_post n (SIndex a i) r
      | None =>
          match eat "(" ts with
          | Some r => do (args, r) <- p_args n r; p_post n (SCall a args) r
          | None =>
              match eat "." ts with
              | Some (TId s :: r) => p_post n (SAttr a s) r
              | Some _ => None
              | None => Some (a, ts)
              end
          end
      end
  end
(* one or more expressions separated by commas, and the closing parenthesis *)
with p_args (n : nat) (ts : list tok) {struct n} : option (list sx * list tok) :=
  match n with
  | O => None
  | S n =>
      do (a, r) <- p_expr n tbl ts;
      match eat "," r with
      | Some r => do (l, r) <- p_args n r; Some (a :: l, r)
      | None => do r <- eat ")" r; Some ([a], r)
      end
  end.
End Expr.

(* ------------------------------------------------------------------ statements *)
Inductive stmt :=
| SDecl (ty x : string) (e : sx)                                         (* C: ty x = e; *)
| SAssign (l e : sx)                                                     (* l = e *)
| SForC (dirs : list string) (x : string) (lo c : sx) (y : string) (st : sx) (body : list stmt)
                                                                         (* C: for (int x = lo; c; y += st) { body } *)
| SForIn (x : string) (it : sx) (body : list stmt)                       (* Python: for x in it: body *)
| SIf (c : sx) (t f : list stmt)
| SReturn.
(* a source file: imported files / modules, one function with (type, name) parameters *)
Record source := mkSrc { s_libs : list string; s_attr : list string; s_name : string; s_params : list (string * string); s_body : list stmt }.

(* ---- C *)
Definition c_types : list string := ["int32_t"; "int64_t"; "float"; "double"].
Notation c_expr n ts := (p_expr c_levels c_keywords n c_levels ts).
Definition c_simple (n : nat) (ts : list tok) : option (stmt * list tok) :=
  do (l, r) <- c_expr n ts; do r <- eat "=" r; do (e, r) <- c_expr n r; do r <- eat ";" r; Some (SAssign l e, r).
Definition ident (kws : list string) (ts : list tok) : option (string * list tok) :=
  match ts with TId s :: r => if mem s kws then None else Some (s, r) | _ => None end.
Fixpoint c_stmt (n : nat) (ts : list tok) {struct n} : option (stmt * list tok) :=
  match n with
  | O => None
  | S n =>
      match ts with
      | TDir d :: r =>
          do (s, r) <- c_stmt n r;
          match s with SForC ds x lo c y st body => Some (SForC (d :: ds) x lo c y st body, r) | _ => None end
      | TId w :: r =>
          if String.eqb w "for" then
            do r <- eat "(" r; do r <- eat_id "int" r; do (x, r) <- ident c_keywords r; do r <- eat "=" r;
            do (lo, r) <- c_expr n r; do r <- eat ";" r;
            do (c, r) <- c_expr n r; do r <- eat ";" r;
            do (y, r) <- ident c_keywords r; do r <- eat "+=" r; do (st, r) <- c_expr n r; do r <- eat ")" r;
            do (body, r) <- c_block n r;
            Some (SForC [] x lo c y st body, r)
          else if String.eqb w "if" then
            do r <- eat "(" r; do (c, r) <- c_expr n r; do r <- eat ")" r; do (t, r) <- c_block n r;
            match eat_id "else" r with
            | Some r => do (f, r) <- c_block n r; Some (SIf c t f, r)
            | None => Some (SIf c t [], r)
            end
          else if String.eqb w "return" then do r <- eat ";" r; Some (SReturn, r)
          else if mem w c_types then
            do (x, r) <- ident c_keywords r; do r <- eat "=" r; do (e, r) <- c_expr n r; do r <- eat ";" r; Some (SDecl w x e, r)
          else c_simple n ts
      | _ => c_simple n ts
      end
  end
(* { statements } *)
with c_block (n : nat) (ts : list tok) {struct n} : option (list stmt * list tok) :=
  match n with
  | O => None
  | S n => do r <- eat "{" ts; c_stmts n r
  end
(* statements } *)
with c_stmts (n : nat) (ts : list tok) {struct n} : option (list stmt * list tok) :=
  match n with
  | O => None
  | S n =>
      match eat "}" ts with
      | Some r => Some ([], r)
      | None => do (s, r) <- c_stmt n ts; do (ss, r) <- c_stmts n r; Some (s :: ss, r)
      end
  end.
(* type* name, ... ) *)
Fixpoint c_params (n : nat) (ts : list tok) : option (list (string * string) * list tok) :=
  match n with
  | O => None
  | S n =>
      match ts with
      | TId ty :: r =>
          if mem ty c_types then
            do r <- eat "*" r; do (x, r) <- ident c_keywords r;
            match eat "," r with
            | Some r => do (l, r) <- c_params n r; Some ((ty, x) :: l, r)
            | None => do r <- eat ")" r; Some ([(ty, x)], r)
            end
          else None
      | _ => None
      end
  end.
Fixpoint c_libs (ts : list tok) : list string * list tok :=
  match ts with TDir d :: r => let (l, r) := c_libs r in (d :: l, r) | _ => ([], ts) end.
(* extern "C" __global__ *)
Definition c_attr (ts : list tok) : list string * list tok :=
  match ts with
  | TId e :: TStr s :: TId g :: r => if String.eqb e "extern" then ([e; s; g], r) else ([], ts)
  | _ => ([], ts)
  end.
Definition c_source (n : nat) (ts : list tok) : option source :=
  let (libs, r) := c_libs ts in
  let (attr, r) := c_attr r in
  do r <- eat_id "void" r; do (f, r) <- ident c_keywords r; do r <- eat "(" r; do (ps, r) <- c_params n r; do (body, r) <- c_block n r;
  match r with [] => Some (mkSrc libs attr f ps body) | _ => None end.
Definition c_reads (text : string) (p : source) : Prop := exists n ts, lex false (LBol 0) text = Some ts /\ c_source n ts = Some p.

(* ---- Python *)
Notation py_expr n ts := (p_expr py_levels py_keywords n py_levels ts).
(* the logical line ends here *)
Definition eol (ts : list tok) : bool := match ts with [] => true | TInd _ :: _ => true | _ => false end.
Definition py_simple (n : nat) (ts : list tok) : option (stmt * list tok) :=
  do (l, r) <- py_expr n ts; do r <- eat "=" r; do (e, r) <- py_expr n r; if eol r then Some (SAssign l e, r) else None.
(* a statement of a block indented by ind (its TInd already read) *)
Fixpoint py_stmt (n : nat) (ind : nat) (ts : list tok) {struct n} : option (stmt * list tok) :=
  match n with
  | O => None
  | S n =>
      match ts with
      | TId w :: r =>
          if String.eqb w "for" then
            do (x, r) <- ident py_keywords r; do r <- eat_id "in" r; do (it, r) <- py_expr n r; do r <- eat ":" r;
            do (body, r) <- py_suite n ind r; Some (SForIn x it body, r)
          else if String.eqb w "if" then
            do (c, r) <- py_expr n r; do r <- eat ":" r; do (t, r) <- py_suite n ind r;
            match r with
            | TInd k :: r' =>
                match (if Nat.eqb k ind then eat_id "else" r' else None) with
                | Some r' => do r' <- eat ":" r'; do (f, r') <- py_suite n ind r'; Some (SIf c t f, r')
                | None => Some (SIf c t [], r)
                end
            | _ => Some (SIf c t [], r)
            end
          else if String.eqb w "return" then if eol r then Some (SReturn, r) else None
          else py_simple n ts
      | _ => py_simple n ts
      end
  end
(* an indented block: new line, deeper than ind, at least one statement *)
with py_suite (n : nat) (ind : nat) (ts : list tok) {struct n} : option (list stmt * list tok) :=
  match n with
  | O => None
  | S n =>
      match ts with
      | TInd k :: r => if (ind <? k)%nat then do (s, r) <- py_stmt n k r; do (ss, r) <- py_stmts n k r; Some (s :: ss, r) else None
      | _ => None
      end
  end
(* further statements of the block indented by k; ends before a line indented less *)
with py_stmts (n : nat) (k : nat) (ts : list tok) {struct n} : option (list stmt * list tok) :=
  match n with
  | O => None
  | S n =>
      match ts with
      | [] => Some ([], [])
      | TInd j :: r =>
          if Nat.eqb j k then do (s, r) <- py_stmt n k r; do (ss, r) <- py_stmts n k r; Some (s :: ss, r)
          else if (j <? k)%nat then Some ([], ts) else None
      | _ => None
      end
  end.
Fixpoint py_params (n : nat) (ts : list tok) : option (list (string * string) * list tok) :=
  match n with
  | O => None
  | S n =>
      do (x, r) <- ident py_keywords ts;
      match eat "," r with
      | Some r => do (l, r) <- py_params n r; Some (("", x) :: l, r)
      | None => do r <- eat ")" r; Some ([("", x)], r)
      end
  end.
Fixpoint py_libs (n : nat) (ts : list tok) : list string * list tok :=
  match n with
  | O => ([], ts)
  | S n =>
      match ts with
      | TInd 0 :: TId i :: TId m :: r => if String.eqb i "import" && eol r then let (l, r) := py_libs n r in (m :: l, r) else ([], ts)
      | _ => ([], ts)
      end
  end.
Definition py_source (n : nat) (ts : list tok) : option source :=
  let (libs, r) := py_libs n ts in
  match r with
  | TInd 0 :: r =>
      do r <- eat_id "def" r; do (f, r) <- ident py_keywords r; do r <- eat "(" r; do (ps, r) <- py_params n r; do r <- eat ":" r;
      do (body, r) <- py_suite n 0 r;
      match r with [] => Some (mkSrc libs [] f ps body) | _ => None end
  | _ => None
  end.
Definition py_reads (text : string) (p : source) : Prop := exists n ts, lex true (LBol 0) text = Some ts /\ py_source n ts = Some p.
