(* What a source text does: execution of parsed source (TextParse.v) by the rules of Python and C.

   A specification: nothing here refers to the code generator or to the kernel language of Kernel.v.
   Variables are strings; memory is a set of arrays at locations.  A program that leaves the fragment,
   reads an unbound name, indexes outside an array, or whose arithmetic raises / is undefined has no
   execution.  #pragma lines are ignored here (parallel execution: C06, C07). *)
From Coq Require Import String.
From Verif Require Import Base Lang LangInst TextParse.
Open Scope string_scope.
Open Scope Z_scope.
Open Scope list_scope.

(* the language-specific parts *)
Record slang := mkSL {
  sl_lang :> lang;
  sl_py : bool;
  sl_lit : Z -> option (val sl_lang);                         (* integer literal *)
  sl_conv : string -> val sl_lang -> option (val sl_lang);    (* conversion to a declared type *)
  sl_bin : string -> option bop;                              (* arithmetic and comparison operators *)
  sl_and : string; sl_or : string;
  sl_logic : bool -> val sl_lang -> val sl_lang;              (* value of and/or whose truth value is known *)
  sl_elem : forall A, list A -> Z -> option Z                 (* position denoted by a subscript *)
}.
Definition assoc_op (l : list (string * bop)) (o : string) : option bop :=
  match find (fun p => String.eqb (fst p) o) l with Some p => Some (snd p) | None => None end.

Definition py_sl (lm : libm) : slang := mkSL (py_lang lm) true
  (fun z => Some (PI z))
  (fun _ v => Some v)
  (assoc_op [("+", BAdd); ("-", BSub); ("*", BMul); ("/", BTruediv); ("//", BFloordiv); ("%", BMod);
             ("==", BEq); (">", BGt); (">=", BGe); ("<", BLt); ("<=", BLe)])
  "and" "or"
  (fun _ v => v)
  (fun A l z => let n := Z.of_nat (length l) in if (0 <=? z) && (z <? n) then Some z else if (- n <=? z) && (z <? 0) then Some (z + n) else None).
(* int: 32 bits, long: 64 bits; a conversion to int that does not fit is given no meaning *)
Definition c_to_int (v : cval) : option cval :=
  match v with CI32 z => Some (CI32 z) | CI64 z => if c_fits false z then Some (CI32 z) else None | CF _ => None end.
Definition c_sl (lm : libm) : slang := mkSL (c_lang lm) false
  (fun z => if c_fits false z then Some (CI32 z) else if c_fits true z then Some (CI64 z) else None)
  (fun ty v => if String.eqb ty "int" then c_to_int v
               else if String.eqb ty "int64_t" then Some (c_coerce Int64 v)
               else if String.eqb ty "double" then Some (c_coerce Float64 v) else None)
  (assoc_op [("+", BAdd); ("-", BSub); ("*", BMul); ("/", BTruediv); ("%", BMod);
             ("==", BEq); (">", BGt); (">=", BGe); ("<", BLt); ("<=", BLe)])
  "&&" "||"
  (fun b _ => CI32 (b2z b))
  (fun A l z => if (0 <=? z) && (z <? Z.of_nat (length l)) then Some z else None).

(* math functions: math.f in Python, f in C; pow is a function of both *)
Definition math_fn (s : string) : option uop :=
  if String.eqb s "sin" then Some USin else if String.eqb s "cos" then Some UCos else if String.eqb s "exp" then Some UExp
  else if String.eqb s "log" then Some ULog else if String.eqb s "sqrt" then Some USqrt else None.

Section Sem.
Context (S : slang).
Notation V := (val S).
(* array parameters: element type and location *)
Context (arrays : string -> option (string * nat)).
(* CUDA: blockIdx.x, threadIdx.x, ...; no value elsewhere *)
Context (coord : string -> string -> option Z).

Definition mem := nat -> option (list V).
Definition mset (m : mem) (b : nat) (l : list V) : mem := fun x => if Nat.eqb b x then Some l else m x.
(* scopes, innermost first; Python has one *)
Definition frame := list (string * (string * V)).
Definition env := list frame.
Fixpoint look1 (f : frame) (x : string) : option (string * V) :=
  match f with [] => None | (y, v) :: r => if String.eqb y x then Some v else look1 r x end.
Fixpoint look (r : env) (x : string) : option (string * V) :=
  match r with [] => None | f :: r' => match look1 f x with Some v => Some v | None => look r' x end end.
Fixpoint set1 (f : frame) (x : string) (v : V) : frame :=
  match f with [] => [] | (y, (ty, w)) :: r => if String.eqb y x then (y, (ty, v)) :: r else (y, (ty, w)) :: set1 r x v end.
(* assignment to a variable.  C: it must be declared, the innermost declaration counts, the value is
   converted to its type.  Python: bound if it is not yet *)
Fixpoint c_assign (r : env) (x : string) (v : V) : option env :=
  match r with
  | [] => None
  | f :: r' => match look1 f x with
               | Some (ty, _) => option_map (fun w => set1 f x w :: r') (sl_conv S ty v)
               | None => option_map (cons f) (c_assign r' x v)
               end
  end.
Definition assign (r : env) (x : string) (v : V) : option env :=
  if sl_py S then match r with
                  | [f] => Some [match look1 f x with Some _ => set1 f x v | None => (x, ("", v)) :: f end]
                  | _ => None
                  end
  else c_assign r x v.

Definition opt_bind {A B} (o : option A) (f : A -> option B) : option B := match o with Some a => f a | None => None end.
(* a function name means the library function only if no variable hides it *)
Definition free (r : env) (x : string) : bool := match look r x, arrays x with None, None => true | _, _ => false end.
Fixpoint eval (r : env) (m : mem) (e : sx) : option V :=
  match e with
  | SVar x => option_map snd (look r x)
  | SInt z => sl_lit S z
  | SReal s => if String.eqb s "0.0" then Some (of_num S (NFlt 0 0)) else None
  | SNeg x => opt_bind (eval r m x) (un S UNeg)
  | SBin o x y =>
      opt_bind (eval r m x) (fun u =>
      if String.eqb o (sl_and S) then (if truth S u then option_map (fun w => sl_logic S (truth S w) w) (eval r m y) else Some (sl_logic S false u))
      else if String.eqb o (sl_or S) then (if truth S u then Some (sl_logic S true u) else option_map (fun w => sl_logic S (truth S w) w) (eval r m y))
      else opt_bind (eval r m y) (fun w => opt_bind (sl_bin S o) (fun b => bin S b u w)))
  | SCall (SVar f) [x; y] => if free r f && String.eqb f "pow" then opt_bind (eval r m x) (fun u => opt_bind (eval r m y) (fun w => bin S BPow u w)) else None
  | SCall (SVar f) [x] => if free r f && negb (sl_py S) then opt_bind (math_fn f) (fun u => opt_bind (eval r m x) (un S u)) else None
  | SCall (SAttr (SVar q) f) [x] => if free r q && sl_py S && String.eqb q "math" then opt_bind (math_fn f) (fun u => opt_bind (eval r m x) (un S u)) else None
  | SIndex (SVar a) i =>
      opt_bind (match look r a with Some _ => None | None => arrays a end) (fun '(_, b) =>
      opt_bind (m b) (fun l => opt_bind (eval r m i) (fun v => opt_bind (to_idx S v) (fun z => opt_bind (sl_elem S _ l z) (znth l)))))
  | SAttr (SVar q) f => if free r q then option_map (lit S) (coord q f) else None
  | _ => None
  end.

Inductive flow := Norm | Ret.
(* range(lo, hi, step) for a positive step *)
Definition range (lo hi st : Z) : list Z := map (fun k => lo + k * st) (zrange ((hi - lo + st - 1) / st)).
Definition enter (r : env) : env := if sl_py S then r else [] :: r.
Definition leave (r : env) : env := if sl_py S then r else tl r.
Inductive exec : env -> mem -> list stmt -> flow -> env -> mem -> Prop :=
| x_nil r m : exec r m [] Norm r m
| x_cons r m s ss r1 m1 fl r2 m2 : exec1 r m s Norm r1 m1 -> exec r1 m1 ss fl r2 m2 -> exec r m (s :: ss) fl r2 m2
| x_ret r m s ss r1 m1 : exec1 r m s Ret r1 m1 -> exec r m (s :: ss) Ret r1 m1
with exec1 : env -> mem -> stmt -> flow -> env -> mem -> Prop :=
| x_return r m : exec1 r m SReturn Ret r m
(* C; redeclaring or hiding a visible name is given no meaning *)
| x_decl f r m ty x e v w : sl_py S = false -> look (f :: r) x = None -> arrays x = None -> eval (f :: r) m e = Some v -> sl_conv S ty v = Some w ->
    exec1 (f :: r) m (SDecl ty x e) Norm (((x, (ty, w)) :: f) :: r) m
| x_assign r m x e v r' : arrays x = None -> eval r m e = Some v -> assign r x v = Some r' -> exec1 r m (SAssign (SVar x) e) Norm r' m
| x_store r m a i e v w ty b l iv z p l' : look r a = None -> arrays a = Some (ty, b) -> m b = Some l ->
    eval r m e = Some v -> eval r m i = Some iv -> to_idx S iv = Some z -> sl_elem S _ l z = Some p -> sl_conv S ty v = Some w -> zupd l p w = Some l' ->
    exec1 r m (SAssign (SIndex (SVar a) i) e) Norm r (mset m b l')
| x_if r m c t f v fl r1 m1 : eval r m c = Some v -> exec (enter r) m (if truth S v then t else f) fl r1 m1 ->
    exec1 r m (SIf c t f) fl (leave r1) m1
(* C: the loop variable lives in its own scope around the block of the body *)
| x_for r m ds x lo c y st body v w fl r1 m1 : sl_py S = false -> look r x = None -> arrays x = None -> eval r m lo = Some v -> sl_conv S "int" v = Some w ->
    loop ([(x, ("int", w))] :: r) m c y st body fl r1 m1 -> exec1 r m (SForC ds x lo c y st body) fl (tl r1) m1
(* Python: for x in range(lo, hi, step) *)
| x_for_in r m x lo hi st body u v w a b c fl r1 m1 : sl_py S = true -> free r "range" = true -> arrays x = None ->
    eval r m lo = Some u -> eval r m hi = Some v -> eval r m st = Some w -> to_idx S u = Some a -> to_idx S v = Some b -> to_idx S w = Some c -> 0 < c ->
    each r m x (range a b c) body fl r1 m1 -> exec1 r m (SForIn x (SCall (SVar "range") [lo; hi; st]) body) fl r1 m1
(* while (c) { body; y += st } *)
with loop : env -> mem -> sx -> string -> sx -> list stmt -> flow -> env -> mem -> Prop :=
| l_stop r m c y st body v : eval r m c = Some v -> truth S v = false -> loop r m c y st body Norm r m
| l_ret r m c y st body v r1 m1 : eval r m c = Some v -> truth S v = true -> exec ([] :: r) m body Ret r1 m1 -> loop r m c y st body Ret (tl r1) m1
| l_next r m c y st body v r1 m1 w r2 fl r3 m3 : eval r m c = Some v -> truth S v = true -> exec ([] :: r) m body Norm r1 m1 ->
    eval (tl r1) m1 (SBin "+" (SVar y) st) = Some w -> assign (tl r1) y w = Some r2 -> loop r2 m1 c y st body fl r3 m3 -> loop r m c y st body fl r3 m3
with each : env -> mem -> string -> list Z -> list stmt -> flow -> env -> mem -> Prop :=
| e_nil r m x body : each r m x [] body Norm r m
| e_ret r m x z zs body r1 r2 m2 : assign r x (lit S z) = Some r1 -> exec r1 m body Ret r2 m2 -> each r m x (z :: zs) body Ret r2 m2
| e_next r m x z zs body r1 r2 m2 fl r3 m3 : assign r x (lit S z) = Some r1 -> exec r1 m body Norm r2 m2 -> each r2 m2 x zs body fl r3 m3 ->
    each r m x (z :: zs) body fl r3 m3.
End Sem.

(* calling a function: parameters are arrays at the given locations *)
Fixpoint bind_arrays (ps : list (string * string)) (ls : list nat) (x : string) : option (string * nat) :=
  match ps, ls with
  | (ty, y) :: ps', l :: ls' => if String.eqb y x then Some (ty, l) else bind_arrays ps' ls' x
  | _, _ => None
  end.
Definition no_coord (_ _ : string) : option Z := None.
(* calling the function of a source file with one array per parameter turns memory m into m' *)
Definition calls (S : slang) (coord : string -> string -> option Z) (p : source) (ls : list nat) (m m' : mem S) : Prop :=
  length ls = length (s_params p) /\ exists fl r, exec S (bind_arrays (s_params p) ls) coord [[]] m (s_body p) fl r m'.

(* an execution is determined by the program and the memory *)
Scheme exec_ind' := Induction for exec Sort Prop with exec1_ind' := Induction for exec1 Sort Prop
  with loop_ind' := Induction for loop Sort Prop with each_ind' := Induction for each Sort Prop.
Combined Scheme exec_mut from exec_ind', exec1_ind', loop_ind', each_ind'.
