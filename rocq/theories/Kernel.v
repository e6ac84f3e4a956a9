(* The kernel language: what codegen.py emits, and how it executes.

   Text is modelled as syntax trees (the printed form is treated in Text.v).  Execution of a
   kernel is a program over memory actions ([prog]): a sequential machine interprets it in order
   ([run]); threads of a parallel loop or a GPU launch interleave their actions (Parallel.v). *)
From Verif Require Import Base Lang.

(* Names in a kernel.  NLoop red pos path: loop variable number pos (a reduction index when red),
   with the __o (true) / __i (false) suffixes added by splits, outermost split first. *)
Inductive name :=
| NOut
| NArg (isbuf : bool) (i : nat)
| NTmp (k : nat)
| NAcc
| NLoop (red : bool) (pos : nat) (path : list bool).

Fixpoint path_eqb (a b : list bool) : bool :=
  match a, b with [], [] => true | x :: a', y :: b' => Bool.eqb x y && path_eqb a' b' | _, _ => false end.
Definition name_eqb (a b : name) : bool :=
  match a, b with
  | NOut, NOut | NAcc, NAcc => true
  | NArg x i, NArg y j => Bool.eqb x y && Nat.eqb i j
  | NTmp i, NTmp j => Nat.eqb i j
  | NLoop x i p, NLoop y j q => Bool.eqb x y && Nat.eqb i j && path_eqb p q
  | _, _ => false
  end.
Lemma path_eqb_eq a b : path_eqb a b = true <-> a = b.
Proof.
  revert b; induction a as [|x a IH]; intros [|y b]; cbn; try (split; congruence).
  rewrite andb_true_iff, Bool.eqb_true_iff, IH. split; [intros [-> ->]; reflexivity|intros H; injection H; auto].
Qed.
Lemma name_eqb_eq a b : name_eqb a b = true <-> a = b.
Proof.
  destruct a, b; cbn; try (split; congruence);
  rewrite ?andb_true_iff, ?Bool.eqb_true_iff, ?Nat.eqb_eq, ?path_eqb_eq;
  (split; [intuition congruence|intros H; injection H; intuition congruence]).
Qed.
Lemma name_eqb_refl a : name_eqb a a = true.
Proof. now apply name_eqb_eq. Qed.
Lemma name_eq_dec (a b : name) : {a = b} + {a <> b}.
Proof. destruct (name_eqb a b) eqn:E; [left; now apply name_eqb_eq|right; intros H; apply name_eqb_eq in H; congruence]. Qed.

(* value expressions: identifiers, integer literals, "0.0", operators and calls, a[idx];
   langspec.py:116-144, backend_python.py:24-46 *)
Inductive kx :=
| KName (n : name)
| KInt (z : Z)
| KFlt0
| KBin (b : bop) (l r : kx)
| KUn (u : uop) (x : kx)
| KIdx (a : name) (i : kx).

(* how a loop is annotated; sched.py:34-51 *)
Inductive axis := AX | AY | AZ.
Inductive lexec := XSeq | XPar | XVec | XUnroll (f : Z) | XBlock (ax : axis) | XThread (ax : axis).

(* statements, in sequence form: each constructor carries what follows *)
Inductive code :=
| CNil
| CDecl (dt : dtype) (n : name) (e : kx) (k : code)          (* l.init *)
| CAssign (n : name) (e : kx) (k : code)                     (* l.assign, variable *)
| CStore (a : name) (i e : kx) (k : code)                    (* l.assign, a[i] *)
| CFor (n : name) (ext : Z) (x : lexec) (body k : code)      (* for n in 0..ext-1 *)
| CIf (c : kx) (t f : code) (k : code)
| CRet
| CGpu (n : name) (block : bool) (ax : axis) (k : code).     (* int64 n = blockIdx.ax / threadIdx.ax *)

Fixpoint capp (a b : code) : code :=
  match a with
  | CNil => b
  | CDecl dt n e k => CDecl dt n e (capp k b)
  | CAssign n e k => CAssign n e (capp k b)
  | CStore x i e k => CStore x i e (capp k b)
  | CFor n ext x body k => CFor n ext x body (capp k b)
  | CIf c t f k => CIf c t f (capp k b)
  | CRet => CRet
  | CGpu n bl ax k => CGpu n bl ax (capp k b)
  end.

(* parameters (first is the output) with element types, and the body *)
Record kernel := mkK { k_params : list (name * dtype); k_body : code }.

(* ------------------------------------------------------------------ execution *)
Section Exec.
Context (L : lang).
Notation V := (val L).
(* scoped = true: C, every block opens a scope and redeclaring a name of the same scope is an
   error; scoped = false: Python, one function scope, assignment binds. *)
Context (scoped : bool).
(* coordinates of the GPU thread *)
Context (gp : bool -> axis -> Z).
(* element type of each parameter *)
Context (pty : name -> dtype).

Inductive prog (A : Type) : Type :=
| PRet (a : A)
| PExc                                            (* an exception / undefined arithmetic *)
| PFlt                                            (* compile error, unbound name, bad index *)
| PRd (n : name) (i : Z) (k : V -> prog A)        (* read n[i] *)
| PWr (n : name) (i : Z) (v : V) (k : prog A).    (* n[i] = v *)
Arguments PRet {A} a.
Arguments PExc {A}.
Arguments PFlt {A}.
Arguments PRd {A} n i k.
Arguments PWr {A} n i v k.

Fixpoint pbind {A B} (m : prog A) (f : A -> prog B) : prog B :=
  match m with
  | PRet a => f a
  | PExc => PExc
  | PFlt => PFlt
  | PRd n i k => PRd n i (fun v => pbind (k v) f)
  | PWr n i v k => PWr n i v (pbind k f)
  end.
Definition p_exc {A} (o : option A) : prog A := match o with Some a => PRet a | None => PExc end.
Definition p_flt {A} (o : option A) : prog A := match o with Some a => PRet a | None => PFlt end.

(* environment: a stack of scopes *)
Definition frame := list (name * (dtype * V)).
Definition env := list frame.
Fixpoint flook (f : frame) (n : name) : option (dtype * V) :=
  match f with [] => None | (m, x) :: r => if name_eqb m n then Some x else flook r n end.
Fixpoint lk (r : env) (n : name) : option (dtype * V) :=
  match r with [] => None | f :: r' => match flook f n with Some x => Some x | None => lk r' n end end.
Fixpoint fset_ (f : frame) (n : name) (x : dtype * V) : frame :=
  match f with [] => [] | (m, y) :: r => if name_eqb m n then (m, x) :: r else (m, y) :: fset_ r n x end.
(* update the innermost binding, keeping its declared type *)
Fixpoint upd_env (r : env) (n : name) (v : V) : option env :=
  match r with
  | [] => None
  | f :: r' => match flook f n with
               | Some (dt, _) => Some (fset_ f n (dt, coerce L dt v) :: r')
               | None => option_map (cons f) (upd_env r' n v)
               end
  end.
(* declaration; Python: plain assignment *)
Definition declare (r : env) (n : name) (dt : dtype) (v : V) : option env :=
  match r with
  | [] => None
  | f :: r' => if scoped then match flook f n with Some _ => None | None => Some (((n, (dt, coerce L dt v)) :: f) :: r') end
               else Some (((n, (dt, coerce L dt v)) :: f) :: r')
  end.
Definition enter (r : env) : env := if scoped then [] :: r else r.
Definition leave (r : env) : env := if scoped then tl r else r.

Fixpoint eval (r : env) (e : kx) : prog V :=
  match e with
  | KName n => p_flt (option_map snd (lk r n))
  | KInt z => PRet (lit L z)
  | KFlt0 => PRet (of_num L (NFlt 0 0))
  | KBin b x y => pbind (eval r x) (fun u => pbind (eval r y) (fun w => p_exc (bin L b u w)))
  | KUn u x => pbind (eval r x) (fun v => p_exc (un L u v))
  | KIdx a i => pbind (eval r i) (fun v => pbind (p_flt (to_idx L v)) (fun z => PRd a z PRet))
  end.

Inductive flow := FNorm | FReturn.
(* the loop variable is an int initialised to the counter; C: visible in the body only *)
Definition bind_loop (r : env) (n : name) (z : Z) : env :=
  if scoped then [(n, (Int32, lit L z))] :: r
  else match r with [] => [] | f :: r' => ((n, (Int32, lit L z)) :: f) :: r' end.
Fixpoint for_loop (body : env -> prog (flow * env)) (n : name) (zs : list Z) (r : env) : prog (flow * env) :=
  match zs with
  | [] => PRet (FNorm, r)
  | z :: zs' => pbind (body (bind_loop r n z)) (fun '(fl, r1) =>
                  match fl with FNorm => for_loop body n zs' (leave r1) | FReturn => PRet (FReturn, leave r1) end)
  end.
Fixpoint exec (c : code) (r : env) : prog (flow * env) :=
  match c with
  | CNil => PRet (FNorm, r)
  | CDecl dt n e k => pbind (eval r e) (fun v => pbind (p_flt (declare r n dt v)) (exec k))
  | CAssign n e k => pbind (eval r e) (fun v => pbind (p_flt (upd_env r n v)) (exec k))
  | CStore a i e k => pbind (eval r e) (fun v => pbind (eval r i) (fun w => pbind (p_flt (to_idx L w)) (fun z =>
                        PWr a z (coerce L (pty a) v) (exec k r))))
  | CFor n ext _ body k => pbind (for_loop (exec body) n (zrange ext) r) (fun '(fl, r1) =>
                             match fl with FNorm => exec k r1 | FReturn => PRet (FReturn, r1) end)
  | CIf c t f k => pbind (eval r c) (fun v =>
                     pbind (if truth L v then exec t (enter r) else exec f (enter r)) (fun '(fl, r1) =>
                       match fl with FNorm => exec k (leave r1) | FReturn => PRet (FReturn, leave r1) end))
  | CRet => PRet (FReturn, r)
  | CGpu n bl ax k => pbind (p_flt (declare r n Int64 (lit L (gp bl ax)))) (exec k)
  end.

(* ------------------------------------------------------------------ the sequential machine *)
(* Memory: arrays at locations; [loc] says which location a kernel parameter is bound to (two
   parameters may be bound to the same location). *)
Definition store := nat -> option (list V).
Definition sset (m : store) (b : nat) (l : list V) : store := fun x => if Nat.eqb b x then Some l else m x.
Inductive outc (A : Type) := OkO (a : A) | RaiseO | FaultO.
Arguments OkO {A} a.
Arguments RaiseO {A}.
Arguments FaultO {A}.
Fixpoint run {A} (loc : name -> option nat) (p : prog A) (m : store) : store * outc A :=
  match p with
  | PRet a => (m, OkO a)
  | PExc => (m, RaiseO)
  | PFlt => (m, FaultO)
  | PRd n i k => match loc n with
                 | Some b => match m b with
                             | Some l => match znth l i with Some v => run loc (k v) m | None => (m, FaultO) end
                             | None => (m, FaultO)
                             end
                 | None => (m, FaultO)
                 end
  | PWr n i v k => match loc n with
                   | Some b => match m b with
                               | Some l => match zupd l i v with Some l' => run loc k (sset m b l') | None => (m, FaultO) end
                               | None => (m, FaultO)
                               end
                   | None => (m, FaultO)
                   end
  end.
End Exec.
Arguments PRet {L A} a.
Arguments PExc {L A}.
Arguments PFlt {L A}.
Arguments PRd {L A} n i k.
Arguments PWr {L A} n i v k.
Arguments pbind {L A B} m f.
Arguments p_exc {L A} o.
Arguments p_flt {L A} o.
Arguments OkO {A} a.
Arguments RaiseO {A}.
Arguments FaultO {A}.
Arguments run {L A} loc p m.
Arguments sset {L} m b l.
