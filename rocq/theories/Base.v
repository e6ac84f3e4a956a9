(* Shared vocabulary: results, integer lists, Python-style list access. *)
From Coq Require Export List ZArith Lia Bool Arith Permutation Sorted.
Export ListNotations.
Open Scope Z_scope.

(* ------------------------------------------------------------------ *)
(* Outcome of computing one element or running one piece of a kernel.
   Raise: the element operation raised (ZeroDivisionError, math domain error,
          OverflowError): a legitimate Python exception of the user's data.
   Fault: a defect of the generated program: index out of [0,len), unbound
          name, wrong argument...                                       *)
Inductive res (A : Type) : Type :=
| Ok (a : A)
| Raise
| Fault.
Arguments Ok {A} a.
Arguments Raise {A}.
Arguments Fault {A}.

Definition rbind {A B} (x : res A) (f : A -> res B) : res B :=
  match x with Ok a => f a | Raise => Raise | Fault => Fault end.
Notation "x <- e ;; f" := (rbind e (fun x => f))
  (at level 61, e at next level, right associativity).
Notation "' p <- e ;; f" := (rbind e (fun p => f))
  (at level 61, p pattern, e at next level, right associativity).

Definition of_opt {A} (o : option A) : res A :=      (* an operation that may raise *)
  match o with Some a => Ok a | None => Raise end.
Definition or_fault {A} (o : option A) : res A :=    (* a lookup that must succeed *)
  match o with Some a => Ok a | None => Fault end.

Fixpoint mapM {A B} (f : A -> res B) (l : list A) : res (list B) :=
  match l with
  | [] => Ok []
  | x :: xs => y <- f x ;; ys <- mapM f xs ;; Ok (y :: ys)
  end.

(* Python exceptions raised by API calls. *)
Inductive exn := RuntimeErr | ValueErr | TypeErr | IndexErr | ZeroDivErr | AttrErr | KeyErr | InternalErr.
Inductive outcome (A : Type) : Type :=
| Done (a : A)
| Throw (e : exn).
Arguments Done {A} a.
Arguments Throw {A} e.
Definition obind {A B} (x : outcome A) (f : A -> outcome B) : outcome B :=
  match x with Done a => f a | Throw e => Throw e end.
Notation "x <~ e ;; f" := (obind e (fun x => f))
  (at level 61, e at next level, right associativity).
Notation "' p <~ e ;; f" := (obind e (fun p => f))
  (at level 61, p pattern, e at next level, right associativity).

(* ------------------------------------------------------------------ *)
(* Integer lists *)

(* math.prod *)
Definition zprod (l : list Z) : Z := fold_right Z.mul 1 l.

(* [0; 1; ...; n-1] as integers; empty when n <= 0 (Python's range(n)) *)
Definition zrange (n : Z) : list Z := map Z.of_nat (seq 0 (Z.to_nat n)).

(* strict list access: negative or too large gives None *)
Definition znth {A} (l : list A) (z : Z) : option A :=
  if z <? 0 then None else nth_error l (Z.to_nat z).

(* Python list access l[i]: i < 0 counts from the end *)
Definition pynth {A} (l : list A) (i : Z) : option A :=
  if i <? 0 then znth l (i + Z.of_nat (length l)) else znth l i.

(* replace position k; unchanged when k is out of range *)
Fixpoint upd {A} (l : list A) (k : nat) (v : A) : list A :=
  match l, k with
  | [], _ => []
  | _ :: xs, O => v :: xs
  | x :: xs, S k' => x :: upd xs k' v
  end.

Definition zupd {A} (l : list A) (z : Z) (v : A) : option (list A) :=
  if (0 <=? z) && (z <? Z.of_nat (length l)) then Some (upd l (Z.to_nat z) v) else None.

Fixpoint zsum (l : list Z) : Z := match l with [] => 0 | x :: r => x + zsum r end.

(* sum of products, stopping at the shorter list like Python's zip *)
Fixpoint dot (a b : list Z) : Z :=
  match a, b with
  | x :: xs, y :: ys => x * y + dot xs ys
  | _, _ => 0
  end.

Definition zmem (x : Z) (l : list Z) : bool := existsb (Z.eqb x) l.

(* sorted() on integers *)
Fixpoint zinsert (x : Z) (l : list Z) : list Z :=
  match l with
  | [] => [x]
  | y :: r => if x <=? y then x :: l else y :: zinsert x r
  end.
Definition zsort (l : list Z) : list Z := fold_right zinsert [] l.

Fixpoint list_zeqb (a b : list Z) : bool :=
  match a, b with
  | [], [] => true
  | x :: xs, y :: ys => (x =? y) && list_zeqb xs ys
  | _, _ => false
  end.

(* multi-indices *)
Definition in_range (shape idx : list Z) : Prop := Forall2 (fun i d => 0 <= i < d) idx shape.
Fixpoint in_rangeb (shape idx : list Z) : bool :=
  match shape, idx with
  | [], [] => true
  | d :: s, i :: r => (0 <=? i) && (i <? d) && in_rangeb s r
  | _, _ => false
  end.

(* every multi-index of a shape, in row-major order (last axis fastest) *)
Fixpoint all_idx (shape : list Z) : list (list Z) :=
  match shape with
  | [] => [[]]
  | d :: s => flat_map (fun i => map (cons i) (all_idx s)) (zrange d)
  end.

(* nested lists, as given to array() and returned by tolist() *)
Inductive nest (A : Type) : Type :=
| Leaf (a : A)
| Nest (l : list (nest A)).
Arguments Leaf {A} a.
Arguments Nest {A} l.

(* element types; dtype.py:3-24 *)
Inductive dtype := Int32 | Int64 | Float32 | Float64.
Definition dtype_eqb (a b : dtype) : bool :=
  match a, b with
  | Int32, Int32 | Int64, Int64 | Float32, Float32 | Float64, Float64 => true
  | _, _ => false
  end.
(* dtype.py:7 *)
Definition is_int (d : dtype) : bool := match d with Int32 | Int64 => true | _ => false end.

(* Python number literals: an int, or a finite float m * 2^e (every finite
   double is of this form; inf and nan are not modelled as literals). *)
Inductive num := NInt (z : Z) | NFlt (m e : Z).
