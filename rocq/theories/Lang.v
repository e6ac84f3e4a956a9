(* Operators (ops.py) and the arithmetic a kernel language provides. *)
From Verif Require Import Base.

(* ops.py:7-12 *)
Inductive uop := UNeg | USin | UCos | UExp | ULog | USqrt.
(* ops.py:16-29 *)
Inductive bop := BAdd | BSub | BMul | BTruediv | BFloordiv | BMod | BPow
               | BAnd | BOr | BEq | BGt | BGe | BLt | BLe.

(* An arithmetic: any carrier, number literals, partial unary and binary operations (None = the
   operation raises), and the conversion applied when a value is stored in a variable or buffer
   of a given dtype (identity in Python, a typed conversion in C).  Nothing is assumed about it,
   so theorems over every valg cover Python ints, floats, C's typed numbers and the reals. *)
Record valg := mkValg {
  val : Type;
  of_num : num -> val;
  un : uop -> val -> option val;
  bin : bop -> val -> val -> option val;
  coerce : dtype -> val -> val
}.
Definition lit (A : valg) (z : Z) : val A := of_num A (NInt z).

(* A kernel language: an arithmetic plus the use of values as list indices and conditions.
   [reps v z] : v is the language's representation of the integer z.
   [ibound] : exclusive bound under which integer arithmetic is exact (None = unbounded). *)
Record lang := mkLang {
  alg :> valg;
  to_idx : val alg -> option Z;
  truth : val alg -> bool;
  reps : val alg -> Z -> Prop;
  ibound : option Z
}.

Definition inB (L : lang) (z : Z) : Prop :=
  0 <= z /\ match ibound L with None => True | Some b => z < b end.

Definition b2z (b : bool) : Z := if b then 1 else 0.

(* What a language must guarantee about small non-negative integers for generated index
   arithmetic to be meaningful.  Proved for the Python and C instances in LangInst.v. *)
Record lang_ok (L : lang) : Prop := {
  ok_lit : forall z, inB L z -> reps L (lit L z) z;
  ok_idx : forall v z, reps L v z -> inB L z -> to_idx L v = Some z;
  ok_truth : forall v z, reps L v z -> inB L z -> truth L v = negb (z =? 0);
  ok_coerce : forall v z, reps L v z -> inB L z -> reps L (coerce L Int64 v) z;
  ok_bound : inB L 1;
  ok_add : forall a b x y, reps L a x -> reps L b y -> inB L x -> inB L y -> inB L (x + y) ->
    exists v, bin L BAdd a b = Some v /\ reps L v (x + y);
  ok_sub : forall a b x y, reps L a x -> reps L b y -> inB L x -> inB L y -> inB L (x - y) ->
    exists v, bin L BSub a b = Some v /\ reps L v (x - y);
  ok_mul : forall a b x y, reps L a x -> reps L b y -> inB L x -> inB L y -> inB L (x * y) ->
    exists v, bin L BMul a b = Some v /\ reps L v (x * y);
  ok_floordiv : forall a b x y, reps L a x -> reps L b y -> inB L x -> inB L y -> 0 < y ->
    exists v, bin L BFloordiv a b = Some v /\ reps L v (x / y);
  ok_mod : forall a b x y, reps L a x -> reps L b y -> inB L x -> inB L y -> 0 < y ->
    exists v, bin L BMod a b = Some v /\ reps L v (x mod y);
  ok_eq : forall a b x y, reps L a x -> reps L b y -> inB L x -> inB L y ->
    exists v, bin L BEq a b = Some v /\ reps L v (b2z (x =? y));
  ok_ge : forall a b x y, reps L a x -> reps L b y -> inB L x -> inB L y ->
    exists v, bin L BGe a b = Some v /\ reps L v (b2z (x >=? y));
  ok_lt : forall a b x y, reps L a x -> reps L b y -> inB L x -> inB L y ->
    exists v, bin L BLt a b = Some v /\ reps L v (b2z (x <? y));
  ok_le : forall a b x y, reps L a x -> reps L b y -> inB L x -> inB L y ->
    exists v, bin L BLe a b = Some v /\ reps L v (b2z (x <=? y));
  ok_and : forall a b x y, reps L a (b2z x) -> reps L b (b2z y) ->
    exists v, bin L BAnd a b = Some v /\ reps L v (b2z (x && y));
  ok_idem : forall dt v, coerce L dt (coerce L dt v) = coerce L dt v
}.
