(* Specification for C49: exact results with error bounds.
   [ebound c k] is an element arithmetic that carries, beside the exact real result of every operation, a bound on the
   error of the double that IEEE arithmetic computes for it, by the standard rules (u = 2^-53, eta = 2^-1075):
   one rounding of r costs at most u |r| + eta (u |r| for sums and differences), operands contribute what their own
   errors can change.  Integers are exact.  An operation has no value (None) where nothing is claimed: possible
   overflow, possible division by zero, sqrt or log of a possibly non-positive number, C's integer division and powers of
   integers, powers of a possibly non-positive double unless the exponent is exactly a natural number.
   c: false = Python, true = C (typed variables, 64-bit integers).
   k: None = nothing is known about sin, cos, exp, log, pow; Some k = the math library errs by at most k (u |r| + eta). *)
From Coq Require Import Reals ZArith.
From Flocq Require Import Core.
From Verif Require Import Base Lang LangInst RealAlg IEEE.
Local Open Scope R_scope.

Inductive approx := VI (z : Z)          (* the integer z *)
               | VF (x e : R)        (* a double within e of x *)
               | VN.                 (* no claim *)

(* the double nearest to x *)
Definition nearest (x : R) : approx := if Rlt_dec (Rabs (rnd x)) top then VF x (Rabs (rnd x - x)) else VN.
Definition e_num (n : num) : approx := match n with NInt z => VI z | NFlt _ _ => nearest (r_num n) end.
Definition as_float (v : approx) : approx := match v with VI z => nearest (IZR z) | _ => v end.

(* the result of an operation whose exact value on the given operands is within e of x, rounded once, with cost t *)
Definition rounded (t x e : R) : option approx := if Rle_dec (Rabs x + e) maxf then Some (VF x (e + uu * (Rabs x + e) + t)) else None.
(* the same through a library function with k times the error *)
Definition library (k : option R) (x e : R) : option approx :=
  match k with
  | None => None
  | Some k => if Rle_dec (Rabs x + e) maxf then Some (VF x (e + k * (uu * (Rabs x + e) + eta))) else None
  end.
Definition e_int (c : bool) (z : Z) : option approx := if c && negb (c_fits true z) then None else Some (VI z).

Definition e_un (c : bool) (k : option R) (u : uop) (v : approx) : option approx :=
  match u, v with
  | UNeg, VI z => e_int c (- z)
  | UNeg, VF x e => Some (VF (- x) e)
  | _, _ =>
      match as_float v with
      | VF x e =>
          match u with
          | USqrt => if Rlt_dec (Rmax 0 e) x then rounded eta (sqrt x) (e / sqrt x) else None
          | USin => library k (sin x) e
          | UCos => library k (cos x) e
          | UExp => library k (exp x) (exp x * (exp e - 1))
          | ULog => if Rlt_dec (Rmax 0 e) x then library k (ln x) (e / (x - e)) else None
          | UNeg => None
          end
      | _ => None
      end
  end.
(* x ** y, x within e, y within d: positive x, or exactly a natural number as exponent *)
Definition e_pow (k : option R) (x e y d : R) : option approx :=
  if Rlt_dec (Rmax 0 e) x then library k (Rpower x y) (Rpower x y * (exp (Rabs y * (e / (x - e)) + d * (Rabs (ln x) + e / (x - e))) - 1))
  else if Req_EM_T d 0 then
    match r_int y with
    | Some n => if (n <? 0)%Z then None else library k (powerRZ x n) ((Rabs x + e) ^ Z.to_nat n - Rabs x ^ Z.to_nat n)
    | None => None
    end
  else None.
Definition e_bin (c : bool) (k : option R) (b : bop) (v w : approx) : option approx :=
  match b, v, w with
  | BAdd, VI x, VI y => e_int c (x + y)
  | BSub, VI x, VI y => e_int c (x - y)
  | BMul, VI x, VI y => e_int c (x * y)
  | BTruediv, VI x, VI y => if c || (y =? 0)%Z then None else match nearest (IZR x / IZR y) with VN => None | q => Some q end
  | BPow, VI x, VI y => if c || (y <? 0)%Z then None else Some (VI (x ^ y))
  | _, _, _ =>
      match as_float v, as_float w with
      | VF x e, VF y d =>
          match b with
          | BAdd => rounded 0 (x + y) (e + d)
          | BSub => rounded 0 (x - y) (e + d)
          | BMul => rounded eta (x * y) (Rabs x * d + Rabs y * e + e * d)
          | BTruediv => if Rlt_dec (Rmax 0 d) (Rabs y) then rounded eta (x / y) ((e * Rabs y + Rabs x * d) / (Rabs y * (Rabs y - d))) else None
          | BPow => e_pow k x e y d
          | _ => None
          end
      | _, _ => None
      end
  end.
Definition e_coerce (c : bool) (dt : dtype) (v : approx) : approx :=
  if c then
    match dt with
    | Int32 | Int64 => match v with VI z => if c_fits true z then v else VN | _ => VN end
    | Float32 | Float64 => as_float v
    end
  else v.
Definition ebound (c : bool) (k : option R) : valg := mkValg approx e_num (e_un c k) (e_bin c k) (e_coerce c).

(* what the specification says about a Python value, a C value, and the exact real value *)
Definition shows_py (v : approx) (w : pyval) : Prop :=
  match v with VI z => w = PI z | VF x e => exists f, w = PF f /\ fin f /\ Rabs (fr f - x) <= e | VN => True end.
Definition shows_c (v : approx) (w : cval) : Prop :=
  match v with VI z => w = CI64 z /\ c_fits true z = true | VF x e => exists f, w = CF f /\ fin f /\ Rabs (fr f - x) <= e | VN => True end.
Definition exactly (v : approx) (r : R) : Prop := match v with VI z => r = IZR z | VF x _ => r = x | VN => True end.

(* the assumption on the math library *)
Definition libm_within (lm : libm) (k : option R) : Prop := forall q, k = Some q ->
  (forall u f r, fin f -> u <> UNeg -> u <> USqrt -> r_un u (fr f) = Some r -> Rabs r <= maxf ->
    exists f', lm_un lm u f = Some f' /\ fin f' /\ Rabs (fr f' - r) <= q * (uu * Rabs r + eta)) /\
  (forall f g r, fin f -> fin g -> r_pow (fr f) (fr g) = Some r -> Rabs r <= maxf ->
    exists f', lm_pow lm f g = Some f' /\ fin f' /\ Rabs (fr f' - r) <= q * (uu * Rabs r + eta)).
