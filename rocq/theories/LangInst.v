(* The two kernel languages: Python (backend_python.py) and C (langspec.py CCompatibleLangSpec).
   Doubles are IEEE binary64 (Coq.Floats.SpecFloat, pure Gallina, no axioms).  The transcendental
   functions are an arbitrary oracle [libm]: nothing is assumed about them. *)
From Verif Require Import Base Lang.
From Coq Require Import ZArith Floats.SpecFloat ZifyBool.

Definition sf := spec_float.
Definition f64_of (m e : Z) : sf := binary_normalize 53 1024 m e false.
Definition f64_add := SFadd 53 1024.
Definition f64_sub := SFsub 53 1024.
Definition f64_mul := SFmul 53 1024.
Definition f64_div := SFdiv 53 1024.
Definition f64_sqrt := SFsqrt 53 1024.
Definition f64_zero (f : sf) : bool := match f with S754_zero _ => true | _ => false end.
Definition f64_inf (f : sf) : bool := match f with S754_infinity _ => true | _ => false end.
Definition f64_neg (f : sf) : bool := match f with S754_finite true _ _ | S754_infinity true => true | _ => false end.
(* an integer as an exact (unnormalised) binary float *)
Definition raw (z : Z) : sf :=
  match z with Z0 => S754_zero false | Zpos p => S754_finite false p 0 | Zneg p => S754_finite true p 0 end.
(* truncation toward zero *)
Definition f64_trunc (f : sf) : option Z :=
  match f with
  | S754_zero _ => Some 0
  | S754_finite s m e =>
      let a := if 0 <=? e then Zpos m * 2 ^ e else Zpos m / 2 ^ (- e) in
      Some (if s then - a else a)
  | _ => None
  end.

(* sin, cos, exp, log and pow of the platform's math library; None = raises *)
Record libm := mkLibm { lm_un : uop -> sf -> option sf; lm_pow : sf -> sf -> option sf }.

(* ------------------------------------------------------------------ Python *)
Inductive pyval := PI (z : Z) | PF (f : sf).

(* int -> float, OverflowError when too large *)
Definition py_float (v : pyval) : option sf :=
  match v with
  | PF f => Some f
  | PI z => let f := f64_of z 0 in if f64_inf f then None else Some f
  end.
Definition pbool (b : bool) : option pyval := Some (PI (b2z b)).
Definition py_true (v : pyval) : bool := match v with PI z => negb (z =? 0) | PF f => negb (f64_zero f) end.
Definition fbin (f : sf -> sf -> option sf) (a b : pyval) : option pyval :=
  match py_float a, py_float b with
  | Some x, Some y => match f x y with Some r => Some (PF r) | None => None end
  | _, _ => None
  end.
Definition cmpf (f : sf -> sf -> bool) (a b : pyval) : option pyval :=
  match py_float a, py_float b with Some x, Some y => pbool (f x y) | _, _ => None end.

(* backend_python.py:27-32.  math.* on an int converts it first. *)
Definition py_un (L : libm) (u : uop) (v : pyval) : option pyval :=
  match u with
  | UNeg => Some (match v with PI z => PI (- z) | PF f => PF (SFopp f) end)
  | USqrt => match py_float v with
             | Some f => if f64_neg f then None else Some (PF (f64_sqrt f))
             | None => None
             end
  | _ => match py_float v with Some f => option_map PF (lm_un L u f) | None => None end
  end.

(* backend_python.py:33-46 *)
Definition py_bin (L : libm) (b : bop) (x y : pyval) : option pyval :=
  match b, x, y with
  | BAdd, PI a, PI c => Some (PI (a + c))
  | BSub, PI a, PI c => Some (PI (a - c))
  | BMul, PI a, PI c => Some (PI (a * c))
  | BTruediv, PI a, PI c =>
      if c =? 0 then None else let r := f64_div (raw a) (raw c) in if f64_inf r then None else Some (PF r)
  | BFloordiv, PI a, PI c => if c =? 0 then None else Some (PI (a / c))
  | BMod, PI a, PI c => if c =? 0 then None else Some (PI (a mod c))
  | BPow, PI a, PI c => if 0 <=? c then Some (PI (a ^ c)) else if a =? 0 then None else fbin (lm_pow L) x y
  | BAdd, _, _ => fbin (fun a c => Some (f64_add a c)) x y
  | BSub, _, _ => fbin (fun a c => Some (f64_sub a c)) x y
  | BMul, _, _ => fbin (fun a c => Some (f64_mul a c)) x y
  | BTruediv, _, _ => fbin (fun a c => if f64_zero c then None else Some (f64_div a c)) x y
  | BPow, _, _ => fbin (lm_pow L) x y
  | BFloordiv, _, _ | BMod, _, _ => None   (* float // and %: never generated (indices are integers) *)
  | BAnd, _, _ => Some (if py_true x then y else x)
  | BOr, _, _ => Some (if py_true x then x else y)
  | BEq, PI a, PI c => pbool (a =? c)
  | BGt, PI a, PI c => pbool (a >? c)
  | BGe, PI a, PI c => pbool (a >=? c)
  | BLt, PI a, PI c => pbool (a <? c)
  | BLe, PI a, PI c => pbool (a <=? c)
  | BEq, _, _ => cmpf SFeqb x y
  | BGt, _, _ => cmpf (fun a c => SFltb c a) x y
  | BGe, _, _ => cmpf (fun a c => SFleb c a) x y
  | BLt, _, _ => cmpf SFltb x y
  | BLe, _, _ => cmpf SFleb x y
  end.

Definition py_num (n : num) : pyval := match n with NInt z => PI z | NFlt m e => PF (f64_of m e) end.
(* Python variables and list slots hold any object: no conversion *)
Definition py_alg (L : libm) : valg := mkValg pyval py_num (py_un L) (py_bin L) (fun _ v => v).
Definition py_idx (v : pyval) : option Z := match v with PI z => Some z | PF _ => None end.
Definition py_lang (L : libm) : lang := mkLang (py_alg L) py_idx py_true (fun v z => v = PI z) None.

(* ------------------------------------------------------------------ C *)
(* int is 32 bits, int64_t is 64 bits; a signed overflow, a division by zero and the like are
   undefined behaviour, modelled as "no value" (None). *)
Inductive cval := CI32 (z : Z) | CI64 (z : Z) | CF (f : sf).

Definition c_fits (w : bool) (z : Z) : bool :=    (* w = 64-bit *)
  if w then (- 2 ^ 63 <=? z) && (z <? 2 ^ 63) else (- 2 ^ 31 <=? z) && (z <? 2 ^ 31).
Definition c_int (w : bool) (z : Z) : option cval :=
  if c_fits w z then Some (if w then CI64 z else CI32 z) else None.
Definition c_float (v : cval) : sf := match v with CI32 z | CI64 z => f64_of z 0 | CF f => f end.
Definition c_bool (b : bool) : option cval := Some (CI32 (b2z b)).
Definition c_true (v : cval) : bool := match v with CI32 z | CI64 z => negb (z =? 0) | CF f => negb (f64_zero f) end.
(* both operands integers: width of the wider one, and the two values *)
Definition c_ints (x y : cval) : option (bool * Z * Z) :=
  match x, y with
  | CI32 a, CI32 c => Some (false, a, c)
  | CI32 a, CI64 c | CI64 a, CI32 c | CI64 a, CI64 c => Some (true, a, c)
  | _, _ => None
  end.

(* langspec.py:124-129 *)
Definition c_un (L : libm) (u : uop) (v : cval) : option cval :=
  match u with
  | UNeg => match v with CI32 z => c_int false (- z) | CI64 z => c_int true (- z) | CF f => Some (CF (SFopp f)) end
  | USqrt => Some (CF (f64_sqrt (c_float v)))
  | _ => option_map CF (lm_un L u (c_float v))
  end.
(* langspec.py:130-143 *)
Definition c_bin (L : libm) (b : bop) (x y : cval) : option cval :=
  match b with
  | BAdd => match c_ints x y with Some (w, a, c) => c_int w (a + c) | None => Some (CF (f64_add (c_float x) (c_float y))) end
  | BSub => match c_ints x y with Some (w, a, c) => c_int w (a - c) | None => Some (CF (f64_sub (c_float x) (c_float y))) end
  | BMul => match c_ints x y with Some (w, a, c) => c_int w (a * c) | None => Some (CF (f64_mul (c_float x) (c_float y))) end
  | BTruediv | BFloordiv =>           (* both are C's / *)
      match c_ints x y with
      | Some (w, a, c) => if c =? 0 then None else c_int w (Z.quot a c)
      | None => Some (CF (f64_div (c_float x) (c_float y)))
      end
  | BMod => match c_ints x y with
            | Some (w, a, c) => if c =? 0 then None else c_int w (Z.rem a c)
            | None => None
            end
  | BPow => option_map CF (lm_pow L (c_float x) (c_float y))
  | BAnd => c_bool (c_true x && c_true y)
  | BOr => c_bool (c_true x || c_true y)
  | BEq => c_bool (match c_ints x y with Some (_, a, c) => a =? c | None => SFeqb (c_float x) (c_float y) end)
  | BGt => c_bool (match c_ints x y with Some (_, a, c) => a >? c | None => SFltb (c_float y) (c_float x) end)
  | BGe => c_bool (match c_ints x y with Some (_, a, c) => a >=? c | None => SFleb (c_float y) (c_float x) end)
  | BLt => c_bool (match c_ints x y with Some (_, a, c) => a <? c | None => SFltb (c_float x) (c_float y) end)
  | BLe => c_bool (match c_ints x y with Some (_, a, c) => a <=? c | None => SFleb (c_float x) (c_float y) end)
  end.
(* an integer literal has type int if it fits, long otherwise *)
Definition c_num (n : num) : cval :=
  match n with NInt z => if c_fits false z then CI32 z else CI64 z | NFlt m e => CF (f64_of m e) end.
(* ctypes masks a Python int that is too large *)
Definition wrap64 (z : Z) : Z := (z + 2 ^ 63) mod 2 ^ 64 - 2 ^ 63.
Lemma wrap64_small z : - 2 ^ 63 <= z < 2 ^ 63 -> wrap64 z = z.
Proof. intros H. unfold wrap64. rewrite Z.mod_small; lia. Qed.
Lemma wrap64_range z : - 2 ^ 63 <= wrap64 z < 2 ^ 63.
Proof. unfold wrap64. pose proof (Z.mod_pos_bound (z + 2 ^ 63) (2 ^ 64)). lia. Qed.
Lemma wrap64_idem z : wrap64 (wrap64 z) = wrap64 z.
Proof. apply wrap64_small, wrap64_range. Qed.
(* "int64_t x = e;", "double x = e;", and the ctypes array conversion.  A double that does not fit
   int64_t is undefined behaviour in C; x86 gives INT64_MIN.  int32/float32 arrays cannot be created
   through the API (only int64 and float64 can), so those two conversions are not modelled precisely. *)
Definition c_coerce (dt : dtype) (v : cval) : cval :=
  match dt with
  | Int32 | Int64 =>
      match v with
      | CI32 z | CI64 z => CI64 (wrap64 z)
      | CF f => match f64_trunc f with
                | Some z => if c_fits true z then CI64 z else CI64 (- 2 ^ 63)
                | None => CI64 (- 2 ^ 63)
                end
      end
  | Float32 | Float64 => CF (c_float v)
  end.
Definition c_alg (L : libm) : valg := mkValg cval c_num (c_un L) (c_bin L) c_coerce.
Definition c_idx (v : cval) : option Z := match v with CI32 z | CI64 z => Some z | CF _ => None end.
Definition c_lang (L : libm) : lang :=
  mkLang (c_alg L) c_idx c_true (fun v z => v = CI32 z \/ v = CI64 z) (Some (2 ^ 31)).

(* ------------------------------------------------------------------ both are lawful *)
Lemma py_lang_ok L : lang_ok (py_lang L).
Proof.
  constructor; cbn; intros; subst; auto; try (eexists; split; [reflexivity|reflexivity]).
  - unfold inB. cbn. lia.
  - replace (y =? 0) with false by lia. eauto.
  - replace (y =? 0) with false by lia. eauto.
  - destruct x; eauto.
Qed.

Lemma c_lang_ok L : lang_ok (c_lang L).
Proof.
  constructor; unfold inB; cbn -[Z.pow wrap64]; intros.
  - unfold c_num, c_fits. replace ((- 2 ^ 31 <=? z) && (z <? 2 ^ 31)) with true by lia. auto.
  - destruct H as [->| ->]; reflexivity.
  - destruct H as [->| ->]; reflexivity.
  - destruct H as [->| ->]; rewrite wrap64_small by lia; auto.
  - lia.
  - destruct H as [->| ->], H0 as [->| ->]; cbn -[Z.pow]; unfold c_int, c_fits;
      match goal with |- context [(- ?k <=? ?q) && (?q <? ?k)] => replace ((- k <=? q) && (q <? k)) with true by lia end; eauto.
  - destruct H as [->| ->], H0 as [->| ->]; cbn -[Z.pow]; unfold c_int, c_fits;
      match goal with |- context [(- ?k <=? ?q) && (?q <? ?k)] => replace ((- k <=? q) && (q <? k)) with true by lia end; eauto.
  - destruct H as [->| ->], H0 as [->| ->]; cbn -[Z.pow]; unfold c_int, c_fits;
      match goal with |- context [(- ?k <=? ?q) && (?q <? ?k)] => replace ((- k <=? q) && (q <? k)) with true by lia end; eauto.
  - assert (Hq : Z.quot x y = x / y) by (apply Z.quot_div_nonneg; lia).
    assert (0 <= x / y <= x) by (split; [apply Z.div_pos; lia|apply Z.div_le_upper_bound; nia]).
    destruct H as [->| ->], H0 as [->| ->]; cbn -[Z.pow Z.quot]; rewrite Hq; replace (y =? 0) with false by lia; unfold c_int, c_fits;
      match goal with |- context [(- ?k <=? ?q) && (?q <? ?k)] => replace ((- k <=? q) && (q <? k)) with true by lia end; eauto.
  - assert (Hq : Z.rem x y = x mod y) by (apply Z.rem_mod_nonneg; lia).
    assert (0 <= x mod y < y) by (apply Z.mod_pos_bound; lia).
    destruct H as [->| ->], H0 as [->| ->]; cbn -[Z.pow Z.rem]; rewrite Hq; replace (y =? 0) with false by lia; unfold c_int, c_fits;
      match goal with |- context [(- ?k <=? ?q) && (?q <? ?k)] => replace ((- k <=? q) && (q <? k)) with true by lia end; eauto.
  - destruct H as [->| ->], H0 as [->| ->]; cbn; unfold c_bool; eauto.
  - destruct H as [->| ->], H0 as [->| ->]; cbn; unfold c_bool; eauto.
  - destruct H as [->| ->], H0 as [->| ->]; cbn; unfold c_bool; eauto.
  - destruct H as [->| ->], H0 as [->| ->]; cbn; unfold c_bool; eauto.
  - destruct H as [->| ->], H0 as [->| ->], x, y; cbn; unfold c_bool; eauto.
  - assert (W : wrap64 (- 2 ^ 63) = - 2 ^ 63) by (apply wrap64_small; lia).
    destruct dt, v; cbn -[Z.pow wrap64]; rewrite ?wrap64_idem; try reflexivity;
      (destruct (f64_trunc f) as [z|]; [|now rewrite W]);
      destruct ((- 2 ^ 63 <=? z) && (z <? 2 ^ 63)) eqn:Ef; rewrite ?W; try reflexivity;
      rewrite wrap64_small by lia; reflexivity.
Qed.

(* a concrete math library for examples: every transcendental function raises *)
Definition no_libm : libm := mkLibm (fun _ _ => None) (fun _ _ => None).
