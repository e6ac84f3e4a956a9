(* materialize.py:73-113 func_cache_key: the key under which a compiled kernel is cached. *)
From Verif Require Import Base Util Lang Spec Graph Algo Kernel Sched Codegen.

(* The Python code takes md5(str(key)) of a nested tuple; here the key is the tuple itself (KeyText.v: str is
   injective on keys; KeyRun.v: what md5 has to do with it).  KNone: _expr_key has no case for TernaryExpr and returns None. *)
Inductive ekey :=
| KyBin (b : bop) (l r : ekey)
| KyUn (u : uop) (x : ekey)
| KyRed (red : list (name * Z)) (x : ekey)
| KyIdx (n : name) (ext : Z)
| KyConst (z : Z)
| KyFnc (x : ekey) (idx : list ekey)
| KyBuf (id : nat) (shape strides : list Z) (offset : Z) (dt : dtype) (idx : list ekey)
| KyNone.

Definition axis_eq_dec (a b : axis) : {a = b} + {a <> b}.
Proof. decide equality. Defined.
Definition bop_eq_dec (a b : bop) : {a = b} + {a <> b}.
Proof. decide equality. Defined.
Definition uop_eq_dec (a b : uop) : {a = b} + {a <> b}.
Proof. decide equality. Defined.
Definition dtype_eq_dec (a b : dtype) : {a = b} + {a <> b}.
Proof. decide equality. Defined.
Definition nm_eq_dec (a b : name) : {a = b} + {a <> b}.
Proof. decide equality; try apply Nat.eq_dec; try apply Bool.bool_dec; apply list_eq_dec, Bool.bool_dec. Defined.
Definition nz_eq_dec (a b : name * Z) : {a = b} + {a <> b}.
Proof. decide equality; [apply Z.eq_dec|apply nm_eq_dec]. Defined.
Fixpoint ekey_eq_dec (a b : ekey) {struct a} : {a = b} + {a <> b}.
Proof.
  decide equality; try apply bop_eq_dec; try apply uop_eq_dec; try apply Z.eq_dec; try apply nm_eq_dec; try apply dtype_eq_dec; try apply Nat.eq_dec;
    try (apply list_eq_dec; first [apply Z.eq_dec | apply nz_eq_dec | exact ekey_eq_dec]).
Defined.

(* materialize.py:89-90 buf_ids: position of first encounter *)
Fixpoint npos (x : nat) (l : list nat) : option nat :=
  match l with [] => None | y :: r => if Nat.eqb y x then Some 0%nat else option_map S (npos x r) end.
(* the dict with x added if new *)
Definition nadd (x : nat) (l : list nat) : list nat := match npos x l with Some _ => l | None => l ++ [x] end.

(* materialize.py:74-92; a FuncExpr contributes the producer's own expression *)
Section Key.
Context (g : graph) (E : fenv).
Fixpoint expr_key (fuel : nat) : expr -> list nat -> outcome (ekey * list nat) :=
  fix go (e : expr) (ids : list nat) : outcome (ekey * list nat) :=
    let many := fix many (l : list expr) (ids : list nat) : outcome (list ekey * list nat) :=
      match l with
      | [] => Done ([], ids)
      | x :: l' => '(k, ids1) <~ go x ids ;; '(ks, ids2) <~ many l' ids1 ;; Done (k :: ks, ids2)
      end in
    match e with
    | EBin b x y => '(k1, ids1) <~ go x ids ;; '(k2, ids2) <~ go y ids1 ;; Done (KyBin b k1 k2, ids2)
    | EUn u x => '(k1, ids1) <~ go x ids ;; Done (KyUn u k1, ids1)
    | ESum x red => '(k1, ids1) <~ go x ids ;; Done (KyRed (map (fun l => (lname l, l_ext l)) red) k1, ids1)
    | EIdx l => Done (KyIdx (lname l) (l_ext l), ids)
    | EConst z => Done (KyConst z, ids)
    | EFunc f idx =>
        match fuel with
        | O => Throw InternalErr
        | S k =>
            fd <~ throw_none InternalErr (E f) ;;
            '(k1, ids1) <~ expr_key k (f_expr fd) ids ;;
            '(ks, ids2) <~ many idx ids1 ;;
            Done (KyFnc k1 ks, ids2)
        end
    | EBuf n idx =>
        nd <~ get g n ;;
        let ids1 := nadd n ids in
        '(ks, ids2) <~ many idx ids1 ;;
        i <~ throw_none InternalErr (npos n ids1) ;;
        Done (KyBuf i (n_shape nd) (n_strides nd) (n_offset nd) (n_dtype nd) ks, ids2)
    | EWhere _ _ _ => Done (KyNone, ids)
    end.
End Key.

(* materialize.py:94-103 *)
Record kkey := mkKey {
  ky_loops : list (name * Z);
  ky_shape : list Z;
  ky_dtype : dtype;
  ky_expr : ekey;
  ky_sloops : list (name * Z * lkind * lexec);
  ky_splits : list (name * Z * bool)
}.
Definition sl_eq_dec (a b : name * Z * lkind * lexec) : {a = b} + {a <> b}.
Proof.
  decide equality; [decide equality; first [apply Z.eq_dec|apply axis_eq_dec]|].
  decide equality; [decide equality|apply nz_eq_dec].
Defined.
Definition sp_eq_dec (a b : name * Z * bool) : {a = b} + {a <> b}.
Proof. decide equality; [apply Bool.bool_dec|apply nz_eq_dec]. Defined.
Definition kkey_eq_dec (a b : kkey) : {a = b} + {a <> b}.
Proof.
  decide equality.
  - apply list_eq_dec, sp_eq_dec.
  - apply list_eq_dec, sl_eq_dec.
  - apply ekey_eq_dec.
  - apply dtype_eq_dec.
  - apply list_eq_dec, Z.eq_dec.
  - apply list_eq_dec, nz_eq_dec.
Defined.

(* materialize.py:105-113 *)
Definition cache_key (g : graph) (E : fenv) (f : func) (s : schedule) : outcome kkey :=
  '(k, _) <~ expr_key g E (S (length g)) (f_expr f) [] ;;
  Done (mkKey (map (fun l => (lname l, l_ext l)) (f_loops f)) (f_shape f) (f_dtype f) k
              (map (fun l => (lv_name (ls_lv l), lv_ext (ls_lv l), ls_kind l, ls_exec l)) (s_loops s))
              (map (fun p => (lv_name (sp_orig p), sp_factor p, sp_guard p)) (s_splits s))).
