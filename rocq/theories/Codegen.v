(* codegen.py: from a Func and a schedule to a kernel. *)
From Verif Require Import Base Util Lang Spec Graph Algo Kernel Sched.

Section Render.
Context (g : graph) (E : fenv).
(* codegen.py:49: the kernel's arguments after "out", buffers first *)
Context (args : list arg).

(* codegen.py:232-237, 247-252: position of the argument *)
Definition arg_eqb (a b : arg) : bool :=
  match a, b with ABuf x, ABuf y => Nat.eqb x y | AFnc x, AFnc y => Nat.eqb x y | _, _ => false end.
Fixpoint arg_pos (a : arg) (l : list arg) : option nat :=
  match l with [] => None | x :: r => if arg_eqb x a then Some 0%nat else option_map S (arg_pos a r) end.
Definition is_abuf (a : arg) : bool := match a with ABuf _ => true | AFnc _ => false end.
Definition arg_name (a : arg) : outcome name :=
  i <~ throw_none InternalErr (arg_pos a args) ;; Done (NArg (is_abuf a) i).

(* functools.reduce(l.add, ...) *)
Definition sum_kx (l : list kx) : kx := match l with [] => KInt 0 | x :: r => fold_left (fun a b => KBin BAdd a b) r x end.
(* codegen.py:39-41 *)
Definition arr_idx_calc (shape : list Z) (names : list kx) : kx :=
  match shape with
  | [] => KInt 0
  | _ => sum_kx (map (fun '(n, st) => KBin BMul n (KInt st)) (combine names (strides_from_shape shape)))
  end.
(* codegen.py:241-243 *)
Definition buf_idx_calc (offset : Z) (strides : list Z) (names : list kx) : kx :=
  sum_kx (KInt offset :: map (fun '(n, st) => KBin BMul n (KInt st)) (filter (fun '(_, st) => negb (st =? 0)) (combine names strides))).

(* codegen.py:121-254 render_expr: statements written, value, next temporary number *)
Fixpoint render (e : expr) (dt : dtype) (k : nat) : outcome (code * kx * nat) :=
  let many := fix many (l : list expr) (k : nat) : outcome (code * list kx * nat) :=
    match l with
    | [] => Done (CNil, [], k)
    | x :: l' => '(c, v, k1) <~ render x Int64 k ;; '(c', vs, k2) <~ many l' k1 ;; Done (capp c c', v :: vs, k2)
    end in
  match e with
  | EIdx l => Done (CNil, KName (lname l), k)
  | EConst z => Done (CNil, KInt z, k)
  | EUn u x => '(c, v, k1) <~ render x dt k ;; Done (capp c (CDecl dt (NTmp k1) (KUn u v) CNil), KName (NTmp k1), S k1)
  | EBin b x y =>
      '(c1, v1, k1) <~ render x dt k ;; '(c2, v2, k2) <~ render y dt k1 ;;
      Done (capp c1 (capp c2 (CDecl dt (NTmp k2) (KBin b v1 v2) CNil)), KName (NTmp k2), S k2)
  | EWhere c t f =>
      '(c1, vc, k1) <~ render c Int64 (S k) ;; '(c2, vt, k2) <~ render t dt k1 ;; '(c3, vf, k3) <~ render f dt k2 ;;
      Done (CDecl dt (NTmp k) (if is_int dt then KInt 0 else KFlt0)
             (capp c1 (CIf vc (capp c2 (CAssign (NTmp k) vt CNil)) (capp c3 (CAssign (NTmp k) vf CNil)) CNil)),
            KName (NTmp k), k3)
  | ESum x red =>
      '(c, v, k1) <~ render x dt k ;;
      Done (CDecl dt NAcc (KInt 0)
             (fold_right (fun l body => CFor (lname l) (l_ext l) XSeq body CNil)
                         (capp c (CAssign NAcc (KBin BAdd (KName NAcc) v) CNil)) red),
            KName NAcc, k1)
  | EBuf n idx =>
      nm <~ arg_name (ABuf n) ;; nd <~ get g n ;; '(c, vs, k1) <~ many idx k ;;
      Done (c, KIdx nm (buf_idx_calc (n_offset nd) (n_strides nd) vs), k1)
  | EFunc f idx =>
      nm <~ arg_name (AFnc f) ;; fd <~ throw_none InternalErr (E f) ;; '(c, vs, k1) <~ many idx k ;;
      Done (c, KIdx nm (arr_idx_calc (f_shape fd) vs), k1)
  end.

(* codegen.py:87-119 render_loop *)
Fixpoint render_loops (loops : list loopsched) (inner : code) : code :=
  match loops with
  | [] => inner
  | l :: r =>
      if is_spatial l then
        match ls_exec l with
        | XBlock ax => CGpu (lv_name (ls_lv l)) true ax (render_loops r inner)
        | XThread ax => CGpu (lv_name (ls_lv l)) false ax (render_loops r inner)
        | x => CFor (lv_name (ls_lv l)) (lv_ext (ls_lv l)) x (render_loops r inner) CNil
        end
      else render_loops r inner
  end.
(* codegen.py:59-60 *)
Fixpoint render_splits (sps : list splitloop) : code :=
  match sps with
  | [] => CNil
  | sp :: r => CDecl Int64 (lv_name (sp_orig sp))
                 (KBin BAdd (KBin BMul (KName (lv_name (sp_o sp))) (KInt (sp_factor sp))) (KName (lv_name (sp_i sp))))
                 (render_splits r)
  end.
(* codegen.py:62-68 *)
Fixpoint render_guards (sps : list splitloop) : code :=
  match sps with
  | [] => CNil
  | sp :: r => if sp_guard sp then CIf (KBin BLe (KInt (lv_ext (sp_orig sp))) (KName (lv_name (sp_orig sp)))) CRet CNil (render_guards r)
               else render_guards r
  end.

(* codegen.py:52: element type of an argument *)
Definition arg_dtype (a : arg) : outcome dtype :=
  match a with
  | ABuf n => nd <~ get g n ;; Done (n_dtype nd)
  | AFnc f => fd <~ throw_none InternalErr (E f) ;; Done (f_dtype fd)
  end.
Fixpoint arg_params (l : list arg) (i : nat) : outcome (list (name * dtype)) :=
  match l with
  | [] => Done []
  | a :: r => dt <~ arg_dtype a ;; ps <~ arg_params r (S i) ;; Done ((NArg (is_abuf a) i, dt) :: ps)
  end.

(* codegen.py:43-79; k = self.tmpvar_idx, which is never reset *)
Definition codegen (f : func) (s : schedule) (k : nat) : outcome (kernel * nat) :=
  ps <~ arg_params args 0 ;;
  '(c, v, k1) <~ render (f_expr f) (f_dtype f) k ;;
  let store := CStore NOut (arr_idx_calc (f_shape f) (map (fun l => KName (lname l)) (f_loops f))) v CNil in
  Done (mkK ((NOut, f_dtype f) :: ps)
            (render_loops (s_loops s) (capp (render_splits (s_splits s)) (capp (render_guards (s_splits s)) (capp c store)))), k1).
End Render.
