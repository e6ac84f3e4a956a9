(* codegen.py / langspec.py at the level of strings: the text that is compiled. *)
From Coq Require Import String Ascii Decimal DecimalString.
From Verif Require Import Base Util Lang Spec Graph Algo Kernel Sched Codegen Backends.
Open Scope string_scope.
Open Scope Z_scope.
Notation "a +++ b" := (String.append a b) (at level 60, right associativity).

(* str(int) *)
Definition dec (z : Z) : string := NilEmpty.string_of_int (Z.to_int z).
Definition decn (n : nat) : string := dec (Z.of_nat n).
(* sep.join(l) *)
Fixpoint join (sep : string) (l : list string) : string :=
  match l with [] => "" | [x] => x | x :: r => x +++ sep +++ join sep r end.
(* s * n *)
Fixpoint times (n : nat) (s : string) : string := match n with O => "" | S n => s +++ times n s end.

(* ------------------------------------------------------------------ names *)
(* algo.py:142-145 loopvar_name *)
Definition loopvar_name (i : nat) (prefix : string) : string :=
  prefix +++ (if (i <? 8)%nat then substring i 1 "ijklmnpq" else "v" +++ decn i).
(* sched.py:75-76: suffixes of split loops *)
Fixpoint split_suffix (path : list bool) : string :=
  match path with [] => "" | o :: r => (if o then "__o" else "__i") +++ split_suffix r end.
(* codegen.py:35, 49, 51, 81-85, 210; algo.py:154 and the reduced indices, prefix "r" *)
Definition pname (n : name) : string :=
  match n with
  | NOut => "out"
  | NArg isbuf i => (if isbuf then "buf" else "fnc") +++ "_" +++ decn i
  | NTmp k => "tmp" +++ decn k
  | NAcc => "acc"
  | NLoop red pos path => loopvar_name pos (if red then "r" else "") +++ split_suffix path
  end.

(* ------------------------------------------------------------------ the language specs *)
(* langspec.py:104-109 *)
Definition typename (dt : dtype) : string :=
  match dt with Int32 => "int32_t" | Int64 => "int64_t" | Float32 => "float" | Float64 => "double" end.
Definition is_py (b : backend) : bool := match b with Python => true | _ => false end.
(* backend_python.py:7, langspec.py:110 *)
Definition import_lib (b : backend) (lib : string) : string := if is_py b then "import " +++ lib else "#include <" +++ lib +++ ">".
(* backend_python.py:8, langspec.py:111 *)
Definition default_library (b : backend) : list string := if is_py b then ["math"] else ["stdint.h"; "math.h"].
(* backend_python.py:9, langspec.py:112 *)
Definition indent_str : string := "    ".
(* backend_clang.py:12, backend_cuda.py:14: f'{self.typename(tp)}* {nm}' *)
Fixpoint typed_args (names : list string) (types : list dtype) : list string :=
  match names, types with n :: ns, t :: ts => (typename t +++ "* " +++ n) :: typed_args ns ts | _, _ => [] end.
(* backend_python.py:10, backend_clang.py:12, backend_cuda.py:14 *)
Definition quote : string := String (ascii_of_nat 34) "".
Definition kern_start (b : backend) (nm : string) (names : list string) (types : list dtype) : string :=
  match b with
  | Python => "def " +++ nm +++ "(" +++ join ", " names +++ "):"
  | Clang => "void " +++ nm +++ "(" +++ join ", " (typed_args names types) +++ ") {"
  | CUDA => "extern " +++ quote +++ "C" +++ quote +++ " __global__ void " +++ nm +++ "(" +++ join ", " (typed_args names types) +++ ") {"
  end.
(* backend_python.py:11, langspec.py:114 *)
Definition kern_end (b : backend) : string := if is_py b then "" else "}".
(* backend_python.py:12, langspec.py:115 *)
Definition sequential_loop_start (b : backend) (index start stop step : string) : string :=
  if is_py b then "for " +++ index +++ " in range(" +++ start +++ ", " +++ stop +++ ", " +++ step +++ "):"
  else "for (int " +++ index +++ " = " +++ start +++ "; " +++ index +++ " < " +++ stop +++ "; " +++ index +++ " += " +++ step +++ ") {".
(* backend_python.py:19, langspec.py:116 *)
Definition loop_end (b : backend) : string := if is_py b then "" else "}".
(* backend_python.py:20-22, langspec.py:117-119 *)
Definition if_start (b : backend) (c : string) : string := if is_py b then "if " +++ c +++ ":" else "if (" +++ c +++ ") {".
Definition else_ (b : backend) : string := if is_py b then "else:" else "} else {".
Definition if_end (b : backend) : string := if is_py b then "" else "}".
(* backend_python.py:23, langspec.py:120 *)
Definition return_function (b : backend) : string := if is_py b then "return" else "return;".
(* backend_python.py:24, langspec.py:121 *)
Definition index (a i : string) : string := a +++ "[" +++ i +++ "]".
(* backend_python.py:25-26, langspec.py:122-123 *)
Definition init (b : backend) (dt : dtype) (l r : string) : string :=
  if is_py b then l +++ " = " +++ r else typename dt +++ " " +++ l +++ " = " +++ r +++ ";".
Definition assign (b : backend) (l r : string) : string := if is_py b then l +++ " = " +++ r else l +++ " = " +++ r +++ ";".
(* backend_python.py:27-32, langspec.py:124-129 *)
Definition un_name (u : uop) : string :=
  match u with UNeg => "-" | USin => "sin" | UCos => "cos" | UExp => "exp" | ULog => "log" | USqrt => "sqrt" end.
Definition t_un (b : backend) (u : uop) (a : string) : string :=
  match u with
  | UNeg => "-(" +++ a +++ ")"
  | _ => (if is_py b then "math." else "") +++ un_name u +++ "(" +++ a +++ ")"
  end.
(* backend_python.py:33-46, langspec.py:130-143 *)
Definition t_bin (b : backend) (o : bop) (l r : string) : string :=
  match o with
  | BAdd => l +++ " + " +++ r
  | BSub => l +++ " - " +++ r
  | BMul => l +++ " * " +++ r
  | BTruediv => l +++ " / " +++ r
  | BFloordiv => if is_py b then l +++ " // " +++ r else l +++ " / " +++ r
  | BMod => l +++ " % " +++ r
  | BPow => "pow(" +++ l +++ ", " +++ r +++ ")"
  | BAnd => if is_py b then l +++ " and " +++ r else "(" +++ l +++ " && " +++ r +++ ")"
  | BOr => if is_py b then l +++ " or " +++ r else "(" +++ l +++ " || " +++ r +++ ")"
  | BEq => if is_py b then l +++ " == " +++ r else "(" +++ l +++ " == " +++ r +++ ")"
  | BGt => if is_py b then l +++ " > " +++ r else "(" +++ l +++ " > " +++ r +++ ")"
  | BGe => if is_py b then l +++ " >= " +++ r else "(" +++ l +++ " >= " +++ r +++ ")"
  | BLt => if is_py b then l +++ " < " +++ r else "(" +++ l +++ " < " +++ r +++ ")"
  | BLe => if is_py b then l +++ " <= " +++ r else "(" +++ l +++ " <= " +++ r +++ ")"
  end.
Definition axis_name (a : axis) : string := match a with AX => "x" | AY => "y" | AZ => "z" end.
(* backend_python.py:13-18, backend_clang.py:13-29, backend_cuda.py:15-23, codegen.py:92-106: the lines
   that open a loop and whether it nests; start and step are 0 and 1 *)
Definition loop_start (b : backend) (x : lexec) (n : string) (ext : string) : outcome (list string * bool) :=
  let plain := sequential_loop_start b n "0" ext "1" in
  match b, x with
  | _, XSeq => Done ([plain], true)
  | Python, (XPar | XVec | XUnroll _) => Done ([plain], true)
  | Python, (XBlock _ | XThread _) => Throw RuntimeErr
  | Clang, XPar => Done (["#pragma omp parallel for"; plain], true)
  | Clang, XVec => Done (["#pragma clang loop vectorize(enable)"; plain], true)
  | Clang, XUnroll f => Done (["#pragma clang loop unroll_count(" +++ dec f +++ ")"; plain], true)
  | Clang, (XBlock _ | XThread _) => Throw RuntimeErr
  | CUDA, (XPar | XVec) => Throw RuntimeErr
  | CUDA, XUnroll f => Done (["#pragma unroll " +++ dec f; plain], true)
  | CUDA, XBlock a => Done ([init b Int64 n ("blockIdx." +++ axis_name a)], false)
  | CUDA, XThread a => Done ([init b Int64 n ("threadIdx." +++ axis_name a)], false)
  end.

(* ------------------------------------------------------------------ the generator *)
(* codegen.py:10-12, 21-24: self.buff, self.indent_level, self.tmpvar_idx *)
Record gst := mkG { g_buf : list string; g_ind : nat; g_tmp : nat }.
(* codegen.py:26-37 *)
Definition nest (s : gst) : gst := mkG (g_buf s) (S (g_ind s)) (g_tmp s).
Definition unnest (s : gst) : gst := mkG (g_buf s) (pred (g_ind s)) (g_tmp s).
Definition writeln (ln : string) (s : gst) : gst := mkG (g_buf s ++ [times (g_ind s) indent_str +++ ln])%list (g_ind s) (g_tmp s).
Definition write (lns : list string) (s : gst) : gst := fold_left (fun s ln => writeln ln s) lns s.
Definition tmpvar (s : gst) : string * gst := ("tmp" +++ decn (g_tmp s), mkG (g_buf s) (g_ind s) (S (g_tmp s))).

Section Gen.
Context (b : backend) (g : graph) (E : fenv).
(* functools.reduce(l.add, terms); [] cannot occur (as many index names as axes), Python would raise *)
Definition reduce_add (l : list string) : string :=
  match l with [] => "0" | x :: r => fold_left (t_bin b BAdd) r x end.
(* codegen.py:39-41 *)
Definition arr_idx_calc_expr (shape : list Z) (names : list string) : string :=
  match shape with
  | [] => "0"
  | _ => reduce_add (map (fun '(n, st) => t_bin b BMul n (dec st)) (combine names (strides_from_shape shape)))
  end.
(* codegen.py:49 *)
Definition argname (a : arg) : string := match a with ABuf _ => "buf" | AFnc _ => "fnc" end.
Fixpoint named_args (l : list arg) (i : nat) : list (string * arg) :=
  match l with [] => [] | a :: r => (argname a +++ "_" +++ decn i, a) :: named_args r (S i) end.
(* codegen.py:232-237, 247-252: the name of the first argument that is the given one *)
Fixpoint find_arg (a : arg) (args : list (string * arg)) : option string :=
  match args with [] => None | (n, x) :: r => if arg_eqb x a then Some n else find_arg a r end.

(* codegen.py:121-254 *)
Fixpoint t_render (args : list (string * arg)) (e : expr) (dt : dtype) (s : gst) : outcome (string * gst) :=
  let many := fix many (l : list expr) (s : gst) : outcome (list string * gst) :=
    match l with
    | [] => Done ([], s)
    | x :: l' => '(v, s1) <~ t_render args x Int64 s ;; '(vs, s2) <~ many l' s1 ;; Done (v :: vs, s2)
    end in
  match e with
  | EIdx l => Done (pname (lname l), s)                                             (* :129 *)
  | EConst z => Done (dec z, s)                                                     (* :130 *)
  | EUn u x =>                                                                      (* :133-147 *)
      '(r, s) <~ t_render args x dt s ;;
      let (tmp, s) := tmpvar s in Done (tmp, write [init b dt tmp (t_un b u r)] s)
  | EBin o x y =>                                                                   (* :149-171 *)
      '(l, s) <~ t_render args x dt s ;; '(r, s) <~ t_render args y dt s ;;
      let (tmp, s) := tmpvar s in Done (tmp, write [init b dt tmp (t_bin b o l r)] s)
  | EWhere c t f =>                                                                 (* :173-203 *)
      let (tmp, s) := tmpvar s in
      let s := write [init b dt tmp (if is_int dt then "0" else "0.0")] s in
      '(cond, s) <~ t_render args c Int64 s ;;
      let s := nest (write [if_start b cond] s) in
      '(tv, s) <~ t_render args t dt s ;;
      let s := unnest (write [assign b tmp tv] s) in
      let s := nest (write [else_ b] s) in
      '(fv, s) <~ t_render args f dt s ;;
      let s := unnest (write [assign b tmp fv] s) in
      Done (tmp, write [if_end b] s)
  | ESum x red =>                                                                   (* :207-228 *)
      let s := write [init b dt "acc" "0"] s in
      let s := fold_left (fun s l => nest (write [sequential_loop_start b (pname (lname l)) "0" (dec (l_ext l)) "1"] s)) red s in
      '(r, s) <~ t_render args x dt s ;;
      let s := write [assign b "acc" (t_bin b BAdd "acc" r)] s in
      Done ("acc", fold_left (fun s _ => write [loop_end b] (unnest s)) red s)
  | EBuf n idx =>                                                                   (* :230-244 *)
      buf <~ throw_none InternalErr (find_arg (ABuf n) args) ;; nd <~ get g n ;;
      '(names, s) <~ many idx s ;;
      let terms := map (fun '(x, st) => t_bin b BMul x (dec st)) (filter (fun '(_, st) => negb (st =? 0)) (combine names (n_strides nd))) in
      let flat := match terms with [] => dec (n_offset nd) | _ => reduce_add (dec (n_offset nd) :: terms) end in
      Done (index buf flat, s)
  | EFunc f idx =>                                                                  (* :246-254 *)
      fnc <~ throw_none InternalErr (find_arg (AFnc f) args) ;; fd <~ throw_none InternalErr (E f) ;;
      '(names, s) <~ many idx s ;;
      Done (index fnc (arr_idx_calc_expr (f_shape fd) names), s)
  end.

(* codegen.py:87-112; returns loopcnt *)
Fixpoint t_loops (loops : list loopsched) (s : gst) : outcome (nat * gst) :=
  match loops with
  | [] => Done (0%nat, s)
  | l :: r =>
      if is_spatial l then
        '(lns, looped) <~ loop_start b (ls_exec l) (pname (lv_name (ls_lv l))) (dec (lv_ext (ls_lv l))) ;;
        let s := write lns s in
        let s := if looped : bool then nest s else s in
        '(k, s) <~ t_loops r s ;; Done ((if looped then S k else k), s)
      else t_loops r s
  end.
(* codegen.py:114-117 *)
Fixpoint loop_finish (k : nat) (s : gst) : gst := match k with O => s | S k => loop_finish k (write [loop_end b] (unnest s)) end.
(* codegen.py:59-60 *)
Definition t_splits (sps : list splitloop) (s : gst) : gst :=
  fold_left (fun s sp => write [init b Int64 (pname (lv_name (sp_orig sp)))
    (t_bin b BAdd (t_bin b BMul (pname (lv_name (sp_o sp))) (dec (sp_factor sp))) (pname (lv_name (sp_i sp))))] s) sps s.
(* codegen.py:62-68 *)
Definition t_guards (sps : list splitloop) (s : gst) : gst :=
  fold_left (fun s sp => if sp_guard sp then
    write [if_end b] (unnest (write [return_function b] (nest (write [if_start b (t_bin b BLe (dec (lv_ext (sp_orig sp))) (pname (lv_name (sp_orig sp))))] s))))
    else s) sps s.

(* codegen.py:43-79; the generator object keeps its temporary counter k *)
Fixpoint arg_types (l : list arg) : outcome (list dtype) :=
  match l with [] => Done [] | a :: r => dt <~ arg_dtype g E a ;; ts <~ arg_types r ;; Done (dt :: ts) end.
Definition t_codegen (kname : string) (inputs : list arg) (f : func) (sc : schedule) (k : nat) : outcome (string * nat) :=
  let s := write (map (import_lib b) (default_library b)) (mkG [] 0 k) in
  let args := named_args inputs 0 in
  ts <~ arg_types inputs ;;
  let s := nest (write [kern_start b kname ("out" :: map fst args) (f_dtype f :: ts)] s) in
  '(cnt, s) <~ t_loops (s_loops sc) s ;;
  let s := t_guards (s_splits sc) (t_splits (s_splits sc) s) in
  '(result, s) <~ t_render args (f_expr f) (f_dtype f) s ;;
  let idx := arr_idx_calc_expr (f_shape f) (map (fun l => pname (lname l)) (f_loops f)) in
  let s := write [assign b (index "out" idx) result] s in
  let s := write [kern_end b] (unnest (loop_finish cnt s)) in
  Done (join (String (ascii_of_nat 10) "") (g_buf s), g_tmp s).
End Gen.
