(* What a user sees printed: ndarray.__str__/__repr__ (ndarray.py:370-380), the texts of buffers, loops, expressions and schedules,
   and the output of WHALE_DEBUG=1 (debug.py and the DEBUG branches of materialize.py:15-71). *)
From Coq Require Import String Ascii.
From Verif Require Import Base Util Lang Spec Graph Api Tolist Denote Algo Kernel Sched Codegen Backends CacheKey KernelRun Runtime Text TextPrint PropText.
Open Scope string_scope.
Open Scope Z_scope.

(* ops.py:3-61: Ops.name, also str() of an Ops member (ops.py:60-61) *)
Definition uop_text (u : uop) : string :=
  match u with UNeg => "Neg" | USin => "Sin" | UCos => "Cos" | UExp => "Exp" | ULog => "Log" | USqrt => "Sqrt" end.
Definition bop_text (b : bop) : string :=
  match b with
  | BAdd => "Add" | BSub => "Sub" | BMul => "Mul" | BTruediv => "Truediv" | BFloordiv => "Floordiv" | BMod => "Mod" | BPow => "Pow"
  | BAnd => "And" | BOr => "Or" | BEq => "Eq" | BGt => "Gt" | BGe => "Ge" | BLt => "Lt" | BLe => "Le"
  end.
Definition op_text (o : nop) : string :=
  match o with
  | OConst _ => "Const" | OUn u => uop_text u | OBin b => bop_text b | OSum _ _ => "Sum" | OReshape _ => "Reshape" | OBroadcast _ => "Broadcast"
  | OTranspose _ => "Transpose" | OSlice _ => "Slice" | OContiguous => "Contiguous" | OPad _ _ _ => "Pad" | ODilate _ _ => "Dilate"
  end.
(* dtype.py:4-5: the class name in lower case *)
Definition dtype_text (d : dtype) : string := match d with Int32 => "int32" | Int64 => "int64" | Float32 => "float32" | Float64 => "float64" end.
(* str(tuple of ints) *)
Definition tuple_text (l : list Z) : string :=
  match l with [x] => "(" +++ dec x +++ ",)" | _ => "(" +++ join ", " (map dec l) +++ ")" end.
(* str(nested list); elements are shown by repr *)
Fixpoint nest_text {V} (repr : V -> string) (t : Base.nest V) : string :=
  match t with Leaf v => repr v | Nest l => "[" +++ join ", " (map (nest_text repr) l) +++ "]" end.
(* str(list) *)
Definition list_text {V} (repr : V -> string) (l : list V) : string := "[" +++ join ", " (map repr l) +++ "]".

(* buffer.py:4-11: None, or CPUBuff.__repr__ *)
Definition cpu_text {V} (repr : V -> string) (c : option (list V)) : string :=
  match c with
  | None | Some [] => "None"
  | Some (x :: r) =>
      if (length (x :: r) <? 4)%nat then list_text repr (x :: r) +++ " (" +++ decn (length (x :: r)) +++ " items)"
      else "[" +++ repr x +++ ", " +++ repr (hd x r) +++ ", ... " +++ repr (last r x) +++ "] (len=" +++ decn (length (x :: r)) +++ ")"
  end.
(* buffer.py:13-18: DevBuff.__repr__ *)
Definition dev_text (copied : bool) : string := if copied then "copied" else "None".

(* ndarray.py:374-380 __str__ (and __repr__, 372), m = the CPU side of the buffers, dev = has the buffer device memory.
   The case buffer=None never occurs: every Node makes a Buffer (node.py:7-15).  All ctx are set (ndarray.py:195-197, 384-387). *)
Definition summary_text (nd : node) (cpu dev : string) : string :=
  op_text (n_op nd) +++ " shape=" +++ tuple_text (n_shape nd) +++ " strides=" +++ tuple_text (n_strides nd) +++ " offset=" +++ dec (n_offset nd) +++
  " dtype=" +++ dtype_text (n_dtype nd) +++ " cpu=" +++ cpu +++ " dev=" +++ dev.
Definition arr_text {V} (repr : V -> string) (g : graph) (m : mem V) (dev : nat -> bool) (a : nat) : outcome string :=
  match nth_error g a, base g a with
  | Some nd, Some b =>
      match m b with
      | None => Done (summary_text nd "None" (dev_text (dev b)))
      | Some data => t <~ read_nd data (n_shape nd) (n_strides nd) (n_offset nd) ;; Done (nest_text repr t)
      end
  | _, _ => Throw InternalErr
  end.

(* ------------------------------------------------------------------ debug.py *)
(* debug.py:8-12 *)
Definition dbg (msg : string) : string := "[debug] " +++ msg.
(* debug.py:17-27 dbg_tree: a node's text and those of its inputs() *)
Inductive tree := T (label : string) (children : list tree).
Definition indent : string := "        ".
Fixpoint tree_lines (top : bool) (prefix : string) (last : bool) (t : tree) : list string :=
  match t with
  | T label cs =>
      let inp_prefix := prefix +++ (if last then "   " else "│  ") in
      (prefix +++ (if top then "" else if last then "└─ " else "├─ ") +++ label) ::
      (fix go (l : list tree) : list string :=
         match l with [] => [] | [c] => tree_lines false inp_prefix true c | c :: r => (tree_lines false inp_prefix false c ++ go r)%list end) cs
  end.
Definition dbg_tree (t : tree) : list string := tree_lines true indent true t.

Section Trees.
Context {V : Type} (repr : V -> string) (g : graph) (m : mem V) (dev : nat -> bool).
(* the tree of an array: ndarray.py:374-382 *)
Fixpoint arr_tree (fuel : nat) (a : nat) : outcome tree :=
  match fuel with
  | O => Throw InternalErr
  | S k =>
      nd <~ get g a ;;
      label <~ arr_text repr g m dev a ;;
      cs <~ mapO (arr_tree k) (n_in nd) ;;
      Done (T label cs)
  end.
(* algo.py:13 LoopIndex.__str__, sched.py:17 LoopVar.__str__ *)
Definition lidx_text (l : lidx) : string := pname (lname l) +++ ":" +++ dec (l_ext l).
Definition lv_text (v : loopvar) : string := pname (lv_name v) +++ ":" +++ dec (lv_ext v).
(* algo.py:19-83: __str__ of the expressions *)
Fixpoint expr_text (e : expr) : string :=
  match e with
  | EIdx l => "IndexExpr(" +++ lidx_text l +++ ")"
  | EConst z => "ConstExpr(" +++ dec z +++ ")"
  | EBin b _ _ => "BinaryExpr(" +++ bop_text b +++ ")"
  | EUn u _ => "UnaryExpr(" +++ uop_text u +++ ")"
  | EWhere _ _ _ => "TernaryExpr(Where)"
  | ESum _ red => "ReduceExpr(Sum reduced=" +++ join ", " (map lidx_text red) +++ ")"
  | EFunc _ idx => "FuncExpr(indices=[" +++ join ", " (map expr_text idx) +++ "])"
  | EBuf n idx => "BufferExpr(indices=[" +++ join ", " (map expr_text idx) +++ "], cpu=" +++ cpu_text repr (m n) +++ ", dev=" +++ dev_text (dev n) +++ ")"
  end.
(* algo.py:137 Func.__str__ *)
Definition func_text (f : func) : string := "Func(out_loops=[" +++ join ", " (map lidx_text (f_loops f)) +++ "] " +++ dtype_text (f_dtype f).
(* inputs(): algo.py:23, 30, 39, 50, 58, 67, 75, 83 (expressions; a FuncExpr leads to its Func), 139 (Func) *)
Fixpoint expr_tree (ft : nat -> outcome tree) (e : expr) : outcome tree :=
  match e with
  | EIdx _ | EConst _ | EBuf _ _ => Done (T (expr_text e) [])
  | EBin _ l r => a <~ expr_tree ft l ;; b <~ expr_tree ft r ;; Done (T (expr_text e) [a; b])
  | EUn _ x => a <~ expr_tree ft x ;; Done (T (expr_text e) [a])
  | ESum x _ => a <~ expr_tree ft x ;; Done (T (expr_text e) [a])
  | EWhere c t f => a <~ expr_tree ft c ;; b <~ expr_tree ft t ;; d <~ expr_tree ft f ;; Done (T (expr_text e) [a; b; d])
  | EFunc f _ => a <~ ft f ;; Done (T (expr_text e) [a])
  end.
Fixpoint func_tree (fuel : nat) (E : fenv) (f : nat) : outcome tree :=
  match fuel with
  | O => Throw InternalErr
  | S k => fd <~ throw_none InternalErr (E f) ;; t <~ expr_tree (func_tree k E) (f_expr fd) ;; Done (T (func_text fd) [t])
  end.
End Trees.

(* sched.py:10, 29-57: __str__ *)
Definition kind_text (k : lkind) : string := match k with Spatial => "Spatial" | Reduce => "Reduce" end.
Definition axis_text (x : axis) : string := match x with AX => "x" | AY => "y" | AZ => "z" end.
Definition exec_text (x : lexec) : string :=
  match x with
  | XSeq => "Sequential" | XPar => "Parallel" | XVec => "Vectorize" | XUnroll f => "Unroll(" +++ dec f +++ ")"
  | XBlock x => "GPUBlock(" +++ axis_text x +++ ")" | XThread x => "GPUThread(" +++ axis_text x +++ ")"
  end.
Definition loop_text (l : loopsched) : string := lv_text (ls_lv l) +++ " (" +++ kind_text (ls_kind l) +++ ":" +++ exec_text (ls_exec l) +++ ")".
Definition split_text (s : splitloop) : string := "SplitLoop: " +++ lv_text (sp_orig s) +++ " -> " +++ lv_text (sp_o s) +++ ", " +++ lv_text (sp_i s).
(* debug.py:29-34 *)
Definition dbg_schedule (s : schedule) : list string :=
  ((indent +++ "Schedule:") :: map (fun l => indent +++ "  " +++ loop_text l) (s_loops s) ++ map (fun l => indent +++ "  " +++ split_text l) (s_splits s))%list.
(* str.splitlines(); the only line break in kernel texts is "\n" *)
Fixpoint splitlines (cur : string) (t : string) : list string :=
  match t with
  | EmptyString => if String.eqb cur "" then [] else [cur]
  | String c r => if Ascii.eqb c (ascii_of_nat 10) then cur :: splitlines "" r else splitlines (cur +++ String c "") r
  end.
(* debug.py:35-37 *)
Definition dbg_kernel (code : string) : list string := map (fun l => indent +++ l) (splitlines "" code).

(* ------------------------------------------------------------------ materialize() with WHALE_DEBUG=1 *)
Section Debug.
Context (B : cpu_backend) (repr : val (b_lang B) -> string) (hash : kkey -> string).
Notation no_dev := (fun _ : nat => false).
(* process, len(kern_invoke_hist), lines printed *)
Definition dbg_out : Type := (rt B * outcome unit) * nat * list string.
(* materialize.py:18 *)
Definition backend_text : string := match b_id B with Python => "Python" | Clang => "Clang" | CUDA => "CUDA" end.

(* materialize.py:44-71, loop number i (from 0); what has been printed when the call raises stays printed *)
Definition run_func_dbg (E : fenv) (i : nat) (fd : func) (sc : schedule) (s : rt B) (h : nat) : dbg_out :=
  let args := func_args (f_expr fd) in
  match mapOut (arg_buffer E) args, cache_key (r_graph B s) E fd sc with
  | Done bufs, Done key =>
      let params := f_out fd :: bufs in
      match cache_get (r_cache B s) key with
      | Some kern => (invoke B s kern params, h, [dbg "kernel cache hit"])
      | None =>
          match codegen (r_graph B s) E args fd sc (r_tmp B s), t_codegen (b_id B) (r_graph B s) E (kernel_name (hash key)) args fd sc (r_tmp B s) with
          | Done (kern, k'), Done (text, _) =>
              let before := dbg "kernel codegen:" :: dbg (decn (S i) +++ ":") :: dbg_kernel text in
              match invoke B (mkRt B (r_graph B s) (r_cpu B s) ((key, kern) :: r_cache B s) k' (r_runs B s)) kern params with
              | (s', Done _) => (s', Done tt, S h, (before ++ [dbg ("kernel invocation count: " +++ decn (S h))])%list)
              | (s', Throw e) => (s', Throw e, h, before)
              end
          | Throw e, _ => (s, Throw e, h, [])
          | _, Throw e => (s, Throw e, h, [])
          end
      end
  | Throw e, _ => (s, Throw e, h, [])
  | _, Throw e => (s, Throw e, h, [])
  end.
Fixpoint run_funcs_dbg (E : fenv) (i : nat) (l : list (func * schedule)) (s : rt B) (h : nat) : dbg_out :=
  match l with
  | [] => (s, Done tt, h, [])
  | (fd, sc) :: r =>
      match run_func_dbg E i fd sc s h with
      | (s', Done _, h', out) => let '(res, h2, out2) := run_funcs_dbg E (S i) r s' h' in (res, h2, (out ++ out2)%list)
      | (s', Throw e, h', out) => (s', Throw e, h', out)
      end
  end.
(* materialize.py:37-42: the Funcs and their schedules; simplification: if printing one of them raised, the model drops the lines
   already printed (it never raises for valid arrays, PrintFacts.v) *)
Fixpoint dbg_funcs (g : graph) (m : store (b_lang B)) (E : fenv) (i : nat) (fs : list (nat * schedule)) : outcome (list string) :=
  match fs with
  | [] => Done []
  | (f, sc) :: r =>
      t <~ func_tree repr m no_dev (S (length g)) E f ;;
      rest <~ dbg_funcs g m E (S i) r ;;
      Done (dbg (decn (S i) +++ ":") :: dbg_tree t ++ dbg_schedule sc ++ rest)%list
  end.
Definition compute_dbg (s : rt B) (a : nat) (h : nat) : dbg_out :=
  match convert (r_graph B s) a with
  | Throw e => (s, Throw e, h, [])
  | Done (E, fs) =>
      match mapOut (schedule_one B E) fs with
      | Throw e => (s, Throw e, h, [])
      | Done l =>
          match dbg_funcs (r_graph B s) (r_cpu B s) E 0 (combine fs (map snd l)) with
          | Throw e => (s, Throw e, h, [])
          | Done lines =>
              let '(res, h', out) := run_funcs_dbg E 0 l s h in
              (res, h', (dbg (decn (length fs) +++ " funcs and schedules:") :: lines ++ out)%list)
          end
      end
  end.
(* materialize.py:15-33 *)
Fixpoint mat_dbg (fuel : nat) (s : rt B) (a : nat) (h : nat) : dbg_out :=
  match fuel with
  | O => (s, Throw InternalErr, h, [])
  | S k =>
      match nth_error (r_graph B s) a with
      | None => (s, Throw InternalErr, h, [])
      | Some nd =>
          let start := [dbg "materialization start"; dbg ("backend: " +++ backend_text); dbg "materializing ndarray:"] in
          match arr_tree repr (r_graph B s) (r_cpu B s) no_dev (S (length (r_graph B s))) a with
          | Throw e => (s, Throw e, h, start)
          | Done t =>
              let '(res, h', out) :=
                if is_const (n_op nd) then (s, Done tt, h, [dbg "materialization did not happend as it's constant"])
                else if is_view (n_op nd) then
                  match n_in nd with
                  | b :: _ => let '(res, h', out) := mat_dbg k s b h in (res, h', dbg "as it's view op, materializing the source ndarray..." :: out)
                  | [] => (s, Throw IndexErr, h, [dbg "as it's view op, materializing the source ndarray..."])
                  end
                else compute_dbg s a h in
              (res, h', (start ++ dbg_tree t ++ out)%list)
          end
      end
  end.
Definition materialize_dbg (s : rt B) (a : nat) (h : nat) : dbg_out := mat_dbg (length (r_graph B s)) s a h.
(* what the call does apart from printing *)
Definition effect (d : dbg_out) : rt B * outcome unit := fst (fst d).
Definition printed (d : dbg_out) : list string := snd d.
End Debug.
