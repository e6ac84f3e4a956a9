(* The three backends, as far as code generation differs between them. *)
From Verif Require Import Base Util Lang Spec Graph Algo Kernel Sched Codegen.

(* backend.py:73-91 *)
Inductive backend := Python | Clang | CUDA.
Definition is_gpu (b : backend) : bool := match b with CUDA => true | _ => false end.

(* Which loop annotations the language spec can print; the others raise RuntimeError.
   backend_python.py:12-18, backend_clang.py:13-29, backend_cuda.py:15-23 *)
Definition handles (b : backend) (x : lexec) : bool :=
  match b, x with
  | CUDA, (XPar | XVec) => false
  | (Python | Clang), (XBlock _ | XThread _) => false
  | _, _ => true
  end.

(* materialize.py:35,58 and sched.py:173-184: schedule a Func and generate its kernel; codegen.py:87-119
   asks the language spec to print every spatial loop *)
Definition gen (b : backend) (g : graph) (E : fenv) (f : func) (k : nat) : outcome (schedule * kernel * nat) :=
  s <~ auto_schedule (is_gpu b) f ;;
  if forallb (fun l => handles b (ls_exec l)) (filter is_spatial (s_loops s))
  then '(kern, k') <~ codegen g E (func_args (f_expr f)) f s k ;; Done (s, kern, k')
  else Throw RuntimeErr.
