(* The two CPU backends. *)
From Verif Require Import Base Lang Spec Graph Denote Algo AlgoSem Kernel KernelRun Runtime RuntimeFacts RuntimeFacts2 LangInst AlgoTop.

(* backend_python.py:54-56: kernels work on the Python lists themselves; a list holds any value *)
Definition py_backend (lm : libm) : cpu_backend := mkB (py_lang lm) false (fun _ _ => true).
(* backend_clang.py:40-47: (ctype * n)( *vals) raises TypeError for a float in an integer array *)
Definition c_accept (dt : dtype) (v : cval) : bool :=
  match dt with Int32 | Int64 => match v with CF _ => false | _ => true end | _ => true end.
Definition c_backend (lm : libm) : cpu_backend := mkB (c_lang lm) true c_accept.

Lemma py_backend_ok lm : backend_ok (py_backend lm).
Proof. split; cbn; auto. apply py_lang_ok. Qed.
Lemma c_backend_ok lm : backend_ok (c_backend lm).
Proof.
  split; cbn -[Z.pow wrap64].
  - apply c_lang_ok.
  - discriminate.
  - intros [] []; cbn -[Z.pow wrap64]; auto; destruct (f64_trunc f); auto; destruct (_ && _); auto.
  - intros []; reflexivity.
Qed.
Lemma py_mat_ok lm g a : mat_ok (py_lang lm) g a.
Proof. split; [apply fits_py|]. exists Int64. apply one_dtype_py. Qed.
