(* GENERATED by tools/gen_tests.py from /repo/test.py: every test method of the project, run on the
   model with both CPU backends.  Tests, not proofs: they check the model against the outputs the
   project's authors recorded. *)
From Verif Require Import Base Util Lang LangInst Spec Graph Api Tolist Runtime RtInst Backward TestsBase.
From Coq Require Import Floats.SpecFloat.

(* math.h / Python's math at the arguments that occur in the tests *)
Definition math_table : list ((uop * sf) * sf) :=
  [((UCos, (f64_of (0) (0))), (f64_of (1) (0)));
   ((UCos, (f64_of (4716158501352293) (-53))), (f64_of (7800463371553963) (-53)));
   ((UCos, (f64_of (884279719003555) (-49))), (f64_of (4967757600021511) (-106)));
   ((UExp, (f64_of (0) (0))), (f64_of (1) (0)));
   ((UExp, (f64_of (1) (0))), (f64_of (6121026514868073) (-51)));
   ((UExp, (f64_of (2) (0))), (f64_of (4159668786720471) (-49)));
   ((ULog, (f64_of (1) (0))), (f64_of (0) (0)));
   ((ULog, (f64_of (2) (0))), (f64_of (6243314768165359) (-53)));
   ((ULog, (f64_of (6121026514868073) (-51))), (f64_of (1) (0)));
   ((ULog, (f64_of (3) (0))), (f64_of (4947709893870347) (-52)));
   ((USin, (f64_of (0) (0))), (f64_of (0) (0)));
   ((USin, (f64_of (4716158501352293) (-53))), (f64_of (9007199254740991) (-54)));
   ((USin, (f64_of (884279719003555) (-49))), (f64_of (1) (0)))].
Definition lm : libm := table_libm math_table.

(* test.py:24-30 *)
Definition test_array : list tstep :=
  [TCall (CArray (Nest [Nest [Leaf (NInt (1)); Leaf (NInt (2)); Leaf (NInt (3))]; Nest [Leaf (NInt (4)); Leaf (NInt (5)); Leaf (NInt (6))]]));
   TShape 0 [2; 3];
   TStrides 0 [3; 1];
   TOffset 0 (0);
   TNdim 0 2;
   TList 0 [] (Nest [Nest [Leaf (NInt (1)); Leaf (NInt (2)); Leaf (NInt (3))]; Nest [Leaf (NInt (4)); Leaf (NInt (5)); Leaf (NInt (6))]])].
Example test_array_py : run_test (py_backend lm) py_eq py_close test_array = true. Proof. vm_compute. reflexivity. Qed.
Example test_array_c : run_test (c_backend lm) c_eq c_close test_array = true. Proof. vm_compute. reflexivity. Qed.

(* test.py:32-38 *)
Definition test_arange : list tstep :=
  [TCall (CArange (6));
   TShape 0 [6];
   TStrides 0 [1];
   TOffset 0 (0);
   TNdim 0 1;
   TList 0 [] (Nest [Leaf (NInt (0)); Leaf (NInt (1)); Leaf (NInt (2)); Leaf (NInt (3)); Leaf (NInt (4)); Leaf (NInt (5))])].
Example test_arange_py : run_test (py_backend lm) py_eq py_close test_arange = true. Proof. vm_compute. reflexivity. Qed.
Example test_arange_c : run_test (c_backend lm) c_eq c_close test_arange = true. Proof. vm_compute. reflexivity. Qed.

(* test.py:40-46 *)
Definition test_full : list tstep :=
  [TCall (CFull [2; 3] (NInt (5)));
   TShape 0 [2; 3];
   TStrides 0 [3; 1];
   TOffset 0 (0);
   TNdim 0 2;
   TList 0 [] (Nest [Nest [Leaf (NInt (5)); Leaf (NInt (5)); Leaf (NInt (5))]; Nest [Leaf (NInt (5)); Leaf (NInt (5)); Leaf (NInt (5))]])].
Example test_full_py : run_test (py_backend lm) py_eq py_close test_full = true. Proof. vm_compute. reflexivity. Qed.
Example test_full_c : run_test (c_backend lm) c_eq c_close test_full = true. Proof. vm_compute. reflexivity. Qed.

(* test.py:48-52 *)
Definition test_full_like : list tstep :=
  [TCall (CArray (Nest [Nest [Leaf (NInt (1)); Leaf (NInt (2)); Leaf (NInt (3))]; Nest [Leaf (NInt (4)); Leaf (NInt (5)); Leaf (NInt (6))]]));
   TCall (CFullLike 0 (NInt (5)));
   TShape 1 [2; 3];
   TList 1 [] (Nest [Nest [Leaf (NInt (5)); Leaf (NInt (5)); Leaf (NInt (5))]; Nest [Leaf (NInt (5)); Leaf (NInt (5)); Leaf (NInt (5))]])].
Example test_full_like_py : run_test (py_backend lm) py_eq py_close test_full_like = true. Proof. vm_compute. reflexivity. Qed.
Example test_full_like_c : run_test (c_backend lm) c_eq c_close test_full_like = true. Proof. vm_compute. reflexivity. Qed.

(* test.py:54-58 *)
Definition test_ones_like : list tstep :=
  [TCall (CArray (Nest [Nest [Leaf (NInt (1)); Leaf (NInt (2)); Leaf (NInt (3))]; Nest [Leaf (NInt (4)); Leaf (NInt (5)); Leaf (NInt (6))]]));
   TCall (COnesLike 0);
   TShape 1 [2; 3];
   TList 1 [] (Nest [Nest [Leaf (NInt (1)); Leaf (NInt (1)); Leaf (NInt (1))]; Nest [Leaf (NInt (1)); Leaf (NInt (1)); Leaf (NInt (1))]])].
Example test_ones_like_py : run_test (py_backend lm) py_eq py_close test_ones_like = true. Proof. vm_compute. reflexivity. Qed.
Example test_ones_like_c : run_test (c_backend lm) c_eq c_close test_ones_like = true. Proof. vm_compute. reflexivity. Qed.

(* test.py:60-64 *)
Definition test_zeros_like : list tstep :=
  [TCall (CArray (Nest [Nest [Leaf (NInt (1)); Leaf (NInt (2)); Leaf (NInt (3))]; Nest [Leaf (NInt (4)); Leaf (NInt (5)); Leaf (NInt (6))]]));
   TCall (CZerosLike 0);
   TShape 1 [2; 3];
   TList 1 [] (Nest [Nest [Leaf (NInt (0)); Leaf (NInt (0)); Leaf (NInt (0))]; Nest [Leaf (NInt (0)); Leaf (NInt (0)); Leaf (NInt (0))]])].
Example test_zeros_like_py : run_test (py_backend lm) py_eq py_close test_zeros_like = true. Proof. vm_compute. reflexivity. Qed.
Example test_zeros_like_c : run_test (c_backend lm) c_eq c_close test_zeros_like = true. Proof. vm_compute. reflexivity. Qed.

(* test.py:70-74 *)
Definition test_neg : list tstep :=
  [TCall (CArange (6));
   TCall (CUnary UNeg 0);
   TMat 1;
   TList 1 [] (Nest [Leaf (NInt (0)); Leaf (NInt (-1)); Leaf (NInt (-2)); Leaf (NInt (-3)); Leaf (NInt (-4)); Leaf (NInt (-5))])].
Example test_neg_py : run_test (py_backend lm) py_eq py_close test_neg = true. Proof. vm_compute. reflexivity. Qed.
Example test_neg_c : run_test (c_backend lm) c_eq c_close test_neg = true. Proof. vm_compute. reflexivity. Qed.

(* test.py:76-81 *)
Definition test_neg_to_neg : list tstep :=
  [TCall (CArange (6));
   TCall (CUnary UNeg 0);
   TCall (CUnary UNeg 1);
   TMat 2;
   TList 2 [] (Nest [Leaf (NInt (0)); Leaf (NInt (1)); Leaf (NInt (2)); Leaf (NInt (3)); Leaf (NInt (4)); Leaf (NInt (5))])].
Example test_neg_to_neg_py : run_test (py_backend lm) py_eq py_close test_neg_to_neg = true. Proof. vm_compute. reflexivity. Qed.
Example test_neg_to_neg_c : run_test (c_backend lm) c_eq c_close test_neg_to_neg = true. Proof. vm_compute. reflexivity. Qed.

(* test.py:87-92 *)
Definition test_add : list tstep :=
  [TCall (CArange (6));
   TCall (CArange (6));
   TCall (CBinary BAdd 0 1);
   TMat 2;
   TList 2 [] (Nest [Leaf (NInt (0)); Leaf (NInt (2)); Leaf (NInt (4)); Leaf (NInt (6)); Leaf (NInt (8)); Leaf (NInt (10))])].
Example test_add_py : run_test (py_backend lm) py_eq py_close test_add = true. Proof. vm_compute. reflexivity. Qed.
Example test_add_c : run_test (c_backend lm) c_eq c_close test_add = true. Proof. vm_compute. reflexivity. Qed.

(* test.py:94-99 *)
Definition test_sub : list tstep :=
  [TCall (CArange (6));
   TCall (CArange (6));
   TCall (CBinary BSub 0 1);
   TMat 2;
   TList 2 [] (Nest [Leaf (NInt (0)); Leaf (NInt (0)); Leaf (NInt (0)); Leaf (NInt (0)); Leaf (NInt (0)); Leaf (NInt (0))])].
Example test_sub_py : run_test (py_backend lm) py_eq py_close test_sub = true. Proof. vm_compute. reflexivity. Qed.
Example test_sub_c : run_test (c_backend lm) c_eq c_close test_sub = true. Proof. vm_compute. reflexivity. Qed.

(* test.py:101-106 *)
Definition test_mul : list tstep :=
  [TCall (CArange (6));
   TCall (CFullLike 0 (NInt (2)));
   TCall (CBinary BMul 0 1);
   TMat 2;
   TList 2 [] (Nest [Leaf (NInt (0)); Leaf (NInt (2)); Leaf (NInt (4)); Leaf (NInt (6)); Leaf (NInt (8)); Leaf (NInt (10))])].
Example test_mul_py : run_test (py_backend lm) py_eq py_close test_mul = true. Proof. vm_compute. reflexivity. Qed.
Example test_mul_c : run_test (c_backend lm) c_eq c_close test_mul = true. Proof. vm_compute. reflexivity. Qed.

(* test.py:108-113 *)
Definition test_pow : list tstep :=
  [TCall (CArange (6));
   TCall (CFullLike 0 (NInt (2)));
   TCall (CBinary BPow 0 1);
   TMat 2;
   TList 2 [] (Nest [Leaf (NInt (0)); Leaf (NInt (1)); Leaf (NInt (4)); Leaf (NInt (9)); Leaf (NInt (16)); Leaf (NInt (25))])].
Example test_pow_py : run_test (py_backend lm) py_eq py_close test_pow = true. Proof. vm_compute. reflexivity. Qed.
Example test_pow_c : run_test (c_backend lm) c_eq c_close test_pow = true. Proof. vm_compute. reflexivity. Qed.

(* test.py:115-123 *)
Definition test_add_sub_mul_div : list tstep :=
  [TCall (CArray (Nest [Nest [Leaf (NInt (1)); Leaf (NInt (2)); Leaf (NInt (3))]; Nest [Leaf (NInt (4)); Leaf (NInt (5)); Leaf (NInt (6))]]));
   TCall (CArray (Nest [Nest [Leaf (NInt (1)); Leaf (NInt (2)); Leaf (NInt (3))]; Nest [Leaf (NInt (1)); Leaf (NInt (2)); Leaf (NInt (3))]]));
   TCall (CArray (Nest [Nest [Leaf (NInt (2)); Leaf (NInt (2)); Leaf (NInt (2))]; Nest [Leaf (NInt (2)); Leaf (NInt (2)); Leaf (NInt (2))]]));
   TCall (CArray (Nest [Nest [Leaf (NInt (1)); Leaf (NInt (2)); Leaf (NInt (3))]; Nest [Leaf (NInt (4)); Leaf (NInt (5)); Leaf (NInt (6))]]));
   TCall (CArray (Nest [Nest [Leaf (NInt (2)); Leaf (NInt (2)); Leaf (NInt (2))]; Nest [Leaf (NInt (2)); Leaf (NInt (2)); Leaf (NInt (2))]]));
   TCall (CBinary BAdd 0 1);
   TCall (CBinary BMul 2 3);
   TCall (CBinary BTruediv 6 4);
   TCall (CBinary BSub 5 7);
   TMat 8;
   TList 8 [] (Nest [Nest [Leaf (NInt (1)); Leaf (NInt (2)); Leaf (NInt (3))]; Nest [Leaf (NInt (1)); Leaf (NInt (2)); Leaf (NInt (3))]])].
Example test_add_sub_mul_div_py : run_test (py_backend lm) py_eq py_close test_add_sub_mul_div = true. Proof. vm_compute. reflexivity. Qed.
Example test_add_sub_mul_div_c : run_test (c_backend lm) c_eq c_close test_add_sub_mul_div = true. Proof. vm_compute. reflexivity. Qed.

(* test.py:125-129 *)
Definition test_add_same_arr : list tstep :=
  [TCall (CArange (6));
   TCall (CBinary BAdd 0 0);
   TMat 1;
   TList 1 [] (Nest [Leaf (NInt (0)); Leaf (NInt (2)); Leaf (NInt (4)); Leaf (NInt (6)); Leaf (NInt (8)); Leaf (NInt (10))])].
Example test_add_same_arr_py : run_test (py_backend lm) py_eq py_close test_add_same_arr = true. Proof. vm_compute. reflexivity. Qed.
Example test_add_same_arr_c : run_test (c_backend lm) c_eq c_close test_add_same_arr = true. Proof. vm_compute. reflexivity. Qed.

(* test.py:131-136 *)
Definition test_truediv : list tstep :=
  [TCall (CArray (Nest [Leaf (NInt (6)); Leaf (NInt (4)); Leaf (NInt (2))]));
   TCall (CArray (Nest [Leaf (NInt (2)); Leaf (NInt (2)); Leaf (NInt (2))]));
   TCall (CBinary BTruediv 0 1);
   TMat 2;
   TList 2 [] (Nest [Leaf (NInt (3)); Leaf (NInt (2)); Leaf (NInt (1))])].
Example test_truediv_py : run_test (py_backend lm) py_eq py_close test_truediv = true. Proof. vm_compute. reflexivity. Qed.
Example test_truediv_c : run_test (c_backend lm) c_eq c_close test_truediv = true. Proof. vm_compute. reflexivity. Qed.

(* test.py:138-143 *)
Definition test_truediv_fractional : list tstep :=
  [TCall (CArray (Nest [Leaf (NFlt (1) (0)); Leaf (NFlt (3) (0)); Leaf (NFlt (5) (0))]));
   TCall (CArray (Nest [Leaf (NFlt (2) (0)); Leaf (NFlt (2) (0)); Leaf (NFlt (2) (0))]));
   TCall (CBinary BTruediv 0 1);
   TMat 2;
   TClose 2 [] (Nest [Leaf (NFlt (1) (-1)); Leaf (NFlt (3) (-1)); Leaf (NFlt (5) (-1))])].
Example test_truediv_fractional_py : run_test (py_backend lm) py_eq py_close test_truediv_fractional = true. Proof. vm_compute. reflexivity. Qed.
Example test_truediv_fractional_c : run_test (c_backend lm) c_eq c_close test_truediv_fractional = true. Proof. vm_compute. reflexivity. Qed.

(* test.py:149-154 *)
Definition test_sum_0 : list tstep :=
  [TCall (CArray (Nest [Nest [Leaf (NInt (1)); Leaf (NInt (2)); Leaf (NInt (3))]; Nest [Leaf (NInt (4)); Leaf (NInt (5)); Leaf (NInt (6))]]));
   TCall (CSum 0 (Some [0]) false);
   TMat 1;
   TList 1 [] (Nest [Leaf (NInt (5)); Leaf (NInt (7)); Leaf (NInt (9))]);
   TShape 1 [3]].
Example test_sum_0_py : run_test (py_backend lm) py_eq py_close test_sum_0 = true. Proof. vm_compute. reflexivity. Qed.
Example test_sum_0_c : run_test (c_backend lm) c_eq c_close test_sum_0 = true. Proof. vm_compute. reflexivity. Qed.

(* test.py:156-161 *)
Definition test_sum_1 : list tstep :=
  [TCall (CArray (Nest [Nest [Leaf (NInt (1)); Leaf (NInt (2)); Leaf (NInt (3))]; Nest [Leaf (NInt (4)); Leaf (NInt (5)); Leaf (NInt (6))]]));
   TCall (CSum 0 (Some [1]) false);
   TMat 1;
   TList 1 [] (Nest [Leaf (NInt (6)); Leaf (NInt (15))]);
   TShape 1 [2]].
Example test_sum_1_py : run_test (py_backend lm) py_eq py_close test_sum_1 = true. Proof. vm_compute. reflexivity. Qed.
Example test_sum_1_c : run_test (c_backend lm) c_eq c_close test_sum_1 = true. Proof. vm_compute. reflexivity. Qed.

(* test.py:163-168 *)
Definition test_sum_0_1 : list tstep :=
  [TCall (CArray (Nest [Nest [Nest [Leaf (NInt (1)); Leaf (NInt (2)); Leaf (NInt (3))]; Nest [Leaf (NInt (4)); Leaf (NInt (5)); Leaf (NInt (6))]]; Nest [Nest [Leaf (NInt (1)); Leaf (NInt (2)); Leaf (NInt (3))]; Nest [Leaf (NInt (4)); Leaf (NInt (5)); Leaf (NInt (6))]]]));
   TCall (CSum 0 (Some [0; 1]) false);
   TMat 1;
   TList 1 [] (Nest [Leaf (NInt (10)); Leaf (NInt (14)); Leaf (NInt (18))]);
   TShape 1 [3]].
Example test_sum_0_1_py : run_test (py_backend lm) py_eq py_close test_sum_0_1 = true. Proof. vm_compute. reflexivity. Qed.
Example test_sum_0_1_c : run_test (c_backend lm) c_eq c_close test_sum_0_1 = true. Proof. vm_compute. reflexivity. Qed.

(* test.py:170-175 *)
Definition test_sum_0_2 : list tstep :=
  [TCall (CArray (Nest [Nest [Nest [Leaf (NInt (1)); Leaf (NInt (2)); Leaf (NInt (3))]; Nest [Leaf (NInt (4)); Leaf (NInt (5)); Leaf (NInt (6))]]; Nest [Nest [Leaf (NInt (1)); Leaf (NInt (2)); Leaf (NInt (3))]; Nest [Leaf (NInt (4)); Leaf (NInt (5)); Leaf (NInt (6))]]]));
   TCall (CSum 0 (Some [0; 2]) false);
   TMat 1;
   TList 1 [] (Nest [Leaf (NInt (12)); Leaf (NInt (30))]);
   TShape 1 [2]].
Example test_sum_0_2_py : run_test (py_backend lm) py_eq py_close test_sum_0_2 = true. Proof. vm_compute. reflexivity. Qed.
Example test_sum_0_2_c : run_test (c_backend lm) c_eq c_close test_sum_0_2 = true. Proof. vm_compute. reflexivity. Qed.

(* test.py:177-182 *)
Definition test_sum_1_2 : list tstep :=
  [TCall (CArray (Nest [Nest [Nest [Leaf (NInt (1)); Leaf (NInt (2)); Leaf (NInt (3))]; Nest [Leaf (NInt (4)); Leaf (NInt (5)); Leaf (NInt (6))]]; Nest [Nest [Leaf (NInt (1)); Leaf (NInt (2)); Leaf (NInt (3))]; Nest [Leaf (NInt (4)); Leaf (NInt (5)); Leaf (NInt (6))]]]));
   TCall (CSum 0 (Some [1; 2]) false);
   TMat 1;
   TList 1 [] (Nest [Leaf (NInt (21)); Leaf (NInt (21))]);
   TShape 1 [2]].
Example test_sum_1_2_py : run_test (py_backend lm) py_eq py_close test_sum_1_2 = true. Proof. vm_compute. reflexivity. Qed.
Example test_sum_1_2_c : run_test (c_backend lm) c_eq c_close test_sum_1_2 = true. Proof. vm_compute. reflexivity. Qed.

(* test.py:184-189 *)
Definition test_sum_all : list tstep :=
  [TCall (CArray (Nest [Nest [Nest [Leaf (NInt (1)); Leaf (NInt (2)); Leaf (NInt (3))]; Nest [Leaf (NInt (4)); Leaf (NInt (5)); Leaf (NInt (6))]]; Nest [Nest [Leaf (NInt (1)); Leaf (NInt (2)); Leaf (NInt (3))]; Nest [Leaf (NInt (4)); Leaf (NInt (5)); Leaf (NInt (6))]]]));
   TCall (CSum 0 None false);
   TMat 1;
   TList 1 [] (Leaf (NInt (42)));
   TShape 1 []].
Example test_sum_all_py : run_test (py_backend lm) py_eq py_close test_sum_all = true. Proof. vm_compute. reflexivity. Qed.
Example test_sum_all_c : run_test (c_backend lm) c_eq c_close test_sum_all = true. Proof. vm_compute. reflexivity. Qed.

(* test.py:191-197 *)
Definition test_add_to_sum : list tstep :=
  [TCall (CArray (Nest [Nest [Leaf (NInt (1)); Leaf (NInt (2)); Leaf (NInt (3))]; Nest [Leaf (NInt (4)); Leaf (NInt (5)); Leaf (NInt (6))]]));
   TCall (CArray (Nest [Nest [Leaf (NInt (1)); Leaf (NInt (2)); Leaf (NInt (3))]; Nest [Leaf (NInt (1)); Leaf (NInt (2)); Leaf (NInt (3))]]));
   TCall (CBinary BAdd 0 1);
   TCall (CSum 2 (Some [0]) false);
   TMat 3;
   TList 3 [] (Nest [Leaf (NInt (7)); Leaf (NInt (11)); Leaf (NInt (15))])].
Example test_add_to_sum_py : run_test (py_backend lm) py_eq py_close test_add_to_sum = true. Proof. vm_compute. reflexivity. Qed.
Example test_add_to_sum_c : run_test (c_backend lm) c_eq c_close test_add_to_sum = true. Proof. vm_compute. reflexivity. Qed.

(* test.py:203-208 *)
Definition test_sum_keepdims_axis0 : list tstep :=
  [TCall (CArray (Nest [Nest [Leaf (NInt (1)); Leaf (NInt (2)); Leaf (NInt (3))]; Nest [Leaf (NInt (4)); Leaf (NInt (5)); Leaf (NInt (6))]]));
   TCall (CSum 0 (Some [0]) true);
   TMat 1;
   TShape 1 [1; 3];
   TList 1 [] (Nest [Nest [Leaf (NInt (5)); Leaf (NInt (7)); Leaf (NInt (9))]])].
Example test_sum_keepdims_axis0_py : run_test (py_backend lm) py_eq py_close test_sum_keepdims_axis0 = true. Proof. vm_compute. reflexivity. Qed.
Example test_sum_keepdims_axis0_c : run_test (c_backend lm) c_eq c_close test_sum_keepdims_axis0 = true. Proof. vm_compute. reflexivity. Qed.

(* test.py:210-215 *)
Definition test_sum_keepdims_axis1 : list tstep :=
  [TCall (CArray (Nest [Nest [Leaf (NInt (1)); Leaf (NInt (2)); Leaf (NInt (3))]; Nest [Leaf (NInt (4)); Leaf (NInt (5)); Leaf (NInt (6))]]));
   TCall (CSum 0 (Some [1]) true);
   TMat 1;
   TShape 1 [2; 1];
   TList 1 [] (Nest [Nest [Leaf (NInt (6))]; Nest [Leaf (NInt (15))]])].
Example test_sum_keepdims_axis1_py : run_test (py_backend lm) py_eq py_close test_sum_keepdims_axis1 = true. Proof. vm_compute. reflexivity. Qed.
Example test_sum_keepdims_axis1_c : run_test (c_backend lm) c_eq c_close test_sum_keepdims_axis1 = true. Proof. vm_compute. reflexivity. Qed.

(* test.py:217-222 *)
Definition test_sum_keepdims_multi_axis : list tstep :=
  [TCall (CArray (Nest [Nest [Nest [Leaf (NInt (1)); Leaf (NInt (2))]; Nest [Leaf (NInt (3)); Leaf (NInt (4))]]; Nest [Nest [Leaf (NInt (5)); Leaf (NInt (6))]; Nest [Leaf (NInt (7)); Leaf (NInt (8))]]]));
   TCall (CSum 0 (Some [0; 2]) true);
   TMat 1;
   TShape 1 [1; 2; 1];
   TList 1 [] (Nest [Nest [Nest [Leaf (NInt (14))]; Nest [Leaf (NInt (22))]]])].
Example test_sum_keepdims_multi_axis_py : run_test (py_backend lm) py_eq py_close test_sum_keepdims_multi_axis = true. Proof. vm_compute. reflexivity. Qed.
Example test_sum_keepdims_multi_axis_c : run_test (c_backend lm) c_eq c_close test_sum_keepdims_multi_axis = true. Proof. vm_compute. reflexivity. Qed.

(* test.py:228-258 *)
Definition test_view_materialize : list tstep :=
  [TCall (CArray (Nest [Nest [Leaf (NInt (1)); Leaf (NInt (2)); Leaf (NInt (3))]; Nest [Leaf (NInt (4)); Leaf (NInt (5)); Leaf (NInt (6))]]));
   TMat 0;
   TShape 0 [2; 3];
   TList 0 [] (Nest [Nest [Leaf (NInt (1)); Leaf (NInt (2)); Leaf (NInt (3))]; Nest [Leaf (NInt (4)); Leaf (NInt (5)); Leaf (NInt (6))]]);
   TInvokes 0;
   TCall (CReshape 0 [3; 2]);
   TMat 1;
   TShape 1 [3; 2];
   TList 1 [] (Nest [Nest [Leaf (NInt (1)); Leaf (NInt (2))]; Nest [Leaf (NInt (3)); Leaf (NInt (4))]; Nest [Leaf (NInt (5)); Leaf (NInt (6))]]);
   TInvokes 0;
   TCall (CReshape 1 [1; 6]);
   TMat 2;
   TShape 2 [1; 6];
   TList 2 [] (Nest [Nest [Leaf (NInt (1)); Leaf (NInt (2)); Leaf (NInt (3)); Leaf (NInt (4)); Leaf (NInt (5)); Leaf (NInt (6))]]);
   TInvokes 0;
   TCall (CTranspose 2 [1; 0]);
   TMat 3;
   TShape 3 [6; 1];
   TList 3 [] (Nest [Nest [Leaf (NInt (1))]; Nest [Leaf (NInt (2))]; Nest [Leaf (NInt (3))]; Nest [Leaf (NInt (4))]; Nest [Leaf (NInt (5))]; Nest [Leaf (NInt (6))]]);
   TInvokes 0;
   TCall (CReshape 3 [2; 3]);
   TMat 4;
   TShape 4 [2; 3];
   TList 4 [] (Nest [Nest [Leaf (NInt (1)); Leaf (NInt (2)); Leaf (NInt (3))]; Nest [Leaf (NInt (4)); Leaf (NInt (5)); Leaf (NInt (6))]]);
   TInvokes 1].
Example test_view_materialize_py : run_test (py_backend lm) py_eq py_close test_view_materialize = true. Proof. vm_compute. reflexivity. Qed.
Example test_view_materialize_c : run_test (c_backend lm) c_eq c_close test_view_materialize = true. Proof. vm_compute. reflexivity. Qed.

(* test.py:264-270 *)
Definition test_2_3_mul_3_to_2_3 : list tstep :=
  [TCall (CArray (Nest [Nest [Leaf (NInt (1)); Leaf (NInt (2)); Leaf (NInt (3))]; Nest [Leaf (NInt (4)); Leaf (NInt (5)); Leaf (NInt (6))]]));
   TCall (CArray (Nest [Leaf (NInt (2)); Leaf (NInt (2)); Leaf (NInt (2))]));
   TCall (CBinary BMul 0 1);
   TMat 2;
   TShape 2 [2; 3];
   TList 2 [] (Nest [Nest [Leaf (NInt (2)); Leaf (NInt (4)); Leaf (NInt (6))]; Nest [Leaf (NInt (8)); Leaf (NInt (10)); Leaf (NInt (12))]])].
Example test_2_3_mul_3_to_2_3_py : run_test (py_backend lm) py_eq py_close test_2_3_mul_3_to_2_3 = true. Proof. vm_compute. reflexivity. Qed.
Example test_2_3_mul_3_to_2_3_c : run_test (c_backend lm) c_eq c_close test_2_3_mul_3_to_2_3 = true. Proof. vm_compute. reflexivity. Qed.

(* test.py:272-278 *)
Definition test_2_3_mul_1_1_to_2_3 : list tstep :=
  [TCall (CArray (Nest [Nest [Leaf (NInt (1)); Leaf (NInt (2)); Leaf (NInt (3))]; Nest [Leaf (NInt (4)); Leaf (NInt (5)); Leaf (NInt (6))]]));
   TCall (CArray (Nest [Nest [Leaf (NInt (2))]]));
   TCall (CBinary BMul 0 1);
   TMat 2;
   TShape 2 [2; 3];
   TList 2 [] (Nest [Nest [Leaf (NInt (2)); Leaf (NInt (4)); Leaf (NInt (6))]; Nest [Leaf (NInt (8)); Leaf (NInt (10)); Leaf (NInt (12))]])].
Example test_2_3_mul_1_1_to_2_3_py : run_test (py_backend lm) py_eq py_close test_2_3_mul_1_1_to_2_3 = true. Proof. vm_compute. reflexivity. Qed.
Example test_2_3_mul_1_1_to_2_3_c : run_test (c_backend lm) c_eq c_close test_2_3_mul_1_1_to_2_3 = true. Proof. vm_compute. reflexivity. Qed.

(* test.py:280-286 *)
Definition test_2_3_mul_1_1_1_to_1_2_3 : list tstep :=
  [TCall (CArray (Nest [Nest [Leaf (NInt (1)); Leaf (NInt (2)); Leaf (NInt (3))]; Nest [Leaf (NInt (4)); Leaf (NInt (5)); Leaf (NInt (6))]]));
   TCall (CArray (Nest [Nest [Nest [Leaf (NInt (2))]]]));
   TCall (CBinary BMul 0 1);
   TMat 2;
   TShape 2 [1; 2; 3];
   TList 2 [] (Nest [Nest [Nest [Leaf (NInt (2)); Leaf (NInt (4)); Leaf (NInt (6))]; Nest [Leaf (NInt (8)); Leaf (NInt (10)); Leaf (NInt (12))]]])].
Example test_2_3_mul_1_1_1_to_1_2_3_py : run_test (py_backend lm) py_eq py_close test_2_3_mul_1_1_1_to_1_2_3 = true. Proof. vm_compute. reflexivity. Qed.
Example test_2_3_mul_1_1_1_to_1_2_3_c : run_test (c_backend lm) c_eq c_close test_2_3_mul_1_1_1_to_1_2_3 = true. Proof. vm_compute. reflexivity. Qed.

(* test.py:288-295 *)
Definition test_sum_to_broadcast : list tstep :=
  [TCall (CArray (Nest [Nest [Nest [Leaf (NInt (1)); Leaf (NInt (2)); Leaf (NInt (3))]; Nest [Leaf (NInt (4)); Leaf (NInt (5)); Leaf (NInt (6))]]; Nest [Nest [Leaf (NInt (1)); Leaf (NInt (2)); Leaf (NInt (3))]; Nest [Leaf (NInt (4)); Leaf (NInt (5)); Leaf (NInt (6))]]]));
   TCall (CSum 0 (Some [1]) false);
   TCall (CArray (Nest [Leaf (NInt (2))]));
   TCall (CBinary BMul 1 2);
   TMat 3;
   TShape 1 [2; 3];
   TShape 3 [2; 3];
   TList 3 [] (Nest [Nest [Leaf (NInt (10)); Leaf (NInt (14)); Leaf (NInt (18))]; Nest [Leaf (NInt (10)); Leaf (NInt (14)); Leaf (NInt (18))]])].
Example test_sum_to_broadcast_py : run_test (py_backend lm) py_eq py_close test_sum_to_broadcast = true. Proof. vm_compute. reflexivity. Qed.
Example test_sum_to_broadcast_c : run_test (c_backend lm) c_eq c_close test_sum_to_broadcast = true. Proof. vm_compute. reflexivity. Qed.

(* test.py:297-302 *)
Definition test_2_3_mul_2_to_error : list tstep :=
  [TCall (CArray (Nest [Nest [Leaf (NInt (1)); Leaf (NInt (2)); Leaf (NInt (3))]; Nest [Leaf (NInt (4)); Leaf (NInt (5)); Leaf (NInt (6))]]));
   TCall (CArray (Nest [Leaf (NInt (2)); Leaf (NInt (2))]));
   TErr (CBinary BMul 0 1)].
Example test_2_3_mul_2_to_error_py : run_test (py_backend lm) py_eq py_close test_2_3_mul_2_to_error = true. Proof. vm_compute. reflexivity. Qed.
Example test_2_3_mul_2_to_error_c : run_test (c_backend lm) c_eq c_close test_2_3_mul_2_to_error = true. Proof. vm_compute. reflexivity. Qed.

(* test.py:308-313 *)
Definition test_transpose_2d : list tstep :=
  [TCall (CArray (Nest [Nest [Leaf (NInt (1)); Leaf (NInt (2)); Leaf (NInt (3))]; Nest [Leaf (NInt (4)); Leaf (NInt (5)); Leaf (NInt (6))]]));
   TCall (CTranspose 0 [1; 0]);
   TShape 1 [3; 2];
   TStrides 1 [1; 3];
   TList 1 [] (Nest [Nest [Leaf (NInt (1)); Leaf (NInt (4))]; Nest [Leaf (NInt (2)); Leaf (NInt (5))]; Nest [Leaf (NInt (3)); Leaf (NInt (6))]])].
Example test_transpose_2d_py : run_test (py_backend lm) py_eq py_close test_transpose_2d = true. Proof. vm_compute. reflexivity. Qed.
Example test_transpose_2d_c : run_test (c_backend lm) c_eq c_close test_transpose_2d = true. Proof. vm_compute. reflexivity. Qed.

(* test.py:315-319 *)
Definition test_transpose_3d : list tstep :=
  [TCall (CArray (Nest [Nest [Nest [Leaf (NInt (1)); Leaf (NInt (2))]; Nest [Leaf (NInt (3)); Leaf (NInt (4))]]; Nest [Nest [Leaf (NInt (5)); Leaf (NInt (6))]; Nest [Leaf (NInt (7)); Leaf (NInt (8))]]]));
   TCall (CTranspose 0 [2; 0; 1]);
   TShape 1 [2; 2; 2];
   TList 1 [] (Nest [Nest [Nest [Leaf (NInt (1)); Leaf (NInt (3))]; Nest [Leaf (NInt (5)); Leaf (NInt (7))]]; Nest [Nest [Leaf (NInt (2)); Leaf (NInt (4))]; Nest [Leaf (NInt (6)); Leaf (NInt (8))]]])].
Example test_transpose_3d_py : run_test (py_backend lm) py_eq py_close test_transpose_3d = true. Proof. vm_compute. reflexivity. Qed.
Example test_transpose_3d_c : run_test (c_backend lm) c_eq c_close test_transpose_3d = true. Proof. vm_compute. reflexivity. Qed.

(* test.py:321-325 *)
Definition test_T_property_2d : list tstep :=
  [TCall (CArray (Nest [Nest [Leaf (NInt (1)); Leaf (NInt (2)); Leaf (NInt (3))]; Nest [Leaf (NInt (4)); Leaf (NInt (5)); Leaf (NInt (6))]]));
   TCall (CT 0);
   TShape 1 [3; 2];
   TList 1 [] (Nest [Nest [Leaf (NInt (1)); Leaf (NInt (4))]; Nest [Leaf (NInt (2)); Leaf (NInt (5))]; Nest [Leaf (NInt (3)); Leaf (NInt (6))]])].
Example test_T_property_2d_py : run_test (py_backend lm) py_eq py_close test_T_property_2d = true. Proof. vm_compute. reflexivity. Qed.
Example test_T_property_2d_c : run_test (c_backend lm) c_eq c_close test_T_property_2d = true. Proof. vm_compute. reflexivity. Qed.

(* test.py:327-331 *)
Definition test_T_property_3d : list tstep :=
  [TCall (CArray (Nest [Nest [Nest [Leaf (NInt (1)); Leaf (NInt (2))]; Nest [Leaf (NInt (3)); Leaf (NInt (4))]]; Nest [Nest [Leaf (NInt (5)); Leaf (NInt (6))]; Nest [Leaf (NInt (7)); Leaf (NInt (8))]]]));
   TCall (CT 0);
   TShape 1 [2; 2; 2];
   TList 1 [] (Nest [Nest [Nest [Leaf (NInt (1)); Leaf (NInt (5))]; Nest [Leaf (NInt (3)); Leaf (NInt (7))]]; Nest [Nest [Leaf (NInt (2)); Leaf (NInt (6))]; Nest [Leaf (NInt (4)); Leaf (NInt (8))]]])].
Example test_T_property_3d_py : run_test (py_backend lm) py_eq py_close test_T_property_3d = true. Proof. vm_compute. reflexivity. Qed.
Example test_T_property_3d_c : run_test (c_backend lm) c_eq c_close test_T_property_3d = true. Proof. vm_compute. reflexivity. Qed.

(* test.py:333-336 *)
Definition test_T_1d_is_self : list tstep :=
  [TCall (CArange (5));
   TCall (CT 0);
   TSame 1 0].
Example test_T_1d_is_self_py : run_test (py_backend lm) py_eq py_close test_T_1d_is_self = true. Proof. vm_compute. reflexivity. Qed.
Example test_T_1d_is_self_c : run_test (c_backend lm) c_eq c_close test_T_1d_is_self = true. Proof. vm_compute. reflexivity. Qed.

(* test.py:338-342 *)
Definition test_double_transpose : list tstep :=
  [TCall (CArray (Nest [Nest [Leaf (NInt (1)); Leaf (NInt (2)); Leaf (NInt (3))]; Nest [Leaf (NInt (4)); Leaf (NInt (5)); Leaf (NInt (6))]]));
   TCall (CT 0);
   TCall (CT 1);
   TShape 2 [2; 3];
   TList 2 [] (Nest [Nest [Leaf (NInt (1)); Leaf (NInt (2)); Leaf (NInt (3))]; Nest [Leaf (NInt (4)); Leaf (NInt (5)); Leaf (NInt (6))]])].
Example test_double_transpose_py : run_test (py_backend lm) py_eq py_close test_double_transpose = true. Proof. vm_compute. reflexivity. Qed.
Example test_double_transpose_c : run_test (c_backend lm) c_eq c_close test_double_transpose = true. Proof. vm_compute. reflexivity. Qed.

(* test.py:344-348 *)
Definition test_transpose_no_materialize : list tstep :=
  [TCall (CArray (Nest [Nest [Leaf (NInt (1)); Leaf (NInt (2)); Leaf (NInt (3))]; Nest [Leaf (NInt (4)); Leaf (NInt (5)); Leaf (NInt (6))]]));
   TCall (CTranspose 0 [1; 0]);
   TList 1 [] (Nest [Nest [Leaf (NInt (1)); Leaf (NInt (4))]; Nest [Leaf (NInt (2)); Leaf (NInt (5))]; Nest [Leaf (NInt (3)); Leaf (NInt (6))]])].
Example test_transpose_no_materialize_py : run_test (py_backend lm) py_eq py_close test_transpose_no_materialize = true. Proof. vm_compute. reflexivity. Qed.
Example test_transpose_no_materialize_c : run_test (c_backend lm) c_eq c_close test_transpose_no_materialize = true. Proof. vm_compute. reflexivity. Qed.

(* test.py:350-356 *)
Definition test_transpose_then_add : list tstep :=
  [TCall (CArray (Nest [Nest [Leaf (NInt (1)); Leaf (NInt (2)); Leaf (NInt (3))]; Nest [Leaf (NInt (4)); Leaf (NInt (5)); Leaf (NInt (6))]]));
   TCall (CArray (Nest [Nest [Leaf (NInt (1)); Leaf (NInt (1))]; Nest [Leaf (NInt (1)); Leaf (NInt (1))]; Nest [Leaf (NInt (1)); Leaf (NInt (1))]]));
   TCall (CT 0);
   TCall (CBinary BAdd 2 1);
   TMat 3;
   TShape 3 [3; 2];
   TList 3 [] (Nest [Nest [Leaf (NInt (2)); Leaf (NInt (5))]; Nest [Leaf (NInt (3)); Leaf (NInt (6))]; Nest [Leaf (NInt (4)); Leaf (NInt (7))]])].
Example test_transpose_then_add_py : run_test (py_backend lm) py_eq py_close test_transpose_then_add = true. Proof. vm_compute. reflexivity. Qed.
Example test_transpose_then_add_c : run_test (c_backend lm) c_eq c_close test_transpose_then_add = true. Proof. vm_compute. reflexivity. Qed.

(* test.py:358-364 *)
Definition test_transpose_then_sum_axis0 : list tstep :=
  [TCall (CArray (Nest [Nest [Leaf (NInt (1)); Leaf (NInt (2)); Leaf (NInt (3))]; Nest [Leaf (NInt (4)); Leaf (NInt (5)); Leaf (NInt (6))]]));
   TCall (CT 0);
   TCall (CSum 1 (Some [0]) false);
   TMat 2;
   TShape 2 [2];
   TList 2 [] (Nest [Leaf (NInt (6)); Leaf (NInt (15))])].
Example test_transpose_then_sum_axis0_py : run_test (py_backend lm) py_eq py_close test_transpose_then_sum_axis0 = true. Proof. vm_compute. reflexivity. Qed.
Example test_transpose_then_sum_axis0_c : run_test (c_backend lm) c_eq c_close test_transpose_then_sum_axis0 = true. Proof. vm_compute. reflexivity. Qed.

(* test.py:366-372 *)
Definition test_transpose_then_sum_axis1 : list tstep :=
  [TCall (CArray (Nest [Nest [Leaf (NInt (1)); Leaf (NInt (2)); Leaf (NInt (3))]; Nest [Leaf (NInt (4)); Leaf (NInt (5)); Leaf (NInt (6))]]));
   TCall (CT 0);
   TCall (CSum 1 (Some [1]) false);
   TMat 2;
   TShape 2 [3];
   TList 2 [] (Nest [Leaf (NInt (5)); Leaf (NInt (7)); Leaf (NInt (9))])].
Example test_transpose_then_sum_axis1_py : run_test (py_backend lm) py_eq py_close test_transpose_then_sum_axis1 = true. Proof. vm_compute. reflexivity. Qed.
Example test_transpose_then_sum_axis1_c : run_test (c_backend lm) c_eq c_close test_transpose_then_sum_axis1 = true. Proof. vm_compute. reflexivity. Qed.

(* test.py:374-377 *)
Definition test_transpose_wrong_axes_error : list tstep :=
  [TCall (CArray (Nest [Nest [Leaf (NInt (1)); Leaf (NInt (2)); Leaf (NInt (3))]; Nest [Leaf (NInt (4)); Leaf (NInt (5)); Leaf (NInt (6))]]));
   TErr (CTranspose 0 [0; 2])].
Example test_transpose_wrong_axes_error_py : run_test (py_backend lm) py_eq py_close test_transpose_wrong_axes_error = true. Proof. vm_compute. reflexivity. Qed.
Example test_transpose_wrong_axes_error_c : run_test (c_backend lm) c_eq c_close test_transpose_wrong_axes_error = true. Proof. vm_compute. reflexivity. Qed.

(* test.py:383-387 *)
Definition test_reshape_1d_to_2d : list tstep :=
  [TCall (CArange (6));
   TCall (CReshape 0 [2; 3]);
   TShape 1 [2; 3];
   TList 1 [] (Nest [Nest [Leaf (NInt (0)); Leaf (NInt (1)); Leaf (NInt (2))]; Nest [Leaf (NInt (3)); Leaf (NInt (4)); Leaf (NInt (5))]])].
Example test_reshape_1d_to_2d_py : run_test (py_backend lm) py_eq py_close test_reshape_1d_to_2d = true. Proof. vm_compute. reflexivity. Qed.
Example test_reshape_1d_to_2d_c : run_test (c_backend lm) c_eq c_close test_reshape_1d_to_2d = true. Proof. vm_compute. reflexivity. Qed.

(* test.py:389-393 *)
Definition test_reshape_2d_to_1d : list tstep :=
  [TCall (CArray (Nest [Nest [Leaf (NInt (1)); Leaf (NInt (2)); Leaf (NInt (3))]; Nest [Leaf (NInt (4)); Leaf (NInt (5)); Leaf (NInt (6))]]));
   TCall (CReshape 0 [6]);
   TShape 1 [6];
   TList 1 [] (Nest [Leaf (NInt (1)); Leaf (NInt (2)); Leaf (NInt (3)); Leaf (NInt (4)); Leaf (NInt (5)); Leaf (NInt (6))])].
Example test_reshape_2d_to_1d_py : run_test (py_backend lm) py_eq py_close test_reshape_2d_to_1d = true. Proof. vm_compute. reflexivity. Qed.
Example test_reshape_2d_to_1d_c : run_test (c_backend lm) c_eq c_close test_reshape_2d_to_1d = true. Proof. vm_compute. reflexivity. Qed.

(* test.py:395-399 *)
Definition test_reshape_2d_to_2d : list tstep :=
  [TCall (CArray (Nest [Nest [Leaf (NInt (1)); Leaf (NInt (2)); Leaf (NInt (3))]; Nest [Leaf (NInt (4)); Leaf (NInt (5)); Leaf (NInt (6))]]));
   TCall (CReshape 0 [3; 2]);
   TShape 1 [3; 2];
   TList 1 [] (Nest [Nest [Leaf (NInt (1)); Leaf (NInt (2))]; Nest [Leaf (NInt (3)); Leaf (NInt (4))]; Nest [Leaf (NInt (5)); Leaf (NInt (6))]])].
Example test_reshape_2d_to_2d_py : run_test (py_backend lm) py_eq py_close test_reshape_2d_to_2d = true. Proof. vm_compute. reflexivity. Qed.
Example test_reshape_2d_to_2d_c : run_test (c_backend lm) c_eq c_close test_reshape_2d_to_2d = true. Proof. vm_compute. reflexivity. Qed.

(* test.py:401-405 *)
Definition test_reshape_no_materialize : list tstep :=
  [TCall (CArray (Nest [Nest [Leaf (NInt (0)); Leaf (NInt (1)); Leaf (NInt (2))]; Nest [Leaf (NInt (3)); Leaf (NInt (4)); Leaf (NInt (5))]]));
   TCall (CReshape 0 [6]);
   TList 1 [] (Nest [Leaf (NInt (0)); Leaf (NInt (1)); Leaf (NInt (2)); Leaf (NInt (3)); Leaf (NInt (4)); Leaf (NInt (5))])].
Example test_reshape_no_materialize_py : run_test (py_backend lm) py_eq py_close test_reshape_no_materialize = true. Proof. vm_compute. reflexivity. Qed.
Example test_reshape_no_materialize_c : run_test (c_backend lm) c_eq c_close test_reshape_no_materialize = true. Proof. vm_compute. reflexivity. Qed.

(* test.py:407-411 *)
Definition test_reshape_then_sum : list tstep :=
  [TCall (CArray (Nest [Nest [Leaf (NInt (1)); Leaf (NInt (2)); Leaf (NInt (3))]; Nest [Leaf (NInt (4)); Leaf (NInt (5)); Leaf (NInt (6))]]));
   TCall (CReshape 0 [6]);
   TCall (CSum 1 None false);
   TMat 2;
   TList 2 [] (Leaf (NInt (21)))].
Example test_reshape_then_sum_py : run_test (py_backend lm) py_eq py_close test_reshape_then_sum = true. Proof. vm_compute. reflexivity. Qed.
Example test_reshape_then_sum_c : run_test (c_backend lm) c_eq c_close test_reshape_then_sum = true. Proof. vm_compute. reflexivity. Qed.

(* test.py:413-418 *)
Definition test_reshape_then_add : list tstep :=
  [TCall (CArray (Nest [Nest [Leaf (NInt (1)); Leaf (NInt (2)); Leaf (NInt (3))]; Nest [Leaf (NInt (4)); Leaf (NInt (5)); Leaf (NInt (6))]]));
   TCall (CArray (Nest [Leaf (NInt (1)); Leaf (NInt (1)); Leaf (NInt (1)); Leaf (NInt (1)); Leaf (NInt (1)); Leaf (NInt (1))]));
   TCall (CReshape 0 [6]);
   TCall (CBinary BAdd 2 1);
   TMat 3;
   TList 3 [] (Nest [Leaf (NInt (2)); Leaf (NInt (3)); Leaf (NInt (4)); Leaf (NInt (5)); Leaf (NInt (6)); Leaf (NInt (7))])].
Example test_reshape_then_add_py : run_test (py_backend lm) py_eq py_close test_reshape_then_add = true. Proof. vm_compute. reflexivity. Qed.
Example test_reshape_then_add_c : run_test (c_backend lm) c_eq c_close test_reshape_then_add = true. Proof. vm_compute. reflexivity. Qed.

(* test.py:420-427 *)
Definition test_noncontiguous_reshape : list tstep :=
  [TCall (CArray (Nest [Nest [Leaf (NInt (1)); Leaf (NInt (2)); Leaf (NInt (3))]; Nest [Leaf (NInt (4)); Leaf (NInt (5)); Leaf (NInt (6))]]));
   TCall (CT 0);
   TCall (CReshape 1 [6]);
   TMat 2;
   TShape 2 [6];
   TList 2 [] (Nest [Leaf (NInt (1)); Leaf (NInt (4)); Leaf (NInt (2)); Leaf (NInt (5)); Leaf (NInt (3)); Leaf (NInt (6))])].
Example test_noncontiguous_reshape_py : run_test (py_backend lm) py_eq py_close test_noncontiguous_reshape = true. Proof. vm_compute. reflexivity. Qed.
Example test_noncontiguous_reshape_c : run_test (c_backend lm) c_eq c_close test_noncontiguous_reshape = true. Proof. vm_compute. reflexivity. Qed.

(* test.py:429-432 *)
Definition test_reshape_wrong_size_error : list tstep :=
  [TCall (CArray (Nest [Nest [Leaf (NInt (1)); Leaf (NInt (2)); Leaf (NInt (3))]; Nest [Leaf (NInt (4)); Leaf (NInt (5)); Leaf (NInt (6))]]));
   TErr (CReshape 0 [5])].
Example test_reshape_wrong_size_error_py : run_test (py_backend lm) py_eq py_close test_reshape_wrong_size_error = true. Proof. vm_compute. reflexivity. Qed.
Example test_reshape_wrong_size_error_c : run_test (c_backend lm) c_eq c_close test_reshape_wrong_size_error = true. Proof. vm_compute. reflexivity. Qed.

(* test.py:434-439 *)
Definition test_reshape_3d : list tstep :=
  [TCall (CArange (24));
   TCall (CReshape 0 [2; 3; 4]);
   TShape 1 [2; 3; 4];
   TList 1 [0%nat; 0%nat] (Nest [Leaf (NInt (0)); Leaf (NInt (1)); Leaf (NInt (2)); Leaf (NInt (3))]);
   TList 1 [1%nat; 2%nat] (Nest [Leaf (NInt (20)); Leaf (NInt (21)); Leaf (NInt (22)); Leaf (NInt (23))])].
Example test_reshape_3d_py : run_test (py_backend lm) py_eq py_close test_reshape_3d = true. Proof. vm_compute. reflexivity. Qed.
Example test_reshape_3d_c : run_test (c_backend lm) c_eq c_close test_reshape_3d = true. Proof. vm_compute. reflexivity. Qed.

(* test.py:445-447 *)
Definition test_is_contiguous_for_array : list tstep :=
  [TCall (CArray (Nest [Nest [Leaf (NInt (1)); Leaf (NInt (2)); Leaf (NInt (3))]; Nest [Leaf (NInt (4)); Leaf (NInt (5)); Leaf (NInt (6))]]));
   TContig 0 true].
Example test_is_contiguous_for_array_py : run_test (py_backend lm) py_eq py_close test_is_contiguous_for_array = true. Proof. vm_compute. reflexivity. Qed.
Example test_is_contiguous_for_array_c : run_test (c_backend lm) c_eq c_close test_is_contiguous_for_array = true. Proof. vm_compute. reflexivity. Qed.

(* test.py:449-452 *)
Definition test_is_contiguous_for_transposed : list tstep :=
  [TCall (CArray (Nest [Nest [Leaf (NInt (1)); Leaf (NInt (2)); Leaf (NInt (3))]; Nest [Leaf (NInt (4)); Leaf (NInt (5)); Leaf (NInt (6))]]));
   TCall (CT 0);
   TContig 1 false].
Example test_is_contiguous_for_transposed_py : run_test (py_backend lm) py_eq py_close test_is_contiguous_for_transposed = true. Proof. vm_compute. reflexivity. Qed.
Example test_is_contiguous_for_transposed_c : run_test (c_backend lm) c_eq c_close test_is_contiguous_for_transposed = true. Proof. vm_compute. reflexivity. Qed.

(* test.py:454-457 *)
Definition test_contiguous_already_contiguous_is_same : list tstep :=
  [TCall (CArray (Nest [Nest [Leaf (NInt (1)); Leaf (NInt (2)); Leaf (NInt (3))]; Nest [Leaf (NInt (4)); Leaf (NInt (5)); Leaf (NInt (6))]]));
   TCall (CContiguous 0);
   TSame 1 0].
Example test_contiguous_already_contiguous_is_same_py : run_test (py_backend lm) py_eq py_close test_contiguous_already_contiguous_is_same = true. Proof. vm_compute. reflexivity. Qed.
Example test_contiguous_already_contiguous_is_same_c : run_test (c_backend lm) c_eq c_close test_contiguous_already_contiguous_is_same = true. Proof. vm_compute. reflexivity. Qed.

(* test.py:459-466 *)
Definition test_contiguous_of_transposed : list tstep :=
  [TCall (CArray (Nest [Nest [Leaf (NInt (1)); Leaf (NInt (2)); Leaf (NInt (3))]; Nest [Leaf (NInt (4)); Leaf (NInt (5)); Leaf (NInt (6))]]));
   TCall (CT 0);
   TCall (CContiguous 1);
   TMat 2;
   TShape 2 [3; 2];
   TContig 2 true;
   TList 2 [] (Nest [Nest [Leaf (NInt (1)); Leaf (NInt (4))]; Nest [Leaf (NInt (2)); Leaf (NInt (5))]; Nest [Leaf (NInt (3)); Leaf (NInt (6))]])].
Example test_contiguous_of_transposed_py : run_test (py_backend lm) py_eq py_close test_contiguous_of_transposed = true. Proof. vm_compute. reflexivity. Qed.
Example test_contiguous_of_transposed_c : run_test (c_backend lm) c_eq c_close test_contiguous_of_transposed = true. Proof. vm_compute. reflexivity. Qed.

(* test.py:472-476 *)
Definition test_float_array_dtype : list tstep :=
  [TCall (CArray (Nest [Leaf (NFlt (1) (0)); Leaf (NFlt (2) (0)); Leaf (NFlt (3) (0))]));
   TDtype 0 Float64;
   TShape 0 [3];
   TList 0 [] (Nest [Leaf (NFlt (1) (0)); Leaf (NFlt (2) (0)); Leaf (NFlt (3) (0))])].
Example test_float_array_dtype_py : run_test (py_backend lm) py_eq py_close test_float_array_dtype = true. Proof. vm_compute. reflexivity. Qed.
Example test_float_array_dtype_c : run_test (c_backend lm) c_eq c_close test_float_array_dtype = true. Proof. vm_compute. reflexivity. Qed.

(* test.py:478-482 *)
Definition test_float_2d_array : list tstep :=
  [TCall (CArray (Nest [Nest [Leaf (NFlt (3) (-1)); Leaf (NFlt (5) (-1))]; Nest [Leaf (NFlt (7) (-1)); Leaf (NFlt (9) (-1))]]));
   TDtype 0 Float64;
   TShape 0 [2; 2];
   TList 0 [] (Nest [Nest [Leaf (NFlt (3) (-1)); Leaf (NFlt (5) (-1))]; Nest [Leaf (NFlt (7) (-1)); Leaf (NFlt (9) (-1))]])].
Example test_float_2d_array_py : run_test (py_backend lm) py_eq py_close test_float_2d_array = true. Proof. vm_compute. reflexivity. Qed.
Example test_float_2d_array_c : run_test (c_backend lm) c_eq c_close test_float_2d_array = true. Proof. vm_compute. reflexivity. Qed.

(* test.py:484-489 *)
Definition test_float_add : list tstep :=
  [TCall (CArray (Nest [Leaf (NFlt (3) (-1)); Leaf (NFlt (5) (-1)); Leaf (NFlt (7) (-1))]));
   TCall (CArray (Nest [Leaf (NFlt (1) (-1)); Leaf (NFlt (1) (-1)); Leaf (NFlt (1) (-1))]));
   TCall (CBinary BAdd 0 1);
   TMat 2;
   TList 2 [] (Nest [Leaf (NFlt (2) (0)); Leaf (NFlt (3) (0)); Leaf (NFlt (4) (0))])].
Example test_float_add_py : run_test (py_backend lm) py_eq py_close test_float_add = true. Proof. vm_compute. reflexivity. Qed.
Example test_float_add_c : run_test (c_backend lm) c_eq c_close test_float_add = true. Proof. vm_compute. reflexivity. Qed.

(* test.py:491-496 *)
Definition test_float_sub : list tstep :=
  [TCall (CArray (Nest [Leaf (NFlt (3) (0)); Leaf (NFlt (5) (0)); Leaf (NFlt (7) (0))]));
   TCall (CArray (Nest [Leaf (NFlt (3) (-1)); Leaf (NFlt (5) (-1)); Leaf (NFlt (7) (-1))]));
   TCall (CBinary BSub 0 1);
   TMat 2;
   TList 2 [] (Nest [Leaf (NFlt (3) (-1)); Leaf (NFlt (5) (-1)); Leaf (NFlt (7) (-1))])].
Example test_float_sub_py : run_test (py_backend lm) py_eq py_close test_float_sub = true. Proof. vm_compute. reflexivity. Qed.
Example test_float_sub_c : run_test (c_backend lm) c_eq c_close test_float_sub = true. Proof. vm_compute. reflexivity. Qed.

(* test.py:498-503 *)
Definition test_float_mul : list tstep :=
  [TCall (CArray (Nest [Leaf (NFlt (3) (-1)); Leaf (NFlt (2) (0)); Leaf (NFlt (4) (0))]));
   TCall (CArray (Nest [Leaf (NFlt (2) (0)); Leaf (NFlt (3) (0)); Leaf (NFlt (1) (-1))]));
   TCall (CBinary BMul 0 1);
   TMat 2;
   TList 2 [] (Nest [Leaf (NFlt (3) (0)); Leaf (NFlt (6) (0)); Leaf (NFlt (2) (0))])].
Example test_float_mul_py : run_test (py_backend lm) py_eq py_close test_float_mul = true. Proof. vm_compute. reflexivity. Qed.
Example test_float_mul_c : run_test (c_backend lm) c_eq c_close test_float_mul = true. Proof. vm_compute. reflexivity. Qed.

(* test.py:505-509 *)
Definition test_float_neg : list tstep :=
  [TCall (CArray (Nest [Leaf (NFlt (3) (-1)); Leaf (NFlt (-5) (-1)); Leaf (NFlt (3) (0))]));
   TCall (CUnary UNeg 0);
   TMat 1;
   TList 1 [] (Nest [Leaf (NFlt (-3) (-1)); Leaf (NFlt (5) (-1)); Leaf (NFlt (-3) (0))])].
Example test_float_neg_py : run_test (py_backend lm) py_eq py_close test_float_neg = true. Proof. vm_compute. reflexivity. Qed.
Example test_float_neg_c : run_test (c_backend lm) c_eq c_close test_float_neg = true. Proof. vm_compute. reflexivity. Qed.

(* test.py:511-516 *)
Definition test_float_pow : list tstep :=
  [TCall (CArray (Nest [Leaf (NFlt (1) (0)); Leaf (NFlt (2) (0)); Leaf (NFlt (3) (0))]));
   TCall (CArray (Nest [Leaf (NFlt (2) (0)); Leaf (NFlt (2) (0)); Leaf (NFlt (2) (0))]));
   TCall (CBinary BPow 0 1);
   TMat 2;
   TList 2 [] (Nest [Leaf (NFlt (1) (0)); Leaf (NFlt (4) (0)); Leaf (NFlt (9) (0))])].
Example test_float_pow_py : run_test (py_backend lm) py_eq py_close test_float_pow = true. Proof. vm_compute. reflexivity. Qed.
Example test_float_pow_c : run_test (c_backend lm) c_eq c_close test_float_pow = true. Proof. vm_compute. reflexivity. Qed.

(* test.py:518-522 *)
Definition test_float_sum : list tstep :=
  [TCall (CArray (Nest [Nest [Leaf (NFlt (3) (-1)); Leaf (NFlt (5) (-1)); Leaf (NFlt (3) (0))]; Nest [Leaf (NFlt (4) (0)); Leaf (NFlt (5) (0)); Leaf (NFlt (6) (0))]]));
   TCall (CSum 0 (Some [1]) false);
   TMat 1;
   TClose 1 [] (Nest [Leaf (NFlt (7) (0)); Leaf (NFlt (15) (0))])].
Example test_float_sum_py : run_test (py_backend lm) py_eq py_close test_float_sum = true. Proof. vm_compute. reflexivity. Qed.
Example test_float_sum_c : run_test (c_backend lm) c_eq c_close test_float_sum = true. Proof. vm_compute. reflexivity. Qed.

(* test.py:524-526 *)
Definition test_int_array_dtype : list tstep :=
  [TCall (CArray (Nest [Leaf (NInt (1)); Leaf (NInt (2)); Leaf (NInt (3))]));
   TDtype 0 Int64].
Example test_int_array_dtype_py : run_test (py_backend lm) py_eq py_close test_int_array_dtype = true. Proof. vm_compute. reflexivity. Qed.
Example test_int_array_dtype_c : run_test (c_backend lm) c_eq c_close test_int_array_dtype = true. Proof. vm_compute. reflexivity. Qed.

(* test.py:532-539 *)
Definition test_large_1d_add : list tstep :=
  [TCall (CArange (1000));
   TCall (CArange (1000));
   TCall (CBinary BAdd 0 1);
   TMat 2;
   TList 2 [] (Nest [Leaf (NInt (0)); Leaf (NInt (2)); Leaf (NInt (4)); Leaf (NInt (6)); Leaf (NInt (8)); Leaf (NInt (10)); Leaf (NInt (12)); Leaf (NInt (14)); Leaf (NInt (16)); Leaf (NInt (18)); Leaf (NInt (20)); Leaf (NInt (22)); Leaf (NInt (24)); Leaf (NInt (26)); Leaf (NInt (28)); Leaf (NInt (30)); Leaf (NInt (32)); Leaf (NInt (34)); Leaf (NInt (36)); Leaf (NInt (38)); Leaf (NInt (40)); Leaf (NInt (42)); Leaf (NInt (44)); Leaf (NInt (46)); Leaf (NInt (48)); Leaf (NInt (50)); Leaf (NInt (52)); Leaf (NInt (54)); Leaf (NInt (56)); Leaf (NInt (58)); Leaf (NInt (60)); Leaf (NInt (62)); Leaf (NInt (64)); Leaf (NInt (66)); Leaf (NInt (68)); Leaf (NInt (70)); Leaf (NInt (72)); Leaf (NInt (74)); Leaf (NInt (76)); Leaf (NInt (78)); Leaf (NInt (80)); Leaf (NInt (82)); Leaf (NInt (84)); Leaf (NInt (86)); Leaf (NInt (88)); Leaf (NInt (90)); Leaf (NInt (92)); Leaf (NInt (94)); Leaf (NInt (96)); Leaf (NInt (98)); Leaf (NInt (100)); Leaf (NInt (102)); Leaf (NInt (104)); Leaf (NInt (106)); Leaf (NInt (108)); Leaf (NInt (110)); Leaf (NInt (112)); Leaf (NInt (114)); Leaf (NInt (116)); Leaf (NInt (118)); Leaf (NInt (120)); Leaf (NInt (122)); Leaf (NInt (124)); Leaf (NInt (126)); Leaf (NInt (128)); Leaf (NInt (130)); Leaf (NInt (132)); Leaf (NInt (134)); Leaf (NInt (136)); Leaf (NInt (138)); Leaf (NInt (140)); Leaf (NInt (142)); Leaf (NInt (144)); Leaf (NInt (146)); Leaf (NInt (148)); Leaf (NInt (150)); Leaf (NInt (152)); Leaf (NInt (154)); Leaf (NInt (156)); Leaf (NInt (158)); Leaf (NInt (160)); Leaf (NInt (162)); Leaf (NInt (164)); Leaf (NInt (166)); Leaf (NInt (168)); Leaf (NInt (170)); Leaf (NInt (172)); Leaf (NInt (174)); Leaf (NInt (176)); Leaf (NInt (178)); Leaf (NInt (180)); Leaf (NInt (182)); Leaf (NInt (184)); Leaf (NInt (186)); Leaf (NInt (188)); Leaf (NInt (190)); Leaf (NInt (192)); Leaf (NInt (194)); Leaf (NInt (196)); Leaf (NInt (198)); Leaf (NInt (200)); Leaf (NInt (202)); Leaf (NInt (204)); Leaf (NInt (206)); Leaf (NInt (208)); Leaf (NInt (210)); Leaf (NInt (212)); Leaf (NInt (214)); Leaf (NInt (216)); Leaf (NInt (218)); Leaf (NInt (220)); Leaf (NInt (222)); Leaf (NInt (224)); Leaf (NInt (226)); Leaf (NInt (228)); Leaf (NInt (230)); Leaf (NInt (232)); Leaf (NInt (234)); Leaf (NInt (236)); Leaf (NInt (238)); Leaf (NInt (240)); Leaf (NInt (242)); Leaf (NInt (244)); Leaf (NInt (246)); Leaf (NInt (248)); Leaf (NInt (250)); Leaf (NInt (252)); Leaf (NInt (254)); Leaf (NInt (256)); Leaf (NInt (258)); Leaf (NInt (260)); Leaf (NInt (262)); Leaf (NInt (264)); Leaf (NInt (266)); Leaf (NInt (268)); Leaf (NInt (270)); Leaf (NInt (272)); Leaf (NInt (274)); Leaf (NInt (276)); Leaf (NInt (278)); Leaf (NInt (280)); Leaf (NInt (282)); Leaf (NInt (284)); Leaf (NInt (286)); Leaf (NInt (288)); Leaf (NInt (290)); Leaf (NInt (292)); Leaf (NInt (294)); Leaf (NInt (296)); Leaf (NInt (298)); Leaf (NInt (300)); Leaf (NInt (302)); Leaf (NInt (304)); Leaf (NInt (306)); Leaf (NInt (308)); Leaf (NInt (310)); Leaf (NInt (312)); Leaf (NInt (314)); Leaf (NInt (316)); Leaf (NInt (318)); Leaf (NInt (320)); Leaf (NInt (322)); Leaf (NInt (324)); Leaf (NInt (326)); Leaf (NInt (328)); Leaf (NInt (330)); Leaf (NInt (332)); Leaf (NInt (334)); Leaf (NInt (336)); Leaf (NInt (338)); Leaf (NInt (340)); Leaf (NInt (342)); Leaf (NInt (344)); Leaf (NInt (346)); Leaf (NInt (348)); Leaf (NInt (350)); Leaf (NInt (352)); Leaf (NInt (354)); Leaf (NInt (356)); Leaf (NInt (358)); Leaf (NInt (360)); Leaf (NInt (362)); Leaf (NInt (364)); Leaf (NInt (366)); Leaf (NInt (368)); Leaf (NInt (370)); Leaf (NInt (372)); Leaf (NInt (374)); Leaf (NInt (376)); Leaf (NInt (378)); Leaf (NInt (380)); Leaf (NInt (382)); Leaf (NInt (384)); Leaf (NInt (386)); Leaf (NInt (388)); Leaf (NInt (390)); Leaf (NInt (392)); Leaf (NInt (394)); Leaf (NInt (396)); Leaf (NInt (398)); Leaf (NInt (400)); Leaf (NInt (402)); Leaf (NInt (404)); Leaf (NInt (406)); Leaf (NInt (408)); Leaf (NInt (410)); Leaf (NInt (412)); Leaf (NInt (414)); Leaf (NInt (416)); Leaf (NInt (418)); Leaf (NInt (420)); Leaf (NInt (422)); Leaf (NInt (424)); Leaf (NInt (426)); Leaf (NInt (428)); Leaf (NInt (430)); Leaf (NInt (432)); Leaf (NInt (434)); Leaf (NInt (436)); Leaf (NInt (438)); Leaf (NInt (440)); Leaf (NInt (442)); Leaf (NInt (444)); Leaf (NInt (446)); Leaf (NInt (448)); Leaf (NInt (450)); Leaf (NInt (452)); Leaf (NInt (454)); Leaf (NInt (456)); Leaf (NInt (458)); Leaf (NInt (460)); Leaf (NInt (462)); Leaf (NInt (464)); Leaf (NInt (466)); Leaf (NInt (468)); Leaf (NInt (470)); Leaf (NInt (472)); Leaf (NInt (474)); Leaf (NInt (476)); Leaf (NInt (478)); Leaf (NInt (480)); Leaf (NInt (482)); Leaf (NInt (484)); Leaf (NInt (486)); Leaf (NInt (488)); Leaf (NInt (490)); Leaf (NInt (492)); Leaf (NInt (494)); Leaf (NInt (496)); Leaf (NInt (498)); Leaf (NInt (500)); Leaf (NInt (502)); Leaf (NInt (504)); Leaf (NInt (506)); Leaf (NInt (508)); Leaf (NInt (510)); Leaf (NInt (512)); Leaf (NInt (514)); Leaf (NInt (516)); Leaf (NInt (518)); Leaf (NInt (520)); Leaf (NInt (522)); Leaf (NInt (524)); Leaf (NInt (526)); Leaf (NInt (528)); Leaf (NInt (530)); Leaf (NInt (532)); Leaf (NInt (534)); Leaf (NInt (536)); Leaf (NInt (538)); Leaf (NInt (540)); Leaf (NInt (542)); Leaf (NInt (544)); Leaf (NInt (546)); Leaf (NInt (548)); Leaf (NInt (550)); Leaf (NInt (552)); Leaf (NInt (554)); Leaf (NInt (556)); Leaf (NInt (558)); Leaf (NInt (560)); Leaf (NInt (562)); Leaf (NInt (564)); Leaf (NInt (566)); Leaf (NInt (568)); Leaf (NInt (570)); Leaf (NInt (572)); Leaf (NInt (574)); Leaf (NInt (576)); Leaf (NInt (578)); Leaf (NInt (580)); Leaf (NInt (582)); Leaf (NInt (584)); Leaf (NInt (586)); Leaf (NInt (588)); Leaf (NInt (590)); Leaf (NInt (592)); Leaf (NInt (594)); Leaf (NInt (596)); Leaf (NInt (598)); Leaf (NInt (600)); Leaf (NInt (602)); Leaf (NInt (604)); Leaf (NInt (606)); Leaf (NInt (608)); Leaf (NInt (610)); Leaf (NInt (612)); Leaf (NInt (614)); Leaf (NInt (616)); Leaf (NInt (618)); Leaf (NInt (620)); Leaf (NInt (622)); Leaf (NInt (624)); Leaf (NInt (626)); Leaf (NInt (628)); Leaf (NInt (630)); Leaf (NInt (632)); Leaf (NInt (634)); Leaf (NInt (636)); Leaf (NInt (638)); Leaf (NInt (640)); Leaf (NInt (642)); Leaf (NInt (644)); Leaf (NInt (646)); Leaf (NInt (648)); Leaf (NInt (650)); Leaf (NInt (652)); Leaf (NInt (654)); Leaf (NInt (656)); Leaf (NInt (658)); Leaf (NInt (660)); Leaf (NInt (662)); Leaf (NInt (664)); Leaf (NInt (666)); Leaf (NInt (668)); Leaf (NInt (670)); Leaf (NInt (672)); Leaf (NInt (674)); Leaf (NInt (676)); Leaf (NInt (678)); Leaf (NInt (680)); Leaf (NInt (682)); Leaf (NInt (684)); Leaf (NInt (686)); Leaf (NInt (688)); Leaf (NInt (690)); Leaf (NInt (692)); Leaf (NInt (694)); Leaf (NInt (696)); Leaf (NInt (698)); Leaf (NInt (700)); Leaf (NInt (702)); Leaf (NInt (704)); Leaf (NInt (706)); Leaf (NInt (708)); Leaf (NInt (710)); Leaf (NInt (712)); Leaf (NInt (714)); Leaf (NInt (716)); Leaf (NInt (718)); Leaf (NInt (720)); Leaf (NInt (722)); Leaf (NInt (724)); Leaf (NInt (726)); Leaf (NInt (728)); Leaf (NInt (730)); Leaf (NInt (732)); Leaf (NInt (734)); Leaf (NInt (736)); Leaf (NInt (738)); Leaf (NInt (740)); Leaf (NInt (742)); Leaf (NInt (744)); Leaf (NInt (746)); Leaf (NInt (748)); Leaf (NInt (750)); Leaf (NInt (752)); Leaf (NInt (754)); Leaf (NInt (756)); Leaf (NInt (758)); Leaf (NInt (760)); Leaf (NInt (762)); Leaf (NInt (764)); Leaf (NInt (766)); Leaf (NInt (768)); Leaf (NInt (770)); Leaf (NInt (772)); Leaf (NInt (774)); Leaf (NInt (776)); Leaf (NInt (778)); Leaf (NInt (780)); Leaf (NInt (782)); Leaf (NInt (784)); Leaf (NInt (786)); Leaf (NInt (788)); Leaf (NInt (790)); Leaf (NInt (792)); Leaf (NInt (794)); Leaf (NInt (796)); Leaf (NInt (798)); Leaf (NInt (800)); Leaf (NInt (802)); Leaf (NInt (804)); Leaf (NInt (806)); Leaf (NInt (808)); Leaf (NInt (810)); Leaf (NInt (812)); Leaf (NInt (814)); Leaf (NInt (816)); Leaf (NInt (818)); Leaf (NInt (820)); Leaf (NInt (822)); Leaf (NInt (824)); Leaf (NInt (826)); Leaf (NInt (828)); Leaf (NInt (830)); Leaf (NInt (832)); Leaf (NInt (834)); Leaf (NInt (836)); Leaf (NInt (838)); Leaf (NInt (840)); Leaf (NInt (842)); Leaf (NInt (844)); Leaf (NInt (846)); Leaf (NInt (848)); Leaf (NInt (850)); Leaf (NInt (852)); Leaf (NInt (854)); Leaf (NInt (856)); Leaf (NInt (858)); Leaf (NInt (860)); Leaf (NInt (862)); Leaf (NInt (864)); Leaf (NInt (866)); Leaf (NInt (868)); Leaf (NInt (870)); Leaf (NInt (872)); Leaf (NInt (874)); Leaf (NInt (876)); Leaf (NInt (878)); Leaf (NInt (880)); Leaf (NInt (882)); Leaf (NInt (884)); Leaf (NInt (886)); Leaf (NInt (888)); Leaf (NInt (890)); Leaf (NInt (892)); Leaf (NInt (894)); Leaf (NInt (896)); Leaf (NInt (898)); Leaf (NInt (900)); Leaf (NInt (902)); Leaf (NInt (904)); Leaf (NInt (906)); Leaf (NInt (908)); Leaf (NInt (910)); Leaf (NInt (912)); Leaf (NInt (914)); Leaf (NInt (916)); Leaf (NInt (918)); Leaf (NInt (920)); Leaf (NInt (922)); Leaf (NInt (924)); Leaf (NInt (926)); Leaf (NInt (928)); Leaf (NInt (930)); Leaf (NInt (932)); Leaf (NInt (934)); Leaf (NInt (936)); Leaf (NInt (938)); Leaf (NInt (940)); Leaf (NInt (942)); Leaf (NInt (944)); Leaf (NInt (946)); Leaf (NInt (948)); Leaf (NInt (950)); Leaf (NInt (952)); Leaf (NInt (954)); Leaf (NInt (956)); Leaf (NInt (958)); Leaf (NInt (960)); Leaf (NInt (962)); Leaf (NInt (964)); Leaf (NInt (966)); Leaf (NInt (968)); Leaf (NInt (970)); Leaf (NInt (972)); Leaf (NInt (974)); Leaf (NInt (976)); Leaf (NInt (978)); Leaf (NInt (980)); Leaf (NInt (982)); Leaf (NInt (984)); Leaf (NInt (986)); Leaf (NInt (988)); Leaf (NInt (990)); Leaf (NInt (992)); Leaf (NInt (994)); Leaf (NInt (996)); Leaf (NInt (998)); Leaf (NInt (1000)); Leaf (NInt (1002)); Leaf (NInt (1004)); Leaf (NInt (1006)); Leaf (NInt (1008)); Leaf (NInt (1010)); Leaf (NInt (1012)); Leaf (NInt (1014)); Leaf (NInt (1016)); Leaf (NInt (1018)); Leaf (NInt (1020)); Leaf (NInt (1022)); Leaf (NInt (1024)); Leaf (NInt (1026)); Leaf (NInt (1028)); Leaf (NInt (1030)); Leaf (NInt (1032)); Leaf (NInt (1034)); Leaf (NInt (1036)); Leaf (NInt (1038)); Leaf (NInt (1040)); Leaf (NInt (1042)); Leaf (NInt (1044)); Leaf (NInt (1046)); Leaf (NInt (1048)); Leaf (NInt (1050)); Leaf (NInt (1052)); Leaf (NInt (1054)); Leaf (NInt (1056)); Leaf (NInt (1058)); Leaf (NInt (1060)); Leaf (NInt (1062)); Leaf (NInt (1064)); Leaf (NInt (1066)); Leaf (NInt (1068)); Leaf (NInt (1070)); Leaf (NInt (1072)); Leaf (NInt (1074)); Leaf (NInt (1076)); Leaf (NInt (1078)); Leaf (NInt (1080)); Leaf (NInt (1082)); Leaf (NInt (1084)); Leaf (NInt (1086)); Leaf (NInt (1088)); Leaf (NInt (1090)); Leaf (NInt (1092)); Leaf (NInt (1094)); Leaf (NInt (1096)); Leaf (NInt (1098)); Leaf (NInt (1100)); Leaf (NInt (1102)); Leaf (NInt (1104)); Leaf (NInt (1106)); Leaf (NInt (1108)); Leaf (NInt (1110)); Leaf (NInt (1112)); Leaf (NInt (1114)); Leaf (NInt (1116)); Leaf (NInt (1118)); Leaf (NInt (1120)); Leaf (NInt (1122)); Leaf (NInt (1124)); Leaf (NInt (1126)); Leaf (NInt (1128)); Leaf (NInt (1130)); Leaf (NInt (1132)); Leaf (NInt (1134)); Leaf (NInt (1136)); Leaf (NInt (1138)); Leaf (NInt (1140)); Leaf (NInt (1142)); Leaf (NInt (1144)); Leaf (NInt (1146)); Leaf (NInt (1148)); Leaf (NInt (1150)); Leaf (NInt (1152)); Leaf (NInt (1154)); Leaf (NInt (1156)); Leaf (NInt (1158)); Leaf (NInt (1160)); Leaf (NInt (1162)); Leaf (NInt (1164)); Leaf (NInt (1166)); Leaf (NInt (1168)); Leaf (NInt (1170)); Leaf (NInt (1172)); Leaf (NInt (1174)); Leaf (NInt (1176)); Leaf (NInt (1178)); Leaf (NInt (1180)); Leaf (NInt (1182)); Leaf (NInt (1184)); Leaf (NInt (1186)); Leaf (NInt (1188)); Leaf (NInt (1190)); Leaf (NInt (1192)); Leaf (NInt (1194)); Leaf (NInt (1196)); Leaf (NInt (1198)); Leaf (NInt (1200)); Leaf (NInt (1202)); Leaf (NInt (1204)); Leaf (NInt (1206)); Leaf (NInt (1208)); Leaf (NInt (1210)); Leaf (NInt (1212)); Leaf (NInt (1214)); Leaf (NInt (1216)); Leaf (NInt (1218)); Leaf (NInt (1220)); Leaf (NInt (1222)); Leaf (NInt (1224)); Leaf (NInt (1226)); Leaf (NInt (1228)); Leaf (NInt (1230)); Leaf (NInt (1232)); Leaf (NInt (1234)); Leaf (NInt (1236)); Leaf (NInt (1238)); Leaf (NInt (1240)); Leaf (NInt (1242)); Leaf (NInt (1244)); Leaf (NInt (1246)); Leaf (NInt (1248)); Leaf (NInt (1250)); Leaf (NInt (1252)); Leaf (NInt (1254)); Leaf (NInt (1256)); Leaf (NInt (1258)); Leaf (NInt (1260)); Leaf (NInt (1262)); Leaf (NInt (1264)); Leaf (NInt (1266)); Leaf (NInt (1268)); Leaf (NInt (1270)); Leaf (NInt (1272)); Leaf (NInt (1274)); Leaf (NInt (1276)); Leaf (NInt (1278)); Leaf (NInt (1280)); Leaf (NInt (1282)); Leaf (NInt (1284)); Leaf (NInt (1286)); Leaf (NInt (1288)); Leaf (NInt (1290)); Leaf (NInt (1292)); Leaf (NInt (1294)); Leaf (NInt (1296)); Leaf (NInt (1298)); Leaf (NInt (1300)); Leaf (NInt (1302)); Leaf (NInt (1304)); Leaf (NInt (1306)); Leaf (NInt (1308)); Leaf (NInt (1310)); Leaf (NInt (1312)); Leaf (NInt (1314)); Leaf (NInt (1316)); Leaf (NInt (1318)); Leaf (NInt (1320)); Leaf (NInt (1322)); Leaf (NInt (1324)); Leaf (NInt (1326)); Leaf (NInt (1328)); Leaf (NInt (1330)); Leaf (NInt (1332)); Leaf (NInt (1334)); Leaf (NInt (1336)); Leaf (NInt (1338)); Leaf (NInt (1340)); Leaf (NInt (1342)); Leaf (NInt (1344)); Leaf (NInt (1346)); Leaf (NInt (1348)); Leaf (NInt (1350)); Leaf (NInt (1352)); Leaf (NInt (1354)); Leaf (NInt (1356)); Leaf (NInt (1358)); Leaf (NInt (1360)); Leaf (NInt (1362)); Leaf (NInt (1364)); Leaf (NInt (1366)); Leaf (NInt (1368)); Leaf (NInt (1370)); Leaf (NInt (1372)); Leaf (NInt (1374)); Leaf (NInt (1376)); Leaf (NInt (1378)); Leaf (NInt (1380)); Leaf (NInt (1382)); Leaf (NInt (1384)); Leaf (NInt (1386)); Leaf (NInt (1388)); Leaf (NInt (1390)); Leaf (NInt (1392)); Leaf (NInt (1394)); Leaf (NInt (1396)); Leaf (NInt (1398)); Leaf (NInt (1400)); Leaf (NInt (1402)); Leaf (NInt (1404)); Leaf (NInt (1406)); Leaf (NInt (1408)); Leaf (NInt (1410)); Leaf (NInt (1412)); Leaf (NInt (1414)); Leaf (NInt (1416)); Leaf (NInt (1418)); Leaf (NInt (1420)); Leaf (NInt (1422)); Leaf (NInt (1424)); Leaf (NInt (1426)); Leaf (NInt (1428)); Leaf (NInt (1430)); Leaf (NInt (1432)); Leaf (NInt (1434)); Leaf (NInt (1436)); Leaf (NInt (1438)); Leaf (NInt (1440)); Leaf (NInt (1442)); Leaf (NInt (1444)); Leaf (NInt (1446)); Leaf (NInt (1448)); Leaf (NInt (1450)); Leaf (NInt (1452)); Leaf (NInt (1454)); Leaf (NInt (1456)); Leaf (NInt (1458)); Leaf (NInt (1460)); Leaf (NInt (1462)); Leaf (NInt (1464)); Leaf (NInt (1466)); Leaf (NInt (1468)); Leaf (NInt (1470)); Leaf (NInt (1472)); Leaf (NInt (1474)); Leaf (NInt (1476)); Leaf (NInt (1478)); Leaf (NInt (1480)); Leaf (NInt (1482)); Leaf (NInt (1484)); Leaf (NInt (1486)); Leaf (NInt (1488)); Leaf (NInt (1490)); Leaf (NInt (1492)); Leaf (NInt (1494)); Leaf (NInt (1496)); Leaf (NInt (1498)); Leaf (NInt (1500)); Leaf (NInt (1502)); Leaf (NInt (1504)); Leaf (NInt (1506)); Leaf (NInt (1508)); Leaf (NInt (1510)); Leaf (NInt (1512)); Leaf (NInt (1514)); Leaf (NInt (1516)); Leaf (NInt (1518)); Leaf (NInt (1520)); Leaf (NInt (1522)); Leaf (NInt (1524)); Leaf (NInt (1526)); Leaf (NInt (1528)); Leaf (NInt (1530)); Leaf (NInt (1532)); Leaf (NInt (1534)); Leaf (NInt (1536)); Leaf (NInt (1538)); Leaf (NInt (1540)); Leaf (NInt (1542)); Leaf (NInt (1544)); Leaf (NInt (1546)); Leaf (NInt (1548)); Leaf (NInt (1550)); Leaf (NInt (1552)); Leaf (NInt (1554)); Leaf (NInt (1556)); Leaf (NInt (1558)); Leaf (NInt (1560)); Leaf (NInt (1562)); Leaf (NInt (1564)); Leaf (NInt (1566)); Leaf (NInt (1568)); Leaf (NInt (1570)); Leaf (NInt (1572)); Leaf (NInt (1574)); Leaf (NInt (1576)); Leaf (NInt (1578)); Leaf (NInt (1580)); Leaf (NInt (1582)); Leaf (NInt (1584)); Leaf (NInt (1586)); Leaf (NInt (1588)); Leaf (NInt (1590)); Leaf (NInt (1592)); Leaf (NInt (1594)); Leaf (NInt (1596)); Leaf (NInt (1598)); Leaf (NInt (1600)); Leaf (NInt (1602)); Leaf (NInt (1604)); Leaf (NInt (1606)); Leaf (NInt (1608)); Leaf (NInt (1610)); Leaf (NInt (1612)); Leaf (NInt (1614)); Leaf (NInt (1616)); Leaf (NInt (1618)); Leaf (NInt (1620)); Leaf (NInt (1622)); Leaf (NInt (1624)); Leaf (NInt (1626)); Leaf (NInt (1628)); Leaf (NInt (1630)); Leaf (NInt (1632)); Leaf (NInt (1634)); Leaf (NInt (1636)); Leaf (NInt (1638)); Leaf (NInt (1640)); Leaf (NInt (1642)); Leaf (NInt (1644)); Leaf (NInt (1646)); Leaf (NInt (1648)); Leaf (NInt (1650)); Leaf (NInt (1652)); Leaf (NInt (1654)); Leaf (NInt (1656)); Leaf (NInt (1658)); Leaf (NInt (1660)); Leaf (NInt (1662)); Leaf (NInt (1664)); Leaf (NInt (1666)); Leaf (NInt (1668)); Leaf (NInt (1670)); Leaf (NInt (1672)); Leaf (NInt (1674)); Leaf (NInt (1676)); Leaf (NInt (1678)); Leaf (NInt (1680)); Leaf (NInt (1682)); Leaf (NInt (1684)); Leaf (NInt (1686)); Leaf (NInt (1688)); Leaf (NInt (1690)); Leaf (NInt (1692)); Leaf (NInt (1694)); Leaf (NInt (1696)); Leaf (NInt (1698)); Leaf (NInt (1700)); Leaf (NInt (1702)); Leaf (NInt (1704)); Leaf (NInt (1706)); Leaf (NInt (1708)); Leaf (NInt (1710)); Leaf (NInt (1712)); Leaf (NInt (1714)); Leaf (NInt (1716)); Leaf (NInt (1718)); Leaf (NInt (1720)); Leaf (NInt (1722)); Leaf (NInt (1724)); Leaf (NInt (1726)); Leaf (NInt (1728)); Leaf (NInt (1730)); Leaf (NInt (1732)); Leaf (NInt (1734)); Leaf (NInt (1736)); Leaf (NInt (1738)); Leaf (NInt (1740)); Leaf (NInt (1742)); Leaf (NInt (1744)); Leaf (NInt (1746)); Leaf (NInt (1748)); Leaf (NInt (1750)); Leaf (NInt (1752)); Leaf (NInt (1754)); Leaf (NInt (1756)); Leaf (NInt (1758)); Leaf (NInt (1760)); Leaf (NInt (1762)); Leaf (NInt (1764)); Leaf (NInt (1766)); Leaf (NInt (1768)); Leaf (NInt (1770)); Leaf (NInt (1772)); Leaf (NInt (1774)); Leaf (NInt (1776)); Leaf (NInt (1778)); Leaf (NInt (1780)); Leaf (NInt (1782)); Leaf (NInt (1784)); Leaf (NInt (1786)); Leaf (NInt (1788)); Leaf (NInt (1790)); Leaf (NInt (1792)); Leaf (NInt (1794)); Leaf (NInt (1796)); Leaf (NInt (1798)); Leaf (NInt (1800)); Leaf (NInt (1802)); Leaf (NInt (1804)); Leaf (NInt (1806)); Leaf (NInt (1808)); Leaf (NInt (1810)); Leaf (NInt (1812)); Leaf (NInt (1814)); Leaf (NInt (1816)); Leaf (NInt (1818)); Leaf (NInt (1820)); Leaf (NInt (1822)); Leaf (NInt (1824)); Leaf (NInt (1826)); Leaf (NInt (1828)); Leaf (NInt (1830)); Leaf (NInt (1832)); Leaf (NInt (1834)); Leaf (NInt (1836)); Leaf (NInt (1838)); Leaf (NInt (1840)); Leaf (NInt (1842)); Leaf (NInt (1844)); Leaf (NInt (1846)); Leaf (NInt (1848)); Leaf (NInt (1850)); Leaf (NInt (1852)); Leaf (NInt (1854)); Leaf (NInt (1856)); Leaf (NInt (1858)); Leaf (NInt (1860)); Leaf (NInt (1862)); Leaf (NInt (1864)); Leaf (NInt (1866)); Leaf (NInt (1868)); Leaf (NInt (1870)); Leaf (NInt (1872)); Leaf (NInt (1874)); Leaf (NInt (1876)); Leaf (NInt (1878)); Leaf (NInt (1880)); Leaf (NInt (1882)); Leaf (NInt (1884)); Leaf (NInt (1886)); Leaf (NInt (1888)); Leaf (NInt (1890)); Leaf (NInt (1892)); Leaf (NInt (1894)); Leaf (NInt (1896)); Leaf (NInt (1898)); Leaf (NInt (1900)); Leaf (NInt (1902)); Leaf (NInt (1904)); Leaf (NInt (1906)); Leaf (NInt (1908)); Leaf (NInt (1910)); Leaf (NInt (1912)); Leaf (NInt (1914)); Leaf (NInt (1916)); Leaf (NInt (1918)); Leaf (NInt (1920)); Leaf (NInt (1922)); Leaf (NInt (1924)); Leaf (NInt (1926)); Leaf (NInt (1928)); Leaf (NInt (1930)); Leaf (NInt (1932)); Leaf (NInt (1934)); Leaf (NInt (1936)); Leaf (NInt (1938)); Leaf (NInt (1940)); Leaf (NInt (1942)); Leaf (NInt (1944)); Leaf (NInt (1946)); Leaf (NInt (1948)); Leaf (NInt (1950)); Leaf (NInt (1952)); Leaf (NInt (1954)); Leaf (NInt (1956)); Leaf (NInt (1958)); Leaf (NInt (1960)); Leaf (NInt (1962)); Leaf (NInt (1964)); Leaf (NInt (1966)); Leaf (NInt (1968)); Leaf (NInt (1970)); Leaf (NInt (1972)); Leaf (NInt (1974)); Leaf (NInt (1976)); Leaf (NInt (1978)); Leaf (NInt (1980)); Leaf (NInt (1982)); Leaf (NInt (1984)); Leaf (NInt (1986)); Leaf (NInt (1988)); Leaf (NInt (1990)); Leaf (NInt (1992)); Leaf (NInt (1994)); Leaf (NInt (1996)); Leaf (NInt (1998))])].
Example test_large_1d_add_py : run_test (py_backend lm) py_eq py_close test_large_1d_add = true. Proof. vm_compute. reflexivity. Qed.
Example test_large_1d_add_c : run_test (c_backend lm) c_eq c_close test_large_1d_add = true. Proof. vm_compute. reflexivity. Qed.

(* test.py:541-546 *)
Definition test_large_1d_sum : list tstep :=
  [TCall (CArange (1000));
   TCall (CSum 0 None false);
   TMat 1;
   TList 1 [] (Leaf (NInt (499500)))].
Example test_large_1d_sum_py : run_test (py_backend lm) py_eq py_close test_large_1d_sum = true. Proof. vm_compute. reflexivity. Qed.
Example test_large_1d_sum_c : run_test (c_backend lm) c_eq c_close test_large_1d_sum = true. Proof. vm_compute. reflexivity. Qed.

(* test.py:548-554 *)
Definition test_large_2d_sum : list tstep :=
  [TCall (CFull [100; 10] (NInt (1)));
   TCall (CSum 0 (Some [1]) false);
   TMat 1;
   TShape 1 [100];
   TList 1 [] (Nest [Leaf (NInt (10)); Leaf (NInt (10)); Leaf (NInt (10)); Leaf (NInt (10)); Leaf (NInt (10)); Leaf (NInt (10)); Leaf (NInt (10)); Leaf (NInt (10)); Leaf (NInt (10)); Leaf (NInt (10)); Leaf (NInt (10)); Leaf (NInt (10)); Leaf (NInt (10)); Leaf (NInt (10)); Leaf (NInt (10)); Leaf (NInt (10)); Leaf (NInt (10)); Leaf (NInt (10)); Leaf (NInt (10)); Leaf (NInt (10)); Leaf (NInt (10)); Leaf (NInt (10)); Leaf (NInt (10)); Leaf (NInt (10)); Leaf (NInt (10)); Leaf (NInt (10)); Leaf (NInt (10)); Leaf (NInt (10)); Leaf (NInt (10)); Leaf (NInt (10)); Leaf (NInt (10)); Leaf (NInt (10)); Leaf (NInt (10)); Leaf (NInt (10)); Leaf (NInt (10)); Leaf (NInt (10)); Leaf (NInt (10)); Leaf (NInt (10)); Leaf (NInt (10)); Leaf (NInt (10)); Leaf (NInt (10)); Leaf (NInt (10)); Leaf (NInt (10)); Leaf (NInt (10)); Leaf (NInt (10)); Leaf (NInt (10)); Leaf (NInt (10)); Leaf (NInt (10)); Leaf (NInt (10)); Leaf (NInt (10)); Leaf (NInt (10)); Leaf (NInt (10)); Leaf (NInt (10)); Leaf (NInt (10)); Leaf (NInt (10)); Leaf (NInt (10)); Leaf (NInt (10)); Leaf (NInt (10)); Leaf (NInt (10)); Leaf (NInt (10)); Leaf (NInt (10)); Leaf (NInt (10)); Leaf (NInt (10)); Leaf (NInt (10)); Leaf (NInt (10)); Leaf (NInt (10)); Leaf (NInt (10)); Leaf (NInt (10)); Leaf (NInt (10)); Leaf (NInt (10)); Leaf (NInt (10)); Leaf (NInt (10)); Leaf (NInt (10)); Leaf (NInt (10)); Leaf (NInt (10)); Leaf (NInt (10)); Leaf (NInt (10)); Leaf (NInt (10)); Leaf (NInt (10)); Leaf (NInt (10)); Leaf (NInt (10)); Leaf (NInt (10)); Leaf (NInt (10)); Leaf (NInt (10)); Leaf (NInt (10)); Leaf (NInt (10)); Leaf (NInt (10)); Leaf (NInt (10)); Leaf (NInt (10)); Leaf (NInt (10)); Leaf (NInt (10)); Leaf (NInt (10)); Leaf (NInt (10)); Leaf (NInt (10)); Leaf (NInt (10)); Leaf (NInt (10)); Leaf (NInt (10)); Leaf (NInt (10)); Leaf (NInt (10)); Leaf (NInt (10))])].
Example test_large_2d_sum_py : run_test (py_backend lm) py_eq py_close test_large_2d_sum = true. Proof. vm_compute. reflexivity. Qed.
Example test_large_2d_sum_c : run_test (c_backend lm) c_eq c_close test_large_2d_sum = true. Proof. vm_compute. reflexivity. Qed.

(* test.py:556-563 *)
Definition test_large_float_mul : list tstep :=
  [TCall (CArray (Nest [Leaf (NFlt (0) (0)); Leaf (NFlt (1) (0)); Leaf (NFlt (2) (0)); Leaf (NFlt (3) (0)); Leaf (NFlt (4) (0)); Leaf (NFlt (5) (0)); Leaf (NFlt (6) (0)); Leaf (NFlt (7) (0)); Leaf (NFlt (8) (0)); Leaf (NFlt (9) (0)); Leaf (NFlt (10) (0)); Leaf (NFlt (11) (0)); Leaf (NFlt (12) (0)); Leaf (NFlt (13) (0)); Leaf (NFlt (14) (0)); Leaf (NFlt (15) (0)); Leaf (NFlt (16) (0)); Leaf (NFlt (17) (0)); Leaf (NFlt (18) (0)); Leaf (NFlt (19) (0)); Leaf (NFlt (20) (0)); Leaf (NFlt (21) (0)); Leaf (NFlt (22) (0)); Leaf (NFlt (23) (0)); Leaf (NFlt (24) (0)); Leaf (NFlt (25) (0)); Leaf (NFlt (26) (0)); Leaf (NFlt (27) (0)); Leaf (NFlt (28) (0)); Leaf (NFlt (29) (0)); Leaf (NFlt (30) (0)); Leaf (NFlt (31) (0)); Leaf (NFlt (32) (0)); Leaf (NFlt (33) (0)); Leaf (NFlt (34) (0)); Leaf (NFlt (35) (0)); Leaf (NFlt (36) (0)); Leaf (NFlt (37) (0)); Leaf (NFlt (38) (0)); Leaf (NFlt (39) (0)); Leaf (NFlt (40) (0)); Leaf (NFlt (41) (0)); Leaf (NFlt (42) (0)); Leaf (NFlt (43) (0)); Leaf (NFlt (44) (0)); Leaf (NFlt (45) (0)); Leaf (NFlt (46) (0)); Leaf (NFlt (47) (0)); Leaf (NFlt (48) (0)); Leaf (NFlt (49) (0)); Leaf (NFlt (50) (0)); Leaf (NFlt (51) (0)); Leaf (NFlt (52) (0)); Leaf (NFlt (53) (0)); Leaf (NFlt (54) (0)); Leaf (NFlt (55) (0)); Leaf (NFlt (56) (0)); Leaf (NFlt (57) (0)); Leaf (NFlt (58) (0)); Leaf (NFlt (59) (0)); Leaf (NFlt (60) (0)); Leaf (NFlt (61) (0)); Leaf (NFlt (62) (0)); Leaf (NFlt (63) (0)); Leaf (NFlt (64) (0)); Leaf (NFlt (65) (0)); Leaf (NFlt (66) (0)); Leaf (NFlt (67) (0)); Leaf (NFlt (68) (0)); Leaf (NFlt (69) (0)); Leaf (NFlt (70) (0)); Leaf (NFlt (71) (0)); Leaf (NFlt (72) (0)); Leaf (NFlt (73) (0)); Leaf (NFlt (74) (0)); Leaf (NFlt (75) (0)); Leaf (NFlt (76) (0)); Leaf (NFlt (77) (0)); Leaf (NFlt (78) (0)); Leaf (NFlt (79) (0)); Leaf (NFlt (80) (0)); Leaf (NFlt (81) (0)); Leaf (NFlt (82) (0)); Leaf (NFlt (83) (0)); Leaf (NFlt (84) (0)); Leaf (NFlt (85) (0)); Leaf (NFlt (86) (0)); Leaf (NFlt (87) (0)); Leaf (NFlt (88) (0)); Leaf (NFlt (89) (0)); Leaf (NFlt (90) (0)); Leaf (NFlt (91) (0)); Leaf (NFlt (92) (0)); Leaf (NFlt (93) (0)); Leaf (NFlt (94) (0)); Leaf (NFlt (95) (0)); Leaf (NFlt (96) (0)); Leaf (NFlt (97) (0)); Leaf (NFlt (98) (0)); Leaf (NFlt (99) (0)); Leaf (NFlt (100) (0)); Leaf (NFlt (101) (0)); Leaf (NFlt (102) (0)); Leaf (NFlt (103) (0)); Leaf (NFlt (104) (0)); Leaf (NFlt (105) (0)); Leaf (NFlt (106) (0)); Leaf (NFlt (107) (0)); Leaf (NFlt (108) (0)); Leaf (NFlt (109) (0)); Leaf (NFlt (110) (0)); Leaf (NFlt (111) (0)); Leaf (NFlt (112) (0)); Leaf (NFlt (113) (0)); Leaf (NFlt (114) (0)); Leaf (NFlt (115) (0)); Leaf (NFlt (116) (0)); Leaf (NFlt (117) (0)); Leaf (NFlt (118) (0)); Leaf (NFlt (119) (0)); Leaf (NFlt (120) (0)); Leaf (NFlt (121) (0)); Leaf (NFlt (122) (0)); Leaf (NFlt (123) (0)); Leaf (NFlt (124) (0)); Leaf (NFlt (125) (0)); Leaf (NFlt (126) (0)); Leaf (NFlt (127) (0)); Leaf (NFlt (128) (0)); Leaf (NFlt (129) (0)); Leaf (NFlt (130) (0)); Leaf (NFlt (131) (0)); Leaf (NFlt (132) (0)); Leaf (NFlt (133) (0)); Leaf (NFlt (134) (0)); Leaf (NFlt (135) (0)); Leaf (NFlt (136) (0)); Leaf (NFlt (137) (0)); Leaf (NFlt (138) (0)); Leaf (NFlt (139) (0)); Leaf (NFlt (140) (0)); Leaf (NFlt (141) (0)); Leaf (NFlt (142) (0)); Leaf (NFlt (143) (0)); Leaf (NFlt (144) (0)); Leaf (NFlt (145) (0)); Leaf (NFlt (146) (0)); Leaf (NFlt (147) (0)); Leaf (NFlt (148) (0)); Leaf (NFlt (149) (0)); Leaf (NFlt (150) (0)); Leaf (NFlt (151) (0)); Leaf (NFlt (152) (0)); Leaf (NFlt (153) (0)); Leaf (NFlt (154) (0)); Leaf (NFlt (155) (0)); Leaf (NFlt (156) (0)); Leaf (NFlt (157) (0)); Leaf (NFlt (158) (0)); Leaf (NFlt (159) (0)); Leaf (NFlt (160) (0)); Leaf (NFlt (161) (0)); Leaf (NFlt (162) (0)); Leaf (NFlt (163) (0)); Leaf (NFlt (164) (0)); Leaf (NFlt (165) (0)); Leaf (NFlt (166) (0)); Leaf (NFlt (167) (0)); Leaf (NFlt (168) (0)); Leaf (NFlt (169) (0)); Leaf (NFlt (170) (0)); Leaf (NFlt (171) (0)); Leaf (NFlt (172) (0)); Leaf (NFlt (173) (0)); Leaf (NFlt (174) (0)); Leaf (NFlt (175) (0)); Leaf (NFlt (176) (0)); Leaf (NFlt (177) (0)); Leaf (NFlt (178) (0)); Leaf (NFlt (179) (0)); Leaf (NFlt (180) (0)); Leaf (NFlt (181) (0)); Leaf (NFlt (182) (0)); Leaf (NFlt (183) (0)); Leaf (NFlt (184) (0)); Leaf (NFlt (185) (0)); Leaf (NFlt (186) (0)); Leaf (NFlt (187) (0)); Leaf (NFlt (188) (0)); Leaf (NFlt (189) (0)); Leaf (NFlt (190) (0)); Leaf (NFlt (191) (0)); Leaf (NFlt (192) (0)); Leaf (NFlt (193) (0)); Leaf (NFlt (194) (0)); Leaf (NFlt (195) (0)); Leaf (NFlt (196) (0)); Leaf (NFlt (197) (0)); Leaf (NFlt (198) (0)); Leaf (NFlt (199) (0)); Leaf (NFlt (200) (0)); Leaf (NFlt (201) (0)); Leaf (NFlt (202) (0)); Leaf (NFlt (203) (0)); Leaf (NFlt (204) (0)); Leaf (NFlt (205) (0)); Leaf (NFlt (206) (0)); Leaf (NFlt (207) (0)); Leaf (NFlt (208) (0)); Leaf (NFlt (209) (0)); Leaf (NFlt (210) (0)); Leaf (NFlt (211) (0)); Leaf (NFlt (212) (0)); Leaf (NFlt (213) (0)); Leaf (NFlt (214) (0)); Leaf (NFlt (215) (0)); Leaf (NFlt (216) (0)); Leaf (NFlt (217) (0)); Leaf (NFlt (218) (0)); Leaf (NFlt (219) (0)); Leaf (NFlt (220) (0)); Leaf (NFlt (221) (0)); Leaf (NFlt (222) (0)); Leaf (NFlt (223) (0)); Leaf (NFlt (224) (0)); Leaf (NFlt (225) (0)); Leaf (NFlt (226) (0)); Leaf (NFlt (227) (0)); Leaf (NFlt (228) (0)); Leaf (NFlt (229) (0)); Leaf (NFlt (230) (0)); Leaf (NFlt (231) (0)); Leaf (NFlt (232) (0)); Leaf (NFlt (233) (0)); Leaf (NFlt (234) (0)); Leaf (NFlt (235) (0)); Leaf (NFlt (236) (0)); Leaf (NFlt (237) (0)); Leaf (NFlt (238) (0)); Leaf (NFlt (239) (0)); Leaf (NFlt (240) (0)); Leaf (NFlt (241) (0)); Leaf (NFlt (242) (0)); Leaf (NFlt (243) (0)); Leaf (NFlt (244) (0)); Leaf (NFlt (245) (0)); Leaf (NFlt (246) (0)); Leaf (NFlt (247) (0)); Leaf (NFlt (248) (0)); Leaf (NFlt (249) (0)); Leaf (NFlt (250) (0)); Leaf (NFlt (251) (0)); Leaf (NFlt (252) (0)); Leaf (NFlt (253) (0)); Leaf (NFlt (254) (0)); Leaf (NFlt (255) (0)); Leaf (NFlt (256) (0)); Leaf (NFlt (257) (0)); Leaf (NFlt (258) (0)); Leaf (NFlt (259) (0)); Leaf (NFlt (260) (0)); Leaf (NFlt (261) (0)); Leaf (NFlt (262) (0)); Leaf (NFlt (263) (0)); Leaf (NFlt (264) (0)); Leaf (NFlt (265) (0)); Leaf (NFlt (266) (0)); Leaf (NFlt (267) (0)); Leaf (NFlt (268) (0)); Leaf (NFlt (269) (0)); Leaf (NFlt (270) (0)); Leaf (NFlt (271) (0)); Leaf (NFlt (272) (0)); Leaf (NFlt (273) (0)); Leaf (NFlt (274) (0)); Leaf (NFlt (275) (0)); Leaf (NFlt (276) (0)); Leaf (NFlt (277) (0)); Leaf (NFlt (278) (0)); Leaf (NFlt (279) (0)); Leaf (NFlt (280) (0)); Leaf (NFlt (281) (0)); Leaf (NFlt (282) (0)); Leaf (NFlt (283) (0)); Leaf (NFlt (284) (0)); Leaf (NFlt (285) (0)); Leaf (NFlt (286) (0)); Leaf (NFlt (287) (0)); Leaf (NFlt (288) (0)); Leaf (NFlt (289) (0)); Leaf (NFlt (290) (0)); Leaf (NFlt (291) (0)); Leaf (NFlt (292) (0)); Leaf (NFlt (293) (0)); Leaf (NFlt (294) (0)); Leaf (NFlt (295) (0)); Leaf (NFlt (296) (0)); Leaf (NFlt (297) (0)); Leaf (NFlt (298) (0)); Leaf (NFlt (299) (0)); Leaf (NFlt (300) (0)); Leaf (NFlt (301) (0)); Leaf (NFlt (302) (0)); Leaf (NFlt (303) (0)); Leaf (NFlt (304) (0)); Leaf (NFlt (305) (0)); Leaf (NFlt (306) (0)); Leaf (NFlt (307) (0)); Leaf (NFlt (308) (0)); Leaf (NFlt (309) (0)); Leaf (NFlt (310) (0)); Leaf (NFlt (311) (0)); Leaf (NFlt (312) (0)); Leaf (NFlt (313) (0)); Leaf (NFlt (314) (0)); Leaf (NFlt (315) (0)); Leaf (NFlt (316) (0)); Leaf (NFlt (317) (0)); Leaf (NFlt (318) (0)); Leaf (NFlt (319) (0)); Leaf (NFlt (320) (0)); Leaf (NFlt (321) (0)); Leaf (NFlt (322) (0)); Leaf (NFlt (323) (0)); Leaf (NFlt (324) (0)); Leaf (NFlt (325) (0)); Leaf (NFlt (326) (0)); Leaf (NFlt (327) (0)); Leaf (NFlt (328) (0)); Leaf (NFlt (329) (0)); Leaf (NFlt (330) (0)); Leaf (NFlt (331) (0)); Leaf (NFlt (332) (0)); Leaf (NFlt (333) (0)); Leaf (NFlt (334) (0)); Leaf (NFlt (335) (0)); Leaf (NFlt (336) (0)); Leaf (NFlt (337) (0)); Leaf (NFlt (338) (0)); Leaf (NFlt (339) (0)); Leaf (NFlt (340) (0)); Leaf (NFlt (341) (0)); Leaf (NFlt (342) (0)); Leaf (NFlt (343) (0)); Leaf (NFlt (344) (0)); Leaf (NFlt (345) (0)); Leaf (NFlt (346) (0)); Leaf (NFlt (347) (0)); Leaf (NFlt (348) (0)); Leaf (NFlt (349) (0)); Leaf (NFlt (350) (0)); Leaf (NFlt (351) (0)); Leaf (NFlt (352) (0)); Leaf (NFlt (353) (0)); Leaf (NFlt (354) (0)); Leaf (NFlt (355) (0)); Leaf (NFlt (356) (0)); Leaf (NFlt (357) (0)); Leaf (NFlt (358) (0)); Leaf (NFlt (359) (0)); Leaf (NFlt (360) (0)); Leaf (NFlt (361) (0)); Leaf (NFlt (362) (0)); Leaf (NFlt (363) (0)); Leaf (NFlt (364) (0)); Leaf (NFlt (365) (0)); Leaf (NFlt (366) (0)); Leaf (NFlt (367) (0)); Leaf (NFlt (368) (0)); Leaf (NFlt (369) (0)); Leaf (NFlt (370) (0)); Leaf (NFlt (371) (0)); Leaf (NFlt (372) (0)); Leaf (NFlt (373) (0)); Leaf (NFlt (374) (0)); Leaf (NFlt (375) (0)); Leaf (NFlt (376) (0)); Leaf (NFlt (377) (0)); Leaf (NFlt (378) (0)); Leaf (NFlt (379) (0)); Leaf (NFlt (380) (0)); Leaf (NFlt (381) (0)); Leaf (NFlt (382) (0)); Leaf (NFlt (383) (0)); Leaf (NFlt (384) (0)); Leaf (NFlt (385) (0)); Leaf (NFlt (386) (0)); Leaf (NFlt (387) (0)); Leaf (NFlt (388) (0)); Leaf (NFlt (389) (0)); Leaf (NFlt (390) (0)); Leaf (NFlt (391) (0)); Leaf (NFlt (392) (0)); Leaf (NFlt (393) (0)); Leaf (NFlt (394) (0)); Leaf (NFlt (395) (0)); Leaf (NFlt (396) (0)); Leaf (NFlt (397) (0)); Leaf (NFlt (398) (0)); Leaf (NFlt (399) (0)); Leaf (NFlt (400) (0)); Leaf (NFlt (401) (0)); Leaf (NFlt (402) (0)); Leaf (NFlt (403) (0)); Leaf (NFlt (404) (0)); Leaf (NFlt (405) (0)); Leaf (NFlt (406) (0)); Leaf (NFlt (407) (0)); Leaf (NFlt (408) (0)); Leaf (NFlt (409) (0)); Leaf (NFlt (410) (0)); Leaf (NFlt (411) (0)); Leaf (NFlt (412) (0)); Leaf (NFlt (413) (0)); Leaf (NFlt (414) (0)); Leaf (NFlt (415) (0)); Leaf (NFlt (416) (0)); Leaf (NFlt (417) (0)); Leaf (NFlt (418) (0)); Leaf (NFlt (419) (0)); Leaf (NFlt (420) (0)); Leaf (NFlt (421) (0)); Leaf (NFlt (422) (0)); Leaf (NFlt (423) (0)); Leaf (NFlt (424) (0)); Leaf (NFlt (425) (0)); Leaf (NFlt (426) (0)); Leaf (NFlt (427) (0)); Leaf (NFlt (428) (0)); Leaf (NFlt (429) (0)); Leaf (NFlt (430) (0)); Leaf (NFlt (431) (0)); Leaf (NFlt (432) (0)); Leaf (NFlt (433) (0)); Leaf (NFlt (434) (0)); Leaf (NFlt (435) (0)); Leaf (NFlt (436) (0)); Leaf (NFlt (437) (0)); Leaf (NFlt (438) (0)); Leaf (NFlt (439) (0)); Leaf (NFlt (440) (0)); Leaf (NFlt (441) (0)); Leaf (NFlt (442) (0)); Leaf (NFlt (443) (0)); Leaf (NFlt (444) (0)); Leaf (NFlt (445) (0)); Leaf (NFlt (446) (0)); Leaf (NFlt (447) (0)); Leaf (NFlt (448) (0)); Leaf (NFlt (449) (0)); Leaf (NFlt (450) (0)); Leaf (NFlt (451) (0)); Leaf (NFlt (452) (0)); Leaf (NFlt (453) (0)); Leaf (NFlt (454) (0)); Leaf (NFlt (455) (0)); Leaf (NFlt (456) (0)); Leaf (NFlt (457) (0)); Leaf (NFlt (458) (0)); Leaf (NFlt (459) (0)); Leaf (NFlt (460) (0)); Leaf (NFlt (461) (0)); Leaf (NFlt (462) (0)); Leaf (NFlt (463) (0)); Leaf (NFlt (464) (0)); Leaf (NFlt (465) (0)); Leaf (NFlt (466) (0)); Leaf (NFlt (467) (0)); Leaf (NFlt (468) (0)); Leaf (NFlt (469) (0)); Leaf (NFlt (470) (0)); Leaf (NFlt (471) (0)); Leaf (NFlt (472) (0)); Leaf (NFlt (473) (0)); Leaf (NFlt (474) (0)); Leaf (NFlt (475) (0)); Leaf (NFlt (476) (0)); Leaf (NFlt (477) (0)); Leaf (NFlt (478) (0)); Leaf (NFlt (479) (0)); Leaf (NFlt (480) (0)); Leaf (NFlt (481) (0)); Leaf (NFlt (482) (0)); Leaf (NFlt (483) (0)); Leaf (NFlt (484) (0)); Leaf (NFlt (485) (0)); Leaf (NFlt (486) (0)); Leaf (NFlt (487) (0)); Leaf (NFlt (488) (0)); Leaf (NFlt (489) (0)); Leaf (NFlt (490) (0)); Leaf (NFlt (491) (0)); Leaf (NFlt (492) (0)); Leaf (NFlt (493) (0)); Leaf (NFlt (494) (0)); Leaf (NFlt (495) (0)); Leaf (NFlt (496) (0)); Leaf (NFlt (497) (0)); Leaf (NFlt (498) (0)); Leaf (NFlt (499) (0))]));
   TCall (CFullLike 0 (NFlt (2) (0)));
   TCall (CBinary BMul 0 1);
   TMat 2;
   TClose 2 [] (Nest [Leaf (NFlt (0) (0)); Leaf (NFlt (2) (0)); Leaf (NFlt (4) (0)); Leaf (NFlt (6) (0)); Leaf (NFlt (8) (0)); Leaf (NFlt (10) (0)); Leaf (NFlt (12) (0)); Leaf (NFlt (14) (0)); Leaf (NFlt (16) (0)); Leaf (NFlt (18) (0)); Leaf (NFlt (20) (0)); Leaf (NFlt (22) (0)); Leaf (NFlt (24) (0)); Leaf (NFlt (26) (0)); Leaf (NFlt (28) (0)); Leaf (NFlt (30) (0)); Leaf (NFlt (32) (0)); Leaf (NFlt (34) (0)); Leaf (NFlt (36) (0)); Leaf (NFlt (38) (0)); Leaf (NFlt (40) (0)); Leaf (NFlt (42) (0)); Leaf (NFlt (44) (0)); Leaf (NFlt (46) (0)); Leaf (NFlt (48) (0)); Leaf (NFlt (50) (0)); Leaf (NFlt (52) (0)); Leaf (NFlt (54) (0)); Leaf (NFlt (56) (0)); Leaf (NFlt (58) (0)); Leaf (NFlt (60) (0)); Leaf (NFlt (62) (0)); Leaf (NFlt (64) (0)); Leaf (NFlt (66) (0)); Leaf (NFlt (68) (0)); Leaf (NFlt (70) (0)); Leaf (NFlt (72) (0)); Leaf (NFlt (74) (0)); Leaf (NFlt (76) (0)); Leaf (NFlt (78) (0)); Leaf (NFlt (80) (0)); Leaf (NFlt (82) (0)); Leaf (NFlt (84) (0)); Leaf (NFlt (86) (0)); Leaf (NFlt (88) (0)); Leaf (NFlt (90) (0)); Leaf (NFlt (92) (0)); Leaf (NFlt (94) (0)); Leaf (NFlt (96) (0)); Leaf (NFlt (98) (0)); Leaf (NFlt (100) (0)); Leaf (NFlt (102) (0)); Leaf (NFlt (104) (0)); Leaf (NFlt (106) (0)); Leaf (NFlt (108) (0)); Leaf (NFlt (110) (0)); Leaf (NFlt (112) (0)); Leaf (NFlt (114) (0)); Leaf (NFlt (116) (0)); Leaf (NFlt (118) (0)); Leaf (NFlt (120) (0)); Leaf (NFlt (122) (0)); Leaf (NFlt (124) (0)); Leaf (NFlt (126) (0)); Leaf (NFlt (128) (0)); Leaf (NFlt (130) (0)); Leaf (NFlt (132) (0)); Leaf (NFlt (134) (0)); Leaf (NFlt (136) (0)); Leaf (NFlt (138) (0)); Leaf (NFlt (140) (0)); Leaf (NFlt (142) (0)); Leaf (NFlt (144) (0)); Leaf (NFlt (146) (0)); Leaf (NFlt (148) (0)); Leaf (NFlt (150) (0)); Leaf (NFlt (152) (0)); Leaf (NFlt (154) (0)); Leaf (NFlt (156) (0)); Leaf (NFlt (158) (0)); Leaf (NFlt (160) (0)); Leaf (NFlt (162) (0)); Leaf (NFlt (164) (0)); Leaf (NFlt (166) (0)); Leaf (NFlt (168) (0)); Leaf (NFlt (170) (0)); Leaf (NFlt (172) (0)); Leaf (NFlt (174) (0)); Leaf (NFlt (176) (0)); Leaf (NFlt (178) (0)); Leaf (NFlt (180) (0)); Leaf (NFlt (182) (0)); Leaf (NFlt (184) (0)); Leaf (NFlt (186) (0)); Leaf (NFlt (188) (0)); Leaf (NFlt (190) (0)); Leaf (NFlt (192) (0)); Leaf (NFlt (194) (0)); Leaf (NFlt (196) (0)); Leaf (NFlt (198) (0)); Leaf (NFlt (200) (0)); Leaf (NFlt (202) (0)); Leaf (NFlt (204) (0)); Leaf (NFlt (206) (0)); Leaf (NFlt (208) (0)); Leaf (NFlt (210) (0)); Leaf (NFlt (212) (0)); Leaf (NFlt (214) (0)); Leaf (NFlt (216) (0)); Leaf (NFlt (218) (0)); Leaf (NFlt (220) (0)); Leaf (NFlt (222) (0)); Leaf (NFlt (224) (0)); Leaf (NFlt (226) (0)); Leaf (NFlt (228) (0)); Leaf (NFlt (230) (0)); Leaf (NFlt (232) (0)); Leaf (NFlt (234) (0)); Leaf (NFlt (236) (0)); Leaf (NFlt (238) (0)); Leaf (NFlt (240) (0)); Leaf (NFlt (242) (0)); Leaf (NFlt (244) (0)); Leaf (NFlt (246) (0)); Leaf (NFlt (248) (0)); Leaf (NFlt (250) (0)); Leaf (NFlt (252) (0)); Leaf (NFlt (254) (0)); Leaf (NFlt (256) (0)); Leaf (NFlt (258) (0)); Leaf (NFlt (260) (0)); Leaf (NFlt (262) (0)); Leaf (NFlt (264) (0)); Leaf (NFlt (266) (0)); Leaf (NFlt (268) (0)); Leaf (NFlt (270) (0)); Leaf (NFlt (272) (0)); Leaf (NFlt (274) (0)); Leaf (NFlt (276) (0)); Leaf (NFlt (278) (0)); Leaf (NFlt (280) (0)); Leaf (NFlt (282) (0)); Leaf (NFlt (284) (0)); Leaf (NFlt (286) (0)); Leaf (NFlt (288) (0)); Leaf (NFlt (290) (0)); Leaf (NFlt (292) (0)); Leaf (NFlt (294) (0)); Leaf (NFlt (296) (0)); Leaf (NFlt (298) (0)); Leaf (NFlt (300) (0)); Leaf (NFlt (302) (0)); Leaf (NFlt (304) (0)); Leaf (NFlt (306) (0)); Leaf (NFlt (308) (0)); Leaf (NFlt (310) (0)); Leaf (NFlt (312) (0)); Leaf (NFlt (314) (0)); Leaf (NFlt (316) (0)); Leaf (NFlt (318) (0)); Leaf (NFlt (320) (0)); Leaf (NFlt (322) (0)); Leaf (NFlt (324) (0)); Leaf (NFlt (326) (0)); Leaf (NFlt (328) (0)); Leaf (NFlt (330) (0)); Leaf (NFlt (332) (0)); Leaf (NFlt (334) (0)); Leaf (NFlt (336) (0)); Leaf (NFlt (338) (0)); Leaf (NFlt (340) (0)); Leaf (NFlt (342) (0)); Leaf (NFlt (344) (0)); Leaf (NFlt (346) (0)); Leaf (NFlt (348) (0)); Leaf (NFlt (350) (0)); Leaf (NFlt (352) (0)); Leaf (NFlt (354) (0)); Leaf (NFlt (356) (0)); Leaf (NFlt (358) (0)); Leaf (NFlt (360) (0)); Leaf (NFlt (362) (0)); Leaf (NFlt (364) (0)); Leaf (NFlt (366) (0)); Leaf (NFlt (368) (0)); Leaf (NFlt (370) (0)); Leaf (NFlt (372) (0)); Leaf (NFlt (374) (0)); Leaf (NFlt (376) (0)); Leaf (NFlt (378) (0)); Leaf (NFlt (380) (0)); Leaf (NFlt (382) (0)); Leaf (NFlt (384) (0)); Leaf (NFlt (386) (0)); Leaf (NFlt (388) (0)); Leaf (NFlt (390) (0)); Leaf (NFlt (392) (0)); Leaf (NFlt (394) (0)); Leaf (NFlt (396) (0)); Leaf (NFlt (398) (0)); Leaf (NFlt (400) (0)); Leaf (NFlt (402) (0)); Leaf (NFlt (404) (0)); Leaf (NFlt (406) (0)); Leaf (NFlt (408) (0)); Leaf (NFlt (410) (0)); Leaf (NFlt (412) (0)); Leaf (NFlt (414) (0)); Leaf (NFlt (416) (0)); Leaf (NFlt (418) (0)); Leaf (NFlt (420) (0)); Leaf (NFlt (422) (0)); Leaf (NFlt (424) (0)); Leaf (NFlt (426) (0)); Leaf (NFlt (428) (0)); Leaf (NFlt (430) (0)); Leaf (NFlt (432) (0)); Leaf (NFlt (434) (0)); Leaf (NFlt (436) (0)); Leaf (NFlt (438) (0)); Leaf (NFlt (440) (0)); Leaf (NFlt (442) (0)); Leaf (NFlt (444) (0)); Leaf (NFlt (446) (0)); Leaf (NFlt (448) (0)); Leaf (NFlt (450) (0)); Leaf (NFlt (452) (0)); Leaf (NFlt (454) (0)); Leaf (NFlt (456) (0)); Leaf (NFlt (458) (0)); Leaf (NFlt (460) (0)); Leaf (NFlt (462) (0)); Leaf (NFlt (464) (0)); Leaf (NFlt (466) (0)); Leaf (NFlt (468) (0)); Leaf (NFlt (470) (0)); Leaf (NFlt (472) (0)); Leaf (NFlt (474) (0)); Leaf (NFlt (476) (0)); Leaf (NFlt (478) (0)); Leaf (NFlt (480) (0)); Leaf (NFlt (482) (0)); Leaf (NFlt (484) (0)); Leaf (NFlt (486) (0)); Leaf (NFlt (488) (0)); Leaf (NFlt (490) (0)); Leaf (NFlt (492) (0)); Leaf (NFlt (494) (0)); Leaf (NFlt (496) (0)); Leaf (NFlt (498) (0)); Leaf (NFlt (500) (0)); Leaf (NFlt (502) (0)); Leaf (NFlt (504) (0)); Leaf (NFlt (506) (0)); Leaf (NFlt (508) (0)); Leaf (NFlt (510) (0)); Leaf (NFlt (512) (0)); Leaf (NFlt (514) (0)); Leaf (NFlt (516) (0)); Leaf (NFlt (518) (0)); Leaf (NFlt (520) (0)); Leaf (NFlt (522) (0)); Leaf (NFlt (524) (0)); Leaf (NFlt (526) (0)); Leaf (NFlt (528) (0)); Leaf (NFlt (530) (0)); Leaf (NFlt (532) (0)); Leaf (NFlt (534) (0)); Leaf (NFlt (536) (0)); Leaf (NFlt (538) (0)); Leaf (NFlt (540) (0)); Leaf (NFlt (542) (0)); Leaf (NFlt (544) (0)); Leaf (NFlt (546) (0)); Leaf (NFlt (548) (0)); Leaf (NFlt (550) (0)); Leaf (NFlt (552) (0)); Leaf (NFlt (554) (0)); Leaf (NFlt (556) (0)); Leaf (NFlt (558) (0)); Leaf (NFlt (560) (0)); Leaf (NFlt (562) (0)); Leaf (NFlt (564) (0)); Leaf (NFlt (566) (0)); Leaf (NFlt (568) (0)); Leaf (NFlt (570) (0)); Leaf (NFlt (572) (0)); Leaf (NFlt (574) (0)); Leaf (NFlt (576) (0)); Leaf (NFlt (578) (0)); Leaf (NFlt (580) (0)); Leaf (NFlt (582) (0)); Leaf (NFlt (584) (0)); Leaf (NFlt (586) (0)); Leaf (NFlt (588) (0)); Leaf (NFlt (590) (0)); Leaf (NFlt (592) (0)); Leaf (NFlt (594) (0)); Leaf (NFlt (596) (0)); Leaf (NFlt (598) (0)); Leaf (NFlt (600) (0)); Leaf (NFlt (602) (0)); Leaf (NFlt (604) (0)); Leaf (NFlt (606) (0)); Leaf (NFlt (608) (0)); Leaf (NFlt (610) (0)); Leaf (NFlt (612) (0)); Leaf (NFlt (614) (0)); Leaf (NFlt (616) (0)); Leaf (NFlt (618) (0)); Leaf (NFlt (620) (0)); Leaf (NFlt (622) (0)); Leaf (NFlt (624) (0)); Leaf (NFlt (626) (0)); Leaf (NFlt (628) (0)); Leaf (NFlt (630) (0)); Leaf (NFlt (632) (0)); Leaf (NFlt (634) (0)); Leaf (NFlt (636) (0)); Leaf (NFlt (638) (0)); Leaf (NFlt (640) (0)); Leaf (NFlt (642) (0)); Leaf (NFlt (644) (0)); Leaf (NFlt (646) (0)); Leaf (NFlt (648) (0)); Leaf (NFlt (650) (0)); Leaf (NFlt (652) (0)); Leaf (NFlt (654) (0)); Leaf (NFlt (656) (0)); Leaf (NFlt (658) (0)); Leaf (NFlt (660) (0)); Leaf (NFlt (662) (0)); Leaf (NFlt (664) (0)); Leaf (NFlt (666) (0)); Leaf (NFlt (668) (0)); Leaf (NFlt (670) (0)); Leaf (NFlt (672) (0)); Leaf (NFlt (674) (0)); Leaf (NFlt (676) (0)); Leaf (NFlt (678) (0)); Leaf (NFlt (680) (0)); Leaf (NFlt (682) (0)); Leaf (NFlt (684) (0)); Leaf (NFlt (686) (0)); Leaf (NFlt (688) (0)); Leaf (NFlt (690) (0)); Leaf (NFlt (692) (0)); Leaf (NFlt (694) (0)); Leaf (NFlt (696) (0)); Leaf (NFlt (698) (0)); Leaf (NFlt (700) (0)); Leaf (NFlt (702) (0)); Leaf (NFlt (704) (0)); Leaf (NFlt (706) (0)); Leaf (NFlt (708) (0)); Leaf (NFlt (710) (0)); Leaf (NFlt (712) (0)); Leaf (NFlt (714) (0)); Leaf (NFlt (716) (0)); Leaf (NFlt (718) (0)); Leaf (NFlt (720) (0)); Leaf (NFlt (722) (0)); Leaf (NFlt (724) (0)); Leaf (NFlt (726) (0)); Leaf (NFlt (728) (0)); Leaf (NFlt (730) (0)); Leaf (NFlt (732) (0)); Leaf (NFlt (734) (0)); Leaf (NFlt (736) (0)); Leaf (NFlt (738) (0)); Leaf (NFlt (740) (0)); Leaf (NFlt (742) (0)); Leaf (NFlt (744) (0)); Leaf (NFlt (746) (0)); Leaf (NFlt (748) (0)); Leaf (NFlt (750) (0)); Leaf (NFlt (752) (0)); Leaf (NFlt (754) (0)); Leaf (NFlt (756) (0)); Leaf (NFlt (758) (0)); Leaf (NFlt (760) (0)); Leaf (NFlt (762) (0)); Leaf (NFlt (764) (0)); Leaf (NFlt (766) (0)); Leaf (NFlt (768) (0)); Leaf (NFlt (770) (0)); Leaf (NFlt (772) (0)); Leaf (NFlt (774) (0)); Leaf (NFlt (776) (0)); Leaf (NFlt (778) (0)); Leaf (NFlt (780) (0)); Leaf (NFlt (782) (0)); Leaf (NFlt (784) (0)); Leaf (NFlt (786) (0)); Leaf (NFlt (788) (0)); Leaf (NFlt (790) (0)); Leaf (NFlt (792) (0)); Leaf (NFlt (794) (0)); Leaf (NFlt (796) (0)); Leaf (NFlt (798) (0)); Leaf (NFlt (800) (0)); Leaf (NFlt (802) (0)); Leaf (NFlt (804) (0)); Leaf (NFlt (806) (0)); Leaf (NFlt (808) (0)); Leaf (NFlt (810) (0)); Leaf (NFlt (812) (0)); Leaf (NFlt (814) (0)); Leaf (NFlt (816) (0)); Leaf (NFlt (818) (0)); Leaf (NFlt (820) (0)); Leaf (NFlt (822) (0)); Leaf (NFlt (824) (0)); Leaf (NFlt (826) (0)); Leaf (NFlt (828) (0)); Leaf (NFlt (830) (0)); Leaf (NFlt (832) (0)); Leaf (NFlt (834) (0)); Leaf (NFlt (836) (0)); Leaf (NFlt (838) (0)); Leaf (NFlt (840) (0)); Leaf (NFlt (842) (0)); Leaf (NFlt (844) (0)); Leaf (NFlt (846) (0)); Leaf (NFlt (848) (0)); Leaf (NFlt (850) (0)); Leaf (NFlt (852) (0)); Leaf (NFlt (854) (0)); Leaf (NFlt (856) (0)); Leaf (NFlt (858) (0)); Leaf (NFlt (860) (0)); Leaf (NFlt (862) (0)); Leaf (NFlt (864) (0)); Leaf (NFlt (866) (0)); Leaf (NFlt (868) (0)); Leaf (NFlt (870) (0)); Leaf (NFlt (872) (0)); Leaf (NFlt (874) (0)); Leaf (NFlt (876) (0)); Leaf (NFlt (878) (0)); Leaf (NFlt (880) (0)); Leaf (NFlt (882) (0)); Leaf (NFlt (884) (0)); Leaf (NFlt (886) (0)); Leaf (NFlt (888) (0)); Leaf (NFlt (890) (0)); Leaf (NFlt (892) (0)); Leaf (NFlt (894) (0)); Leaf (NFlt (896) (0)); Leaf (NFlt (898) (0)); Leaf (NFlt (900) (0)); Leaf (NFlt (902) (0)); Leaf (NFlt (904) (0)); Leaf (NFlt (906) (0)); Leaf (NFlt (908) (0)); Leaf (NFlt (910) (0)); Leaf (NFlt (912) (0)); Leaf (NFlt (914) (0)); Leaf (NFlt (916) (0)); Leaf (NFlt (918) (0)); Leaf (NFlt (920) (0)); Leaf (NFlt (922) (0)); Leaf (NFlt (924) (0)); Leaf (NFlt (926) (0)); Leaf (NFlt (928) (0)); Leaf (NFlt (930) (0)); Leaf (NFlt (932) (0)); Leaf (NFlt (934) (0)); Leaf (NFlt (936) (0)); Leaf (NFlt (938) (0)); Leaf (NFlt (940) (0)); Leaf (NFlt (942) (0)); Leaf (NFlt (944) (0)); Leaf (NFlt (946) (0)); Leaf (NFlt (948) (0)); Leaf (NFlt (950) (0)); Leaf (NFlt (952) (0)); Leaf (NFlt (954) (0)); Leaf (NFlt (956) (0)); Leaf (NFlt (958) (0)); Leaf (NFlt (960) (0)); Leaf (NFlt (962) (0)); Leaf (NFlt (964) (0)); Leaf (NFlt (966) (0)); Leaf (NFlt (968) (0)); Leaf (NFlt (970) (0)); Leaf (NFlt (972) (0)); Leaf (NFlt (974) (0)); Leaf (NFlt (976) (0)); Leaf (NFlt (978) (0)); Leaf (NFlt (980) (0)); Leaf (NFlt (982) (0)); Leaf (NFlt (984) (0)); Leaf (NFlt (986) (0)); Leaf (NFlt (988) (0)); Leaf (NFlt (990) (0)); Leaf (NFlt (992) (0)); Leaf (NFlt (994) (0)); Leaf (NFlt (996) (0)); Leaf (NFlt (998) (0))])].
Example test_large_float_mul_py : run_test (py_backend lm) py_eq py_close test_large_float_mul = true. Proof. vm_compute. reflexivity. Qed.
Example test_large_float_mul_c : run_test (c_backend lm) c_eq c_close test_large_float_mul = true. Proof. vm_compute. reflexivity. Qed.

(* test.py:569-575 *)
Definition test_chain_add_add : list tstep :=
  [TCall (CArange (4));
   TCall (CArange (4));
   TCall (CArange (4));
   TCall (CBinary BAdd 0 1);
   TCall (CBinary BAdd 3 2);
   TMat 4;
   TList 4 [] (Nest [Leaf (NInt (0)); Leaf (NInt (3)); Leaf (NInt (6)); Leaf (NInt (9))])].
Example test_chain_add_add_py : run_test (py_backend lm) py_eq py_close test_chain_add_add = true. Proof. vm_compute. reflexivity. Qed.
Example test_chain_add_add_c : run_test (c_backend lm) c_eq c_close test_chain_add_add = true. Proof. vm_compute. reflexivity. Qed.

(* test.py:577-582 *)
Definition test_chain_neg_add : list tstep :=
  [TCall (CArange (4));
   TCall (CArange (4));
   TCall (CUnary UNeg 0);
   TCall (CBinary BAdd 2 1);
   TMat 3;
   TList 3 [] (Nest [Leaf (NInt (0)); Leaf (NInt (0)); Leaf (NInt (0)); Leaf (NInt (0))])].
Example test_chain_neg_add_py : run_test (py_backend lm) py_eq py_close test_chain_neg_add = true. Proof. vm_compute. reflexivity. Qed.
Example test_chain_neg_add_c : run_test (c_backend lm) c_eq c_close test_chain_neg_add = true. Proof. vm_compute. reflexivity. Qed.

(* test.py:584-589 *)
Definition test_mul_then_sum : list tstep :=
  [TCall (CArray (Nest [Nest [Leaf (NInt (1)); Leaf (NInt (2))]; Nest [Leaf (NInt (3)); Leaf (NInt (4))]]));
   TCall (CArray (Nest [Nest [Leaf (NInt (2)); Leaf (NInt (2))]; Nest [Leaf (NInt (2)); Leaf (NInt (2))]]));
   TCall (CBinary BMul 0 1);
   TCall (CSum 2 None false);
   TMat 3;
   TList 3 [] (Leaf (NInt (20)))].
Example test_mul_then_sum_py : run_test (py_backend lm) py_eq py_close test_mul_then_sum = true. Proof. vm_compute. reflexivity. Qed.
Example test_mul_then_sum_c : run_test (c_backend lm) c_eq c_close test_mul_then_sum = true. Proof. vm_compute. reflexivity. Qed.

(* test.py:591-597 *)
Definition test_transpose_reshape_sum : list tstep :=
  [TCall (CArray (Nest [Nest [Leaf (NInt (1)); Leaf (NInt (2)); Leaf (NInt (3))]; Nest [Leaf (NInt (4)); Leaf (NInt (5)); Leaf (NInt (6))]]));
   TCall (CArray (Nest [Nest [Leaf (NInt (2)); Leaf (NInt (2)); Leaf (NInt (2))]; Nest [Leaf (NInt (2)); Leaf (NInt (2)); Leaf (NInt (2))]]));
   TCall (CBinary BMul 0 1);
   TCall (CTranspose 2 [1; 0]);
   TCall (CReshape 3 [6]);
   TCall (CSum 4 None false);
   TMat 5;
   TList 5 [] (Leaf (NInt (42)))].
Example test_transpose_reshape_sum_py : run_test (py_backend lm) py_eq py_close test_transpose_reshape_sum = true. Proof. vm_compute. reflexivity. Qed.
Example test_transpose_reshape_sum_c : run_test (c_backend lm) c_eq c_close test_transpose_reshape_sum = true. Proof. vm_compute. reflexivity. Qed.

(* test.py:599-604 *)
Definition test_chain_with_broadcast : list tstep :=
  [TCall (CArray (Nest [Nest [Leaf (NInt (1)); Leaf (NInt (2)); Leaf (NInt (3))]; Nest [Leaf (NInt (4)); Leaf (NInt (5)); Leaf (NInt (6))]]));
   TCall (CArray (Nest [Leaf (NInt (1)); Leaf (NInt (2)); Leaf (NInt (3))]));
   TCall (CBinary BAdd 0 1);
   TCall (CSum 2 (Some [0]) false);
   TMat 3;
   TList 3 [] (Nest [Leaf (NInt (7)); Leaf (NInt (11)); Leaf (NInt (15))])].
Example test_chain_with_broadcast_py : run_test (py_backend lm) py_eq py_close test_chain_with_broadcast = true. Proof. vm_compute. reflexivity. Qed.
Example test_chain_with_broadcast_c : run_test (c_backend lm) c_eq c_close test_chain_with_broadcast = true. Proof. vm_compute. reflexivity. Qed.

(* test.py:606-613 *)
Definition test_reuse_intermediate : list tstep :=
  [TCall (CArange (4));
   TCall (CArange (4));
   TCall (CBinary BAdd 0 1);
   TCall (CBinary BMul 2 2);
   TMat 3;
   TList 3 [] (Nest [Leaf (NInt (0)); Leaf (NInt (4)); Leaf (NInt (16)); Leaf (NInt (36))])].
Example test_reuse_intermediate_py : run_test (py_backend lm) py_eq py_close test_reuse_intermediate = true. Proof. vm_compute. reflexivity. Qed.
Example test_reuse_intermediate_c : run_test (c_backend lm) c_eq c_close test_reuse_intermediate = true. Proof. vm_compute. reflexivity. Qed.

(* test.py:619-622 *)
Definition test_slice_1d_int : list tstep :=
  [TCall (CArange (6));
   TCall (CGetitem 0 [SInt (2)]);
   TShape 1 [];
   TCall (CGetitem 0 [SInt (2)]);
   TList 2 [] (Leaf (NInt (2)))].
Example test_slice_1d_int_py : run_test (py_backend lm) py_eq py_close test_slice_1d_int = true. Proof. vm_compute. reflexivity. Qed.
Example test_slice_1d_int_c : run_test (c_backend lm) c_eq c_close test_slice_1d_int = true. Proof. vm_compute. reflexivity. Qed.

(* test.py:624-627 *)
Definition test_slice_1d_negative_int : list tstep :=
  [TCall (CArange (6));
   TCall (CGetitem 0 [SInt (-1)]);
   TList 1 [] (Leaf (NInt (5)));
   TCall (CGetitem 0 [SInt (-3)]);
   TList 2 [] (Leaf (NInt (3)))].
Example test_slice_1d_negative_int_py : run_test (py_backend lm) py_eq py_close test_slice_1d_negative_int = true. Proof. vm_compute. reflexivity. Qed.
Example test_slice_1d_negative_int_c : run_test (c_backend lm) c_eq c_close test_slice_1d_negative_int = true. Proof. vm_compute. reflexivity. Qed.

(* test.py:629-635 *)
Definition test_slice_1d_basic : list tstep :=
  [TCall (CArange (6));
   TCall (CGetitem 0 [SSlice (Some (1)) (Some (4)) None]);
   TShape 1 [3];
   TStrides 1 [1];
   TOffset 1 (1);
   TList 1 [] (Nest [Leaf (NInt (1)); Leaf (NInt (2)); Leaf (NInt (3))])].
Example test_slice_1d_basic_py : run_test (py_backend lm) py_eq py_close test_slice_1d_basic = true. Proof. vm_compute. reflexivity. Qed.
Example test_slice_1d_basic_c : run_test (c_backend lm) c_eq c_close test_slice_1d_basic = true. Proof. vm_compute. reflexivity. Qed.

(* test.py:637-639 *)
Definition test_slice_1d_from_start : list tstep :=
  [TCall (CArange (6));
   TCall (CGetitem 0 [SSlice None (Some (3)) None]);
   TList 1 [] (Nest [Leaf (NInt (0)); Leaf (NInt (1)); Leaf (NInt (2))])].
Example test_slice_1d_from_start_py : run_test (py_backend lm) py_eq py_close test_slice_1d_from_start = true. Proof. vm_compute. reflexivity. Qed.
Example test_slice_1d_from_start_c : run_test (c_backend lm) c_eq c_close test_slice_1d_from_start = true. Proof. vm_compute. reflexivity. Qed.

(* test.py:641-643 *)
Definition test_slice_1d_to_end : list tstep :=
  [TCall (CArange (6));
   TCall (CGetitem 0 [SSlice (Some (3)) None None]);
   TList 1 [] (Nest [Leaf (NInt (3)); Leaf (NInt (4)); Leaf (NInt (5))])].
Example test_slice_1d_to_end_py : run_test (py_backend lm) py_eq py_close test_slice_1d_to_end = true. Proof. vm_compute. reflexivity. Qed.
Example test_slice_1d_to_end_c : run_test (c_backend lm) c_eq c_close test_slice_1d_to_end = true. Proof. vm_compute. reflexivity. Qed.

(* test.py:645-650 *)
Definition test_slice_1d_step : list tstep :=
  [TCall (CArange (6));
   TCall (CGetitem 0 [SSlice None None (Some (2))]);
   TShape 1 [3];
   TStrides 1 [2];
   TList 1 [] (Nest [Leaf (NInt (0)); Leaf (NInt (2)); Leaf (NInt (4))])].
Example test_slice_1d_step_py : run_test (py_backend lm) py_eq py_close test_slice_1d_step = true. Proof. vm_compute. reflexivity. Qed.
Example test_slice_1d_step_c : run_test (c_backend lm) c_eq c_close test_slice_1d_step = true. Proof. vm_compute. reflexivity. Qed.

(* test.py:652-654 *)
Definition test_slice_1d_start_step : list tstep :=
  [TCall (CArange (6));
   TCall (CGetitem 0 [SSlice (Some (1)) None (Some (2))]);
   TList 1 [] (Nest [Leaf (NInt (1)); Leaf (NInt (3)); Leaf (NInt (5))])].
Example test_slice_1d_start_step_py : run_test (py_backend lm) py_eq py_close test_slice_1d_start_step = true. Proof. vm_compute. reflexivity. Qed.
Example test_slice_1d_start_step_c : run_test (c_backend lm) c_eq c_close test_slice_1d_start_step = true. Proof. vm_compute. reflexivity. Qed.

(* test.py:656-658 *)
Definition test_slice_1d_start_stop_step : list tstep :=
  [TCall (CArange (6));
   TCall (CGetitem 0 [SSlice (Some (1)) (Some (5)) (Some (2))]);
   TList 1 [] (Nest [Leaf (NInt (1)); Leaf (NInt (3))])].
Example test_slice_1d_start_stop_step_py : run_test (py_backend lm) py_eq py_close test_slice_1d_start_stop_step = true. Proof. vm_compute. reflexivity. Qed.
Example test_slice_1d_start_stop_step_c : run_test (c_backend lm) c_eq c_close test_slice_1d_start_stop_step = true. Proof. vm_compute. reflexivity. Qed.

(* test.py:660-663 *)
Definition test_slice_2d_int_int : list tstep :=
  [TCall (CArray (Nest [Nest [Leaf (NInt (1)); Leaf (NInt (2)); Leaf (NInt (3))]; Nest [Leaf (NInt (4)); Leaf (NInt (5)); Leaf (NInt (6))]]));
   TCall (CGetitem 0 [SInt (0); SInt (0)]);
   TList 1 [] (Leaf (NInt (1)));
   TCall (CGetitem 0 [SInt (1); SInt (2)]);
   TList 2 [] (Leaf (NInt (6)))].
Example test_slice_2d_int_int_py : run_test (py_backend lm) py_eq py_close test_slice_2d_int_int = true. Proof. vm_compute. reflexivity. Qed.
Example test_slice_2d_int_int_c : run_test (c_backend lm) c_eq c_close test_slice_2d_int_int = true. Proof. vm_compute. reflexivity. Qed.

(* test.py:665-669 *)
Definition test_slice_2d_first_int : list tstep :=
  [TCall (CArray (Nest [Nest [Leaf (NInt (1)); Leaf (NInt (2)); Leaf (NInt (3))]; Nest [Leaf (NInt (4)); Leaf (NInt (5)); Leaf (NInt (6))]]));
   TCall (CGetitem 0 [SInt (1)]);
   TShape 1 [3];
   TList 1 [] (Nest [Leaf (NInt (4)); Leaf (NInt (5)); Leaf (NInt (6))])].
Example test_slice_2d_first_int_py : run_test (py_backend lm) py_eq py_close test_slice_2d_first_int = true. Proof. vm_compute. reflexivity. Qed.
Example test_slice_2d_first_int_c : run_test (c_backend lm) c_eq c_close test_slice_2d_first_int = true. Proof. vm_compute. reflexivity. Qed.

(* test.py:671-674 *)
Definition test_slice_2d_negative_int : list tstep :=
  [TCall (CArray (Nest [Nest [Leaf (NInt (1)); Leaf (NInt (2)); Leaf (NInt (3))]; Nest [Leaf (NInt (4)); Leaf (NInt (5)); Leaf (NInt (6))]]));
   TCall (CGetitem 0 [SInt (-1)]);
   TList 1 [] (Nest [Leaf (NInt (4)); Leaf (NInt (5)); Leaf (NInt (6))]);
   TCall (CGetitem 0 [SInt (-1); SInt (-1)]);
   TList 2 [] (Leaf (NInt (6)))].
Example test_slice_2d_negative_int_py : run_test (py_backend lm) py_eq py_close test_slice_2d_negative_int = true. Proof. vm_compute. reflexivity. Qed.
Example test_slice_2d_negative_int_c : run_test (c_backend lm) c_eq c_close test_slice_2d_negative_int = true. Proof. vm_compute. reflexivity. Qed.

(* test.py:676-679 *)
Definition test_slice_2d_int_slice : list tstep :=
  [TCall (CArray (Nest [Nest [Leaf (NInt (1)); Leaf (NInt (2)); Leaf (NInt (3))]; Nest [Leaf (NInt (4)); Leaf (NInt (5)); Leaf (NInt (6))]]));
   TCall (CGetitem 0 [SInt (0); SSlice (Some (1)) (Some (3)) None]);
   TList 1 [] (Nest [Leaf (NInt (2)); Leaf (NInt (3))]);
   TCall (CGetitem 0 [SInt (1); SSlice None (Some (2)) None]);
   TList 2 [] (Nest [Leaf (NInt (4)); Leaf (NInt (5))])].
Example test_slice_2d_int_slice_py : run_test (py_backend lm) py_eq py_close test_slice_2d_int_slice = true. Proof. vm_compute. reflexivity. Qed.
Example test_slice_2d_int_slice_c : run_test (c_backend lm) c_eq c_close test_slice_2d_int_slice = true. Proof. vm_compute. reflexivity. Qed.

(* test.py:681-685 *)
Definition test_slice_2d_slice_int : list tstep :=
  [TCall (CArray (Nest [Nest [Leaf (NInt (1)); Leaf (NInt (2)); Leaf (NInt (3))]; Nest [Leaf (NInt (4)); Leaf (NInt (5)); Leaf (NInt (6))]; Nest [Leaf (NInt (7)); Leaf (NInt (8)); Leaf (NInt (9))]]));
   TCall (CGetitem 0 [SSlice (Some (1)) (Some (3)) None; SInt (2)]);
   TShape 1 [2];
   TList 1 [] (Nest [Leaf (NInt (6)); Leaf (NInt (9))])].
Example test_slice_2d_slice_int_py : run_test (py_backend lm) py_eq py_close test_slice_2d_slice_int = true. Proof. vm_compute. reflexivity. Qed.
Example test_slice_2d_slice_int_c : run_test (c_backend lm) c_eq c_close test_slice_2d_slice_int = true. Proof. vm_compute. reflexivity. Qed.

(* test.py:687-691 *)
Definition test_slice_2d_slice_slice : list tstep :=
  [TCall (CArray (Nest [Nest [Leaf (NInt (1)); Leaf (NInt (2)); Leaf (NInt (3))]; Nest [Leaf (NInt (4)); Leaf (NInt (5)); Leaf (NInt (6))]; Nest [Leaf (NInt (7)); Leaf (NInt (8)); Leaf (NInt (9))]]));
   TCall (CGetitem 0 [SSlice (Some (1)) (Some (3)) None; SSlice (Some (0)) (Some (2)) None]);
   TShape 1 [2; 2];
   TList 1 [] (Nest [Nest [Leaf (NInt (4)); Leaf (NInt (5))]; Nest [Leaf (NInt (7)); Leaf (NInt (8))]])].
Example test_slice_2d_slice_slice_py : run_test (py_backend lm) py_eq py_close test_slice_2d_slice_slice = true. Proof. vm_compute. reflexivity. Qed.
Example test_slice_2d_slice_slice_c : run_test (c_backend lm) c_eq c_close test_slice_2d_slice_slice = true. Proof. vm_compute. reflexivity. Qed.

(* test.py:693-697 *)
Definition test_slice_2d_step : list tstep :=
  [TCall (CArray (Nest [Nest [Leaf (NInt (1)); Leaf (NInt (2)); Leaf (NInt (3)); Leaf (NInt (4))]; Nest [Leaf (NInt (5)); Leaf (NInt (6)); Leaf (NInt (7)); Leaf (NInt (8))]; Nest [Leaf (NInt (9)); Leaf (NInt (10)); Leaf (NInt (11)); Leaf (NInt (12))]]));
   TCall (CGetitem 0 [SSlice None None (Some (2)); SSlice None None (Some (2))]);
   TShape 1 [2; 2];
   TList 1 [] (Nest [Nest [Leaf (NInt (1)); Leaf (NInt (3))]; Nest [Leaf (NInt (9)); Leaf (NInt (11))]])].
Example test_slice_2d_step_py : run_test (py_backend lm) py_eq py_close test_slice_2d_step = true. Proof. vm_compute. reflexivity. Qed.
Example test_slice_2d_step_c : run_test (c_backend lm) c_eq c_close test_slice_2d_step = true. Proof. vm_compute. reflexivity. Qed.

(* test.py:699-703 *)
Definition test_slice_no_materialize : list tstep :=
  [TCall (CArray (Nest [Nest [Leaf (NInt (1)); Leaf (NInt (2)); Leaf (NInt (3))]; Nest [Leaf (NInt (4)); Leaf (NInt (5)); Leaf (NInt (6))]]));
   TCall (CGetitem 0 [SSlice (Some (0)) (Some (1)) None; SSlice (Some (1)) None None]);
   TShape 1 [1; 2];
   TList 1 [] (Nest [Nest [Leaf (NInt (2)); Leaf (NInt (3))]])].
Example test_slice_no_materialize_py : run_test (py_backend lm) py_eq py_close test_slice_no_materialize = true. Proof. vm_compute. reflexivity. Qed.
Example test_slice_no_materialize_c : run_test (c_backend lm) c_eq c_close test_slice_no_materialize = true. Proof. vm_compute. reflexivity. Qed.

(* test.py:705-708 *)
Definition test_slice_3d : list tstep :=
  [TCall (CArray (Nest [Nest [Nest [Leaf (NInt (1)); Leaf (NInt (2))]; Nest [Leaf (NInt (3)); Leaf (NInt (4))]]; Nest [Nest [Leaf (NInt (5)); Leaf (NInt (6))]; Nest [Leaf (NInt (7)); Leaf (NInt (8))]]]));
   TCall (CGetitem 0 [SInt (0); SSlice None None None; SInt (1)]);
   TList 1 [] (Nest [Leaf (NInt (2)); Leaf (NInt (4))]);
   TCall (CGetitem 0 [SInt (1); SInt (0)]);
   TList 2 [] (Nest [Leaf (NInt (5)); Leaf (NInt (6))])].
Example test_slice_3d_py : run_test (py_backend lm) py_eq py_close test_slice_3d = true. Proof. vm_compute. reflexivity. Qed.
Example test_slice_3d_c : run_test (c_backend lm) c_eq c_close test_slice_3d = true. Proof. vm_compute. reflexivity. Qed.

(* test.py:710-715 *)
Definition test_slice_then_add : list tstep :=
  [TCall (CArray (Nest [Leaf (NInt (1)); Leaf (NInt (2)); Leaf (NInt (3)); Leaf (NInt (4)); Leaf (NInt (5)); Leaf (NInt (6))]));
   TCall (CArray (Nest [Leaf (NInt (10)); Leaf (NInt (10)); Leaf (NInt (10))]));
   TCall (CGetitem 0 [SSlice (Some (1)) (Some (4)) None]);
   TCall (CBinary BAdd 2 1);
   TMat 3;
   TList 3 [] (Nest [Leaf (NInt (12)); Leaf (NInt (13)); Leaf (NInt (14))])].
Example test_slice_then_add_py : run_test (py_backend lm) py_eq py_close test_slice_then_add = true. Proof. vm_compute. reflexivity. Qed.
Example test_slice_then_add_c : run_test (c_backend lm) c_eq c_close test_slice_then_add = true. Proof. vm_compute. reflexivity. Qed.

(* test.py:717-722 *)
Definition test_slice_step_then_add : list tstep :=
  [TCall (CArange (6));
   TCall (CArray (Nest [Leaf (NInt (1)); Leaf (NInt (1)); Leaf (NInt (1))]));
   TCall (CGetitem 0 [SSlice (Some (1)) None (Some (2))]);
   TCall (CBinary BAdd 2 1);
   TMat 3;
   TList 3 [] (Nest [Leaf (NInt (2)); Leaf (NInt (4)); Leaf (NInt (6))])].
Example test_slice_step_then_add_py : run_test (py_backend lm) py_eq py_close test_slice_step_then_add = true. Proof. vm_compute. reflexivity. Qed.
Example test_slice_step_then_add_c : run_test (c_backend lm) c_eq c_close test_slice_step_then_add = true. Proof. vm_compute. reflexivity. Qed.

(* test.py:724-728 *)
Definition test_slice_then_sum : list tstep :=
  [TCall (CArray (Nest [Nest [Leaf (NInt (1)); Leaf (NInt (2)); Leaf (NInt (3))]; Nest [Leaf (NInt (4)); Leaf (NInt (5)); Leaf (NInt (6))]; Nest [Leaf (NInt (7)); Leaf (NInt (8)); Leaf (NInt (9))]]));
   TCall (CGetitem 0 [SSlice (Some (0)) (Some (2)) None]);
   TCall (CSum 1 (Some [0]) false);
   TMat 2;
   TList 2 [] (Nest [Leaf (NInt (5)); Leaf (NInt (7)); Leaf (NInt (9))])].
Example test_slice_then_sum_py : run_test (py_backend lm) py_eq py_close test_slice_then_sum = true. Proof. vm_compute. reflexivity. Qed.
Example test_slice_then_sum_c : run_test (c_backend lm) c_eq c_close test_slice_then_sum = true. Proof. vm_compute. reflexivity. Qed.

(* test.py:730-735 *)
Definition test_slice_2d_then_mul : list tstep :=
  [TCall (CArray (Nest [Nest [Leaf (NInt (1)); Leaf (NInt (2)); Leaf (NInt (3))]; Nest [Leaf (NInt (4)); Leaf (NInt (5)); Leaf (NInt (6))]; Nest [Leaf (NInt (7)); Leaf (NInt (8)); Leaf (NInt (9))]]));
   TCall (CArray (Nest [Nest [Leaf (NInt (2)); Leaf (NInt (2))]; Nest [Leaf (NInt (2)); Leaf (NInt (2))]]));
   TCall (CGetitem 0 [SSlice (Some (1)) (Some (3)) None; SSlice (Some (0)) (Some (2)) None]);
   TCall (CBinary BMul 2 1);
   TMat 3;
   TList 3 [] (Nest [Nest [Leaf (NInt (8)); Leaf (NInt (10))]; Nest [Leaf (NInt (14)); Leaf (NInt (16))]])].
Example test_slice_2d_then_mul_py : run_test (py_backend lm) py_eq py_close test_slice_2d_then_mul = true. Proof. vm_compute. reflexivity. Qed.
Example test_slice_2d_then_mul_c : run_test (c_backend lm) c_eq c_close test_slice_2d_then_mul = true. Proof. vm_compute. reflexivity. Qed.

(* test.py:737-740 *)
Definition test_slice_too_many_indices : list tstep :=
  [TCall (CArray (Nest [Nest [Leaf (NInt (1)); Leaf (NInt (2)); Leaf (NInt (3))]; Nest [Leaf (NInt (4)); Leaf (NInt (5)); Leaf (NInt (6))]]));
   TErr (CGetitem 0 [SInt (0); SInt (1); SInt (2)])].
Example test_slice_too_many_indices_py : run_test (py_backend lm) py_eq py_close test_slice_too_many_indices = true. Proof. vm_compute. reflexivity. Qed.
Example test_slice_too_many_indices_c : run_test (c_backend lm) c_eq c_close test_slice_too_many_indices = true. Proof. vm_compute. reflexivity. Qed.

(* test.py:742-745 *)
Definition test_slice_invalid_index_type : list tstep :=
  [TCall (CArange (6));
   TErr (CGetitem 0 [SOther])].
Example test_slice_invalid_index_type_py : run_test (py_backend lm) py_eq py_close test_slice_invalid_index_type = true. Proof. vm_compute. reflexivity. Qed.
Example test_slice_invalid_index_type_c : run_test (c_backend lm) c_eq c_close test_slice_invalid_index_type = true. Proof. vm_compute. reflexivity. Qed.

(* test.py:751-756 *)
Definition test_pad_1d : list tstep :=
  [TCall (CArray (Nest [Leaf (NInt (1)); Leaf (NInt (2)); Leaf (NInt (3))]));
   TCall (CPad 0 (0) (2) (3));
   TMat 1;
   TShape 1 [8];
   TList 1 [] (Nest [Leaf (NInt (0)); Leaf (NInt (0)); Leaf (NInt (1)); Leaf (NInt (2)); Leaf (NInt (3)); Leaf (NInt (0)); Leaf (NInt (0)); Leaf (NInt (0))])].
Example test_pad_1d_py : run_test (py_backend lm) py_eq py_close test_pad_1d = true. Proof. vm_compute. reflexivity. Qed.
Example test_pad_1d_c : run_test (c_backend lm) c_eq c_close test_pad_1d = true. Proof. vm_compute. reflexivity. Qed.

(* test.py:758-762 *)
Definition test_pad_only_before : list tstep :=
  [TCall (CArray (Nest [Leaf (NInt (1)); Leaf (NInt (2)); Leaf (NInt (3))]));
   TCall (CPad 0 (0) (2) (0));
   TMat 1;
   TList 1 [] (Nest [Leaf (NInt (0)); Leaf (NInt (0)); Leaf (NInt (1)); Leaf (NInt (2)); Leaf (NInt (3))])].
Example test_pad_only_before_py : run_test (py_backend lm) py_eq py_close test_pad_only_before = true. Proof. vm_compute. reflexivity. Qed.
Example test_pad_only_before_c : run_test (c_backend lm) c_eq c_close test_pad_only_before = true. Proof. vm_compute. reflexivity. Qed.

(* test.py:764-768 *)
Definition test_pad_only_after : list tstep :=
  [TCall (CArray (Nest [Leaf (NInt (1)); Leaf (NInt (2)); Leaf (NInt (3))]));
   TCall (CPad 0 (0) (0) (2));
   TMat 1;
   TList 1 [] (Nest [Leaf (NInt (1)); Leaf (NInt (2)); Leaf (NInt (3)); Leaf (NInt (0)); Leaf (NInt (0))])].
Example test_pad_only_after_py : run_test (py_backend lm) py_eq py_close test_pad_only_after = true. Proof. vm_compute. reflexivity. Qed.
Example test_pad_only_after_c : run_test (c_backend lm) c_eq c_close test_pad_only_after = true. Proof. vm_compute. reflexivity. Qed.

(* test.py:770-775 *)
Definition test_pad_2d_dim0 : list tstep :=
  [TCall (CArray (Nest [Nest [Leaf (NInt (1)); Leaf (NInt (2))]; Nest [Leaf (NInt (3)); Leaf (NInt (4))]]));
   TCall (CPad 0 (0) (1) (1));
   TMat 1;
   TShape 1 [4; 2];
   TList 1 [] (Nest [Nest [Leaf (NInt (0)); Leaf (NInt (0))]; Nest [Leaf (NInt (1)); Leaf (NInt (2))]; Nest [Leaf (NInt (3)); Leaf (NInt (4))]; Nest [Leaf (NInt (0)); Leaf (NInt (0))]])].
Example test_pad_2d_dim0_py : run_test (py_backend lm) py_eq py_close test_pad_2d_dim0 = true. Proof. vm_compute. reflexivity. Qed.
Example test_pad_2d_dim0_c : run_test (c_backend lm) c_eq c_close test_pad_2d_dim0 = true. Proof. vm_compute. reflexivity. Qed.

(* test.py:777-782 *)
Definition test_pad_2d_dim1 : list tstep :=
  [TCall (CArray (Nest [Nest [Leaf (NInt (1)); Leaf (NInt (2))]; Nest [Leaf (NInt (3)); Leaf (NInt (4))]]));
   TCall (CPad 0 (1) (1) (2));
   TMat 1;
   TShape 1 [2; 5];
   TList 1 [] (Nest [Nest [Leaf (NInt (0)); Leaf (NInt (1)); Leaf (NInt (2)); Leaf (NInt (0)); Leaf (NInt (0))]; Nest [Leaf (NInt (0)); Leaf (NInt (3)); Leaf (NInt (4)); Leaf (NInt (0)); Leaf (NInt (0))]])].
Example test_pad_2d_dim1_py : run_test (py_backend lm) py_eq py_close test_pad_2d_dim1 = true. Proof. vm_compute. reflexivity. Qed.
Example test_pad_2d_dim1_c : run_test (c_backend lm) c_eq c_close test_pad_2d_dim1 = true. Proof. vm_compute. reflexivity. Qed.

(* test.py:784-787 *)
Definition test_pad_noop_returns_self : list tstep :=
  [TCall (CArange (3));
   TCall (CPad 0 (0) (0) (0));
   TSame 1 0].
Example test_pad_noop_returns_self_py : run_test (py_backend lm) py_eq py_close test_pad_noop_returns_self = true. Proof. vm_compute. reflexivity. Qed.
Example test_pad_noop_returns_self_c : run_test (c_backend lm) c_eq c_close test_pad_noop_returns_self = true. Proof. vm_compute. reflexivity. Qed.

(* test.py:789-793 *)
Definition test_backward_pad_1d : list tstep :=
  [TCall (CArray (Nest [Leaf (NFlt (1) (0)); Leaf (NFlt (2) (0)); Leaf (NFlt (3) (0))]));
   TCall (CPad 0 (0) (2) (3));
   TCall (CSum 1 None false);
   TBackward 2;
   TGrad 0;
   TMat 3;
   TGrad 0;
   TClose 4 [] (Nest [Leaf (NFlt (1) (0)); Leaf (NFlt (1) (0)); Leaf (NFlt (1) (0))])].
Example test_backward_pad_1d_py : run_test (py_backend lm) py_eq py_close test_backward_pad_1d = true. Proof. vm_compute. reflexivity. Qed.
Example test_backward_pad_1d_c : run_test (c_backend lm) c_eq c_close test_backward_pad_1d = true. Proof. vm_compute. reflexivity. Qed.

(* test.py:795-799 *)
Definition test_backward_pad_2d : list tstep :=
  [TCall (CArray (Nest [Nest [Leaf (NFlt (1) (0)); Leaf (NFlt (2) (0))]; Nest [Leaf (NFlt (3) (0)); Leaf (NFlt (4) (0))]]));
   TCall (CPad 0 (0) (1) (1));
   TCall (CSum 1 None false);
   TBackward 2;
   TGrad 0;
   TMat 3;
   TGrad 0;
   TClose 4 [] (Nest [Nest [Leaf (NFlt (1) (0)); Leaf (NFlt (1) (0))]; Nest [Leaf (NFlt (1) (0)); Leaf (NFlt (1) (0))]])].
Example test_backward_pad_2d_py : run_test (py_backend lm) py_eq py_close test_backward_pad_2d = true. Proof. vm_compute. reflexivity. Qed.
Example test_backward_pad_2d_c : run_test (c_backend lm) c_eq c_close test_backward_pad_2d = true. Proof. vm_compute. reflexivity. Qed.

(* test.py:801-808 *)
Definition test_backward_pad_partial_gradient : list tstep :=
  [TCall (CArray (Nest [Leaf (NFlt (1) (0)); Leaf (NFlt (2) (0)); Leaf (NFlt (3) (0))]));
   TCall (CArray (Nest [Leaf (NFlt (1) (0)); Leaf (NFlt (2) (0)); Leaf (NFlt (3) (0)); Leaf (NFlt (4) (0)); Leaf (NFlt (5) (0)); Leaf (NFlt (6) (0))]));
   TCall (CPad 0 (0) (1) (2));
   TCall (CBinary BMul 2 1);
   TCall (CSum 3 None false);
   TBackward 4;
   TGrad 0;
   TMat 5;
   TGrad 0;
   TClose 6 [] (Nest [Leaf (NFlt (2) (0)); Leaf (NFlt (3) (0)); Leaf (NFlt (4) (0))])].
Example test_backward_pad_partial_gradient_py : run_test (py_backend lm) py_eq py_close test_backward_pad_partial_gradient = true. Proof. vm_compute. reflexivity. Qed.
Example test_backward_pad_partial_gradient_c : run_test (c_backend lm) c_eq c_close test_backward_pad_partial_gradient = true. Proof. vm_compute. reflexivity. Qed.

(* test.py:814-819 *)
Definition test_dilate_1d_step2 : list tstep :=
  [TCall (CArray (Nest [Leaf (NInt (1)); Leaf (NInt (2)); Leaf (NInt (3))]));
   TCall (CDilate 0 (0) (2));
   TMat 1;
   TShape 1 [5];
   TList 1 [] (Nest [Leaf (NInt (1)); Leaf (NInt (0)); Leaf (NInt (2)); Leaf (NInt (0)); Leaf (NInt (3))])].
Example test_dilate_1d_step2_py : run_test (py_backend lm) py_eq py_close test_dilate_1d_step2 = true. Proof. vm_compute. reflexivity. Qed.
Example test_dilate_1d_step2_c : run_test (c_backend lm) c_eq c_close test_dilate_1d_step2 = true. Proof. vm_compute. reflexivity. Qed.

(* test.py:821-826 *)
Definition test_dilate_1d_step3 : list tstep :=
  [TCall (CArray (Nest [Leaf (NInt (1)); Leaf (NInt (2)); Leaf (NInt (3))]));
   TCall (CDilate 0 (0) (3));
   TMat 1;
   TShape 1 [7];
   TList 1 [] (Nest [Leaf (NInt (1)); Leaf (NInt (0)); Leaf (NInt (0)); Leaf (NInt (2)); Leaf (NInt (0)); Leaf (NInt (0)); Leaf (NInt (3))])].
Example test_dilate_1d_step3_py : run_test (py_backend lm) py_eq py_close test_dilate_1d_step3 = true. Proof. vm_compute. reflexivity. Qed.
Example test_dilate_1d_step3_c : run_test (c_backend lm) c_eq c_close test_dilate_1d_step3 = true. Proof. vm_compute. reflexivity. Qed.

(* test.py:828-833 *)
Definition test_dilate_2d_dim0 : list tstep :=
  [TCall (CArray (Nest [Nest [Leaf (NInt (1)); Leaf (NInt (2))]; Nest [Leaf (NInt (3)); Leaf (NInt (4))]]));
   TCall (CDilate 0 (0) (2));
   TMat 1;
   TShape 1 [3; 2];
   TList 1 [] (Nest [Nest [Leaf (NInt (1)); Leaf (NInt (2))]; Nest [Leaf (NInt (0)); Leaf (NInt (0))]; Nest [Leaf (NInt (3)); Leaf (NInt (4))]])].
Example test_dilate_2d_dim0_py : run_test (py_backend lm) py_eq py_close test_dilate_2d_dim0 = true. Proof. vm_compute. reflexivity. Qed.
Example test_dilate_2d_dim0_c : run_test (c_backend lm) c_eq c_close test_dilate_2d_dim0 = true. Proof. vm_compute. reflexivity. Qed.

(* test.py:835-840 *)
Definition test_dilate_2d_dim1 : list tstep :=
  [TCall (CArray (Nest [Nest [Leaf (NInt (1)); Leaf (NInt (2))]; Nest [Leaf (NInt (3)); Leaf (NInt (4))]]));
   TCall (CDilate 0 (1) (2));
   TMat 1;
   TShape 1 [2; 3];
   TList 1 [] (Nest [Nest [Leaf (NInt (1)); Leaf (NInt (0)); Leaf (NInt (2))]; Nest [Leaf (NInt (3)); Leaf (NInt (0)); Leaf (NInt (4))]])].
Example test_dilate_2d_dim1_py : run_test (py_backend lm) py_eq py_close test_dilate_2d_dim1 = true. Proof. vm_compute. reflexivity. Qed.
Example test_dilate_2d_dim1_c : run_test (c_backend lm) c_eq c_close test_dilate_2d_dim1 = true. Proof. vm_compute. reflexivity. Qed.

(* test.py:842-845 *)
Definition test_dilate_noop_returns_self : list tstep :=
  [TCall (CArange (3));
   TCall (CDilate 0 (0) (1));
   TSame 1 0].
Example test_dilate_noop_returns_self_py : run_test (py_backend lm) py_eq py_close test_dilate_noop_returns_self = true. Proof. vm_compute. reflexivity. Qed.
Example test_dilate_noop_returns_self_c : run_test (c_backend lm) c_eq c_close test_dilate_noop_returns_self = true. Proof. vm_compute. reflexivity. Qed.

(* test.py:847-851 *)
Definition test_backward_dilate_step2 : list tstep :=
  [TCall (CArray (Nest [Leaf (NFlt (1) (0)); Leaf (NFlt (2) (0)); Leaf (NFlt (3) (0))]));
   TCall (CDilate 0 (0) (2));
   TCall (CSum 1 None false);
   TBackward 2;
   TGrad 0;
   TMat 3;
   TGrad 0;
   TClose 4 [] (Nest [Leaf (NFlt (1) (0)); Leaf (NFlt (1) (0)); Leaf (NFlt (1) (0))])].
Example test_backward_dilate_step2_py : run_test (py_backend lm) py_eq py_close test_backward_dilate_step2 = true. Proof. vm_compute. reflexivity. Qed.
Example test_backward_dilate_step2_c : run_test (c_backend lm) c_eq c_close test_backward_dilate_step2 = true. Proof. vm_compute. reflexivity. Qed.

(* test.py:853-857 *)
Definition test_backward_dilate_step3 : list tstep :=
  [TCall (CArray (Nest [Leaf (NFlt (1) (0)); Leaf (NFlt (2) (0)); Leaf (NFlt (3) (0))]));
   TCall (CDilate 0 (0) (3));
   TCall (CSum 1 None false);
   TBackward 2;
   TGrad 0;
   TMat 3;
   TGrad 0;
   TClose 4 [] (Nest [Leaf (NFlt (1) (0)); Leaf (NFlt (1) (0)); Leaf (NFlt (1) (0))])].
Example test_backward_dilate_step3_py : run_test (py_backend lm) py_eq py_close test_backward_dilate_step3 = true. Proof. vm_compute. reflexivity. Qed.
Example test_backward_dilate_step3_c : run_test (c_backend lm) c_eq c_close test_backward_dilate_step3 = true. Proof. vm_compute. reflexivity. Qed.

(* test.py:859-863 *)
Definition test_backward_dilate_2d : list tstep :=
  [TCall (CArray (Nest [Nest [Leaf (NFlt (1) (0)); Leaf (NFlt (2) (0))]; Nest [Leaf (NFlt (3) (0)); Leaf (NFlt (4) (0))]]));
   TCall (CDilate 0 (0) (2));
   TCall (CSum 1 None false);
   TBackward 2;
   TGrad 0;
   TMat 3;
   TGrad 0;
   TClose 4 [] (Nest [Nest [Leaf (NFlt (1) (0)); Leaf (NFlt (1) (0))]; Nest [Leaf (NFlt (1) (0)); Leaf (NFlt (1) (0))]])].
Example test_backward_dilate_2d_py : run_test (py_backend lm) py_eq py_close test_backward_dilate_2d = true. Proof. vm_compute. reflexivity. Qed.
Example test_backward_dilate_2d_c : run_test (c_backend lm) c_eq c_close test_backward_dilate_2d = true. Proof. vm_compute. reflexivity. Qed.

(* test.py:865-872 *)
Definition test_backward_dilate_partial_gradient : list tstep :=
  [TCall (CArray (Nest [Leaf (NFlt (1) (0)); Leaf (NFlt (2) (0)); Leaf (NFlt (3) (0))]));
   TCall (CArray (Nest [Leaf (NFlt (1) (0)); Leaf (NFlt (2) (0)); Leaf (NFlt (3) (0)); Leaf (NFlt (4) (0)); Leaf (NFlt (5) (0))]));
   TCall (CDilate 0 (0) (2));
   TCall (CBinary BMul 2 1);
   TCall (CSum 3 None false);
   TBackward 4;
   TGrad 0;
   TMat 5;
   TGrad 0;
   TClose 6 [] (Nest [Leaf (NFlt (1) (0)); Leaf (NFlt (3) (0)); Leaf (NFlt (5) (0))])].
Example test_backward_dilate_partial_gradient_py : run_test (py_backend lm) py_eq py_close test_backward_dilate_partial_gradient = true. Proof. vm_compute. reflexivity. Qed.
Example test_backward_dilate_partial_gradient_c : run_test (c_backend lm) c_eq c_close test_backward_dilate_partial_gradient = true. Proof. vm_compute. reflexivity. Qed.

(* test.py:878-882 *)
Definition test_backward_neg : list tstep :=
  [TCall (CArray (Nest [Leaf (NFlt (1) (0)); Leaf (NFlt (2) (0)); Leaf (NFlt (3) (0))]));
   TCall (CUnary UNeg 0);
   TCall (CSum 1 None false);
   TBackward 2;
   TGrad 0;
   TMat 3;
   TGrad 0;
   TClose 4 [] (Nest [Leaf (NFlt (-1) (0)); Leaf (NFlt (-1) (0)); Leaf (NFlt (-1) (0))])].
Example test_backward_neg_py : run_test (py_backend lm) py_eq py_close test_backward_neg = true. Proof. vm_compute. reflexivity. Qed.
Example test_backward_neg_c : run_test (c_backend lm) c_eq c_close test_backward_neg = true. Proof. vm_compute. reflexivity. Qed.

(* test.py:884-888 *)
Definition test_backward_sin : list tstep :=
  [TCall (CArray (Nest [Leaf (NFlt (0) (0)); Leaf (NFlt (4716158501352293) (-53)); Leaf (NFlt (884279719003555) (-49))]));
   TCall (CUnary USin 0);
   TCall (CSum 1 None false);
   TBackward 2;
   TGrad 0;
   TMat 3;
   TGrad 0;
   TClose 4 [] (Nest [Leaf (NFlt (1) (0)); Leaf (NFlt (7800463371553963) (-53)); Leaf (NFlt (4967757600021511) (-106))])].
Example test_backward_sin_py : run_test (py_backend lm) py_eq py_close test_backward_sin = true. Proof. vm_compute. reflexivity. Qed.
Example test_backward_sin_c : run_test (c_backend lm) c_eq c_close test_backward_sin = true. Proof. vm_compute. reflexivity. Qed.

(* test.py:890-894 *)
Definition test_backward_cos : list tstep :=
  [TCall (CArray (Nest [Leaf (NFlt (0) (0)); Leaf (NFlt (4716158501352293) (-53)); Leaf (NFlt (884279719003555) (-49))]));
   TCall (CUnary UCos 0);
   TCall (CSum 1 None false);
   TBackward 2;
   TGrad 0;
   TMat 3;
   TGrad 0;
   TClose 4 [] (Nest [Leaf (NFlt (0) (0)); Leaf (NFlt (-9007199254740991) (-54)); Leaf (NFlt (-1) (0))])].
Example test_backward_cos_py : run_test (py_backend lm) py_eq py_close test_backward_cos = true. Proof. vm_compute. reflexivity. Qed.
Example test_backward_cos_c : run_test (c_backend lm) c_eq c_close test_backward_cos = true. Proof. vm_compute. reflexivity. Qed.

(* test.py:896-900 *)
Definition test_backward_exp : list tstep :=
  [TCall (CArray (Nest [Leaf (NFlt (0) (0)); Leaf (NFlt (1) (0)); Leaf (NFlt (2) (0))]));
   TCall (CUnary UExp 0);
   TCall (CSum 1 None false);
   TBackward 2;
   TGrad 0;
   TMat 3;
   TGrad 0;
   TClose 4 [] (Nest [Leaf (NFlt (1) (0)); Leaf (NFlt (6121026514868073) (-51)); Leaf (NFlt (4159668786720471) (-49))])].
Example test_backward_exp_py : run_test (py_backend lm) py_eq py_close test_backward_exp = true. Proof. vm_compute. reflexivity. Qed.
Example test_backward_exp_c : run_test (c_backend lm) c_eq c_close test_backward_exp = true. Proof. vm_compute. reflexivity. Qed.

(* test.py:902-906 *)
Definition test_backward_log : list tstep :=
  [TCall (CArray (Nest [Leaf (NFlt (1) (0)); Leaf (NFlt (2) (0)); Leaf (NFlt (6121026514868073) (-51))]));
   TCall (CUnary ULog 0);
   TCall (CSum 1 None false);
   TBackward 2;
   TGrad 0;
   TMat 3;
   TGrad 0;
   TClose 4 [] (Nest [Leaf (NFlt (1) (0)); Leaf (NFlt (1) (-1)); Leaf (NFlt (828390857088487) (-51))])].
Example test_backward_log_py : run_test (py_backend lm) py_eq py_close test_backward_log = true. Proof. vm_compute. reflexivity. Qed.
Example test_backward_log_c : run_test (c_backend lm) c_eq c_close test_backward_log = true. Proof. vm_compute. reflexivity. Qed.

(* test.py:908-912 *)
Definition test_backward_sqrt : list tstep :=
  [TCall (CArray (Nest [Leaf (NFlt (1) (0)); Leaf (NFlt (4) (0)); Leaf (NFlt (9) (0))]));
   TCall (CUnary USqrt 0);
   TCall (CSum 1 None false);
   TBackward 2;
   TGrad 0;
   TMat 3;
   TGrad 0;
   TClose 4 [] (Nest [Leaf (NFlt (1) (-1)); Leaf (NFlt (1) (-2)); Leaf (NFlt (6004799503160661) (-55))])].
Example test_backward_sqrt_py : run_test (py_backend lm) py_eq py_close test_backward_sqrt = true. Proof. vm_compute. reflexivity. Qed.
Example test_backward_sqrt_c : run_test (c_backend lm) c_eq c_close test_backward_sqrt = true. Proof. vm_compute. reflexivity. Qed.

(* test.py:914-921 *)
Definition test_backward_add : list tstep :=
  [TCall (CArray (Nest [Leaf (NFlt (1) (0)); Leaf (NFlt (2) (0)); Leaf (NFlt (3) (0))]));
   TCall (CArray (Nest [Leaf (NFlt (4) (0)); Leaf (NFlt (5) (0)); Leaf (NFlt (6) (0))]));
   TCall (CBinary BAdd 0 1);
   TCall (CSum 2 None false);
   TBackward 3;
   TGrad 0;
   TMat 4;
   TGrad 1;
   TMat 5;
   TGrad 0;
   TClose 6 [] (Nest [Leaf (NFlt (1) (0)); Leaf (NFlt (1) (0)); Leaf (NFlt (1) (0))]);
   TGrad 1;
   TClose 7 [] (Nest [Leaf (NFlt (1) (0)); Leaf (NFlt (1) (0)); Leaf (NFlt (1) (0))])].
Example test_backward_add_py : run_test (py_backend lm) py_eq py_close test_backward_add = true. Proof. vm_compute. reflexivity. Qed.
Example test_backward_add_c : run_test (c_backend lm) c_eq c_close test_backward_add = true. Proof. vm_compute. reflexivity. Qed.

(* test.py:923-930 *)
Definition test_backward_sub : list tstep :=
  [TCall (CArray (Nest [Leaf (NFlt (1) (0)); Leaf (NFlt (2) (0)); Leaf (NFlt (3) (0))]));
   TCall (CArray (Nest [Leaf (NFlt (4) (0)); Leaf (NFlt (5) (0)); Leaf (NFlt (6) (0))]));
   TCall (CBinary BSub 0 1);
   TCall (CSum 2 None false);
   TBackward 3;
   TGrad 0;
   TMat 4;
   TGrad 1;
   TMat 5;
   TGrad 0;
   TClose 6 [] (Nest [Leaf (NFlt (1) (0)); Leaf (NFlt (1) (0)); Leaf (NFlt (1) (0))]);
   TGrad 1;
   TClose 7 [] (Nest [Leaf (NFlt (-1) (0)); Leaf (NFlt (-1) (0)); Leaf (NFlt (-1) (0))])].
Example test_backward_sub_py : run_test (py_backend lm) py_eq py_close test_backward_sub = true. Proof. vm_compute. reflexivity. Qed.
Example test_backward_sub_c : run_test (c_backend lm) c_eq c_close test_backward_sub = true. Proof. vm_compute. reflexivity. Qed.

(* test.py:932-939 *)
Definition test_backward_mul : list tstep :=
  [TCall (CArray (Nest [Leaf (NFlt (1) (0)); Leaf (NFlt (2) (0)); Leaf (NFlt (3) (0))]));
   TCall (CArray (Nest [Leaf (NFlt (2) (0)); Leaf (NFlt (3) (0)); Leaf (NFlt (4) (0))]));
   TCall (CBinary BMul 0 1);
   TCall (CSum 2 None false);
   TBackward 3;
   TGrad 0;
   TMat 4;
   TGrad 1;
   TMat 5;
   TGrad 0;
   TClose 6 [] (Nest [Leaf (NFlt (2) (0)); Leaf (NFlt (3) (0)); Leaf (NFlt (4) (0))]);
   TGrad 1;
   TClose 7 [] (Nest [Leaf (NFlt (1) (0)); Leaf (NFlt (2) (0)); Leaf (NFlt (3) (0))])].
Example test_backward_mul_py : run_test (py_backend lm) py_eq py_close test_backward_mul = true. Proof. vm_compute. reflexivity. Qed.
Example test_backward_mul_c : run_test (c_backend lm) c_eq c_close test_backward_mul = true. Proof. vm_compute. reflexivity. Qed.

(* test.py:941-945 *)
Definition test_backward_x_squared : list tstep :=
  [TCall (CArray (Nest [Leaf (NFlt (1) (0)); Leaf (NFlt (2) (0)); Leaf (NFlt (3) (0))]));
   TCall (CBinary BMul 0 0);
   TCall (CSum 1 None false);
   TBackward 2;
   TGrad 0;
   TMat 3;
   TGrad 0;
   TClose 4 [] (Nest [Leaf (NFlt (2) (0)); Leaf (NFlt (4) (0)); Leaf (NFlt (6) (0))])].
Example test_backward_x_squared_py : run_test (py_backend lm) py_eq py_close test_backward_x_squared = true. Proof. vm_compute. reflexivity. Qed.
Example test_backward_x_squared_c : run_test (c_backend lm) c_eq c_close test_backward_x_squared = true. Proof. vm_compute. reflexivity. Qed.

(* test.py:947-952 *)
Definition test_backward_pow : list tstep :=
  [TCall (CArray (Nest [Leaf (NFlt (1) (0)); Leaf (NFlt (2) (0)); Leaf (NFlt (3) (0))]));
   TCall (CFullLike 0 (NFlt (2) (0)));
   TCall (CBinary BPow 0 1);
   TCall (CSum 2 None false);
   TBackward 3;
   TGrad 0;
   TMat 4;
   TGrad 0;
   TClose 5 [] (Nest [Leaf (NFlt (2) (0)); Leaf (NFlt (4) (0)); Leaf (NFlt (6) (0))])].
Example test_backward_pow_py : run_test (py_backend lm) py_eq py_close test_backward_pow = true. Proof. vm_compute. reflexivity. Qed.
Example test_backward_pow_c : run_test (c_backend lm) c_eq c_close test_backward_pow = true. Proof. vm_compute. reflexivity. Qed.

(* test.py:954-958 *)
Definition test_backward_sum_all : list tstep :=
  [TCall (CArray (Nest [Nest [Leaf (NFlt (1) (0)); Leaf (NFlt (2) (0))]; Nest [Leaf (NFlt (3) (0)); Leaf (NFlt (4) (0))]]));
   TCall (CSum 0 None false);
   TBackward 1;
   TGrad 0;
   TMat 2;
   TGrad 0;
   TClose 3 [] (Nest [Nest [Leaf (NFlt (1) (0)); Leaf (NFlt (1) (0))]; Nest [Leaf (NFlt (1) (0)); Leaf (NFlt (1) (0))]])].
Example test_backward_sum_all_py : run_test (py_backend lm) py_eq py_close test_backward_sum_all = true. Proof. vm_compute. reflexivity. Qed.
Example test_backward_sum_all_c : run_test (c_backend lm) c_eq c_close test_backward_sum_all = true. Proof. vm_compute. reflexivity. Qed.

(* test.py:960-964 *)
Definition test_backward_sum_axis0 : list tstep :=
  [TCall (CArray (Nest [Nest [Leaf (NFlt (1) (0)); Leaf (NFlt (2) (0)); Leaf (NFlt (3) (0))]; Nest [Leaf (NFlt (4) (0)); Leaf (NFlt (5) (0)); Leaf (NFlt (6) (0))]]));
   TCall (CSum 0 (Some [0]) false);
   TCall (CSum 1 None false);
   TBackward 2;
   TGrad 0;
   TMat 3;
   TGrad 0;
   TClose 4 [] (Nest [Nest [Leaf (NFlt (1) (0)); Leaf (NFlt (1) (0)); Leaf (NFlt (1) (0))]; Nest [Leaf (NFlt (1) (0)); Leaf (NFlt (1) (0)); Leaf (NFlt (1) (0))]])].
Example test_backward_sum_axis0_py : run_test (py_backend lm) py_eq py_close test_backward_sum_axis0 = true. Proof. vm_compute. reflexivity. Qed.
Example test_backward_sum_axis0_c : run_test (c_backend lm) c_eq c_close test_backward_sum_axis0 = true. Proof. vm_compute. reflexivity. Qed.

(* test.py:966-970 *)
Definition test_backward_sum_axis1 : list tstep :=
  [TCall (CArray (Nest [Nest [Leaf (NFlt (1) (0)); Leaf (NFlt (2) (0)); Leaf (NFlt (3) (0))]; Nest [Leaf (NFlt (4) (0)); Leaf (NFlt (5) (0)); Leaf (NFlt (6) (0))]]));
   TCall (CSum 0 (Some [1]) false);
   TCall (CSum 1 None false);
   TBackward 2;
   TGrad 0;
   TMat 3;
   TGrad 0;
   TClose 4 [] (Nest [Nest [Leaf (NFlt (1) (0)); Leaf (NFlt (1) (0)); Leaf (NFlt (1) (0))]; Nest [Leaf (NFlt (1) (0)); Leaf (NFlt (1) (0)); Leaf (NFlt (1) (0))]])].
Example test_backward_sum_axis1_py : run_test (py_backend lm) py_eq py_close test_backward_sum_axis1 = true. Proof. vm_compute. reflexivity. Qed.
Example test_backward_sum_axis1_c : run_test (c_backend lm) c_eq c_close test_backward_sum_axis1 = true. Proof. vm_compute. reflexivity. Qed.

(* test.py:972-976 *)
Definition test_backward_reshape : list tstep :=
  [TCall (CArray (Nest [Leaf (NFlt (1) (0)); Leaf (NFlt (2) (0)); Leaf (NFlt (3) (0)); Leaf (NFlt (4) (0)); Leaf (NFlt (5) (0)); Leaf (NFlt (6) (0))]));
   TCall (CReshape 0 [2; 3]);
   TCall (CSum 1 None false);
   TBackward 2;
   TGrad 0;
   TMat 3;
   TGrad 0;
   TClose 4 [] (Nest [Leaf (NFlt (1) (0)); Leaf (NFlt (1) (0)); Leaf (NFlt (1) (0)); Leaf (NFlt (1) (0)); Leaf (NFlt (1) (0)); Leaf (NFlt (1) (0))])].
Example test_backward_reshape_py : run_test (py_backend lm) py_eq py_close test_backward_reshape = true. Proof. vm_compute. reflexivity. Qed.
Example test_backward_reshape_c : run_test (c_backend lm) c_eq c_close test_backward_reshape = true. Proof. vm_compute. reflexivity. Qed.

(* test.py:978-982 *)
Definition test_backward_transpose : list tstep :=
  [TCall (CArray (Nest [Nest [Leaf (NFlt (1) (0)); Leaf (NFlt (2) (0)); Leaf (NFlt (3) (0))]; Nest [Leaf (NFlt (4) (0)); Leaf (NFlt (5) (0)); Leaf (NFlt (6) (0))]]));
   TCall (CT 0);
   TCall (CSum 1 None false);
   TBackward 2;
   TGrad 0;
   TMat 3;
   TGrad 0;
   TClose 4 [] (Nest [Nest [Leaf (NFlt (1) (0)); Leaf (NFlt (1) (0)); Leaf (NFlt (1) (0))]; Nest [Leaf (NFlt (1) (0)); Leaf (NFlt (1) (0)); Leaf (NFlt (1) (0))]])].
Example test_backward_transpose_py : run_test (py_backend lm) py_eq py_close test_backward_transpose = true. Proof. vm_compute. reflexivity. Qed.
Example test_backward_transpose_c : run_test (c_backend lm) c_eq c_close test_backward_transpose = true. Proof. vm_compute. reflexivity. Qed.

(* test.py:984-990 *)
Definition test_backward_broadcast : list tstep :=
  [TCall (CArray (Nest [Leaf (NFlt (1) (0)); Leaf (NFlt (2) (0)); Leaf (NFlt (3) (0))]));
   TCall (CArray (Nest [Nest [Leaf (NFlt (1) (0)); Leaf (NFlt (1) (0)); Leaf (NFlt (1) (0))]; Nest [Leaf (NFlt (1) (0)); Leaf (NFlt (1) (0)); Leaf (NFlt (1) (0))]]));
   TCall (CBinary BAdd 0 1);
   TCall (CSum 2 None false);
   TBackward 3;
   TGrad 0;
   TMat 4;
   TGrad 0;
   TClose 5 [] (Nest [Leaf (NFlt (2) (0)); Leaf (NFlt (2) (0)); Leaf (NFlt (2) (0))])].
Example test_backward_broadcast_py : run_test (py_backend lm) py_eq py_close test_backward_broadcast = true. Proof. vm_compute. reflexivity. Qed.
Example test_backward_broadcast_c : run_test (c_backend lm) c_eq c_close test_backward_broadcast = true. Proof. vm_compute. reflexivity. Qed.

(* test.py:992-996 *)
Definition test_backward_contiguous : list tstep :=
  [TCall (CArray (Nest [Nest [Leaf (NFlt (1) (0)); Leaf (NFlt (2) (0)); Leaf (NFlt (3) (0))]; Nest [Leaf (NFlt (4) (0)); Leaf (NFlt (5) (0)); Leaf (NFlt (6) (0))]]));
   TCall (CT 0);
   TCall (CContiguous 1);
   TCall (CSum 2 None false);
   TBackward 3;
   TGrad 0;
   TMat 4;
   TGrad 0;
   TClose 5 [] (Nest [Nest [Leaf (NFlt (1) (0)); Leaf (NFlt (1) (0)); Leaf (NFlt (1) (0))]; Nest [Leaf (NFlt (1) (0)); Leaf (NFlt (1) (0)); Leaf (NFlt (1) (0))]])].
Example test_backward_contiguous_py : run_test (py_backend lm) py_eq py_close test_backward_contiguous = true. Proof. vm_compute. reflexivity. Qed.
Example test_backward_contiguous_c : run_test (c_backend lm) c_eq c_close test_backward_contiguous = true. Proof. vm_compute. reflexivity. Qed.

(* test.py:998-1002 *)
Definition test_backward_slice_1d_basic : list tstep :=
  [TCall (CArray (Nest [Leaf (NFlt (1) (0)); Leaf (NFlt (2) (0)); Leaf (NFlt (3) (0)); Leaf (NFlt (4) (0)); Leaf (NFlt (5) (0))]));
   TCall (CGetitem 0 [SSlice (Some (1)) (Some (4)) None]);
   TCall (CSum 1 None false);
   TBackward 2;
   TGrad 0;
   TMat 3;
   TGrad 0;
   TClose 4 [] (Nest [Leaf (NFlt (0) (0)); Leaf (NFlt (1) (0)); Leaf (NFlt (1) (0)); Leaf (NFlt (1) (0)); Leaf (NFlt (0) (0))])].
Example test_backward_slice_1d_basic_py : run_test (py_backend lm) py_eq py_close test_backward_slice_1d_basic = true. Proof. vm_compute. reflexivity. Qed.
Example test_backward_slice_1d_basic_c : run_test (c_backend lm) c_eq c_close test_backward_slice_1d_basic = true. Proof. vm_compute. reflexivity. Qed.

(* test.py:1004-1008 *)
Definition test_backward_slice_1d_from_end : list tstep :=
  [TCall (CArray (Nest [Leaf (NFlt (1) (0)); Leaf (NFlt (2) (0)); Leaf (NFlt (3) (0)); Leaf (NFlt (4) (0)); Leaf (NFlt (5) (0))]));
   TCall (CGetitem 0 [SSlice (Some (3)) None None]);
   TCall (CSum 1 None false);
   TBackward 2;
   TGrad 0;
   TMat 3;
   TGrad 0;
   TClose 4 [] (Nest [Leaf (NFlt (0) (0)); Leaf (NFlt (0) (0)); Leaf (NFlt (0) (0)); Leaf (NFlt (1) (0)); Leaf (NFlt (1) (0))])].
Example test_backward_slice_1d_from_end_py : run_test (py_backend lm) py_eq py_close test_backward_slice_1d_from_end = true. Proof. vm_compute. reflexivity. Qed.
Example test_backward_slice_1d_from_end_c : run_test (c_backend lm) c_eq c_close test_backward_slice_1d_from_end = true. Proof. vm_compute. reflexivity. Qed.

(* test.py:1010-1014 *)
Definition test_backward_slice_1d_step : list tstep :=
  [TCall (CArray (Nest [Leaf (NFlt (1) (0)); Leaf (NFlt (2) (0)); Leaf (NFlt (3) (0)); Leaf (NFlt (4) (0)); Leaf (NFlt (5) (0)); Leaf (NFlt (6) (0))]));
   TCall (CGetitem 0 [SSlice None None (Some (2))]);
   TCall (CSum 1 None false);
   TBackward 2;
   TGrad 0;
   TMat 3;
   TGrad 0;
   TClose 4 [] (Nest [Leaf (NFlt (1) (0)); Leaf (NFlt (0) (0)); Leaf (NFlt (1) (0)); Leaf (NFlt (0) (0)); Leaf (NFlt (1) (0)); Leaf (NFlt (0) (0))])].
Example test_backward_slice_1d_step_py : run_test (py_backend lm) py_eq py_close test_backward_slice_1d_step = true. Proof. vm_compute. reflexivity. Qed.
Example test_backward_slice_1d_step_c : run_test (c_backend lm) c_eq c_close test_backward_slice_1d_step = true. Proof. vm_compute. reflexivity. Qed.

(* test.py:1016-1021 *)
Definition test_backward_slice_1d_start_step : list tstep :=
  [TCall (CArray (Nest [Leaf (NFlt (1) (0)); Leaf (NFlt (2) (0)); Leaf (NFlt (3) (0)); Leaf (NFlt (4) (0)); Leaf (NFlt (5) (0)); Leaf (NFlt (6) (0))]));
   TCall (CGetitem 0 [SSlice (Some (1)) (Some (5)) (Some (2))]);
   TCall (CSum 1 None false);
   TBackward 2;
   TGrad 0;
   TMat 3;
   TGrad 0;
   TClose 4 [] (Nest [Leaf (NFlt (0) (0)); Leaf (NFlt (1) (0)); Leaf (NFlt (0) (0)); Leaf (NFlt (1) (0)); Leaf (NFlt (0) (0)); Leaf (NFlt (0) (0))])].
Example test_backward_slice_1d_start_step_py : run_test (py_backend lm) py_eq py_close test_backward_slice_1d_start_step = true. Proof. vm_compute. reflexivity. Qed.
Example test_backward_slice_1d_start_step_c : run_test (c_backend lm) c_eq c_close test_backward_slice_1d_start_step = true. Proof. vm_compute. reflexivity. Qed.

(* test.py:1023-1027 *)
Definition test_backward_slice_int_index : list tstep :=
  [TCall (CArray (Nest [Nest [Leaf (NFlt (1) (0)); Leaf (NFlt (2) (0)); Leaf (NFlt (3) (0))]; Nest [Leaf (NFlt (4) (0)); Leaf (NFlt (5) (0)); Leaf (NFlt (6) (0))]; Nest [Leaf (NFlt (7) (0)); Leaf (NFlt (8) (0)); Leaf (NFlt (9) (0))]]));
   TCall (CGetitem 0 [SInt (1)]);
   TCall (CSum 1 None false);
   TBackward 2;
   TGrad 0;
   TMat 3;
   TGrad 0;
   TClose 4 [] (Nest [Nest [Leaf (NFlt (0) (0)); Leaf (NFlt (0) (0)); Leaf (NFlt (0) (0))]; Nest [Leaf (NFlt (1) (0)); Leaf (NFlt (1) (0)); Leaf (NFlt (1) (0))]; Nest [Leaf (NFlt (0) (0)); Leaf (NFlt (0) (0)); Leaf (NFlt (0) (0))]])].
Example test_backward_slice_int_index_py : run_test (py_backend lm) py_eq py_close test_backward_slice_int_index = true. Proof. vm_compute. reflexivity. Qed.
Example test_backward_slice_int_index_c : run_test (c_backend lm) c_eq c_close test_backward_slice_int_index = true. Proof. vm_compute. reflexivity. Qed.

(* test.py:1029-1033 *)
Definition test_backward_slice_2d_slice_slice : list tstep :=
  [TCall (CArray (Nest [Nest [Leaf (NFlt (1) (0)); Leaf (NFlt (2) (0)); Leaf (NFlt (3) (0))]; Nest [Leaf (NFlt (4) (0)); Leaf (NFlt (5) (0)); Leaf (NFlt (6) (0))]; Nest [Leaf (NFlt (7) (0)); Leaf (NFlt (8) (0)); Leaf (NFlt (9) (0))]]));
   TCall (CGetitem 0 [SSlice (Some (1)) (Some (3)) None; SSlice (Some (0)) (Some (2)) None]);
   TCall (CSum 1 None false);
   TBackward 2;
   TGrad 0;
   TMat 3;
   TGrad 0;
   TClose 4 [] (Nest [Nest [Leaf (NFlt (0) (0)); Leaf (NFlt (0) (0)); Leaf (NFlt (0) (0))]; Nest [Leaf (NFlt (1) (0)); Leaf (NFlt (1) (0)); Leaf (NFlt (0) (0))]; Nest [Leaf (NFlt (1) (0)); Leaf (NFlt (1) (0)); Leaf (NFlt (0) (0))]])].
Example test_backward_slice_2d_slice_slice_py : run_test (py_backend lm) py_eq py_close test_backward_slice_2d_slice_slice = true. Proof. vm_compute. reflexivity. Qed.
Example test_backward_slice_2d_slice_slice_c : run_test (c_backend lm) c_eq c_close test_backward_slice_2d_slice_slice = true. Proof. vm_compute. reflexivity. Qed.

(* test.py:1035-1039 *)
Definition test_backward_slice_2d_int_slice : list tstep :=
  [TCall (CArray (Nest [Nest [Leaf (NFlt (1) (0)); Leaf (NFlt (2) (0)); Leaf (NFlt (3) (0)); Leaf (NFlt (4) (0))]; Nest [Leaf (NFlt (5) (0)); Leaf (NFlt (6) (0)); Leaf (NFlt (7) (0)); Leaf (NFlt (8) (0))]]));
   TCall (CGetitem 0 [SInt (0); SSlice (Some (1)) (Some (4)) None]);
   TCall (CSum 1 None false);
   TBackward 2;
   TGrad 0;
   TMat 3;
   TGrad 0;
   TClose 4 [] (Nest [Nest [Leaf (NFlt (0) (0)); Leaf (NFlt (1) (0)); Leaf (NFlt (1) (0)); Leaf (NFlt (1) (0))]; Nest [Leaf (NFlt (0) (0)); Leaf (NFlt (0) (0)); Leaf (NFlt (0) (0)); Leaf (NFlt (0) (0))]])].
Example test_backward_slice_2d_int_slice_py : run_test (py_backend lm) py_eq py_close test_backward_slice_2d_int_slice = true. Proof. vm_compute. reflexivity. Qed.
Example test_backward_slice_2d_int_slice_c : run_test (c_backend lm) c_eq c_close test_backward_slice_2d_int_slice = true. Proof. vm_compute. reflexivity. Qed.

(* test.py:1041-1046 *)
Definition test_backward_slice_weighted : list tstep :=
  [TCall (CArray (Nest [Leaf (NFlt (1) (0)); Leaf (NFlt (2) (0)); Leaf (NFlt (3) (0)); Leaf (NFlt (4) (0)); Leaf (NFlt (5) (0))]));
   TCall (CArray (Nest [Leaf (NFlt (3) (0)); Leaf (NFlt (1) (0)); Leaf (NFlt (4) (0))]));
   TCall (CGetitem 0 [SSlice (Some (1)) (Some (4)) None]);
   TCall (CBinary BMul 2 1);
   TCall (CSum 3 None false);
   TBackward 4;
   TGrad 0;
   TMat 5;
   TGrad 0;
   TClose 6 [] (Nest [Leaf (NFlt (0) (0)); Leaf (NFlt (3) (0)); Leaf (NFlt (1) (0)); Leaf (NFlt (4) (0)); Leaf (NFlt (0) (0))])].
Example test_backward_slice_weighted_py : run_test (py_backend lm) py_eq py_close test_backward_slice_weighted = true. Proof. vm_compute. reflexivity. Qed.
Example test_backward_slice_weighted_c : run_test (c_backend lm) c_eq c_close test_backward_slice_weighted = true. Proof. vm_compute. reflexivity. Qed.

(* test.py:1048-1055 *)
Definition test_backward_chain_slice_mul : list tstep :=
  [TCall (CArray (Nest [Leaf (NFlt (1) (0)); Leaf (NFlt (2) (0)); Leaf (NFlt (3) (0)); Leaf (NFlt (4) (0)); Leaf (NFlt (5) (0))]));
   TCall (CArray (Nest [Leaf (NFlt (2) (0)); Leaf (NFlt (3) (0))]));
   TCall (CGetitem 0 [SSlice (Some (2)) (Some (4)) None]);
   TCall (CBinary BMul 2 1);
   TCall (CSum 3 None false);
   TBackward 4;
   TGrad 0;
   TMat 5;
   TGrad 1;
   TMat 6;
   TGrad 0;
   TClose 7 [] (Nest [Leaf (NFlt (0) (0)); Leaf (NFlt (0) (0)); Leaf (NFlt (2) (0)); Leaf (NFlt (3) (0)); Leaf (NFlt (0) (0))]);
   TGrad 1;
   TClose 8 [] (Nest [Leaf (NFlt (3) (0)); Leaf (NFlt (4) (0))])].
Example test_backward_chain_slice_mul_py : run_test (py_backend lm) py_eq py_close test_backward_chain_slice_mul = true. Proof. vm_compute. reflexivity. Qed.
Example test_backward_chain_slice_mul_c : run_test (c_backend lm) c_eq c_close test_backward_chain_slice_mul = true. Proof. vm_compute. reflexivity. Qed.

(* test.py:1061-1072 *)
Definition test_kern_cache : list tstep :=
  [TCall (CArange (6));
   TCall (CArange (6));
   TCall (CBinary BAdd 0 1);
   TMat 2;
   TCall (CArange (6));
   TCall (CArange (6));
   TCall (CBinary BAdd 3 4);
   TMat 5;
   TList 5 [] (Nest [Leaf (NInt (0)); Leaf (NInt (2)); Leaf (NInt (4)); Leaf (NInt (6)); Leaf (NInt (8)); Leaf (NInt (10))]);
   THits 1].
Example test_kern_cache_py : run_test (py_backend lm) py_eq py_close test_kern_cache = true. Proof. vm_compute. reflexivity. Qed.
Example test_kern_cache_c : run_test (c_backend lm) c_eq c_close test_kern_cache = true. Proof. vm_compute. reflexivity. Qed.

(* the runner does reject: a wrong element, a wrong shape, a call that should have failed *)
Example runner_rejects : run_test (py_backend lm) py_eq py_close
    [TCall (CArange 3); TCall (CUnary UNeg 0); TMat 1; TList 1 [] (Nest [Leaf (NInt 0); Leaf (NInt (-1)); Leaf (NInt 2)])] = false /\
  run_test (py_backend lm) py_eq py_close [TCall (CArange 3); TShape 0 [4]] = false /\
  run_test (py_backend lm) py_eq py_close [TErr (CArange 3)] = false /\
  run_test (py_backend lm) py_eq py_close [TCall (CArange 3); TCall (CUnary UNeg 0); TList 1 [] (Nest [Leaf (NInt 0); Leaf (NInt (-1)); Leaf (NInt (-2))])] = false.
Proof. vm_compute. auto. Qed.
