{
 "claims": [
  {
   "property": "C01",
   "status": "partial",
   "theorems": [
    "C01_repeated_partial",
    "C01_digest_partial",
    "C01_value_partial",
    "C01_python_partial",
    "C01_fresh_cache_partial",
    "C01_plain_python",
    "C01_succeeds",
    "C01_failures",
    "C01_tidy_python",
    "C01_tidy_partial",
    "C01_tidy_fresh_cache"
   ],
   "note": "Both CPU backends, every history. Value theorem under: no cache-key collision among the kernels involved (refuted otherwise, C11), in C sizes < 2^31 and a single dtype, reshape views starting at offset 0 (C15). C01_tidy_* have no key hypothesis: histories whose kernels are tidy (no pad/dilate; producers that are read are distinguished by their own key, which mentions each non-unit axis), a class checked by a boolean function and containing all kernels that read only constants. C01_succeeds/C01_failures characterise exceptions."
  },
  {
   "property": "C02",
   "status": "partial",
   "theorems": [
    "C02_no_fault",
    "C02_reused_kernel_refuted"
   ],
   "note": "Every CPU kernel of every conversion, arbitrary buffer contents, Python and C. Refuted for kernels wrongly reused through the cache (C02_reused_kernel_refuted: out-of-bounds read)."
  },
  {
   "property": "C03",
   "status": "partial",
   "theorems": [
    "C03_fusion_transparent_partial",
    "C03_fusion_transparent_python",
    "C03_c_mixed_dtype_refuted"
   ],
   "note": "Proved for every backend language under one-dtype + index-bound hypotheses, unconditionally for Python, for every conversion that succeeds (C04); refuted for C with mixed dtypes (fused temporaries take the consumer dtype)."
  },
  {
   "property": "C04",
   "status": "partial",
   "theorems": [
    "C04_compilation_total_partial",
    "C04_compiles_iff",
    "C04_scalar_reshape_refuted"
   ],
   "note": "Exact: an array compiles on every backend iff its expression contains no reshape to (); with one, conversion raises TypeError. Python's recursion limit is a separate property (C54)."
  },
  {
   "property": "C05",
   "status": "proved",
   "theorems": [
    "C05_dependency_order",
    "C05_launch_order_cuda",
    "C05_launches_cuda",
    "C05_history_free_cuda"
   ],
   "note": "For every conversion that succeeds (C04: exactly the expressions without a reshape to ()). On CUDA also at run time: in every process state (after failures, interrupts, driver errors) the driver calls of one materialize() launch each kernel at most once, inputs first, in the order of the conversion, a prefix if the call raises."
  },
  {
   "property": "C06",
   "status": "proved",
   "theorems": [
    "C06_parallel_outer_loop",
    "C06_any_iteration_order"
   ],
   "note": "Every kernel of every conversion on CPU backends; arbitrary buffer contents; outer-loop threads (OpenMP) and arbitrary dealing of single iterations; all interleavings race-free, finite, same memory. Element accesses atomic and sequentially consistent (justified by the proved race freedom). Runs that raise are excluded."
  },
  {
   "property": "C07",
   "status": "partial",
   "theorems": [
    "C07_launch_iff",
    "C07_launch_covers_partial",
    "C07_launch_accepted",
    "C07_empty_array_refuted",
    "C07_grid_limit_refuted"
   ],
   "note": "Exactly-one-writer and equality with the CPU kernel for all shapes; acceptance of the launch by the driver: the exact bounds on the extents (C07_launch_iff), with the refutations for empty arrays of rank 1-3 and a middle axis over 65535."
  },
  {
   "property": "C08",
   "status": "proved",
   "theorems": [
    "C08_split",
    "C08_float_extent"
   ],
   "note": "On every schedule reachable by any calls, any loop, any positive factor; plus exactness of the floating-point math.ceil(extent/factor) below 2^53."
  },
  {
   "property": "C09",
   "status": "partial",
   "theorems": [
    "C09_reorder_partial",
    "C09_unknown_loop",
    "C09_annotation_lost_refuted",
    "C09_kinds_swapped_refuted"
   ],
   "note": "Permutation, fixed places, order of the listed loops: on every reachable schedule. Kind and execution mode do not move with the loop (refuted: annotations lost, spatial/reduction mixed up)."
  },
  {
   "property": "C10",
   "status": "partial",
   "theorems": [
    "C10_user_schedule_partial",
    "C10_legal_calls_succeed",
    "C10_tail_guard_returns_refuted",
    "C10_nested_split_refuted",
    "C10_nested_inner_split_refuted",
    "C10_split_reduction_refuted",
    "C10_reorder_mixed_refuted",
    "C10_exact",
    "C10_complete_iff",
    "C10_tail_ok_complete"
   ],
   "note": "C10_exact: every legal call sequence (each spatial loop split at most once, reorder within a kind, any CPU annotation), tail guards anywhere: exactly which elements are computed (the iterations before the first one outside the array) and that all others keep their old content; the result is that of the automatic schedule iff the schedule is complete (C10_complete_iff: iff every element is computed); C10_tail_ok_complete, C10_user_schedule_partial: guarded splits outermost are. PARTIAL: nested splits, split of a reduction loop and mixed reorder are not legal calls here; refuted (the code accepts them, the kernel fails), as is the claim for incomplete schedules."
  },
  {
   "property": "C11",
   "status": "partial",
   "theorems": [
    "C11_copies_safe",
    "C11_digest_process_cuda",
    "C11_text_determines_key",
    "C11_digest_process",
    "C11_digest_collision_refuted",
    "C11_pad_refuted",
    "C11_producer_shape_refuted",
    "C11_producer_identity_refuted",
    "C11_same_key_same_code_partial",
    "C11_plain_kernels_safe",
    "C11_tidy_kernels_safe",
    "C11_plain_is_tidy"
   ],
   "note": "Refuted by three kinds of collisions; proved for kernels without pad/dilate that use producers in the same pattern, and, without comparing the two kernels, for the class of tidy kernels (CPU and GPU schedules), which contains none of the three collisions. The text str(key) determines the key (C11_text_determines_key), so the digest matters only if md5 collides on two of the texts involved: C11_digest_process, C01_digest_partial (CPU backends), C11_digest_process_cuda, C41_tolist_digest_partial (CUDA)."
  },
  {
   "property": "C12",
   "status": "partial",
   "theorems": [
    "C12_history_free_cuda_partial",
    "C12_history_free_partial",
    "C12_same_outcome_partial",
    "C12_plain_python",
    "C12_refuted",
    "C12_tidy_python"
   ],
   "note": "Under the C01 hypotheses (C12_tidy_python: no key hypothesis); refuted through cache collisions. C12_history_free_cuda_partial: the same on CUDA, for histories with failed and interrupted calls."
  },
  {
   "property": "C13",
   "status": "proved",
   "theorems": [
    "C13_user_data_kept",
    "C13_others_kept"
   ],
   "note": "Every history, no side condition."
  },
  {
   "property": "C14",
   "status": "partial",
   "theorems": [
    "C14_cuda_partial",
    "C14_again_cuda",
    "C14_again_returns_cuda_partial",
    "C14_idempotent_partial",
    "C14_plain_python",
    "C14_tidy_python"
   ],
   "note": "Under the C01 hypotheses (C14_tidy_python: no key hypothesis). C14_cuda_partial: on CUDA, the list shown after the second materialize() is the one shown before it. C14_again_cuda (any GPU process, no condition): called again right after it returned, it allocates nothing and the driver has nothing to refuse; C14_again_returns_cuda_partial: it returns."
  },
  {
   "property": "C15",
   "status": "partial",
   "theorems": [
    "C15_exact",
    "C15_right_iff",
    "C15_tolist_of_view_partial",
    "C15_offset_reshape_refuted",
    "C15_tolist_in_bounds"
   ],
   "note": "Exact for every chain of views (C15_exact: tolist never raises and reads k places too early, k = the sum of the offsets of the arrays reshaped; C15_right_iff: right for every buffer content iff all reshapes are of arrays at offset 0). The unrestricted claim is refuted (arange(6)[3:].reshape(3).tolist() == [0,1,2])."
  },
  {
   "property": "C16",
   "status": "proved",
   "theorems": [
    "C16_reshape_accepts",
    "C16_reshape_row_major"
   ],
   "note": "Acceptance and row-major value sequence, for all arrays incl. non-contiguous and offset views (meaning of the array; tolist of an offset view reshaped without a kernel is the C15 refutation)."
  },
  {
   "property": "C17",
   "status": "proved",
   "theorems": [
    "C17_getitem_accepts",
    "C17_getitem_python_slicing"
   ],
   "note": "Against Python's slice positions, written independently; acceptance iff legal."
  },
  {
   "property": "C18",
   "status": "proved",
   "theorems": [
    "C18_integer_indexing"
   ],
   "note": "All lists of integer subscripts; mixed integer/slice subscripts are C17."
  },
  {
   "property": "C19",
   "status": "proved",
   "theorems": [
    "C19_binary_accepts",
    "C19_binary_elements",
    "C19_broadcast_commutative",
    "C19_broadcast_to"
   ],
   "note": "Acceptance iff NumPy-compatible, result shape, element rule, symmetry; broadcast_to under its (unchecked) precondition."
  },
  {
   "property": "C20",
   "status": "proved",
   "theorems": [
    "C20_transpose_accepts",
    "C20_transpose_elements",
    "C20_transpose_inverse",
    "C20_T_and_T_twice"
   ],
   "note": ""
  },
  {
   "property": "C21",
   "status": "proved",
   "theorems": [
    "C21_array_tolist_roundtrip",
    "C21_array_elements"
   ],
   "note": "shape = list lengths up to the first empty axis."
  },
  {
   "property": "C22",
   "status": "partial",
   "theorems": [
    "C22_array_rejects_partial",
    "C22_array_accepts_rectangular",
    "C22_mixed_depth_refuted",
    "C22_exact",
    "C22_rectangular_iff",
    "C22_accepts_iff"
   ],
   "note": "Exact for every nested list (C22_exact, C22_accepts_iff: accepted iff lists on the same level have the same length, else ValueError; C22_rectangular_iff). The claim itself is false for lists that mix numbers and lists on a level (C22_mixed_depth_refuted)."
  },
  {
   "property": "C23",
   "status": "proved",
   "theorems": [
    "C23_sum",
    "C23_axes",
    "C23_all_axes",
    "C23_positions",
    "C23_axis_out_of_range_accepted_refuted"
   ],
   "note": "Plus a finding: out-of-range axes wrap instead of raising."
  },
  {
   "property": "C24",
   "status": "proved",
   "theorems": [
    "C24_pad",
    "C24_pad_slice_back",
    "C24_rejects",
    "C24_negative_dim_refuted",
    "C24_negative_dim_out_of_bounds_refuted"
   ],
   "note": "Values under dim >= 0, before/after >= 0 (unchecked by the code). C24_rejects classifies every call. FINDING: a negative dim is accepted, with the right shape but wrong elements (C24_negative_dim_refuted) or reads outside the buffer (C24_negative_dim_out_of_bounds_refuted)."
  },
  {
   "property": "C25",
   "status": "proved",
   "theorems": [
    "C25_dilate",
    "C25_dilate_slice_back",
    "C25_rejects",
    "C25_negative_dim_refuted"
   ],
   "note": "Values under dim >= 0, step >= 1 and a non-empty axis (unchecked by the code). C25_rejects classifies every call. FINDING: C25_negative_dim_refuted."
  },
  {
   "property": "C26",
   "status": "proved",
   "theorems": [
    "C26_contiguous"
   ],
   "note": ""
  },
  {
   "property": "C27",
   "status": "partial",
   "theorems": [
    "C27_dtype_of_data",
    "C27_dtype_preserved_partial",
    "C27_only_two_dtypes",
    "C27_ones_like_partial",
    "C27_like_refuted",
    "C27_exact",
    "C27_like_iff"
   ],
   "note": "The dtype of the result of every call, exactly (C27_exact), and when zeros_like/ones_like keep the dtype (C27_like_iff); the English claim for zeros_like and for empty arrays is refuted."
  },
  {
   "property": "C28",
   "status": "partial",
   "theorems": [
    "C28_gradient_partial",
    "C28_weighted_gradient_partial",
    "C28_broadcast_own_shape_refuted"
   ],
   "note": "Over exact real arithmetic (stdlib reals, Coquelicot is_derive): for every expression DAG of regular operations and every point of the domain, x.grad[i] is the partial derivative of the sum of y (also weighted by y.grad, also for arrays that are not constants). Not covered: broadcast_to an array's own shape (refuted: wrong shape and value), empty slices with step > 1, floating-point rounding."
  },
  {
   "property": "C29",
   "status": "proved",
   "theorems": [
    "C29_each_operation_once",
    "C29_returns"
   ],
   "note": "Order, exactly-once and final-gradient facts for every successful call; the call returns for regular operations."
  },
  {
   "property": "C30",
   "status": "partial",
   "theorems": [
    "C30_gradient_shapes_partial",
    "C30_broadcast_own_shape_refuted"
   ],
   "note": "All regular operations; refuted for broadcast_to an array's own shape."
  },
  {
   "property": "C31",
   "status": "partial",
   "theorems": [
    "C31_twice_refuted",
    "C31_accumulates_partial",
    "C31_one_call_partial",
    "C31_exact_partial",
    "C31_leftovers_partial",
    "C31_direct_partial"
   ],
   "note": "False as stated (refuted: y=-(-x) twice gives 3 times). Exact behaviour proved: C31_one_call_partial (any gradients left over anywhere: x.grad becomes the derivative of the sum over all arrays n of <n.grad, n>), C31_exact_partial (k calls in a row), C31_leftovers_partial (a call adds the right amount iff the leftover gradients strictly between y and x contribute 0), C31_direct_partial (k calls give k times the derivative when no array lies between y and x), C31_accumulates_partial (or when the gradients of operation results are dropped between the calls). Missing: programs outside [regular]/[smooth], as in C28."
  },
  {
   "property": "C32",
   "status": "proved",
   "theorems": [
    "C32_forward_values_kept"
   ],
   "note": "Every successful backward(), every element arithmetic: existing arrays keep node, shape and contents; arrays are only appended. Buffers are untouched because backward() only builds graph nodes (no materialisation)."
  },
  {
   "property": "C33",
   "status": "proved",
   "theorems": [
    "C33_operations_are_pure"
   ],
   "note": ""
  },
  {
   "property": "C34",
   "status": "proved",
   "theorems": [
    "C34_views_of_constants_cuda",
    "C34_views_of_constants",
    "C34_base_is_view_chain",
    "C34_read_without_kernel"
   ],
   "note": "Every history; the whole process state is unchanged. On CUDA in every process state: materialize() of a literal or of a view of one returns and does nothing."
  },
  {
   "property": "C35",
   "status": "proved",
   "theorems": [
    "C35_kernel_reasons",
    "C35_kernel_count",
    "C35_one_kernel"
   ],
   "note": "Exact reasons for each extra kernel, the count bound, and the one-kernel corollary."
  },
  {
   "property": "C36",
   "status": "partial",
   "theorems": [
    "C36_failed_histories",
    "C36_failed_histories_python",
    "C36_never_run",
    "C36_only_computed_partial",
    "C36_after_exception_refuted"
   ],
   "note": "Refuted after a kernel raised midway (the failing array itself shows zeros). Proved for every history, failed materialize() calls included: tolist() of a computed array returns its elements unless one of the array's own elements raises (or, in C, ctypes refuses one of its constants); Python with tidy kernels needs no key hypothesis."
  },
  {
   "property": "C37",
   "status": "proved",
   "theorems": [
    "C37_operators_agree",
    "C37_index_arithmetic",
    "C37_cuda_index_arithmetic"
   ],
   "note": "Operator theorem on [0,2^31) plus a lockstep machine executing Python and C arithmetic of every kernel side by side: it never faults, so every index, address and condition is the same integer below 2^31 in both."
  },
  {
   "property": "C38",
   "status": "partial",
   "theorems": [
    "C38_c_cuda_partial",
    "C38_python_cuda_float_partial",
    "C38_python_cuda_padded_partial",
    "C38_python_cuda_int_partial",
    "C38_same_elements_partial",
    "C38_float_partial",
    "C38_float_padded_partial",
    "C38_int_partial",
    "C38_int_division_refuted",
    "C38_zero_division_refuted",
    "C38_negated_padding_refuted"
   ],
   "note": "For every expression over float64 arrays (with or without padding), or int64 arrays with + - * -x sum pad dilate, both processes' lists agree element by element; generic theorem for any element relation preserved by each operation. Assumes no cache-key collision (C11), fewer than 2^31 elements and, in the generic form, one dtype. Refuted in general: int / int, division by zero, negated padding. C38_c_cuda_partial: C and CUDA give the same list; C38_python_cuda_*: Python and CUDA."
  },
  {
   "property": "C39",
   "status": "proved",
   "theorems": [
    "C39_printed_names_distinct",
    "C39_no_name_clash",
    "C39_automatic",
    "C39_c_source",
    "C39_python_source",
    "C39_no_reserved_word",
    "C39_split_reduction_refuted"
   ],
   "note": "For every kernel of every array and every schedule obtained by splitting spatial loops (any nesting, any factors), reordering loops of one kind and annotating - in particular the automatic schedules - all declared names and parameters are pairwise distinct strings; read off the C/CUDA text (all declarations distinct) and the Python text (loop variables and parameters distinct and never assigned); no name is a keyword, used library word or the kernel name. Splitting a reduction loop by hand declares its variable twice (C39_split_reduction_refuted; also C10)."
  },
  {
   "property": "C40",
   "status": "proved",
   "theorems": [
    "C40_text_means_program",
    "C40_text_exists"
   ],
   "note": "Every text any of the three generators emits, for any Func and schedule, is read by an independent lexer/parser of the used fragments of Python and C (precedence, comparison chaining, indentation, blocks, pragmas) as exactly the intended statement trees, and in only one way. The string-level generator (Text.v) follows codegen.py/langspec.py line by line; the intended tree is that of the kernel that all other theorems are about."
  },
  {
   "property": "C41",
   "status": "partial",
   "theorems": [
    "C41_tolist_digest_partial",
    "C41_alloc_once",
    "C41_free_once",
    "C41_no_use_after_free",
    "C41_addresses_exclusive",
    "C41_no_leak",
    "C41_inputs_initialised_partial",
    "C41_tolist_partial",
    "C41_failures",
    "C41_succeeds",
    "C41_read_after_failure_refuted",
    "C41_tidy_inputs_partial",
    "C41_tidy_tolist_partial"
   ],
   "note": "Allocation, freeing, use-after-free, address reuse and leaks: proved for every history (only what follows undefined behaviour inside a kernel is left open). Values (initialised inputs, tolist()): proved for histories in which an array whose materialize() failed half-way is not read before it is materialized successfully (C41_read_after_failure_refuted shows that otherwise garbage is read and stays cached), with the cache and size/dtype conditions of C01; C41_failures: no undefined behaviour under those conditions; C41_succeeds: a successful run exists from every such history. Model: Device.v (driver may fail any allocation, fresh memory has arbitrary contents, any interleaving of GPU threads). C41_tidy_*: no key hypothesis. C41_tolist_digest_partial: also for the cache as it is (indexed by a digest of the key text), if the digest does not collide."
  },
  {
   "property": "C42",
   "status": "partial",
   "theorems": [
    "C42_extents_partial",
    "C42_negative_extent_refuted",
    "C42_negative_reshape_refuted",
    "C42_exact"
   ],
   "note": "Extents, buffer bounds and strides for calls meeting call_ok; for all other accepted calls from a reachable graph, exactly when an extent is negative (C42_exact); refuted for dilate on an empty axis and reshape with negative extents."
  },
  {
   "property": "C43",
   "status": "proved",
   "theorems": [
    "C43_unsupported_annotation_raises",
    "C43_supported_annotations",
    "C43_automatic"
   ],
   "note": "For every Func, schedule and backend, at the level of the emitted text."
  },
  {
   "property": "C44",
   "status": "proved",
   "theorems": [
    "C44_no_recompile",
    "C44_same_array",
    "C44_fragment",
    "C44_loop",
    "C44_one_entry_per_key",
    "C44_no_recompile_cuda",
    "C44_same_array_cuda",
    "C44_one_entry_per_key_cuda"
   ],
   "note": "For any CPU backend record (any arithmetic), any state, any expression: C44_no_recompile has no side condition beyond the first success and the absence of resets. C44_fragment/C44_loop: program fragments of API and materialize() calls run again with other data. Copies are defined in Copy.v. On CUDA too, also after interrupted and failed materialize() calls and after arrays died."
  },
  {
   "property": "C45",
   "status": "proved",
   "theorems": [
    "C45_generated_source",
    "C45_calls_exist",
    "C45_one_meaning",
    "C45_scheduled_source_partial"
   ],
   "note": "Python, C and CUDA. C45_generated_source: all kernels of an array in conversion order, automatic schedules, any thread order of CUDA (threads one after the other; interleavings are C07). Semantics of source text in SrcSem.v (scopes, declared types, 32/64-bit ints, short circuit, return), independent of the generator; #pragma lines ignored there (threads: C06). Hypotheses: mat_ok (as C01), no raising element, C/CUDA literals below 2^31. C45_scheduled_source_partial: with a legal user schedule (restrictions of C10)."
  },
  {
   "property": "C46",
   "status": "partial",
   "theorems": [
    "C46_c_generator_reusable",
    "C46_python_generator_reusable_partial",
    "C46_python_generator_reusable_refuted"
   ],
   "note": "Proved for Clang and CUDA for every session (C46_c_generator_reusable). Python: proved as long as no call raised; what is missing is false (C46_python_generator_reusable_refuted): after a call rejected for an unsupported annotation the indentation is never reset, and every later text is an unexpected indent. The generator object, with its state surviving exceptions, is modelled in Generator.v and related to the pure generator of Text.v."
  },
  {
   "property": "C47",
   "status": "partial",
   "theorems": [
    "C47_cuda_user_data",
    "C47_cuda_host_lists_survive",
    "C47_to_cuda_survives",
    "C47_cuda_results_lost_refuted",
    "C47_cuda_alias_refuted",
    "C47_cuda_to_cpu_value_partial",
    "C47_cuda_to_cpu_succeeds_partial",
    "C47_to_cuda_value_partial",
    "C47_cuda_new_context_partial",
    "C47_to_cuda_stale_list_refuted",
    "C47_numbers_survive",
    "C47_user_data",
    "C47_value_after_reset_partial",
    "C47_succeeds_after_reset_partial",
    "C47_value_partial",
    "C47_failures_partial",
    "C47_stale_refuted",
    "C47_float_refuted"
   ],
   "note": "Reads and user data survive every history (proved without conditions). After materialize.reset() in any process history materialize() computes what the current backend computes (C47_value_after_reset_partial, C47_succeeds_after_reset_partial); missing: key_safe (no cache collision, C11) and, in C, mat_ok as in C01. What is false: backend.reset() alone leaves the other backend's kernels in the cache, and materializing the same expression again on Python raises (C47_stale_refuted); an int64 array whose list holds floats (int / int in Python) cannot be computed again on Clang (C47_float_refuted). Running a stale Python kernel from the Clang executor is an arbitrary function (mixed). Changes to and from CUDA (PropDevReset.v): user data and every array that has been read survive (proved); from any CUDA history to a CPU backend materialize() succeeds and gives that backend's values (C47_cuda_to_cpu_*_partial); to CUDA, if every computed list is right (C47_to_cuda_value_partial); a new CUDA context is fine before anything was computed (C47_cuda_new_context_partial). False: results computed on the GPU but not read are lost (C47_cuda_results_lost_refuted), old addresses may belong to new arrays (C47_cuda_alias_refuted), a wrong list is shown for ever (C47_to_cuda_stale_list_refuted). Not covered: launching cached functions of a destroyed context; several CUDA contexts after computing."
  },
  {
   "property": "C48",
   "status": "partial",
   "theorems": [
    "C48_backward_is_a_history_cuda",
    "C48_gradient_shown_cuda_partial",
    "C48_gradient_unusable_cuda",
    "C48_backward_is_a_history",
    "C48_gradient_compiles",
    "C48_gradient_unusable",
    "C48_gradient_shown_partial",
    "C48_normalised_refuted",
    "C48_offset_refuted"
   ],
   "note": "Exactly characterised: the gradient of x compiles on every backend if and only if no scalar operand lies on a path from y to x whose gradient the rules of sum, reshape or broadcast_to reshape to () (C48_gradient_compiles, C48_gradient_unusable: then nothing computed from it can ever be materialized). C48_gradient_shown_partial carries a running process from the forward program through backward() to the numbers shown, and these are the derivative over the reals. On CUDA: C48_backward_is_a_history_cuda (backward() uses only living arrays and touches neither device memory nor the kernel cache; the gradients it leaves are alive), C48_gradient_unusable_cuda (the TypeError case, exactly) and C48_gradient_shown_cuda_partial (materialize() of the gradient can succeed when the driver has memory, and after any success tolist() shows the gradient). Missing there, as in C01: key_safe, mat_ok in C, reshapes at offset 0, and regular operations as in C28. What is false: x / x.sum() (C48_normalised_refuted, TypeError), a gradient that is a reshape of an offset slice shows wrong numbers (C48_offset_refuted)."
  },
  {
   "property": "C49",
   "status": "partial",
   "theorems": [
    "C49_cuda_partial",
    "C49_integers_cuda_partial",
    "C49_python",
    "C49_tidy_python",
    "C49_python_succeeds",
    "C49_c_partial",
    "C49_operation",
    "C49_binary_operation",
    "C49_integers_python",
    "C49_integers_c_partial",
    "C49_sum_accuracy_python",
    "C49_sum_accuracy_c",
    "C49_float_to_int",
    "C49_int_to_float"
   ],
   "note": "Python (C49_python: every expression, any libm with a stated accuracy; C49_python_succeeds: defined bounds imply that materialize succeeds) and C with the restrictions of C01 (C49_c_partial: sizes below 2^31, one dtype per expression). C49_operation, C49_binary_operation: the single operations of both languages are correctly rounded. C49_integers_python: integer expressions are exact at any size; C49_integers_c_partial: while nothing overflows int64. C49_sum_accuracy_python/_c: the textbook bound of recursive summation. C49_cuda_partial, C49_integers_cuda_partial: the same for what is read from a CUDA buffer. C49_float_to_int, C49_int_to_float: C's conversions. Powers: positive bases, or exactly a natural number as exponent. C49_library_nonvacuous: a correctly rounding library meets the assumption on the math library. Missing: integer division and powers of integers in C have no bound; the accuracy of sin, cos, exp, log, pow is a parameter (libm_within), not proved of any C library."
  },
  {
   "property": "C50",
   "status": "partial",
   "theorems": [
    "C50_cuda_partial",
    "C50_python_partial",
    "C50_c_partial"
   ],
   "note": "The end-to-end combination of C28 (derivative), C48 (gradients can be read) and C49 (rounding): C50_python_partial, C50_c_partial, C50_cuda_partial (after any successful materialize() of the gradient on the GPU and any later events). Inherited restrictions: the program is regular (no broadcast_to of an array to its own shape), no scalar operand on the path (C48), no cache-key collision (key_safe), the gradient array is not a reshape of an offset view (view_of), for C sizes below 2^31 and one dtype; the bounds must be defined for every intermediate result (no possible overflow, division by zero, ...)."
  },
  {
   "property": "C51",
   "status": "partial",
   "theorems": [
    "C51_exceptions",
    "C51_rejects",
    "C51_unchanged",
    "C51_accepted_partial",
    "C51_broadcast_refuted",
    "C51_sizes_refuted"
   ],
   "note": "C51_exceptions: for any arguments, the exceptions each call can raise and when; C51_rejects: the rules that are enforced; C51_unchanged: a failed call changes nothing; C51_accepted_partial: whatever is accepted is sound for all calls whose arguments the code checks completely, and for full, broadcast_to, reshape, pad, dilate and array under the conditions the code leaves unchecked. FINDINGS: C51_broadcast_refuted (broadcast_to validates nothing), C51_sizes_refuted (zero/negative dilate steps, negative extents), C24/C25_negative_dim_refuted, C22_mixed_depth_refuted."
  },
  {
   "property": "C52",
   "status": "partial",
   "theorems": [
    "C52_key_refuted",
    "C52_text_refuted"
   ],
   "note": "REFUTED. C52_key_refuted: after n+1 calls y = y + y the key of one kernel holds at least 2^n tuples (shared producers are expanded at each reference). C52_text_refuted: n reshapes followed by a negation compile, on every backend, to a kernel text of at least 2^n - 1 characters (each reshape uses the index expression twice). The positive part, that every elementwise operation of the program occurs exactly once in the compiled kernels, is C53."
  },
  {
   "property": "C53",
   "status": "proved",
   "theorems": [
    "C53_once",
    "C53_sums"
   ],
   "note": "C53_once: the multiset of element operations in all kernels equals the multiset of operations of the API calls in the cone of the array; C53_sums: sums are outermost and have their own kernels. This counts operations in the compiled code; a fused operand under a broadcast and a sum is evaluated once per summed element at run time."
  },
  {
   "property": "C54",
   "status": "partial",
   "theorems": [
    "C54_materialize_cuda",
    "C54_cuda_recovers_partial",
    "C54_cuda_reads_partial",
    "C54_limit_only_raises",
    "C54_materialize",
    "C54_backward",
    "C54_depth_refuted",
    "C54_key_limit_only_raises",
    "C54_codegen_limit_only_raises",
    "C54_c_generator_survives",
    "C54_python_generator_refuted",
    "C54_materialize_all_phases",
    "C54_python_compiles_nothing",
    "C54_clang_recovers_partial"
   ],
   "note": "C54_limit_only_raises, C54_materialize, C54_backward: with a recursion limit (Stack.v: frames of the recursive functions of convert(), materialize() on views and the search of backward()) the outcome is either RecursionError or exactly the outcome without a limit; every array has a sufficient limit; materialize() then leaves the process unchanged, backward() only y.grad. The claim that any depth works is false for every limit (C54_depth_refuted). Cache keys and code generation: C54_key_limit_only_raises, C54_codegen_limit_only_raises (RecursionError or the unlimited outcome; exactly `frames` frames are needed), C54_c_generator_survives (on C backends calls out of frames do not disturb later ones); on Python they do: C54_python_generator_refuted (after a RecursionError in codegen() no later text is a program, and for every n a chain of n reshapes fails there with frames that suffice for conversion and key). C54_materialize_all_phases: the whole of materialize() with a limit gives RecursionError or exactly the unlimited outcome, and a limit depending on the array only always suffices; (on Python: if the generator is not already ruined); C54_python_compiles_nothing: once ruined, no materialize() compiles a kernel again; C54_clang_recovers_partial: on Clang a RecursionError anywhere in it leaves a state from which the same call, with enough frames, gives the right list (conditions as in C01). C54_materialize_cuda: the same on CUDA as sets of executions (a limited call that is not stopped is an unlimited one; no execution is lost but to RecursionError; a limit depending on the array only loses none, whatever the driver does); C54_cuda_recovers_partial: there too a RecursionError leaves a state that C59 covers, and a later call that succeeds gives the right list. C54_cuda_reads_partial: and no array whose tolist() would show uncomputed device memory (as an exception from outside can, C59_cuda_read_refuted). Not limited in the model: compilers."
  },
  {
   "property": "C55",
   "status": "partial",
   "theorems": [
    "C55_exceptions",
    "C55_same_calls",
    "C55_unchanged_partial",
    "C55_session",
    "C55_kernel_partial",
    "C55_failed_split_refuted"
   ],
   "note": "Which calls raise what, exactly, on any schedule (C55_exceptions); every call that raises leaves the schedule as it was except split() of a variable that is not a loop (C55_unchanged_partial); after any session the schedule is that of the calls that returned iff no such split occurred (C55_session), and then C10 holds (C55_kernel_partial). FINDING (C55_failed_split_refuted): split() records the split before it looks the loop up; after a caught RuntimeError the kernel silently skips elements or writes out of range."
  },
  {
   "property": "C56",
   "status": "partial",
   "theorems": [
    "C56_print",
    "C56_text_determines_list",
    "C56_debug_same",
    "C56_output_refuted",
    "C56_unchecked_refuted",
    "C56_buffer_text",
    "C56_cuda_print",
    "C56_cuda_debug_same"
   ],
   "note": "C56_print: in every CPU history every array prints, as its list exactly if tolist() returns one, else as the summary; C56_text_determines_list; C56_debug_same: materialize() with WHALE_DEBUG=1 has the same effect and exception in every CPU history ; on CUDA, after any history (failed and interrupted calls included, no condition on the cache keys): C56_cuda_print, and C56_cuda_debug_same (the executions with WHALE_DEBUG=1 and without reach the same states with the same results). Partial because the property as listed also bounds the output and covers unchecked calls: REFUTED parts: C56_output_refuted (debug output exponential in the number of calls), C56_unchecked_refuted (after an unchecked broadcast_to, str raises IndexError, and materialize() raises only with WHALE_DEBUG=1)."
  },
  {
   "property": "C57",
   "status": "partial",
   "theorems": [
    "C57_clang_accepts_iff",
    "C57_auto_accepted",
    "C57_parallel_schedule_partial",
    "C57_guarded_parallel_refuted",
    "C57_unroll_refuted"
   ],
   "note": "C57_clang_accepts_iff: exact condition, for every reachable schedule, under which the text satisfies the OpenMP / clang loop-directive rules of Pragma.v; C57_auto_accepted: always for automatic schedules; C57_parallel_schedule_partial: legal schedules (C10) without tail guards, any dealing of the single iterations to threads, any interleaving, same memory as the automatic schedule. REFUTED parts: C57_guarded_parallel_refuted (tail guard + parallel: accepted by every call, right sequentially, rejected by the compiler), C57_unroll_refuted (unroll factor <= 0)."
  },
  {
   "property": "C58",
   "status": "partial",
   "theorems": [
    "C58_gpu_schedule_partial",
    "C58_gpu_calls_succeed",
    "C58_shared_coordinate_refuted",
    "C58_sequential_guard_refuted",
    "C58_gpu_reduction_refuted"
   ],
   "note": "C58_gpu_schedule_partial: legal calls (those of C10, with block/thread/unroll annotations), any split factors and loop orders; no coordinate used twice, no reduction loop on a coordinate, both halves of a guarded split on coordinates; each output position written exactly once, every interleaving race-free and equal to the CPU result. C58_gpu_calls_succeed: calls and code generation never fail. The driver's limits are those of C07. REFUTED parts: C58_shared_coordinate_refuted (accepted by every call; out-of-bounds write or missing elements), C58_sequential_guard_refuted (missing elements), C58_gpu_reduction_refuted (data race on the output)."
  },
  {
   "property": "C59",
   "status": "partial",
   "theorems": [
    "C59_cuda_retry_partial",
    "C59_cuda_retry_succeeds",
    "C59_cuda_failures",
    "C59_cuda_user_data",
    "C59_cuda_others_kept",
    "C59_cuda_buffers",
    "C59_cuda_read_refuted",
    "C59_retry_partial",
    "C59_retry_plain_python",
    "C59_fresh_cache_partial",
    "C59_retry_succeeds",
    "C59_as_uninterrupted_partial",
    "C59_user_data",
    "C59_others_kept",
    "C59_unfinished_is_unreadable_refuted",
    "C59_files_left",
    "C59_no_files_left",
    "C59_temporary_files_refuted"
   ],
   "note": "C59_retry_partial, C59_as_uninterrupted_partial: any number of interruptions at any point (on Python: outside codegen(), whose generator may then be unusable, C46/C54), CPU backends: later results right, equal to an uninterrupted process, and kept through further interruptions; conditions on keys and sizes as in C01 (none in C59_retry_plain_python). C59_user_data, C59_others_kept: no condition. C59_files_left: the temporary files left are exactly those of compilations failing in the compiler, in loading or in the removal. REFUTED parts: C59_unfinished_is_unreadable_refuted (tolist() of the interrupted array silently shows computed elements and zeros), C59_temporary_files_refuted (each failed compilation leaves a file). CUDA: C59_cuda_retry_partial, C59_cuda_retry_succeeds, C59_cuda_failures (gmat_ok and key_safe as in C41; tolist() only on computed buffers), C59_cuda_user_data, C59_cuda_others_kept, C59_cuda_buffers (no condition: device memory is still allocated, freed and used correctly); REFUTED: C59_cuda_read_refuted (tolist() after an interruption shows uninitialised device memory, and keeps showing it after a successful retry)."
  },
  {
   "property": "C60",
   "status": "partial",
   "theorems": [
    "C60_any_schedule",
    "C60_python_exact",
    "C60_python_compiles",
    "C60_python_rejects",
    "C60_rank_refuted",
    "C60_keepdims_refuted"
   ],
   "note": "C60_any_schedule: for every backend and every schedule the exact number of nested loops of the text, and a bound on its nested blocks. C60_python_exact, C60_python_compiles: for any limits of the Python compiler, an array whose cone has rank + number of summed axes within the block limit everywhere, and few enough pad()/dilate() calls for the indentation limit, gives texts that Python accepts. C60_python_rejects, C60_rank_refuted, C60_keepdims_refuted: whatever the limit, beyond it the call is accepted and the text is not Python (finding 22). That Python has these two limits is part of the specification (python_accepts). Not covered: limits of clang (bracket depth 256) and nvcc."
  }
 ]
}