{
 "C15": [
  "partial",
  "Exact for every chain of views (C15_exact: tolist never raises and reads k places too early, k = the sum of the offsets of the arrays reshaped; C15_right_iff: right for every buffer content iff all reshapes are of arrays at offset 0). The unrestricted claim is refuted (arange(6)[3:].reshape(3).tolist() == [0,1,2])."
 ],
 "C16": [
  "proved",
  "Acceptance and row-major value sequence, for all arrays incl. non-contiguous and offset views (meaning of the array; tolist of an offset view reshaped without a kernel is the C15 refutation)."
 ],
 "C17": [
  "proved",
  "Against Python's slice positions, written independently; acceptance iff legal."
 ],
 "C18": [
  "proved",
  "All lists of integer subscripts; mixed integer/slice subscripts are C17."
 ],
 "C19": [
  "proved",
  "Acceptance iff NumPy-compatible, result shape, element rule, symmetry; broadcast_to under its (unchecked) precondition."
 ],
 "C20": [
  "proved",
  ""
 ],
 "C21": [
  "proved",
  "shape = list lengths up to the first empty axis."
 ],
 "C22": [
  "partial",
  "Exact for every nested list (C22_exact, C22_accepts_iff: accepted iff lists on the same level have the same length, else ValueError; C22_rectangular_iff). The claim itself is false for lists that mix numbers and lists on a level (C22_mixed_depth_refuted)."
 ],
 "C23": [
  "proved",
  "Plus a finding: out-of-range axes wrap instead of raising."
 ],
 "C24": [
  "proved",
  "Values under dim >= 0, before/after >= 0 (unchecked by the code). C24_rejects classifies every call. FINDING: a negative dim is accepted, with the right shape but wrong elements (C24_negative_dim_refuted) or reads outside the buffer (C24_negative_dim_out_of_bounds_refuted)."
 ],
 "C25": [
  "proved",
  "Values under dim >= 0, step >= 1 and a non-empty axis (unchecked by the code). C25_rejects classifies every call. FINDING: C25_negative_dim_refuted."
 ],
 "C26": [
  "proved",
  ""
 ],
 "C27": [
  "partial",
  "The dtype of the result of every call, exactly (C27_exact), and when zeros_like/ones_like keep the dtype (C27_like_iff); the English claim for zeros_like and for empty arrays is refuted."
 ],
 "C33": [
  "proved",
  ""
 ],
 "C42": [
  "partial",
  "Extents, buffer bounds and strides for calls meeting call_ok; for all other accepted calls from a reachable graph, exactly when an extent is negative (C42_exact); refuted for dilate on an empty axis and reshape with negative extents."
 ],
 "C03": [
  "partial",
  "Proved for every backend language under one-dtype + index-bound hypotheses, unconditionally for Python, for every conversion that succeeds (C04); refuted for C with mixed dtypes (fused temporaries take the consumer dtype)."
 ],
 "C04": [
  "partial",
  "Exact: an array compiles on every backend iff its expression contains no reshape to (); with one, conversion raises TypeError. Python's recursion limit is a separate property (C54)."
 ],
 "C05": [
  "proved",
  "For every conversion that succeeds (C04: exactly the expressions without a reshape to ()). On CUDA also at run time: in every process state (after failures, interrupts, driver errors) the driver calls of one materialize() launch each kernel at most once, inputs first, in the order of the conversion, a prefix if the call raises."
 ],
 "C35": [
  "proved",
  "Exact reasons for each extra kernel, the count bound, and the one-kernel corollary."
 ],
 "C01": [
  "partial",
  "Both CPU backends, every history. Value theorem under: no cache-key collision among the kernels involved (refuted otherwise, C11), in C sizes < 2^31 and a single dtype, reshape views starting at offset 0 (C15). C01_tidy_* have no key hypothesis: histories whose kernels are tidy (no pad/dilate; producers that are read are distinguished by their own key, which mentions each non-unit axis), a class checked by a boolean function and containing all kernels that read only constants. C01_succeeds/C01_failures characterise exceptions."
 ],
 "C02": [
  "partial",
  "Every CPU kernel of every conversion, arbitrary buffer contents, Python and C. Refuted for kernels wrongly reused through the cache (C02_reused_kernel_refuted: out-of-bounds read)."
 ],
 "C11": [
  "partial",
  "Refuted by three kinds of collisions; proved for kernels without pad/dilate that use producers in the same pattern, and, without comparing the two kernels, for the class of tidy kernels (CPU and GPU schedules), which contains none of the three collisions. The text str(key) determines the key (C11_text_determines_key), so the digest matters only if md5 collides on two of the texts involved: C11_digest_process, C01_digest_partial (CPU backends), C11_digest_process_cuda, C41_tolist_digest_partial (CUDA)."
 ],
 "C12": [
  "partial",
  "Under the C01 hypotheses (C12_tidy_python: no key hypothesis); refuted through cache collisions. C12_history_free_cuda_partial: the same on CUDA, for histories with failed and interrupted calls."
 ],
 "C13": [
  "proved",
  "Every history, no side condition."
 ],
 "C14": [
  "partial",
  "Under the C01 hypotheses (C14_tidy_python: no key hypothesis). C14_cuda_partial: on CUDA, the list shown after the second materialize() is the one shown before it. C14_again_cuda (any GPU process, no condition): called again right after it returned, it allocates nothing and the driver has nothing to refuse; C14_again_returns_cuda_partial: it returns."
 ],
 "C34": [
  "proved",
  "Every history; the whole process state is unchanged. On CUDA in every process state: materialize() of a literal or of a view of one returns and does nothing."
 ],
 "C36": [
  "partial",
  "Refuted after a kernel raised midway (the failing array itself shows zeros). Proved for every history, failed materialize() calls included: tolist() of a computed array returns its elements unless one of the array's own elements raises (or, in C, ctypes refuses one of its constants); Python with tidy kernels needs no key hypothesis."
 ],
 "C06": [
  "proved",
  "Every kernel of every conversion on CPU backends; arbitrary buffer contents; outer-loop threads (OpenMP) and arbitrary dealing of single iterations; all interleavings race-free, finite, same memory. Element accesses atomic and sequentially consistent (justified by the proved race freedom). Runs that raise are excluded."
 ],
 "C07": [
  "partial",
  "Exactly-one-writer and equality with the CPU kernel for all shapes; acceptance of the launch by the driver: the exact bounds on the extents (C07_launch_iff), with the refutations for empty arrays of rank 1-3 and a middle axis over 65535."
 ],
 "C08": [
  "proved",
  "On every schedule reachable by any calls, any loop, any positive factor; plus exactness of the floating-point math.ceil(extent/factor) below 2^53."
 ],
 "C09": [
  "partial",
  "Permutation, fixed places, order of the listed loops: on every reachable schedule. Kind and execution mode do not move with the loop (refuted: annotations lost, spatial/reduction mixed up)."
 ],
 "C10": [
  "partial",
  "C10_exact: every legal call sequence (each spatial loop split at most once, reorder within a kind, any CPU annotation), tail guards anywhere: exactly which elements are computed (the iterations before the first one outside the array) and that all others keep their old content; the result is that of the automatic schedule iff the schedule is complete (C10_complete_iff: iff every element is computed); C10_tail_ok_complete, C10_user_schedule_partial: guarded splits outermost are. PARTIAL: nested splits, split of a reduction loop and mixed reorder are not legal calls here; refuted (the code accepts them, the kernel fails), as is the claim for incomplete schedules."
 ],
 "C28": [
  "partial",
  "Over exact real arithmetic (stdlib reals, Coquelicot is_derive): for every expression DAG of regular operations and every point of the domain, x.grad[i] is the partial derivative of the sum of y (also weighted by y.grad, also for arrays that are not constants). Not covered: broadcast_to an array's own shape (refuted: wrong shape and value), empty slices with step > 1, floating-point rounding."
 ],
 "C29": [
  "proved",
  "Order, exactly-once and final-gradient facts for every successful call; the call returns for regular operations."
 ],
 "C30": [
  "partial",
  "All regular operations; refuted for broadcast_to an array's own shape."
 ],
 "C31": [
  "partial",
  "False as stated (refuted: y=-(-x) twice gives 3 times). Exact behaviour proved: C31_one_call_partial (any gradients left over anywhere: x.grad becomes the derivative of the sum over all arrays n of <n.grad, n>), C31_exact_partial (k calls in a row), C31_leftovers_partial (a call adds the right amount iff the leftover gradients strictly between y and x contribute 0), C31_direct_partial (k calls give k times the derivative when no array lies between y and x), C31_accumulates_partial (or when the gradients of operation results are dropped between the calls). Missing: programs outside [regular]/[smooth], as in C28."
 ],
 "C32": [
  "proved",
  "Every successful backward(), every element arithmetic: existing arrays keep node, shape and contents; arrays are only appended. Buffers are untouched because backward() only builds graph nodes (no materialisation)."
 ],
 "C38": [
  "partial",
  "For every expression over float64 arrays (with or without padding), or int64 arrays with + - * -x sum pad dilate, both processes' lists agree element by element; generic theorem for any element relation preserved by each operation. Assumes no cache-key collision (C11), fewer than 2^31 elements and, in the generic form, one dtype. Refuted in general: int / int, division by zero, negated padding. C38_c_cuda_partial: C and CUDA give the same list; C38_python_cuda_*: Python and CUDA."
 ],
 "C37": [
  "proved",
  "Operator theorem on [0,2^31) plus a lockstep machine executing Python and C arithmetic of every kernel side by side: it never faults, so every index, address and condition is the same integer below 2^31 in both."
 ],
 "C39": [
  "proved",
  "For every kernel of every array and every schedule obtained by splitting spatial loops (any nesting, any factors), reordering loops of one kind and annotating - in particular the automatic schedules - all declared names and parameters are pairwise distinct strings; read off the C/CUDA text (all declarations distinct) and the Python text (loop variables and parameters distinct and never assigned); no name is a keyword, used library word or the kernel name. Splitting a reduction loop by hand declares its variable twice (C39_split_reduction_refuted; also C10)."
 ],
 "C40": [
  "proved",
  "Every text any of the three generators emits, for any Func and schedule, is read by an independent lexer/parser of the used fragments of Python and C (precedence, comparison chaining, indentation, blocks, pragmas) as exactly the intended statement trees, and in only one way. The string-level generator (Text.v) follows codegen.py/langspec.py line by line; the intended tree is that of the kernel that all other theorems are about."
 ],
 "C43": [
  "proved",
  "For every Func, schedule and backend, at the level of the emitted text."
 ],
 "C41": [
  "partial",
  "Allocation, freeing, use-after-free, address reuse and leaks: proved for every history (only what follows undefined behaviour inside a kernel is left open). Values (initialised inputs, tolist()): proved for histories in which an array whose materialize() failed half-way is not read before it is materialized successfully (C41_read_after_failure_refuted shows that otherwise garbage is read and stays cached), with the cache and size/dtype conditions of C01; C41_failures: no undefined behaviour under those conditions; C41_succeeds: a successful run exists from every such history. Model: Device.v (driver may fail any allocation, fresh memory has arbitrary contents, any interleaving of GPU threads). C41_tidy_*: no key hypothesis. C41_tolist_digest_partial: also for the cache as it is (indexed by a digest of the key text), if the digest does not collide."
 ],
 "C44": [
  "proved",
  "For any CPU backend record (any arithmetic), any state, any expression: C44_no_recompile has no side condition beyond the first success and the absence of resets. C44_fragment/C44_loop: program fragments of API and materialize() calls run again with other data. Copies are defined in Copy.v. On CUDA too, also after interrupted and failed materialize() calls and after arrays died."
 ],
 "C45": [
  "proved",
  "Python, C and CUDA. C45_generated_source: all kernels of an array in conversion order, automatic schedules, any thread order of CUDA (threads one after the other; interleavings are C07). Semantics of source text in SrcSem.v (scopes, declared types, 32/64-bit ints, short circuit, return), independent of the generator; #pragma lines ignored there (threads: C06). Hypotheses: mat_ok (as C01), no raising element, C/CUDA literals below 2^31. C45_scheduled_source_partial: with a legal user schedule (restrictions of C10)."
 ],
 "C46": [
  "partial",
  "Proved for Clang and CUDA for every session (C46_c_generator_reusable). Python: proved as long as no call raised; what is missing is false (C46_python_generator_reusable_refuted): after a call rejected for an unsupported annotation the indentation is never reset, and every later text is an unexpected indent. The generator object, with its state surviving exceptions, is modelled in Generator.v and related to the pure generator of Text.v."
 ],
 "C47": [
  "partial",
  "Reads and user data survive every history (proved without conditions). After materialize.reset() in any process history materialize() computes what the current backend computes (C47_value_after_reset_partial, C47_succeeds_after_reset_partial); missing: key_safe (no cache collision, C11) and, in C, mat_ok as in C01. What is false: backend.reset() alone leaves the other backend's kernels in the cache, and materializing the same expression again on Python raises (C47_stale_refuted); an int64 array whose list holds floats (int / int in Python) cannot be computed again on Clang (C47_float_refuted). Running a stale Python kernel from the Clang executor is an arbitrary function (mixed). Changes to and from CUDA (PropDevReset.v): user data and every array that has been read survive (proved); from any CUDA history to a CPU backend materialize() succeeds and gives that backend's values (C47_cuda_to_cpu_*_partial); to CUDA, if every computed list is right (C47_to_cuda_value_partial); a new CUDA context is fine before anything was computed (C47_cuda_new_context_partial). False: results computed on the GPU but not read are lost (C47_cuda_results_lost_refuted), old addresses may belong to new arrays (C47_cuda_alias_refuted), a wrong list is shown for ever (C47_to_cuda_stale_list_refuted). Not covered: launching cached functions of a destroyed context; several CUDA contexts after computing."
 ],
 "C48": [
  "partial",
  "Exactly characterised: the gradient of x compiles on every backend if and only if no scalar operand lies on a path from y to x whose gradient the rules of sum, reshape or broadcast_to reshape to () (C48_gradient_compiles, C48_gradient_unusable: then nothing computed from it can ever be materialized). C48_gradient_shown_partial carries a running process from the forward program through backward() to the numbers shown, and these are the derivative over the reals. On CUDA: C48_backward_is_a_history_cuda (backward() uses only living arrays and touches neither device memory nor the kernel cache; the gradients it leaves are alive), C48_gradient_unusable_cuda (the TypeError case, exactly) and C48_gradient_shown_cuda_partial (materialize() of the gradient can succeed when the driver has memory, and after any success tolist() shows the gradient). Missing there, as in C01: key_safe, mat_ok in C, reshapes at offset 0, and regular operations as in C28. What is false: x / x.sum() (C48_normalised_refuted, TypeError), a gradient that is a reshape of an offset slice shows wrong numbers (C48_offset_refuted)."
 ],
 "C49": [
  "partial",
  "Python (C49_python: every expression, any libm with a stated accuracy; C49_python_succeeds: defined bounds imply that materialize succeeds) and C with the restrictions of C01 (C49_c_partial: sizes below 2^31, one dtype per expression). C49_operation, C49_binary_operation: the single operations of both languages are correctly rounded. C49_integers_python: integer expressions are exact at any size; C49_integers_c_partial: while nothing overflows int64. C49_sum_accuracy_python/_c: the textbook bound of recursive summation. C49_cuda_partial, C49_integers_cuda_partial: the same for what is read from a CUDA buffer. C49_float_to_int, C49_int_to_float: C's conversions. Powers: positive bases, or exactly a natural number as exponent. C49_library_nonvacuous: a correctly rounding library meets the assumption on the math library. Missing: integer division and powers of integers in C have no bound; the accuracy of sin, cos, exp, log, pow is a parameter (libm_within), not proved of any C library."
 ],
 "C50": [
  "partial",
  "The end-to-end combination of C28 (derivative), C48 (gradients can be read) and C49 (rounding): C50_python_partial, C50_c_partial, C50_cuda_partial (after any successful materialize() of the gradient on the GPU and any later events). Inherited restrictions: the program is regular (no broadcast_to of an array to its own shape), no scalar operand on the path (C48), no cache-key collision (key_safe), the gradient array is not a reshape of an offset view (view_of), for C sizes below 2^31 and one dtype; the bounds must be defined for every intermediate result (no possible overflow, division by zero, ...)."
 ],
 "C51": [
  "partial",
  "C51_exceptions: for any arguments, the exceptions each call can raise and when; C51_rejects: the rules that are enforced; C51_unchanged: a failed call changes nothing; C51_accepted_partial: whatever is accepted is sound for all calls whose arguments the code checks completely, and for full, broadcast_to, reshape, pad, dilate and array under the conditions the code leaves unchecked. FINDINGS: C51_broadcast_refuted (broadcast_to validates nothing), C51_sizes_refuted (zero/negative dilate steps, negative extents), C24/C25_negative_dim_refuted, C22_mixed_depth_refuted."
 ],
 "C52": [
  "partial",
  "REFUTED. C52_key_refuted: after n+1 calls y = y + y the key of one kernel holds at least 2^n tuples (shared producers are expanded at each reference). C52_text_refuted: n reshapes followed by a negation compile, on every backend, to a kernel text of at least 2^n - 1 characters (each reshape uses the index expression twice). The positive part, that every elementwise operation of the program occurs exactly once in the compiled kernels, is C53."
 ],
 "C53": [
  "proved",
  "C53_once: the multiset of element operations in all kernels equals the multiset of operations of the API calls in the cone of the array; C53_sums: sums are outermost and have their own kernels. This counts operations in the compiled code; a fused operand under a broadcast and a sum is evaluated once per summed element at run time."
 ],
 "C54": [
  "partial",
  "C54_limit_only_raises, C54_materialize, C54_backward: with a recursion limit (Stack.v: frames of the recursive functions of convert(), materialize() on views and the search of backward()) the outcome is either RecursionError or exactly the outcome without a limit; every array has a sufficient limit; materialize() then leaves the process unchanged, backward() only y.grad. The claim that any depth works is false for every limit (C54_depth_refuted). Cache keys and code generation: C54_key_limit_only_raises, C54_codegen_limit_only_raises (RecursionError or the unlimited outcome; exactly `frames` frames are needed), C54_c_generator_survives (on C backends calls out of frames do not disturb later ones); on Python they do: C54_python_generator_refuted (after a RecursionError in codegen() no later text is a program, and for every n a chain of n reshapes fails there with frames that suffice for conversion and key). C54_materialize_all_phases: the whole of materialize() with a limit gives RecursionError or exactly the unlimited outcome, and a limit depending on the array only always suffices; (on Python: if the generator is not already ruined); C54_python_compiles_nothing: once ruined, no materialize() compiles a kernel again; C54_clang_recovers_partial: on Clang a RecursionError anywhere in it leaves a state from which the same call, with enough frames, gives the right list (conditions as in C01). C54_materialize_cuda: the same on CUDA as sets of executions (a limited call that is not stopped is an unlimited one; no execution is lost but to RecursionError; a limit depending on the array only loses none, whatever the driver does); C54_cuda_recovers_partial: there too a RecursionError leaves a state that C59 covers, and a later call that succeeds gives the right list. C54_cuda_reads_partial: and no array whose tolist() would show uncomputed device memory (as an exception from outside can, C59_cuda_read_refuted). Not limited in the model: compilers."
 ],
 "C55": [
  "partial",
  "Which calls raise what, exactly, on any schedule (C55_exceptions); every call that raises leaves the schedule as it was except split() of a variable that is not a loop (C55_unchanged_partial); after any session the schedule is that of the calls that returned iff no such split occurred (C55_session), and then C10 holds (C55_kernel_partial). FINDING (C55_failed_split_refuted): split() records the split before it looks the loop up; after a caught RuntimeError the kernel silently skips elements or writes out of range."
 ],
 "C56": [
  "partial",
  "C56_print: in every CPU history every array prints, as its list exactly if tolist() returns one, else as the summary; C56_text_determines_list; C56_debug_same: materialize() with WHALE_DEBUG=1 has the same effect and exception in every CPU history ; on CUDA, after any history (failed and interrupted calls included, no condition on the cache keys): C56_cuda_print, and C56_cuda_debug_same (the executions with WHALE_DEBUG=1 and without reach the same states with the same results). Partial because the property as listed also bounds the output and covers unchecked calls: REFUTED parts: C56_output_refuted (debug output exponential in the number of calls), C56_unchecked_refuted (after an unchecked broadcast_to, str raises IndexError, and materialize() raises only with WHALE_DEBUG=1)."
 ],
 "C57": [
  "partial",
  "C57_clang_accepts_iff: exact condition, for every reachable schedule, under which the text satisfies the OpenMP / clang loop-directive rules of Pragma.v; C57_auto_accepted: always for automatic schedules; C57_parallel_schedule_partial: legal schedules (C10) without tail guards, any dealing of the single iterations to threads, any interleaving, same memory as the automatic schedule. REFUTED parts: C57_guarded_parallel_refuted (tail guard + parallel: accepted by every call, right sequentially, rejected by the compiler), C57_unroll_refuted (unroll factor <= 0)."
 ],
 "C58": [
  "partial",
  "C58_gpu_schedule_partial: legal calls (those of C10, with block/thread/unroll annotations), any split factors and loop orders; no coordinate used twice, no reduction loop on a coordinate, both halves of a guarded split on coordinates; each output position written exactly once, every interleaving race-free and equal to the CPU result. C58_gpu_calls_succeed: calls and code generation never fail. The driver's limits are those of C07. REFUTED parts: C58_shared_coordinate_refuted (accepted by every call; out-of-bounds write or missing elements), C58_sequential_guard_refuted (missing elements), C58_gpu_reduction_refuted (data race on the output)."
 ],
 "C59": [
  "partial",
  "C59_retry_partial, C59_as_uninterrupted_partial: any number of interruptions at any point (on Python: outside codegen(), whose generator may then be unusable, C46/C54), CPU backends: later results right, equal to an uninterrupted process, and kept through further interruptions; conditions on keys and sizes as in C01 (none in C59_retry_plain_python). C59_user_data, C59_others_kept: no condition. C59_files_left: the temporary files left are exactly those of compilations failing in the compiler, in loading or in the removal. REFUTED parts: C59_unfinished_is_unreadable_refuted (tolist() of the interrupted array silently shows computed elements and zeros), C59_temporary_files_refuted (each failed compilation leaves a file). CUDA: C59_cuda_retry_partial, C59_cuda_retry_succeeds, C59_cuda_failures (gmat_ok and key_safe as in C41; tolist() only on computed buffers), C59_cuda_user_data, C59_cuda_others_kept, C59_cuda_buffers (no condition: device memory is still allocated, freed and used correctly); REFUTED: C59_cuda_read_refuted (tolist() after an interruption shows uninitialised device memory, and keeps showing it after a successful retry)."
 ],
 "C60": [
  "partial",
  "C60_any_schedule: for every backend and every schedule the exact number of nested loops of the text, and a bound on its nested blocks. C60_python_exact, C60_python_compiles: for any limits of the Python compiler, an array whose cone has rank + number of summed axes within the block limit everywhere, and few enough pad()/dilate() calls for the indentation limit, gives texts that Python accepts. C60_python_rejects, C60_rank_refuted, C60_keepdims_refuted: whatever the limit, beyond it the call is accepted and the text is not Python (finding 22). That Python has these two limits is part of the specification (python_accepts). Not covered: limits of clang (bracket depth 256) and nvcc."
 ]
}