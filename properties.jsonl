{"id": "C01", "title": "materialize computes the mathematical value", "statement": "For every array expression built with the public API (creation, unary/binary arithmetic, sum, transpose, broadcast, slicing, reshape, contiguous, pad, dilate; arbitrary sharing of sub-expressions), after x.materialize() succeeds, x.tolist() is exactly the nested list obtained by evaluating the expression element by element (sum being the left-to-right fold from 0 over the reduced axes in row-major order).", "quantifier": "every expression DAG of any size and depth, every shape, every element value, every arithmetic (int, float, real)", "why_tests_cant": "the set of DAGs, shapes and fusion patterns is infinite; tests sample about a hundred small graphs", "anchors": ["materialize.py:Materializer.materialize", "algo.py:convert", "codegen.py:HighLevelLangCodeGenerator", "ndarray.py:ndarray"]}
{"id": "C02", "title": "generated kernels never access memory out of bounds", "statement": "No kernel produced for any array expression ever indexes a buffer argument or the output outside [0, length) (not even at a negative Python index), nor reads a variable or argument that is not defined.", "quantifier": "every expression DAG, every kernel produced for it and every iteration of every loop of that kernel", "why_tests_cant": "an out-of-range access depends on the whole shape/stride/slice history; Python's negative indexing hides some of them silently", "anchors": ["codegen.py:render_buffer", "codegen.py:render_func", "codegen.py:arr_idx_calc_expr", "algo.py:convert"]}
{"id": "C03", "title": "fusion is transparent", "statement": "Fusing producers into consumers never changes a value: an array has the same elements whether an intermediate is inlined into its consumer, or computed by a kernel of its own because it is shared or contains a reduction.", "quantifier": "every expression DAG and every pattern of sharing", "why_tests_cant": "fusion decisions depend on reference counts and on the mutation order of shared Func objects", "anchors": ["algo.py:try_fuse", "algo.py:replace_index", "algo.py:count_refs", "algo.py:has_reduce"]}
{"id": "C04", "title": "compilation never fails on a valid expression", "statement": "Converting a valid array expression to kernels terminates and raises no error (no missing loop variable when fusing, no missing kernel argument, no unbounded recursion).", "quantifier": "every valid expression DAG", "why_tests_cant": "termination and absence of KeyError/AssertionError on all graphs cannot be sampled", "anchors": ["algo.py:convert", "algo.py:replace_index", "codegen.py:render_buffer", "codegen.py:render_func"]}
{"id": "C05", "title": "kernels run in dependency order, each exactly once", "statement": "During one materialize() each intermediate array that needs its own kernel is computed exactly once, and strictly before any kernel that reads it; the requested array is computed last.", "quantifier": "every expression DAG", "why_tests_cant": "the order comes from a DFS over a graph mutated by fusion; all graph shapes must be covered", "anchors": ["algo.py:convert (dfs)", "algo.py:Func.dependent_funcs", "materialize.py:Materializer.materialize"]}
{"id": "C06", "title": "iterations may run in any order or in parallel", "statement": "The outermost loop of a CPU kernel is marked parallel: executing the iterations of a kernel in any order, or interleaved by any number of threads, leaves the same output buffer as the sequential order.", "quantifier": "every kernel, every permutation of its iterations and every interleaving of the threads that run them", "why_tests_cant": "schedules are nondeterministic; a race shows up only in some interleavings", "anchors": ["sched.py:AutoScheduler.schedule_cpu", "backend_clang.py:ClangLangSpec.parallel_loop_start", "codegen.py:render_loop"]}
{"id": "C07", "title": "GPU launch covers every element exactly once", "statement": "For every output shape, the grid/block launch chosen by the GPU scheduler together with the generated index reconstruction and tail guard makes exactly one thread write each output element, and no thread writes outside the output.", "quantifier": "every output shape of any rank and every extent (multiple of the block size or not)", "why_tests_cant": "tail handling depends on the extent modulo 256 and on the rank; no GPU is available in tests by default", "anchors": ["sched.py:AutoScheduler.schedule_gpu", "sched.py:SchedulerFunc.split", "backend.py:GPUBackend.invoke_kernel", "codegen.py:codegen"]}
{"id": "C08", "title": "loop splitting preserves the iteration space", "statement": "Splitting a loop of extent n by a factor f yields an outer and an inner loop such that outer*f+inner, filtered by the tail guard, runs through 0..n-1 exactly once and in increasing order; the guard is emitted exactly when some iteration overshoots.", "quantifier": "every extent and every positive factor", "why_tests_cant": "boundary behaviour for every residue of n modulo f", "anchors": ["sched.py:SchedulerFunc.split", "codegen.py:codegen"]}
{"id": "C09", "title": "loop reordering is a permutation", "statement": "reorder(l1..lk) on distinct loops of the schedule permutes exactly those loops (first argument innermost) and leaves all others in place; it never drops or duplicates a loop.", "quantifier": "every loop nest and every list of distinct loops", "why_tests_cant": "all permutations of all nests", "anchors": ["sched.py:SchedulerFunc.reorder", "sched.py:SchedulerFunc._index"]}
{"id": "C10", "title": "a user schedule with split and tail guard computes the same array", "statement": "A kernel generated from any schedule obtained by split/reorder computes the same output as the unscheduled kernel.", "quantifier": "every sequence of split/reorder calls on every loop nest", "why_tests_cant": "interaction of tail guards with surrounding loops and of nested splits", "anchors": ["sched.py:SchedulerFunc", "codegen.py:codegen (splits, tail guard)"]}
{"id": "C11", "title": "the kernel cache never changes a result", "statement": "Reusing a cached kernel gives the same result as compiling the kernel afresh: whenever two kernels get the same cache key, they are the same program taking the same arguments in the same order.", "quantifier": "every pair of array expressions materialized in one process", "why_tests_cant": "key collisions need a particular pair of expressions among infinitely many", "anchors": ["materialize.py:Materializer.func_cache_key", "kernel.py:KernelCache"]}
{"id": "C12", "title": "results do not depend on history", "statement": "In any sequence of array constructions, materialize() and tolist() calls, what tolist() returns for an array is determined by the expression that built the array alone; earlier or later materializations of other (possibly overlapping) expressions do not change it.", "quantifier": "every finite sequence of API calls", "why_tests_cant": "histories are unbounded; shared buffers and a process-wide cache couple the calls", "anchors": ["materialize.py:Materializer", "ndarray.py:ndarray.tolist", "buffer.py:Buffer"]}
{"id": "C13", "title": "materialize never modifies user data", "statement": "materialize() writes only the output buffers of the arrays it computes; constant arrays and arrays that are not part of the expression keep their contents.", "quantifier": "every state and every materialize() call", "why_tests_cant": "a frame condition over all other arrays in the process", "anchors": ["backend.py:CPUBackend.invoke_kernel", "materialize.py:Materializer.materialize"]}
{"id": "C14", "title": "materialize is idempotent", "statement": "Calling x.materialize() again leaves x and every other array's observable value unchanged.", "quantifier": "every state reachable by any call sequence", "why_tests_cant": "needs all states", "anchors": ["materialize.py:Materializer.materialize"]}
{"id": "C15", "title": "tolist on chained views reads the right elements", "statement": "For every chain of transpose, slicing/indexing, broadcast (and reshape) views over an array whose buffer is filled, tolist() of the view is the nested list of the logical elements of the view.", "quantifier": "every chain of views of every length over every shape", "why_tests_cant": "offset/stride composition over unbounded chains", "anchors": ["ndarray.py:Func._slice_forward", "ndarray.py:Func._transpose_forward", "ndarray.py:Func._broadcast_forward", "ndarray.py:Func._reshape_forward", "ndarray.py:ndarray._to_ndlist", "ndarray.py:ndarray.base"]}
{"id": "C16", "title": "reshape keeps the row-major element sequence", "statement": "x.reshape(s) is accepted exactly when the element counts agree, and its elements in row-major order are those of x in row-major order, also when x is a non-contiguous or offset view.", "quantifier": "every array (view or not) and every target shape", "why_tests_cant": "all shape pairs and all view histories of the input", "anchors": ["ndarray.py:ndarray.reshape", "ndarray.py:Func._reshape_forward", "ndarray.py:ndarray.is_contiguous"]}
{"id": "C17", "title": "slicing agrees with Python slicing", "statement": "a[start:stop:step] selects along each axis exactly the positions Python's own slicing selects (None defaults, negative start/stop counted from the end, clamping), and a step <= 0 is rejected.", "quantifier": "every axis length and every start, stop and positive step, including None, negative and out of range", "why_tests_cant": "all combinations of signs and clamping boundaries", "anchors": ["ndarray.py:ndarray.__getitem__", "ndarray.py:Func._slice_forward"]}
{"id": "C18", "title": "integer indexing", "statement": "An integer index i on an axis of size n is accepted iff -n <= i < n, then removes the axis and selects element i (or n+i); anything else raises and creates no array. More indices than axes raises.", "quantifier": "every shape and every tuple of indices", "why_tests_cant": "boundaries for every n", "anchors": ["ndarray.py:ndarray.__getitem__"]}
{"id": "C19", "title": "broadcasting follows the NumPy rule", "statement": "A binary operation on shapes s and t succeeds iff, aligned from the right, each pair of extents is equal or one of them is 1; the result has the pairwise larger (non-1) extent, does not depend on operand order, and element idx uses index 0 on stretched axes.", "quantifier": "every pair of shapes of any ranks", "why_tests_cant": "all rank/extent combinations", "anchors": ["ndarray.py:ndarray.broadcasted", "ndarray.py:Func._broadcast_forward", "algo.py:convert"]}
{"id": "C20", "title": "transpose permutes and is inverted by the inverse permutation", "statement": "x.transpose(axes) is accepted iff axes is a permutation of the dimensions; element idx of the result is the element of x whose coordinate axes[k] is idx[k]; transposing back with the inverse permutation, or applying .T twice, gives x's elements back.", "quantifier": "every rank and every permutation", "why_tests_cant": "all permutations of all ranks", "anchors": ["ndarray.py:ndarray.transpose", "ndarray.py:ndarray.T", "util.py:argsort", "algo.py:convert"]}
{"id": "C21", "title": "array/tolist round trip", "statement": "array(v).tolist() == v for every rectangular nested list v, with shape equal to the list lengths; constructed arrays are row-major.", "quantifier": "every rectangular nested list of any depth", "why_tests_cant": "unbounded depth and sizes, zero-length axes", "anchors": ["ndarray.py:array", "ndarray.py:_const", "ndarray.py:ndarray._to_ndlist"]}
{"id": "C22", "title": "array rejects non-rectangular input", "statement": "array(v) raises for every nested list that is not rectangular and accepts every rectangular one.", "quantifier": "every nested list", "why_tests_cant": "infinitely many malformed shapes", "anchors": ["ndarray.py:array"]}
{"id": "C23", "title": "sum: axes, keepdims and value", "statement": "x.sum(axis, keepdims) reduces exactly the given axes (negative axes count from the end, None means all): shape drops them or keeps them as 1, and each element is the sum over all positions that agree on the other axes, each counted once.", "quantifier": "every shape, every set of axes (any order, duplicates, negative)", "why_tests_cant": "all axis subsets of all ranks", "anchors": ["ndarray.py:ndarray.__reduce", "ndarray.py:Func._reduce_forward", "algo.py:convert", "codegen.py:render_reduce"]}
{"id": "C24", "title": "pad semantics", "statement": "x.pad(dim, before, after) has extent before+n+after on dim; elements inside the window are x's, all others are zero; slicing the window out gives x back; pad(dim,0,0) is x.", "quantifier": "every shape, dimension and non-negative widths", "why_tests_cant": "all boundaries", "anchors": ["ndarray.py:ndarray.pad", "ndarray.py:Func._pad_forward", "algo.py:convert"]}
{"id": "C25", "title": "dilate semantics", "statement": "x.dilate(dim, step) has extent (n-1)*step+1 on dim; positions divisible by step hold x's elements, all others zero; slicing with the same step gives x back; step 1 is x.", "quantifier": "every shape, dimension and positive step", "why_tests_cant": "all residues", "anchors": ["ndarray.py:ndarray.dilate", "ndarray.py:Func._dilate_forward", "algo.py:convert"]}
{"id": "C26", "title": "contiguous", "statement": "x.contiguous() has x's shape and elements and row-major strides; it is x itself when x already has row-major strides.", "quantifier": "every array and view", "why_tests_cant": "all view histories", "anchors": ["ndarray.py:ndarray.contiguous", "ndarray.py:ndarray.is_contiguous", "ndarray.py:Func._contiguous_forward"]}
{"id": "C27", "title": "dtype of results and of *_like factories", "statement": "dtype is int64 for integer data and float64 for float data and is preserved by every operation; ones_like/zeros_like/full_like produce arrays with the dtype of their model.", "quantifier": "every array", "why_tests_cant": "all construction paths", "anchors": ["ndarray.py:_const", "ndarray.py:ones_like", "ndarray.py:zeros_like", "ndarray.py:Func._elemwise_forward"]}
{"id": "C28", "title": "backward computes the gradient", "statement": "After y.backward() on a graph without earlier gradients, for every constant array x that y depends on, x.grad has x's shape and x.grad[idx] is the partial derivative of the sum of y's elements with respect to x[idx].", "quantifier": "every differentiable expression DAG, every sharing pattern, every point of the domain", "why_tests_cant": "the chain rule over unbounded DAGs with shared nodes and broadcast/slice/pad/sum views", "anchors": ["ndarray.py:ndarray.backward", "ndarray.py:Func.backward", "ndarray.py:Func._*_backward"]}
{"id": "C29", "title": "backward visits each operation once, outputs before inputs", "statement": "backward() runs the backward rule of every operation that y depends on exactly once, and only after all contributions to that operation's output gradient have been added.", "quantifier": "every expression DAG", "why_tests_cant": "all sharing patterns", "anchors": ["ndarray.py:ndarray.backward"]}
{"id": "C30", "title": "gradients have the shape of their array", "statement": "For every array x reached by backward(), x.grad.shape == x.shape.", "quantifier": "every expression DAG", "why_tests_cant": "all ops and broadcast patterns", "anchors": ["ndarray.py:Func._broadcast_backward", "ndarray.py:Func._sum_backward", "ndarray.py:Func._slice_backward"]}
{"id": "C31", "title": "repeated backward accumulates linearly", "statement": "Calling y.backward() k times leaves k times the gradient in every constant array.", "quantifier": "every expression DAG and every k", "why_tests_cant": "all depths", "anchors": ["ndarray.py:ndarray.backward"]}
{"id": "C32", "title": "backward does not change forward values", "statement": "backward() creates new arrays only: no existing array's shape, expression or buffer changes.", "quantifier": "every state", "why_tests_cant": "frame condition over all arrays", "anchors": ["ndarray.py:ndarray.backward"]}
{"id": "C33", "title": "array operations are lazy and pure", "statement": "Every operation except materialize/tolist/backward only creates a new array: it reads no buffer, changes no existing array, runs no kernel; a rejected call (exception) creates nothing.", "quantifier": "every operation in every state", "why_tests_cant": "frame condition over all states", "anchors": ["ndarray.py:ndarray", "ndarray.py:Func.forward"]}
{"id": "C34", "title": "views of constants need no kernel", "statement": "Materializing a constant, or any chain of reshape/transpose/slice/broadcast views of a constant in which no copy was forced, runs and compiles no kernel.", "quantifier": "every chain of views", "why_tests_cant": "unbounded chains", "anchors": ["materialize.py:Materializer.materialize", "ops.py:Ops.is_view"]}
{"id": "C35", "title": "a chain of elementwise operations is one kernel", "statement": "An expression in which no computed intermediate is shared and no reduction feeds another operation is computed by exactly one kernel, whatever its size; in general the number of kernels is at most one plus the number of shared intermediates and reductions.", "quantifier": "every expression DAG", "why_tests_cant": "unbounded expression sizes", "anchors": ["algo.py:convert"]}
{"id": "C36", "title": "tolist never shows values that were not computed", "statement": "tolist() on an array that was never successfully materialized raises; it never returns placeholder or partially computed data.", "quantifier": "every call history, including materialize() calls that raised midway", "why_tests_cant": "needs all histories including failing kernels", "anchors": ["ndarray.py:ndarray.tolist", "backend.py:CPUBackend.invoke_kernel"]}
{"id": "C37", "title": "integer index arithmetic agrees in Python and C", "statement": "If every array has fewer than 2^31 elements, every index computed in a C/CUDA kernel stays in [0, 2^31), so 32-bit int loop variables do not overflow and C's truncating / and % agree with Python's // and %.", "quantifier": "every expression DAG whose arrays have fewer than 2^31 elements and every iteration", "why_tests_cant": "overflow needs huge arrays; sign issues need all index expressions", "anchors": ["langspec.py:CCompatibleLangSpec", "algo.py:convert", "codegen.py:arr_idx_calc_expr"]}
{"id": "C38", "title": "all backends compute the same values", "statement": "The Python and C backends give the same elements for every expression whose element operations agree in both languages.", "quantifier": "every expression DAG", "why_tests_cant": "all expressions and dtypes", "anchors": ["backend_python.py:PythonLangSpec", "langspec.py:CCompatibleLangSpec", "backend_clang.py:ClangExecutor"]}
{"id": "C39", "title": "generated names never clash", "statement": "In every kernel, the generated names of the output, arguments, loop variables, reduction variables, split variables, accumulator and temporaries are pairwise distinct as strings, so no variable captures another.", "quantifier": "every kernel with any number of loops, arguments and temporaries", "why_tests_cant": "unbounded numbers of loops and temporaries", "anchors": ["algo.py:convert (loopvar_name)", "codegen.py:tmpvar", "codegen.py:codegen", "sched.py:SchedulerFunc.split"]}
{"id": "C40", "title": "emitted source text means what was intended", "statement": "Operator precedence never regroups emitted code: each source line parses, with the precedence rules of Python and C, back to exactly the operation tree the generator meant, although no parentheses are emitted around +,-,*,/,%.", "quantifier": "every kernel line generated for every expression", "why_tests_cant": "all operand combinations", "anchors": ["langspec.py:CCompatibleLangSpec", "backend_python.py:PythonLangSpec", "codegen.py"]}
{"id": "C41", "title": "device buffers are coherent and freed once", "statement": "On a GPU backend, in every history of materialize/tolist calls and array deaths, a buffer is allocated at most once and freed at most once and only after allocation, kernels get initialized device memory for every input, and tolist() returns the computed values.", "quantifier": "every history", "why_tests_cant": "unbounded histories of host/device copies", "anchors": ["backend.py:GPUBackend.invoke_kernel", "buffer.py:DevBuff", "ndarray.py:ndarray.tolist"]}
{"id": "C42", "title": "array extents are never negative", "statement": "Every array that the API returns has only non-negative extents, strides consistent with its buffer, and a buffer length equal to the product of its shape.", "quantifier": "every array reachable by any call sequence", "why_tests_cant": "all operations and argument values", "anchors": ["ndarray.py:Func._dilate_forward", "ndarray.py:Func._pad_forward", "node.py:Node"]}
{"id": "C43", "title": "loop annotations a backend lacks are rejected", "statement": "Code generation for a schedule whose loop annotation the backend's language cannot express (parallel/vectorize on CUDA, block/thread on a CPU backend) raises instead of emitting a kernel with other semantics; expressible annotations never cause a failure; the automatic schedules use only expressible ones.", "quantifier": "every Func, schedule and backend", "why_tests_cant": "unbounded loops and annotations", "anchors": ["backend_python.py:PythonLangSpec", "backend_clang.py:ClangLangSpec", "backend_cuda.py:CUDALangSpec", "codegen.py:render_loop"]}
{"id": "C44", "title": "a repeated computation is compiled once", "statement": "After x.materialize() has succeeded, materializing x again, or any array that is the same expression on other arrays of the same shapes, strides and dtypes and with other constants, compiles no kernel, in any later state without a cache reset; so a loop compiles only in its first iteration, and the cache never holds two kernels for one key.", "quantifier": "every expression, every later history, every number of loop iterations", "why_tests_cant": "unbounded histories and iterations; every expression", "anchors": ["materialize.py:func_cache_key", "kernel.py", "materialize.py:materialize"]}
{"id": "C45", "title": "the emitted source text computes the array", "statement": "The source texts emitted for the kernels of an array, read and executed by the rules of their language (C, CUDA or Python) in the order of the conversion, run to their end and leave exactly the elements of the array in its output buffer, whatever the order of the CUDA threads, and change no other memory.", "quantifier": "every array of every program, each backend, every memory, every thread order", "why_tests_cant": "every emitted program; the meaning of text, not of the generator's intermediate forms", "anchors": ["codegen.py", "langspec.py:CCompatibleLangSpec", "backend_python.py:PythonLangSpec", "backend_clang.py:ClangLangSpec", "backend_cuda.py:CUDALangSpec"]}
{"id": "C46", "title": "the code generator is reusable", "statement": "One code generator object serves all codegen() calls of a backend. Whatever calls it answered or rejected before, each call raises exactly when a fresh generator would, with the same exception, and otherwise returns a source text that is read, in one way only, as the program of the requested kernel.", "quantifier": "every sequence of codegen() calls, accepted or rejected, each backend", "why_tests_cant": "unbounded call sequences with failures at any point", "anchors": ["codegen.py:HighLevelLangCodeGenerator", "codegen.py:codegen", "backend.py:Backend.codegen", "langspec.py:indent_str"]}
{"id": "C47", "title": "the backend can be changed while running", "statement": "After backend.reset() and materialize.reset(), in any process history with any number of backend changes, every array still reads the same numbers, constants are untouched, and materialize()/tolist() give what the current backend computes for the expression; arrays materialized before can be materialized again.", "quantifier": "every history of API calls, materialize() calls, cache resets and backend changes (Python, Clang; and to, from and between CUDA contexts)", "why_tests_cant": "unbounded histories interleaving two backends that share arrays and the kernel cache", "anchors": ["backend.py:reset", "backend.py:detect", "backend_cuda.py:CUDA", "buffer.py:Buffer", "materialize.py:reset", "materialize.py:Materializer.materialize", "kernel.py:KernelCache", "backend_python.py:PythonExecutor", "backend_clang.py:ClangExecutor"]}
{"id": "C48", "title": "gradients can be computed and read", "statement": "After y.backward(), in any process where y itself can be computed, the gradient of every array y depends on can be materialized and read like any other array: it compiles on every backend and tolist() shows the elements of the gradient expression.", "quantifier": "every program, every pair of arrays y and x, every process history, every backend", "why_tests_cant": "unbounded expressions and histories; the failure depends on shapes far from the array that is read", "anchors": ["ndarray.py:ndarray.backward", "ndarray.py:Func._sum_backward", "ndarray.py:Func._broadcast_to_backward", "ndarray.py:Func._reshape_backward", "materialize.py:Materializer.materialize"]}
{"id": "C49", "title": "the numbers shown are the exact results up to rounding", "statement": "tolist() after materialize() shows, for every element: the exact integer for integer expressions, and otherwise a finite double whose distance from the exact real result of the expression is within the bound obtained by charging each operation one rounding (2^-53 of its result, plus 2^-1075 near zero) and propagating operand errors; + - * / sqrt on doubles are the exact result rounded once to the nearest double; a sum of n doubles is within ((1+2^-53)^(n-1)-1) times the sum of their absolute values. Where a result may overflow, a divisor may be zero or a root or logarithm may be out of its domain, nothing is claimed.", "quantifier": "every expression of every program, all element values, every process history, Python and C", "why_tests_cant": "all real inputs and all expression shapes; rounding errors depend on every intermediate value", "anchors": ["langspec.py:CCompatibleLangSpec", "backend_python.py:PythonLangSpec", "backend_clang.py:ClangLangSpec", "materialize.py:Materializer.materialize", "ndarray.py:ndarray.tolist", "algo.py"]}
{"id": "C50", "title": "the gradient shown is the derivative up to rounding", "statement": "After y.backward(), x.grad.materialize() and x.grad.tolist() show, element by element, a finite double (or exact integer) whose distance from the partial derivative of sum(y) with respect to that element of x is within the bound obtained by charging one rounding to each operation of the gradient expression and propagating operand errors.", "quantifier": "every program, every pair of arrays y and x, every point inside the domain, every process history, Python and C", "why_tests_cant": "derivatives over the reals and rounding of every intermediate result; unbounded expressions and histories", "anchors": ["ndarray.py:ndarray.backward", "ndarray.py:Func", "materialize.py:Materializer.materialize", "ndarray.py:ndarray.tolist", "langspec.py"]}
{"id": "C51", "title": "invalid arguments are rejected when the call is made", "statement": "An API call whose arguments break the call's rule (index or subscript out of range, shapes that do not broadcast, reshape to another size, axes that are no permutation, dim out of range, ...) raises the documented exception, changes nothing, and no call raises anything else; a call that is accepted returns an array all of whose elements lie inside the buffer they are read from.", "quantifier": "every reachable program state, every call, every argument value", "why_tests_cant": "arguments range over all integers and lists; the exceptions of all calls must be classified", "anchors": ["ndarray.py:ndarray.__getitem__", "ndarray.py:ndarray.broadcasted", "ndarray.py:ndarray.broadcast_to", "ndarray.py:ndarray.reshape", "ndarray.py:ndarray.transpose", "ndarray.py:ndarray.pad", "ndarray.py:ndarray.dilate", "ndarray.py:ndarray.__reduce", "ndarray.py:array"]}
{"id": "C52", "title": "compilation effort stays in proportion to the program", "statement": "The work and memory that materialize() spends before any kernel runs - the cache keys it builds and hashes, the source text it emits - is bounded by a polynomial in the number of API calls that built the array.", "quantifier": "every program, every backend", "why_tests_cant": "an asymptotic bound over all programs; small tests never show the growth", "anchors": ["materialize.py:func_cache_key", "algo.py:_fuse", "algo.py:arr_to_func", "codegen.py"]}
{"id": "C53", "title": "every operation is compiled exactly once", "statement": "The kernels compiled for an array contain, all together, each element operation of the API calls it depends on exactly once: fusion drops none, adds none and never compiles a shared result into two kernels; every sum gets a kernel of its own, in which it is the outermost operation.", "quantifier": "every array of every program", "why_tests_cant": "every sharing pattern of every expression graph; fusion rewrites kernels while they are being shared", "anchors": ["algo.py:convert", "algo.py:arr_to_func", "algo.py:count_refs", "algo.py:try_fuse"]}
{"id": "C54", "title": "expressions may be arbitrarily deep", "statement": "An expression of any depth can be materialized and differentiated; if Python's recursion limit gets in the way, the call raises RecursionError, the limit never changes a result, and a failed materialize() leaves the process unchanged.", "quantifier": "every expression, every recursion limit, every process state", "why_tests_cant": "the limit interacts with every recursive pass of the compiler and of backward(); tests use shallow expressions", "anchors": ["algo.py:convert", "algo.py:arr_to_func", "algo.py:count_refs", "algo.py:try_fuse", "materialize.py:Materializer.materialize", "ndarray.py:ndarray.backward"]}
{"id": "C55", "title": "a scheduling call that raises does not damage the schedule", "statement": "Each call on a user schedule (split, reorder, parallel, vectorize, unroll, tile, gpu_blocks, gpu_threads) either takes effect or raises the documented exception and leaves the schedule exactly as it was, so that a program that catches the exception and goes on gets the kernel of the calls that returned.", "quantifier": "every schedule, every sequence of calls with any arguments, with exceptions caught in between", "why_tests_cant": "failures at every point of every call sequence; the damage only shows in kernels generated later", "anchors": ["sched.py:SchedulerFunc.split", "sched.py:SchedulerFunc.reorder", "sched.py:SchedulerFunc.tile", "sched.py:SchedulerFunc._index", "codegen.py"]}
{"id": "C56", "title": "printing is safe, and debug mode changes nothing", "statement": "str(a) and repr(a) never raise: they show str(a.tolist()) if the array has data on the host and a one-line summary otherwise, without computing or copying anything; the shown text determines the list. With WHALE_DEBUG=1 materialize() has the same effects and the same exceptions as without, and prints output in proportion to the program.", "quantifier": "every array of every process history (failed calls included), every way of printing one element", "why_tests_cant": "every history and every view; output size is an asymptotic claim", "anchors": ["ndarray.py:ndarray.__str__", "ndarray.py:ndarray.__repr__", "debug.py:dbg_tree", "debug.py:dbg_schedule", "debug.py:dbg_kernel", "buffer.py:CPUBuff.__repr__", "materialize.py:Materializer.materialize"]}
{"id": "C57", "title": "annotated schedules compile and are free of races", "statement": "A schedule built by any accepted sequence of scheduling calls, with any loops annotated parallel, vectorize or unroll, gives C text whose loop directives the compiler accepts; and running the iterations of the scheduled loop nest on any number of threads, in any order, ends - without data races - in the memory that the automatic schedule produces.", "quantifier": "every kernel of every array, every sequence of scheduling calls, every assignment of iterations to threads, every interleaving", "why_tests_cant": "all interleavings of all nested parallel loops; a directive is only checked by the compiler on the text of one schedule at a time", "anchors": ["sched.py:SchedulerFunc", "backend_clang.py:ClangLangSpec", "codegen.py:Codegen", "backend_clang.py:ClangCompiler.compile"]}
{"id": "C58", "title": "user GPU schedules cover every element exactly once", "statement": "A schedule built by any accepted sequence of scheduling calls, with any loops mapped to block or thread coordinates of a GPU, launched with the extents that the backend computes from it, writes every output element exactly once, without data races, with the value that the automatic schedule computes.", "quantifier": "every kernel of every array, every sequence of scheduling calls, every interleaving of the GPU threads", "why_tests_cant": "all mappings of loops to coordinates, all extents and factors, all interleavings", "anchors": ["sched.py:SchedulerFunc.gpu_blocks", "sched.py:SchedulerFunc.gpu_threads", "backend.py:GPUBackend.execute", "backend_cuda.py:CUDALangSpec", "backend_cuda.py:CUDAExecutor.execute"]}
{"id": "C59", "title": "an interrupted materialize() can be retried", "statement": "If an exception from outside (the compiler is missing or fails, memory runs out, the user presses Ctrl-C) stops materialize() at any point, any number of times, then nothing the user stored and nothing computed earlier is lost, and calling materialize() again succeeds exactly when it would have in a process that was never interrupted, with the same result. The interrupted array cannot be read in between, and failed compilations leave no temporary files.", "quantifier": "every program, every history, every point at which the exception can occur, every backend, any number of interruptions", "why_tests_cant": "every crash point of every materialize() of every history", "anchors": ["materialize.py:Materializer.materialize", "backend.py:CPUBackend.invoke_kernel", "backend_clang.py:ClangCompiler.compile", "backend_clang.py:ClangExecutor.execute", "backend_python.py:PythonExecutor.execute", "backend_cuda.py:CUDACompiler.compile", "kernel.py:KernelCache"]}
{"id": "C60", "title": "generated kernels stay within the nesting limits of the language", "statement": "Every array that the API calls accept can be compiled on the Python backend whatever its rank: the text of each kernel nests for loops and blocks only as deeply as Python's own compiler accepts (its limits on statically nested blocks and on levels of indentation, whatever their values).", "quantifier": "every array of every program, every rank, every number of summed axes, pad() and dilate() calls", "why_tests_cant": "limits of the target compiler only show at ranks and nestings that no test reaches; the depth of a text depends on fusion", "anchors": ["codegen.py:Codegen.generate", "backend_python.py:PythonLangSpec", "algo.py:try_fuse", "backend_python.py:PythonCompiler.compile"]}
