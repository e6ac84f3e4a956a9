#!/usr/bin/env python3
# Source of properties.jsonl (kept as a script so that the list stays easy to edit).
import json
P=[]
def p(title, statement, quantifier, why, anchors):
    P.append(dict(id=f"C{len(P)+1:02d}", title=title, statement=statement, quantifier=quantifier, why_tests_cant=why, anchors=anchors))

p("materialize computes the mathematical value",
  "For every array expression built with the public API (creation, unary/binary arithmetic, sum, transpose, broadcast, slicing, reshape, contiguous, pad, dilate; arbitrary sharing of sub-expressions), after x.materialize() succeeds, x.tolist() is exactly the nested list obtained by evaluating the expression element by element (sum being the left-to-right fold from 0 over the reduced axes in row-major order).",
  "every expression DAG of any size and depth, every shape, every element value, every arithmetic (int, float, real)",
  "the set of DAGs, shapes and fusion patterns is infinite; tests sample about a hundred small graphs",
  ["materialize.py:Materializer.materialize","algo.py:convert","codegen.py:HighLevelLangCodeGenerator","ndarray.py:ndarray"])
p("generated kernels never access memory out of bounds",
  "No kernel produced for any array expression ever indexes a buffer argument or the output outside [0, length) (not even at a negative Python index), nor reads a variable or argument that is not defined.",
  "every expression DAG, every kernel produced for it and every iteration of every loop of that kernel",
  "an out-of-range access depends on the whole shape/stride/slice history; Python's negative indexing hides some of them silently",
  ["codegen.py:render_buffer","codegen.py:render_func","codegen.py:arr_idx_calc_expr","algo.py:convert"])
p("fusion is transparent",
  "Fusing producers into consumers never changes a value: an array has the same elements whether an intermediate is inlined into its consumer, or computed by a kernel of its own because it is shared or contains a reduction.",
  "every expression DAG and every pattern of sharing",
  "fusion decisions depend on reference counts and on the mutation order of shared Func objects",
  ["algo.py:try_fuse","algo.py:replace_index","algo.py:count_refs","algo.py:has_reduce"])
p("compilation never fails on a valid expression",
  "Converting a valid array expression to kernels terminates and raises no error (no missing loop variable when fusing, no missing kernel argument, no unbounded recursion).",
  "every valid expression DAG",
  "termination and absence of KeyError/AssertionError on all graphs cannot be sampled",
  ["algo.py:convert","algo.py:replace_index","codegen.py:render_buffer","codegen.py:render_func"])
p("kernels run in dependency order, each exactly once",
  "During one materialize() each intermediate array that needs its own kernel is computed exactly once, and strictly before any kernel that reads it; the requested array is computed last.",
  "every expression DAG",
  "the order comes from a DFS over a graph mutated by fusion; all graph shapes must be covered",
  ["algo.py:convert (dfs)","algo.py:Func.dependent_funcs","materialize.py:Materializer.materialize"])
p("iterations may run in any order or in parallel",
  "The outermost loop of a CPU kernel is marked parallel: executing the iterations of a kernel in any order, or interleaved by any number of threads, leaves the same output buffer as the sequential order.",
  "every kernel, every permutation of its iterations and every interleaving of the threads that run them",
  "schedules are nondeterministic; a race shows up only in some interleavings",
  ["sched.py:AutoScheduler.schedule_cpu","backend_clang.py:ClangLangSpec.parallel_loop_start","codegen.py:render_loop"])
p("GPU launch covers every element exactly once",
  "For every output shape, the grid/block launch chosen by the GPU scheduler together with the generated index reconstruction and tail guard makes exactly one thread write each output element, and no thread writes outside the output.",
  "every output shape of any rank and every extent (multiple of the block size or not)",
  "tail handling depends on the extent modulo 256 and on the rank; no GPU is available in tests by default",
  ["sched.py:AutoScheduler.schedule_gpu","sched.py:SchedulerFunc.split","backend.py:GPUBackend.invoke_kernel","codegen.py:codegen"])
p("loop splitting preserves the iteration space",
  "Splitting a loop of extent n by a factor f yields an outer and an inner loop such that outer*f+inner, filtered by the tail guard, runs through 0..n-1 exactly once and in increasing order; the guard is emitted exactly when some iteration overshoots.",
  "every extent and every positive factor",
  "boundary behaviour for every residue of n modulo f",
  ["sched.py:SchedulerFunc.split","codegen.py:codegen"])
p("loop reordering is a permutation",
  "reorder(l1..lk) on distinct loops of the schedule permutes exactly those loops (first argument innermost) and leaves all others in place; it never drops or duplicates a loop.",
  "every loop nest and every list of distinct loops",
  "all permutations of all nests",
  ["sched.py:SchedulerFunc.reorder","sched.py:SchedulerFunc._index"])
p("a user schedule with split and tail guard computes the same array",
  "A kernel generated from any schedule obtained by split/reorder computes the same output as the unscheduled kernel.",
  "every sequence of split/reorder calls on every loop nest",
  "interaction of tail guards with surrounding loops and of nested splits",
  ["sched.py:SchedulerFunc","codegen.py:codegen (splits, tail guard)"])
p("the kernel cache never changes a result",
  "Reusing a cached kernel gives the same result as compiling the kernel afresh: whenever two kernels get the same cache key, they are the same program taking the same arguments in the same order.",
  "every pair of array expressions materialized in one process",
  "key collisions need a particular pair of expressions among infinitely many",
  ["materialize.py:Materializer.func_cache_key","kernel.py:KernelCache"])
p("results do not depend on history",
  "In any sequence of array constructions, materialize() and tolist() calls, what tolist() returns for an array is determined by the expression that built the array alone; earlier or later materializations of other (possibly overlapping) expressions do not change it.",
  "every finite sequence of API calls",
  "histories are unbounded; shared buffers and a process-wide cache couple the calls",
  ["materialize.py:Materializer","ndarray.py:ndarray.tolist","buffer.py:Buffer"])
p("materialize never modifies user data",
  "materialize() writes only the output buffers of the arrays it computes; constant arrays and arrays that are not part of the expression keep their contents.",
  "every state and every materialize() call",
  "a frame condition over all other arrays in the process",
  ["backend.py:CPUBackend.invoke_kernel","materialize.py:Materializer.materialize"])
p("materialize is idempotent",
  "Calling x.materialize() again leaves x and every other array's observable value unchanged.",
  "every state reachable by any call sequence",
  "needs all states",
  ["materialize.py:Materializer.materialize"])
p("tolist on chained views reads the right elements",
  "For every chain of transpose, slicing/indexing, broadcast (and reshape) views over an array whose buffer is filled, tolist() of the view is the nested list of the logical elements of the view.",
  "every chain of views of every length over every shape",
  "offset/stride composition over unbounded chains",
  ["ndarray.py:Func._slice_forward","ndarray.py:Func._transpose_forward","ndarray.py:Func._broadcast_forward","ndarray.py:Func._reshape_forward","ndarray.py:ndarray._to_ndlist","ndarray.py:ndarray.base"])
p("reshape keeps the row-major element sequence",
  "x.reshape(s) is accepted exactly when the element counts agree, and its elements in row-major order are those of x in row-major order, also when x is a non-contiguous or offset view.",
  "every array (view or not) and every target shape",
  "all shape pairs and all view histories of the input",
  ["ndarray.py:ndarray.reshape","ndarray.py:Func._reshape_forward","ndarray.py:ndarray.is_contiguous"])
p("slicing agrees with Python slicing",
  "a[start:stop:step] selects along each axis exactly the positions Python's own slicing selects (None defaults, negative start/stop counted from the end, clamping), and a step <= 0 is rejected.",
  "every axis length and every start, stop and positive step, including None, negative and out of range",
  "all combinations of signs and clamping boundaries",
  ["ndarray.py:ndarray.__getitem__","ndarray.py:Func._slice_forward"])
p("integer indexing",
  "An integer index i on an axis of size n is accepted iff -n <= i < n, then removes the axis and selects element i (or n+i); anything else raises and creates no array. More indices than axes raises.",
  "every shape and every tuple of indices",
  "boundaries for every n",
  ["ndarray.py:ndarray.__getitem__"])
p("broadcasting follows the NumPy rule",
  "A binary operation on shapes s and t succeeds iff, aligned from the right, each pair of extents is equal or one of them is 1; the result has the pairwise larger (non-1) extent, does not depend on operand order, and element idx uses index 0 on stretched axes.",
  "every pair of shapes of any ranks",
  "all rank/extent combinations",
  ["ndarray.py:ndarray.broadcasted","ndarray.py:Func._broadcast_forward","algo.py:convert"])
p("transpose permutes and is inverted by the inverse permutation",
  "x.transpose(axes) is accepted iff axes is a permutation of the dimensions; element idx of the result is the element of x whose coordinate axes[k] is idx[k]; transposing back with the inverse permutation, or applying .T twice, gives x's elements back.",
  "every rank and every permutation",
  "all permutations of all ranks",
  ["ndarray.py:ndarray.transpose","ndarray.py:ndarray.T","util.py:argsort","algo.py:convert"])
p("array/tolist round trip",
  "array(v).tolist() == v for every rectangular nested list v, with shape equal to the list lengths; constructed arrays are row-major.",
  "every rectangular nested list of any depth",
  "unbounded depth and sizes, zero-length axes",
  ["ndarray.py:array","ndarray.py:_const","ndarray.py:ndarray._to_ndlist"])
p("array rejects non-rectangular input",
  "array(v) raises for every nested list that is not rectangular and accepts every rectangular one.",
  "every nested list",
  "infinitely many malformed shapes",
  ["ndarray.py:array"])
p("sum: axes, keepdims and value",
  "x.sum(axis, keepdims) reduces exactly the given axes (negative axes count from the end, None means all): shape drops them or keeps them as 1, and each element is the sum over all positions that agree on the other axes, each counted once.",
  "every shape, every set of axes (any order, duplicates, negative)",
  "all axis subsets of all ranks",
  ["ndarray.py:ndarray.__reduce","ndarray.py:Func._reduce_forward","algo.py:convert","codegen.py:render_reduce"])
p("pad semantics",
  "x.pad(dim, before, after) has extent before+n+after on dim; elements inside the window are x's, all others are zero; slicing the window out gives x back; pad(dim,0,0) is x.",
  "every shape, dimension and non-negative widths",
  "all boundaries",
  ["ndarray.py:ndarray.pad","ndarray.py:Func._pad_forward","algo.py:convert"])
p("dilate semantics",
  "x.dilate(dim, step) has extent (n-1)*step+1 on dim; positions divisible by step hold x's elements, all others zero; slicing with the same step gives x back; step 1 is x.",
  "every shape, dimension and positive step",
  "all residues",
  ["ndarray.py:ndarray.dilate","ndarray.py:Func._dilate_forward","algo.py:convert"])
p("contiguous",
  "x.contiguous() has x's shape and elements and row-major strides; it is x itself when x already has row-major strides.",
  "every array and view",
  "all view histories",
  ["ndarray.py:ndarray.contiguous","ndarray.py:ndarray.is_contiguous","ndarray.py:Func._contiguous_forward"])
p("dtype of results and of *_like factories",
  "dtype is int64 for integer data and float64 for float data and is preserved by every operation; ones_like/zeros_like/full_like produce arrays with the dtype of their model.",
  "every array",
  "all construction paths",
  ["ndarray.py:_const","ndarray.py:ones_like","ndarray.py:zeros_like","ndarray.py:Func._elemwise_forward"])
p("backward computes the gradient",
  "After y.backward() on a graph without earlier gradients, for every constant array x that y depends on, x.grad has x's shape and x.grad[idx] is the partial derivative of the sum of y's elements with respect to x[idx].",
  "every differentiable expression DAG, every sharing pattern, every point of the domain",
  "the chain rule over unbounded DAGs with shared nodes and broadcast/slice/pad/sum views",
  ["ndarray.py:ndarray.backward","ndarray.py:Func.backward","ndarray.py:Func._*_backward"])
p("backward visits each operation once, outputs before inputs",
  "backward() runs the backward rule of every operation that y depends on exactly once, and only after all contributions to that operation's output gradient have been added.",
  "every expression DAG",
  "all sharing patterns",
  ["ndarray.py:ndarray.backward"])
p("gradients have the shape of their array",
  "For every array x reached by backward(), x.grad.shape == x.shape.",
  "every expression DAG",
  "all ops and broadcast patterns",
  ["ndarray.py:Func._broadcast_backward","ndarray.py:Func._sum_backward","ndarray.py:Func._slice_backward"])
p("repeated backward accumulates linearly",
  "Calling y.backward() k times leaves k times the gradient in every constant array.",
  "every expression DAG and every k",
  "all depths",
  ["ndarray.py:ndarray.backward"])
p("backward does not change forward values",
  "backward() creates new arrays only: no existing array's shape, expression or buffer changes.",
  "every state",
  "frame condition over all arrays",
  ["ndarray.py:ndarray.backward"])
p("array operations are lazy and pure",
  "Every operation except materialize/tolist/backward only creates a new array: it reads no buffer, changes no existing array, runs no kernel; a rejected call (exception) creates nothing.",
  "every operation in every state",
  "frame condition over all states",
  ["ndarray.py:ndarray","ndarray.py:Func.forward"])
p("views of constants need no kernel",
  "Materializing a constant, or any chain of reshape/transpose/slice/broadcast views of a constant in which no copy was forced, runs and compiles no kernel.",
  "every chain of views",
  "unbounded chains",
  ["materialize.py:Materializer.materialize","ops.py:Ops.is_view"])
p("a chain of elementwise operations is one kernel",
  "An expression in which no computed intermediate is shared and no reduction feeds another operation is computed by exactly one kernel, whatever its size; in general the number of kernels is at most one plus the number of shared intermediates and reductions.",
  "every expression DAG",
  "unbounded expression sizes",
  ["algo.py:convert"])
p("tolist never shows values that were not computed",
  "tolist() on an array that was never successfully materialized raises; it never returns placeholder or partially computed data.",
  "every call history, including materialize() calls that raised midway",
  "needs all histories including failing kernels",
  ["ndarray.py:ndarray.tolist","backend.py:CPUBackend.invoke_kernel"])
p("integer index arithmetic agrees in Python and C",
  "If every array has fewer than 2^31 elements, every index computed in a C/CUDA kernel stays in [0, 2^31), so 32-bit int loop variables do not overflow and C's truncating / and % agree with Python's // and %.",
  "every expression DAG whose arrays have fewer than 2^31 elements and every iteration",
  "overflow needs huge arrays; sign issues need all index expressions",
  ["langspec.py:CCompatibleLangSpec","algo.py:convert","codegen.py:arr_idx_calc_expr"])
p("all backends compute the same values",
  "The Python and C backends give the same elements for every expression whose element operations agree in both languages.",
  "every expression DAG",
  "all expressions and dtypes",
  ["backend_python.py:PythonLangSpec","langspec.py:CCompatibleLangSpec","backend_clang.py:ClangExecutor"])
p("generated names never clash",
  "In every kernel, the generated names of the output, arguments, loop variables, reduction variables, split variables, accumulator and temporaries are pairwise distinct as strings, so no variable captures another.",
  "every kernel with any number of loops, arguments and temporaries",
  "unbounded numbers of loops and temporaries",
  ["algo.py:convert (loopvar_name)","codegen.py:tmpvar","codegen.py:codegen","sched.py:SchedulerFunc.split"])
p("emitted source text means what was intended",
  "Operator precedence never regroups emitted code: each source line parses, with the precedence rules of Python and C, back to exactly the operation tree the generator meant, although no parentheses are emitted around +,-,*,/,%.",
  "every kernel line generated for every expression",
  "all operand combinations",
  ["langspec.py:CCompatibleLangSpec","backend_python.py:PythonLangSpec","codegen.py"])
p("device buffers are coherent and freed once",
  "On a GPU backend, in every history of materialize/tolist calls and array deaths, a buffer is allocated at most once and freed at most once and only after allocation, kernels get initialized device memory for every input, and tolist() returns the computed values.",
  "every history",
  "unbounded histories of host/device copies",
  ["backend.py:GPUBackend.invoke_kernel","buffer.py:DevBuff","ndarray.py:ndarray.tolist"])
p("array extents are never negative",
  "Every array that the API returns has only non-negative extents, strides consistent with its buffer, and a buffer length equal to the product of its shape.",
  "every array reachable by any call sequence",
  "all operations and argument values",
  ["ndarray.py:Func._dilate_forward","ndarray.py:Func._pad_forward","node.py:Node"])
p("loop annotations a backend lacks are rejected",
  "Code generation for a schedule whose loop annotation the backend's language cannot express (parallel/vectorize on CUDA, block/thread on a CPU backend) raises instead of emitting a kernel with other semantics; expressible annotations never cause a failure; the automatic schedules use only expressible ones.",
  "every Func, schedule and backend",
  "unbounded loops and annotations",
  ["backend_python.py:PythonLangSpec","backend_clang.py:ClangLangSpec","backend_cuda.py:CUDALangSpec","codegen.py:render_loop"])
p("a repeated computation is compiled once",
  "After x.materialize() has succeeded, materializing x again, or any array that is the same expression on other arrays of the same shapes, strides and dtypes and with other constants, compiles no kernel, in any later state without a cache reset; so a loop compiles only in its first iteration, and the cache never holds two kernels for one key.",
  "every expression, every later history, every number of loop iterations",
  "unbounded histories and iterations; every expression",
  ["materialize.py:func_cache_key","kernel.py","materialize.py:materialize"])
p("the emitted source text computes the array",
  "The source texts emitted for the kernels of an array, read and executed by the rules of their language (C, CUDA or Python) in the order of the conversion, run to their end and leave exactly the elements of the array in its output buffer, whatever the order of the CUDA threads, and change no other memory.",
  "every array of every program, each backend, every memory, every thread order",
  "every emitted program; the meaning of text, not of the generator's intermediate forms",
  ["codegen.py","langspec.py:CCompatibleLangSpec","backend_python.py:PythonLangSpec","backend_clang.py:ClangLangSpec","backend_cuda.py:CUDALangSpec"])
p("the code generator is reusable",
  "One code generator object serves all codegen() calls of a backend. Whatever calls it answered or rejected before, each call raises exactly when a fresh generator would, with the same exception, and otherwise returns a source text that is read, in one way only, as the program of the requested kernel.",
  "every sequence of codegen() calls, accepted or rejected, each backend",
  "unbounded call sequences with failures at any point",
  ["codegen.py:HighLevelLangCodeGenerator","codegen.py:codegen","backend.py:Backend.codegen","langspec.py:indent_str"])
p("the backend can be changed while running",
  "After backend.reset() and materialize.reset(), in any process history with any number of backend changes, every array still reads the same numbers, constants are untouched, and materialize()/tolist() give what the current backend computes for the expression; arrays materialized before can be materialized again.",
  "every history of API calls, materialize() calls, cache resets and backend changes (Python, Clang; and to, from and between CUDA contexts)",
  "unbounded histories interleaving two backends that share arrays and the kernel cache",
  ["backend.py:reset","backend.py:detect","backend_cuda.py:CUDA","buffer.py:Buffer","materialize.py:reset","materialize.py:Materializer.materialize","kernel.py:KernelCache","backend_python.py:PythonExecutor","backend_clang.py:ClangExecutor"])
p("gradients can be computed and read",
  "After y.backward(), in any process where y itself can be computed, the gradient of every array y depends on can be materialized and read like any other array: it compiles on every backend and tolist() shows the elements of the gradient expression.",
  "every program, every pair of arrays y and x, every process history, every backend",
  "unbounded expressions and histories; the failure depends on shapes far from the array that is read",
  ["ndarray.py:ndarray.backward","ndarray.py:Func._sum_backward","ndarray.py:Func._broadcast_to_backward","ndarray.py:Func._reshape_backward","materialize.py:Materializer.materialize"])
p("the numbers shown are the exact results up to rounding",
  "tolist() after materialize() shows, for every element: the exact integer for integer expressions, and otherwise a finite double whose distance from the exact real result of the expression is within the bound obtained by charging each operation one rounding (2^-53 of its result, plus 2^-1075 near zero) and propagating operand errors; + - * / sqrt on doubles are the exact result rounded once to the nearest double; a sum of n doubles is within ((1+2^-53)^(n-1)-1) times the sum of their absolute values. Where a result may overflow, a divisor may be zero or a root or logarithm may be out of its domain, nothing is claimed.",
  "every expression of every program, all element values, every process history, Python and C",
  "all real inputs and all expression shapes; rounding errors depend on every intermediate value",
  ["langspec.py:CCompatibleLangSpec","backend_python.py:PythonLangSpec","backend_clang.py:ClangLangSpec","materialize.py:Materializer.materialize","ndarray.py:ndarray.tolist","algo.py"])
p("the gradient shown is the derivative up to rounding",
  "After y.backward(), x.grad.materialize() and x.grad.tolist() show, element by element, a finite double (or exact integer) whose distance from the partial derivative of sum(y) with respect to that element of x is within the bound obtained by charging one rounding to each operation of the gradient expression and propagating operand errors.",
  "every program, every pair of arrays y and x, every point inside the domain, every process history, Python and C",
  "derivatives over the reals and rounding of every intermediate result; unbounded expressions and histories",
  ["ndarray.py:ndarray.backward","ndarray.py:Func","materialize.py:Materializer.materialize","ndarray.py:ndarray.tolist","langspec.py"])
p("invalid arguments are rejected when the call is made",
  "An API call whose arguments break the call's rule (index or subscript out of range, shapes that do not broadcast, reshape to another size, axes that are no permutation, dim out of range, ...) raises the documented exception, changes nothing, and no call raises anything else; a call that is accepted returns an array all of whose elements lie inside the buffer they are read from.",
  "every reachable program state, every call, every argument value",
  "arguments range over all integers and lists; the exceptions of all calls must be classified",
  ["ndarray.py:ndarray.__getitem__","ndarray.py:ndarray.broadcasted","ndarray.py:ndarray.broadcast_to","ndarray.py:ndarray.reshape","ndarray.py:ndarray.transpose","ndarray.py:ndarray.pad","ndarray.py:ndarray.dilate","ndarray.py:ndarray.__reduce","ndarray.py:array"])
p("compilation effort stays in proportion to the program",
  "The work and memory that materialize() spends before any kernel runs - the cache keys it builds and hashes, the source text it emits - is bounded by a polynomial in the number of API calls that built the array.",
  "every program, every backend",
  "an asymptotic bound over all programs; small tests never show the growth",
  ["materialize.py:func_cache_key","algo.py:_fuse","algo.py:arr_to_func","codegen.py"])
p("every operation is compiled exactly once",
  "The kernels compiled for an array contain, all together, each element operation of the API calls it depends on exactly once: fusion drops none, adds none and never compiles a shared result into two kernels; every sum gets a kernel of its own, in which it is the outermost operation.",
  "every array of every program",
  "every sharing pattern of every expression graph; fusion rewrites kernels while they are being shared",
  ["algo.py:convert","algo.py:arr_to_func","algo.py:count_refs","algo.py:try_fuse"])
p("expressions may be arbitrarily deep","An expression of any depth can be materialized and differentiated; if Python's recursion limit gets in the way, the call raises RecursionError, the limit never changes a result, and a failed materialize() leaves the process unchanged.","every expression, every recursion limit, every process state","the limit interacts with every recursive pass of the compiler and of backward(); tests use shallow expressions",["algo.py:convert","algo.py:arr_to_func","algo.py:count_refs","algo.py:try_fuse","materialize.py:Materializer.materialize","ndarray.py:ndarray.backward"])
p("a scheduling call that raises does not damage the schedule","Each call on a user schedule (split, reorder, parallel, vectorize, unroll, tile, gpu_blocks, gpu_threads) either takes effect or raises the documented exception and leaves the schedule exactly as it was, so that a program that catches the exception and goes on gets the kernel of the calls that returned.","every schedule, every sequence of calls with any arguments, with exceptions caught in between","failures at every point of every call sequence; the damage only shows in kernels generated later",["sched.py:SchedulerFunc.split","sched.py:SchedulerFunc.reorder","sched.py:SchedulerFunc.tile","sched.py:SchedulerFunc._index","codegen.py"])
p("printing is safe, and debug mode changes nothing",
  "str(a) and repr(a) never raise: they show str(a.tolist()) if the array has data on the host and a one-line summary otherwise, without computing or copying anything; the shown text determines the list. With WHALE_DEBUG=1 materialize() has the same effects and the same exceptions as without, and prints output in proportion to the program.",
  "every array of every process history (failed calls included), every way of printing one element",
  "every history and every view; output size is an asymptotic claim",
  ["ndarray.py:ndarray.__str__","ndarray.py:ndarray.__repr__","debug.py:dbg_tree","debug.py:dbg_schedule","debug.py:dbg_kernel","buffer.py:CPUBuff.__repr__","materialize.py:Materializer.materialize"])
p("annotated schedules compile and are free of races",
  "A schedule built by any accepted sequence of scheduling calls, with any loops annotated parallel, vectorize or unroll, gives C text whose loop directives the compiler accepts; and running the iterations of the scheduled loop nest on any number of threads, in any order, ends - without data races - in the memory that the automatic schedule produces.",
  "every kernel of every array, every sequence of scheduling calls, every assignment of iterations to threads, every interleaving",
  "all interleavings of all nested parallel loops; a directive is only checked by the compiler on the text of one schedule at a time",
  ["sched.py:SchedulerFunc","backend_clang.py:ClangLangSpec","codegen.py:Codegen","backend_clang.py:ClangCompiler.compile"])
p("user GPU schedules cover every element exactly once",
  "A schedule built by any accepted sequence of scheduling calls, with any loops mapped to block or thread coordinates of a GPU, launched with the extents that the backend computes from it, writes every output element exactly once, without data races, with the value that the automatic schedule computes.",
  "every kernel of every array, every sequence of scheduling calls, every interleaving of the GPU threads",
  "all mappings of loops to coordinates, all extents and factors, all interleavings",
  ["sched.py:SchedulerFunc.gpu_blocks","sched.py:SchedulerFunc.gpu_threads","backend.py:GPUBackend.execute","backend_cuda.py:CUDALangSpec","backend_cuda.py:CUDAExecutor.execute"])
p("an interrupted materialize() can be retried",
  "If an exception from outside (the compiler is missing or fails, memory runs out, the user presses Ctrl-C) stops materialize() at any point, any number of times, then nothing the user stored and nothing computed earlier is lost, and calling materialize() again succeeds exactly when it would have in a process that was never interrupted, with the same result. The interrupted array cannot be read in between, and failed compilations leave no temporary files.",
  "every program, every history, every point at which the exception can occur, every backend, any number of interruptions",
  "every crash point of every materialize() of every history",
  ["materialize.py:Materializer.materialize","backend.py:CPUBackend.invoke_kernel","backend_clang.py:ClangCompiler.compile","backend_clang.py:ClangExecutor.execute","backend_python.py:PythonExecutor.execute","backend_cuda.py:CUDACompiler.compile","kernel.py:KernelCache"])
p("generated kernels stay within the nesting limits of the language",
  "Every array that the API calls accept can be compiled on the Python backend whatever its rank: the text of each kernel nests for loops and blocks only as deeply as Python's own compiler accepts (its limits on statically nested blocks and on levels of indentation, whatever their values).",
  "every array of every program, every rank, every number of summed axes, pad() and dilate() calls",
  "limits of the target compiler only show at ranks and nestings that no test reaches; the depth of a text depends on fusion",
  ["codegen.py:Codegen.generate","backend_python.py:PythonLangSpec","algo.py:try_fuse","backend_python.py:PythonCompiler.compile"])
with open('/verif/properties.jsonl','w') as f:
    for x in P: f.write(json.dumps(x, ensure_ascii=False)+"\n")
print(len(P))
