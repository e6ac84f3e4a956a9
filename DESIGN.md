# Formal model of hidetatz/whale in Rocq (Coq 8.16.1)

The repository is Python (the task header says Go): a lazy tensor library. Array operations only build a graph;
`materialize()` converts the graph to loop kernels (Python, C or CUDA source text), compiles and runs them;
`backward()` builds the graph of gradients.

Reading order for a reviewer: `properties.jsonl` (the claims in English), `rocq/theories/Prop*.v` (the theorems, each
with the English claim as a comment, `Print Assumptions`, and a concrete instance `Cnn_nonvacuous`), the specification
files named below, then the model files. Everything else is proof.

## 1. Layers of the model

| layer | model files | code | specification it is proved against |
|---|---|---|---|
| element arithmetic | `Lang.v`, `LangInst.v` | Python numbers, C `int`/`int64_t`/`double` (Coq's own IEEE `SpecFloat`), libm abstract | `lang_ok` (proved for both instances) |
| util | `Util.v` | `util.py` | row-major numbering (`Util.v`) |
| graph, API | `Graph.v`, `Api.v`, `ArrayLit.v`, `Tolist.v` | `node.py`, `ndarray.py` | `Spec.v` (tensors = shape + function from positions to elements), `FrontSpec.v` (Python slicing, NumPy broadcasting) |
| what programs can build | `Reach.v`, `Prog.v` | any sequence of API calls | - |
| meaning of a graph | `Denote.v` | - | `Spec.v` operations along the graph; knows nothing of strides, loops, fusion, buffers |
| conversion | `Algo.v` | `algo.py` | `AlgoSem.v` (meaning of kernel expressions), `Denote.v` |
| schedules | `Sched.v`, `SchedUser.v` (`urun`: user calls) | `sched.py` | `PropSched.v` |
| kernels | `Kernel.v` (statements, memory, interpreter), `Codegen.v` | `codegen.py` | `Denote.v` through `KernelRun*.v` |
| generated text | `Text.v`, `TextPrint.v` | `codegen.py`, `langspec.py`, `backend_*.py` at the level of strings | `TextLex.v`, `TextParse.v`: lexer and precedence parser of the used fragments of Python and C |
| backends | `Backends.v`, `RtInst.v` | `backend*.py`, `executor.py`, `compiler.py` | - |
| threads | `Parallel.v`, `ParCpu.v`, `ParGpu.v` | OpenMP loops, CUDA grids | small-step interleavings (`psteps`, `race`, `settles`) |
| runtime | `CacheKey.v`, `Runtime.v`, `History.v` | `materialize.py`, `kernel.py`, `buffer.py` | `Denote.v` |
| device memory | `Device.v` | `GPUBackend.invoke_kernel`, `CUDAExecutor`, `DevBuff.__del__`, `tolist` | driver model inside `Device.v` |
| gradients | `Backward.v` | `ndarray.backward`, every `_*_backward` | `BackSpec.v`, `GradSpec.v` (Coquelicot `is_derive` over the reals) |

`*Facts*.v`, `Algo{Conv,Fuse,Convert}*.v`, `KernelRun*.v`, `Nest*.v`, `Sched{Reach,User2,User3,Gpu}.v`, `Back*.v`,
`Dev*.v`, `Text{Name,Expr,Stmt,Read,Mono,Top,Bind}.v`, `Lockstep.v`, `Agree.v`, `Frame.v`, `Tidy*.v`, `Copy*.v` (except `Copy.v`: specification), `Hist*.v`, `Safety.v`, `IEEE.v` (after its definitions), `ErrFacts.v` are proofs.

Every definition of the model carries the file and lines it models and its simplifications.

## 2. Per property: what is modelled, how it is proved

Statuses are in `MANIFEST.json`. "partial" mostly means: the property is *false of the code* in a corner, which is proved
(`*_refuted`, a concrete program on which the model misbehaves as the code does), and the rest is proved with the corner
excluded by an explicit hypothesis.

* **C01 materialize = mathematical value.** Any history of API calls, `materialize`, `tolist` (`History.v`); conclusion about
  `tolist()` of the materialized array or any view of it against `Denote.v`. Invariant over histories: every computed buffer holds the
  denotation of its array (`good`), every cached kernel is the code of its key. Hypotheses: `key_safe` (no two different
  kernels met in the history share a cache key, C11), in C sizes below 2^31 and one dtype, reshape views at offset 0 (C15).
  `C01_tidy_*` (`PropTidy.v`) need no key hypothesis: every kernel of the history is `tidy` (`Tidy.v`), a decidable class on which
  the cache key determines the code (`C11_tidy_kernels_safe`); `C01_succeeds` / `C01_failures` say when and how a call raises.
* **C02 no out-of-bounds access, no undefined variable.** The interpreter has a distinct `FaultO` outcome; big-step invariant over
  the loop nest for arbitrary buffer contents. `C02_reused_kernel_refuted`: a kernel wrongly reused by the cache does go out of bounds.
* **C03 fusion.** Each fused expression, evaluated on the true elements of what it reads, is the denotation; induction over the
  fuel and the expression of `try_fuse`, with mutation of shared Funcs. Refuted for C with mixed dtypes.
* **C04 compilation total.** `C04_compiles_iff`: exactly the expressions without a reshape to `()` compile (on any backend).
* **C05, C35 kernel list.** Depth-first order invariant, reference counts = number of uses. `DevOrder.v`: C05 and C34 for the driver calls of one
  materialize() on CUDA, from any state of any GPU process, returning or raising.
* **C06 any order / threads.** Each iteration writes its own cell and never reads the output (commutation); every interleaving of
  any distribution of iterations over threads is finite, race-free and ends in the sequential memory.
* **C07 GPU launch.** Closed form of the schedule per rank; the threads' writes are a permutation of the output positions;
  equality with the CPU kernel. Launch refused by the driver: empty arrays, middle axes above 65535; exact bounds in `PropExact2.v`.
* **C08-C10 schedules.** Every schedule reachable by any calls (`sreach`); C08 also for `math.ceil(n / f)` as computed in
  binary64 (`FloatDiv.v`). C10 exactly, for all legal call sequences (`SchedExact.v`: the iterations before the first one outside); refutations for the rest.
* **C11 cache key.** The key as a structural value of exactly the printed parts (`CacheKey.v`). Three refutations
  (ternary prints `None`; producer shape not in the key; producer identity not in the key); same key implies same code
  for kernels without pad/dilate whose producers occur in the same pattern. A kernel is *tidy* if its expression has no pad/dilate,
  different producers it reads have different keys, and each producer's own key mentions every axis of extent other than 1 but the
  first; from its own key one then recovers a producer's strides and dtype, so equal keys of tidy kernels give equal code.
  `KeyText.v`: the nested tuple as a Python object, its text, and injectivity of both (an unambiguous grammar argument); `KeyRun.v`: the process with digests, simulated by that of `Runtime.v`; `DevKey.v`, `PropDevKey.v`: the GPU process with digests and that of `Device.v` make the same moves (both directions).
* **C12-C14, C34, C36 histories.** (C12, C14 on CUDA: `PropDevAgain.v`, from the value theorem of C59; `DevAgain.v`: the second call finds every address, cache entry and accepted value the first one left.) State machine over API calls, frame lemmas (`Frame.v`); `Defined.v` (C36): the arguments of a kernel belong to the
  expression of the array it computes, so a failed kernel can only leave wrong values in an array one of whose own elements raises.
* **C15-C27, C33, C42 front end.** Direct, against `Spec.v`/`FrontSpec.v`. C15 and C22 also exactly, for the inputs on which they fail:
  `ViewExact.v` (which buffer element every chain of views reads), `ArrayExact.v` (levels of a nested list), `PropExact.v`; C27 and C42 exactly in `PropExact2.v`.
* **C28, C30, C31 gradients.** The reverse sweep is modelled as graph construction; each rule is shown to be the adjoint
  of the operation's derivative (`BackAdj.v`), the sweep invariant says that the gradients of the not yet processed arrays carry
  the total derivative; the final theorem is stated with Coquelicot's `is_derive` of `t -> total (y with x moved by t)`. `BackAny.v`: the same for any gradients left over before the call.
* **C29, C32.** Order of the depth-first search; arrays are only appended.
* **C37, C38 Python vs C.** A lockstep machine executes both arithmetics side by side, marking integers on which both agree and
  that lie in [0, 2^31); unmarked values may not be used as indices. C38 from C01 on both backends plus agreement of the denotations.
* **C39, C40, C43 text.** The generator is modelled a second time at string level, following `codegen.py` line by line, and
  proved to print the kernel AST; an independent lexer/parser reads every printed text back to the intended tree, uniquely.
* **C41 device buffers.** Nondeterministic machine: allocation may fail, fresh memory is arbitrary, threads interleave, arrays die at
  any time. Allocation/free discipline for every history; values under the hypotheses of C01.
* **C44 repeated computations compile once.** (`DevCopy.v`: on CUDA the same, from any state, also after interrupts.) "The same expression" = a one-to-one renaming of arrays that preserves operations,
  parameters, shapes, strides, dtypes (`Copy.v`). Conversion, fusion, scheduling, code generation and cache keys commute with the
  renaming (`CopyConv.v`, `CopyKey.v`); API calls on copies make copies (`CopyApi.v`); so every key is found in the cache. The
  same facts reduce `key_safe` for a repeating program to one round of it (`C11_copies_safe`, `C01_repeated_partial`).

* **C45 source text computes.** `SrcSem.v` executes parsed source (the trees of `TextParse.v`): environments of scopes with declared
  types, memory of arrays, loops, early return. The kernel language of `Kernel.v` is simulated statement by statement (`SrcSim.v`);
  with the values of C01/C07 this gives the elements left by the text of each kernel, and by all kernels in order (`SrcAll.v`).
* **C46 generator reuse.** `Generator.v` models the generator as an object: a method maps the object to the object and a result, so
  indentation level and temporary counter survive a raise. Simulation against `Text.v` at any starting indentation; C lexing is proved
  insensitive to leading spaces, Python rejects an indented first line.
* **C47 changing the backend.** `Switch.v`: a process is the current backend (Python or Clang), the runtime state of that
  backend, and the keys of the cached kernels that the other backend compiled; `backend.reset()` converts the numbers in the lists
  (the same Python ints and floats), keeps the cache and starts a new generator. `pany` is any process history; `phist` one whose
  kernels belong to a collection. The runtime invariant of C01 survives a change (`switch_inv`), a stale kernel stops Python with an exception
  (`foreign`), and `materialize.reset()` restores the full invariant from any history (`pany_reset`). `DevReset.v`, `PropDevReset.v`: changes to
  and from CUDA (`new_context`, `to_cpu`, `to_cuda`): host lists survive, device memory does not; a weaker invariant (`hinv`: sizes, constants) holds
  in every CUDA history. Not modelled: launching a function of a destroyed context (a change to CUDA without `materialize.reset()`).
* **C48 gradients can be read.** `BackScalar.v` carries "no reshape to () in the expression" through the reverse sweep, in both directions:
  the gradient of x is free of it exactly when no scalar operand of a sum/reshape/broadcast_to lies between y and x (`scalar_on_path`,
  `BackSpec.v`). `Grow.v` shows that any graph extension by API calls, in particular `backward()`, is a continuation of a process
  history, so that the theorems on `materialize` apply to gradients. On CUDA arrays can die: `DevGrad.v` shows that every array `backward()`
  makes is computed from arrays that are alive, so that it is a continuation of a GPU history too; `PropDevGrad.v` has the theorems and an example.
* **C49 rounding.** `IEEE.v` relates the model's doubles (Coq's `SpecFloat`) to real numbers through Flocq: each operation of `LangInst.v` is
  the exact result rounded to nearest even. `ErrSpec.v` (specification) is an element arithmetic that carries the exact value and an error
  bound; `ErrFacts.v` shows that it is, node by node, sound for both kernel languages (hence for C, CUDA and Python processes) and exact over the reals, and `Agree.v` lifts this
  along the graph by induction. With C01 this gives the theorem about `tolist()`.
* **C50 gradients up to rounding.** `PropGrad.v`: C49's bounds evaluated on the graph that `backward()` leaves, with the centre of each
  bound identified with the derivative of C28. CUDA: `PropDevGrad.v`, from C48 and C41.

* **C51 arguments.** `PropArgs.v`: case analysis over all API calls of `Api.v` with arbitrary arguments (no `call_ok`), using the
  acceptance lemmas of C16-C20; concrete refutations for the arguments that are not checked (`PropPad.v`, `PropArgs.v`).

* **C52 compile effort.** `Cost.v`, `PropCost.v`: sizes of the cache key (`CacheKey.v`) and of the emitted text (`Text.v`) on two families of
  programs, by induction on the family: both grow exponentially, so the property is refuted.

* **C53 once.** `Once.v`, `PropOnce.v`: any weight on operations, extended along the graph over fused references, is an invariant of
  `try_fuse`; counting references (reference count 1 = fused once) gives equality of the multisets of operations.

* **C54 depth.** `Stack.v` repeats the recursive functions with the number of free stack frames; `StackFacts.v`: they are monotone in that
  number and eventually equal to the functions of `Algo.v`, so a limit can only turn a result into a RecursionError. `StackGen.v`: the same for
  func_cache_key() and for the code generator object of `Generator.v`, whose state stays when RecursionError is raised (a Hoare-style invariant
  on the indentation at every point where it can stop); `PropStackGen.v`: C generators survive, Python's does not (finding 23). `StackRun.v`,
  `PropStackStop.v`: all phases of materialize() under a limit; on Clang every RecursionError is a stop in the sense of C59. `DevStack.v`,
  `PropDevStack.v`: on CUDA, a relation with the number of frames next to `Device.gmat`, and the same two results. There also: a new device pointer after
  RecursionError belongs to a literal or a computed array (dependencies run first), so no uncomputed memory can be read.
* **C55 failed scheduling calls.** `SchedFail.v`: the SchedulerFunc as an object changed in place, in statement order; `PropSchedFail.v`:
  sessions with caught exceptions compared with the pure calls of C08-C10.
* **C56 printing and debug mode.** `Print.v`: `__str__`/`__repr__`, the texts of buffers, expressions, Funcs and schedules, debug.py, and
  materialize() with the DEBUG branches, as strings (the repr of one number and md5 are parameters); `PrintFacts.v`: printing is total in every
  history because buffers have the length of their array and Funcs are acyclic; `PrintText.v`: the text of a nested list can be read back;
  `PropPrint.v`: the theorems, exact sample output, and the exponential output of dbg_tree. `PrintDev.v`, `PropPrintDev.v`: the same on CUDA,
  as a relation next to `Device.gmat`; the two relations reach the same states (both directions), because printing is total in every history.
* **C57 annotated schedules.** `Pragma.v`: the compiler's rules for `#pragma omp parallel for` (canonical loop, no `return` in the block) and
  `#pragma clang loop unroll_count(k)` (1 <= k < 2^31), stated on the statements as read by `TextParse.v`; not derived from the compiler's source.
  The generated text is read uniquely (C40), so the rule is equivalent to a condition on the schedule. `SchedPar.v`: iterations of the scheduled nest as
  threads, with the pool lemma of C06 and the nest invariant of C10.
* **C58 user GPU schedules.** `ParGpu.gpu_launch_any` (the launch of any loop nest) with the invariant of `SchedUser2.v`, now over any set of
  annotations: the sets of iterations of the launched threads partition the iteration space; refutations by computed interleavings.
* **C59 interruption.** `Interrupt.v`: the relation `stopped`: all states in which an exception from outside can leave a `materialize()` call on a
  CPU backend (between kernels, while a kernel is compiled, while buffers are filled, between two memory accesses of a Python kernel); the steps of
  `compile` and its temporary file. Not modelled: the text generator's state after an exception inside codegen() (C46), asynchronous exceptions inside an API call.
  `InterruptFacts.v`: `stopped` preserves the invariant of C01; `InterruptAny.v`: and the one of C13, without side conditions.
  CUDA (`DevStop.v`, `PropDevStop.v`): `gstopped`: between kernels, while one is compiled, between and inside the preparation of its parameters
  (memory allocated but not filled), before or while waiting for it (a launched kernel runs to its end). Preserves the invariants of C41, with and
  without side conditions. Not modelled: an exception between the return of `cuMemAlloc` and the assignment of its result, which leaks that memory.
* **C60 nesting limits.** `Limits.v`: the depth of nested loops and blocks of a text as read by `TextParse.v`; Python's two limits
  (nested `for` blocks, indentation levels) are parameters: they differ between releases (20 and 99 by hand with CPython 3.11). The depth is computed
  through codegen() and fusion; the number of summed axes and of conditional branches is an invariant of convert().

## 3. Trusted base

1. **Coq 8.16.1's kernel** (and its `vm_compute` in examples and refutations). No plugin, no admitted goal, no axiom of ours, no
   functor or module type.
2. **Axioms** (`Print Assumptions` follows every theorem in `Prop*.v`):
   * all theorems except the ones below: *Closed under the global context*;
   * `C28_gradient_partial`, `C28_weighted_gradient_partial`, `C31_*_partial`, `C31_exact_nonvacuous`, `C48_gradient_shown_partial`, `C48_gradient_shown_cuda_partial`, `C48_cuda_nonvacuous`, `C49_*` except
     `C49_integers_*`, `C50_*` (real analysis):
     `ClassicalDedekindReals.sig_not_dec`, `ClassicalDedekindReals.sig_forall_dec`,
     `FunctionalExtensionality.functional_extensionality_dep`, `Classical_Prop.classic` - all from Coq's standard library.
   * Checkers that list every axiom-like constant of the loaded libraries also show the opaque module fields of
     `Coq.Reals.Rdefinitions.RbaseSymbolsImpl/RinvImpl` and `Coq.ssr.ssrunder.Under_rel`, through Coquelicot.
3. **The reading of the Python source into Gallina.** The code cannot be run here; the model was checked by reading, by examples
   taken from `test.py`-like programs evaluated in the model, and by seeding bugs (section 6).
4. **The specifications**: `Spec.v`, `FrontSpec.v`, `GradSpec.v`, `BackSpec.v`, `TextLex.v`, `TextParse.v`, `ErrSpec.v`
   (with `fr`, `rnd`, `fin` of `IEEE.v`), the interleaving
   semantics in `Parallel.v`, the interpreter in `Kernel.v` and the arithmetic in `LangInst.v`.

## 4. What is modelled, what is not

Modelled: all of `ndarray.py`; `node.py`, `ops.py`, `util.py`; `dtype.py` for int64/float64 (the
library never creates the 32-bit types); all of `algo.py`; all of `sched.py` (`tile` always raises: it calls `split` with the
wrong number of arguments); all of `codegen.py` and `langspec.py`, both as AST and as text; `materialize.py`, `kernel.py`, `buffer.py`,
`backend.py` (except as below), `backend_python.py`, `backend_clang.py`, `backend_cuda.py`, `executor.py`.

`debug.py` and the `DEBUG` branches (all backends; the text of one number is a parameter).

Not modelled: `example.py`, `test.py`; clang, nvcc, `ctypes`, the CUDA driver (their interface is modelled, not their implementation).

Simplifications, also stated at the definitions:

* `Runtime.v` indexes the cache by the key tuple. That `str(key)` determines the key is proved (`KeyText.v`), and `KeyRun.v` models the process
  with an arbitrary digest of that text: it is the process of `Runtime.v` as long as md5 does not collide on the texts involved
  (C11_digest_process, on CUDA C11_digest_process_cuda with `DevKey.v`; a hypothesis there, not an axiom). (Kernel names use 16 of its hex digits but live in separate namespaces/objects.)
* Object identity of arrays, nodes, Funcs, loop variables is modelled by indices / names with owners.
* Garbage collection appears only where observable (device buffers, C41). `Func.output` is a weak reference; the array it points to is
  alive during `backward()` because it is reachable from the root.
* Python's recursion limit is modelled for conversion, cache keys, code generation, `materialize()` on views and `backward()` (C54; counted are the
  nested recursive calls, not helpers of fixed depth nor `repr` of the key); memory exhaustion is not.
* Python negative list indices inside kernels are treated as faults (stronger than Python).
* C: undefined arithmetic (signed overflow, division by zero in integers) is an exception outcome in the model; loop counters are `int`, the
  theorems carry sizes below 2^31; `return` inside an OpenMP loop (a compile error) is not part of the execution model; the rule is stated on the text in `Pragma.v` (C57), it is only broken by user schedules.
* Element accesses of threads are atomic and sequentially consistent; justified by the proved absence of races.
* libm (`sin`, `exp`, `pow` ...) is an arbitrary partial function.
* Gradients (C28, C31) are over exact reals; C50 adds the rounding. All other value theorems are over an arbitrary arithmetic, hence
  exact for floats; C49 relates those floats to the reals.
* GPU: the backend is fixed during a history, except in `PropDevReset.v` (one change); module loading is not modelled; after undefined behaviour in a kernel nothing is claimed.
* The lexer/parser cover the fragment of Python/C/CUDA that the generators use.
* `call_ok` (`Reach.v`) lists the argument conditions the code does not check (`broadcast_to`, `pad`, `dilate`, negative extents);
  what happens outside is recorded as findings.

## 5. Findings (all proved as `*_refuted` theorems unless marked)

1. Cache-key collisions: pad/dilate constants, producer shapes and producer identities are missing from the key (C11, C12, C02, C01).
2. `tolist()` of a reshape of an offset view reads from offset 0 (C15).
3. Reshape to `()` compiles to a TypeError (C04).
4. `broadcast_to` an array's own shape: wrong gradient shape and value (C28, C30).
5. Second `backward()` does not accumulate linearly (C31; exact formula in `PropBackAny.v`).
6. User schedules: inner tail guards return from the kernel; nested splits, split of a reduction loop, reorder across kinds (C09, C10, C39).
7. `zeros_like`/`ones_like` dtypes; C kernels with mixed dtypes; int/int division, division by zero and negated padding differ
   between Python and C (C27, C03, C38).
8. `sum` axis wraps, ragged lists of mixed depth accepted, negative extents accepted (C23, C22, C42).
9. After a kernel raised midway, `tolist()` shows partial data (C36), on a GPU garbage (C41).
10. GPU: empty arrays and middle axes above 65535 cannot be launched (C07).
11. After one rejected `codegen()` call the Python generator emits only indented, unreadable text (C46).
12. `backend.reset()` keeps the kernel cache: re-materializing on Python what Clang compiled raises; int64 arrays holding floats cannot be recomputed on Clang (C47).
13. A gradient that passes a scalar operand (`x / x.sum()`) raises TypeError when materialized, as does everything computed from it; a gradient that is a reshape of an offset slice shows wrong numbers (C48).
14. Cache keys and kernel texts can grow exponentially with the number of API calls (C52); `try_fuse` also re-fuses a shared producer at every reference.
15. Expressions deeper than Python's recursion limit (about 1000 operations in a row) cannot be materialized or differentiated (C54).
16. `split()` of a variable that is not a loop raises, but its record stays: kernels generated afterwards skip elements or write out of range; `tile()` always raises TypeError (C55).
17. (not a theorem) `array([1, 2.5])` fails on clang in ctypes.
18. With WHALE_DEBUG=1, `materialize()` prints a shared operand once per use: 2^n lines after n doublings (C56).
19. `parallel` on any loop of a schedule with a tail guard puts `return` inside an OpenMP loop: clang rejects the kernel; `unroll(lv, 0)` likewise (C57).
20. `gpu_blocks`/`gpu_threads` accept a coordinate that another loop already has (the launch then uses one extent for both: out-of-bounds writes or
    missing elements), and accept reduction loops (every thread computes the whole sum and all write the same element) (C58).
21. `ClangCompiler.compile`/`CUDACompiler.compile` leave their temporary file behind when the compiler or loading fails; after an interruption
    `tolist()` returns a partly computed array without an error; on CUDA it returns uninitialised device memory and keeps that as the array's host
    list, so that it is still shown after a successful retry (C59).
22. The Python backend cannot compile an array whose rank plus the number of axes it sums over exceeds CPython's limit, 20 in 3.11 (SyntaxError: too many statically nested
    blocks), although every API call accepts it; e.g. `-x` of rank 21, or `sum(keepdims=True)` of rank 11 (C60).
23. An expression that is shallow enough to be converted and keyed but too deep for the code generator (two frames a level; e.g. `-x` after 500
    `reshape` calls) fails with RecursionError and leaves the Python generator's indentation raised: every kernel generated afterwards is an
    IndentationError (C54).
24. `backend.reset()` to or from CUDA: results computed on the GPU and not yet read are lost (RuntimeError/AttributeError in `tolist()`). Arrays keep
    device addresses of the destroyed context, which can coincide with those of new arrays: `tolist()` then shows another array's data, and the
    death of the old array frees the new one's memory. An array that has a host list (e.g. zeros left by a failed `materialize()` on the CPU) shows it
    for ever on CUDA, whatever is computed there (C47).

## 6. Seeded bugs

`seeded/LOG.jsonl`: one line per edit of a model definition, the claim it breaks, the theorems that stopped proving. The harness
edits a scratch copy and rebuilds it. An edit under which everything still builds is either semantically neutral (said so in the log) or led to a
stronger theorem.

## 7. Conformance with the project's tests

`theories/Tests.v` is generated by `tools/gen_tests.py` from `/repo/test.py` (parsed as text, not run): all 144 test methods are replayed on the
model, API call by API call, with the Python and with the C backend, and every assertion of the test (values, shapes, strides, offsets, dtypes,
identity, raised errors, number of kernel launches, cache hits, gradients) is checked by computation. These are tests of the model's fidelity, not
proofs, and no property rests on them. The math library is a table at the arguments that occur.
