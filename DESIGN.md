# DESIGN

A formal model of TheNumbat/rpp in Coq 8.16.1 and proofs about it.

Build: `cd rocq && coq_makefile -f _CoqProject -o Makefile && make -j4`.

## Conventions

- Each part of the code has a model file `XModel.v` (the code, function by function, each definition citing
  the lines it models), usually a small `XSpec.v` (what the user expects, written without the model), proofs in
  `XProofs.v`, and the property theorems in `XProps.v`, each followed by `Print Assumptions` and by an
  `Example` with a concrete case that meets its hypotheses.
- An `assert` failure or `die` is the outcome `Die`; undefined behaviour (reading a slot without an object,
  out-of-bounds access, signed overflow, a read of a freed object) is the outcome `UB`; a loop that does not end
  within any fuel is `Diverge`; results are `Ok x`.
- Machine integers are `Z` with explicit wrap-around where the code can reach it.
- Concurrency is interleaving: a program is a list of steps, each by one thread, and theorems hold for every list.
- Where a property is false of the code, a theorem named `..._refuted` gives the witness, and the strongest true
  variant that we could prove stands beside it with the suffix `_partial`.

## Trusted base

- Coq's kernel (8.16.1; the compiled files are also checked by `coqchk`). No kernel check is switched off, there
  are no axioms of our own, no `Admitted`, no functors, no module types.
- The libraries std++ (lists, finite maps, tactics), Flocq (IEEE 754) and the standard library's reals. They add
  only the axioms listed next.
- That the model says what the C++ says. This was done by reading; each definition cites its lines, and every
  simplification is stated in the comment at the head of its file or at its definition.
- The specifications `*Spec.v` and the statements in `*Props.v`.

### What `Print Assumptions` lists

Closed under the global context (no axioms): 438 theorems, namely every theorem named in MANIFEST.json that is not in one of the lists below.

Axioms `ClassicalDedekindReals.sig_forall_dec` (2 theorems):

- Mat4Props: `mat_index`, `mat_transpose`

Axioms `ClassicalDedekindReals.sig_forall_dec`, `FunctionalExtensionality.functional_extensionality_dep` (31 theorems):

- Mat4Props: `mat_product`, `mat_arith`, `mat_mul_assoc`, `mat_mul_unit`, `mat_mul_apply`, `mat_vec_entries`, `mat_point_direction`, `mat_transpose_product`, `mat_equality`, `mat_det`, `mat_inverse`, `mat_singular`, `mat_inverse_unique`, `mat_inverse_product`, `mat_inverse_apply`, `mat_swap`
- QuatProps: `quat_product`, `quat_rotate`, `quat_equality`
- BBoxProps: `bbox_enclose`, `bbox_empty`, `bbox_transform`, `bbox_measure`, `bbox_enclose_empty_refuted`, `bbox_transform_empty_refuted`, `bbox_project_partial`
- TransformProps: `scale_translate`, `ortho_sides_partial`, `ortho_depth_refuted`
- FloatTextProps: `parse_f32_none`, `format_float`

Axioms `ClassicalDedekindReals.sig_forall_dec`, `ClassicalDedekindReals.sig_not_dec`, `FunctionalExtensionality.functional_extensionality_dep` (18 theorems):

- QuatProps: `quat_norm_conjugate`, `quat_unit`, `quat_inverse`, `quat_inverse_refuted`, `quat_compose`, `quat_axis_angle`
- BBoxProps: `bbox_project_refuted`
- TransformProps: `vec_unit`, `look_at_view`, `rotate_turns`, `proj_view`, `proj_edges`, `rotate_y_to_partial`, `rotate_y_to_refuted`, `rotate_z_to_refuted`, `transforms_affine`
- EulerProps: `euler_turns_partial`, `euler_180_refuted`

Axioms `ClassicalDedekindReals.sig_forall_dec`, `ClassicalDedekindReals.sig_not_dec`, `Classical_Prop.classic`, `FunctionalExtensionality.functional_extensionality_dep` (107 theorems):

- BoxFloatProps: `boxf_enclose`, `boxf_empty`, `boxf_center_partial`, `boxf_area_partial`, `boxf_transform_partial`, `boxf_project`, `boxf_nan_refuted`, `boxf_center_refuted`, `boxf_area_refuted`, `boxf_transform_refuted`
- BoxErrorProps: `boxf_center_error`, `boxf_area_error`, `boxf_point_error`, `boxf_transform_error`, `boxf_transform_margin`
- VectLengthProps: `vec_norm_error`, `vec_unit_error`, `vec4_sse_error`, `vec_unit_short_refuted`, `vec_unit_long_refuted`
- MatFloatProps: `matf_entrywise`, `matf_mul_error`, `matf_vec_error`, `matf_point_error`, `matf_rotate_error`, `matf_compose_error`, `matf_identity`, `matf_translate`, `matf_scale`, `matf_transpose`, `matf_eq`, `matf_inverse_translate`, `matf_inverse_translate_undoes`, `matf_inverse_scale_error`, `matf_inverse_scale_refuted`, `matf_inverse_identity_refuted`, `matf_assoc_refuted`
- MatInverseProps: `matf_inverse_integers`, `matf_inverse_unimodular`
- ProjFloatProps: `matf_ortho_error`, `matf_ortho_places`, `matf_proj_error`
- QuatFloatProps: `quatf_parts`, `quatf_mul_error`, `quatf_rotate_error`, `quatf_assoc_error`, `quatf_to_mat_error`, `quatf_norm_error`, `quatf_unit_error`, `quatf_inverse_error`, `quatf_unit_inverse`, `quatf_unit_rotates`, `quatf_identity`, `quatf_eq`, `quatf_assoc_refuted`, `quatf_inverse_exact_refuted`, `quatf_unit_extreme_refuted`
- MapFloatProps: `map_float_same_key`, `map_f32_keys`, `map_f64_keys`, `map_f32_finds`, `map_f64_finds`, `map_f32_zero_refuted`
- HashProps: `hash_f64_equal_keys_partial`, `hash_f32_equal_keys_partial`
- PlaceProps: `place_index`, `place_single_thread_refuted`
- RngProps: `unit_in_interval`, `unit_spread_refuted`, `coin_flip_refuted`, `coin_flip_certain_partial`
- VectProps: `simd_same`, `simd_equality`, `simd_scalar_left_refuted`, `simd_neg_value`, `simd_neg_refuted`, `simd_min_max_value`, `simd_min_nan_refuted`, `simd_dot_sse_refuted`
- VectScalarProps: `vect_f32`
- EulerProps: `euler_roundtrip_partial`, `euler_quat_roundtrip_partial`, `euler_roundtrip_refuted`, `euler_gimbal_refuted`, `euler_single_refuted`
- HashVectProps: `hash_vect_equal_keys_partial`
- FloatProps: `f32_sign_partial`, `f32_sign_refuted`, `f32_frac_partial`, `f32_frac_refuted`, `f32_smoothstep_range`, `f32_smoothstep_edges_partial`, `f32_smoothstep_edges_refuted`, `f32_smoothstep_monotone_refuted`, `f32_lerp_start_partial`, `f32_lerp_monotone_partial`, `f32_lerp_end_refuted`, `f32_lerp_start_refuted`, `f32_lerp_between_refuted`, `vect_as_roundtrip_partial`, `vect_as_truncates`, `vect_as_refuted`
- FloatTextProps: `parse_f32_longest`, `parse_f32_total`, `float_text_roundtrip_partial`, `float_text_error`, `float_text_roundtrip_refuted`

All of these are axioms of the standard library: `Coq.Reals.ClassicalDedekindReals` (the construction of the reals),
`Coq.Logic.FunctionalExtensionality` and `Coq.Logic.Classical_Prop` (through Flocq).

## Which parts of the code are modelled

| source | model | not modelled, or simplified |
|---|---|---|
| vec.h, stack.h | VecModel | memcpy branches are the element-wise ones; allocation succeeds; lengths below 2^63 |
| queue.h | QueueModel | as Vec; the u64 index expressions are proved equal to the model's for capacities up to 2^63 |
| heap.h | HeapModel | as Vec |
| map.h, hash.h, the hashes of Vect and Location | MapModel, MapFloatModel, HashModel, HashVectModel | key equality is identity, except in MapFloatModel; `hash` is any function into [1, 2^64) in the Map theorems |
| string0.h, string1.h, format1.h | StringModel, FloatTextModel | strtof is what the C standard says it is, rounding to nearest |
| format.h and every Format::Measure/Write | FormatModel, TypesModel, FloatTextModel | text of pointers is whatever snprintf gives; %f is what the C standard says it is |
| reflect.h, utility.h type lists, tuple.h, pair.h | TypesModel | the REFLECT macros' expansion; concepts |
| math.h, impl/math.cpp, limits.h | MathModel, FloatModel | the functions that forward to libm |
| impl/alloc.cpp regions | RegionModel | malloc's choices are arguments |
| range_allocator.h | RangeModel | the mutex (each operation holds it throughout) |
| alloc0.h Free_List, alloc1.h Pool | FreeListModel | the base allocator never refuses |
| rc.h Rc, box.h | RcModel | weak handles do not exist in rpp |
| rc.h Arc, thread atomics | ArcModel | sequentially consistent; objects holding Arcs |
| storage.h, opt.h | OptModel, Life |  |
| variant.h | VariantModel, Life |  |
| function.h | FunctionModel, Life |  |
| async.h Task, Promise | TaskModel, TaskSharedModel | see the heads of the files |
| thread.h Promise, thread_pos.cpp and thread_w32.cpp Flag | FlagModel, FlagOsModel | promises on macOS and Windows |
| thread.h Thread, pos/thread_pos.cpp and w32/thread_w32.cpp sys_start, sys_join, sys_detach, sys_id | ThreadModel, ThreadNamesModel | macOS thread ids; failures of waits on Windows |
| thread.h spawn, Future | SpawnModel | Windows and macOS |
| thread_pos.cpp, thread_w32.cpp: Atomic, sleep, set_priority, set_affinity | SysModel | macOS affinity; Atomic::load on Windows is a plain read |
| async.h Event, pos/async_pos.cpp, pos/async_bsd.cpp, w32/async_w32.cpp | OsEventModel | failures of the system calls |
| pool.h | PoolModel, PlaceModel, EventModel | a job's body is arbitrary |
| thread0.h Mutex, Lock, ref0.h | LockModel | failures of pthread calls |
| profile.h, impl/profile.cpp | ProfileModel, ProfAllocModel, ProfThreadsModel | per-frame allocation lists |
| log.h, log_callback.h, impl/log.cpp | LogModel, LogLineModel | flushing, the log file's name; the time zone |
| rng.h | RngModel | randomize()'s time source is an argument |
| vmath.h Vect, simd.h, impl/simd.cpp | VectModel, F32, VectLengthModel | NEON; Vect of other widths than the code instantiates are covered too |
| vmath.h Mat4, Quat, BBox, impl/vmath.cpp | Mat4Model, QuatModel, BBoxModel, BoxFloatModel, MatFloatModel, QuatFloatModel, ProjFloatModel | rounding in axis_angle, euler, to_euler, look_at, rotate and rotate_y_to, which are on real numbers; the rest of Mat4, Quat and BBox is modelled with every rounding as well |
| slice.h, array.h | SliceModel | slices of initializer lists; dangling slices |
| files.h, asyncio.h, pos/files_pos.cpp, pos/asyncio_pos.cpp, pos/asyncio_bsd.cpp, w32/... | FilesModel | other programs changing files between two system calls of one function |
| net.h, pos/net_pos.cpp, w32/net_w32.cpp | NetModel | routing, delivery and ports in use are the system's choice |

Not modelled at all: base.h (types, assert macros), impl/base.cpp, w32/w32_util.cpp (error texts), conditions on Windows, CMake files, tests. Memory orders weaker than
sequential consistency are not modelled; the code uses `__ATOMIC_SEQ_CST` or the Windows interlocked functions.

## Properties

| property | how it is modelled and proved | status |
|---|---|---|
| C01 Vec behaves as a list under every history | VecModel.v: storage as an array of slots (Raw / Live v / Husk), every member function; refinement to a list specification by induction over the operation list. | proved: Any history from any starting capacity. |
| C02 Vec never touches storage without a live object and never leaks one | Same model; every construct/destroy/read of a slot in the wrong state is the outcome UB, destroyed values are logged; prove no UB and constructed = live + destroyed. | proved: Every value entered is destroyed exactly once. |
| C03 Vec misuse is stopped | Same model; asserts are the outcome Die; prove misuse gives Die, never UB. | proved |
| C04 Vec capacity discipline and amortised growth | Same model with a move counter; potential-function induction. | proved |
| C05 Stack is LIFO | StackModel over VecModel; refinement. | proved |
| C06 Queue is FIFO through wrap-around and growth | QueueModel.v: ring of slots, indices in explicit u64 arithmetic; refinement to a FIFO list. | proved: Any history, any starting capacity; index arithmetic modulo 2^64 shown equal for capacities up to 2^63. |
| C07 Queue::clone copies the queue | QueueModel.clone, both branches (bitwise, element-wise); theorem for the first, refutation for the second. | partial: Holds for trivially copyable elements. Refuted for every other element type: the last element of every nonempty queue is not copied, and cloning an empty queue with capacity at least 2 reads raw storage. |
| C08 Queue::erase_first removes the first matching element | QueueModel.erase_first; expected refuted, with a witness. | partial: Holds when no element matches or only the last does; refuted otherwise. |
| C09 Queue lifetime | QueueModel slots; as C02. | proved: Histories without clone and erase_first (see C07, C08). |
| C10 Heap keeps the minimum on top and loses nothing | HeapModel.v: array of slots, reheap_up/down loops; heap-order invariant and permutation. | proved: Any strict weak order, any history. top() on an empty heap is unchecked in the code and undefined in the model. |
| C11 Draining a Heap sorts | HeapModel drain loop; Sorted + Permutation. | proved |
| C12 Heap sifting stays in bounds for any comparator | HeapModel over an arbitrary boolean relation. | proved |
| C13 Integer hashing is a bijection | HashModel.v: squirrel5 over N mod 2^64; explicit inverse function, two round trips. | proved |
| C14 Equal keys have equal hashes | HashModel.v strings and literals; float case refuted on signed zeros. | partial: Equal floats hash equally except 0.0 and -0.0 (refuted). Both string hashes are the same loop over bytes, modelled once; literal hashes agree on 7-bit text and differ on other text. |
| C15 Map is a finite map | MapModel.v: slot array with hashes, Robin Hood insert, backward shift erase; invariant and refinement to a finite map. | proved: All histories that never request capacity exactly 1 (that case is refuted under C18) and clone only power-of-two tables (C19). The String_View overload of get() reads null storage on a map that never allocated (map_get_view_refuted). |
| C16 Map::length counts keys | MapModel; expected refuted for re-insertion, proved for histories of fresh insertions. | partial: length() counts insertions, so it overcounts after a present key is inserted again; exact formula proved, property refuted. |
| C17 Map iteration visits each entry once | MapModel iteration; NoDup and equality with the finite map's contents. | proved: Same histories as C15. |
| C18 Map always keeps a free slot | MapModel with explicit fuel; refutation for capacity 1, proof for the others. | partial: Holds unless a capacity of 1 is requested; Map(1) diverges on the third insertion. |
| C19 Map::clone has the same contents | MapModel.clone; refuted for non power-of-two capacity, proved otherwise. | partial: Holds for tables of power-of-two capacity; refuted after reserve(5). |
| C20 Map lifetime | MapModel slots; as C02. | proved: Histories without clone. |
| C21 String equality is byte equality | StringModel.v: byte lists; strncmp modelled; refuted for NUL, proved for NUL-free. | partial: Holds when one of the strings has no NUL byte; refuted by "a\0b" == "a\0c". |
| C22 String ordering is a strict total order | StringModel operator<; algebra. | proved |
| C23 String building laws | StringModel buffers with bounds; algebra. | partial: write(i, text) is refuted for positions where i + length wraps around 2^64; everything else holds for all arguments. |
| C24 Path splitting is lossless | StringModel loops of file_suffix etc. | proved |
| C25 Formatting writes exactly what it measured | FormatModel.v: a universe of formattable values, measure and write as separate recursive functions over a bounded buffer; structural induction. | proved: For outputs shorter than 2^64 bytes. The text of a float or pointer is a parameter (whatever snprintf produces). |
| C26 Format substitutes arguments in order | FormatModel parse/write against a substitution specification. | proved: A Map that overcounts its length (C16) prints a trailing separator: format_map_overcounted_refuted. |
| C27 concat joins | FormatModel concat. | proved |
| C28 Text parsers consume exactly their token | StringModel.v: strtol and the scans over bytes. | partial: parse_string is refuted for a one-character final token and for a single final whitespace character. |
| C29 Power-of-two arithmetic | MathModel.v over Z; characterised by powers of two. | proved: Every width, u32 and u64 in particular. |
| C30 Alignment arithmetic | MathModel.v over Z mod 2^w; least/greatest multiple characterised without the code's formulas. | proved |
| C31 Integer power | MathModel.v pow loop; unsigned proved, signed with UB outcome. | partial: Proved for u8, u32, u64, i8, i16. For i32 and i64 exact unless the final, unused, squaring overflows; the full claim is refuted there and for u16. |
| C32 Region allocations never overlap while alive | RegionModel.v: chunk list, brands, used counters; invariant over histories. | partial: Holds for all histories whose requests are below 2^64 - 24 bytes; a request within 24 bytes of 2^64 wraps around and is granted from a 2 KB chunk (refuted). |
| C33 Ending a region restores the allocator | RegionModel.v. | proved: For requests below 2^64 - 24 bytes; malloc's decisions are arbitrary. |
| C34 Range allocator hands out disjoint aligned ranges inside the heap | RangeModel.v: block list with free buckets; invariant over histories. | partial: Proved for every history of requests with size + alignment <= 2^64, any heap size, 1 to 255 buckets and any bias. Beyond that size + padding wraps and a request larger than the heap is granted (refuted). |
| C35 Range allocator coalesces completely | RangeModel.v. | proved: Free blocks are exactly the maximal free runs. After freeing everything the state is the fresh one up to the address of its header and the totals. The destructor keeps the headers of ranges still live (refuted leak-freedom). |
| C36 Range allocator does not fail spuriously | RangeModel.v. | proved: Granted if and only if an aligned free run of the requested length exists. |
| C37 Range allocator statistics | RangeModel.v. | proved: Totals are exact modulo 2^64; per-bucket counts included. |
| C38 Free list never hands out one block twice | FreeListModel.v: several lists over one base allocator; invariant over histories, refinement to a set of free blocks. | proved: Histories over any number of lists sharing one base allocator. The base allocator is assumed to answer unused blocks. |
| C39 Rc destroys its object exactly when the last handle goes | RcModel.v: handles in variables and fields, counters; invariant count = number of handles, induction over programs; destruction order by an explicit stack. | proved: Handles in variables and inside objects, histories of fewer than 2^64 statements. Cycles are kept alive by themselves, as with any reference counter (rc_no_leak assumes none). x = move(x->next) is undefined when x holds the last handle (rc_move_child_refuted), and self-move empties the handle. |
| C40 Arc is safe under every interleaving | ArcModel.v: small-step interleaving semantics of atomic increments/decrements. | proved: Sequentially consistent interleavings of any number of threads, fewer than 2^63 events. Objects that own Arcs themselves are not modelled. |
| C41 Box owns exactly one object | RcModel.v, the Box half; every object has exactly one handle. | proved: Every history without a bound. legal excludes x = move(x->next), which reads a destroyed object (box_move_child_refuted). |
| C42 Opt and Storage lifetime | OptModel.v over Life.v; refinement to option and ledger of objects. | proved: Every history and every kind of T. A moved-from Opt still reports ok(); x = move(x) empties x (opt_move_source); x = move(*x) is undefined (opt_set_own_refuted). |
| C43 Variant dispatch and lifetime | VariantModel.v over Life.v and TypesModel.v; refinement to a tagged value. | proved: Every alternative list up to 255 and every history without self-assignment, which is undefined (variant_self_move_refuted). |
| C44 Function invokes what it was given and does not leak it | FunctionModel.v over Life.v (a ledger of constructed, moved-from and destroyed objects); refinement to a specification without storage, ledger invariant by induction over programs. | partial: Calls are exact. A callable moved out of a Function is never destroyed (function_moved_from_not_destroyed_refuted); everything else is destroyed exactly once. |
| C45 A coroutine task frame is released exactly once | TaskModel.v: interleaving semantics of the state word; ghost log, invariant over all schedules. | proved: Every interleaving of any number of agents; a Task variable is used by one agent at a time. Two concurrent awaiters of one task, then() on a temporary, and a frame destroyed by ~Pool while a Task owns it are outside the model. |
| C46 Awaiting never loses or duplicates a resumption | TaskModel.v; every await resumes exactly once and sees the value, from the log. | proved: A second co_await of the same task resumes with a moved-from value (task_twice). |
| C47 Flag and Promise block exactly until signalled | FlagModel.v: interleaving semantics with futex; FlagOsModel.v: Windows and macOS. | proved: Linux, macOS and Windows. Findings: on Linux a wait interrupted by a signal handler makes Flag::block terminate the program (flag_interrupt_refuted); on Windows the flag is a 16-bit count that is unset again after 65536 signals (flag_w32_wrap_refuted). |
| C48 Pool runs each job at most once and never strands a job | PoolModel.v: interleaving semantics with mutexes, condition variables, spurious wakeups and the racy read; safety invariant and progress by a decreasing measure counted in turns. | proved: Any number of workers, agents and jobs; every interleaving, spurious wakeups included. Enqueueing into a pool without workers (one hardware thread) divides by zero (pool_no_workers_refuted). A mutex may starve a thread: progress is counted in turns, the steps a thread takes while nobody else holds its mutex, and no thread holds one for more than three steps. |
| C49 Pool placement is valid | PlaceModel.v with Flocq binary32 (F32.v) for the golden ratio sequence. | proved: Findings: the constructor dies above 65 hardware threads; with one hardware thread there is no worker and enqueue divides by zero; the golden ratio is an f32, so late in the sequence runs of jobs go to one worker (place_repeats). |
| C50 Event waits stay paired with their jobs | EventModel.v: the arrays of events and jobs and the steps between them; pairing invariant. | proved: Events are identities the system keeps distinct; interrupted system calls, which stop the program, are not modelled. Shutdown abandons the jobs that still wait (event_shutdown), as the comment in the source says. |
| C51 Profiler history is bounded and frames nest | ProfileModel.v: frames as trees in an arena, the queue of frames; invariant over histories. | proved: For every history of begin_frame, end_frame, enter, exit and finalize of a thread. Also shown: finalizing inside a frame stops the program. |
| C52 Profiler timings are consistent | ProfileModel.v against a specification by intervals; refuted for repeated scopes. | partial: Proved for frames in which no scope is entered twice from the same scope. Refuted otherwise: a second entry updates the surrounding scope's call count and start time instead of its own, so both scopes' calls, inclusive and self times are wrong. |
| C53 Allocation accounting | ProfAllocModel.v: interleavings of allocate/free and the account; account = live blocks. | proved: For any number of threads under every interleaving, any addresses malloc chooses, and any set of allocators of which some do not log. Totals are below 2^63. |
| C54 Random numbers: integer range | RngModel.v; unsigned ranges exactly; the 64-bit step's parity as a permutation (RngParity.v). | partial: Unsigned ranges proved in full. Findings: for signed types range() can return values below min, overflow, or (i8) always min; the 64-bit step is an even permutation, so no seed visits every state before repeating (rng_cycle_refuted). Missing: the property is false for signed types outside rng_range_signed_partial. |
| C55 Random numbers: unit interval | RngModel.v with Flocq binary32/binary64. | partial: In [0,1), but scaled with 1e-24 and 1e-53 where 2^-24 and 2^-53 were meant, so every unit() is below 2^-54 and coin_flip(p) is constantly true for every ordinary p > 0. |
| C56 Shuffle is a permutation | RngModel.v; Permutation for every stream of numbers, and every permutation reached by some stream. | partial: Non-empty vectors. Findings: the empty vector takes a remainder by zero (shuffle_empty_refuted); for every vector of 21 or more distinct elements some order comes out of no seed at all, because a stream has only 2^64 states (shuffle_seeds_refuted). |
| C57 Vector arithmetic is componentwise | VectModel.v over an abstract scalar type, all dimensions; the 4-wide SIMD versions with Flocq binary32. | partial: Every dimension and scalar type; f32 with Flocq's rounding. Refuted parts: unary minus overwrites its operand; the 4-wide s - v and s / v compute v - s and v / s; 4-wide negation of +0 gives +0; 4-wide min and max treat NaN differently; the SSE dot product rounds in another order. |
| C58 Matrix algebra | Mat4Model.v over the reals. | proved: Exact arithmetic. |
| C59 Quaternion algebra | QuatModel.v over the reals. | proved: Exact arithmetic. Also shown: inverse() of a quaternion that is not unit is not its inverse (quat_inverse_refuted). |
| C60 Bounding boxes enclose | BBoxModel.v over the reals. | proved: Exact arithmetic, coordinates within the range of f32. Also shown: enclosing a box without points that is not a fresh one widens the result; transforming an empty box gives one with points. |
| C61 Slice and Array bounds | SliceModel.v with explicit u64 wrap. | partial: Every operation except sub in full, sub for arguments whose sum fits 64 bits. Finding: sub(start, length) checks a sum that wraps, so sub(2, 2^64-1) on a two-element slice is accepted (slice_sub_refuted). |
| C62 Log callbacks | LogModel.v over MapModel.v; interleavings. | proved: Every interleaving of any number of threads, over the proved hash table. Findings: the callbacks run under a mutex that is not recursive, so a callback that logs, or whose assert fails, hangs the program for good (log_reentrant_refuted); unsubscribing a token not in force hangs instead of stopping the program (log_unknown_token_refuted). log_stuck shows these are the only two ways. |
| C63 Tuple and type-list indexing | TypesModel.v: template specialisations as functions. | proved: Every type list and arity. |
| C64 Files round trip | FilesModel.v: descriptors and files, POSIX and Windows. | partial: Holds on Windows. Finding on POSIX: Files::write opens the file for reading, so it never writes and always returns false (files_write_refuted), and leaks a descriptor each time until nothing can be opened (files_write_exhausts). A short read is returned as success with zeros (files_read_short_refuted). |
| C65 Write watcher reports changes | FilesModel.v. | partial: Exact with respect to the time in seconds that last_write_time returns. Findings: two changes within one second are seen as one, the later being lost for good (watcher_subsecond_refuted); times before 1970 are taken for the far future (watcher_before_1970_refuted). |
| C66 Mutexes, locks and scoped ownership | LockModel.v: owners of mutexes and Lock variables; invariant over interleavings. | partial: Finding: move-assigning over a Lock that holds a mutex, or to itself, forgets that mutex, which stays locked (lock_assign_refuted, lock_self_assign_refuted). |
| C67 min/max/clamp/lerp | MathModel.v. | proved: lerp and smoothstep in exact arithmetic. With values beyond the type's finite limits (infinities) min of a list is refuted. |
| C68 swap and move | RngModel.v swap; used by every container. | proved |
| C69 Appending a Vec's own element | VecModel.v. | partial: push(v[i]) is covered by VPushOwn in vec_is_a_list. emplace(v[i]) on a full vector reads freed storage: refuted. |
| C70 One-byte changes always change a string's hash | HashModel.v; each step of the loop is a bijection. | proved |
| C71 Multi-argument hashes do not depend on argument order | HashModel.v. | proved |
| C72 ASCII case and whitespace helpers | StringModel.v. | proved |
| C73 Enum names parse back | StringModel.v parse_enum. | partial: Names of at least two characters; a one-character name at the end of the text is refuted. |
| C74 format_typename spells the type | FormatModel.v. | proved |
| C75 Region memory is aligned for its type | RegionModel.v. | partial: Only if all live sizes are multiples of 8; refuted in general: the allocator does not pad. |
| C76 Async::wait waits for its time | FilesModel.v: the timer's fields. | partial: What the timer is set to; the pool's part is C50. Findings: wait(pool, 0) disarms the timer and never ends on Linux (wait_zero_refuted); on Windows a product overflows (wait_w32_long_refuted). |
| C77 Async files round trip | FilesModel.v: the same system model with transfers of chosen length. | partial: Proved when the system writes everything at once and the file was there. Findings: a short write is success, and above 2147479552 bytes every write is short (async_short_refuted); open with O_CREAT lacks its mode argument, so a new file may be unreadable (async_mode_refuted); a failed write leaks the descriptor (async_write_leaks); on Windows an operation that completes at once is taken for a failure (w32_async_immediate_refuted). |
| C78 Transform constructors do what their names say | Mat4Model.v; each constructor against a geometric specification (TransformSpec.v). | partial: Exact arithmetic. Refuted parts: ortho maps depth to the wrong range; rotate_y_to of -y is a reflection and of directions near y is the identity; rotate_z_to takes z to the opposite direction. |
| C79 Euler angles and axis-angle are rotations | QuatModel.v; rotations as orthogonal maps (EulerSpec.v). | partial: Exact arithmetic. Proved for all angles but (180, 0, 0) and all rotations whose pitch is a quarter turn or differs from one by more than 2e-6. Refuted: euler(180, 0, 0) turns about z, so half a turn about x does not come back; a pitch close to a quarter turn loses the yaw; to_euler singles out a reflection and gives it the angles of half a turn. |
| C80 Projected boxes enclose their image | BBoxModel.v. | partial: Proved for matrices that need no perspective division. Refuted for Mat4::proj: the division by w is left out, and nothing is ever behind the camera. |
| C81 Sockets are closed once | NetModel.v: the table of sockets; ledger over programs. | partial: Proved when moves go into objects without a socket. Refuted otherwise: move assignment drops the socket of its target without closing it, and self-assignment loses it. |
| C82 Datagrams arrive as they were sent | NetModel.v. | partial: Proved for datagrams that fit a packet when the system reports no error. Refuted: a longer datagram gives a length beyond the packet; an error gives a datagram of length 2^64-1; send does not check its length. |
| C83 Address of a text | NetModel.v: memory around the view. | partial: Proved if a zero byte follows the text (any text on Windows). Refuted: the text is passed on without a terminator, so the bytes behind it are read; on Windows a bad text gives 0.0.0.0. |
| C84 Moved-from objects are destroyed too | VecModel.v slots and FunctionModel.v ledger. | partial: Refuted: reserve frees moved-from objects without destroying them, and so does moving a Function. |
| C85 Events wake who waits for them | OsEventModel.v: event descriptors on three systems. | partial: Proved for Linux and Windows under the conditions in event_partial. Refuted: on BSD wait_any waits only for the last event and a second signal survives a reset; reset of an unsignalled event dies on Linux and hangs on BSD; try_wait is always false on POSIX; more than 64 events die on Windows; self-move closes the event. |
| C86 Threads run once and are joined once | ThreadModel.v: invariant over all interleavings of agents; ThreadNamesModel.v with reused system names, by simulation. | proved: POSIX threads, and Windows where the names of threads are modelled; both may reuse names and ids. |
| C87 A spawned call delivers its result | SpawnModel.v: counter, flag and value of the shared promise; invariant over interleavings. | proved: Linux futex path, fewer than 2^63 events. future_block_twice_refuted records that the value is moved out by the first block(), so that a second one gets a moved-from value. |
| C88 A Flag may go once block() returned | FlagModel.v, FlagOsModel.v. | partial: Proved on macOS. Refuted on Linux and Windows: signal() wakes through the address of the flag after setting it. |
| C89 Atomic counters lose no update | SysModel.v: each call one access. | partial: Proved without overflow. Refuted at the ends of the range: incr and decr are undefined on POSIX and wrap on Windows. |
| C90 sleep lasts long enough | SysModel.v. | partial: Proved below 2^32 microseconds on POSIX and 2^32-1 milliseconds on Windows, without signals. Refuted beyond: the argument wraps, and on Windows 2^32-1 is for ever; a signal handler cuts the sleep short. |
| C91 Priorities are ordered | SysModel.v. | partial: Proved for policies with at least nine priorities. Refuted for the policy the Linux code uses, which has one; on macOS with unusual limits normal and high change nothing. |
| C92 set_affinity pins to the core asked for | SysModel.v. | partial: Proved for cores below 1024 on Linux and 64 on Windows. Refuted beyond: Linux dies, Windows ignores the call. macOS, where affinity is a hint, is not modelled. |
| C93 A Task can be awaited from more than one place | TaskSharedModel.v: the task model without the rule that one agent uses a task at a time. | partial: Proved for programs in which no two coroutines use one Task at the same time. Refuted otherwise: a second co_await of a running task resumes at once without a value, and the temporary of f().then(g) is destroyed while it is awaited, which dies. |
| C94 Vectors and source locations hash consistently | HashVectModel.v. | partial: The collision claims are proved. Equal float vectors hash equally when no component is zero; refuted for 0 and -0. Locations with file and function swapped collide. |
| C95 The profiler can be used by several threads at once | ProfThreadsModel.v: each lock, unlock and access a step; invariant over all interleavings, with ProfileModel as the sequential spec. | partial: Own profile, what is shown, completeness and blame are proved for every interleaving. Safety is proved while no thread ends, absence of deadlock while the given function only looks. Refuted beyond: a function that allocates or traces waits for ever for its own thread's lock, and a thread that ends clears its frames without the lock. |
| C96 The scalar float functions and vector conversions give what their names say | FloatModel.v on Flocq's binary32; error bounds of each rounding. | partial: Proved with IEEE rounding. Refuted: sign(NaN) is 1; frac is undefined beyond 2^63; smoothstep is not monotone and gives 0 past the upper edge when the edges' difference overflows; lerp at 1 need not be its end and may pass it; i32 values above 2^24 change on the way to f32 and back. |
| C97 A log line says what was logged | LogLineModel.v: printf's directives over FormatModel; injectivity of the printed text. | partial: Proved for lines below 2 GiB without NUL (reading back: without newline, and no colon in the file name). Refuted beyond: a NUL cuts the message, a newline or a colon in the file name lets one entry look like others, and a message of 2 GiB or more is read past its end. sys_time_string returns a view of a buffer that the next call changes. |
| C98 Floats are read from text correctly rounded | FloatTextModel.v: strtof as a scanner over bytes with one rounded division; soundness and completeness of the scanner against a grammar. | proved: strtof is modelled as the C standard describes it, with correct rounding. The longest prefix and the value are stated in FloatTextSpec.v. |
| C99 Floats survive being printed and parsed | FloatTextModel.v: %f as integer arithmetic on mantissa and exponent, proved to be rounding to the nearest millionth. | partial: The printed text is proved for floats of every width. The round trip is proved bit for bit for f32 of size 16 or more and for multiples of 1/64, and within a millionth for all. Refuted for the rest: neighbouring floats below 16 print the same text and small ones print as zero. |
| C100 Bounding boxes in floating point | BoxFloatModel.v: BBox on f32 with every rounding; monotone rounding carries the real bounds over. | partial: Enclosing, emptiness and projection are proved in full for finite floats. Center and area are proved as long as the sums and extents do not overflow, transforming for matrices that do not mix axes. For all matrices the transformed box is proved to be the exact one up to 8 parts in 2^24 of the sizes added, so an image misses it by at most twice that; center and area have error bounds too. Refuted beyond: the center of a box at the end of the range is infinite, the area of a flat box wider than the range is NaN, the rounded image of a corner can lie outside the transformed box, and a NaN point makes the box forget what it enclosed. |
| C101 Lengths and unit vectors in floating point | VectModel.v at f32 and VectLengthModel.v for SSE; error analysis by induction over the components with Flocq's relative error bounds. | partial: Proved for vectors of up to 1000 components, not shorter than 2^-60, whose computed length is finite: the length is right to 2N+3 units of 2^-24, each component of the unit vector to 3N+5, its squared length to 7N+12. Refuted beyond: the squares of a short vector vanish, so its unit vector is infinite and NaN, and those of a long one overflow, so its unit vector is null. |
| C102 Matrices in floating point | MatFloatModel.v: Mat4 on f32 with every rounding; error bounds for sums of four products, exact evaluation where entries are 0 and 1, and where they are small integers (MatInverseProps.v). ProjFloatModel.v: ortho, and proj given the tangent. | partial: All but the inverse is proved for finite results. The inverse is proved exact for translations, and right to 6 units for scalings between 2^-40 and 2^40, right to 3 units for matrices of integers up to 28 in size, and exact for those of them with determinant 1 or -1; its error for other matrices is missing. Refuted beyond: the determinant of a smaller scaling underflows and the inverse is infinite and NaN, a matrix times its inverse need not be the identity, and products are not associative. |
| C103 Quaternions of f32 are right to a stated number of roundings | QuatFloatModel.v: Quat on f32 with every rounding; error of chains of four products against lengths by Cauchy-Schwarz, then composed. | partial: Proved as stated for finite results. Products are not associative bit for bit (quatf_assoc_refuted), a unit quaternion times its inverse is not always exactly the identity (quatf_inverse_exact_refuted), and unit() of a finite non-zero quaternion shorter or longer than its square can express is NaN, infinite or zero (quatf_unit_extreme_refuted). Not here: axis_angle, euler and to_euler in f32. |
| C104 Maps with floating point keys | MapFloatModel.v: the loops of Map that compare keys, with == of the key type; shown to run as those of MapModel.v for float keys other than NaN. | partial: For numbers the program's comparison (equal hashes, then ==) is identity of bits, so its loops run as those of the Map model and C15-C20 carry over. Findings: 0.0 and -0.0 compare equal but are two keys (map_f32_zero_refuted), and a NaN key is never found nor erased (map_nan_lost_refuted). |

## Findings

Each is a theorem named `..._refuted` (or the one named) about the model of the code as it is.

**Containers**

- Equal float vectors with components 0 and -0 hash differently, as do the floats (`hash_vect_equal_keys_refuted`).
- `Vec::reserve` and a `Function` that is moved from leave moved-from objects that are never destroyed (`vec_reserve_destroys_moved_from_refuted`, `function_moved_from_not_destroyed_refuted`).
- `Vec::emplace(v[i])` on a full vector reads freed storage (`vec_emplace_own_refuted`).
- `Queue::clone` of a non-trivially-copyable element type omits the last element, and is undefined on an empty queue with capacity (`queue_clone_refuted`, `queue_clone_empty_refuted`).
- `Queue::erase_first` shifts the wrong way (`queue_erase_first_refuted`).
- `Map::length` counts re-insertions (`map_length_refuted`), and formatting such a map prints a trailing separator (`format_map_overcounted_refuted`).
- `Map` with capacity 1 never ends its third insertion (`map_capacity_1_refuted`).
- `Map::clone` of a table whose capacity is not a power of two loses keys (`map_clone_refuted`).
- `Map::get(String_View)` on a map that never allocated reads null (`map_get_view_refuted`).
- 0.0 and -0.0 are equal but two keys of a `Map` (`map_f32_zero_refuted`), and a NaN key can be inserted but never found or erased (`map_nan_lost_refuted`).
- `Slice::sub` accepts arguments whose sum wraps (`slice_sub_refuted`).

**Handles**

- `x = move(x->next)` on Rc and Box reads a destroyed object (`rc_move_child_refuted`, `box_move_child_refuted`); `x = move(x)` empties the handle.
- `x = move(*x)` on Opt is undefined (`opt_set_own_refuted`); self-assignment of a Variant is undefined (`variant_self_move_refuted`).
- Move-assigning over a Lock that holds a mutex, or to itself, leaves the mutex locked for good (`lock_assign_refuted`, `lock_self_assign_refuted`).
- Move-assigning over a Udp leaks its socket, to itself loses it (`udp_assign_refuted`).

**Strings, hashes, numbers**

- Floats are printed with six decimals, so different ones print alike and small ones print as zero (`float_text_roundtrip_refuted`).
- `==` on strings stops at a NUL byte (`string_eq_refuted`); `String::write` checks a sum that wraps (`string_write_refuted`).
- `parse_string` rejects a final one-character token, so one-character enum names do not parse (`parse_string_refuted`, `enum_round_trip_refuted`).
- 0.0 and -0.0 are equal but hash differently (`hash_float_equal_keys_refuted`); literal and runtime hashes differ on non-ASCII text (`hash_literal_utf8_refuted`).
- `pow` on i32/i64 can overflow in a squaring whose result is unused; u16 overflows in int (`pow_signed_refuted`, `pow_u16_refuted`); `min` of a list of infinities is a finite number (`min_list_infinity_refuted`).
- RNG: signed `range` leaves its bounds (`rng_range_signed_refuted`); the step is not one cycle (`rng_cycle_refuted`); `unit` and `coin_flip` scale with 1e-24 instead of 2^-24 (`unit_spread_refuted`, `coin_flip_refuted`); `shuffle` of nothing divides by zero (`shuffle_empty_refuted`) and of 21 or more elements cannot give every order (`shuffle_seeds_refuted`).

**Memory**

- Region requests near 2^64 wrap (`region_huge_request_refuted`); region memory is not aligned (`region_alignment_refuted`).
- Range allocator requests near 2^64 wrap (`range_overflow_refuted`); its destructor leaks the headers of live ranges (`range_destructor_leak_refuted`).

**Concurrency**

- `Flag::block` dies when a signal interrupts it (`flag_interrupt_refuted`); on Windows the flag is unset after 65536 signals (`flag_w32_wrap_refuted`); on Linux and Windows `signal` touches the flag after a waiter may have destroyed it (`flag_destroy_refuted`, `flag_w32_destroy_refuted`).
- A second coroutine that awaits a running Task resumes at once without a value (`task_two_awaiters_refuted`); `f().then(g)` dies when f is not done at once (`task_then_temporary_refuted`).
- A second `block()` on a future gets a moved-from value (`future_block_twice_refuted`).
- Events: BSD `wait_any` registers only the last event (`event_bsd_wait_any_refuted`) and needs a reset per signal (`event_bsd_signal_twice_refuted`); resetting an unsignalled event dies or hangs (`event_reset_refuted`); `try_wait` is always false on POSIX (`event_try_wait_refuted`); Windows dies above 64 events (`event_w32_many_refuted`); self-move closes the event (`event_self_move_refuted`).
- `sleep` wraps above 2^32 microseconds (`sleep_pos_refuted`, `sleep_w32_refuted`); `set_priority` does nothing on Linux (`priority_linux_refuted`); `set_affinity` fails above 1024 or 64 cores (`affinity_refuted`); `Atomic` overflow is undefined on POSIX (`atomic_overflow_refuted`).
- A Pool on a machine with one hardware thread divides by zero (`pool_no_workers_refuted`, `place_single_thread_refuted`), above 65 it dies (`place_many_threads_refuted`).
- A log callback that logs hangs (`log_reentrant_refuted`); unsubscribing a token not in force hangs (`log_unknown_token_refuted`).
- Log lines: a NUL in a message cuts it (`log_line_nul_refuted`), a newline forges entries (`log_line_newline_refuted`), so does a colon in a file name (`log_line_colon_refuted`); a message of 2 GiB or more is read past its end because its length goes to printf as an int (`log_line_long_refuted`); `sys_time_string` returns a view that the next call overwrites (`log_time_view_refuted`).
- The profiler books the second entry of a scope on its parent (`profile_times_refuted`); finalizing inside a frame dies (`profile_finalize_refuted`).
- A function given to `iterate_timings` that allocates or traces deadlocks on its own thread (`prof_callback_refuted`); a thread that ends clears its frames without the lock (`prof_quit_refuted`).

**System interfaces**

- `Files::write` on POSIX opens the file read-only: it never writes and leaks a descriptor (`files_write_refuted`, `files_write_exhausts`).
- A short read is returned as success padded with zeros (`files_read_short_refuted`); Windows read leaks a handle (`w32_read_leak_refuted`).
- The watcher misses a second change in one second, and mistakes times before 1970 (`watcher_subsecond_refuted`, `watcher_before_1970_refuted`).
- `Async::wait(pool, 0)` never ends on Linux (`wait_zero_refuted`), long waits overflow on Windows (`wait_w32_long_refuted`).
- `Async::write` takes a short write for success, creates files without a mode argument, leaks the descriptor on failure (`async_short_refuted`, `async_mode_refuted`, `async_write_leaks`); on Windows an operation that completes at once is taken for a failure (`w32_async_immediate_refuted`).
- `Udp::recv` reports lengths beyond the packet and 2^64-1 on errors (`udp_recv_long_refuted`, `udp_recv_error_refuted`); `Udp::send` does not check its length (`udp_send_long_refuted`).
- `Address` reads past its view (`address_refuted`); on Windows a bad text becomes 0.0.0.0 (`address_w32_refuted`).

**Vectors, matrices, rotations**

- `smoothstep` is not monotone (`f32_smoothstep_monotone_refuted`) and returns 0 past the upper edge when the edges are far apart (`f32_smoothstep_edges_refuted`); `lerp(a, b, 1)` may miss or pass b (`f32_lerp_end_refuted`, `f32_lerp_between_refuted`); `sign(NaN)` is 1 (`f32_sign_refuted`); `frac` is undefined beyond 2^63 (`f32_frac_refuted`).
- Unary minus overwrites its operand (`vect_neg_refuted`); the 4-wide `s - v` and `s / v` are swapped (`simd_scalar_left_refuted`); 4-wide negation of +0 (`simd_neg_refuted`), min/max of NaN (`simd_min_nan_refuted`) and the SSE dot product (`simd_dot_sse_refuted`) differ from the portable code.
- `Mat4::ortho` maps depth to the wrong range (`ortho_depth_refuted`); `rotate_y_to(-y)` is a reflection (`rotate_y_to_refuted`); `rotate_z_to` turns z to the opposite direction (`rotate_z_to_refuted`).
- `Quat::inverse` is wrong for non-unit quaternions (`quat_inverse_refuted`); `Quat::euler(180,0,0)` turns about z (`euler_180_refuted`, `euler_roundtrip_refuted`); `to_euler` loses the yaw near a quarter turn of pitch (`euler_gimbal_refuted`) and singles out a reflection (`euler_single_refuted`).
- In floating point a point with a NaN makes a `BBox` forget what it enclosed (`boxf_nan_refuted`), the center of a box near the end of the range is infinite (`boxf_center_refuted`), the surface area of a flat box can be NaN (`boxf_area_refuted`), and the transformed box need not contain its transformed corners, by one rounding (`boxf_transform_refuted`).
- The unit vector of a short float vector is infinite and NaN (`vec_unit_short_refuted`) and that of a long one is null (`vec_unit_long_refuted`), because `norm` squares the components.
- In floating point `Mat4::inverse` of a small scaling is infinite and NaN, because the determinant underflows (`matf_inverse_scale_refuted`); a matrix times its inverse need not be the identity (`matf_inverse_identity_refuted`) and products are not associative (`matf_assoc_refuted`).
- `BBox::enclose` of an emptied box widens (`bbox_enclose_empty_refuted`), `transform` of an empty box gives a non-empty one (`bbox_transform_empty_refuted`), `project` does not divide by w (`bbox_project_refuted`).

## Wrong programs

`seeded/LOG.jsonl` records 839 edits of the model, each a realistic bug, with the theorems that failed. An edit after
which everything still proved led to a stronger theorem, named in the entry.
