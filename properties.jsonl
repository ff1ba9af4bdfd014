{"id": "C01", "title": "Vec behaves as a list under every history", "statement": "Starting from an empty Vec, any sequence of push, emplace, pop, clear, reserve, grow, extend, resize, element assignment and clone leaves a Vec whose length(), operator[], front(), back(), empty() and iteration agree with the mathematical list obtained by applying the same operations to a list; reallocation never changes the contents.", "quantifier": "all element types/values, all finite operation sequences, all initial capacities", "why_tests_cant": "Tests run a handful of fixed sequences; correctness across every reallocation point and length needs an invariant over all histories.", "anchors": ["rpp/vec.h: Vec::push, pop, reserve, grow, extend, resize, clear, operator[], front, back, clone"]}
{"id": "C02", "title": "Vec never touches storage without a live object and never leaks one", "statement": "In every history each element slot is constructed only when vacant and destroyed only when live; no operation allowed by the API reads a slot holding no object; after clear() or destruction of the Vec no element object is live, so every element value that entered the Vec was destroyed exactly once. (The moved-from objects a reallocation leaves behind are the subject of C84.)", "quantifier": "all operation sequences and all capacities", "why_tests_cant": "A leak or double destruction depends on the exact history; sanitizers see only executed histories.", "anchors": ["rpp/vec.h: Vec::push, pop, clear, reserve, ~Vec"]}
{"id": "C03", "title": "Vec misuse is stopped", "statement": "operator[] with an out-of-range index, front/back/pop on an empty Vec stop the program (assert) and never read or write outside the live elements; the one escape hatch is unsafe_fill, whose added elements are raw storage.", "quantifier": "all states and all indices", "why_tests_cant": "Tests cannot run every index of every reachable state.", "anchors": ["rpp/vec.h: operator[], front, back, pop, unsafe_fill"]}
{"id": "C04", "title": "Vec capacity discipline and amortised growth", "statement": "capacity() is always at least length(); push never loses capacity; reserve(n) yields capacity at least n and never shrinks; n pushes from an empty Vec move at most 2n elements in total and leave capacity at most max(8, 2n).", "quantifier": "all n and all histories", "why_tests_cant": "A cost bound over all n is a statement about an unbounded family of runs.", "anchors": ["rpp/vec.h: grow, reserve, push"]}
{"id": "C05", "title": "Stack is LIFO", "statement": "Any sequence of push/emplace/pop/clear on a Stack behaves like a list used at one end: top() is the most recently pushed element not yet popped and iteration runs from oldest to newest.", "quantifier": "all histories", "why_tests_cant": "As C01.", "anchors": ["rpp/stack.h: Stack"]}
{"id": "C06", "title": "Queue is FIFO through wrap-around and growth", "statement": "Any sequence of push, emplace, pop, reserve, grow and clear leaves a Queue whose length(), front(), back(), penultimate(), operator[] and iteration agree with a mathematical FIFO list, for every position of the ring's head, including growth while wrapped.", "quantifier": "all element values, all histories, all ring offsets", "why_tests_cant": "The number of (capacity, head, length) combinations is unbounded; tests never wrap.", "anchors": ["rpp/queue.h: push, pop, reserve, front, back, penultimate, operator[], begin/end, start_idx"]}
{"id": "C07", "title": "Queue::clone copies the queue", "statement": "clone() returns a queue with the same elements in the same order and touches only live elements.", "quantifier": "all reachable queues, trivially copyable element types and others", "why_tests_cant": "Depends on ring position; tests clone one trivially copyable two-element queue.", "anchors": ["rpp/queue.h: clone"]}
{"id": "C08", "title": "Queue::erase_first removes the first matching element", "statement": "erase_first(x) removes exactly the first element equal to x, preserves the order of the others, reports whether an element was removed and reads only live elements.", "quantifier": "all reachable queues and all keys", "why_tests_cant": "No test exercises it; must hold for every position and ring offset.", "anchors": ["rpp/queue.h: erase_first"]}
{"id": "C09", "title": "Queue lifetime", "statement": "In every history of push/emplace/pop/clear/reserve each ring slot is constructed only when vacant, destroyed only when live, and clear()/destruction leaves no live object.", "quantifier": "all histories and ring offsets", "why_tests_cant": "As C02.", "anchors": ["rpp/queue.h: push, pop, clear, reserve, ~Queue"]}
{"id": "C10", "title": "Heap keeps the minimum on top and loses nothing", "statement": "After any sequence of push, emplace, pop, reserve and clear, the elements of a Heap are, as a multiset, those pushed and not popped, and top() is less than or equal to every element for every strict weak order '<'.", "quantifier": "all element types with a strict weak order, all histories", "why_tests_cant": "Heap-order is a global invariant over all permutations and sizes.", "anchors": ["rpp/heap.h: push, pop, top, reheap_up, reheap_down"]}
{"id": "C11", "title": "Draining a Heap sorts", "statement": "Popping a heap until empty, reading top() each time, yields the elements in non-decreasing order: heapsort of every input.", "quantifier": "all finite inputs and all strict weak orders", "why_tests_cant": "Infinite input space.", "anchors": ["rpp/heap.h: pop, top"]}
{"id": "C12", "title": "Heap sifting stays in bounds for any comparator", "statement": "Even when '<' is not an order at all, push and pop only access live elements, terminate, and preserve the multiset of elements.", "quantifier": "all binary boolean relations, all histories", "why_tests_cant": "A test fixes a comparator; robustness is over all comparators.", "anchors": ["rpp/heap.h: reheap_up, reheap_down"]}
{"id": "C13", "title": "Integer hashing is a bijection", "statement": "hash of a 64-bit integer never collides: distinct u64 values have distinct hashes and every u64 is the hash of some value; hence distinct values of any narrower integer type never collide either.", "quantifier": "all pairs of 64-bit values", "why_tests_cant": "2^128 pairs.", "anchors": ["rpp/hash.h: squirrel5, Hash<Int>"]}
{"id": "C14", "title": "Equal keys have equal hashes", "statement": "For strings, a String and a String_View with the same bytes hash equally; for floating point keys, == implies equal hashes; hash_nonzero and hash_literal never return the reserved value 0.", "quantifier": "all byte strings, all floating point values, all inputs", "why_tests_cant": "Needs all inputs; the floating case fails only at signed zeros.", "anchors": ["rpp/hash.h: hash_nonzero, hash_literal, Hash<f32>, Hash<f64>", "rpp/string0.h: Hash<String>, Hash<String_View>"]}
{"id": "C15", "title": "Map is a finite map", "statement": "After any history of insert, emplace, get_or_insert, try_erase/erase, reserve, grow and clear, try_get/contains/get answer exactly as a mathematical finite map: a key maps to its most recently inserted value unless erased since; operations on one key never disturb another; no operation loops forever. This holds for every hash function, however bad.", "quantifier": "all key/value types with decidable equality, all hash functions, all histories, all requested capacities other than 1 (capacity 1 is C18)", "why_tests_cant": "Robin Hood displacement and backward-shift deletion depend on the entire collision pattern; the state space is unbounded.", "anchors": ["rpp/map.h: insert, emplace, try_get, try_erase, get_or_insert, reserve, grow, clear, insert_slot, fix_up, try_get_"]}
{"id": "C16", "title": "Map::length counts keys", "statement": "length() equals the number of distinct keys present, and empty() is true exactly when no key is present.", "quantifier": "all histories", "why_tests_cant": "Wrong only for histories that re-insert an existing key.", "anchors": ["rpp/map.h: length, empty, insert, emplace"]}
{"id": "C17", "title": "Map iteration visits each entry once", "statement": "Iterating a Map visits every present key exactly once with its current value and nothing else.", "quantifier": "all reachable maps", "why_tests_cant": "Depends on slot layout.", "anchors": ["rpp/map.h: Iterator, begin, end"]}
{"id": "C18", "title": "Map always keeps a free slot", "statement": "No insertion ever runs with every slot occupied, so probing always terminates: at most three quarters of the slots are used, for every requested initial capacity.", "quantifier": "all capacities and histories", "why_tests_cant": "Termination is a statement about all runs; it fails only for special small capacities.", "anchors": ["rpp/map.h: Map(u64), full, reserve, grow, insert"]}
{"id": "C19", "title": "Map::clone has the same contents", "statement": "clone() of any reachable map answers every lookup as the original does.", "quantifier": "all reachable maps, including after reserve with any argument", "why_tests_cant": "Breaks only for capacities that are not powers of two.", "anchors": ["rpp/map.h: clone, reserve"]}
{"id": "C20", "title": "Map lifetime", "statement": "Every key and value object constructed in the table is destroyed exactly once over any history ending in clear or destruction; no vacant slot is read as an entry.", "quantifier": "all histories", "why_tests_cant": "As C02.", "anchors": ["rpp/map.h: Map_Slot, insert_slot, fix_up, clear, ~Map"]}
{"id": "C21", "title": "String equality is byte equality", "statement": "Two strings compare equal exactly when they have the same length and the same bytes; in particular == is consistent with < and with hashing.", "quantifier": "all pairs of byte strings", "why_tests_cant": "Fails only for strings with an embedded NUL followed by different bytes.", "anchors": ["rpp/string0.h: operator==, operator<"]}
{"id": "C22", "title": "String ordering is a strict total order", "statement": "operator< on strings is irreflexive, transitive and total, and a proper prefix is less than its extensions.", "quantifier": "all triples of byte strings", "why_tests_cant": "Infinite triples.", "anchors": ["rpp/string0.h: operator<"]}
{"id": "C23", "title": "String building laws", "statement": "string(), clone(), sub, append, terminate and write produce exactly the bytes their documentation implies: append is concatenation, sub(s,e) is the slice, terminate appends exactly one NUL, a position or length that does not fit stops the program, and all index arithmetic stays inside the allocation.", "quantifier": "all byte strings and indices", "why_tests_cant": "All lengths and indices.", "anchors": ["rpp/string0.h: String, String_View", "rpp/string1.h: sub, terminate, append, write"]}
{"id": "C24", "title": "Path splitting is lossless", "statement": "remove_file_suffix(s) followed by file_suffix(s) is s; file_suffix contains no separator unless the whole string is returned; file_extension is a suffix of the file suffix, preceded there by a dot or by nothing.", "quantifier": "all byte strings", "why_tests_cant": "Edge positions (first/last byte) of arbitrary strings.", "anchors": ["rpp/string1.h: file_suffix, file_extension, remove_file_suffix"]}
{"id": "C25", "title": "Formatting writes exactly what it measured", "statement": "For every format string and every argument value of every formattable type (integers, strings, records, containers, nested arbitrarily) the number of bytes written equals the length measured in advance, every write is inside the buffer, and the formatted string has no unwritten bytes.", "quantifier": "all format strings, all argument types and values, all nestings", "why_tests_cant": "Measure and Write are two separate recursive programs; agreement over all types is an induction over type structure.", "anchors": ["rpp/format.h: Measure, Write, format, format_length, write", "rpp/vec.h, queue.h, heap.h, map.h, opt.h, box.h, rc.h, pair.h, tuple.h, variant.h, array.h, slice.h: Measure/Write"]}
{"id": "C26", "title": "Format substitutes arguments in order", "statement": "format(fmt, args...) equals the template with the i-th unescaped '%' replaced by the text of argument i; '%%' style escapes follow the parser; supplying too many or too few arguments stops the program.", "quantifier": "all templates and argument lists", "why_tests_cant": "All templates.", "anchors": ["rpp/format.h: parse_fmt, write, format"]}
{"id": "C27", "title": "concat joins", "statement": "concat(sep, xs...) is the separator-join of the argument strings for every number of arguments.", "quantifier": "all separators and lists of strings", "why_tests_cant": "All lists.", "anchors": ["rpp/format.h: concat"]}
{"id": "C28", "title": "Text parsers consume exactly their token", "statement": "skip_whitespace removes exactly the leading whitespace; parse_string returns the longest non-whitespace prefix after skipping whitespace together with the exact rest; parse_i64 on the decimal text of any i64 returns that value and the rest of the input.", "quantifier": "all byte strings, all i64", "why_tests_cant": "All inputs; breaks at one-character tokens and trailing whitespace.", "anchors": ["rpp/format1.h: skip_whitespace, parse_string, parse_i64"]}
{"id": "C29", "title": "Power-of-two arithmetic", "statement": "ctlz, log2, popcount, next_pow2 and prev_pow2 compute leading-zero count, floor log2, number of one bits, least power of two >= x and greatest power of two <= x for every 64-bit x in their domain, with the stated results on the boundary values.", "quantifier": "all u64", "why_tests_cant": "2^64 values.", "anchors": ["rpp/math.h", "rpp/impl/math.cpp: popcount, ctlz, log2, prev_pow2, next_pow2"]}
{"id": "C30", "title": "Alignment arithmetic", "statement": "align_pow2/align return the least multiple of the alignment that is >= x and align_down variants the greatest <= x, whenever the result is representable.", "quantifier": "all u64 x and alignments", "why_tests_cant": "2^128 pairs.", "anchors": ["rpp/math.h: align, align_pow2, align_down, align_down_pow2"]}
{"id": "C31", "title": "Integer power", "statement": "pow(b,e) equals b^e modulo the width for unsigned types and exactly b^e for signed types whenever b^e is representable, without undefined overflow.", "quantifier": "all bases and exponents", "why_tests_cant": "All pairs; the signed failure needs a specific window.", "anchors": ["rpp/math.h: pow"]}
{"id": "C32", "title": "Region allocations never overlap while alive", "statement": "Any two live allocations of a thread's region stack occupy disjoint bytes of memory owned by the allocator, for every nesting of regions and every request size.", "quantifier": "all nestings, sizes and histories", "why_tests_cant": "Overlap depends on chunk boundaries reached by particular histories.", "anchors": ["rpp/impl/alloc.cpp: Region_Allocator::alloc, begin, end, new_chunk"]}
{"id": "C33", "title": "Ending a region restores the allocator", "statement": "begin(); any balanced work; end() restores the usage counters and depth to their earlier values and gives back every chunk obtained in between; a region may only be ended by its owner and in LIFO order, otherwise the program stops.", "quantifier": "all balanced histories with requests below 2^64 - 24 bytes", "why_tests_cant": "All nestings.", "anchors": ["rpp/impl/alloc.cpp: begin, end, size, depth, assert_brand", "rpp/alloc0.h: Region"]}
{"id": "C34", "title": "Range allocator hands out disjoint aligned ranges inside the heap", "statement": "Every successful allocate(size, align) returns a range inside [0, capacity) of at least the requested length, with the requested alignment, disjoint from every other live range, for every history of allocate/free.", "quantifier": "all capacities, sizes, alignments, histories", "why_tests_cant": "Fragmentation patterns are unbounded; tests try one seed.", "anchors": ["rpp/range_allocator.h: allocate, free"]}
{"id": "C35", "title": "Range allocator coalesces completely", "statement": "Freed space is merged with both neighbours so no two free blocks are adjacent; after freeing everything the allocator is indistinguishable from a fresh one (assert_clear passes).", "quantifier": "all histories and all free orders", "why_tests_cant": "All interleavings of frees.", "anchors": ["rpp/range_allocator.h: free, remove_free_block, insert_free_block, statistics, assert_clear"]}
{"id": "C36", "title": "Range allocator does not fail spuriously", "statement": "allocate fails only when no single free block is large enough for the worst-case request, and a fresh allocator of capacity n can satisfy a request of n.", "quantifier": "all states and requests", "why_tests_cant": "All fragmentation states.", "anchors": ["rpp/range_allocator.h: allocate, size_to_idx"]}
{"id": "C37", "title": "Range allocator statistics", "statement": "statistics() reports exact totals: allocated plus free bytes equal the capacity and block counts match the live ranges and free blocks.", "quantifier": "all histories", "why_tests_cant": "All histories.", "anchors": ["rpp/range_allocator.h: statistics"]}
{"id": "C38", "title": "Free list never hands out one block twice", "statement": "Between alloc and free, a free-list block is owned by one caller only; blocks are recycled; clear/destroy returns each cached block to the underlying allocator exactly once.", "quantifier": "all histories of make/destroy/clear", "why_tests_cant": "Aliasing depends on history.", "anchors": ["rpp/alloc0.h: Free_List", "rpp/alloc1.h: Pool"]}
{"id": "C39", "title": "Rc destroys its object exactly when the last handle goes", "statement": "For any history of creating, dup-ing, moving, assigning and dropping handles, references() equals the number of live handles, the object is alive while any handle exists and is destroyed exactly once when the last one is dropped.", "quantifier": "all handle histories", "why_tests_cant": "All histories.", "anchors": ["rpp/rc.h: Rc"]}
{"id": "C40", "title": "Arc is safe under every interleaving", "statement": "With any number of threads dup-ing and dropping Arc handles concurrently, in every interleaving of their atomic steps the object is destroyed exactly once, only after the last handle is dropped, and never used after destruction.", "quantifier": "all thread counts and all schedules", "why_tests_cant": "Schedules cannot be enumerated by tests.", "anchors": ["rpp/rc.h: Arc"]}
{"id": "C41", "title": "Box owns exactly one object", "statement": "Construction, move, assignment and destruction of Boxes destroy each boxed object exactly once and never access a destroyed one.", "quantifier": "all histories of handles", "why_tests_cant": "All histories.", "anchors": ["rpp/box.h: Box"]}
{"id": "C42", "title": "Opt and Storage lifetime", "statement": "An Opt holding a value exposes that value; clear, emplace, assignment and destruction destroy the held object exactly once; access to an empty Opt stops the program. (Assigning an Opt its own content is excluded: that is undefined behaviour.)", "quantifier": "all histories", "why_tests_cant": "All histories.", "anchors": ["rpp/opt.h: Opt", "rpp/storage.h: Storage"]}
{"id": "C43", "title": "Variant dispatch and lifetime", "statement": "match calls the handler for the alternative actually stored, with its value, for every number of alternatives; assignment from another Variant or value destroys the previous alternative exactly once. (Self-assignment is excluded: it is undefined behaviour.)", "quantifier": "all alternative lists up to 255, all histories", "why_tests_cant": "Dispatch switches implementation above 8 alternatives; all sizes needed.", "anchors": ["rpp/variant.h: Variant::match, construct, destruct, Accessors"]}
{"id": "C44", "title": "Function invokes what it was given and does not leak it", "statement": "Calling a Function runs the callable most recently stored; every callable object constructed inside a Function is destroyed exactly once over any history of moves, assignments and destruction.", "quantifier": "all histories", "why_tests_cant": "All histories.", "anchors": ["rpp/function.h: Function"]}
{"id": "C45", "title": "A coroutine task frame is released exactly once", "statement": "In every interleaving of the task finishing, being awaited, and its handle being dropped, the coroutine frame is destroyed exactly once, never while it may still run, and never used afterwards.", "quantifier": "all schedules of producer and owner", "why_tests_cant": "Race outcomes cannot be enumerated by tests.", "anchors": ["rpp/async.h: Task, Final_Suspend, ~Task, await_suspend"]}
{"id": "C46", "title": "Awaiting never loses or duplicates a resumption", "statement": "If a task is awaited, the awaiter is resumed exactly once, after the task's result is available, whatever the race between registration and completion.", "quantifier": "all schedules", "why_tests_cant": "As C45.", "anchors": ["rpp/async.h: await_suspend, Final_Suspend, await_resume, return_value"]}
{"id": "C47", "title": "Flag and Promise block exactly until signalled", "statement": "block() returns only after signal() and, once signalled, every present and future blocker can return: no wake-up is lost in any interleaving, with spurious wake-ups allowed; a Future delivers the value its Promise was filled with.", "quantifier": "all numbers of threads and schedules", "why_tests_cant": "Lost wake-ups are schedule dependent.", "anchors": ["rpp/thread0.h: Flag", "rpp/pos/thread_pos.cpp: Flag::block, signal", "rpp/thread.h: Promise"]}
{"id": "C48", "title": "Pool runs each job at most once and never strands a job", "statement": "Every job enqueued is taken by exactly one worker at most once, jobs on one worker run in FIFO order, and no worker sleeps forever while its queue is non-empty or shutdown was requested, in every interleaving.", "quantifier": "all schedules, all numbers of jobs and workers", "why_tests_cant": "Schedules.", "anchors": ["rpp/pool.h: enqueue, do_work, ~Pool"]}
{"id": "C49", "title": "Pool placement is valid", "statement": "Each worker gets a distinct CPU within range for every hardware thread count, and enqueue picks an existing worker.", "quantifier": "all hardware thread counts 1..64 and all sequence numbers", "why_tests_cant": "Depends on the machine the test runs on.", "anchors": ["rpp/pool.h: Pool(), enqueue, set_affinity"]}
{"id": "C50", "title": "Event waits stay paired with their jobs", "statement": "Each job waiting on an event is resumed exactly when its own event fires, never another's, through any sequence of registrations and firings.", "quantifier": "all histories of enqueue_event and event firings", "why_tests_cant": "Swap-with-last removal must preserve the pairing for all orders.", "anchors": ["rpp/pool.h: enqueue_event, do_events"]}
{"id": "C51", "title": "Profiler history is bounded and frames nest", "statement": "At most eight frames are kept per thread for any number of frames; begin/end of frames must alternate, otherwise the program stops; the frame tree's enter/exit return to the root.", "quantifier": "all histories of frames and scopes", "why_tests_cant": "Unbounded histories.", "anchors": ["rpp/impl/profile.cpp: begin_frame, end_frame, enter, exit", "rpp/profile.h"]}
{"id": "C52", "title": "Profiler timings are consistent", "statement": "For each scope the recorded calls equals the number of entries and its inclusive time equals the time spent between its entries and exits; self times are inclusive times minus those of children and are never negative.", "quantifier": "all balanced scope histories and clock readings", "why_tests_cant": "All trees.", "anchors": ["rpp/impl/profile.cpp: Frame_Profile::enter, exit, compute_self_times"]}
{"id": "C53", "title": "Allocation accounting", "statement": "For every balanced allocation history, per-allocator counts and live bytes reported by the profiler equal the true ones, and finalize reports a leak exactly when some allocation was not freed.", "quantifier": "all allocation histories", "why_tests_cant": "All histories.", "anchors": ["rpp/impl/profile.cpp: alloc, finalize"]}
{"id": "C54", "title": "Random numbers: integer range", "statement": "RNG range(min,max) of an unsigned or signed type returns a value in [min,max) for every generator state; the generator visits every 64-bit state before repeating; integer output covers every value.", "quantifier": "all seeds/states and bounds", "why_tests_cant": "2^64 states.", "anchors": ["rpp/rng.h: Stream::operator(), range, integer"]}
{"id": "C55", "title": "Random numbers: unit interval", "statement": "unit<f32>() and unit<f64>() return values in [0,1) whose granularity is 2^-24 / 2^-53, so that coin_flip(p) is true with frequency p over all generator outputs.", "quantifier": "all 64-bit generator outputs", "why_tests_cant": "2^64 outputs.", "anchors": ["rpp/rng.h: Stream::unit, coin_flip"]}
{"id": "C56", "title": "Shuffle is a permutation", "statement": "shuffle permutes the elements of any vector, including empty and one-element vectors, and every permutation can be produced by some sequence of generator outputs, and by a stream with some seed.", "quantifier": "all vectors and generator states", "why_tests_cant": "All lengths.", "anchors": ["rpp/rng.h: shuffle"]}
{"id": "C57", "title": "Vector arithmetic is componentwise", "statement": "Vector operators agree with their scalar definition componentwise for every dimension, and the 4-wide fast path computes the same function as the generic loop.", "quantifier": "all dimensions, all values", "why_tests_cant": "The fast path is a separate implementation.", "anchors": ["rpp/vmath.h: Vect operators, operator-(T,Vect)", "rpp/simd.h", "rpp/impl/simd.cpp"]}
{"id": "C58", "title": "Matrix algebra", "statement": "In exact arithmetic matrix product is associative, has I as unit, agrees with applying matrices to vectors, transpose reverses products, and inverse(M)*M = I whenever det M is non-zero.", "quantifier": "all 4x4 matrices", "why_tests_cant": "Infinite.", "anchors": ["rpp/impl/vmath.cpp: operator*, transpose, inverse"]}
{"id": "C59", "title": "Quaternion algebra", "statement": "In exact arithmetic quaternion product is associative and norm-multiplicative, conjugation reverses products, to_mat() agrees with rotate() on unit quaternions, and q*inverse(q) is the identity for unit q.", "quantifier": "all quaternions", "why_tests_cant": "Infinite.", "anchors": ["rpp/vmath.h: Quat"]}
{"id": "C60", "title": "Bounding boxes enclose", "statement": "After enclosing any set of points or boxes, the box contains each of them and is the least such box; transforming a box yields one containing every transformed point of it.", "quantifier": "all finite sets of points, all affine maps, in exact arithmetic", "why_tests_cant": "Infinite.", "anchors": ["rpp/vmath.h: BBox::enclose, transform, empty"]}
{"id": "C61", "title": "Slice and Array bounds", "statement": "Slice/Array indexing outside the length stops the program; sub(start,len) of a slice is the corresponding sublist and never exposes elements outside the original slice.", "quantifier": "all slices, all start/length in u64", "why_tests_cant": "2^128 arguments, fails only on wrap-around.", "anchors": ["rpp/slice.h: sub, operator[]", "rpp/array.h: operator[]"]}
{"id": "C62", "title": "Log callbacks", "statement": "A subscribed callback receives every message logged until it is unsubscribed and none after; tokens are never reused; unsubscribing one leaves the others.", "quantifier": "all histories of subscribe/unsubscribe/log", "why_tests_cant": "All histories.", "anchors": ["rpp/log.h", "rpp/impl/log.cpp: subscribe, unsubscribe, output"]}
{"id": "C63", "title": "Tuple and type-list indexing", "statement": "get<I> returns the I-th constructor argument for every arity; Reverse and Enumerate of type lists satisfy their list laws; Index_Of and Choose are inverse on distinct lists.", "quantifier": "all arities and type lists", "why_tests_cant": "All arities.", "anchors": ["rpp/tuple.h: get", "rpp/reflect.h: Reverse, Enumerate", "rpp/utility.h: Index_Of, Choose, Distinct"]}
{"id": "C64", "title": "Files round trip", "statement": "After write(path, data) returns true, read(path) returns data; write fails only if the operating system refuses.", "quantifier": "all data and file system states", "why_tests_cant": "All data.", "anchors": ["rpp/files.h", "rpp/pos/files_pos.cpp: read, write"]}
{"id": "C65", "title": "Write watcher reports changes", "statement": "poll() returns true exactly when the file's modification time has advanced since the previous successful observation.", "quantifier": "all sequences of observed modification times", "why_tests_cant": "All sequences.", "anchors": ["rpp/files.h: Write_Watcher"]}
{"id": "C66", "title": "Mutexes, locks and scoped ownership", "statement": "A scoped lock releases exactly what it acquired over any history of moves.", "quantifier": "all histories", "why_tests_cant": "All histories.", "anchors": ["rpp/thread0.h: Lock"]}
{"id": "C67", "title": "min/max/clamp/lerp", "statement": "min and max return the least/greatest of any non-empty argument list; clamp(x,lo,hi) is in [lo,hi] and is x when already inside, for lo <= hi; lerp and smoothstep run from their first to their second end point without decreasing; abs is the absolute value wherever that is representable; KB, MB, GB are multiplication by 2^10, 2^20, 2^30.", "quantifier": "all totally ordered arguments", "why_tests_cant": "All inputs.", "anchors": ["rpp/math.h: min, max, clamp, lerp"]}
{"id": "C68", "title": "swap and move", "statement": "swap exchanges two objects for any type, trivially movable or not, including when both references are the same object.", "quantifier": "all values, aliasing included", "why_tests_cant": "All types.", "anchors": ["rpp/utility.h: swap"]}
{"id": "C69", "title": "Appending a Vec's own element", "statement": "v.push(v[i]) and v.emplace(v[i]) append a copy of element i whatever the vector's capacity.", "quantifier": "all histories, all valid i", "why_tests_cant": "The failing case depends on length hitting capacity exactly.", "anchors": ["rpp/vec.h: push, emplace"]}
{"id": "C70", "title": "One-byte changes always change a string's hash", "statement": "Two strings of equal length that differ in exactly one byte have different hashes.", "quantifier": "all strings, positions and byte pairs", "why_tests_cant": "2^8 choices at each position of strings of every length.", "anchors": ["rpp/string0.h: Hash<String_View>, Hash<String>", "rpp/hash.h: hash_combine"]}
{"id": "C71", "title": "Multi-argument hashes do not depend on argument order", "statement": "hash(a,b,...) of two or more arguments is the same for every ordering of the arguments, so swapping the fields of a key never changes its hash.", "quantifier": "all argument lists", "why_tests_cant": "Order insensitivity is a statement about every permutation of every argument list.", "anchors": ["rpp/hash.h: hash(Ts&&...)"]}
{"id": "C72", "title": "ASCII case and whitespace helpers", "statement": "to_uppercase and to_lowercase exchange exactly the letters a-z and A-Z, leave every other byte alone and are idempotent; is_whitespace holds exactly of space, tab, newline, carriage return and vertical tab.", "quantifier": "all 256 bytes", "why_tests_cant": "Boundary letters and the bytes next to them.", "anchors": ["rpp/string0.h: ascii::to_uppercase, to_lowercase, is_whitespace"]}
{"id": "C73", "title": "Enum names parse back", "statement": "For every reflected enum with distinct enumerator names, the name enum_name gives for a value parses back (alone or followed by whitespace and more text) to that value and the exact rest, also when several names share a value; any other token is rejected.", "quantifier": "all enums (lists of names and values), all values, all following text", "why_tests_cant": "Quantifies over all enum declarations; breaks at one-character names.", "anchors": ["rpp/format1.h: enum_name, parse_enum"]}
{"id": "C74", "title": "format_typename spells the type", "statement": "For every type built from named types by const, volatile, references, pointers, arrays, template application and function types, format_typename returns the text obtained by reading the type off recursively: qualifiers in front, &, && and * behind, template arguments separated by \", \" between angle brackets, with allocator arguments left out.", "quantifier": "all type expressions of any nesting depth and any number of template arguments", "why_tests_cant": "The result is built by recursive nested format and concat calls; all nestings have to be covered.", "anchors": ["rpp/format.h: Typename, format_typename", "rpp/function.h: Typename"]}
{"id": "C75", "title": "Region memory is aligned for its type", "statement": "Memory obtained from a region for an object of type T is aligned for T, whatever was allocated before it.", "quantifier": "all allocation histories and sizes", "why_tests_cant": "Alignment of an address depends on every earlier size.", "anchors": ["rpp/impl/alloc.cpp: Region_Allocator::alloc, new_chunk"]}
{"id": "C76", "title": "Async::wait waits for its time", "statement": "A coroutine that awaits wait(pool, ms) goes on after ms milliseconds, for every ms, and does go on.", "quantifier": "all ms in u64", "why_tests_cant": "2^64 arguments; fails only at the ends of the range.", "anchors": ["rpp/asyncio.h: wait", "rpp/pos/asyncio_pos.cpp: wait", "rpp/w32/asyncio_w32.cpp: wait"]}
{"id": "C77", "title": "Async files round trip", "statement": "After a task write(pool, path, data) returns true, read(pool, path) returns data; other files are left alone and nothing stays open.", "quantifier": "all data, paths, file systems and choices of the operating system", "why_tests_cant": "Depends on what the operating system grants, on sizes above 2 GB, and on short writes.", "anchors": ["rpp/asyncio.h", "rpp/pos/asyncio_pos.cpp: read, write", "rpp/w32/asyncio_w32.cpp: read, write"]}
{"id": "C78", "title": "Transform constructors do what their names say", "statement": "In exact arithmetic: translate and scale act as named; rotate(a, axis) is the rotation by a degrees about axis; look_at maps pos to the origin, at onto the negative z axis at its distance, and preserves distances and handedness; ortho maps the given box onto the clip cube; proj maps the near plane to depth 1 and the edges of the field of view to the edges of the screen; rotate_y_to and rotate_z_to are rotations taking the y or z axis to the given direction.", "quantifier": "all positions, axes, angles, boxes and directions", "why_tests_cant": "Infinite; the degenerate directions are separate cases.", "anchors": ["rpp/impl/vmath.cpp: Mat4::look_at, scale, rotate, translate, ortho, proj, rotate_y_to, rotate_z_to"]}
{"id": "C79", "title": "Euler angles and axis-angle are rotations", "statement": "In exact arithmetic: axis_angle(axis, a) is the rotation by a degrees about axis, the same as Mat4::rotate; euler(angles) is the rotation about x, then y, then z by the given degrees; and euler(to_euler(m)) is the rotation m again, for every rotation m.", "quantifier": "all axes, angles and rotations", "why_tests_cant": "Infinite; special-cased angles and gimbal lock are separate branches.", "anchors": ["rpp/vmath.h: Quat::axis_angle, euler, to_euler", "rpp/impl/vmath.cpp: Mat4::to_euler"]}
{"id": "C80", "title": "Projected boxes enclose their image", "statement": "BBox::project gives the least rectangle that contains the image on the screen of every point of the box if none is behind the camera, the empty rectangle if all are, and the whole screen otherwise.", "quantifier": "all boxes and projection matrices, in exact arithmetic", "why_tests_cant": "Infinite; only the eight corners are looked at.", "anchors": ["rpp/vmath.h: BBox::project"]}
{"id": "C81", "title": "Sockets are closed once", "statement": "Every socket a Udp object opens is held by exactly one object, survives moves, is never closed twice, and is closed when its last holder is destroyed.", "quantifier": "all histories of construction, moves and destruction", "why_tests_cant": "Leaks and double closes depend on the order of moves.", "anchors": ["rpp/net.h: Udp", "rpp/pos/net_pos.cpp: Udp::Udp, ~Udp, operator="]}
{"id": "C82", "title": "Datagrams arrive as they were sent", "statement": "recv returns the datagrams that arrived at the socket in order, each once, with its length, bytes and sender, and nothing if there is none; send hands over exactly the first n bytes of the packet.", "quantifier": "all histories of arrivals, sends and receives, all datagrams, all errors the system can report", "why_tests_cant": "Depends on what the system reports and on datagrams from strangers.", "anchors": ["rpp/pos/net_pos.cpp: Udp::recv, send", "rpp/w32/net_w32.cpp: Udp::recv, send"]}
{"id": "C83", "title": "Address of a text", "statement": "Address(text, port) is the address the text spells in dotted decimal and the port, both in network order, whatever surrounds the text in memory; a text that is no address is rejected.", "quantifier": "all texts, buffers and ports", "why_tests_cant": "Depends on the bytes behind the view.", "anchors": ["rpp/pos/net_pos.cpp: Address", "rpp/w32/net_w32.cpp: Address"]}
{"id": "C84", "title": "Moved-from objects are destroyed too", "statement": "Every object a container or Function ever constructed, including one that was later moved from, has its destructor run exactly once by the time the container is destroyed.", "quantifier": "all element types, histories and capacities", "why_tests_cant": "Only types that count their objects notice, and only when growth moves elements.", "anchors": ["rpp/vec.h: Vec::reserve", "rpp/function.h: Function", "rpp/queue.h: Queue::reserve", "rpp/heap.h: Heap::reserve"]}
{"id": "C85", "title": "Events wake who waits for them", "statement": "Event::wait_any returns the index of a signalled event and returns as soon as one of the given events is signalled; an event stays signalled until reset, moves keep it, and it is closed once.", "quantifier": "all sets of events, signals, resets and interleavings", "why_tests_cant": "Lost wake-ups depend on the order of signal and wait and on which event of many is signalled.", "anchors": ["rpp/async.h: Event", "rpp/pos/async_pos.cpp: Event", "rpp/pos/async_bsd.cpp: Event", "rpp/w32/async_w32.cpp: Event"]}
{"id": "C86", "title": "Threads run once and are joined once", "statement": "A started thread calls its function exactly once, then destroys and frees the function object; join() and ~Thread return only after that; every started thread is joined or detached exactly once, moves keep the handle, and only misuse of an empty Thread or a self-join stops the program.", "quantifier": "all programs of starts, moves, joins, detaches and destructions by all threads, in all interleavings", "why_tests_cant": "Use after free and double joins depend on the schedule.", "anchors": ["rpp/thread.h: Thread", "rpp/pos/thread_pos.cpp: sys_start, sys_join, sys_detach"]}
{"id": "C87", "title": "A spawned call delivers its result", "statement": "spawn(f, args) calls f once; the first block() on the future returns f's result after f returned; nobody touches the shared promise after it is freed, even if every future is dropped early, and it is freed exactly once; the spawned thread never waits for anybody.", "quantifier": "all results, all schedules of the spawned thread and of any number of threads that copy, pass on, block on, query and drop futures", "why_tests_cant": "Lifetime races between the spawned thread and the holders depend on the schedule.", "anchors": ["rpp/thread.h: spawn, Future, Promise", "rpp/rc.h: Arc"]}
{"id": "C88", "title": "A Flag may go once block() returned", "statement": "Once block() has returned, threads whose signal() set the flag no longer access it, so that the waiter may destroy it.", "quantifier": "all interleavings", "why_tests_cant": "The window is a few instructions wide.", "anchors": ["rpp/pos/thread_pos.cpp: Flag", "rpp/w32/thread_w32.cpp: Flag"]}
{"id": "C89", "title": "Atomic counters lose no update", "statement": "Whatever the interleaving, a counter ends at its start plus increments minus decrements, increments hand out each number once, one of the competing compare_and_swaps wins, exchanges lose and duplicate nothing, and all platforms agree.", "quantifier": "all lists of calls by all threads", "why_tests_cant": "Depends on the interleaving and on overflow.", "anchors": ["rpp/thread0.h: Atomic", "rpp/pos/thread_pos.cpp: Atomic", "rpp/w32/thread_w32.cpp: Atomic"]}
{"id": "C90", "title": "sleep lasts long enough", "statement": "Thread::sleep(ms) returns after at least ms milliseconds, and does return.", "quantifier": "all durations", "why_tests_cant": "No test sleeps for an hour.", "anchors": ["rpp/pos/thread_pos.cpp: sleep", "rpp/w32/thread_w32.cpp: sleep"]}
{"id": "C91", "title": "Priorities are ordered", "statement": "set_priority of a higher level gives the thread a strictly higher priority, whatever the system's limits, and a thread can return to normal.", "quantifier": "all levels and all limits a system may report", "why_tests_cant": "Depends on the limits of the system.", "anchors": ["rpp/pos/thread_pos.cpp: set_priority", "rpp/w32/thread_w32.cpp: set_priority"]}
{"id": "C92", "title": "set_affinity pins to the core asked for", "statement": "After set_affinity(core) the thread runs on that core and no other; a core the machine does not have is rejected.", "quantifier": "all cores and core counts", "why_tests_cant": "Needs machines with very many cores.", "anchors": ["rpp/pos/thread_pos.cpp: set_affinity", "rpp/w32/thread_w32.cpp: set_affinity"]}
{"id": "C93", "title": "A Task can be awaited from more than one place", "statement": "Any number of coroutines may await one Task and each resumes after the task has returned; task().then(f) on a temporary runs f with the result.", "quantifier": "all programs and interleavings of coroutines that share tasks", "why_tests_cant": "Depends on which coroutine awaits while the task is still running.", "anchors": ["rpp/async.h: Task::await_ready, await_suspend, await_resume, then, ~Task"]}
{"id": "C94", "title": "Vectors and source locations hash consistently", "statement": "Vectors that compare equal hash equally; integer vectors that differ in one component never collide; two locations in one function on different lines never collide.", "quantifier": "all vectors of every length and all locations", "why_tests_cant": "Ranges over all 2^32 values of each component.", "anchors": ["rpp/vmath.h: Hash<Vect>", "rpp/log.h: Hash<Log::Location>"]}
{"id": "C95", "title": "The profiler can be used by several threads at once", "statement": "Each thread's profile is what its own calls make it, however the threads interleave; iterate_timings shows only nodes of the last frame each thread has ended and, when the threads are idle, all of them once; calls cannot deadlock and no thread is stopped by another's misuse.", "quantifier": "all programs of any number of threads, all interleavings of their locks and accesses", "why_tests_cant": "Depends on the interleaving of critical sections.", "anchors": ["rpp/profile.h: iterate_timings, Thread_Profile", "rpp/impl/profile.cpp: begin_frame, end_frame, enter, exit, alloc, register_thread, unregister_thread"]}
{"id": "C96", "title": "The scalar float functions and vector conversions give what their names say", "statement": "For f32: sign is -1, 0 or 1; frac is exactly the fractional part; smoothstep is a number between 0 and 1 for all arguments, 0 up to the lower edge, 1 from the upper, never decreasing; lerp gives its ends at 0 and 1, grows with the parameter and stays between the ends. Vect::as keeps every value the new type can hold and drops fractions otherwise.", "quantifier": "all f32 arguments, including infinities and NaN, and vectors of every length", "why_tests_cant": "2^96 argument triples; rounding in every operation.", "anchors": ["rpp/math.h: frac, smoothstep, lerp, clamp", "rpp/impl/math.cpp: sign", "rpp/vmath.h: Vect::as"]}
{"id": "C97", "title": "A log line says what was logged", "statement": "Every logged message is printed on one line with the time of day, level, thread, file and line in decimal, indentation and the template filled in; a failed assertion prints its expression as written; from what stdout shows the entries can be read back; the time string stays what it is.", "quantifier": "all messages, templates, arguments, files, times, threads, indentations and sequences of calls", "why_tests_cant": "Messages and arguments are arbitrary bytes of any length.", "anchors": ["rpp/impl/log.cpp: output, sys_time_string", "rpp/log.h: log, assert"]}
{"id": "C98", "title": "Floats are read from text correctly rounded", "statement": "parse_f32 skips white space, takes the longest prefix that is a number - signed, decimal or hexadecimal, with point and exponent, an infinity or a NaN - and returns the f32 nearest to it with everything that follows. If the text does not begin with a number it returns nothing.", "quantifier": "all texts of any length", "why_tests_cant": "There are infinitely many texts, and only a few of them round in a way that a wrong rounding shows.", "anchors": ["rpp/format1.h: Format::parse_f32"]}
{"id": "C99", "title": "Floats survive being printed and parsed", "statement": "Formatting a float prints it rounded to the nearest millionth, and parsing that text gives the same float back.", "quantifier": "all f32 and f64 values and all texts that follow", "why_tests_cant": "There are 2^32 and 2^64 floats.", "anchors": ["rpp/format.h: Format::Measure<f32>, Format::Write<f32>, Format::Measure<f64>, Format::Write<f64>", "rpp/format1.h: Format::parse_f32"]}
{"id": "C100", "title": "Bounding boxes in floating point", "statement": "A box of floats that encloses finite points and boxes contains every one of them and is the smallest such box, without rounding error. Its center lies in it, its surface area is not negative, the transformed box contains the transformed image of every point in the box, and the projected rectangle is the smallest that contains the projected image of every point.", "quantifier": "all f32 points, boxes and matrices, and all sequences of enclosed things", "why_tests_cant": "Rounding errors appear only at particular operands among 2^96 points and 2^512 matrices.", "anchors": ["rpp/vmath.h: BBox::enclose, BBox::transform, BBox::project, BBox::center, BBox::surface_area, BBox::empty", "rpp/impl/vmath.cpp: operator*(Mat4, Vec3)"]}
{"id": "C101", "title": "Lengths and unit vectors in floating point", "statement": "The length of a vector of floats is the length of the vector up to a few roundings, and its unit vector has the direction of the vector and length one up to a few roundings, for a vector that is not null.", "quantifier": "all f32 vectors of all dimensions, and Vec4 with its SSE code", "why_tests_cant": "Cancellation, underflow and overflow show only at particular operands among 2^96 vectors.", "anchors": ["rpp/vmath.h: Vect::norm, Vect::unit, Vect::normalize, Vect::norm_squared"]}
{"id": "C102", "title": "Matrices in floating point", "statement": "Sums and multiples of Mat4 round each entry once. Products of matrices, and of matrices with vectors, points and directions, are exact up to a few roundings of the sum of the sizes, also when two matrices are applied one after the other. The identity changes nothing, translate and scale round each coordinate once, transposing is exact, and the inverse undoes a translation exactly and a scaling up to rounding. Each entry of ortho is right to four roundings, so that the edges of the box go to -1 and 1 up to a stated error, and proj rounds only the inverse of the tangent and its quotient by the aspect ratio.", "quantifier": "all f32 matrices, vectors and points", "why_tests_cant": "There are 2^512 matrices, and rounding errors, underflow and overflow show only at particular ones.", "anchors": ["rpp/impl/vmath.cpp: Mat4::operator*, Mat4::operator+, Mat4::rotate, Mat4::transpose, Mat4::inverse, Mat4::scale, Mat4::translate, Mat4::ortho, Mat4::proj", "rpp/vmath.h: Mat4"]}
{"id": "C103", "title": "Quaternions of f32 are right to a stated number of roundings", "statement": "Every part of a sum, difference or scaled quaternion is the correctly rounded exact part; conjugate and negation are exact. When the result is finite, each part of a product is within 5 units of 2^-24, relative to the product of the two lengths, of the exact quaternion product, in the order written; a rotated vector is within 16 units of the exact rotation relative to the length of the vector times the squared length of the quaternion; the matrix of q is within 5 units relative to 1 + 2|q|^2, entry by entry. For |q| at least 2^-60 with a finite norm, norm() is within 7 units of the length, unit() and inverse() are finite and within 17 units part by part, unit() has squared length within 40 units of 1, a unit quaternion times its inverse is within 64 units of the identity, and rotating by unit() keeps the length of a vector to within 75 units. The identity quaternion leaves every finite quaternion and vector exactly as it is. Two quaternions compare equal exactly when their parts have equal values, and != is the negation of ==.", "quantifier": "every two quaternions and every vector of f32", "why_tests_cant": "There are 2^256 pairs of quaternions, and rounding errors, underflow and overflow show only at particular ones.", "anchors": ["rpp/vmath.h: Quat, Quat::operator*, Quat::rotate, Quat::to_mat, Quat::norm, Quat::unit, Quat::inverse, Quat::conjugate, Quat::operator=="]}
{"id": "C104", "title": "Maps with floating point keys", "statement": "After any history of a Map with f32 or f64 keys that stored no NaN, a value stored under a number is found under that number, erased under it and replaced under it, as in a finite map. Keys that compare equal should be one key, and what was inserted should be found.", "quantifier": "all histories, all f32 and f64 keys", "why_tests_cant": "The keys that compare equal without having equal bits, and the table layouts they are probed in, are rare; all histories.", "anchors": ["rpp/map.h: Map::try_get_, Map::insert_slot, Map::try_erase, Map::try_get", "rpp/hash.h: Hash<f32>, Hash<f64>, hash_nonzero"]}
