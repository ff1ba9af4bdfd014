{
 "claims": [
  {
   "property": "C01",
   "status": "proved",
   "theorems": [
    "vec_is_a_list",
    "vec_clone_same",
    "vec_of_list_contents",
    "vec_make_contents"
   ],
   "note": "Any history from any starting capacity."
  },
  {
   "property": "C02",
   "status": "proved",
   "theorems": [
    "vec_lifetimes"
   ],
   "note": "Every value entered is destroyed exactly once."
  },
  {
   "property": "C03",
   "status": "proved",
   "theorems": [
    "vec_misuse_dies",
    "vec_is_a_list",
    "vec_unsafe_fill_exposes_raw"
   ],
   "note": ""
  },
  {
   "property": "C04",
   "status": "proved",
   "theorems": [
    "vec_push_amortised",
    "vec_capacity_discipline"
   ],
   "note": ""
  },
  {
   "property": "C05",
   "status": "proved",
   "theorems": [
    "stack_is_lifo"
   ],
   "note": ""
  },
  {
   "property": "C06",
   "status": "proved",
   "theorems": [
    "queue_is_fifo",
    "queue_of_list_contents",
    "queue_index_arithmetic",
    "queue_never_ub"
   ],
   "note": "Any history, any starting capacity; index arithmetic modulo 2^64 shown equal for capacities up to 2^63."
  },
  {
   "property": "C07",
   "status": "partial",
   "theorems": [
    "queue_clone_trivial_exact_partial",
    "queue_clone_refuted",
    "queue_clone_empty_refuted"
   ],
   "note": "Holds for trivially copyable elements. Refuted for every other element type: the last element of every nonempty queue is not copied, and cloning an empty queue with capacity at least 2 reads raw storage."
  },
  {
   "property": "C08",
   "status": "partial",
   "theorems": [
    "queue_erase_first_partial",
    "queue_erase_first_refuted"
   ],
   "note": "Holds when no element matches or only the last does; refuted otherwise."
  },
  {
   "property": "C09",
   "status": "proved",
   "theorems": [
    "queue_lifetimes",
    "queue_never_ub",
    "queue_move_assign_spec"
   ],
   "note": "Histories without clone and erase_first (see C07, C08)."
  },
  {
   "property": "C10",
   "status": "proved",
   "theorems": [
    "heap_is_priority_queue",
    "heap_pop_removes_top",
    "heap_of_list_contents",
    "heap_lifetimes"
   ],
   "note": "Any strict weak order, any history. top() on an empty heap is unchecked in the code and undefined in the model."
  },
  {
   "property": "C100",
   "status": "partial",
   "theorems": [
    "boxf_enclose",
    "boxf_empty",
    "boxf_center_partial",
    "boxf_area_partial",
    "boxf_transform_partial",
    "boxf_project",
    "boxf_center_error",
    "boxf_area_error",
    "boxf_point_error",
    "boxf_transform_error",
    "boxf_transform_margin",
    "boxf_nan_refuted",
    "boxf_center_refuted",
    "boxf_area_refuted",
    "boxf_transform_refuted"
   ],
   "note": "Enclosing, emptiness and projection are proved in full for finite floats. Center and area are proved as long as the sums and extents do not overflow, transforming for matrices that do not mix axes. For all matrices the transformed box is proved to be the exact one up to 8 parts in 2^24 of the sizes added, so an image misses it by at most twice that; center and area have error bounds too. Refuted beyond: the center of a box at the end of the range is infinite, the area of a flat box wider than the range is NaN, the rounded image of a corner can lie outside the transformed box, and a NaN point makes the box forget what it enclosed."
  },
  {
   "property": "C101",
   "status": "partial",
   "theorems": [
    "vec_norm_error",
    "vec_unit_error",
    "vec4_sse_error",
    "vec_unit_short_refuted",
    "vec_unit_long_refuted"
   ],
   "note": "Proved for vectors of up to 1000 components, not shorter than 2^-60, whose computed length is finite: the length is right to 2N+3 units of 2^-24, each component of the unit vector to 3N+5, its squared length to 7N+12. Refuted beyond: the squares of a short vector vanish, so its unit vector is infinite and NaN, and those of a long one overflow, so its unit vector is null."
  },
  {
   "property": "C102",
   "status": "partial",
   "theorems": [
    "matf_entrywise",
    "matf_mul_error",
    "matf_vec_error",
    "matf_point_error",
    "matf_rotate_error",
    "matf_compose_error",
    "matf_identity",
    "matf_translate",
    "matf_scale",
    "matf_transpose",
    "matf_eq",
    "matf_inverse_translate",
    "matf_inverse_translate_undoes",
    "matf_inverse_scale_error",
    "matf_inverse_integers",
    "matf_inverse_unimodular",
    "matf_ortho_error",
    "matf_ortho_places",
    "matf_proj_error",
    "matf_inverse_scale_refuted",
    "matf_inverse_identity_refuted",
    "matf_assoc_refuted"
   ],
   "note": "All but the inverse is proved for finite results. The inverse is proved exact for translations, and right to 6 units for scalings between 2^-40 and 2^40, right to 3 units for matrices of integers up to 28 in size, and exact for those of them with determinant 1 or -1; its error for other matrices is missing. Refuted beyond: the determinant of a smaller scaling underflows and the inverse is infinite and NaN, a matrix times its inverse need not be the identity, and products are not associative."
  },
  {
   "property": "C103",
   "status": "partial",
   "theorems": [
    "quatf_parts",
    "quatf_mul_error",
    "quatf_rotate_error",
    "quatf_assoc_error",
    "quatf_to_mat_error",
    "quatf_norm_error",
    "quatf_unit_error",
    "quatf_inverse_error",
    "quatf_unit_inverse",
    "quatf_unit_rotates",
    "quatf_identity",
    "quatf_eq",
    "quatf_assoc_refuted",
    "quatf_inverse_exact_refuted",
    "quatf_unit_extreme_refuted"
   ],
   "note": "Proved as stated for finite results. Products are not associative bit for bit (quatf_assoc_refuted), a unit quaternion times its inverse is not always exactly the identity (quatf_inverse_exact_refuted), and unit() of a finite non-zero quaternion shorter or longer than its square can express is NaN, infinite or zero (quatf_unit_extreme_refuted). Not here: axis_angle, euler and to_euler in f32."
  },
  {
   "property": "C104",
   "status": "partial",
   "theorems": [
    "map_float_same_key",
    "map_f32_keys",
    "map_f64_keys",
    "map_f32_finds",
    "map_f64_finds",
    "map_f32_zero_refuted",
    "map_nan_lost_refuted",
    "map_nan_lost_f64_refuted"
   ],
   "note": "For numbers the program's comparison (equal hashes, then ==) is identity of bits, so its loops run as those of the Map model and C15-C20 carry over. Findings: 0.0 and -0.0 compare equal but are two keys (map_f32_zero_refuted), and a NaN key is never found nor erased (map_nan_lost_refuted)."
  },
  {
   "property": "C11",
   "status": "proved",
   "theorems": [
    "heap_drain_sorts",
    "heap_drain_sorts_any"
   ],
   "note": ""
  },
  {
   "property": "C12",
   "status": "proved",
   "theorems": [
    "heap_any_comparator_safe"
   ],
   "note": ""
  },
  {
   "property": "C13",
   "status": "proved",
   "theorems": [
    "hash_u64_bijective",
    "hash_integer_injective"
   ],
   "note": ""
  },
  {
   "property": "C14",
   "status": "partial",
   "theorems": [
    "hash_f64_equal_keys_partial",
    "hash_f32_equal_keys_partial",
    "hash_float_equal_keys_refuted",
    "hash_nonzero_literal_nonzero",
    "hash_literal_ascii",
    "hash_literal_utf8_refuted"
   ],
   "note": "Equal floats hash equally except 0.0 and -0.0 (refuted). Both string hashes are the same loop over bytes, modelled once; literal hashes agree on 7-bit text and differ on other text."
  },
  {
   "property": "C15",
   "status": "proved",
   "theorems": [
    "map_is_finite_map",
    "map_ops_are_independent",
    "map_of_pairs",
    "map_get_view_partial",
    "map_get_view_refuted",
    "map_shift_ctlz",
    "map_next_pow2"
   ],
   "note": "All histories that never request capacity exactly 1 (that case is refuted under C18) and clone only power-of-two tables (C19). The String_View overload of get() reads null storage on a map that never allocated (map_get_view_refuted)."
  },
  {
   "property": "C16",
   "status": "partial",
   "theorems": [
    "map_length_exact",
    "map_length_counts_keys_partial",
    "map_length_refuted"
   ],
   "note": "length() counts insertions, so it overcounts after a present key is inserted again; exact formula proved, property refuted."
  },
  {
   "property": "C17",
   "status": "proved",
   "theorems": [
    "map_iterates_each_entry_once",
    "map_is_finite_map"
   ],
   "note": "Same histories as C15."
  },
  {
   "property": "C18",
   "status": "partial",
   "theorems": [
    "map_load_bounded_partial",
    "map_capacity_1_refuted"
   ],
   "note": "Holds unless a capacity of 1 is requested; Map(1) diverges on the third insertion."
  },
  {
   "property": "C19",
   "status": "partial",
   "theorems": [
    "map_clone_same_contents_partial",
    "map_clone_refuted"
   ],
   "note": "Holds for tables of power-of-two capacity; refuted after reserve(5)."
  },
  {
   "property": "C20",
   "status": "proved",
   "theorems": [
    "map_lifetimes",
    "map_is_finite_map"
   ],
   "note": "Histories without clone."
  },
  {
   "property": "C21",
   "status": "partial",
   "theorems": [
    "string_eq_partial",
    "string_eq_reflexive",
    "string_eq_consistent_partial",
    "string_eq_refuted"
   ],
   "note": "Holds when one of the strings has no NUL byte; refuted by \"a\\0b\" == \"a\\0c\"."
  },
  {
   "property": "C22",
   "status": "proved",
   "theorems": [
    "string_lt_lexicographic",
    "string_lt_strict_total_order"
   ],
   "note": ""
  },
  {
   "property": "C23",
   "status": "partial",
   "theorems": [
    "string_copy_append_terminate",
    "string_clone_same",
    "string_sub_slice",
    "string_index_checked",
    "string_write_partial",
    "string_write_char_set_length",
    "string_ops_in_bounds_partial",
    "string_write_refuted"
   ],
   "note": "write(i, text) is refuted for positions where i + length wraps around 2^64; everything else holds for all arguments."
  },
  {
   "property": "C24",
   "status": "proved",
   "theorems": [
    "path_split_lossless",
    "path_extension_suffix"
   ],
   "note": ""
  },
  {
   "property": "C25",
   "status": "proved",
   "theorems": [
    "value_written_as_measured",
    "format_length_exact",
    "format_safe"
   ],
   "note": "For outputs shorter than 2^64 bytes. The text of a float or pointer is a parameter (whatever snprintf produces)."
  },
  {
   "property": "C26",
   "status": "proved",
   "theorems": [
    "format_substitutes",
    "format_integer",
    "format_map_commas",
    "format_map_overcounted_refuted"
   ],
   "note": "A Map that overcounts its length (C16) prints a trailing separator: format_map_overcounted_refuted."
  },
  {
   "property": "C27",
   "status": "proved",
   "theorems": [
    "concat_joins"
   ],
   "note": ""
  },
  {
   "property": "C28",
   "status": "partial",
   "theorems": [
    "skip_whitespace_exact",
    "parse_string_partial",
    "parse_i64_exact",
    "parse_i64_round_trip",
    "parse_string_refuted"
   ],
   "note": "parse_string is refuted for a one-character final token and for a single final whitespace character."
  },
  {
   "property": "C29",
   "status": "proved",
   "theorems": [
    "log2_floor",
    "ctlz_counts_leading_zeros",
    "popcount_counts_ones",
    "prev_pow2_greatest",
    "prev_pow2_zero",
    "next_pow2_least",
    "next_pow2_boundary"
   ],
   "note": "Every width, u32 and u64 in particular."
  },
  {
   "property": "C30",
   "status": "proved",
   "theorems": [
    "align_least",
    "align_pow2_least",
    "align_down_greatest",
    "align_down_pow2_greatest",
    "align_pow2_wraps"
   ],
   "note": ""
  },
  {
   "property": "C31",
   "status": "partial",
   "theorems": [
    "pow_unsigned",
    "pow_signed_narrow",
    "pow_signed_partial",
    "pow_signed_refuted",
    "pow_u16_refuted",
    "pow_negative_exponent"
   ],
   "note": "Proved for u8, u32, u64, i8, i16. For i32 and i64 exact unless the final, unused, squaring overflows; the full claim is refuted there and for u16."
  },
  {
   "property": "C32",
   "status": "partial",
   "theorems": [
    "region_allocations_disjoint_partial",
    "region_counters",
    "region_history_safe",
    "region_huge_request_refuted"
   ],
   "note": "Holds for all histories whose requests are below 2^64 - 24 bytes; a request within 24 bytes of 2^64 wraps around and is granted from a 2 KB chunk (refuted)."
  },
  {
   "property": "C33",
   "status": "proved",
   "theorems": [
    "region_end_restores",
    "region_misuse_stops",
    "region_counters"
   ],
   "note": "For requests below 2^64 - 24 bytes; malloc's decisions are arbitrary."
  },
  {
   "property": "C34",
   "status": "partial",
   "theorems": [
    "range_inside",
    "range_disjoint",
    "range_allocate_runs",
    "range_free_runs",
    "range_overflow_refuted"
   ],
   "note": "Proved for every history of requests with size + alignment <= 2^64, any heap size, 1 to 255 buckets and any bias. Beyond that size + padding wraps and a request larger than the heap is granted (refuted)."
  },
  {
   "property": "C35",
   "status": "proved",
   "theorems": [
    "range_statistics",
    "range_all_freed",
    "range_assert_clear",
    "range_destructor",
    "range_destructor_clean",
    "range_destructor_leak_refuted"
   ],
   "note": "Free blocks are exactly the maximal free runs. After freeing everything the state is the fresh one up to the address of its header and the totals. The destructor keeps the headers of ranges still live (refuted leak-freedom)."
  },
  {
   "property": "C36",
   "status": "proved",
   "theorems": [
    "range_allocate_exact",
    "range_allocate_first_fit",
    "range_full_request"
   ],
   "note": "Granted if and only if an aligned free run of the requested length exists."
  },
  {
   "property": "C37",
   "status": "proved",
   "theorems": [
    "range_statistics"
   ],
   "note": "Totals are exact modulo 2^64; per-bucket counts included."
  },
  {
   "property": "C38",
   "status": "proved",
   "theorems": [
    "free_list_refines",
    "free_list_exclusive",
    "free_list_make_unowned",
    "free_list_no_leak",
    "free_list_clear_total",
    "free_list_recycles",
    "pool_name_decimal"
   ],
   "note": "Histories over any number of lists sharing one base allocator. The base allocator is assumed to answer unused blocks."
  },
  {
   "property": "C39",
   "status": "proved",
   "theorems": [
    "rc_exact",
    "rc_safe",
    "rc_effect",
    "rc_answer",
    "rc_reachable",
    "rc_no_leak",
    "rc_self_move",
    "rc_move_child_refuted"
   ],
   "note": "Handles in variables and inside objects, histories of fewer than 2^64 statements. Cycles are kept alive by themselves, as with any reference counter (rc_no_leak assumes none). x = move(x->next) is undefined when x holds the last handle (rc_move_child_refuted), and self-move empties the handle."
  },
  {
   "property": "C40",
   "status": "proved",
   "theorems": [
    "arc_safe",
    "arc_dies",
    "arc_exact",
    "arc_exclusive",
    "arc_quiescent",
    "arc_stays_destroyed",
    "arc_references",
    "arc_wait_free"
   ],
   "note": "Sequentially consistent interleavings of any number of threads, fewer than 2^63 events. Objects that own Arcs themselves are not modelled."
  },
  {
   "property": "C41",
   "status": "proved",
   "theorems": [
    "box_exact",
    "box_safe",
    "box_effect",
    "box_no_leak",
    "box_move_child_refuted"
   ],
   "note": "Every history without a bound. legal excludes x = move(x->next), which reads a destroyed object (box_move_child_refuted)."
  },
  {
   "property": "C42",
   "status": "proved",
   "theorems": [
    "opt_refines",
    "opt_exact",
    "opt_once",
    "opt_no_leak",
    "opt_destroys",
    "opt_move_source",
    "opt_set_own_refuted"
   ],
   "note": "Every history and every kind of T. A moved-from Opt still reports ok(); x = move(x) empties x (opt_move_source); x = move(*x) is undefined (opt_set_own_refuted)."
  },
  {
   "property": "C43",
   "status": "proved",
   "theorems": [
    "variant_dispatch",
    "variant_refines",
    "variant_exact",
    "variant_no_leak",
    "variant_destroys",
    "variant_self_move_refuted"
   ],
   "note": "Every alternative list up to 255 and every history without self-assignment, which is undefined (variant_self_move_refuted)."
  },
  {
   "property": "C44",
   "status": "partial",
   "theorems": [
    "function_refines",
    "function_exact_partial",
    "function_no_leak_partial",
    "function_destroys",
    "function_moved_from_not_destroyed_refuted"
   ],
   "note": "Calls are exact. A callable moved out of a Function is never destroyed (function_moved_from_not_destroyed_refuted); everything else is destroyed exactly once."
  },
  {
   "property": "C45",
   "status": "proved",
   "theorems": [
    "task_safe",
    "task_dies",
    "task_frame_once",
    "task_frame_exact",
    "task_unique"
   ],
   "note": "Every interleaving of any number of agents; a Task variable is used by one agent at a time. Two concurrent awaiters of one task, then() on a temporary, and a frame destroyed by ~Pool while a Task owns it are outside the model."
  },
  {
   "property": "C46",
   "status": "proved",
   "theorems": [
    "task_resumed_once",
    "task_not_lost",
    "task_finishes",
    "task_after_return",
    "task_result",
    "task_returns_once",
    "task_block_returns"
   ],
   "note": "A second co_await of the same task resumes with a moved-from value (task_twice)."
  },
  {
   "property": "C47",
   "status": "proved",
   "theorems": [
    "flag_runs",
    "flag_block_after_signal",
    "flag_ready",
    "promise_value",
    "promise_filled",
    "flag_no_lost_wakeup",
    "flag_returns",
    "flag_undisturbed",
    "flag_interrupt_refuted",
    "flag_macos",
    "flag_macos_mutex",
    "flag_w32_partial",
    "flag_w32_wrap_refuted"
   ],
   "note": "Linux, macOS and Windows. Findings: on Linux a wait interrupted by a signal handler makes Flag::block terminate the program (flag_interrupt_refuted); on Windows the flag is a 16-bit count that is unset again after 65536 signals (flag_w32_wrap_refuted)."
  },
  {
   "property": "C48",
   "status": "proved",
   "theorems": [
    "pool_defined",
    "pool_fifo",
    "pool_once",
    "pool_settled",
    "pool_not_stranded",
    "pool_mutex_released",
    "pool_takes",
    "pool_gives",
    "pool_exits",
    "pool_joins",
    "pool_destructor_ends",
    "pool_no_workers_refuted"
   ],
   "note": "Any number of workers, agents and jobs; every interleaving, spurious wakeups included. Enqueueing into a pool without workers (one hardware thread) divides by zero (pool_no_workers_refuted). A mutex may starve a thread: progress is counted in turns, the steps a thread takes while nobody else holds its mutex, and no thread holds one for more than three steps."
  },
  {
   "property": "C49",
   "status": "proved",
   "theorems": [
    "place_affinity",
    "place_distinct",
    "place_index",
    "pool_existing",
    "place_many_threads_refuted",
    "place_single_thread_refuted"
   ],
   "note": "Findings: the constructor dies above 65 hardware threads; with one hardware thread there is no worker and enqueue divides by zero; the golden ratio is an f32, so late in the sequence runs of jobs go to one worker (place_repeats)."
  },
  {
   "property": "C50",
   "status": "proved",
   "theorems": [
    "event_runs",
    "event_own",
    "event_conserved",
    "event_none_forgotten",
    "event_rounds"
   ],
   "note": "Events are identities the system keeps distinct; interrupted system calls, which stop the program, are not modelled. Shutdown abandons the jobs that still wait (event_shutdown), as the comment in the source says."
  },
  {
   "property": "C51",
   "status": "proved",
   "theorems": [
    "profile_bounded",
    "profile_steps",
    "profile_current",
    "profile_paths",
    "profile_begin",
    "profile_finalize_refuted"
   ],
   "note": "For every history of begin_frame, end_frame, enter, exit and finalize of a thread. Also shown: finalizing inside a frame stops the program."
  },
  {
   "property": "C52",
   "status": "partial",
   "theorems": [
    "profile_times_partial",
    "profile_times_refuted"
   ],
   "note": "Proved for frames in which no scope is entered twice from the same scope. Refuted otherwise: a second entry updates the surrounding scope's call count and start time instead of its own, so both scopes' calls, inclusive and self times are wrong."
  },
  {
   "property": "C53",
   "status": "proved",
   "theorems": [
    "prof_alloc_defined",
    "prof_alloc_counts",
    "prof_alloc_finalize"
   ],
   "note": "For any number of threads under every interleaving, any addresses malloc chooses, and any set of allocators of which some do not log. Totals are below 2^63."
  },
  {
   "property": "C54",
   "status": "partial",
   "theorems": [
    "rng_bijective",
    "rng_integer",
    "rng_range_unsigned",
    "rng_range_signed_partial",
    "rng_range_signed_below",
    "rng_range_signed_refuted",
    "rng_cycle_refuted",
    "rng_seed_threads"
   ],
   "note": "Unsigned ranges proved in full. Findings: for signed types range() can return values below min, overflow, or (i8) always min; the 64-bit step is an even permutation, so no seed visits every state before repeating (rng_cycle_refuted). Missing: the property is false for signed types outside rng_range_signed_partial."
  },
  {
   "property": "C55",
   "status": "partial",
   "theorems": [
    "unit_in_interval",
    "unit_spread_refuted",
    "coin_flip_refuted",
    "coin_flip_certain_partial"
   ],
   "note": "In [0,1), but scaled with 1e-24 and 1e-53 where 2^-24 and 2^-53 were meant, so every unit() is below 2^-54 and coin_flip(p) is constantly true for every ordinary p > 0."
  },
  {
   "property": "C56",
   "status": "partial",
   "theorems": [
    "shuffle_permutes",
    "shuffle_every_order",
    "shuffle_unbiased",
    "shuffle_empty_refuted",
    "shuffle_seeds_refuted"
   ],
   "note": "Non-empty vectors. Findings: the empty vector takes a remainder by zero (shuffle_empty_refuted); for every vector of 21 or more distinct elements some order comes out of no seed at all, because a stream has only 2^64 states (shuffle_seeds_refuted)."
  },
  {
   "property": "C57",
   "status": "partial",
   "theorems": [
    "vect_componentwise",
    "vect_assign_componentwise",
    "vect_constructors",
    "vect_min_max_abs",
    "vect_neg_partial",
    "vect_neg_refuted",
    "vect_equality",
    "vect_dot",
    "vect_normalize",
    "vect_proj",
    "vect_least_greatest",
    "vect_clamp",
    "vect_lerp",
    "vect_dot_u32",
    "simd_same",
    "simd_equality",
    "simd_scalar_left_refuted",
    "simd_neg_value",
    "simd_neg_refuted",
    "simd_min_max_value",
    "simd_min_nan_refuted",
    "simd_dot_sse_refuted",
    "vect_i32",
    "vect_u32",
    "vect_f32",
    "simd_set"
   ],
   "note": "Every dimension and scalar type; f32 with Flocq's rounding. Refuted parts: unary minus overwrites its operand; the 4-wide s - v and s / v compute v - s and v / s; 4-wide negation of +0 gives +0; 4-wide min and max treat NaN differently; the SSE dot product rounds in another order."
  },
  {
   "property": "C58",
   "status": "proved",
   "theorems": [
    "mat_index",
    "mat_product",
    "mat_arith",
    "mat_mul_assoc",
    "mat_mul_unit",
    "mat_mul_apply",
    "mat_vec_entries",
    "mat_point_direction",
    "mat_transpose",
    "mat_transpose_product",
    "mat_equality",
    "mat_det",
    "mat_inverse",
    "mat_singular",
    "mat_inverse_unique",
    "mat_inverse_product",
    "mat_inverse_apply",
    "mat_swap"
   ],
   "note": "Exact arithmetic."
  },
  {
   "property": "C59",
   "status": "proved",
   "theorems": [
    "quat_product",
    "quat_norm_conjugate",
    "quat_unit",
    "quat_inverse",
    "quat_inverse_refuted",
    "quat_rotate",
    "quat_compose",
    "quat_equality"
   ],
   "note": "Exact arithmetic. Also shown: inverse() of a quaternion that is not unit is not its inverse (quat_inverse_refuted)."
  },
  {
   "property": "C60",
   "status": "proved",
   "theorems": [
    "bbox_enclose",
    "bbox_empty",
    "bbox_transform",
    "bbox_measure",
    "bbox_enclose_empty_refuted",
    "bbox_transform_empty_refuted"
   ],
   "note": "Exact arithmetic, coordinates within the range of f32. Also shown: enclosing a box without points that is not a fresh one widens the result; transforming an empty box gives one with points."
  },
  {
   "property": "C61",
   "status": "partial",
   "theorems": [
    "slice_step",
    "slice_write",
    "slice_write_read",
    "slice_sub_refuted"
   ],
   "note": "Every operation except sub in full, sub for arguments whose sum fits 64 bits. Finding: sub(start, length) checks a sum that wraps, so sub(2, 2^64-1) on a two-element slice is accepted (slice_sub_refuted)."
  },
  {
   "property": "C62",
   "status": "proved",
   "theorems": [
    "log_defined",
    "log_delivery",
    "subscribed_iff",
    "log_distinct",
    "log_called",
    "log_none_after",
    "log_tokens",
    "log_finishes",
    "log_begins",
    "log_enters",
    "log_stuck",
    "log_stuck_forever",
    "log_reentrant_refuted",
    "log_unknown_token_refuted"
   ],
   "note": "Every interleaving of any number of threads, over the proved hash table. Findings: the callbacks run under a mutex that is not recursive, so a callback that logs, or whose assert fails, hangs the program for good (log_reentrant_refuted); unsubscribing a token not in force hangs instead of stopping the program (log_unknown_token_refuted). log_stuck shows these are the only two ways."
  },
  {
   "property": "C63",
   "status": "proved",
   "theorems": [
    "one_is_spec",
    "all_are_spec",
    "all_same_spec",
    "distinct_spec",
    "choose_spec",
    "index_of_spec",
    "index_of_defined",
    "choose_index_of",
    "index_of_choose",
    "make_bijective",
    "length_make",
    "all_make",
    "iter_make",
    "reverse_make",
    "reverse_involutive",
    "enumerate_spec",
    "tuple_get",
    "tuple_length",
    "tuple_set_get",
    "tuple_clone",
    "tuple_invoke",
    "tuple_write",
    "tuple_measure"
   ],
   "note": "Every type list and arity."
  },
  {
   "property": "C64",
   "status": "partial",
   "theorems": [
    "files_read_exact",
    "files_read_sound",
    "files_read_fails",
    "files_read_dies",
    "files_read_short_refuted",
    "files_write_refuted",
    "files_write_exhausts",
    "w32_roundtrip",
    "w32_read_leak_refuted",
    "w32_write_true",
    "w32_read_sound"
   ],
   "note": "Holds on Windows. Finding on POSIX: Files::write opens the file for reading, so it never writes and always returns false (files_write_refuted), and leaks a descriptor each time until nothing can be opened (files_write_exhausts). A short read is returned as success with zeros (files_read_short_refuted)."
  },
  {
   "property": "C65",
   "status": "partial",
   "theorems": [
    "watcher_exact",
    "watcher_no_path",
    "watcher_seconds_partial",
    "watcher_subsecond_refuted",
    "watcher_before_1970_refuted"
   ],
   "note": "Exact with respect to the time in seconds that last_write_time returns. Findings: two changes within one second are seen as one, the later being lost for good (watcher_subsecond_refuted); times before 1970 are taken for the far future (watcher_before_1970_refuted)."
  },
  {
   "property": "C66",
   "status": "partial",
   "theorems": [
    "lock_defined",
    "lock_exclusion",
    "lock_refers",
    "lock_moves",
    "lock_ends",
    "lock_releases_partial",
    "lock_assign_refuted",
    "lock_self_assign_refuted"
   ],
   "note": "Finding: move-assigning over a Lock that holds a mutex, or to itself, forgets that mutex, which stays locked (lock_assign_refuted, lock_self_assign_refuted)."
  },
  {
   "property": "C67",
   "status": "proved",
   "theorems": [
    "min_list_least",
    "max_list_greatest",
    "clamp_in_range",
    "lerp_endpoints_between",
    "smoothstep_in_unit",
    "smoothstep_shape",
    "KB_MB_GB_exact",
    "abs_correct",
    "min_list_infinity_refuted"
   ],
   "note": "lerp and smoothstep in exact arithmetic. With values beyond the type's finite limits (infinities) min of a list is refuted."
  },
  {
   "property": "C68",
   "status": "proved",
   "theorems": [
    "swap_exchanges"
   ],
   "note": ""
  },
  {
   "property": "C69",
   "status": "partial",
   "theorems": [
    "vec_emplace_own_when_spare",
    "vec_emplace_own_refuted",
    "vec_is_a_list"
   ],
   "note": "push(v[i]) is covered by VPushOwn in vec_is_a_list. emplace(v[i]) on a full vector reads freed storage: refuted."
  },
  {
   "property": "C70",
   "status": "proved",
   "theorems": [
    "hash_one_byte_change"
   ],
   "note": ""
  },
  {
   "property": "C71",
   "status": "proved",
   "theorems": [
    "hash_many_order_insensitive"
   ],
   "note": ""
  },
  {
   "property": "C72",
   "status": "proved",
   "theorems": [
    "ascii_case"
   ],
   "note": ""
  },
  {
   "property": "C73",
   "status": "partial",
   "theorems": [
    "enum_round_trip_partial",
    "parse_enum_unknown",
    "enum_round_trip_refuted"
   ],
   "note": "Names of at least two characters; a one-character name at the end of the text is refuted."
  },
  {
   "property": "C74",
   "status": "proved",
   "theorems": [
    "typename_spells_type"
   ],
   "note": ""
  },
  {
   "property": "C75",
   "status": "partial",
   "theorems": [
    "region_alignment_partial",
    "region_alignment_refuted"
   ],
   "note": "Only if all live sizes are multiples of 8; refuted in general: the allocator does not pad."
  },
  {
   "property": "C76",
   "status": "partial",
   "theorems": [
    "wait_partial",
    "wait_zero_refuted",
    "wait_w32_partial",
    "wait_w32_long_refuted"
   ],
   "note": "What the timer is set to; the pool's part is C50. Findings: wait(pool, 0) disarms the timer and never ends on Linux (wait_zero_refuted); on Windows a product overflows (wait_w32_long_refuted)."
  },
  {
   "property": "C77",
   "status": "partial",
   "theorems": [
    "async_roundtrip_partial",
    "async_short_refuted",
    "async_mode_refuted",
    "async_write_leaks",
    "w32_async_roundtrip",
    "w32_async_read_sound",
    "w32_async_write_true",
    "w32_async_immediate_refuted"
   ],
   "note": "Proved when the system writes everything at once and the file was there. Findings: a short write is success, and above 2147479552 bytes every write is short (async_short_refuted); open with O_CREAT lacks its mode argument, so a new file may be unreadable (async_mode_refuted); a failed write leaks the descriptor (async_write_leaks); on Windows an operation that completes at once is taken for a failure (w32_async_immediate_refuted)."
  },
  {
   "property": "C78",
   "status": "partial",
   "theorems": [
    "vec_unit",
    "look_at_view",
    "scale_translate",
    "rotate_turns",
    "ortho_sides_partial",
    "ortho_depth_refuted",
    "proj_view",
    "proj_edges",
    "rotate_y_to_partial",
    "rotate_y_to_refuted",
    "rotate_z_to_refuted",
    "transforms_affine"
   ],
   "note": "Exact arithmetic. Refuted parts: ortho maps depth to the wrong range; rotate_y_to of -y is a reflection and of directions near y is the identity; rotate_z_to takes z to the opposite direction."
  },
  {
   "property": "C79",
   "status": "partial",
   "theorems": [
    "quat_axis_angle",
    "euler_turns_partial",
    "euler_180_refuted",
    "euler_roundtrip_partial",
    "euler_quat_roundtrip_partial",
    "euler_roundtrip_refuted",
    "euler_gimbal_refuted",
    "euler_single_refuted"
   ],
   "note": "Exact arithmetic. Proved for all angles but (180, 0, 0) and all rotations whose pitch is a quarter turn or differs from one by more than 2e-6. Refuted: euler(180, 0, 0) turns about z, so half a turn about x does not come back; a pitch close to a quarter turn loses the yaw; to_euler singles out a reflection and gives it the angles of half a turn."
  },
  {
   "property": "C80",
   "status": "partial",
   "theorems": [
    "bbox_project_partial",
    "bbox_project_refuted"
   ],
   "note": "Proved for matrices that need no perspective division. Refuted for Mat4::proj: the division by w is left out, and nothing is ever behind the camera."
  },
  {
   "property": "C81",
   "status": "partial",
   "theorems": [
    "udp_sockets_partial",
    "udp_assign_refuted"
   ],
   "note": "Proved when moves go into objects without a socket. Refuted otherwise: move assignment drops the socket of its target without closing it, and self-assignment loses it."
  },
  {
   "property": "C82",
   "status": "partial",
   "theorems": [
    "udp_stream_partial",
    "udp_recv_empty",
    "udp_recv_long_refuted",
    "udp_recv_error_refuted",
    "udp_send",
    "udp_send_long_refuted",
    "udp_recv_w32"
   ],
   "note": "Proved for datagrams that fit a packet when the system reports no error. Refuted: a longer datagram gives a length beyond the packet; an error gives a datagram of length 2^64-1; send does not check its length."
  },
  {
   "property": "C83",
   "status": "partial",
   "theorems": [
    "address_partial",
    "address_accepts",
    "address_any_zero",
    "address_refuted",
    "address_w32_dotted",
    "address_w32_refuted"
   ],
   "note": "Proved if a zero byte follows the text (any text on Windows). Refuted: the text is passed on without a terminator, so the bytes behind it are read; on Windows a bad text gives 0.0.0.0."
  },
  {
   "property": "C84",
   "status": "partial",
   "theorems": [
    "function_exact_partial",
    "vec_reserve_destroys_moved_from_refuted",
    "function_moved_from_not_destroyed_refuted"
   ],
   "note": "Refuted: reserve frees moved-from objects without destroying them, and so does moving a Function."
  },
  {
   "property": "C85",
   "status": "partial",
   "theorems": [
    "event_partial",
    "event_bsd_wait_any_refuted",
    "event_bsd_signal_twice_refuted",
    "event_reset_refuted",
    "event_try_wait_refuted",
    "event_w32_many_refuted",
    "event_self_move_refuted"
   ],
   "note": "Proved for Linux and Windows under the conditions in event_partial. Refuted: on BSD wait_any waits only for the last event and a second signal survives a reset; reset of an unsignalled event dies on Linux and hangs on BSD; try_wait is always false on POSIX; more than 64 events die on Windows; self-move closes the event."
  },
  {
   "property": "C86",
   "status": "proved",
   "theorems": [
    "thread_safe",
    "thread_once",
    "thread_join_after",
    "thread_drop_waits",
    "thread_none_left",
    "thread_progress",
    "thread_misuse_dies",
    "thread_names_reused",
    "thread_names_safe",
    "thread_ids_distinct"
   ],
   "note": "POSIX threads, and Windows where the names of threads are modelled; both may reuse names and ids."
  },
  {
   "property": "C87",
   "status": "proved",
   "theorems": [
    "spawn_safe",
    "spawn_lifetime",
    "spawn_ends",
    "spawn_block_returns",
    "future_block_twice_refuted"
   ],
   "note": "Linux futex path, fewer than 2^63 events. future_block_twice_refuted records that the value is moved out by the first block(), so that a second one gets a moved-from value."
  },
  {
   "property": "C88",
   "status": "partial",
   "theorems": [
    "flag_macos_destroy",
    "flag_destroy_refuted",
    "flag_w32_destroy_refuted"
   ],
   "note": "Proved on macOS. Refuted on Linux and Windows: signal() wakes through the address of the flag after setting it."
  },
  {
   "property": "C89",
   "status": "partial",
   "theorems": [
    "atomic_count",
    "atomic_tickets",
    "atomic_cas_winner",
    "atomic_exchange",
    "atomic_cas",
    "atomic_same_everywhere",
    "atomic_overflow_refuted"
   ],
   "note": "Proved without overflow. Refuted at the ends of the range: incr and decr are undefined on POSIX and wrap on Windows."
  },
  {
   "property": "C90",
   "status": "partial",
   "theorems": [
    "sleep_partial",
    "sleep_pos_refuted",
    "sleep_w32_refuted"
   ],
   "note": "Proved below 2^32 microseconds on POSIX and 2^32-1 milliseconds on Windows, without signals. Refuted beyond: the argument wraps, and on Windows 2^32-1 is for ever; a signal handler cuts the sleep short."
  },
  {
   "property": "C91",
   "status": "partial",
   "theorems": [
    "priority_partial",
    "priority_linux_refuted",
    "priority_macos_refuted"
   ],
   "note": "Proved for policies with at least nine priorities. Refuted for the policy the Linux code uses, which has one; on macOS with unusual limits normal and high change nothing."
  },
  {
   "property": "C92",
   "status": "partial",
   "theorems": [
    "affinity_partial",
    "affinity_refuted",
    "affinity_dies"
   ],
   "note": "Proved for cores below 1024 on Linux and 64 on Windows. Refuted beyond: Linux dies, Windows ignores the call. macOS, where affinity is a hint, is not modelled."
  },
  {
   "property": "C93",
   "status": "partial",
   "theorems": [
    "task_shared_partial",
    "task_two_awaiters_refuted",
    "task_then_temporary_refuted"
   ],
   "note": "Proved for programs in which no two coroutines use one Task at the same time. Refuted otherwise: a second co_await of a running task resumes at once without a value, and the temporary of f().then(g) is destroyed while it is awaited, which dies."
  },
  {
   "property": "C94",
   "status": "partial",
   "theorems": [
    "hash_vect_equal_keys_partial",
    "hash_vect_equal_keys_refuted",
    "hash_vect_int_change",
    "hash_vect_ordered",
    "hash_location_line",
    "hash_location_swap"
   ],
   "note": "The collision claims are proved. Equal float vectors hash equally when no component is zero; refuted for 0 and -0. Locations with file and function swapped collide."
  },
  {
   "property": "C95",
   "status": "partial",
   "theorems": [
    "prof_threads_own",
    "prof_threads_iterate",
    "prof_threads_complete",
    "prof_threads_die",
    "prof_threads_safe_partial",
    "prof_threads_progress_partial",
    "prof_callback_refuted",
    "prof_quit_refuted"
   ],
   "note": "Own profile, what is shown, completeness and blame are proved for every interleaving. Safety is proved while no thread ends, absence of deadlock while the given function only looks. Refuted beyond: a function that allocates or traces waits for ever for its own thread's lock, and a thread that ends clears its frames without the lock."
  },
  {
   "property": "C96",
   "status": "partial",
   "theorems": [
    "f32_sign_partial",
    "f32_sign_refuted",
    "f32_frac_partial",
    "f32_frac_refuted",
    "f32_smoothstep_range",
    "f32_smoothstep_edges_partial",
    "f32_smoothstep_edges_refuted",
    "f32_smoothstep_monotone_refuted",
    "f32_lerp_start_partial",
    "f32_lerp_monotone_partial",
    "f32_lerp_end_refuted",
    "f32_lerp_start_refuted",
    "f32_lerp_between_refuted",
    "vect_as_roundtrip_partial",
    "vect_as_truncates",
    "vect_as_signs",
    "vect_as_refuted"
   ],
   "note": "Proved with IEEE rounding. Refuted: sign(NaN) is 1; frac is undefined beyond 2^63; smoothstep is not monotone and gives 0 past the upper edge when the edges' difference overflows; lerp at 1 need not be its end and may pass it; i32 values above 2^24 change on the way to f32 and back."
  },
  {
   "property": "C97",
   "status": "partial",
   "theorems": [
    "log_line_text_partial",
    "log_line_mismatch",
    "log_assert_text_partial",
    "log_transcript_reads_back_partial",
    "log_line_is_one_line_partial",
    "log_time_text",
    "log_line_nul_refuted",
    "log_line_newline_refuted",
    "log_line_colon_refuted",
    "log_line_indent_refuted",
    "log_line_long_refuted",
    "log_time_view_refuted"
   ],
   "note": "Proved for lines below 2 GiB without NUL (reading back: without newline, and no colon in the file name). Refuted beyond: a NUL cuts the message, a newline or a colon in the file name lets one entry look like others, and a message of 2 GiB or more is read past its end. sys_time_string returns a view of a buffer that the next call changes."
  },
  {
   "property": "C98",
   "status": "proved",
   "theorems": [
    "parse_f32_longest",
    "parse_f32_none",
    "parse_f32_total"
   ],
   "note": "strtof is modelled as the C standard describes it, with correct rounding. The longest prefix and the value are stated in FloatTextSpec.v."
  },
  {
   "property": "C99",
   "status": "partial",
   "theorems": [
    "format_float",
    "format_float_special",
    "float_text_roundtrip_partial",
    "float_text_error",
    "float_text_special",
    "float_text_roundtrip_refuted"
   ],
   "note": "The printed text is proved for floats of every width. The round trip is proved bit for bit for f32 of size 16 or more and for multiples of 1/64, and within a millionth for all. Refuted for the rest: neighbouring floats below 16 print the same text and small ones print as zero."
  }
 ]
}