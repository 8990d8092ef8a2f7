{
 "claims": [
  {
   "property": "C01",
   "status": "proved",
   "theorems": [
    "C01_maps_are_values",
    "C01_isolation",
    "C01_reference_counts_exact",
    "C01_no_leak",
    "C01_misuse_is_the_only_fault"
   ],
   "note": "Heap model with reference counts and in-place mutation; simulation of a pure value semantics for all operation sequences, exact reference counts, no leak, and only misuse is undefined. Sequential model: concurrent use of one map is outside."
  },
  {
   "property": "C02",
   "status": "proved",
   "theorems": [
    "C02_replace",
    "C02_append",
    "C02_other_keys",
    "C02_get",
    "C02_keys_are_identifiers"
   ],
   "note": "Set/append/get through the same model after any allowed history; accepted keys are exactly the C identifiers."
  },
  {
   "property": "C03",
   "status": "partial",
   "theorems": [
    "C03_set_error",
    "C03_clear",
    "C03_error_state_partial",
    "C03_delete_error_key_refuted"
   ],
   "note": "Set/clear proved after any history; reading the error proved never to fail for histories that do not write or delete the key '_Error'; refuted otherwise (null dereference)."
  },
  {
   "property": "C04",
   "status": "partial",
   "theorems": [
    "C04_views_flipped",
    "C04_roundtrip",
    "C04_array_roundtrip",
    "C04_delete",
    "C04_bulk_read_partial",
    "C04_bulk_read_refuted",
    "C04_float_invisible_refuted"
   ],
   "note": "Element accessors and array setter are consistent views for all values; bulk reader only for a single 0/1 (refuted otherwise); float stored under the old name is invisible to the counters (refuted)."
  },
  {
   "property": "C05",
   "status": "partial",
   "theorems": [
    "C05_frames_own_their_planes",
    "C05_write_is_local",
    "C05_write_pointer_is_exclusive",
    "C05_kept_write_pointer_refuted"
   ],
   "note": "Simulation for all operation sequences allowed by the API (create, share, copy, reference, write, read): the heap behaves like frames that own their planes, and never reaches undefined behaviour. A write pointer is exclusive when returned. Refuted if the caller keeps a write pointer across copyFrame: the later store shows in the copy (API misuse the code cannot detect)."
  },
  {
   "property": "C06",
   "status": "proved",
   "theorems": [
    "C06_planes_live_while_used",
    "C06_memory_accounting",
    "C06_allocation_is_fresh_and_large_enough",
    "C06_release_keeps_the_limit",
    "C06_reuse_is_best_fit"
   ],
   "note": "All operation sequences with valid formats, allocator included (free list, limit, deferred deletion): reference counts exact, a buffer lives exactly while a frame slot uses it, reported memory is the sum of the live blocks and returns to zero, the allocator object is deleted exactly when core and buffers are gone."
  },
  {
   "property": "C07",
   "status": "partial",
   "theorems": [
    "C07_stride_is_minimal",
    "C07_pixels_are_inside_the_buffer",
    "C07_equal_format_equal_stride",
    "C07_plane_of_smaller_samples_refuted",
    "C07_long_audio_frame_refuted"
   ],
   "note": "Stride and containment proved for every history in which plane sources have the frame's sample size; refuted without it, because newVideoFrame2 does not compare bytesPerSample, and for audio frames longer than 3072 samples, which are accepted with a 3072 sample buffer."
  },
  {
   "property": "C08",
   "status": "proved",
   "theorems": [
    "C08_format_to_id_and_back",
    "C08_distinct_formats_distinct_ids",
    "C08_accepted_ids_denote_formats",
    "C08_id_to_format_and_back",
    "C08_query_accepts_exactly_valid",
    "C08_struct_check",
    "C08_names_distinct",
    "C08_names_fit"
   ],
   "note": "Round trips both ways, injectivity, soundness of every accepted 32 bit identifier (including API 3 ones), names distinct; the undefined format is accepted for identifiers with colour family 0, as the code intends for pfNone."
  },
  {
   "property": "C09",
   "status": "proved",
   "theorems": [
    "C09_lookup_latest",
    "C09_bounds",
    "C09_insert_then_lookup"
   ],
   "note": "Pointer-level model of VSCache (hash of nodes with prev/next links); all operation sequences; integer counters are unbounded in the model (the C++ hit counters are int)."
  },
  {
   "property": "C10",
   "status": "proved",
   "theorems": [
    "C10_refines_lru",
    "C10_step_refines"
   ],
   "note": "Refinement: every operation of the pointer-level model matches one step of an abstract two-segment LRU list, never undefined behaviour."
  },
  {
   "property": "C11",
   "status": "proved",
   "theorems": [
    "C11_adjust_policy",
    "C11_pressure_policy"
   ],
   "note": "Capacity policy after any operation sequence; growth only on near misses (or up to the user's own setting), shrinking only when unused or under memory pressure."
  },
  {
   "property": "C12",
   "status": "proved",
   "theorems": [
    "C12_auto_decision",
    "C12_add_remove",
    "C12_disabled_empty",
    "C12_disabled_no_reuse",
    "C12_node_progress"
   ],
   "note": "Decision, emptiness when disabled, add/remove restores it, harmlessness for honest consumers, progress; over all reachable node states."
  },
  {
   "property": "C13",
   "status": "partial",
   "theorems": [
    "C13_muldiv_exact_reduced",
    "C13_muldiv_invalid_untouched",
    "C13_add_exact_reduced_partial",
    "C13_add_equal_den_exact",
    "C13_add_reduced_refuted"
   ],
   "note": "muldivRational/reduceRational exact and reduced whenever the products fit; addRational exact, reduced only for different denominators; the equal-denominator path is not reduced (refuted)."
  },
  {
   "property": "C14",
   "status": "partial",
   "theorems": [
    "C14_trim_valid",
    "C14_trim_invalid_partial",
    "C14_trim_invalid_refuted"
   ],
   "note": "Output is exactly the requested slice; every invalid combination rejected for clips shorter than INT_MAX; the saturation corner at exactly INT_MAX frames is refuted."
  },
  {
   "property": "C15",
   "status": "proved",
   "theorems": [
    "C15_splice_concat",
    "C15_splice_too_long"
   ],
   "note": "Concatenation, and rejection of overlong results."
  },
  {
   "property": "C16",
   "status": "proved",
   "theorems": [
    "C16_reverse",
    "C16_reverse_involutive"
   ],
   "note": "Reversal and involution."
  },
  {
   "property": "C17",
   "status": "partial",
   "theorems": [
    "C17_loop_times",
    "C17_loop_endless",
    "C17_loop_negative",
    "C17_loop_too_long_partial",
    "C17_loop_too_long_refuted"
   ],
   "note": "Repetition, endless loop, negative count; overlong results rejected for counts up to INT_MAX; beyond that a one frame clip is silently shortened (refuted)."
  },
  {
   "property": "C18",
   "status": "partial",
   "theorems": [
    "C18_interleave",
    "C18_interleave_too_long",
    "C18_interleave_extend_partial",
    "C18_interleave_extend_overflow_refuted"
   ],
   "note": "Frame order, length and too-long rejection without extend; with extend proved when the product fits, otherwise the model reaches signed overflow (refuted)."
  },
  {
   "property": "C19",
   "status": "proved",
   "theorems": [
    "C19_selectEvery",
    "C19_selectEvery_reject"
   ],
   "note": "Selected index list and rejections, all cycles/offset lists."
  },
  {
   "property": "C20",
   "status": "proved",
   "theorems": [
    "C20_duplicate",
    "C20_delete",
    "C20_duplicate_reject",
    "C20_delete_reject",
    "C20_duplicate_delete_inverse"
   ],
   "note": "Duplicate/delete index lists, rejections, and duplicate-then-delete is the identity."
  },
  {
   "property": "C21",
   "status": "proved",
   "theorems": [
    "C21_freeze",
    "C21_freeze_reject"
   ],
   "note": "Freeze semantics for disjoint ranges, rejection of overlapping or out of range ones."
  },
  {
   "property": "C22",
   "status": "proved",
   "theorems": [
    "C22_trim_honest",
    "C22_reverse_honest",
    "C22_selectEvery_honest",
    "C22_delete_honest",
    "C22_splice_honest",
    "C22_interleave_honest"
   ],
   "note": "Declared request patterns are honest for Trim, Reverse, SelectEvery, DeleteFrames, Splice, Interleave."
  },
  {
   "property": "C23",
   "status": "partial",
   "theorems": [
    "C23_trim_partial",
    "C23_trim_overflow_refuted"
   ],
   "note": "All clips, arguments and frame numbers; proved when first+length fits 64 bits, refuted otherwise (signed overflow before the range check)."
  },
  {
   "property": "C24",
   "status": "partial",
   "theorems": [
    "C24_splice_partial",
    "C24_splice_mismatch",
    "C24_splice_overflow_refuted"
   ],
   "note": "Any number of clips; proved when the total length fits 64 bits; refuted for about 1.4 million maximal clips, whose lengths are added in int64 before the limit check."
  },
  {
   "property": "C25",
   "status": "proved",
   "theorems": [
    "C25_loop"
   ],
   "note": "All clips and repeat counts."
  },
  {
   "property": "C26",
   "status": "proved",
   "theorems": [
    "C26_reverse",
    "C26_reverse_twice"
   ],
   "note": "All clips; reversing twice gives the same samples."
  },
  {
   "property": "C27",
   "status": "partial",
   "theorems": [
    "C27_silence_partial",
    "C27_silence_keep_refuted",
    "C27_frame_lengths"
   ],
   "note": "Frame lengths and count for every clip that the modelled editors and generators return; BlankAudio with keep proved when all frames have the same length, refuted otherwise: the kept first frame is returned as the last one, which the core treats as a fatal filter error."
  },
  {
   "property": "C28",
   "status": "proved",
   "theorems": [
    "C28_wave_position"
   ],
   "note": "Sample value as a function of position only, phase arithmetic modulo 2^64; the waveform function itself is a parameter."
  },
  {
   "property": "C29",
   "status": "partial",
   "theorems": [
    "C29_crop_window",
    "C29_crop_verify_partial",
    "C29_accepted_windows_are_inside",
    "C29_add_borders",
    "C29_border_sizes_accepted",
    "C29_crop_undoes_borders",
    "C29_relative_crop",
    "C29_crop_overflow_refuted",
    "C29_relative_crop_overflow_refuted",
    "C29_border_overflow_refuted"
   ],
   "note": "Byte-level model of both filters for all formats and sizes; border colours are given sample values. Proved whenever the sums of the arguments fit an int; refuted: CropAbs/CropRel/AddBorders compute x+width, height-top and left+right in int without a check (with wrapping arithmetic a window far outside is accepted)."
  },
  {
   "property": "C30",
   "status": "proved",
   "theorems": [
    "C30_flip_vertical",
    "C30_flip_horizontal_and_turn180",
    "C30_transpose_and_turns",
    "C30_flip_vertical_involution",
    "C30_flip_horizontal_turn180_involutions",
    "C30_turn180_is_both_flips",
    "C30_inverse_turns",
    "C30_turn90_twice_is_turn180",
    "C30_turn90_four_times",
    "C30_turns_by_flips"
   ],
   "note": "Byte-level model of the flips and of the C and SSE2 transposition kernels, all formats and dimensions, planes smaller than 2^63 bytes."
  },
  {
   "property": "C31",
   "status": "proved",
   "theorems": [
    "C31_stack_vertical",
    "C31_stack_horizontal",
    "C31_odd_rows_left_over"
   ],
   "note": "Clip dimensions are multiples of the subsampling (C31_odd_rows_left_over shows the premise is needed; node creation does not enforce it)."
  },
  {
   "property": "C32",
   "status": "proved",
   "theorems": [
    "C32_separate_fields",
    "C32_field_order",
    "C32_separated_clip",
    "C32_weave",
    "C32_weave_undoes_separate",
    "C32_last_weave_frame"
   ],
   "note": "Duration properties are not in the frame model (C13 covers muldivRational). The last frame of DoubleWeave pairs the last field with itself."
  },
  {
   "property": "C33",
   "status": "partial",
   "theorems": [
    "C33_shuffle_planes_partial",
    "C33_sizes_partial",
    "C33_split_then_join",
    "C33_ratio_32_refuted"
   ],
   "note": "Proved for accepted creations with a defined output format; refuted: a plane size ratio of 32 passes findSubSampling but exceeds the maximal subsampling, so a clip of undefined format is created without an error."
  },
  {
   "property": "C34",
   "status": "proved",
   "theorems": [
    "C34_merge_rounds",
    "C34_merge_monotone",
    "C34_weight_to_sample",
    "C34_end_weights"
   ],
   "note": "Scalar integer kernels at all depths and weights; from the user's weight to the sample through weightOf/process. Float and half formats are not modelled; the single precision rounding of weight*32768+0.5 is modelled as exact."
  },
  {
   "property": "C35",
   "status": "proved",
   "theorems": [
    "C35_mask_rounds",
    "C35_mask_exact",
    "C35_mask_ends"
   ],
   "note": "Scalar integer kernels at all depths, magic-number division included. Float and half formats are not modelled."
  },
  {
   "property": "C36",
   "status": "proved",
   "theorems": [
    "C36_full_difference_roundtrip",
    "C36_full_difference_value",
    "C36_difference_roundtrip",
    "C36_difference_saturates"
   ],
   "note": "Scalar integer kernels at all depths. Float and half formats are not modelled."
  },
  {
   "property": "C37",
   "status": "partial",
   "theorems": [
    "C37_lut_table_applied",
    "C37_lut_values_checked",
    "C37_lut_good_tables_accepted",
    "C37_lut2_table_applied",
    "C37_silent_error_refuted",
    "C37_unprocessed_planes_refuted",
    "C37_lut2_missing_plane_refuted",
    "C37_neon_plane",
    "C37_neon_frame"
   ],
   "note": "Creation (lists, functions, padding of the table to the storage size) and every row kernel: packed 8 and 16 bit groups reading into the padding, the AVX512 VBMI byte permutation, the NEON kernel of ARM64 and the AVX512 gather of Lut2. User functions are pure; the double to float conversion is a parameter. Restricted by three refutations: a function failing with an empty message leaves the table uninitialised, unprocessed planes keep buffers of the source sample size when the depth changes, and a second clip of Lut2 with fewer planes gives a null pointer."
  },
  {
   "property": "C38",
   "status": "partial",
   "theorems": [
    "C38_invert_frame",
    "C38_invert_involution",
    "C38_invert_range",
    "C38_invert_chroma_floats",
    "C38_invert_chroma_halves",
    "C38_limiter_frame",
    "C38_limiter_accepts_integers",
    "C38_limiter_idempotent",
    "C38_limiter_range",
    "C38_limiter_inside",
    "C38_limiter_floats",
    "C38_limiter_floats_idempotent",
    "C38_binarize_frame",
    "C38_binarize_accepts_integers",
    "C38_binarize_two_values",
    "C38_binarize_two_floats",
    "C38_out_of_range_accepted_refuted",
    "C38_nan_argument_refuted",
    "C38_huge_argument_refuted"
   ],
   "note": "Whole filters, creation and frames, for integer formats of 8 to 16 bits, arguments as doubles with exact IEEE semantics; the float and half sample functions are proved separately (range, idempotence, involution). Refuted: range checks happen after rounding (-1.25 is accepted as 0), and NaN or huge limits reach a double to integer cast."
  },
  {
   "property": "C39",
   "status": "proved",
   "theorems": [
    "C39_median_order",
    "C39_median_fifth",
    "C39_median_frame"
   ],
   "note": "The 19-exchange network for any strict weak order (so integers and NaN-free floats), then the whole filter for integer formats: the fifth smallest of the nine samples around, borders mirrored."
  },
  {
   "property": "C40",
   "status": "proved",
   "theorems": [
    "C40_extremum_frame",
    "C40_maximum_value",
    "C40_minimum_value",
    "C40_minimum_dual",
    "C40_flate_frame",
    "C40_flate_value",
    "C40_results_legal",
    "C40_threshold_exact",
    "C40_small_planes_refused"
   ],
   "note": "Whole filters, thresholds and coordinates included, for integer formats; the scalar C kernels (the vector ones are not modelled)."
  },
  {
   "property": "C41",
   "status": "partial",
   "theorems": [
    "C41_convolution_frame",
    "C41_exact_without_division",
    "C41_square_columns_once",
    "C41_horizontal_columns_once",
    "C41_vertical_columns_once",
    "C41_3x3_columns_once",
    "C41_accumulation_exact",
    "C41_taps_mirrored",
    "C41_square_taps_mirrored",
    "C41_mirrored_inside",
    "C41_tiny_divisor_refuted",
    "C41_wide_plane_refuted"
   ],
   "note": "Whole filter for integer formats: matrix arguments, all four modes, mirrored taps, every column once, 32/64 bit accumulation exact, then the float finish as one function of the exact sum. Proved for divisors whose reciprocal is finite (C41_convolution_frame's divisorOk) and planes below 2^30; refuted otherwise: a divisor of 2^-140 makes 0*inf, a NaN handed to lrint, and the mirroring overflows int at 2^30 columns."
  },
  {
   "property": "C42",
   "status": "proved",
   "theorems": [
    "C42_fast_division_exact"
   ],
   "note": "Every divisor and dividend of 32 bits, by proof."
  },
  {
   "property": "C43",
   "status": "proved",
   "theorems": [
    "C43_row_mean",
    "C43_in_place_row_mean",
    "C43_radius_one_row_mean",
    "C43_arguments",
    "C43_frame",
    "C43_gray_frame"
   ],
   "note": "Integer formats, all radii accepted by the filter, all widths below 2^30, any number of passes; includes that the 32-bit accumulator never wraps. The float variants (running sums in float) are not modelled."
  },
  {
   "property": "C44",
   "status": "proved",
   "theorems": [
    "C44_quotient",
    "C44_sample",
    "C44_identical_inputs",
    "C44_scene_changes",
    "C44_fetched_is_requested",
    "C44_fetched_neighbours",
    "C44_arguments",
    "C44_frame"
   ],
   "note": "Integer formats: arguments, frame numbers, scene change weights, 32-bit accumulator and the single precision quotient (error bound by rounding analysis), whole frames. Float and half clips are not modelled."
  },
  {
   "property": "C45",
   "status": "proved",
   "theorems": [
    "C45_kernels",
    "C45_quotients",
    "C45_arguments",
    "C45_frame"
   ],
   "note": "Integer formats, C, SSE2 and AVX2 kernels, one or two clips, planes of at most 2^46 samples (no larger one can be allocated; beyond 2^47 the divisor expression overflows int64). The float kernels are not modelled."
  },
  {
   "property": "C46",
   "status": "proved",
   "theorems": [
    "C46_words",
    "C46_meanings",
    "C46_clip_letters",
    "C46_parse",
    "C46_parse_text",
    "C46_decoded"
   ],
   "note": "Tokens, decoding and tree building for every text and every clip formats; only the recognition of numbers (std::istringstream) is a parameter. Direct evaluation is over any values and any meaning of the operations."
  },
  {
   "property": "C47",
   "status": "proved",
   "theorems": [
    "C47_compile",
    "C47_store",
    "C47_rename"
   ],
   "note": "Value numbering, code generation and renaming for every tree the parser can build, any values and any meaning of the operations; the JIT translation of the instructions and the interpreter are not modelled. Also: one instruction per distinct subexpression."
  },
  {
   "property": "C48",
   "status": "partial",
   "theorems": [
    "C48_local",
    "C48_combine",
    "C48_comparison",
    "C48_strength",
    "C48_fusion",
    "C48_second_loop",
    "C48_reals",
    "C48_algebraic_partial",
    "C48_corrected_partial",
    "C48_program_partial",
    "C48_polynomial_covered",
    "C48_monotone_covered",
    "C48_lost_constant_refuted",
    "C48_power_refuted",
    "C48_sign_refuted",
    "C48_domain_refuted",
    "C48_zero_power_refuted"
   ],
   "note": "Over any arithmetic without rounding (the reals are one) and with 0**0 undefined, the local, combining, comparison, strength and fusion passes keep every value of every expression (C48_local, C48_combine, C48_comparison, C48_strength, C48_fusion, C48_second_loop). The algebraic pass is wrong in general: it loses the constant of a cancelled sum (x x - 5 + gives 0; x 2 pow x * gives 1) and takes roots of products of negative numbers apart (C48_..._refuted). With the constant kept it preserves all covered expressions - integer exponents, or bases that can be seen not to be negative - and so does the program where it agrees with that (C48_..._partial). Rounding of folded constants is not modelled. The model agrees with the 69 outputs in test/expr_compiler up to rounding of one constant."
  },
  {
   "property": "C49",
   "status": "proved",
   "theorems": [
    "C49_accepted",
    "C49_at_most_once",
    "C49_answered",
    "C49_exactly_once",
    "C49_final"
   ],
   "note": "The thread pool as a state machine whose steps are its critical sections (Sched.v): requests from outside, taking a task, serving a cached frame, a filter returning, its result being taken in, parking, waking, flushing. Proved over all reachable states: one callback at most, none for internal productions, an accepted request is unfinished or answered, answered for good. Not modelled: shutdown (waitForDone/stop) and a synchronous getFrame from a pool thread."
  },
  {
   "property": "C50",
   "status": "partial",
   "theorems": [
    "C50_one_production_partial",
    "C50_attaches",
    "C50_all_told",
    "C50_refuted"
   ],
   "note": "Proved for productions started by filters: one per (node, frame), later requests attach, all waiters told the same. Refuted for requests from outside: start(external) never consults allContexts, so getFrameAsync twice for the same frame runs the filter twice at once (and beside an internal production)."
  },
  {
   "property": "C51",
   "status": "partial",
   "theorems": [
    "C51_exclusive",
    "C51_parallel_requests",
    "C51_one_frame_at_a_time",
    "C51_one_thread_per_production",
    "C51_parallel_partial",
    "C51_parallel_refuted"
   ],
   "note": "Proved for serial, unordered and parallel-requests modes and that one production is never in two threads; parallel mode holds between productions started by filters. Refuted: the same frame of a parallel filter runs in two threads when one of them was requested from outside."
  },
  {
   "property": "C52",
   "status": "proved",
   "theorems": [
    "C52_result",
    "C52_failure_spreads",
    "C52_only_from_dependencies",
    "C52_frames_available"
   ],
   "note": "History of results (ghost) is part of the machine: a production's result is the first failure in the order it was told, otherwise a frame or its own error. Every failure received is the result of a production waited for."
  },
  {
   "property": "C53",
   "status": "partial",
   "theorems": [
    "C53_work_found",
    "C53_thread_awake",
    "C53_nothing_lost",
    "C53_completes",
    "C53_flush_ends",
    "C53_nested_refuted"
   ],
   "note": "No stuck state: with no filter running the scan finds a task whatever the memory limit, some thread is awake or notified while anything is unfinished, everything unfinished is in a list or waits for something unfinished, completing never fails. Refuted for nested synchronous requests: while one filter runs, admission control may pass over all tasks; if that filter waits for one of them nothing moves."
  },
  {
   "property": "C54",
   "status": "partial",
   "theorems": [
    "C54_in_order",
    "C54_first",
    "C54_places",
    "C54_refuted"
   ],
   "note": "Proved: the list is ordered by (external request, frame) whenever the lock is free, the scan takes the first task it need not pass over, a new external request is last, an internal one inherits. Refuted in its transitive reading: when a shared production is moved forward for an earlier request, what it waits for keeps its later place."
  },
  {
   "property": "C55",
   "status": "partial",
   "theorems": [
    "C55_threshold",
    "C55_linear_partial",
    "C55_no_gap",
    "C55_right_frame",
    "C55_kept",
    "C55_cache_suffices",
    "C55_refuted"
   ],
   "note": "Proved while the wrapped filter succeeds: calls are strictly increasing, gapless within the look-back window, restart exactly at documented distances, every answer is the frame asked for and every frame kept for it is in the cache given to the wrapper. Refuted when the wrapped filter fails half way: the position is not advanced, so the next request repeats frames."
  },
  {
   "property": "C56",
   "status": "partial",
   "theorems": [
    "C56_signature_partial",
    "C56_distinct_names_refuted",
    "C56_uncallable",
    "C56_invoke",
    "C56_reads_back",
    "C56_writes"
   ],
   "note": "Signature acceptance equals an independent grammar, values are checked against flags, text forms read back. Refuted for distinct names: a signature with the same name twice is accepted and can then never be called."
  },
  {
   "property": "C57",
   "status": "partial",
   "theorems": [
    "C57_requests",
    "C57_served_exists",
    "C57_negative",
    "C57_outside",
    "C57_gets_requested",
    "C57_gets_nothing_else",
    "C57_release_partial",
    "C57_release_others",
    "C57_release_refuted",
    "C57_error_text"
   ],
   "note": "Proved: same clamp on request and fetch, negative and (from outside) past-the-end requests refused, error text truncated and terminated. Refuted for releaseFrameEarly, which does not clamp: a frame fetched by a number past the end cannot be released by it."
  },
  {
   "property": "C58",
   "status": "partial",
   "theorems": [
    "C58_heard",
    "C58_freed_once",
    "C58_nothing_after_partial",
    "C58_nothing_after_refuted",
    "C58_legacy"
   ],
   "note": "Proved for every operation sequence: deliveries equal the independent account (retained messages then everything until removal, once, in order), free callback exactly once. Refuted when the free callback itself logs: the handler is still registered and is told about it after being freed."
  },
  {
   "property": "C59",
   "status": "partial",
   "theorems": [
    "C59_in_order",
    "C59_complete_partial",
    "C59_refuted",
    "C59_stops",
    "C59_not_stuck",
    "C59_window",
    "C59_asked_once"
   ],
   "note": "Proved: file is always an initial segment in order; complete once all counted and the last callback has returned; stops on error; not stuck; window. Refuted: the main thread waits only for the counts, which are raised before writing, so it can leave before the last write."
  },
  {
   "property": "C60",
   "status": "partial",
   "theorems": [
    "C60_exact",
    "C60_accepts_partial",
    "C60_refuses_partial",
    "C60_refuted",
    "C60_every_int64",
    "C60_every_int",
    "C60_round_trip",
    "C60_last_argument"
   ],
   "note": "Proved: exact behaviour of the conversion on every text, all values of the type round trip, whole command lines round trip. Refuted: numbers out of range and the empty string are accepted and silently leave the default."
  },
  {
   "property": "C61",
   "status": "partial",
   "theorems": [
    "C61_strings",
    "C61_map_partial",
    "C61_utf8",
    "C61_file_partial",
    "C61_wellformed_refuted",
    "C61_nul_refuted",
    "C61_long_refuted",
    "C61_audio_refuted"
   ],
   "note": "Proved: every string reads back; maps of integers, finite doubles that fit the buffer and data give well-formed JSON meaning the map, in UTF-8 if the inputs are; the file of a video clip is the array of its frames. Refuted: clips, frames, functions, NaN and infinities give ill-formed text; UTF-8 data is cut at NUL; doubles longer than 100 characters leave unspecified bytes; audio clips give a file without brackets."
  },
  {
   "property": "C62",
   "status": "partial",
   "theorems": [
    "C62_wave",
    "C62_wave_refused",
    "C62_wave64",
    "C62_wave64_refused",
    "C62_round_trip",
    "C62_wave_file",
    "C62_wave64_file",
    "C62_padding_refuted",
    "C62_rate_refuted"
   ],
   "note": "Proved: both headers and whole files read back to the clip for every clip that fits, others are refused; packing and unpacking are inverse. Refuted: an odd data chunk is not padded as RIFF demands; bytes per second are cut to 32 bits rather than refused."
  },
  {
   "property": "C63",
   "status": "partial",
   "theorems": [
    "C63_widen",
    "C63_round_trip",
    "C63_nan",
    "C63_inf",
    "C63_nearest",
    "C63_ties_away",
    "C63_ties_even_refuted",
    "C63_isInf_partial",
    "C63_isInf_refuted"
   ],
   "note": "Proved for all 2^16 halves and all 2^32 floats of the portable branch: exact widening, round trip, NaN, infinities and signs kept, nearest half, overflow exactly from 65520. Refuted: ties go away from zero although the comments (and the native branch) say to even; isInfHalf is also true for NaN."
  },
  {
   "property": "C64",
   "status": "proved",
   "theorems": [
    "C64_same_description_same_id",
    "C64_ids_never_change",
    "C64_ids_distinct",
    "C64_api4_api3_api4"
   ],
   "note": "Registry as sorted association list plus counter, all query sequences over the five API 3 colour families; the counter cannot reach the next family because only 3375 descriptions exist."
  },
  {
   "property": "C65",
   "status": "proved",
   "theorems": [
    "C65_audio_query",
    "C65_audio_struct_check"
   ],
   "note": "Acceptance and fields for all parameters."
  },
  {
   "property": "C66",
   "status": "proved",
   "theorems": [
    "C66_merge_rows",
    "C66_maskmerge_rows",
    "C66_premultiplied_rows",
    "C66_difference_rows",
    "C66_aligned_rows_fit"
   ],
   "note": "All integer vector kernels of merge_sse2/avx2/avx512.cpp, lane by lane, against the scalar ones; the instruction semantics in Simd.v are transcribed from the Intel reference and trusted. Float and half kernels are outside."
  },
  {
   "property": "C67",
   "status": "proved",
   "theorems": [
    "C67_premultiply_rounds",
    "C67_premultiply_ends",
    "C67_premultiplied_mask_rounds",
    "C67_premultiply_then_merge",
    "C67_offset_in_range"
   ],
   "note": "All depths, samples, alphas; the neutral value is the one the filter computes (limited range or chroma midpoint)."
  },
  {
   "property": "C68",
   "status": "partial",
   "theorems": [
    "C68_accepted_weights_partial",
    "C68_weight_list_refuted"
   ],
   "note": "Proved for at most three weights; refuted for four: all weights are stored into a three element array before the count is checked."
  },
  {
   "property": "C69",
   "status": "partial",
   "theorems": [
    "C69_mask_depth_partial",
    "C69_mask_type_refuted"
   ],
   "note": "Depth, dimensions and plane count are enforced; the sample type is not when the mask has a single plane or first_plane is set (refuted: half float mask with 16 bit integer clips)."
  },
  {
   "property": "C70",
   "status": "proved",
   "theorems": [
    "C70_shuffle",
    "C70_shuffle_rejects",
    "C70_split",
    "C70_split_shuffle",
    "C70_mix_planes"
   ],
   "note": "All nodes, layouts and channel lists. Samples are abstract, each channel a clip of its own. AudioMix: only where rows go, not the sums."
  },
  {
   "property": "C71",
   "status": "partial",
   "theorems": [
    "C71_quantize_partial",
    "C71_gain_one",
    "C71_wave_store",
    "C71_gain_nan_refuted"
   ],
   "note": "Doubles as exact rationals plus infinities and NaN (the rounding of the product sample*gain itself is not modelled; scaling by powers of two is exact). Proved for everything but NaN; refuted: an infinite gain times a zero sample is NaN, which passes std::clamp and is cast to an integer."
  },
  {
   "property": "C72",
   "status": "partial",
   "theorems": [
    "C72_splice_first_honest",
    "C72_shuffle_partial",
    "C72_shuffle_refuted"
   ],
   "note": "Splice: first clip honest. ShuffleChannels: honest when the source of the lowest output channel is the longest, refuted otherwise."
  },
  {
   "property": "C73",
   "status": "partial",
   "theorems": [
    "C73_report_partial",
    "C73_report_overflow_refuted"
   ],
   "note": "Proved up to INT_MAX samples, refuted from frame 699051 on (int overflow)."
  },
  {
   "property": "C74",
   "status": "proved",
   "theorems": [
    "C74_transpose_kernels_agree"
   ],
   "note": "SSE2 intrinsics as byte permutations of 16-byte registers; aligned loads and stores checked for alignment."
  },
  {
   "property": "C75",
   "status": "partial",
   "theorems": [
    "C75_levels_frame",
    "C75_levels_defined",
    "C75_wide_output_refuted"
   ],
   "note": "std::pow is a parameter. Proved when the output range and the powers are finite; refuted: an output range of -FLT_MAX..FLT_MAX has infinite width, the entry becomes NaN and is cast to an integer."
  },
  {
   "property": "C76",
   "status": "proved",
   "theorems": [
    "C76_gradient_frame",
    "C76_gradient_symmetric",
    "C76_flat_is_zero",
    "C76_edge_response"
   ],
   "note": "Whole filters for integer formats; the square root and scaling in exact IEEE single precision."
  },
  {
   "property": "C77",
   "status": "partial",
   "theorems": [
    "C77_three_planes_partial",
    "C77_single_plane_refuted"
   ],
   "note": "Proved for clips of three planes, refuted for a Gray clip with planes=[1], which is blurred all the same."
  },
  {
   "property": "C78",
   "status": "partial",
   "theorems": [
    "C78_round_trip_partial",
    "C78_raw",
    "C78_refused",
    "C78_gray_float_refuted",
    "C78_gray_float_always",
    "C78_bitblt"
   ],
   "note": "Proved: y4m files of named YUV formats and integer Gray read back to the clip for all strides and paddings; raw files are the rows in order; everything else is refused (RGB, alpha, unnamed subsamplings). Refuted: Gray clips with float samples are not refused but written with the header of integer clips."
  },
  {
   "property": "C79",
   "status": "proved",
   "theorems": [
    "C79_error",
    "C79_increasing",
    "C79_stops",
    "C79_durations"
   ],
   "note": "Proved for all durations and up to 2^31 frames in exact binary64: the timecode is within kinds+6 roundings of the exact sum, where kinds is the number of different durations so far; strictly increasing for constant durations; stops at the first frame without positive duration. The text of the numbers (std::to_chars, fixed with 20 decimals) is not modelled."
  },
  {
   "property": "C80",
   "status": "partial",
   "theorems": [
    "C80_frame",
    "C80_margins",
    "C80_shown",
    "C80_pieces",
    "C80_glyphs",
    "C80_refused",
    "C80_arguments",
    "C80_gray_partial",
    "C80_gray_refuted"
   ],
   "note": "Proved for all texts, alignments, scales, supported formats and frames: every sample of every plane of the result is given, margins, wrapping, glyph numbers, refusals and arguments. Text in a corner of a frame whose sides are multiples of the subsampling has no colour left under it (C80_gray_partial); centred text may (C80_gray_refuted). The font itself is a parameter (4016 bytes); the texts made by ClipInfo, CoreInfo, FrameNum and FrameProps are not modelled."
  },
  {
   "property": "C81",
   "status": "partial",
   "theorems": [
    "C81_set_created",
    "C81_set_partial",
    "C81_set_reads",
    "C81_set_refuted",
    "C81_set_all",
    "C81_field_based",
    "C81_glob",
    "C81_remove_partial",
    "C81_remove_all",
    "C81_remove_refuted",
    "C81_copy_partial",
    "C81_copy_all",
    "C81_copy_range",
    "C81_copy_refuted",
    "C81_copy_fatal_refuted"
   ],
   "note": "Proved for all legal maps, names, values, patterns and lists: what each of the five filters leaves under every name. Three parts are refuted by witnesses: SetFrameProp accepts a name that is no identifier and then does nothing (C81_set_refuted), RemoveFrameProps of _ColorRange leaves _Range, which still reads as _ColorRange (C81_remove_refuted), and CopyFrameProps of _ColorRange changes unusual ranges or ends the process when _Range is no integer (C81_copy_refuted, C81_copy_fatal_refuted)."
  },
  {
   "property": "C82",
   "status": "partial",
   "theorems": [
    "C82_stores_partial",
    "C82_round_trip",
    "C82_honest_partial",
    "C82_created",
    "C82_patterns",
    "C82_copy_patterns",
    "C82_name_refuted",
    "C82_audio_refuted"
   ],
   "note": "Proved for all constant clips, lengths and valid names. Two refutations: ClipToProp accepts a name that is no identifier and stores nothing (C82_name_refuted), and PropToClip asks an audio frame for its video format (C82_audio_refuted)."
  },
  {
   "property": "C83",
   "status": "partial",
   "theorems": [
    "C83_info_partial",
    "C83_info_rate_refuted",
    "C83_info_complete",
    "C83_created",
    "C83_default",
    "C83_no_ub_partial",
    "C83_overflow_refuted",
    "C83_frame",
    "C83_colour_exact",
    "C83_colour_legal",
    "C83_colour_refused",
    "C83_colour_nearest_refuted",
    "C83_colour_limit_refuted",
    "C83_assume_created",
    "C83_assume_accepts",
    "C83_assume_frame"
   ],
   "note": "Proved: soundness and completeness of the check apart from rates with one zero part, creation, defaults, frames and colours of BlankClip, AssumeFPS. Refuted by witnesses: a rate with one zero part passes the check (C83_info_rate_refuted), fpsnum*10 overflows (C83_overflow_refuted), a colour below one half becomes 1 (C83_colour_nearest_refuted), and 10^12 is accepted as a colour of a 32 bit clip (C83_colour_limit_refuted)."
  },
  {
   "property": "C84",
   "status": "partial",
   "theorems": [
    "C84_frames",
    "C84_requests",
    "C84_bank",
    "C84_defined_partial",
    "C84_defined_refuted"
   ],
   "note": "Frames, requests, sizes and length proved for all clips and rates. That creation is always defined is refuted: from 2147483647 Hz to 1 Hz the number of taps does not fit an int before it is checked; proved defined below a ratio of about 2^24. Sine, square root and the window are not modelled: the coefficients are arbitrary."
  },
  {
   "property": "C85",
   "status": "partial",
   "theorems": [
    "C85_exact",
    "C85_dither",
    "C85_hash",
    "C85_infinite",
    "C85_float_same",
    "C85_float_exact",
    "C85_float_near",
    "C85_float_trip",
    "C85_widen",
    "C85_frames",
    "C85_defined_partial",
    "C85_defined_refuted"
   ],
   "note": "All statements are proved except that no sample is undefined: C85_defined_partial covers every sample but not-a-number and C85_defined_refuted shows that not-a-number always reaches the cast to an integer."
  },
  {
   "property": "C86",
   "status": "proved",
   "theorems": [
    "C86_matrix",
    "C86_same",
    "C86_exists",
    "C86_bass",
    "C86_power",
    "C86_mirror",
    "C86_heard",
    "C86_loud"
   ],
   "note": "All statements proved; the matrix theorem covers every pair of layouts including unknown bits."
  },
  {
   "property": "C87",
   "status": "partial",
   "theorems": [
    "C87_order_filters",
    "C87_vector_kernels_partial",
    "C87_quiet_pictures_partial",
    "C87_driver",
    "C87_scale_refuted",
    "C87_word_scale_refuted",
    "C87_divisor_refuted",
    "C87_samples_refuted"
   ],
   "note": "Minimum, Maximum, Median, Deflate and Inflate of 8 and 16 bit clips are proved equal without further conditions. For the others equality is proved when samples are legal and scales, divisors and biases keep results inside int32 (scale up to 2048, divisor not below 1, bias up to 2^29, or any picture that stays inside); outside of that it is refuted: a large Sobel scale or a tiny divisor turns white into black on the vector paths, and 10 bit samples above 1023 are limited only by the scalar kernel."
  },
  {
   "property": "C88",
   "status": "partial",
   "theorems": [
    "C88_colours",
    "C88_nothing_to_do",
    "C88_bad_range",
    "C88_creation",
    "C88_names",
    "C88_names_refuted",
    "C88_wrong_type_refuted",
    "C88_options"
   ],
   "note": "Proved for all frames whose properties have the documented types and values; a property of another type ends the process (mapGetInt without an error argument), refuted in C88_wrong_type_refuted. One documented name, jedec-p22, is not accepted (the code has ebu3213-e)."
  },
  {
   "property": "C89",
   "status": "partial",
   "theorems": [
    "C89_shape",
    "C89_bob_refuted",
    "C89_interlaced_refuted",
    "C89_overflow_refuted"
   ],
   "note": "Proved for all filters but Bob, and for interlaced frames when src_height is not given. Refuted otherwise: Bob doubles the ratio, src_height on interlaced frames doubles it, and products over 64 bits or a region below a thirty-second of a pixel are undefined."
  },
  {
   "property": "C90",
   "status": "partial",
   "theorems": [
    "C90_descriptions",
    "C90_fields",
    "C90_whole",
    "C90_history",
    "C90_odd_height_refuted"
   ],
   "note": "Proved when the heights are divisible as fields need; odd heights of interlaced frames leave the last row uninitialised (refuted). The assumption that the library ignores what operator== ignores concerns the matrix of grey pictures."
  },
  {
   "property": "C91",
   "status": "partial",
   "theorems": [
    "C91_unique",
    "C91_load",
    "C91_plugins_listed",
    "C91_functions_listed",
    "C91_first_wins",
    "C91_locked",
    "C91_stays",
    "C91_manifest",
    "C91_level",
    "C91_locked_refuted",
    "C91_manifest_refuted",
    "C91_long_manifest_refuted"
   ],
   "note": "Refuted in three places: the resize and text plugins of the core are configured as not modifiable but never locked, a manifest of line ends only raises an uncaught exception, and a manifest longer than 10000 bytes is cut. Locks are left out; an entry point is the list of its calls."
  },
  {
   "property": "C92",
   "status": "partial",
   "theorems": [
    "C92_safe",
    "C92_once",
    "C92_users_first",
    "C92_not_nested",
    "C92_core_last",
    "C92_ends",
    "C92_all_freed",
    "C92_two_cores_refuted",
    "C92_refused_refuted"
   ],
   "note": "Proved when filters hold only clips of their own core, and when creations succeed. Refuted otherwise: the list of instances to free is per thread and not per core, and a refused creation leaks its instance data. A free function is modelled as releasing the references its instance data holds."
  },
  {
   "property": "C93",
   "status": "partial",
   "theorems": [
    "C93_columns",
    "C93_sums_partial",
    "C93_no_bias_partial",
    "C93_power_of_two_partial",
    "C93_sum_wraps_refuted",
    "C93_conversion_refuted",
    "C93_fused_refuted"
   ],
   "note": "Columns, memory and the value in each column are proved for all inputs. Equality with the scalar kernel is proved when sums and results stay inside int32 and the fused multiplication cannot round differently: no bias, or power of two divisors with sums below 2^24. Refuted otherwise: wrapping 7x7 sums, conversion overflow, fused rounding. The scalar kernel is taken to be compiled without contraction of multiplications and additions."
  },
  {
   "property": "C94",
   "status": "partial",
   "theorems": [
    "C94_pictures",
    "C94_room",
    "C94_always_room",
    "C94_past_the_row_refuted",
    "C94_sums_partial",
    "C94_no_bias_partial",
    "C94_sse2_partial",
    "C94_power_of_two_partial",
    "C94_fused_refuted",
    "C94_conversion_refuted"
   ],
   "note": "Memory and the value in each column are proved for all inputs with SSE2 and AVX2, for horizontal and vertical with AVX-512, and for the separable kernel with AVX-512 exactly when the vectors fit (always when the width modulo 32 is 0 or at least 12). Refuted: width modulo 32 of 1. Equality with the scalar kernels is proved without bias and a divisor of at least one, with a bias for SSE2, and with a bias for power of two divisors and sums below 2^24; refuted for other biases with AVX2 and AVX-512 (fused rounding) and for results of 2^31 or more (all levels). Float formats are not modelled. The scalar kernels are taken to be compiled without contraction."
  },
  {
   "property": "C95",
   "status": "partial",
   "theorems": [
    "C95_eval_no_leak_partial",
    "C95_eval_calls_partial",
    "C95_eval_delivers_partial",
    "C95_eval_defined_partial",
    "C95_eval_order_partial",
    "C95_modify_no_leak_partial",
    "C95_modify_calls_partial",
    "C95_modify_delivers_partial",
    "C95_modify_defined_partial",
    "C95_modify_order_partial",
    "C95_audio_clip_refuted",
    "C95_audio_frame_refuted",
    "C95_audio_delivered_refuted"
   ],
   "note": "Everything is proved for functions that return video clips or frames (any other value and any error included). Refuted without that: an audio clip or frame makes the size check undefined, or is delivered by the video filter if the clip has variable size and format."
  },
  {
   "property": "C96",
   "status": "partial",
   "theorems": [
    "C96_graph",
    "C96_edge_lines",
    "C96_box_names",
    "C96_times",
    "C96_escape",
    "C96_one_line",
    "C96_quoted_partial",
    "C96_quote_refuted",
    "C96_full_labels",
    "C96_simple_labels_partial",
    "C96_simple_labels_refuted",
    "C96_orphan_refuted"
   ],
   "note": "The graph, the lines, escaping of line breaks and backslashes and the table are proved for all acyclic graphs. Labels are proved to be quoted strings without quotes in texts, and to carry the arguments of the call they name in the full modes and for direct calls. Refuted: texts with quotes, nested calls in the simple mode, and nodes created outside any function call."
  },
  {
   "property": "C97",
   "status": "partial",
   "theorems": [
    "C97_measure",
    "C97_measure_transparent",
    "C97_estimate",
    "C97_estimate_step",
    "C97_estimate_forgets",
    "C97_first_partial",
    "C97_first_refuted",
    "C97_later",
    "C97_counters",
    "C97_never_stuck",
    "C97_within_partial",
    "C97_overshoot_partial",
    "C97_net_refuted",
    "C97_unknown",
    "C97_sweep_enough",
    "C97_sweep_order",
    "C97_sweep_fixed",
    "C97_sweep_idle",
    "C97_sweep_reaches_partial",
    "C97_sweep_shared_refuted"
   ],
   "note": "Measurement, estimate, counters, progress, the order and the extent of the sweep are proved in general. The bound on memory is proved for calls that keep to their estimates and free only their own memory, with the excess otherwise; the first estimate for frames below 2^63/6 bytes; reaching the target for frames nobody else holds. Refuted: the bound with net measurements, the first estimate of valid but absurd dimensions, the target with shared frames."
  },
  {
   "property": "C98",
   "status": "partial",
   "theorems": [
    "C98_table_unique",
    "C98_size_partial",
    "C98_pack_partial",
    "C98_order_partial",
    "C98_semiplanar_partial",
    "C98_interleaved_partial",
    "C98_bits_partial",
    "C98_gray_bits_refuted",
    "C98_mode_refuted",
    "C98_size_refuted"
   ],
   "note": "Proved for all valid formats, modes and dimensions whose picture stays below 2^31 bytes (and 2^28 pixels wide). The bits per pixel are proved for all codes but Y800, where they are refuted, and r210 and v210, where the customary 30 and 20 are not the bits stored. Refuted: gray pictures, the check of the code before the mode is known, and pictures of 2 GB. The semiplanar layout and the direction of interleaved rows (upwards only for DIB) are stated exactly as well."
  },
  {
   "property": "C99",
   "status": "proved",
   "theorems": [
    "C99_accepted",
    "C99_frame",
    "C99_patterns"
   ],
   "note": "Compilation and arithmetic are parameters (C46 to C48); that the machine code of a line does in each lane what the bytecode says is trusted. Planes with an empty expression and other samples are documented to be undefined, and nothing is said about them. Calls without clips or expressions are refused by the argument check before (C56)."
  },
  {
   "property": "C100",
   "status": "partial",
   "theorems": [
    "C100_lookup",
    "C100_config_partial",
    "C100_quote_refuted",
    "C100_lib64_refuted"
   ],
   "note": "Refuted for paths with a quote (written unescaped, and the reader takes the first quote as the end) and for paths with two separate /lib64/ parts (the writer replaces all of them, the reader the first); proved for all others."
  },
  {
   "property": "C101",
   "status": "partial",
   "theorems": [
    "C101_result",
    "C101_exit_partial",
    "C101_exit_refuted",
    "C101_released_partial",
    "C101_leak_refuted",
    "C101_outputs"
   ],
   "note": "Exit code and release of the messages are refuted: the code of an earlier script stays, and a message set while there is one already is never released. Both are proved for handles without an earlier error, which is all that the header allows; only the way back to the old directory failing behind a failed script breaks the second one within that."
  },
  {
   "property": "C102",
   "status": "partial",
   "theorems": [
    "C102_variables_partial",
    "C102_range",
    "C102_refused",
    "C102_mixed",
    "C102_empty_refuted"
   ],
   "note": "Refuted for properties without elements: they become an empty list, and reading it back reports success without a key. Proved for all others except keys called _ColorRange, whose type and size are those of _Range. Data of unknown kind comes back as binary."
  },
  {
   "property": "C103",
   "status": "partial",
   "theorems": [
    "C103_call_partial",
    "C103_twice_refuted"
   ],
   "note": "Refuted for calls with the same name with and without the underscore, where the later value silently replaces the earlier one; proved for all calls in which the names without the underscore differ. Conversion of the values to properties is typedDictToMap and not part of this."
  },
  {
   "property": "C104",
   "status": "proved",
   "theorems": [
    "C104_slice",
    "C104_empty",
    "C104_overflow",
    "C104_zero",
    "C104_index"
   ],
   "note": "slice.indices and the unbounded integers of Python are given. Only clips of video: slices of audio (2881-2926) refuse other steps than 1 and -1 and are not modelled."
  }
 ]
}