{
 "claims": [
  {
   "property": "C01",
   "status": "proved",
   "theorems": [
    "C01_divisor_exact"
   ],
   "note": ""
  },
  {
   "property": "C02",
   "status": "proved",
   "theorems": [
    "C02_divisor64_exact"
   ],
   "note": ""
  },
  {
   "property": "C03",
   "status": "proved",
   "theorems": [
    "C03_mul128_unsigned",
    "C03_mul128_signed"
   ],
   "note": ""
  },
  {
   "property": "C04",
   "status": "proved",
   "theorems": [
    "C04_popcount32",
    "C04_popcount64",
    "C04_bits_below",
    "C04_bits_above"
   ],
   "note": ""
  },
  {
   "property": "C05",
   "status": "proved",
   "theorems": [
    "C05_divceil",
    "C05_round_up",
    "C05_round_up_refuted",
    "C05_round_down",
    "C05_floor_log2",
    "C05_floor_log2_zero_diverges",
    "C05_ceil_log2",
    "C05_shift_count"
   ],
   "note": "Exact under the documented no-overflow preconditions; C05_round_up_refuted shows the precondition is necessary (wrapped result)."
  },
  {
   "property": "C06",
   "status": "proved",
   "theorems": [
    "C06_scalar_shr",
    "C06_scalar_abs",
    "C06_add_wraparound_unsigned",
    "C06_add_wraparound_signed"
   ],
   "note": ""
  },
  {
   "property": "C07",
   "status": "proved",
   "theorems": [
    "C07_bitset64_is_a_set",
    "C07_bitset64_out_of_range_undefined"
   ],
   "note": ""
  },
  {
   "property": "C08",
   "status": "proved",
   "theorems": [
    "C08_bitset4096_is_a_set"
   ],
   "note": ""
  },
  {
   "property": "C09",
   "status": "partial",
   "theorems": [
    "C09_bitset4096_any_capacity_refuted",
    "C09_bitset4096_oob_indices",
    "C09_bitset4096_any_capacity_partial"
   ],
   "note": "the property is FALSE of the code: theorem proves the negation (index in range of kMaxSize but outside the storage when kMaxSize is not a multiple of 64); C09_..._partial: everything below the largest multiple of 64 works"
  },
  {
   "property": "C10",
   "status": "proved",
   "theorems": [
    "C10_alloc",
    "C10_free",
    "C10_disjoint",
    "C10_null_or_abort"
   ],
   "note": ""
  },
  {
   "property": "C11",
   "status": "proved",
   "theorems": [
    "C11_items",
    "C11_deleter"
   ],
   "note": ""
  },
  {
   "property": "C12",
   "status": "proved",
   "theorems": [
    "C12_ndarray"
   ],
   "note": ""
  },
  {
   "property": "C13",
   "status": "proved",
   "theorems": [
    "C13_fill",
    "C13_copy"
   ],
   "note": ""
  },
  {
   "property": "C14",
   "status": "proved",
   "theorems": [
    "C14_copy_if"
   ],
   "note": ""
  },
  {
   "property": "C15",
   "status": "proved",
   "theorems": [
    "C15_find_if",
    "C15_find"
   ],
   "note": ""
  },
  {
   "property": "C16",
   "status": "proved",
   "theorems": [
    "C16_transform",
    "C16_transform1",
    "C16_transform2",
    "C16_replace_if",
    "C16_replace",
    "C16_generate",
    "C16_foreach"
   ],
   "note": ""
  },
  {
   "property": "C17",
   "status": "proved",
   "theorems": [
    "C17_division_covers_range"
   ],
   "note": ""
  },
  {
   "property": "C18",
   "status": "proved",
   "theorems": [
    "C18_run_calls_each_task_exactly_once"
   ],
   "note": ""
  },
  {
   "property": "C19",
   "status": "partial",
   "theorems": [
    "C19_refuted_single",
    "C19_refuted_stealing",
    "C18_run_calls_each_task_exactly_once"
   ],
   "note": "the property is FALSE of the code: theorems exhibit schedules in which a task outside the range is called because begin+worker / the fetch_add counter wraps at 2^64; holds whenever end + workers <= 2^64 (C18)"
  },
  {
   "property": "C20",
   "status": "proved",
   "theorems": [
    "C20_fork_join"
   ],
   "note": "sequentially consistent interleavings; at most 60 threads and fewer than 2^32-1 epochs (both necessary for the code as written)"
  },
  {
   "property": "C21",
   "status": "partial",
   "theorems": [
    "C21_refuted_61_threads",
    "C20_fork_join"
   ],
   "note": "the property is FALSE of the code: theorem exhibits a history and schedule with 61 threads in which main leaves an epoch before worker 60 finished (stale BarrierCounter<4> count in worker 60's slot); holds for at most 60 threads (C20)"
  },
  {
   "property": "C22",
   "status": "proved",
   "theorems": [
    "C22_coprime_iff_gcd_one",
    "C22_find_another_coprime",
    "C22_shuffled_iota_visits_each_once",
    "C22_victims_distinct"
   ],
   "note": ""
  },
  {
   "property": "C23",
   "status": "proved",
   "theorems": [
    "C23_next",
    "C23_never_empty",
    "C23_visits_all"
   ],
   "note": ""
  },
  {
   "property": "C24",
   "status": "proved",
   "theorems": [
    "C24_terminates",
    "C24_round_robin",
    "C24_step"
   ],
   "note": "for any cost estimator; CostDistribution's floating-point statistics are abstract"
  },
  {
   "property": "C25",
   "status": "proved",
   "theorems": [
    "C25_heap_sort",
    "C25_heap_sort_prefix"
   ],
   "note": ""
  },
  {
   "property": "C26",
   "status": "partial",
   "theorems": [
    "C26_empty_refuted",
    "C25_heap_sort"
   ],
   "note": "the property is FALSE of the code: HeapSort of zero keys swaps keys[0] with the key at lane 2^64-N1 (out of bounds); holds for every non-empty input (C25)"
  },
  {
   "property": "C27",
   "status": "proved",
   "theorems": [
    "C27_heap_select",
    "C27_heap_partial_sort",
    "C27_partial_sort_k0_refuted",
    "C27_partial_sort_k_eq_num_refuted"
   ],
   "note": "for 0<=k<n (select) and 1<=k<n (partial sort); k=0 and k=n are shown to access memory out of bounds (_refuted theorems)"
  },
  {
   "property": "C28",
   "status": "proved",
   "theorems": [
    "C28_partition",
    "C28_blend_overrun_refuted"
   ],
   "note": "proved for CompressBlendedStore that writes only the selected lanes; C28_blend_overrun_refuted shows the access past keys where it is load-blend-store and Compress does not partition (HWY_WASM_EMU256). The order of StoreU-overwritten lanes and Compress upper lanes are arbitrary parameters"
  },
  {
   "property": "C29",
   "status": "proved",
   "theorems": [
    "C29_two_value",
    "C29_two_value_r",
    "C29_two_keys",
    "C29_two_samples",
    "C29_negative_zero_refuted"
   ],
   "note": "for keys whose EqualKeys is identity (integers, 128-bit keys; key-value traits skip this path); C29_negative_zero_refuted: float keys, -0.0 is overwritten by 0.0"
  },
  {
   "property": "C30",
   "status": "proved",
   "theorems": [
    "C30_network8",
    "C30_network16",
    "C30_base_case",
    "C30_negative_zero_refuted"
   ],
   "note": "any total order on keys (integers, 128-bit keys, key-value pairs compared on all bits); both HWY_MEM_OPS_MIGHT_FAULT variants, every vector length; C30_negative_zero_refuted: with x86 float Min/Max one of +0.0/-0.0 can replace the other"
  },
  {
   "property": "C31",
   "status": "proved",
   "theorems": [
    "C31_sort",
    "C31_select",
    "C31_partial_sort"
   ],
   "note": "vector operations at their documented semantics; keys < 2^60; -0.0 excluded for floats (C29/C30 show it can be lost)"
  },
  {
   "property": "C32",
   "status": "proved",
   "theorems": [
    "C32_rank_order",
    "C32_sort_nan"
   ],
   "note": "-0.0 excluded (see C29, C30); C32_rank_order ties the sort rank to IEEE values"
  },
  {
   "property": "C33",
   "status": "proved",
   "theorems": [
    "C33_bf16_from_f32"
   ],
   "note": "all 2^32 floats"
  },
  {
   "property": "C34",
   "status": "proved",
   "theorems": [
    "C34_f16_from_f32"
   ],
   "note": "portable body; also proves the debug assertions never fail"
  },
  {
   "property": "C35",
   "status": "proved",
   "theorems": [
    "C35_f32_from_f16",
    "C35_f32_from_bf16"
   ],
   "note": "portable bodies (no native _Float16/__bf16 operators); default rounding mode assumed for built-in float operations"
  },
  {
   "property": "C36",
   "status": "proved",
   "theorems": [
    "C36_f16_from_f64",
    "C36_bf16_from_f64",
    "C36_nearest_unique"
   ],
   "note": "portable bodies (no native _Float16/__bf16 operators); default rounding mode assumed for built-in float operations; NaN payload of the hardware double->float cast arbitrary"
  },
  {
   "property": "C37",
   "status": "partial",
   "theorems": [
    "C37_pack8",
    "C37_pack16_partial",
    "C37_pack16_11_refuted",
    "C37_pack16_11_partial",
    "C37_pack16_13_refuted",
    "C37_pack16_13_partial",
    "C37_pack32",
    "C37_pack64"
   ],
   "note": "Pack8<1..8>, Pack16<1..16 except 11 and 13>, Pack32<1..32>, Pack64<1..64> (plain and frame-of-reference) proved: in-range blocks round-trip, every code is the pack of exactly one in-range block, exactly kBits*N / n*N elements are written. Pack16<11> and Pack16<13> are refuted (bugs in the code: Unpack of vector 15, resp. several vectors and a non-injective Pack); partial theorems state which vectors and values survive."
  },
  {
   "property": "C38",
   "status": "partial",
   "theorems": [
    "C38_allocate_refuted",
    "C38_allocate_partial"
   ],
   "note": "the property is FALSE of the code: n*sizeof(T) wraps; holds when it does not (C38_allocate_partial)"
  },
  {
   "property": "C39",
   "status": "partial",
   "theorems": [
    "C39_ndarray_oversize_refuted",
    "C12_ndarray"
   ],
   "note": "the property is FALSE of the code: theorem exhibits shape {2^60+1,16} with a 16-element buffer; holds when the padded element count fits in 64 bits (C12)"
  },
  {
   "property": "C40",
   "status": "proved",
   "theorems": [
    "C40_rows"
   ],
   "note": ""
  },
  {
   "property": "C41",
   "status": "partial",
   "theorems": [
    "C41_row_2k_refuted",
    "C41_row_2k_partial"
   ],
   "note": "the property is FALSE of the code: 1905 one-byte pixels give a 2048-byte row (the condition tests HWY_ALIGNMENT instead of 2 KiB); C41_row_2k_partial says exactly when"
  },
  {
   "property": "C42",
   "status": "partial",
   "theorems": [
    "C42_image3_refuted",
    "C42_image3_partial"
   ],
   "note": "the property is FALSE of the code: plane 0's stride is used for all planes; holds for equal strides (C42_image3_partial)"
  },
  {
   "property": "C43",
   "status": "proved",
   "theorems": [
    "C43_mirror",
    "C43_wrap_row"
   ],
   "note": ""
  },
  {
   "property": "C44",
   "status": "partial",
   "theorems": [
    "C44_clamp_partial",
    "C44_subrect_partial",
    "C44_clamp_refuted"
   ],
   "note": "the property is FALSE of the code: begin+size_max may wrap; proved without overflow (_partial)"
  },
  {
   "property": "C45",
   "status": "partial",
   "theorems": [
    "C45_external_alignment_refuted",
    "C45_external_alignment_partial"
   ],
   "note": "the property is FALSE of the code: only vector-size alignment is checked; C45_..._partial: holds where the vector size, or the caller's memory and stride, are multiples of 64"
  },
  {
   "property": "C46",
   "status": "partial",
   "theorems": [
    "C46_candidates_after_best_refuted",
    "C46_candidates_before_best_partial"
   ],
   "note": "the property is FALSE of the code in debug builds: HasCandidates() asserts !Best(); before Best() is known the call works"
  },
  {
   "property": "C47",
   "status": "partial",
   "theorems": [
    "C47_select_nan_refuted",
    "C47_partial_sort_nan_refuted",
    "C31_select",
    "C31_partial_sort"
   ],
   "note": "the property is FALSE of the code: theorems exhibit arrays of 32 doubles with two NaN where real keys are overwritten and infinities appear; holds for inputs without NaN (C31)"
  },
  {
   "property": "C48",
   "status": "partial",
   "theorems": [
    "C48_partial_sort_k0_refuted",
    "C31_partial_sort"
   ],
   "note": "the property is FALSE of the code: k=0 fails an assertion in debug builds for every array above the base case; on targets without vqsort k=0 and k=num access memory out of bounds (C27_*_refuted); holds for 1 <= k (C31)"
  },
  {
   "property": "C49",
   "status": "proved",
   "theorems": [
    "C49_compare_f16",
    "C49_compare_bf16",
    "C49_classify"
   ],
   "note": "portable bodies (no native _Float16/__bf16 operators); default rounding mode assumed for built-in float operations"
  },
  {
   "property": "C50",
   "status": "partial",
   "theorems": [
    "C50_f16_of_int",
    "C50_f16_of_bf16",
    "C50_bf16_of_f16",
    "C50_bf16_of_int_partial",
    "C50_bf16_of_int_refuted"
   ],
   "note": "float16_t: proved for every integer; bfloat16_t: proved below 2^24, FALSE of the code beyond (int32 2^30+2^22+1 is rounded twice)"
  },
  {
   "property": "C51",
   "status": "proved",
   "theorems": [
    "C51_jump",
    "C51_thread_position"
   ],
   "note": "Via GF(2)[x]: the characteristic polynomial is checked on the 256 unit states, x^(2^128) and x^(2^192) modulo it are the jump constants."
  },
  {
   "property": "C52",
   "status": "proved",
   "theorems": [
    "C52_period",
    "C52_vector_streams_disjoint",
    "C52_scalar_streams_disjoint"
   ],
   "note": "Full period from the factorization of 2^256-1 (Pocklington certificates, Fermat's little theorem proved here) and invertibility of x^((2^256-1)/p)+1 for every prime factor p."
  },
  {
   "property": "C53",
   "status": "partial",
   "theorems": [
    "C53_vector_call",
    "C53_array_partial",
    "C53_array_refuted"
   ],
   "note": "C53_vector_call is unconditional; the array forms are proved for n a multiple of the lane count and refuted for every other n (the last full-vector Store writes past the end of the result)."
  },
  {
   "property": "C54",
   "status": "partial",
   "theorems": [
    "C54_cached_partial",
    "C54_small_size_refuted"
   ],
   "note": "Proved for cache sizes that are a multiple of the lane count (sizes are powers of two, so: size >= Lanes); refuted for the permitted sizes below the lane count (out-of-bounds store in the constructor)."
  },
  {
   "property": "C55",
   "status": "proved",
   "theorems": [
    "C55_uniform",
    "C55_constant"
   ],
   "note": "Conversion and multiplication rounded to nearest even as in C33-C36."
  },
  {
   "property": "C56",
   "status": "proved",
   "theorems": [
    "C56_seed",
    "C56_seed_injective",
    "C56_never_zero"
   ],
   "note": "SplitMix64's finalizer is a bijection."
  },
  {
   "property": "C57",
   "status": "partial",
   "theorems": [
    "C57_dispatch_best_partial",
    "C57_dispatch_best_refuted",
    "C57_concurrent_refuted"
   ],
   "note": "Proved for all histories in which SupportedTargets() is not called directly while a detected target is disabled; refuted otherwise (the query re-initializes the chosen target with the unmasked detection result), and for concurrent first dispatches."
  },
  {
   "property": "C58",
   "status": "proved",
   "theorems": [
    "C58_concurrent_dispatch_defined",
    "C58_only_supported_code",
    "C58_best_without_disabling"
   ],
   "note": "Interleaving semantics; every access to mask_, supported_mask_ and the mock is one atomic step."
  },
  {
   "property": "C59",
   "status": "proved",
   "theorems": [
    "C59_x86_detection",
    "C59_x86_ladder"
   ],
   "note": "Default configuration on an OS other than macOS; CPUID and XCR0 arbitrary functions/values."
  },
  {
   "property": "C60",
   "status": "proved",
   "theorems": [
    "C60_generated_targets"
   ],
   "note": ""
  },
  {
   "property": "C61",
   "status": "partial",
   "theorems": [
    "C61_zmm_state_partial",
    "C61_ymm_state",
    "C61_zmm_state_refuted"
   ],
   "note": "Proved for AVX3, AVX3_DL, AVX3_ZEN4, AVX3_SPR; refuted for AVX10_2_512."
  },
  {
   "property": "C62",
   "status": "proved",
   "theorems": [
    "C62_moments",
    "C62_accessors",
    "C62_bins",
    "C62_bins_merge"
   ],
   "note": "Exact rational arithmetic; count below the square root of 2^63 (int64 squares in the code)."
  },
  {
   "property": "C63",
   "status": "partial",
   "theorems": [
    "C63_variance_partial",
    "C63_variance_refuted"
   ],
   "note": "Proved up to 2^31 samples; refuted beyond (negative variance)."
  },
  {
   "property": "C64",
   "status": "proved",
   "theorems": [
    "C64_counting_sort"
   ],
   "note": ""
  },
  {
   "property": "C65",
   "status": "partial",
   "theorems": [
    "C65_median_partial",
    "C65_median_refuted",
    "C65_mad"
   ],
   "note": "Proved unless 32/64-bit values use the upper half of the type; refuted there."
  },
  {
   "property": "C66",
   "status": "partial",
   "theorems": [
    "C66_mode_in_range",
    "C66_mode_majority_partial",
    "C66_mode_majority_refuted",
    "C66_mode_empty_refuted"
   ],
   "note": "Range: proved for all non-empty arrays; majority: proved for even lengths or a majority surviving the skipped window; refuted for odd lengths; empty arrays read out of bounds."
  },
  {
   "property": "C67",
   "status": "proved",
   "theorems": [
    "C67_estimate_within_costs",
    "C67_constant_cost",
    "C67_negative_ignored",
    "C67_outliers_clamped",
    "C67_estimate_needs_cost",
    "C67_zero_is_absorbing"
   ],
   "note": "Exact rational arithmetic, arbitrary non-negative sqrt. C67_zero_is_absorbing records a limitation."
  },
  {
   "property": "C68",
   "status": "proved",
   "theorems": [
    "C68_dot",
    "C68_dot_i16"
   ],
   "note": "Exact arithmetic in any commutative monoid (float rounding depends on the order of summation and is not claimed); int16 -> int32 overload modulo 2^32."
  },
  {
   "property": "C69",
   "status": "partial",
   "theorems": [
    "C69_matvec_partial",
    "C69_unaligned_out_refuted"
   ],
   "note": "Proved for out aligned to the vector size and vectors up to 64 bytes; refuted for an unaligned out (non-temporal stores), which the header does not exclude."
  },
  {
   "property": "C70",
   "status": "proved",
   "theorems": [
    "C70_unroller_map",
    "C70_unroller_reduce",
    "C70_short_circuit"
   ],
   "note": "Exact arithmetic in any commutative monoid for reductions; ActualLanes = MaxUnitLanes where masked accesses may fault."
  },
  {
   "property": "C71",
   "status": "proved",
   "theorems": [
    "C71_aes_rounds",
    "C71_aes_cipher",
    "C71_aes_keygen"
   ],
   "note": "The table-driven portable implementation (targets without AES instructions); constant-time behaviour not modelled."
  },
  {
   "property": "C72",
   "status": "partial",
   "theorems": [
    "C72_clmul_partial",
    "C72_clmul_refuted",
    "C72_clmul_low_half"
   ],
   "note": "The full claim is false for the portable implementation (C72_clmul_refuted: both operands 0x1111111111111111 give a wrong upper half, because sixteen partial products meet in one 4-bit column and carry). Proved exactly: the result is right if and only if not both operands contain a full residue class of bits modulo 4; the lower half is always right."
  },
  {
   "property": "C73",
   "status": "proved",
   "theorems": [
    "C73_population_count"
   ],
   "note": "Portable implementations (table lookup and SWAR)."
  },
  {
   "property": "C74",
   "status": "proved",
   "theorems": [
    "C74_saturated_add_sub",
    "C74_saturated_neg_abs",
    "C74_abs_diff",
    "C74_demote_unsigned"
   ],
   "note": "The portable implementations; instructions of particular targets are not modelled."
  },
  {
   "property": "C75",
   "status": "proved",
   "theorems": [
    "C75_average_round",
    "C75_rounding_shifts",
    "C75_rounding_shr",
    "C75_documented_form"
   ],
   "note": "Portable implementations."
  },
  {
   "property": "C76",
   "status": "proved",
   "theorems": [
    "C76_fit_spec",
    "C76_mul",
    "C76_sat_widen_mul_pairwise_add",
    "C76_sat_widen_mul_accumulate",
    "C76_sum_of_mul_quad",
    "C76_lanes"
   ],
   "note": "Portable implementations."
  },
  {
   "property": "C77",
   "status": "proved",
   "theorems": [
    "C77_leading_zero_count",
    "C77_trailing_zero_count",
    "C77_highest_set_bit"
   ],
   "note": "Portable implementations; conversion to float is IEEE round to nearest even."
  },
  {
   "property": "C78",
   "status": "proved",
   "theorems": [
    "C78_division",
    "C78_quot_rem",
    "C78_overflow_wraps"
   ],
   "note": "Rounding is round-to-nearest-even with 11, 24 or 53 bits and unbounded exponents; Armv7 and 64-bit lanes without binary64 are not modelled. Uses the standard library's axioms of real numbers."
  },
  {
   "property": "C79",
   "status": "proved",
   "theorems": [
    "C79_load_interleaved",
    "C79_load_bounds",
    "C79_store_interleaved",
    "C79_round_trip",
    "C79_nonvacuous"
   ],
   "note": "All lane and vector sizes of the generic implementation with the block transpositions of 128, 256 and 512 bit targets."
  },
  {
   "property": "C80",
   "status": "partial",
   "theorems": [
    "C80_file_read_partial",
    "C80_long_file_refuted",
    "C80_long_file_exists",
    "C80_nonvacuous"
   ],
   "note": "Proved for files of fewer than 200 bytes. Refuted for longer ones (e.g. the 64 even processors of a node): the terminating NUL is written one past the buffer."
  },
  {
   "property": "C81",
   "status": "proved",
   "theorems": [
    "C81_number",
    "C81_not_a_number",
    "C81_nonvacuous"
   ],
   "note": ""
  },
  {
   "property": "C82",
   "status": "partial",
   "theorems": [
    "C82_expand_list_partial",
    "C82_empty_list_refuted",
    "C82_malformed_refuted",
    "C82_nonvacuous"
   ],
   "note": "Proved for every well-formed non-empty list. Refuted: the empty list of a node without processors aborts the program, and a missing number after ',' or '-' counts as processor 0."
  },
  {
   "property": "C83",
   "status": "proved",
   "theorems": [
    "C83_indices",
    "C83_sets",
    "C83_grouping",
    "C83_unknown",
    "C83_nonvacuous"
   ],
   "note": "Hypotheses: files shorter than 200 bytes and nodes numbered consecutively with non-empty lists (C80, C82, C84 show what happens otherwise)."
  },
  {
   "property": "C84",
   "status": "partial",
   "theorems": [
    "C84_node_partial",
    "C84_gap_refuted",
    "C84_memory_only_node_refuted"
   ],
   "note": "Proved for nodes numbered consecutively from 0 (at most 256) with non-empty lists. Refuted with a gap in the numbering (processors of later nodes are reported in node 0) and with a memory-only node (abort)."
  },
  {
   "property": "C85",
   "status": "partial",
   "theorems": [
    "C85_data_caches_partial",
    "C85_unknown",
    "C85_share_bounds",
    "C85_consistency_abort_refuted",
    "C85_nonvacuous"
   ],
   "note": "Proved when line size * ways + gcd(line size * ways, 1024) >= 1024 or the size divides evenly by the cores. Refuted otherwise: an 11-way L3 of 15488 KiB shared by 9 cores aborts in the consistency check."
  },
  {
   "property": "C86",
   "status": "proved",
   "theorems": [
    "C86_loadn_generic",
    "C86_loadn_avx2_narrow",
    "C86_loadn_avx2_wide",
    "C86_loadn_masked",
    "C86_loadn_emu128"
   ],
   "note": "Every access is bounds-checked in the model (out of range: None). On AVX2, lanes at and after N but before num may be read, as the documentation allows."
  },
  {
   "property": "C87",
   "status": "partial",
   "theorems": [
    "C87_loadnor_avx2_narrow_partial",
    "C87_loadnor_avx2_wide",
    "C87_loadnor_masked",
    "C87_loadnor_emu128",
    "C87_loadnor_generic_partial",
    "C87_loadnor_avx2_uniform_partial",
    "C87_loadnor_generic_1_4_partial",
    "C87_loadnor_generic_refuted_2",
    "C87_loadnor_generic_refuted_8",
    "C87_loadnor_generic_refuted_16",
    "C87_loadnor_generic_refuted_wide",
    "C87_loadnor_avx2_refuted_2_bytes"
   ],
   "note": "Proved lane by lane on AVX2 (except pairs of bytes), AVX-512/SVE and EMU128, and for one or four lanes on generic targets; on generic targets and pairs of bytes otherwise only if all lanes of `no` are equal. Refuted there: 2, 8 and 16 lanes and vectors above 16 bytes take the remaining lanes from other positions of `no`."
  },
  {
   "property": "C88",
   "status": "proved",
   "theorems": [
    "C88_storen_generic",
    "C88_storen_avx2_narrow",
    "C88_storen_avx2_wide",
    "C88_storen_masked",
    "C88_storen_emu128"
   ],
   "note": ""
  },
  {
   "property": "C89",
   "status": "proved",
   "theorems": [
    "C89_thread_self_times"
   ],
   "note": "Depth and zone limits are only checked by HWY_DASSERT in the code; here they are hypotheses. The measured overheads are arbitrary values."
  },
  {
   "property": "C90",
   "status": "proved",
   "theorems": [
    "C90_buffering_transparent",
    "C90_size_independent",
    "C90_history_analyzed"
   ],
   "note": ""
  },
  {
   "property": "C91",
   "status": "partial",
   "theorems": [
    "C91_report_distinct_partial",
    "C91_report_first_partial",
    "C91_duplicate_refuted",
    "C91_no_threads_refuted"
   ],
   "note": "Proved if no two zones have equal names. In general there is a line with the correct totals for every name, but refuted that it is the only one (C91_duplicate_refuted), and that the report works if no zone was ever entered (C91_no_threads_refuted)."
  },
  {
   "property": "C92",
   "status": "proved",
   "theorems": [
    "C92_round_emu128",
    "C92_round_scalar",
    "C92_round_sse2",
    "C92_trunc_emu128",
    "C92_trunc_scalar",
    "C92_trunc_sse2",
    "C92_ceil_emu128",
    "C92_ceil_sse2",
    "C92_floor_emu128",
    "C92_floor_sse2",
    "C92_unique",
    "C92_sign_of_zero_refuted"
   ],
   "note": "The documentation does not promise the sign of zero results; C92_sign_of_zero_refuted records that targets disagree on it."
  },
  {
   "property": "C93",
   "status": "proved",
   "theorems": [
    "C93_signed",
    "C93_unsigned",
    "C93_in_range_signed",
    "C93_in_range_unsigned"
   ],
   "note": "Portable targets (EMU128, SCALAR)."
  },
  {
   "property": "C94",
   "status": "partial",
   "theorems": [
    "C94_nearest_int_partial",
    "C94_demote_nearest_partial",
    "C94_nearest_int_refuted",
    "C94_demote_nearest_refuted",
    "C94_demote_of_round"
   ],
   "note": "Proved except: NearestInt of exactly 2^31 (float) or 2^63 (double) performs an undefined cast (the limit check compares with LimitsMax rounded up), and DemoteToNearestInt saturates values in (-2147483647.5, -2147483647) to INT_MIN. Both exceptions are proved to be real (C94_nearest_int_refuted, C94_demote_nearest_refuted)."
  },
  {
   "property": "C95",
   "status": "proved",
   "theorems": [
    "C95_ceil_int_generic",
    "C95_floor_int_generic",
    "C95_ceil_int_sse2",
    "C95_floor_int_sse2"
   ],
   "note": "For SSE2, given a ConvertTo that saturates as documented."
  },
  {
   "property": "C96",
   "status": "proved",
   "theorems": [
    "C96_demote_f64_f32"
   ],
   "note": "Portable targets (EMU128, SCALAR)."
  },
  {
   "property": "C97",
   "status": "proved",
   "theorems": [
    "C97_mul_by_pow2",
    "C97_targets_agree",
    "C97_ldexp_unique"
   ],
   "note": "The generic implementation (HWY_NATIVE_MUL_BY_POW2 undefined), given IEEE 754 multiplication."
  },
  {
   "property": "C98",
   "status": "proved",
   "theorems": [
    "C98_mul_by_floor_pow2",
    "C98_emu128"
   ],
   "note": "C98_emu128 composes it with the FloorInt of C95; the general theorem holds for any saturating FloorInt."
  },
  {
   "property": "C99",
   "status": "proved",
   "theorems": [
    "C99_get_exponent",
    "C99_get_biased_exponent",
    "C99_subnormal_refuted"
   ],
   "note": "The documented floor(log2(x)) is refuted for subnormals (C99_subnormal_refuted)."
  },
  {
   "property": "C100",
   "status": "partial",
   "theorems": [
    "C100_compress_emu",
    "C100_compress_bits_emu",
    "C100_compress_lanes",
    "C100_compress_not_lanes",
    "C100_compress_bits_lanes",
    "C100_compress_swap",
    "C100_compress_one",
    "C100_compress_bytes",
    "C100_compress_bits_bytes_partial",
    "C100_compress_bits_bytes_refuted"
   ],
   "note": "Refuted for CompressBits and CompressBitsStore of fewer than 8 bytes whose unused bits are set (C100_compress_bits_bytes_refuted): the generic version uses the whole byte as the table index. Proved whenever these bits are zero, and without that condition for all wider lanes."
  },
  {
   "property": "C101",
   "status": "proved",
   "theorems": [
    "C101_emu",
    "C101_bits_emu",
    "C101_store_lanes",
    "C101_bits_lanes",
    "C101_blended_lanes",
    "C101_store_bytes",
    "C101_blended_bytes",
    "C101_bits_bytes"
   ],
   "note": "As for C100, CompressBitsStore of fewer than 8 bytes requires the unused bits to be zero."
  },
  {
   "property": "C102",
   "status": "proved",
   "theorems": [
    "C102_emu",
    "C102_bytes",
    "C102_lanes16",
    "C102_lanes32",
    "C102_lanes64",
    "C102_one",
    "C102_load_expand",
    "C102_roundtrip"
   ],
   "note": ""
  },
  {
   "property": "C103",
   "status": "proved",
   "theorems": [
    "C103_store_emu",
    "C103_store_x86",
    "C103_load_emu",
    "C103_load_x86",
    "C103_load_of_stored",
    "C103_count",
    "C103_all",
    "C103_find_first",
    "C103_find_last"
   ],
   "note": ""
  },
  {
   "property": "C104",
   "status": "proved",
   "theorems": [
    "C104_emu",
    "C104_avx3",
    "C104_avx3_512",
    "C104_one",
    "C104_two",
    "C104_half",
    "C104_full",
    "C104_avx2"
   ],
   "note": ""
  },
  {
   "property": "C105",
   "status": "proved",
   "theorems": [
    "C105_promote_f16",
    "C105_promote_special",
    "C105_promote_f16_f64"
   ],
   "note": ""
  },
  {
   "property": "C106",
   "status": "proved",
   "theorems": [
    "C106_demote_f16",
    "C106_demote_f64_f16",
    "C106_scalar_agrees"
   ],
   "note": ""
  },
  {
   "property": "C107",
   "status": "proved",
   "theorems": [
    "C107_demote_bf16",
    "C107_ordered_demote2_bf16",
    "C107_reorder_demote2_bf16",
    "C107_promote_bf16"
   ],
   "note": ""
  },
  {
   "property": "C108",
   "status": "proved",
   "theorems": [
    "C108_shift_left8",
    "C108_shift_right_u8",
    "C108_shift_right_i8",
    "C108_shift_right_i64",
    "C108_gfni",
    "C108_broadcast_sign"
   ],
   "note": ""
  },
  {
   "property": "C109",
   "status": "proved",
   "theorems": [
    "C109_sse_16",
    "C109_sse_8",
    "C109_sse_32",
    "C109_sse_64",
    "C109_sse_8_single",
    "C109_signed",
    "C109_avx2",
    "C109_avx2_8"
   ],
   "note": ""
  },
  {
   "property": "C110",
   "status": "proved",
   "theorems": [
    "C110_rotate",
    "C110_rotate8",
    "C110_rol_ror",
    "C110_rol_ror_sse_8",
    "C110_same",
    "C110_same8",
    "C110_unique"
   ],
   "note": ""
  },
  {
   "property": "C111",
   "status": "proved",
   "theorems": [
    "C111_reverse8",
    "C111_reverse2_16",
    "C111_reverse_lane_bytes",
    "C111_reverse_bits8",
    "C111_reverse_bits8_gfni",
    "C111_reverse_bits"
   ],
   "note": ""
  },
  {
   "property": "C112",
   "status": "proved",
   "theorems": [
    "C112_bit_shuffle",
    "C112_bit_shuffle_sse",
    "C112_multi_rotate_right",
    "C112_multi_rotate_right_any",
    "C112_multi_rotate_right_single"
   ],
   "note": ""
  },
  {
   "property": "C113",
   "status": "proved",
   "theorems": [
    "C113_eq_ne",
    "C113_signed",
    "C113_unsigned"
   ],
   "note": ""
  },
  {
   "property": "C114",
   "status": "proved",
   "theorems": [
    "C114_min_max_unsigned",
    "C114_min_max_signed",
    "C114_abs",
    "C114_saturated_abs",
    "C114_if_then_else",
    "C114_if_negative",
    "C114_if_negative_neg"
   ],
   "note": ""
  },
  {
   "property": "C115",
   "status": "proved",
   "theorems": [
    "C115_compare",
    "C115_upper",
    "C115_min_max",
    "C115_order"
   ],
   "note": ""
  },
  {
   "property": "C116",
   "status": "proved",
   "theorems": [
    "C116_u32_f64",
    "C116_u32_f32",
    "C116_i64_f64",
    "C116_u64_f64",
    "C116_i64_f32",
    "C116_u64_f32"
   ],
   "note": ""
  },
  {
   "property": "C117",
   "status": "proved",
   "theorems": [
    "C117_f32_i32",
    "C117_f64_i64",
    "C117_constants",
    "C117_f64_i32",
    "C117_f64_u32",
    "C117_f64_u32_in_range",
    "C117_f32_u32",
    "C117_f32_u32_in_range",
    "C117_f64_i64_wide",
    "C117_f64_i64_wide_in_range",
    "C117_f64_u64",
    "C117_f64_u64_in_range",
    "C117_f32_i64",
    "C117_f32_i64_in_range",
    "C117_f32_u64",
    "C117_f32_u64_in_range"
   ],
   "note": ""
  },
  {
   "property": "C118",
   "status": "proved",
   "theorems": [
    "C118_demote",
    "C118_demote2",
    "C118_demote_256",
    "C118_reorder_256",
    "C118_ordered_256",
    "C118_demote2_avx2"
   ],
   "note": ""
  },
  {
   "property": "C119",
   "status": "proved",
   "theorems": [
    "C119_promote",
    "C119_truncate",
    "C119_truncate2",
    "C119_truncate_256",
    "C119_truncate2_256"
   ],
   "note": ""
  },
  {
   "property": "C120",
   "status": "proved",
   "theorems": [
    "C120_concat",
    "C120_concat_256"
   ],
   "note": ""
  },
  {
   "property": "C121",
   "status": "proved",
   "theorems": [
    "C121_times",
    "C121_mul_even",
    "C121_mul_odd",
    "C121_mul_even64",
    "C121_mul_odd64",
    "C121_mul_high",
    "C121_mul_fixed15",
    "C121_pairwise",
    "C121_pairwise_signed",
    "C121_average"
   ],
   "note": ""
  },
  {
   "property": "C122",
   "status": "proved",
   "theorems": [
    "C122_odd_even",
    "C122_dup_even",
    "C122_dup_odd",
    "C122_interleave_even",
    "C122_interleave_odd"
   ],
   "note": ""
  },
  {
   "property": "C123",
   "status": "proved",
   "theorems": [
    "C123_slide_up",
    "C123_slide_down",
    "C123_shift_left_lanes",
    "C123_shift_right_lanes",
    "C123_slide1_up",
    "C123_slide1_down"
   ],
   "note": ""
  },
  {
   "property": "C124",
   "status": "proved",
   "theorems": [
    "C124_combine_shift_right",
    "C124_broadcast",
    "C124_reverse"
   ],
   "note": ""
  },
  {
   "property": "C125",
   "status": "proved",
   "theorems": [
    "C125_table_lookup_bytes",
    "C125_table_lookup_bytes_or0",
    "C125_table_lookup_lanes",
    "C125_two_tables_lookup_lanes"
   ],
   "note": ""
  },
  {
   "property": "C126",
   "status": "proved",
   "theorems": [
    "C126_interleave_lower",
    "C126_interleave_upper",
    "C126_halves",
    "C126_combine",
    "C126_zero_extend",
    "C126_concat_halves"
   ],
   "note": ""
  }
 ]
}