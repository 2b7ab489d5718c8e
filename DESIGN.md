# Formal model of google/highway in Rocq (Coq 8.16.1)

The code in /repo is read as text only; the theorems are about the Gallina models in
`rocq/theories/*_Model.v`, each definition of which cites the file and lines it models and says where
it simplifies.

## File layout

* `X_Model.v`   executable model of the code (no proofs).
* `X_Spec.v`    small independent specification (only where the statement needs more than stdlib notions).
* `X_Proofs.v` and other `X_*.v`  lemmas.
* `Properties_X.v`  only the property theorems, each followed by `Print Assumptions`, plus
  `Example`s showing that the hypotheses are met by non-trivial cases.
* `Word.v`      unsigned/signed machine words as `Z` with explicit `mod 2^w`.
* `GF2_Poly.v`, `Fermat.v`, `Primes.v`  mathematics needed by the generator-period theorems, proved here from the standard library.

## Conventions

* Machine integers are `Z`; every C++ operation that can wrap is modelled with an explicit
  `mod 2^w`; signed values are represented by their two's complement value.
* Undefined behaviour (out-of-bounds access, shift count >= width, division by zero, signed overflow),
  a failed HWY_ASSERT and an abort are distinct outcomes (`None`/`Abort`), never a default value. A theorem
  `exists r, f x = Some r /\ ...` therefore also says that none of these happens.
* Vector code is modelled for an arbitrary number of lanes `N >= 1` (a power of two where the code needs it).
* Loops are structural recursion or fuel; fuel exhaustion is a distinct outcome excluded by the theorem.
* Threads: small-step interleaving semantics with sequentially consistent atomics (see trusted base).
* Vector operations whose body is target-specific are used at their documented semantics
  (g3doc/quick_reference.md); unspecified result lanes are arbitrary parameters of the model.
* A property that turned out to be false of the code has a `_refuted` theorem proving its negation on the model
  (with the witness), a `_partial` theorem (or a sibling property) stating what does hold, and status `partial`.

## Properties: what is modelled and how it is proved

| id | modelled | proof | status |
|---|---|---|---|
| C01 | base.h Divisor: constructor, Divide, Remainder mod 2^32 | Granlund-Montgomery multiplicative inverse argument in Z | proved |
| C02 | base.h Divisor64 (128-bit division loop and Divide/Remainder) | same argument at 64 bits; exactness of the portable 128/64 long division | proved |
| C03 | base.h Mul128 portable bodies, unsigned and signed | algebra with div/mod on 32-bit halves | proved |
| C04 | base.h PopCount SWAR fallback, Num0BitsBelow/AboveLS1/MS1 portable bodies | per-field invariants, Z.log2 lemmas | proved |
| C05 | base.h DivCeil, RoundUpTo, RoundDownTo, FloorLog2, CeilLog2, ShiftCount with wrap | lia, Z.log2; refutation of the unguarded RoundUpTo | proved |
| C06 | base.h ScalarShr (both branches), ScalarAbs, AddWithWraparound | bit lemmas | proved |
| C07 | bit_set.h BitSet64, arbitrary operation histories | refinement to a finite set | proved |
| C08 | bit_set.h BitSet4096 two-level set, arbitrary histories | refinement, invariant nonzero-bit <-> nonempty word | proved |
| C09 | BitSet4096 with capacity not a multiple of 64 | witness 100/99; exact set of failing indices; positive part below kMaxSize/64*64 | partial |
| C10 | aligned_allocator.cc AllocateAlignedBytes/FreeAlignedBytes, header bytes, all histories of alloc/user store/free | inductive reachability invariant | proved |
| C11 | aligned_allocator.h AllocateAlignedItems, deleter element order | arithmetic | proved |
| C12 | aligned_allocator.h AlignedNDArray ctor, truncate, operator[] | mixed-radix injectivity | proved |
| C13 | contrib/algo Fill, Copy on bounds-checked memory, any N | loop invariants | proved |
| C14 | contrib/algo CopyIf via CompressBlendedStore | loop invariant = filter | proved |
| C15 | contrib/algo Find, FindIf | loop invariant | proved |
| C16 | contrib/algo Transform, Transform1/2, Replace, ReplaceIf, Generate, Foreach | loop invariants | proved |
| C17 | thread_pool.h static division of the range | arithmetic | proved |
| C18 | thread_pool.h one Run: inline, one-task-per-worker and work-stealing paths; interleaving semantics | inductive invariant over all schedules, variant | proved |
| C19 | same, ranges ending near 2^64 | explicit schedules | partial |
| C20 | thread_pool.h + spin.h wait types, barrier types, config changes, destruction, as a transition system | inductive invariant, safety and progress for all schedules | proved |
| C21 | same with 61 threads | explicit schedule | partial |
| C22 | ShuffledIota: CoprimeNonzero, FindAnotherCoprime, Next; Worker victims | gcd arguments; binary GCD invariant | proved |
| C23 | auto_tune.h NextWithSkip circular list | list invariant | proved |
| C24 | auto_tune.h AutoTune state machine with abstract cost estimator | invariant over histories | proved |
| C25 | vqsort-inl.h SiftDown, Heapify, HeapSort, any strict weak order, keys of N1 lanes | heap invariant | proved |
| C26 | HeapSort of zero keys | the first swap addresses lane 2^64-N1 | partial |
| C27 | HeapSelect, HeapPartialSort | heap invariant; k=0 and k=num refuted | proved |
| C28 | vqsort-inl.h Partition: buffering, unrolled loop, final copies, any N | loop invariants + permutation | proved |
| C29 | vqsort-inl.h PartitionIfTwoKeys, PartitionIfTwoSamples, MaybePartitionTwoValue(R) | loop invariants | proved |
| C30 | sorting_networks-inl.h Sort8Rows/Sort16Rows, Merge*, BaseCase padding and gather | 0-1 principle + kernel computation, lifted to every total order and every column count | proved |
| C31 | vqsort-inl.h Recurse, pivot sampling, Sort/PartialSort/Select entry points, traits-inl.h, traits128-inl.h, shared-inl.h | fuel induction on the recursion, permutation + order | proved |
| C32 | CountAndReplaceNaN, restoring NaN, order of float ranks | composition with C31; rank lemma against the float specification | proved |
| C33 | base.h BF16BitsFromF32 on all bit patterns | own IEEE specification (Float_Spec: value as dyadic rational, nearest-even), case analysis on exponent | proved |
| C34 | base.h F16BitsFromF32 on all bit patterns | same | proved |
| C35 | base.h F32FromF16, F32FromBF16 | same | proved |
| C36 | base.h F16FromF64, BF16FromF64 (round-to-odd to float first) | same; round-to-odd lemma | proved |
| C37 | contrib/bit_pack Pack8/16/32/64, all bit counts, plain and frame-of-reference | symbolic bit provenance checked in the kernel by computation for one lane and lifted to every lane count | partial |
| C38 | aligned_allocator.h AlignedAllocator<T>::allocate | witness | partial |
| C39 | AlignedNDArray of oversize shape | witness | partial |
| C40 | image.cc/.h BytesPerRow, constructor, ShrinkTo, VoidRow | arithmetic | proved |
| C41 | image.cc BytesPerRow anti-aliasing rule | witness and exact characterisation | partial |
| C42 | image.h Image3 row pointers | witness; positive part for equal strides | partial |
| C43 | image.h Mirror, WrapRowMirror | strong induction on |x| | proved |
| C44 | image.h Rect clamping, Subrect | arithmetic; witness for wrap | partial |
| C45 | image.cc external-memory constructor | witness; positive part | partial |
| C46 | auto_tune.h Candidates() in debug builds | from the definition for every finished tuner | partial |
| C47 | PartialSort/Select with NaN | witness arrays, run by the kernel | partial |
| C48 | PartialSort with k=0 | for every array above the base case | partial |
| C49 | base.h float16_t/bfloat16_t comparisons, IsNaN/IsInf/IsFinite/SignBit helpers | case analysis against Float_Spec | proved |
| C50 | base.h ConvertScalarTo int/half/bfloat16 | double rounding analysis; witness | partial |
| C51 | contrib/random Xoshiro Jump/LongJump | transition as a GF(2)-linear map; characteristic polynomial checked on unit states; x^(2^128), x^(2^192) modulo it by certificate | proved |
| C52 | period and disjointness of streams | order of x modulo the polynomial: factorization of 2^256-1, Pocklington primes, Fermat proved in Fermat.v | proved |
| C53 | VectorXoshiro vector and array calls | column invariant; array calls refuted for n not a multiple of the lane count | partial |
| C54 | CachedXoshiro | invariant over call histories; refuted for size < lanes | partial |
| C55 | Uniform() bits -> double | exact dyadic value | proved |
| C56 | SplitMix64 seeding | bijectivity of the finalizer via modular inverses and xorshift inverses | proved |
| C57 | targets.cc SupportedTargets/DisableTargets/SetSupportedTargetsForTest, targets.h ChosenTarget, highway.h tables and ChooseAndCall for all six architectures | invariant on the chosen mask over histories; bit-scan lemma of C04; witness for the refutation | partial |
| C58 | the same as small steps of any number of threads | invariant over reachable states | proved |
| C59 | targets.cc x86 FlagsFromCPUID, DetectTargets | bitwise characterisation of each stage | proved |
| C60 | targets.h SupportedAndGeneratedTargets | induction on the lowest remaining bit | proved |
| C61 | targets.cc XSAVE checks | from C59; witness CPUID | partial |
| C62 | stats.{h,cc} Stats, Bins in exact rationals; log abstract | algebraic identities for the pairwise moment update, induction over the history tree | proved |
| C63 | Variance, SampleVariance with int conversions | from C62; witness for the wrap | partial |
| C64 | robust_statistics.h CountingSort on lists | induction over the distinct values | proved |
| C65 | Median, MedianAbsoluteDeviation with C++ promotions and wrap | counting in the sorted list; witness for the wrap | partial |
| C66 | MinRange, ModeOfSorted, Mode | bisection invariant (window inside the range, majority kept); witnesses | partial |
| C67 | auto_tune.h CostDistribution in exact rationals, checked array accesses | invariant: all stored values and smoothed means stay in the convex hull | proved |
| C68 | dot-inl.h Dot::Compute (all overloads, AssumptionS flags) with checked loads; products/sums abstract | loop invariants; reduction order irrelevant in a commutative monoid | proved |
| C69 | matvec-inl.h MatVec(Add) incl. per-task buffer and streaming stores | as C68 per row; induction over the permuted task list; witness for unaligned out | partial |
| C70 | unroller-inl.h: both Unroller overloads and all default unit functions | loop invariants over the abstract unit; masked load/store characterised lane by lane | proved |
| C71 | generic_ops-inl.h 4172-4421 | S-box by exhaustive check of all 256 bytes against inverse + affine map; linearity of MixColumns; induction over rounds | proved |
| C72 | generic_ops-inl.h 4423-4480, MulEven/MulOdd of u64 | base-16 digit convolution, exact carry analysis, GF(2) product of the sets of full classes is non-zero | partial |
| C73 | generic_ops-inl.h 4482-4554 | bytes exhaustively, wider lanes by induction on halving | proved |
| C74 | generic_ops-inl.h 837-894, 3158-3304; emu128-inl.h 643-671, 1916-1960 | sign analysis of xor/and, case split at the range ends | proved |
| C75 | generic_ops-inl.h 5380-5466 | a + b = 2 (a | b) - (a ^ b), floor-division algebra | proved |
| C76 | generic_ops-inl.h 4565-4635, 5575-5826; emu128-inl.h 2891-2895 | decomposition in 32-bit halves; overflow analysis of the pair sum | proved |
| C77 | generic_ops-inl.h 3876-4157 | rounding analysis of the exponent; low-bit isolation x & -x | proved |
| C78 | generic_ops-inl.h 4829-5371 over real numbers with Flocq rounding | relative error of four roundings; integrality; reciprocal of numbers just below a power of two; linear arithmetic for the correction step | proved |
| C79 | Interleave_Model.v: the byte-shuffle tables, odd/even, interleave and combine-shift operations of every specialization, as functions on byte blocks; the block transpositions for one, two and four blocks; memory as a byte list with bounds-checked vector loads and stores; undefined upper register bytes as an arbitrary parameter. | Per specialization the blocks are expanded into byte variables and the shuffles evaluated symbolically; induction over blocks and lemmas on concatenated lanes lift this to whole vectors and memory (C79_load_interleaved, C79_load_bounds, C79_store_interleaved, C79_round_trip). | proved |
| C80 | Topo_Model.v file_read: the read loop as a fold over an arbitrary sequence of read() results (data, EINTR, error, end of file). | Induction over a relation giving all answers the kernel may give for a content (C80_file_read_partial); C80_long_file_refuted for all contents of 200 bytes or more. | partial |
| C81 | Topo_Model.v parse_digits, parse_number, read_number, with out-of-bounds reads as undefined behaviour. | Induction over the digits (C81_number, C81_not_a_number). | proved |
| C82 | Topo_Model.v expand: the search for '-' and ',' from each position, the two number parses and the termination rules, with strchr's undefined behaviour and the assertions. | Induction over the items (C82_expand_list_partial); C82_empty_list_refuted, C82_malformed_refuted. | partial |
| C83 | Topo_Model.v detect_packages and topology: the two passes over the processors with the id remappers, the SMT counters, node lists, set construction and cache sizes; aborts and out-of-bounds accesses as outcomes. | Invariant of the second pass: the remapper and counter state is a function of the processors seen; order-of-appearance indices are injective and onto (C83_indices, C83_sets, C83_grouping, C83_unknown). | proved |
| C84 | Topo_Model.v set_nodes. | Induction over the nodes (C84_node_partial); C84_gap_refuted, C84_memory_only_node_refuted. | partial |
| C85 | TopoCache_Model.v: ReadString, WriteSysfs, the loop over cache entries, sharing counts, ComputeSets, the heuristic for system-level caches. | Induction over the entries; the rounding bound from gcd arithmetic (C85_data_caches_partial, C85_unknown, C85_share_bounds); C85_consistency_abort_refuted. | partial |
| C86 | LoadN_Model.v: loadn (generic, by lane count, and recursively above 16 bytes), avx2_loadn, avx2_loadn_wide, masked_loadn, emu_loadn; undefined register lanes are arbitrary values. | LoadN_Proofs.v: case analysis on num for 128-bit vectors with symbolic memory, induction on the vector size; LoadN_AVX2.v: lane-wise characterization of masked loads and of the 32-bit widened mask. | proved |
| C87 | LoadN_Model.v: loadnor, avx2_loadnor, avx2_loadnor_wide, masked_loadnor, emu_loadnor. | As for C86; C87_loadnor_*_refuted_* give concrete vectors for every size of the generic implementation and for AVX2 pairs of bytes. | partial |
| C88 | LoadN_Model.v: storen, avx2_storen, avx2_storen_wide, masked_storen, emu_storen; stores outside the accessible memory fail. | Composition of adjacent stores, induction on the vector size; lane-wise characterization of masked stores. | proved |
| C89 | Profiler_Model.v: packets and accumulators as 64-bit words, analyze1/analyze, update_or_add with swapping; Profiler_Spec.v: trees of zone executions and their self times. | Profiler_Proofs.v: induction on the tree of zone executions with an arbitrary enclosing stack and table; the table invariant is preserved under swaps. | proved |
| C90 | Profiler_Model.v: write, to_storage, analyze_remaining, run_events; array accesses outside the buffer or the storage fail. | Invariant: analyzing storage and buffer from the current results equals analyzing everything from the initial ones (Profiler_Proofs.v run_ok, thread_ok). | proved |
| C91 | Profiler_Model.v: assimilate, merge_duplicates, print_results; the order of the lines (VQSort, C31) is not modelled. | Profiler_Merge.v: totals by name are invariant under merging; Profiler_Top.v: induction on the threads. | partial |
| C92 | Rounding_Model.v: one lane on bit patterns; addition, comparison and conversion per IEEE 754 (ieee_round of C36); casts are undefined out of range. Rounding_Spec.v: floor, ceiling, truncation and nearest of a value given in units of 2^-1074. | Rounding_Core.v: exact error analysis of v + 0.5 (small and large case); Rounding_Ops.v: adding 2^23/2^52 rounds to an integer; Rounding_Bits.v: clearing fraction bits, with carry into the exponent. | proved |
| C93 | Rounding_Model.v: in_range, cast_f2i, cast_in_range_f2i. | Rounding_Int.v: bounds on the value from the exponent field. | proved |
| C94 | Rounding_Model.v: nearest_int, demote_to_nearest_int. | Same error analysis as C92; the exceptions are computed. | partial |
| C95 | Rounding_Model.v: generic_ceil_int, sse2_ceil_int and so on (integer lanes wrap). | Rounding_Int.v int_steps. | proved |
| C96 | Rounding_Model.v: demote_f64_f32; Rounding_Spec.v: narrows. | Rounding_Int.v, from the correctness of the built-in conversion (C36). | proved |
| C97 | Pow2_Model.v: one lane on bit patterns; Min, Max and SaturatedSub act on lanes of the target-dependent width; multiplication per IEEE 754 (round_scaled). Pow2_Spec.v: nearest even of the exact product. | Pow2_Lanes.v: the narrow-lane operations compute max/min/saturated subtraction on these ranges, by induction on the lanes, and the three exponents are in range; Pow2_Proofs.v: all but the last multiplication are exact or overflow for good; Pow2_Round.v: rounding of dyadic values. | proved |
| C98 | Pow2_Model.v: mul_by_floor_pow2; Pow2_Spec.v: is_floor_pow2. | Pow2_Exp.v: from C97; saturating the exponent does not change the result. | proved |
| C99 | Pow2_Model.v: get_biased_exponent, get_exponent; Pow2_Spec.v: is_exponent. | Pow2_Exp.v: bounds on mag_value from the exponent field; conversion of small integers is exact. | proved |
| C100 | Compress_Model.v, Compress_Tables.v (tables generated from the source text); vectors are lists of lanes (EMU128) or bytes (x86 and generic). Compress_Spec.v: select, partitioned. | Compress_Proofs.v: every row of each table equals the byte indices of the partition (kernel computation over all masks of at most 8 lanes), then lookups of whole lanes by induction; 16 bytes as two blocks (Compress_Shuffle.v); EMU128 loops by induction for any number of lanes. | partial |
| C101 | Compress_Model.v: buffers are lists of lanes; a store outside the buffer is None. BlendedStore writes the lanes of FirstN only. | Compress_Shuffle.v: from C100; the second block of 8 bytes starts at the count of the first, so it ends at most at 16 and overwrites only lanes after the selected ones. | proved |
| C102 | Compress_Model.v: gen_expand8_half, gen_expand8_full, gen_expand16, gen_expand32, gen_expand64, emu_expand. Compress_Spec.v: is_expand, lane by lane. | Compress_Proofs.v, Compress_Shuffle.v: rows of the tables as for C100; the shifted upper half of 16 bytes lane by lane. | proved |
| C103 | Compress_Model.v: bits_from_mask (movemask), copies of bytes, bit tests; loops of EMU128. | Compress_Bits.v: bit by bit; the EMU128 loop by an invariant on the bytes. | proved |
| C104 | MaskFirst_Model.v: lanes as words of all ones or zero, registers as 64-bit chunks, AVX3 masks as integers; two's-complement negation with wrap-around. MaskFirst_Spec.v: lane by lane. | MaskFirst_Proofs.v: lowest one bit of 2^k (1 + 2q) for AVX3, any number of lanes; every 64-bit chunk by kernel computation over its at most 8 lanes, chunks combined by the or of the earlier lanes. | proved |
| C105 | VecF16_Model.v promote_f16: one lane, bit patterns, IEEE multiplication and int conversion as in C97. The second step of the double version is any exact float to double conversion. | VecF16_More.v: subnormals by exactness of the multiplication by 2^-24; the normal path coincides with the scalar conversion of C35. | proved |
| C106 | VecF16_Model.v demote_f16, demote_f64_f16: one lane, u8 lane operations on the four bytes, IEEE addition including infinities and NaN, saturating i32 to i16 demotion. Spec: Float_Spec.v correct_conversion. | VecF16_Proofs.v: the sum's low bits are the significand rounded to a multiple of the half's ulp (both binade grids coincide), then bit arithmetic; VecF16_More.v: round-to-odd from C36. | proved |
| C107 | VecF16_Model.v: lists of lanes, BitCast to 16-bit halves (little endian), ConcatOdd, OddEven, LowerHalf. | VecF16_More.v: per lane equal to the scalar conversion (C33); lane selection by induction on the vector. | proved |
| C108 | Shift_Model.v: lists of lanes, BitCast to 16-bit lanes, the instructions PSLLW etc. and GF2P8AFFINEQB (Intel SDM). Spec: Shift_Spec.v (multiplication, floor division). | Shift_Proofs.v: bit by bit for the 16-bit shifts; GFNI and the i8 repair by evaluating all 8 x 256 cases. | proved |
| C109 | Shift_Model.v: Pow2 through the float exponent and CVTPS2DQ with its out-of-range value 0x80000000, MulHigh, MulEven and OddEven, packs with saturation, promotions and demotions, GF2P8MULB. The rounding of the conversion is a parameter that must be exact on integers (both modes are). | Shift_Var.v: the float's value is exactly 2^b; products are shifts; per-lane induction. | proved |
| C110 | Shift_Model.v rotate_right, rol, ror, rotate_left_same, gf_rotate_right. | Shift_Proofs.v: the two shifts cover disjoint bits; counts reduced modulo w by the mask. | proved |
| C111 | BitPerm_Model.v (little endian). | BitPerm_Proofs.v: block induction for the lookups, pairs of lanes for the rotates; the three mask and shift steps per byte, all 256 values. | proved |
| C112 | BitPerm_Model.v bit_shuffle, multi_rotate_right: on the lookups, Rol, Shr and ShiftRight of the target (those of C108-C110); SumsOf8 as a sum of bytes. | BitPerm_Shuffle.v. | proved |
| C113 | Cmp_Model.v: PCMPEQ, PCMPGT, the 32-bit halves of the emulations and the sign flip. Spec: Cmp_Spec.v. | Cmp_Proofs.v: the upper half of b - a is all ones iff the lower half of a is greater; flipping the sign bit is subtracting 2^(w-1). | proved |
| C114 | Cmp_Model.v min_u .. sat_abs, blends per byte and per lane, PSIGN, saturating subtraction. AVX3's mask registers not modelled. | Cmp_Proofs.v. | proved |
| C115 | Cmp_Model.v lt128 .. max128_upper, on the comparisons and selects of C113 and C114. | Cmp_Proofs.v. | proved |
| C116 | X86Conv_Model.v u32_to_f64 .. u64_to_f32: bit patterns, IEEE arithmetic of Rounding_Model, FMA, CVTPD2PS as in Float_Model. Spec: correct_int_conversion (Float_Spec). | X86Conv_Int.v: operations on floats that hold integers; X86Conv_Odd.v: the carry is exact, the adjusted pattern is the sum rounded to odd, and rounding that to float is rounding the integer. | proved |
| C117 | X86Conv_Model.v cvtt .. f32_to_u64: CVTT* instructions, exponent adjustments, byte-wise Min and SaturatedSub, shifts by 64 or more. Spec: converts is_trunc (Rounding_Spec). | X86Conv_Trunc.v, X86Conv_Sat.v, X86Conv_Wide.v: every result as a function of the truncated value; lowering the exponent field is exact division. | proved |
| C118 | X86Int_Model.v: registers are lists of bytes; PACK*, PSHUFB, PUNPCK*, SHUFPS, VPERMQ as instructions; every target. Spec: lane_value, closest (X86Int_Spec). | X86Int_Lane.v: what happens to one lane; X86Int_Sel.v: which byte goes where, by cases on the index of the lane; X86Int_Main.v, X86Int_Two.v, X86Int_256.v. | proved |
| C119 | As C118. | Sign extension by duplicating and shifting right: X86Int_Two.v; TruncateTo through PACK* or PSHUFB: X86Int_Main.v, X86Int_256.v. | proved |
| C120 | As C118. | The lanes given to PACK* never saturate (X86Int_Sel.v); otherwise cases on the index. | proved |
| C121 | X86Mul_Model.v on X86Int_Model.v: PMULLW, PMULHW, PMULUDQ, PMULDQ, PMULHRSW, PMADDWD, PAVGB as instructions; every emulation on SSE2 and SSSE3. Spec: lane_value (X86Int_Spec). | A lane of twice the size is low + 2^w * high (X86Mul_Move.v ln_pair); P mod 2^w and (P / 2^w) mod 2^w make P mod 2^2w; signed = unsigned minus 2^w times the other factor; four partial products with carries (X86Mul_More.v knuth). | proved |
| C122 | As C121. | Shifts of double-width lanes move one lane to its neighbour (X86Mul_Move.v shr_even, shl_even); otherwise cases on the index of the lane. | proved |
| C123 | X86Slide_Model.v on X86Int_Model.v. Spec: lane_value (X86Int_Spec). | Byte p of the result (X86Slide_More.v): shifts of a little-endian lane by 8k bits move k bytes (bytes_shl, bytes_shr), Or is bytewise (lor64), two shifts make a funnel (funnel_up, funnel_down); then from bytes to lanes (X86Slide_Proofs.v up_lanes, down_lanes). | proved |
| C124 | As C123. | Bytes for CombineShiftRightBytes (X86Slide_Perm.v combine_shift_ok); a selection of lanes copies them (lane_select); rotating 16-bit lanes by 8 bits swaps the two bytes (rotate_swap). | proved |
| C125 | X86Table_Model.v on X86Int_Model.v, X86Mul_Model.v. Spec: lane_value (X86Int_Spec). | By bytes: the computed byte indices are x * s + q (X86Table_Proofs.v to_byte_ok), so bytes copy a lane (lane_by_bytes); masks are all ones or zero, or have the right sign bit (X86Table_More.v nth_ite, ite_lane); two tables: the mask is index >= n and the lookups reduce the index modulo n (X86Table_Two.v two8_byte, two_ok). | proved |
| C126 | X86Halves_Model.v on X86Slide_Model.v. Spec: lane_value (X86Int_Spec), half_lane. | Symbolic bytes, for every lane size and lane count; CombineShiftRightBytes by C124 (Properties_X86Halves.v). | proved |

## Trusted base

* The Coq 8.16.1 kernel, including its `vm_compute` reduction machine (used for the sorting-network, bit-packing,
  generator-polynomial, prime-certificate and witness computations). No `native_compute`, no plugins.
* `Print Assumptions` after every property theorem except those of C78 answers "Closed under the global context": no axiom
  is used, not even of the standard library. The C78 theorems use real numbers (through Flocq, which adds no axiom) and
  therefore list the standard library's axioms about them: `ClassicalDedekindReals.sig_not_dec`,
  `ClassicalDedekindReals.sig_forall_dec`, `FunctionalExtensionality.functional_extensionality_dep` and
  `Classical_Prop.classic`. (`vcheck`/coqchk lists `Coq.ssr.ssrunder.*`: module-type fields of the ssreflect
  part of Coq's own standard distribution, loaded through a tactic library; no theorem depends on them.)
* The reading of the C++ source into the models. Each definition cites its source lines; simplifications are stated there.
* Sequentially consistent interleaving of atomic operations for the thread-pool models. The code uses
  acquire/release/relaxed orderings; the theorems say nothing about executions only a weaker memory model allows.
* `size_t` and pointers are 64 bits; built-in `float`/`double` operations are IEEE 754, round to nearest even.
* The mathematical specifications: `*_Spec.v` and the standard library's `Z`, `list`, `Permutation`.

## Modelled / not modelled

Modelled (file: parts): `hwy/base.h` (integer helpers, Divisor, Mul128, bit scans, float16/bfloat16 and scalar conversions,
comparisons, classification); `hwy/bit_set.h`; `hwy/aligned_allocator.{h,cc}`; `hwy/auto_tune.h` (NextWithSkip, AutoTune;
CostDistribution); `hwy/contrib/algo`; `hwy/contrib/image`; `hwy/contrib/sort` (vqsort-inl.h, sorting_networks-inl.h,
traits-inl.h, traits128-inl.h, shared-inl.h);
`hwy/contrib/thread_pool/{thread_pool.h,spin.h}` (task distribution, stealing, wait/barrier protocol, life cycle);
`hwy/contrib/bit_pack`; `hwy/contrib/random`; `hwy/contrib/dot`; `hwy/contrib/matvec`; `hwy/stats.{h,cc}`, `hwy/robust_statistics.h` (floating-point arithmetic there and in
CostDistribution is modelled as exact); `hwy/targets.{h,cc}` and the dispatch part of `highway.h`; `hwy/contrib/unroller`; `hwy/ops/generic_ops-inl.h` 4172-4554; `hwy/ops/generic_ops-inl.h` 837-894, 3158-3304, 4565-4635, 5380-5466, 5575-5826; `hwy/ops/generic_ops-inl.h` 3876-4157; `hwy/ops/generic_ops-inl.h` 4829-5371; `hwy/ops/generic_ops-inl.h` 1427-2299, `x86_256-inl.h` 8626-8745, `x86_512-inl.h` 7164-7336; `hwy/contrib/thread_pool/topology.cc` 87-95, 365-671, 862-1009, 1174-1239 (Linux); `hwy/ops/generic_ops-inl.h` 2405-2908, `hwy/ops/x86_128-inl.h` 3386-3633, 8042-8166, `hwy/ops/emu128-inl.h` 1416-1468 (LoadN, LoadNOr, StoreN); `hwy/profiler.h` 69-512 (packets, per-thread buffers and tables, analysis, merging and report); `hwy/ops/emu128-inl.h` 1026-1218, 1758-1860, 1887-1915 and `hwy/ops/scalar-inl.h` 830-990, 1302-1445 (float rounding and float to integer conversion); `hwy/ops/x86_128-inl.h` 12044-12153 (SSE2/SSSE3 Round, Trunc, Ceil, Floor, CeilInt, FloorInt); `hwy/ops/generic_ops-inl.h` 1241-1425 (MulByPow2, MulByFloorPow2, GetBiasedExponent, GetExponent); `hwy/ops/emu128-inl.h` 2599-2826, `hwy/ops/x86_128-inl.h` 12420-12500 and 12694-13340 (the code for SSE2 to AVX2), `hwy/ops/generic_ops-inl.h` 5888-6741 (Compress, Expand, masks as bits); `hwy/ops/emu128-inl.h` 2828-2882, `hwy/ops/x86_128-inl.h` 13478-13635, `hwy/ops/x86_256-inl.h` 8747-8843, `hwy/ops/x86_512-inl.h` 7332-7351 (Set*First); `hwy/ops/generic_ops-inl.h` 3368-3680 (float16_t and bfloat16_t conversions); `hwy/ops/x86_128-inl.h` 1934-2033, 4477-4532, 4654-4788, 5003-5104, 9029-9507 (shifts, rotates); `hwy/ops/x86_avx3-inl.h` 47-104; `hwy/ops/inside-inl.h` 148-430; `hwy/ops/generic_ops-inl.h` 458-466, 6780-6938, 7838-8058; `hwy/ops/x86_128-inl.h` 1854-1868, 2838-3076, 4636-4935, 5824-6000, 13752-13872 (integer comparisons, Min/Max/Abs, 128-bit comparisons); `hwy/ops/x86_128-inl.h` 7596-7605, 10375-10415, 10484-10621, 10717-10830, 11193-11276, 11404-11412, 11520-11758 (conversions between integers and floats without AVX3); `hwy/ops/x86_128-inl.h` 7386-7527, 8300-8525, 9952-10103, 10204-10352, 10868-10957, 10983-11180 and `hwy/ops/x86_256-inl.h` 5046-5258, 6536-6604, 6707-6822, 6938-7037 (conversions between integer types, ConcatOdd/ConcatEven, without AVX3); `hwy/ops/x86_128-inl.h` 4275-4460, 8526-8650, 8845-9000, 9596-9670, 9771-9790, 10828-10864 and `hwy/ops/generic_ops-inl.h` 4567-4635 (integer multiplication, AverageRound, OddEven, DupEven/DupOdd, InterleaveEven/InterleaveOdd, without AVX3); `hwy/ops/x86_128-inl.h` 6274-6350, 6792-6871, 7131-7202, 7347-7363, 7707-8038 and `hwy/ops/generic_ops-inl.h` 7538-7567 (slides, shifts by lanes, CombineShiftRightBytes, Broadcast, Reverse, without AVX3); `hwy/ops/x86_128-inl.h` 2284-2340, 6874-7120, 8652-8840 (TableLookupBytes, TableLookupBytesOr0, IndicesFromVec, TableLookupLanes, TwoTablesLookupLanes, without AVX3); `hwy/ops/x86_128-inl.h` 3201-3243, 6286-6295, 6351-6374, 7307-7345, 7367-7384, 8168-8299 (InterleaveLower, InterleaveUpper, LowerHalf, UpperHalf, Combine, ZeroExtendVector, Concat* of halves, without AVX3); and the files named in the table.

Not modelled: the per-target intrinsics files `hwy/ops/{x86_*,arm_*,rvv,wasm_*,ppc_*,loongarch}` (their operations are assumed
to have the documented semantics); `foreach_target.h`; CPU detection other than x86; timers, perf counters, the profiler,
OS interaction (futex, affinity, NUMA); `contrib/math` transcendental approximations (error bounds are not expressible without a real-analysis
model of each polynomial); weak memory effects.

## Findings: properties that are false of the code

| property | what the proof shows |
|---|---|
| C09 | `BitSet4096<kMaxSize>` with kMaxSize not a multiple of 64 passes its static_assert but indices >= kMaxSize/64*64 are outside `bits_`. |
| C19 | `ThreadPool::Run(begin,end)` with end near 2^64: counters wrap and tasks outside the range are called. |
| C21 | 61-63 threads: `BarrierCounter<4>` shares a slot with worker 60; after a config change main can leave an epoch early. Also the u32 epoch must not wrap (precondition of C20). |
| C22 | `FindAnotherCoprime` overflows u32 for sizes beyond 2^32/16 (precondition). |
| C10 | `AllocateAlignedBytes(0)` aborts although the documentation allows it. |
| C38, C39 | `AlignedAllocator<T>::allocate(n)` and `AlignedNDArray` do not detect size overflow. |
| C41 | `BytesPerRow` tests for a multiple of HWY_ALIGNMENT instead of 2 KiB, so 2 KiB rows are produced. |
| C42 | `Image3` uses plane 0's stride for all planes. |
| C44 | `Rect` clamping wraps for begin + size_max >= 2^64. |
| C45 | external-memory images are only checked for vector alignment, row pointers are annotated 64-byte aligned. |
| C46 | `Candidates()` after `Best()` aborts in debug builds. |
| C26, C27 | `HeapSort` of 0 keys, `HeapPartialSort` with k = 0 or k = num access memory out of bounds. |
| C28 | `Partition` with a load-blend-store CompressBlendedStore (HWY_WASM_EMU256) writes past the keys. |
| C29, C30 | -0.0 keys are overwritten by +0.0 (two-value path) or one of them lost by x86 Min/Max. |
| C47 | `VQPartialSort`/`VQSelect` of floats with NaN overwrite real keys with infinity/NaN. |
| C48 | `VQPartialSort` with k = 0 aborts in debug builds. |
| C50 | `ConvertScalarTo<bfloat16_t>(int)` rounds twice. |
| C37 | `Pack16<11>::Unpack` and `Pack16<13>` (both directions) are wrong; the unit test generates `Random32 & kBits` and misses both. |
| C53, C54 | `VectorXoshiro` array calls write past the array when n is not a multiple of the lane count; `CachedXoshiro<size>` with size < lanes overruns its cache. |
| C57 | `SupportedTargets()` called directly after `DisableTargets` re-initializes the chosen target without the disabled mask: later dispatched calls run the disabled target. A concurrent first dispatch exposes the same window. |
| C61 | `min_avx3` omits AVX10_2_512 (and AVX10_2): reported even if the OS does not enable ZMM/opmask state. |
| C63 | `Variance()` casts `n_ - 1` to int: with more than 2^31 samples the variance is negative. |
| C65 | `Median` of an even number of 32/64-bit values in the upper half of the type wraps: the median of {v, v} is below v. |
| C66 | `MinRange` skips the last window, so `Mode` of an odd number of values can miss a strict majority (Mode of 0,4,10,10,10 is 7); `Mode` of an empty array reads out of bounds. |
| C67 | after fourteen zero costs `EstimateCost` returns 0 forever (clamping thresholds collapse). |
| C69 | `MatVec` with an out pointer not aligned to the vector size: the `Stream` stores require alignment which the header does not mention. (`AddScalar` also converts double sums to float.) |
| C72 | `CLMulLower` / `CLMulUpper` (portable, generic_ops-inl.h 4426-4480): the upper 64 bits of the product are wrong whenever each operand has all sixteen bits of some residue class modulo 4 set, e.g. a = b = 0x1111111111111111 (column count 16 overflows the 4-bit gap). The technique is only valid for the lower 64 bits, as in the constant-time multiplications it is borrowed from. |
| C80 | `File::Read` writes the NUL to `buf200[200]` for sysfs files of 200 bytes or more (e.g. a node's cpulist of 64 alternating processors). |
| C82, C84 | A NUMA node without processors (empty cpulist) makes `Topology()` abort; malformed lists `0,` and `0-` are accepted. |
| C84 | Gaps in NUMA node numbers end the scan: processors of later nodes are reported in node 0. |
| C85 | `ComputeSets` aborts on consistent caches when line size * ways is below 1024, e.g. 11-way 15488 KiB L3 shared by 9 cores (2503 vs 2501 sets). |
| C87 | `LoadNOr` on targets without masked loads takes remaining lanes from the wrong lanes of `no` (2, 8, 16 lanes, vectors above 16 bytes); AVX2 likewise for 2 x u8. |
| C91 | `MergeDuplicates` breaks out without decrementing `num_zones_` if the last zone is a duplicate: it is added to the earlier one and printed again. |
| C91 | `ThreadList::PrintResults` dereferences the null `threads_[0]` if no zone was ever entered (its check of `num_threads` comes too late). |
| C92 | EMU128 `Round` uses `ConvertScalarTo<T>(-0)` (an integer 0) for negative results that round to zero, so it returns +0 where SCALAR returns -0; EMU128 `Ceil(+0.0)` returns -0. |
| C94 | EMU128/SCALAR `NearestInt(2147483648.0f)` and `NearestInt(2^63)` cast an out-of-range value (undefined behavior): the check compares with `LimitsMax` rounded up to the float type. |
| C94 | EMU128/SCALAR `DemoteToNearestInt` returns INT_MIN instead of -2147483647 for values strictly between -2147483647.5 and -2147483647. |
| C99 | `GetExponent` is documented as floor(log2(x)), but every subnormal yields -bias (-127 for float), one below the smallest normal exponent. |
| C100 | `CompressBits`/`CompressBitsStore` of 1, 2 or 4 bytes (generic version) do not ignore the unused bits of `bits[0]`: with 4 lanes and bits 0xF0 the count returned is 4 instead of 0 and the vector consists of bytes from outside the 4 lanes. |
| C112 | documentation only: the loop given for BitShuffle in g3doc/quick_reference.md runs `j < 7` and would leave bit 7 unset; the code (and the sentence above the loop) sets all eight bits. The sentence for MultiRotateRight says `>>` where the code and the loop rotate |
