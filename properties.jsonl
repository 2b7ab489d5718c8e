{"id": "C01", "title": "32-bit precomputed division is exact", "statement": "For every divisor d >= 1 and every 32-bit n, hwy::Divisor(d).Divide(n) == n / d and Remainder(n) == n % d; GetDivisor() returns d.", "quantifier": "all 2^32-1 divisors times all 2^32 dividends", "why_tests_cant": "2^64 pairs cannot be enumerated; the magic-number construction fails only for rare (d, n) pairs if off by one", "anchors": ["hwy/base.h: class Divisor"]}
{"id": "C02", "title": "64-bit precomputed division is exact", "statement": "For every divisor d >= 1 and every 64-bit n, hwy::Divisor64(d).Divide(n) == n / d and Remainder(n) == n % d, including divisors above 2^63 where the internal 2<<len wraps to zero.", "quantifier": "all 2^64-1 divisors times all 2^64 dividends", "why_tests_cant": "2^128 pairs", "anchors": ["hwy/base.h: class Divisor64"]}
{"id": "C03", "title": "64x64->128 multiplication", "statement": "Mul128(a,b,&hi) returns the low 64 bits and stores the high 64 bits of the exact product, for unsigned and for signed operands, on the portable path that has no native 128-bit type.", "quantifier": "all pairs of 64-bit operands", "why_tests_cant": "2^128 pairs; carry bugs hide in sparse corners", "anchors": ["hwy/base.h: Mul128 (unsigned and signed)"]}
{"id": "C04", "title": "PopCount and bit-scan helpers", "statement": "PopCount(x) on the portable path equals the number of one bits for every 32/64-bit x; Num0BitsBelowLS1Bit / Num0BitsAboveMS1Bit on the 2x32-bit fallback path return the index of the lowest one bit and the number of zero bits above the highest.", "quantifier": "all 32/64-bit values", "why_tests_cant": "2^64 inputs", "anchors": ["hwy/base.h: PopCount, Num0BitsBelowLS1Bit_Nonzero64, Num0BitsAboveMS1Bit_Nonzero64"]}
{"id": "C05", "title": "Integer rounding and log helpers", "statement": "DivCeil(a,b) is the least q with q*b >= a, RoundUpTo/RoundDownTo return the nearest multiple above/below, FloorLog2/CeilLog2 bracket x between powers of two, ShiftCount inverts powers of two - whenever the documented preconditions (nonzero divisor, no overflow) hold; outside them the result is wrapped.", "quantifier": "all size_t operands meeting the stated precondition", "why_tests_cant": "2^128 operand pairs; the boundary of the precondition is at the top of the range", "anchors": ["hwy/base.h: DivCeil, RoundUpTo, RoundDownTo, FloorLog2, CeilLog2", "hwy/aligned_allocator.h: ShiftCount"]}
{"id": "C06", "title": "Scalar shift, abs and wraparound add", "statement": "ScalarShr on a signed type is an arithmetic shift (floor division by 2^s) even on the branch for compilers whose >> is not arithmetic; ScalarAbs is |x| except for the minimum value which maps to itself; AddWithWraparound is addition modulo 2^bits.", "quantifier": "all values of all integer widths, all legal shift amounts", "why_tests_cant": "2^64 values times shift amounts", "anchors": ["hwy/base.h: ScalarShr, ScalarAbs, AddWithWraparound"]}
{"id": "C07", "title": "BitSet64 behaves like a set of integers below 64", "statement": "After any sequence of Set/Clear/SetNonzeroBitsFrom64 from empty, Get, Any, First, Count, Get64 and Foreach (ascending, each member exactly once) agree with the mathematical set the sequence denotes, and out-of-range arguments are the only undefined case.", "quantifier": "all operation histories of any length", "why_tests_cant": "histories are unbounded and 2^64 states are reachable", "anchors": ["hwy/bit_set.h: class BitSet64"]}
{"id": "C08", "title": "BitSet4096 behaves like a set of integers below its capacity", "statement": "Same as C07 for the two-level set: summary and detail words never disagree after any history, Foreach visits members in ascending order exactly once, First is the minimum, Count the cardinality.", "quantifier": "all operation histories, all capacities kMaxSize that are multiples of 64 up to 4096", "why_tests_cant": "2^4096 states", "anchors": ["hwy/bit_set.h: class BitSet4096"]}
{"id": "C09", "title": "BitSet4096 accepts every index below kMaxSize", "statement": "For every template argument kMaxSize <= 4096 accepted by the static_assert, Set(i)/Get(i)/Clear(i) for i < kMaxSize only touch storage inside the object.", "quantifier": "all kMaxSize <= 4096 and all i < kMaxSize", "why_tests_cant": "the failing template arguments (not multiples of 64) are never instantiated by tests", "anchors": ["hwy/bit_set.h: BitSet4096::bits_"]}
{"id": "C10", "title": "Aligned allocation is aligned, inside its block and reversible", "statement": "Whenever AllocateAlignedBytes returns non-null, the payload is aligned to HWY_ALIGNMENT, payload and its header lie inside the block obtained from the underlying allocator, header does not overlap the payload, and FreeAlignedBytes/DeleteAlignedArray passes exactly the original block pointer (and payload size) back, for every call history of the offset counter.", "quantifier": "all payload sizes, all block addresses returned by malloc, all counter values (any number of earlier, possibly concurrent, calls)", "why_tests_cant": "addresses and counter histories are unbounded", "anchors": ["hwy/aligned_allocator.cc: AllocateAlignedBytes, FreeAlignedBytes, DeleteAlignedArray, NextAlignedOffset"]}
{"id": "C11", "title": "Array allocation rejects size overflow", "statement": "AllocateAligned<T>(items) returns null or a block of at least items*sizeof(T) bytes; multiplication overflow yields null for power-of-two and other sizes alike; the element destructor runs exactly items times on deletion.", "quantifier": "all item counts and element sizes", "why_tests_cant": "2^64 counts; overflow only at the extremes", "anchors": ["hwy/aligned_allocator.h: AllocateAlignedItems, TypedArrayDeleter"]}
{"id": "C12", "title": "AlignedNDArray rows are in bounds, disjoint and aligned", "statement": "For every shape and every in-range multi-index, the span returned by operator[] has the innermost extent as size, lies within the buffer, is aligned, and spans of distinct multi-indices do not overlap; truncate keeps these facts.", "quantifier": "all shapes, ranks, indices", "why_tests_cant": "shapes and ranks are unbounded", "anchors": ["hwy/aligned_allocator.h: AlignedNDArray"]}
{"id": "C13", "title": "Fill/Copy write exactly count elements", "statement": "Fill and Copy set to[0,count) to the value / source and leave every other element unchanged, reading and writing only inside [0,count), for every count and vector length.", "quantifier": "all counts, vector lengths (1..), array contents", "why_tests_cant": "remainder handling depends on count mod N for every N incl. scalable vectors", "anchors": ["hwy/contrib/algo/copy-inl.h: Fill, Copy"]}
{"id": "C14", "title": "CopyIf is order-preserving filter", "statement": "CopyIf appends exactly the elements satisfying the predicate, in order, to the output and returns its end; it never stores past the elements kept on the faulting path and the blended path only rewrites existing bytes.", "quantifier": "all inputs, predicates, lengths, vector lengths, both compile-time paths", "why_tests_cant": "overlapping-tail trick depends on count<N, count mod N", "anchors": ["hwy/contrib/algo/copy-inl.h: CopyIf"]}
{"id": "C15", "title": "Find/FindIf return the first match", "statement": "Find returns the least i < count with in[i]==value, or count; FindIf likewise for a predicate, even if the predicate holds for the zero padding or for elements beyond count; no element at or beyond count is read.", "quantifier": "all inputs, lengths, vector lengths, predicates, both paths", "why_tests_cant": "tail lanes contain padding that may match", "anchors": ["hwy/contrib/algo/find-inl.h: Find, FindIf"]}
{"id": "C16", "title": "Transform family maps elementwise", "statement": "Transform, Transform1, Transform2, Replace, ReplaceIf, Generate, Foreach act as the elementwise map on [0,count) for lane-wise functors, with nothing outside [0,count) read or written; Generate's index lanes are i modulo the lane width.", "quantifier": "all inputs, lengths, vector lengths, lane-wise functors", "why_tests_cant": "unbounded lengths and vector lengths", "anchors": ["hwy/contrib/algo/transform-inl.h"]}
{"id": "C17", "title": "Work division covers the range exactly", "statement": "ThreadPool's division of [begin,end) among workers yields contiguous, disjoint subranges in worker order whose union is [begin,end) and whose sizes differ by at most one.", "quantifier": "all ranges and worker counts", "why_tests_cant": "2^128 ranges", "anchors": ["hwy/contrib/thread_pool/thread_pool.h: Tasks::DivideRangeAmongWorkers"]}
{"id": "C18", "title": "Run executes every task exactly once", "statement": "In every interleaving of the workers' atomic steps, Run(begin,end,f) calls f(task,worker) exactly once for every task in [begin,end) and for nothing else, with worker < NumWorkers(), provided end + NumWorkers() does not exceed 2^64.", "quantifier": "all ranges, worker counts, interleavings, steal orders", "why_tests_cant": "schedules are unbounded", "anchors": ["hwy/contrib/thread_pool/thread_pool.h: ThreadPool::Run, Tasks::WorkerRun*, Worker::WorkerReserveTask"]}
{"id": "C19", "title": "Task ranges ending near 2^64", "statement": "Run must not invoke tasks outside [begin,end) even if end is within NumWorkers() of 2^64.", "quantifier": "all ranges incl. the top of the 64-bit space", "why_tests_cant": "needs 2^64 tasks indices; the counter wraps only at the very top", "anchors": ["hwy/contrib/thread_pool/thread_pool.h: Worker::WorkerReserveTask"]}
{"id": "C20", "title": "Fork-join barrier: no early return, no lost or double epoch", "statement": "Under every interleaving of main and worker threads, over any sequence of Run and configuration switches with any sequence of wait types and barrier types, main leaves the barrier of an epoch only after every worker finished that epoch's work, no worker starts an epoch before main published it, and the pool never deadlocks, provided the barrier counter slots are not shared with worker slots.", "quantifier": "all schedules, all operation histories, all wait/barrier configurations, all thread counts up to 60, fewer than 2^32-1 epochs", "why_tests_cant": "schedules and histories are unbounded", "anchors": ["hwy/contrib/thread_pool/thread_pool.h: BarrierCounter, BarrierOrdered, BarrierGroup, WaitBlock, WaitSpin1, WaitSpinSeparate, ThreadFunc, SendConfig"]}
{"id": "C21", "title": "Fork-join barrier with 61..63 threads", "statement": "The guarantee of C20 also holds when the pool has 61 to 63 threads, where BarrierCounter's counters share storage with live workers' epoch flags.", "quantifier": "all schedules and histories with 61..63 threads", "why_tests_cant": "needs a particular number of Runs before a config switch on a machine with >= 61 logical processors", "anchors": ["hwy/contrib/thread_pool/thread_pool.h: BarrierCounter::Reset, BarrierOrdered::UntilReached, BarrierGroup"]}
{"id": "C22", "title": "Coprime search and shuffled iteration", "statement": "CoprimeNonzero(a,b) iff gcd(a,b)=1; FindAnotherCoprime terminates with a value >= start coprime to size; iterating ShuffledIota::Next from any start visits each of [0,size) exactly once per size steps, so a worker's victims are distinct and start with itself.", "quantifier": "all u32 arguments within the no-overflow precondition", "why_tests_cant": "2^64 pairs", "anchors": ["hwy/contrib/thread_pool/thread_pool.h: ShuffledIota, Worker::Worker"]}
{"id": "C23", "title": "NextWithSkip cycles over exactly the non-skipped positions", "statement": "After any history of Skip calls on distinct live positions, Next visits live positions in ascending cyclic order; skipping never removes the last remaining one.", "quantifier": "all sizes below 2^14 and all Skip histories", "why_tests_cant": "histories are exponential in size", "anchors": ["hwy/auto_tune.h: NextWithSkip"]}
{"id": "C24", "title": "AutoTune terminates with a candidate", "statement": "For every sequence of costs, AutoTune measures only non-skipped candidates, never measures an already decided tuner, completes after a bounded number of NotifyCost calls, and Best() points at a candidate with minimal estimated cost.", "quantifier": "all candidate counts, all cost sequences", "why_tests_cant": "cost sequences are unbounded", "anchors": ["hwy/auto_tune.h: AutoTune::NotifyCost"]}
{"id": "C25", "title": "HeapSort sorts", "statement": "The fallback heap sort returns a sorted permutation for every non-empty array.", "quantifier": "all arrays, all total preorders", "why_tests_cant": "n! inputs for every n", "anchors": ["hwy/contrib/sort/vqsort-inl.h: HeapSort, SiftDown"]}
{"id": "C26", "title": "Empty input to the fallback sort", "statement": "VQSort of zero keys is a no-op also on targets where vqsort is disabled (HWY_SCALAR, RISC-V, MSVC opt).", "quantifier": "the empty array on every target", "why_tests_cant": "only those targets compile that path", "anchors": ["hwy/contrib/sort/vqsort-inl.h: HeapSort, Sort"]}
{"id": "C27", "title": "HeapSelect/HeapPartialSort select", "statement": "For 0<=k<n the fallback select places the k-th smallest key at k with no larger key before and no smaller key after; partial sort yields the sorted k smallest first; both permute.", "quantifier": "all arrays, k", "why_tests_cant": "n! inputs", "anchors": ["hwy/contrib/sort/vqsort-inl.h: HeapSelect, HeapPartialSort"]}
{"id": "C28", "title": "Vectorized partition", "statement": "Partition(keys,num,pivot) permutes keys so that those not after the pivot precede the others, returns the boundary, and all loads and stores stay inside keys and buf, for every vector length and num.", "quantifier": "all arrays longer than the base case, all pivots, vector lengths", "why_tests_cant": "buffer-overlap arithmetic depends on every num mod 4N and data-dependent read side", "anchors": ["hwy/contrib/sort/vqsort-inl.h: Partition, PartitionRightmost, StoreLeftRight, StoreRightAndBuf"]}
{"id": "C29", "title": "Two-value fast path", "statement": "MaybePartitionTwoValue and MaybePartitionTwoValueR sort the array when only two values occur; otherwise they report a third value that occurs and leave a permutation.", "quantifier": "all arrays, vector lengths", "why_tests_cant": "all lengths and patterns", "anchors": ["hwy/contrib/sort/vqsort-inl.h: MaybePartitionTwoValue, MaybePartitionTwoValueR"]}
{"id": "C30", "title": "Sorting networks sort", "statement": "BaseCase sorts every array up to its size limit, for every vector width; padding never reaches the output.", "quantifier": "all key arrays", "why_tests_cant": "2^(256*64) inputs", "anchors": ["hwy/contrib/sort/sorting_networks-inl.h", "hwy/contrib/sort/vqsort-inl.h: BaseCase, Sort8Rows, Sort16Rows"]}
{"id": "C31", "title": "VQSort, VQPartialSort and VQSelect sort", "statement": "For every supported key type (16-64 bit integers, half/single/double without NaN and -0.0, uint128, K32V32, K64V64), both orders, every array, every state of the random generator and content of the scratch buffer, and every vector size: the call terminates, makes no access outside the array and its buffer, and leaves a rearrangement of the input that is sorted / sorted in its first k with the rest not before them / has the k-th key in place with smaller ones before and larger ones after.", "quantifier": "all arrays, key types, orders, RNG states, vector lengths", "why_tests_cant": "unbounded arrays and RNG states; pathological pivots need particular samples", "anchors": ["hwy/contrib/sort/vqsort-inl.h: Recurse, Sort, PartialSort, Select", "hwy/contrib/sort/traits-inl.h", "hwy/contrib/sort/traits128-inl.h"]}
{"id": "C32", "title": "VQSort of floats moves NaN to the back", "statement": "VQSort of floating-point keys returns the non-NaN keys in order followed by one canonical NaN per NaN of the input, whatever the NaN payloads and positions.", "quantifier": "all float arrays without -0.0", "why_tests_cant": "all bit patterns and positions", "anchors": ["hwy/contrib/sort/vqsort-inl.h: CountAndReplaceNaN, Sort"]}
{"id": "C33", "title": "float -> bfloat16 rounds to nearest even", "statement": "BF16FromF32(f) is the bfloat16 nearest to f, ties to even, overflow to infinity; NaN stays NaN, infinities and signs are preserved.", "quantifier": "all 2^32 floats", "why_tests_cant": "2^32 inputs times a real-number specification", "anchors": ["hwy/base.h: BF16FromF32"]}
{"id": "C34", "title": "float -> half rounds to nearest even", "statement": "F16FromF32(f) is the binary16 nearest to f (subnormals included), ties to even, overflow to infinity; NaN stays NaN.", "quantifier": "all 2^32 floats", "why_tests_cant": "2^32 inputs times a real-number specification", "anchors": ["hwy/base.h: F16FromF32"]}
{"id": "C35", "title": "half/bfloat16 -> float is exact and round-trips", "statement": "F32FromF16 and F32FromBF16 preserve the value exactly; converting back yields the same bits for every non-NaN.", "quantifier": "all 16-bit patterns", "why_tests_cant": "needs exact real semantics, not sampled decimal compare", "anchors": ["hwy/base.h: F32FromF16, F32FromBF16"]}
{"id": "C36", "title": "double -> bfloat16/half has no double rounding", "statement": "BF16FromF64/F16FromF64 equal direct round-to-nearest-even of the double, although they go through float.", "quantifier": "all 2^64 doubles", "why_tests_cant": "2^64 inputs", "anchors": ["hwy/base.h: BF16FromF64, F16FromF64"]}
{"id": "C37", "title": "Bit packing round-trips", "statement": "For every bit width k and every block of values below 2^k (for the frame-of-reference overloads: below 2^k above the frame, modulo the word size), Pack writes exactly k vectors and Unpack of these vectors writes exactly the original values and nothing else; conversely every k vectors of bits unpack to in-range values whose packing is those bits.", "quantifier": "all value blocks, all lane counts and both byte orders, for every width of Pack8, Pack16, Pack32, Pack64", "why_tests_cant": "2^(k*lanes*vectors) inputs", "anchors": ["hwy/contrib/bit_pack/bit_pack-inl.h: Pack8, Pack16, Pack32, Pack64, detail::Pack32/Pack64 unrollers"]}
{"id": "C38", "title": "std-style allocator rejects count overflow", "statement": "AlignedAllocator<T>::allocate(n) never returns a block smaller than n*sizeof(T) bytes.", "quantifier": "all n and element sizes", "why_tests_cant": "overflow only at 2^64/sizeof(T)", "anchors": ["hwy/aligned_allocator.h: AlignedAllocator::allocate"]}
{"id": "C39", "title": "AlignedNDArray construction with an oversize shape fails", "statement": "Constructing an AlignedNDArray whose extents multiply to more than 2^64 elements never yields an object whose in-range index lies outside its buffer.", "quantifier": "all shapes", "why_tests_cant": "product overflow needs huge extents", "anchors": ["hwy/aligned_allocator.h: AlignedNDArray::ComputeSizes"]}
{"id": "C40", "title": "Image rows are in bounds, disjoint and aligned", "statement": "Every row of an Image (also after ShrinkTo to smaller dimensions) starts at a HWY_ALIGNMENT-aligned address, lies inside the allocation, does not overlap any other row, and a whole vector loaded at any pixel up to the last stays inside the row.", "quantifier": "all dimensions, element sizes, vector sizes, base addresses", "why_tests_cant": "unbounded dimensions", "anchors": ["hwy/contrib/image/image.cc: BytesPerRow, ImageBase", "hwy/contrib/image/image.h: VoidRow, ShrinkTo"]}
{"id": "C41", "title": "Row size is never a multiple of 2 KiB", "statement": "BytesPerRow never returns a multiple of 2048, as its comment promises.", "quantifier": "all widths", "why_tests_cant": "depends on width", "anchors": ["hwy/contrib/image/image.cc: BytesPerRow"]}
{"id": "C42", "title": "Image3 rows come from their own plane", "statement": "PlaneRow(c,y) of an Image3 assembled from three planes equals Row(y) of plane c.", "quantifier": "all planes of equal dimensions", "why_tests_cant": "needs planes with different strides", "anchors": ["hwy/contrib/image/image.h: Image3, VoidPlaneRow"]}
{"id": "C43", "title": "Mirror reflects into range", "statement": "Mirror(x,xsize) terminates and returns the coordinate of [0,xsize) obtained by reflecting x at the borders with the edge repeated, x itself when in range; WrapRowMirror returns the row of the mirrored coordinate for up to ysize rows outside.", "quantifier": "all coordinates and sizes", "why_tests_cant": "unbounded", "anchors": ["hwy/contrib/image/image.h: Mirror, WrapRowMirror"]}
{"id": "C44", "title": "Clamped rectangles are the intersection", "statement": "Rect clamped to [begin,end) and Subrect contain exactly the points of the requested rectangle inside the bounds.", "quantifier": "all coordinates", "why_tests_cant": "64-bit coordinates, overflow only at the extremes", "anchors": ["hwy/contrib/image/image.h: Rect, ClampedSize, Subrect"]}
{"id": "C45", "title": "External-memory images satisfy the alignment promised to the compiler", "statement": "Row pointers of an Image over external memory are 64-byte aligned, as the annotation on VoidRow asserts.", "quantifier": "all accepted base pointers and strides", "why_tests_cant": "misalignment is UB, not an observable test failure", "anchors": ["hwy/contrib/image/image.cc: ImageBase(external)", "hwy/contrib/image/image.h: VoidRow"]}
{"id": "C46", "title": "Candidates() is usable once tuning has finished", "statement": "AutoTune::Candidates() returns all candidates after Best() became non-null, as documented.", "quantifier": "all tuning histories, debug builds", "why_tests_cant": "needs assertions enabled plus a finished tuner", "anchors": ["hwy/auto_tune.h: Candidates, HasCandidates"]}
{"id": "C47", "title": "Partial sort and select of floats keep all keys", "statement": "VQPartialSort and VQSelect of floating-point arrays containing NaN lose no key: NaN are canonicalized and moved to the back, all other keys remain.", "quantifier": "all float arrays with NaN", "why_tests_cant": "the loss depends on where select leaves the replaced NaN", "anchors": ["hwy/contrib/sort/vqsort-inl.h: PartialSort, Select"]}
{"id": "C48", "title": "VQPartialSort accepts every k up to num", "statement": "VQPartialSort with any k in [0, num] returns normally in every build and on every target.", "quantifier": "all arrays and k", "why_tests_cant": "boundary k in debug builds and on targets without vqsort", "anchors": ["hwy/contrib/sort/vqsort-inl.h: PartialSort, Recurse, HeapPartialSort"]}
{"id": "C49", "title": "Half/bfloat16 comparisons and float classification agree with the values", "statement": "operator< and operator== of float16_t and bfloat16_t order operands by their numeric values (NaN unordered, -0 == +0, infinities outermost); ScalarIsNaN/IsInf/IsFinite/SignBit/Abs/CopySign classify and modify every bit pattern of every float type as IEEE 754 defines.", "quantifier": "all pairs of patterns of float16_t, bfloat16_t; all patterns of all four float types", "why_tests_cant": "2^64 patterns, 2^32 pairs and a value-level specification", "anchors": ["hwy/base.h: operator<, operator==, ScalarIsNaN, ScalarIsInf, ScalarIsFinite, ScalarSignBit, ScalarAbs, ScalarCopySign"]}
{"id": "C50", "title": "ConvertScalarTo rounds correctly into the 16-bit float types", "statement": "ConvertScalarTo<float16_t> and ConvertScalarTo<bfloat16_t> of integers and of the other 16-bit float return the nearest value, ties to even.", "quantifier": "all integers of all widths; all 16-bit patterns", "why_tests_cant": "double rounding only affects integers just beside a midpoint", "anchors": ["hwy/base.h: ConvertScalarTo"]}
{"id": "C51", "title": "Jump and LongJump advance the generator by 2^128 and 2^192 calls", "statement": "For every state, Xoshiro::Jump() leaves the generator in the state reached by 2^128 calls of operator(), LongJump() by 2^192 calls; Xoshiro(seed, thread_id) starts 2^128 * thread_id calls after Xoshiro(seed).", "quantifier": "all 2^256 states, all thread ids", "why_tests_cant": "2^128 calls cannot be executed", "anchors": ["hwy/contrib/random/random-inl.h: Xoshiro::Jump, LongJump, Next, kJump, kLongJump"]}
{"id": "C52", "title": "Random streams never overlap", "statement": "From any non-zero state the sequence of states first repeats after exactly 2^256 - 1 calls; hence lanes and threads started at different jump positions visit pairwise different states during their first 2^128 calls.", "quantifier": "all seeds, thread numbers, lane numbers and call counts below 2^128", "why_tests_cant": "needs the period of a 2^256-state map", "anchors": ["hwy/contrib/random/random-inl.h: VectorXoshiro::VectorXoshiro, Xoshiro::Xoshiro, Next"]}
{"id": "C53", "title": "The vector generator produces the scalar streams", "statement": "Each call of VectorXoshiro::operator() returns in lane i the next output of the scalar generator of that lane and thread; the array forms (operator()(n), operator()<n>(), Uniform(n), Uniform<n>()) return exactly n values, the concatenation of consecutive vector calls, and write nothing else.", "quantifier": "all seeds, threads, lane counts, array sizes, histories of calls", "why_tests_cant": "all states and sizes, including sizes not tested", "anchors": ["hwy/contrib/random/random-inl.h: VectorXoshiro::operator(), Uniform, Update"]}
{"id": "C54", "title": "CachedXoshiro returns the vector stream in order", "statement": "The j-th call of CachedXoshiro returns lane j mod N of the (j / N)-th vector call, across any number of refills, for every permitted cache size.", "quantifier": "all call counts, seeds, threads, cache sizes, lane counts", "why_tests_cant": "unbounded histories", "anchors": ["hwy/contrib/random/random-inl.h: CachedXoshiro"]}
{"id": "C55", "title": "Uniform() is exact and in [0, 1)", "statement": "Uniform() returns the double (r >> 11) * 2^-53 without rounding error: it is in [0, 1), and every multiple of 2^-53 in [0, 1) is returned for exactly 2^11 of the 2^64 random words; both spellings of the scale constant denote 2^-53.", "quantifier": "all 2^64 random words", "why_tests_cant": "2^64 inputs", "anchors": ["hwy/contrib/random/random-inl.h: Xoshiro::Uniform, VectorXoshiro::Uniform, kMulConst"]}
{"id": "C56", "title": "Seeding never yields a degenerate or duplicate generator", "statement": "No seed puts the generator in the all-zero state (which would return 0 forever), no later state is all-zero, and different seeds give different states.", "quantifier": "all 2^64 seeds, all pairs of seeds", "why_tests_cant": "2^64 seeds and 2^128 pairs", "anchors": ["hwy/contrib/random/random-inl.h: SplitMix64, Xoshiro::Xoshiro"]}
{"id": "C57", "title": "Dispatched calls reach the best enabled target", "statement": "After any history of DisableTargets, SetSupportedTargetsForTest, SupportedTargets and dispatched calls, SupportedTargets returns the documented set (detected or mocked targets minus the disabled ones, the static target if none) and every HWY_DYNAMIC_DISPATCH call runs the function of the best compiled target in that set, the fallback if there is none.", "quantifier": "all architectures, sets of compiled targets, detected sets and call histories", "why_tests_cant": "2^63 target sets times unbounded histories", "anchors": ["hwy/targets.cc: SupportedTargets, DisableTargets, SetSupportedTargetsForTest", "hwy/targets.h: ChosenTarget, HWY_CHOSEN_TARGET_*", "hwy/highway.h: HWY_EXPORT, FunctionCache::ChooseAndCall, HWY_DYNAMIC_DISPATCH"]}
{"id": "C58", "title": "Concurrent first dispatch is safe", "statement": "Whatever the interleaving of threads calling dispatched functions, SupportedTargets, DisableTargets and SetSupportedTargetsForTest, no call goes through a null or out-of-range table entry, and no code runs for a target that was not compiled or that the CPU lacks (fallback and static target excepted).", "quantifier": "all interleavings of any number of threads", "why_tests_cant": "schedules", "anchors": ["hwy/targets.h: ChosenTarget", "hwy/highway.h: FunctionCache::ChooseAndCall"]}
{"id": "C59", "title": "x86 targets are reported exactly when usable", "statement": "Each x86 target is reported exactly when CPUID reports all its instruction-set extensions (or an AVX10 version implying them) and the OS enables the register state; a target is never reported without the targets it extends.", "quantifier": "all CPUID contents and XCR0 values", "why_tests_cant": "CPUs one does not have", "anchors": ["hwy/targets.cc: x86::FlagsFromCPUID, x86::DetectTargets"]}
{"id": "C60", "title": "SupportedAndGeneratedTargets enumerates each target once", "statement": "SupportedAndGeneratedTargets() terminates and lists every supported and compiled target exactly once, best first.", "quantifier": "all target sets", "why_tests_cant": "2^63 sets", "anchors": ["hwy/targets.h: SupportedAndGeneratedTargets"]}
{"id": "C61", "title": "512-bit targets need OS support for ZMM state", "statement": "A target using ZMM/opmask registers is reported only if XCR0 shows the OS preserves them.", "quantifier": "all CPUID contents and XCR0 values", "why_tests_cant": "needs AVX10.2 hardware under an old OS", "anchors": ["hwy/targets.cc: x86::DetectTargets"]}
{"id": "C62", "title": "Stats are those of all samples however they were collected", "statement": "Whatever sequence of Notify and Assimilate calls (merges in any tree shape, also with itself) built a Stats object, Count, Min, Max, the geometric-mean log sum, Mean and the second to fourth central moments equal those of the multiset of all samples; Bins counts each sample in the bin of its clamped index and merges by addition.", "quantifier": "all samples, all histories and merge trees up to the int64 limit of the count", "why_tests_cant": "unbounded histories; rounding hides wrong merge formulas in tests", "anchors": ["hwy/stats.h: Stats::Notify, Assimilate, Mean, Mu2, Mu3, Mu4, Kurtosis, Bins::Notify", "hwy/stats.cc: Stats::Assimilate, Bins"]}
{"id": "C63", "title": "Variance is never negative and equals the sample variance", "statement": "Variance() and SampleVariance() return the (un)biased variance of all samples notified.", "quantifier": "all histories of any number of samples", "why_tests_cant": "needs more than 2^31 samples", "anchors": ["hwy/stats.h: Variance, SampleVariance"]}
{"id": "C64", "title": "CountingSort sorts", "statement": "CountingSort rearranges every array into ascending order and its internal check never fires.", "quantifier": "all arrays", "why_tests_cant": "unbounded", "anchors": ["hwy/robust_statistics.h: CountingSort"]}
{"id": "C65", "title": "Median is a median", "statement": "Median returns a value with at least half of the elements not above and half not below it, between two elements; MedianAbsoluteDeviation is the median of the absolute deviations.", "quantifier": "all non-empty arrays of all integer types", "why_tests_cant": "overflow only in the upper half of the type", "anchors": ["hwy/robust_statistics.h: Median, MedianAbsoluteDeviation"]}
{"id": "C66", "title": "Mode is robust", "statement": "Mode of any non-empty array lies between its smallest and largest element, and if more than half of the elements are equal it returns that element.", "quantifier": "all arrays", "why_tests_cant": "all lengths and orders", "anchors": ["hwy/robust_statistics.h: Mode, ModeOfSorted, MinRange"]}
{"id": "C67", "title": "Cost estimates stay within the observed costs", "statement": "After any history of Notify and EstimateCost in which some non-negative cost was notified, EstimateCost is between the smallest and largest non-negative cost notified so far and reads only initialized elements; negative costs change nothing; beyond the current thresholds the size of an outlier has no influence.", "quantifier": "all histories, all contents of uninitialized memory", "why_tests_cant": "unbounded histories; uninitialized reads", "anchors": ["hwy/auto_tune.h: CostDistribution::Notify, EstimateCost, RemoveOutliers, WarmUpOnline, OnlineNotify"]}
{"id": "C68", "title": "Dot::Compute sums exactly the products of the elements", "statement": "Every overload of Dot::Compute returns the sum of the products of the first num elements of both arrays, each counted exactly once, for every combination of Assumptions flags whose requirements hold, and reads no element outside the arrays (or the padded arrays if padding was promised).", "quantifier": "all num, all vector sizes, all flags, all contents incl. padding", "why_tests_cant": "remainder handling depends on num mod 4N, N and the flags; out-of-bounds reads are silent", "anchors": ["hwy/contrib/dot/dot-inl.h: Dot::Compute"]}
{"id": "C69", "title": "MatVec computes each row once, writes nothing else", "statement": "MatVec/MatVecAdd store in out[r] the inner product of row r and vec (plus add[r]) for each row, whatever order the pool runs the tasks in, for any out pointer.", "quantifier": "all sizes, vector sizes, task orders, alignments of out", "why_tests_cant": "sizes x schedules x alignment", "anchors": ["hwy/contrib/matvec/matvec-inl.h: MatVec, MatVecAdd, MatVecAddImpl"]}
{"id": "C70", "title": "Unroller processes each element exactly once", "statement": "With an element-wise unit the Unroller sets y[k] = g(k, x[k]) for exactly the k < n and changes nothing else in y; with a reducing unit y[0] becomes the reduction of all n elements, each included exactly once; only elements inside the arrays are accessed, whatever n, the vector size and whether masked memory operations may fault.", "quantifier": "all n, lane counts, units, array contents, buffer contents", "why_tests_cant": "remainders modulo 4 x lanes times both memory-fault modes", "anchors": ["hwy/contrib/unroller/unroller-inl.h: Unroller, UnrollerUnit, UnrollerUnit2D"]}
{"id": "C71", "title": "Portable AES operations implement FIPS-197", "statement": "For every block and round key, AESRound, AESLastRound, AESInvMixColumns, AESRoundInv and AESLastRoundInv compute the FIPS-197 transformations, AESKeyGenAssist computes the key-expansion words, encryption built from them is the AES cipher for any number of rounds, and decryption with the same round keys returns the plaintext.", "quantifier": "all states, keys, round counts and rcon values", "why_tests_cant": "2^256 state/key pairs per round; tests check a few vectors", "anchors": ["hwy/ops/generic_ops-inl.h: AESRound, AESLastRound, AESRoundInv, AESLastRoundInv, AESInvMixColumns, AESKeyGenAssist, detail::SubBytes, detail::InvSubBytes, detail::MixColumns, detail::InvMixColumns"]}
{"id": "C72", "title": "Carry-less multiplication returns the GF(2) product", "statement": "CLMulLower / CLMulUpper return in every 128-bit block the carry-less product of the two lower / upper 64-bit words.", "quantifier": "all operand words and numbers of blocks", "why_tests_cant": "2^128 operand pairs; the failing ones need sixteen particular bits set in both operands", "anchors": ["hwy/ops/generic_ops-inl.h: CLMulLower, CLMulUpper"]}
{"id": "C73", "title": "PopulationCount counts one bits in every lane", "statement": "PopulationCount returns, in every lane of 8, 16, 32 or 64 bits, the number of one bits of that lane of the argument.", "quantifier": "all lane values, lane widths, lane counts, both 8-bit implementations", "why_tests_cant": "2^64 lane values", "anchors": ["hwy/ops/generic_ops-inl.h: PopulationCount"]}
{"id": "C74", "title": "Saturating integer arithmetic saturates exactly", "statement": "SaturatedAdd and SaturatedSub return in every lane the mathematically exact sum or difference clamped to the range of the lane type; SaturatedNeg and SaturatedAbs return the exact result except for the most negative value, which maps to the largest; AbsDiff returns |a - b| (modulo 2^w for signed lanes); demotion of unsigned lanes to narrower signed lanes saturates.", "quantifier": "all lane values, lane types (signed and unsigned, 8 to 64 bits), lane counts", "why_tests_cant": "2^128 operand pairs for 64-bit lanes; the interesting ones are at the ends of the range", "anchors": ["hwy/ops/generic_ops-inl.h: SaturatedAdd, SaturatedSub, SaturatedNeg, SaturatedAbs, AbsDiff, DemoteTo (unsigned to signed)", "hwy/ops/emu128-inl.h: SaturatedAdd, SaturatedSub"]}
{"id": "C75", "title": "Averages and rounding shifts are exact", "statement": "AverageRound returns (a + b + 1) / 2 rounded down without intermediate overflow, and RoundingShiftRight, RoundingShiftRightSame and RoundingShr return the lane divided by 2^k rounded to nearest (ties up), for every shift count including zero, also where adding the rounding constant would overflow.", "quantifier": "all lane values, lane types, shift counts below the lane width, lane counts", "why_tests_cant": "2^128 operand pairs; overflow of the intermediate sum only at the range ends", "anchors": ["hwy/ops/generic_ops-inl.h: AverageRound, RoundingShiftRight, RoundingShiftRightSame, RoundingShr"]}
{"id": "C76", "title": "Wide and widening products are exact", "statement": "Multiplication of 8- and 64-bit lanes returns the product modulo 2^w; SatWidenMulPairwiseAdd, SatWidenMulPairwiseAccumulate and SatWidenMulAccumFixedPoint return the exact sum of products saturated once at the end, even when the intermediate sum overflows; SumOfMulQuadAccumulate returns the accumulator plus four products modulo the accumulator width for all five type combinations.", "quantifier": "all lane values, lane counts, accumulators", "why_tests_cant": "2^128 operand pairs; the special case of four times -32768 is a single point", "anchors": ["hwy/ops/generic_ops-inl.h: operator* (8- and 64-bit lanes), SatWidenMulPairwiseAdd, SatWidenMulPairwiseAccumulate, SatWidenMulAccumFixedPoint, SumOfMulQuadAccumulate", "hwy/ops/emu128-inl.h: WidenMulPairwiseAdd"]}
{"id": "C77", "title": "Zero counts and highest set bit", "statement": "LeadingZeroCount returns in every lane the number of zero bits above the highest set bit (the lane width for zero), TrailingZeroCount the number of zero bits below the lowest set bit (the lane width for zero), and HighestSetBitIndex the index of the highest set bit; for zero lanes the latter is a value with the top bit set. The result is exact although it is read from the exponent of a rounding integer-to-float conversion.", "quantifier": "all lane values, lane widths (8, 16, 32, 64 bits), lane counts, and the code paths of the kinds of target", "why_tests_cant": "rounding up to the next power of two during the conversion only affects values with at least 25 significant bits, all ones at the top", "anchors": ["hwy/ops/generic_ops-inl.h: LeadingZeroCount, TrailingZeroCount, HighestSetBitIndex, UIntToF32BiasedExp, I32RangeU32ToF32BiasedExp"]}
{"id": "C78", "title": "Integer division and modulo through floating point are exact", "statement": "For every lane type, a / b and a % b equal the C++ truncating quotient and remainder in every lane where C++ defines them (b not zero, not LimitsMin / -1), although they are computed with rounding floating-point division, or with two multiplications by a rounded reciprocal where the float has fewer bits than the lane; and this holds whether conversions of out-of-range values saturate, wrap or give LimitsMin.", "quantifier": "all pairs of lane values, lane types (signed and unsigned, 8 to 64 bits), targets (with or without binary16/binary64, out-of-range conversion behaviour), lane counts", "why_tests_cant": "2^128 operand pairs; errors would hide in single pairs where roundings accumulate, or near 2^63 divisors", "anchors": ["hwy/ops/generic_ops-inl.h: IntDivUsingFloatDiv, IntDivConvFloatToInt, IntDivConvIntToFloat, IntDiv, operator/, operator%"]}
{"id": "C79", "title": "Interleaved loads and stores", "statement": "LoadInterleaved2/3/4 from an array split it so that lane i of the j-th vector is element k*i+j (k = 2, 3, 4), reading exactly k vectors' worth of memory; StoreInterleaved2/3/4 write lane i of the j-th vector to element k*i+j and change nothing else, whatever the unused upper bytes of partial registers hold; the two are inverse to each other.", "quantifier": "every lane size 1, 2, 4, 8 bytes; every vector size 1..16, 32, 64 bytes; every memory content, offset, and vector values; every content of undefined register bytes", "why_tests_cant": "The shuffles differ for every lane size, vector size and count; a test uses a few patterns, and a wrong index byte or a partial vector's garbage only shows for particular values and neighbouring memory.", "anchors": ["hwy/ops/generic_ops-inl.h:LoadInterleaved2", "hwy/ops/generic_ops-inl.h:LoadInterleaved3", "hwy/ops/generic_ops-inl.h:LoadInterleaved4", "hwy/ops/generic_ops-inl.h:StoreInterleaved2", "hwy/ops/generic_ops-inl.h:StoreInterleaved3", "hwy/ops/generic_ops-inl.h:StoreInterleaved4", "hwy/ops/x86_256-inl.h:LoadTransposedBlocks3", "hwy/ops/x86_512-inl.h:StoreTransposedBlocks3"]}
{"id": "C80", "title": "Reading a sysfs file", "statement": "Reading a sysfs file for topology detection returns its complete contents, NUL-terminated, in the caller's 200-byte buffer, whatever portions read() delivers and however often it is interrupted; it never writes outside that buffer.", "quantifier": "every file content and every sequence of partial reads, interruptions and errors", "why_tests_cant": "Tests run on the sysfs of one machine and never see short reads, EINTR or long files.", "anchors": ["hwy/contrib/thread_pool/topology.cc:File::Read", "hwy/contrib/thread_pool/topology.cc:ReadSysfs"]}
{"id": "C81", "title": "Numbers in sysfs files", "statement": "A decimal number with optional K or M suffix and newline is read as its value (times 1024 or 1048576); text not starting with a digit, an empty or a missing file is reported as unknown.", "quantifier": "every numeral of up to nine digits, every suffix, every other text", "why_tests_cant": "Only the handful of numbers of the test machine are exercised.", "anchors": ["hwy/contrib/thread_pool/topology.cc:ParseDigits", "hwy/contrib/thread_pool/topology.cc:ParseNumberWithOptionalSuffix", "hwy/contrib/thread_pool/topology.cc:ReadNumberWithOptionalSuffix"]}
{"id": "C82", "title": "Processor lists in sysfs files", "statement": "A processor list (numbers and ranges separated by commas) is expanded to exactly the processors it names, in order, without reading beyond the text; other texts are rejected.", "quantifier": "every list of numbers and ranges, every length and end position", "why_tests_cant": "The kernel's lists on one machine cover one or two shapes only.", "anchors": ["hwy/contrib/thread_pool/topology.cc:ExpandList"]}
{"id": "C83", "title": "Topology of packages, clusters and cores", "statement": "Topology() assigns every logical processor a package, cluster and core number below the respective counts and an SMT number below the size of its core; two processors have equal numbers exactly if sysfs gives them equal ids; the sets per cluster and core contain exactly their processors and are never empty; cluster cache sizes are those of the cluster's first processor. If a package or core number is missing the result is empty.", "quantifier": "every machine of up to 1024 processors, 255 packages and 16 threads per core, every assignment of sysfs ids, missing L3 ids", "why_tests_cant": "The result depends on the machine; tests can only run on the few at hand and check ranges, not the correspondence with sysfs.", "anchors": ["hwy/contrib/thread_pool/topology.cc:DetectPackages", "hwy/contrib/thread_pool/topology.cc:Topology::Topology", "hwy/contrib/thread_pool/topology.cc:SetClusterCacheSizes", "hwy/contrib/thread_pool/topology.cc:Remapper", "hwy/contrib/thread_pool/topology.h:Topology"]}
{"id": "C84", "title": "NUMA node of a processor", "statement": "The node reported for a processor is the number of the NUMA node whose processor list contains it.", "quantifier": "every assignment of processors to nodes, every set of node numbers", "why_tests_cant": "Machines with gaps in the node numbers or memory-only nodes are not in the test fleet.", "anchors": ["hwy/contrib/thread_pool/topology.cc:SetNodes"]}
{"id": "C85", "title": "Cache parameters", "statement": "DataCaches() returns for each level one core's share (size and sets divided by the number of cores sharing it, rounded down) of the first data or unified cache listed, its line size and associativity, or null if L1 or L2 is unknown; it does not abort on consistent sysfs files.", "quantifier": "every list of caches with consistent size, ways, sets, sharing list, on every machine", "why_tests_cant": "The rounding of sizes and sets interacts with line size, associativity and number of cores; test machines have few combinations.", "anchors": ["hwy/contrib/thread_pool/topology.cc:InitCachesSysfs", "hwy/contrib/thread_pool/topology.cc:ComputeSets", "hwy/contrib/thread_pool/topology.cc:DataCaches", "hwy/contrib/thread_pool/topology.cc:DivByFactor", "hwy/contrib/thread_pool/topology.h:Cache"]}
{"id": "C86", "title": "LoadN loads only the requested lanes", "statement": "LoadN(d, p, num) returns p[0] .. p[min(num, N) - 1] followed by zeros, and does not access memory outside p[0 .. num).", "quantifier": "every number of lanes, lane type, num, memory contents and position of the accessible range, on SSE/NEON-like, AVX2, AVX-512/SVE and EMU128 targets", "why_tests_cant": "The partial loads are assembled from up to four narrower loads, differently for every lane count and num; a read beyond the end only faults at a page boundary.", "anchors": ["hwy/ops/generic_ops-inl.h:LoadN", "hwy/ops/x86_128-inl.h:LoadN", "hwy/ops/x86_128-inl.h:AVX2UIF8Or16LoadTrailingN", "hwy/ops/x86_128-inl.h:AVX2UIF8Or16LoadLeadingN", "hwy/ops/emu128-inl.h:LoadN"]}
{"id": "C87", "title": "LoadNOr keeps the other lanes", "statement": "LoadNOr(no, d, p, num) returns p[0] .. p[min(num, N) - 1], and lane i of `no` in all remaining lanes i.", "quantifier": "every number of lanes, lane type, num, memory contents and vector no", "why_tests_cant": "Tests use a `no` vector whose lanes are all equal.", "anchors": ["hwy/ops/generic_ops-inl.h:LoadNOr", "hwy/ops/x86_128-inl.h:LoadNOr", "hwy/ops/x86_128-inl.h:AVX2UIF8Or16LoadTrailingNOr", "hwy/ops/emu128-inl.h:LoadNOr"]}
{"id": "C88", "title": "StoreN writes only the requested lanes", "statement": "StoreN(v, d, p, num) sets p[i] to lane i of v for i < min(num, N) and changes no other memory, not even temporarily outside that range.", "quantifier": "every number of lanes, lane type, num, memory contents, position and vector", "why_tests_cant": "Partial stores combine several overlapping or shifted narrower stores; stray writes beyond the end are only visible if the neighbouring memory is checked for every num.", "anchors": ["hwy/ops/generic_ops-inl.h:StoreN", "hwy/ops/x86_128-inl.h:StoreN", "hwy/ops/x86_128-inl.h:AVX2UIF8Or16StoreTrailingN", "hwy/ops/emu128-inl.h:StoreN"]}
{"id": "C89", "title": "Profiler attributes self time", "statement": "For any nesting and sequence of zones on a thread, the profiler's table for that thread has exactly one entry per zone, with the number of executions and the total time spent in the zone itself: its elapsed time (modulo 2^39 ticks) minus the elapsed times of the zones executed directly inside it and the measured overheads, and at least 0.", "quantifier": "every tree of zone executions up to depth 64 with up to 256 different zones and 2^39 calls, all timestamps (including wraparound), overheads and buffer sizes", "why_tests_cant": "Attribution is by a stack replayed from packets whose entries are reordered by a self-organizing list; tests see a few fixed nestings.", "anchors": ["hwy/profiler.h:Packet", "hwy/profiler.h:Accumulator", "hwy/profiler.h:Results::AnalyzePackets", "hwy/profiler.h:Results::UpdateOrAdd"]}
{"id": "C90", "title": "Profiler buffering is transparent", "statement": "Recording zone events through the per-thread buffer and storage, with analyses whenever the storage is full, gives the same results as analyzing all events at once, for every buffer and storage size, and never writes outside them.", "quantifier": "every sequence of zone entries and exits (also with zones still open), every buffer capacity of at least one and storage at least as large", "why_tests_cant": "The default storage holds 26 million packets, so tests never reach the intermediate analyses or their boundary cases.", "anchors": ["hwy/profiler.h:ThreadSpecific::Write", "hwy/profiler.h:ThreadSpecific::AnalyzeRemainingPackets", "hwy/profiler.h:Results::AnalyzePackets"]}
{"id": "C91", "title": "The profiler's report has one line per zone name", "statement": "PROFILER_PRINT_RESULTS prints exactly one line per zone name, with the number of calls and the total self time over all threads, also if several zones share a name.", "quantifier": "every number of threads, every history per thread, every assignment of names to zones", "why_tests_cant": "Duplicate names at the end of the table are a corner case of the merging loop; there is no test of the profiler's output.", "anchors": ["hwy/profiler.h:Results::MergeDuplicates", "hwy/profiler.h:Results::Assimilate", "hwy/profiler.h:ThreadList::PrintResults", "hwy/profiler.h:Results::Print"]}
{"id": "C92", "title": "Round, Trunc, Ceil, Floor round correctly", "statement": "For every float or double lane, Round returns the nearest integer (ties to even), Trunc the integer toward zero, Ceil the one above and Floor the one below; infinities are unchanged and NaN yields NaN; no intermediate cast is undefined.", "quantifier": "every bit pattern of float and double, on EMU128, SCALAR and SSE2/SSSE3 (three different algorithms), whatever arithmetic on NaN and out-of-range in-range conversions return", "why_tests_cant": "Adding one half rounds twice (0.49999997f + 0.5f is 1.0f), carries move between mantissa and exponent, and 2^64 double patterns cannot be enumerated; the tests compare within one ulp.", "anchors": ["hwy/ops/emu128-inl.h:Round", "hwy/ops/emu128-inl.h:Trunc", "hwy/ops/emu128-inl.h:Ceil", "hwy/ops/emu128-inl.h:Floor", "hwy/ops/scalar-inl.h:Round", "hwy/ops/scalar-inl.h:Trunc", "hwy/ops/x86_128-inl.h:Round", "hwy/ops/x86_128-inl.h:Trunc", "hwy/ops/x86_128-inl.h:Ceil", "hwy/ops/x86_128-inl.h:Floor"]}
{"id": "C93", "title": "Float to integer conversion saturates", "statement": "ConvertTo, DemoteTo (double to 32-bit) and PromoteTo (float to 64-bit) to signed and unsigned integers round toward zero and return the closest representable value if the input is out of range; infinities give the limits, and no cast is undefined even for NaN. The InRange variants return the same value for inputs in range.", "quantifier": "every bit pattern of float and double, signed and unsigned destinations of every width up to 64 bits", "why_tests_cant": "The range test works on exponent fields; the boundary cases (-2^31, 2^32 - 1 rounded up, negative to unsigned) are isolated patterns among 2^64.", "anchors": ["hwy/ops/emu128-inl.h:CastValueForF2IConv", "hwy/ops/emu128-inl.h:CastValueForInRangeF2IConv", "hwy/ops/scalar-inl.h:CastValueForF2IConv", "hwy/ops/emu128-inl.h:ConvertTo", "hwy/ops/emu128-inl.h:DemoteTo", "hwy/ops/emu128-inl.h:PromoteTo"]}
{"id": "C94", "title": "NearestInt and DemoteToNearestInt", "statement": "NearestInt returns the nearest integer, ties to even, for every input that is not NaN, saturating if it exceeds the range; DemoteToNearestInt is equivalent to DemoteTo(d, Round(v)).", "quantifier": "every non-NaN bit pattern of float and double", "why_tests_cant": "Both deviations are at single values or a tiny interval next to the limits of int32/int64.", "anchors": ["hwy/ops/emu128-inl.h:NearestInt", "hwy/ops/emu128-inl.h:DemoteToNearestInt", "hwy/ops/scalar-inl.h:NearestInt", "hwy/ops/scalar-inl.h:DemoteToNearestInt"]}
{"id": "C95", "title": "CeilInt and FloorInt", "statement": "CeilInt and FloorInt return the value rounded up resp. down, saturated to the signed integer type: the same as ConvertTo after Ceil or Floor.", "quantifier": "every non-NaN bit pattern of float and double; generic and SSE2/SSSE3 versions", "why_tests_cant": "The SSE2 version corrects a truncated integer by a comparison and could overflow or wrap at the limits.", "anchors": ["hwy/ops/generic_ops-inl.h:CeilInt", "hwy/ops/generic_ops-inl.h:FloorInt", "hwy/ops/x86_128-inl.h:CeilInt", "hwy/ops/x86_128-inl.h:FloorInt"]}
{"id": "C96", "title": "DemoteTo from double to float", "statement": "DemoteTo from double to float returns the correctly rounded (nearest even) float with the sign of the input if its magnitude does not exceed the largest finite float, otherwise the largest finite float with that sign; NaN yields NaN.", "quantifier": "every bit pattern of double", "why_tests_cant": "Values around the largest float and infinities take different branches; rounding of 2^64 patterns cannot be enumerated.", "anchors": ["hwy/ops/emu128-inl.h:DemoteTo", "hwy/ops/scalar-inl.h:DemoteTo"]}
{"id": "C97", "title": "MulByPow2 equals std::ldexp", "statement": "For every float lane v and every integer exponent e of the same lane size, MulByPow2(v, e) is std::ldexp(v, e): v * 2^e rounded once to nearest even, with gradual underflow, overflow to infinity, signed zeros, and infinities unchanged; NaN yields NaN. The result is the same on every target.", "quantifier": "every bit pattern of float16, float and double, every exponent of the lane's signed integer type, every choice of the narrower lane types used for Min/Max and saturated subtraction", "why_tests_cant": "The code multiplies three times by powers of two that it derives with narrow-lane min/max and saturated subtraction; a double rounding, an intermediate overflow or underflow or a wrapped lane would show only for particular pairs of value and exponent, of which there are 2^64 to 2^128.", "anchors": ["hwy/ops/generic_ops-inl.h:MulByPow2"]}
{"id": "C98", "title": "MulByFloorPow2", "statement": "MulByFloorPow2(v, b) is v * 2^floor(b), correctly rounded, for every finite b, also if floor(b) does not fit in the integer type; NaN in either argument gives NaN; b = +inf gives NaN for zero and otherwise infinity with the sign of v; b = -inf gives NaN for infinite v and otherwise zero with the sign of v.", "quantifier": "every pair of bit patterns of float and double (and float16 given its FloorInt)", "why_tests_cant": "Special cases are detected by comparing with a value derived from the sign bit of b; pairs of floats cannot be enumerated.", "anchors": ["hwy/ops/generic_ops-inl.h:MulByFloorPow2"]}
{"id": "C99", "title": "GetExponent and GetBiasedExponent", "statement": "For every normal v, GetExponent returns exactly the e with 2^e <= |v| < 2^(e+1); zero and subnormal give -bias, infinity and NaN give bias + 1. GetBiasedExponent returns the same plus the bias, as an integer.", "quantifier": "every bit pattern of float16, float and double", "why_tests_cant": "Every exponent must be right at both ends of its binade.", "anchors": ["hwy/ops/generic_ops-inl.h:GetExponent", "hwy/ops/generic_ops-inl.h:GetBiasedExponent"]}
{"id": "C100", "title": "Compress moves exactly the selected lanes to the front, in order", "statement": "For every vector and mask, Compress(v, m) starts with the lanes of v whose mask is true, in their order; for lanes wider than one byte they are followed by the other lanes, in their order, so that the result is a permutation of v. CompressNot does the same with the complement of the mask, and CompressBits(v, bits) with the mask LoadMaskBits(bits), whatever the unused bits of the last byte are.", "quantifier": "every mask and vector content of up to 128 bits, every lane size, every content of shuffled-out or uninitialized bytes, EMU128 and SSE2 to AVX2", "why_tests_cant": "The tables have 256 rows of 8 or 16 bytes each; a wrong entry only shows for that mask.", "anchors": ["hwy/ops/emu128-inl.h:Compress", "hwy/ops/emu128-inl.h:CompressNot", "hwy/ops/emu128-inl.h:CompressBits", "hwy/ops/x86_128-inl.h:detail::IndicesFromBits128", "hwy/ops/x86_128-inl.h:detail::IndicesFromNotBits128", "hwy/ops/x86_128-inl.h:Compress", "hwy/ops/x86_128-inl.h:CompressNot", "hwy/ops/x86_128-inl.h:CompressBits", "hwy/ops/generic_ops-inl.h:CompressBitsStore", "hwy/ops/generic_ops-inl.h:Compress"]}
{"id": "C101", "title": "Compressing stores write what they promise and nothing after it", "statement": "CompressStore, CompressBlendedStore and CompressBitsStore return the number of true lanes and leave the selected lanes, in order, at the start of the buffer; CompressStore changes nothing from the N-th lane on (and needs no more than N lanes of buffer), CompressBlendedStore nothing after the lanes counted.", "quantifier": "every mask, vector, buffer length and content, lane size", "why_tests_cant": "A store beyond the promised lanes shows only for masks whose first block is full; overlapping stores only for some counts.", "anchors": ["hwy/ops/emu128-inl.h:CompressStore", "hwy/ops/emu128-inl.h:CompressBlendedStore", "hwy/ops/x86_128-inl.h:CompressStore", "hwy/ops/x86_128-inl.h:CompressBlendedStore", "hwy/ops/x86_128-inl.h:CompressBitsStore", "hwy/ops/generic_ops-inl.h:CompressStore", "hwy/ops/generic_ops-inl.h:CompressBlendedStore"]}
{"id": "C102", "title": "Expand and LoadExpand", "statement": "Expand(v, m) has in lane i, if m[i] is true, lane s of v where s is the number of true mask lanes before i, and otherwise zero; LoadExpand the same from memory, whose result depends only on the first CountTrue(m) elements. Expand after Compress restores every selected lane.", "quantifier": "every mask and vector of up to 128 bits, every lane size, EMU128 and the generic versions", "why_tests_cant": "256-row tables and a data-dependent shift of the upper half of 16 bytes.", "anchors": ["hwy/ops/emu128-inl.h:Expand", "hwy/ops/emu128-inl.h:LoadExpand", "hwy/ops/generic_ops-inl.h:Expand", "hwy/ops/generic_ops-inl.h:LoadExpand", "hwy/ops/generic_ops-inl.h:detail::IndicesForExpandFromBits"]}
{"id": "C103", "title": "Masks as bits, counts and first/last true lane", "statement": "StoreMaskBits writes ceil(N/8) bytes whose bit i is lane i of the mask and whose other bits are zero; LoadMaskBits returns the mask given by the first N bits, ignoring others, so that loading what was stored returns the mask; CountTrue, AllTrue, AllFalse, FindFirstTrue and FindLastTrue (-1 if none) are exact.", "quantifier": "every mask and every memory content, any number of lanes (EMU128: up to 16; FindFirst/LastTrue on x86: up to 32)", "why_tests_cant": "2^N masks; bit and byte order of every lane.", "anchors": ["hwy/ops/emu128-inl.h:LoadMaskBits", "hwy/ops/emu128-inl.h:StoreMaskBits", "hwy/ops/emu128-inl.h:CountTrue", "hwy/ops/emu128-inl.h:FindFirstTrue", "hwy/ops/emu128-inl.h:FindLastTrue", "hwy/ops/x86_128-inl.h:LoadMaskBits", "hwy/ops/x86_128-inl.h:StoreMaskBits", "hwy/ops/x86_128-inl.h:CountTrue", "hwy/ops/x86_128-inl.h:FindFirstTrue", "hwy/ops/x86_128-inl.h:FindLastTrue", "hwy/ops/x86_128-inl.h:AllTrue"]}
{"id": "C104", "title": "Masks relative to the first true lane", "statement": "For every mask, lane i of SetAtOrAfterFirst(m) is true iff some lane up to i is true; of SetBeforeFirst(m) iff none is; of SetAtOrBeforeFirst(m) iff no lane before i is; of SetOnlyFirst(m) iff i is the first true lane. In particular an all-false mask gives all-false, all-true, all-true and all-false.", "quantifier": "every mask of every supported number of lanes and lane size, EMU128, SSE2 to AVX2 (128 and 256 bits), AVX3 (128 to 512 bits), whatever the undefined upper bits of partial vectors are", "why_tests_cant": "Up to 2^64 masks; carries and borrows between lanes and between 64-bit halves.", "anchors": ["hwy/ops/emu128-inl.h:SetAtOrAfterFirst", "hwy/ops/emu128-inl.h:SetOnlyFirst", "hwy/ops/x86_128-inl.h:SetAtOrAfterFirst", "hwy/ops/x86_128-inl.h:SetOnlyFirst", "hwy/ops/x86_128-inl.h:SetAtOrBeforeFirst", "hwy/ops/x86_256-inl.h:SetOnlyFirst", "hwy/ops/x86_512-inl.h:SetBeforeFirst"]}
{"id": "C105", "title": "PromoteTo from half floats is exact", "statement": "On targets without hardware support, PromoteTo from float16_t to float or double returns exactly the value of every finite half, including subnormals and signed zeros. (Infinity and NaN are documented as implementation-defined for float16_t: there the code treats exponent 31 as an ordinary one and returns a finite value of at least 65536.)", "quantifier": "every half bit pattern", "why_tests_cant": "The tests use a few dozen values; the emulation has separate paths for subnormals and normals.", "anchors": ["hwy/ops/generic_ops-inl.h:PromoteTo", "hwy/ops/generic_ops-inl.h:HWY_NATIVE_F16C"]}
{"id": "C106", "title": "DemoteTo to half floats rounds to nearest even", "statement": "On targets without hardware support, DemoteTo from float or double to float16_t returns the nearest half, ties to even, for every value: overflow to infinity from 65520 on, gradual underflow, infinities kept, NaN to NaN, no double rounding from double. The result is bit-identical to the scalar conversion for every non-NaN, with either the 8-bit or the 32-bit lane arithmetic.", "quantifier": "every float and every double bit pattern; both code paths; whichever NaN the hardware returns; DemoteTo(f32, f64) overflowing to infinity or to the largest float", "why_tests_cant": "2^32 floats and 2^64 doubles; rounding is done by a float addition of a carefully chosen power of two.", "anchors": ["hwy/ops/generic_ops-inl.h:DemoteTo", "hwy/ops/generic_ops-inl.h:HWY_NATIVE_DEMOTE_F64_TO_F16"]}
{"id": "C107", "title": "bfloat16 vector conversions", "statement": "DemoteTo, OrderedDemote2To and ReorderDemote2To from float to bfloat16_t round every lane to nearest even (NaN to NaN, infinity to infinity); the first two keep the order of the lanes, the third returns some permutation of them. PromoteTo from bfloat16_t is exact.", "quantifier": "every vector of float bit patterns, any number of lanes", "why_tests_cant": "2^32 values per lane; the code packs by selecting odd 16-bit lanes.", "anchors": ["hwy/ops/generic_ops-inl.h:RoundF32ForDemoteToBF16", "hwy/ops/generic_ops-inl.h:OrderedDemote2To", "hwy/ops/generic_ops-inl.h:ReorderDemote2To"]}
{"id": "C108", "title": "Constant and uniform shifts", "statement": "ShiftLeft<k>, ShiftRight<k>, ShiftLeftSame and ShiftRightSame of 8-bit lanes, and of signed 64-bit lanes, which x86 has no instruction for, shift each lane by exactly k in [0, w): no bit of a neighbouring lane leaks in, signed lanes round down. This holds for the masked 16-bit shifts, the sign repairs and the GFNI matrices.", "quantifier": "every vector of bytes, every signed 64-bit lane, every valid count, with or without GFNI, SSE2 to AVX3_DL", "why_tests_cant": "2^64 values times 64 counts; the mask constants depend on the count.", "anchors": ["hwy/ops/x86_128-inl.h:ShiftLeft", "hwy/ops/x86_128-inl.h:ShiftRight", "hwy/ops/x86_128-inl.h:ShiftRightSame", "hwy/ops/x86_avx3-inl.h:ShiftLeft", "hwy/ops/x86_512-inl.h:BroadcastSignBit"]}
{"id": "C109", "title": "Shl and Shr by per-lane counts", "statement": "Shl and Shr shift each lane by the count in the same lane, for all counts in [0, w) including 0, for 8, 16, 32 and 64-bit unsigned lanes on SSE2 to SSE4 (where powers of two are made in the float exponent and multiplied), and AVX2 / AVX3_DL; signed Shr rounds down.", "quantifier": "every vector, every valid count vector, SSE2 / SSSE3 / SSE4 variants of Pow2, full and partial registers, any garbage in the rest of the register of a single byte", "why_tests_cant": "The product of values and counts is unbounded; count 0 needs a separate repair for Shr, and 2^31 exceeds int.", "anchors": ["hwy/ops/x86_128-inl.h:Pow2", "hwy/ops/x86_128-inl.h:Shl", "hwy/ops/x86_128-inl.h:Shr", "hwy/ops/x86_128-inl.h:SignedShr"]}
{"id": "C110", "title": "Rotates", "statement": "RotateRight<k>, RotateLeft<k>, Rol, Ror, RotateLeftSame and RotateRightSame move bit i to bit i + k (or i - k) modulo the lane width, for every count: Rol / Ror by any lane pattern, the Same versions by any int including negative ones.", "quantifier": "every lane width, vector and count", "why_tests_cant": "Any int as count; 64-bit lanes.", "anchors": ["hwy/ops/x86_128-inl.h:RotateRight", "hwy/ops/generic_ops-inl.h:RotateLeft", "hwy/ops/inside-inl.h:Rol", "hwy/ops/inside-inl.h:RotateLeftSame"]}
{"id": "C111", "title": "Reverse2/4/8 of bytes, ReverseLaneBytes, ReverseBits", "statement": "Reverse2, Reverse4 and Reverse8 of 8-bit lanes (and Reverse2 of 16-bit lanes) reverse each group; ReverseLaneBytes reverses the bytes of every lane; ReverseBits reverses the bits of every lane of 8 to 64 bits.", "quantifier": "any number of registers, both the rotate and the table lookup variants, shifts of 8 or 16-bit lanes, with or without GFNI", "why_tests_cant": "Inputs are unbounded; the variants are selected at compile time per target.", "anchors": ["hwy/ops/generic_ops-inl.h:Reverse2", "hwy/ops/generic_ops-inl.h:Reverse4", "hwy/ops/generic_ops-inl.h:Reverse8", "hwy/ops/generic_ops-inl.h:ReverseLaneBytes", "hwy/ops/generic_ops-inl.h:ReverseBits"]}
{"id": "C112", "title": "BitShuffle and MultiRotateRight", "statement": "BitShuffle puts bit indices[i*8+j] of lane i into bit j and clears the upper 56 bits; MultiRotateRight puts the low byte of lane i rotated right by indices[i*8+j] into byte j; both whenever that index is in [0, 64), whatever the other indices are.", "quantifier": "any number of 128-bit blocks (and a single 64-bit lane for MultiRotateRight), every value and index vector", "why_tests_cant": "64^8 index vectors per lane.", "anchors": ["hwy/ops/generic_ops-inl.h:BitShuffle", "hwy/ops/generic_ops-inl.h:MultiRotateRight"]}
{"id": "C113", "title": "Integer comparisons", "statement": "==, !=, <, <=, > and >= of 8 to 64-bit signed and unsigned lanes return a mask lane of all ones exactly if the relation holds and zero otherwise, also on the targets that have no 64-bit comparison (SSE2, SSSE3) and although x86 has no unsigned one.", "quantifier": "every pair of lanes of every width, with and without native 64-bit comparisons", "why_tests_cant": "2^128 pairs of 64-bit lanes; the emulation splits into halves, one compared as signed, the other by the borrow of a subtraction.", "anchors": ["hwy/ops/x86_128-inl.h:operator==", "hwy/ops/x86_128-inl.h:operator!=", "hwy/ops/x86_128-inl.h:Gt", "hwy/ops/x86_128-inl.h:Ge", "hwy/ops/x86_128-inl.h:operator<"]}
{"id": "C114", "title": "Min, Max, Abs, SaturatedAbs, IfThenElse, IfNegativeThen*", "statement": "Min and Max are the unsigned / signed extrema; Abs is the absolute value with LimitsMin mapping to itself (LimitsMax + 1 as unsigned); SaturatedAbs maps LimitsMin to LimitsMax; IfThenElse with a valid mask selects; IfNegativeThenElse and its Zero versions, ZeroIfNegative and BroadcastSignBit depend on the sign bit of any value; IfNegativeThenNegOrUndefIfZero negates, keeps or, for zero, returns zero or v.", "quantifier": "every lane of 8 to 64 bits, SSE2, SSSE3, SSE4 / AVX2 code paths", "why_tests_cant": "Unbounded lane values across three emulation levels; the blend instructions test one bit per byte or per lane.", "anchors": ["hwy/ops/x86_128-inl.h:Min", "hwy/ops/x86_128-inl.h:Max", "hwy/ops/x86_128-inl.h:Abs", "hwy/ops/x86_128-inl.h:SaturatedAbs", "hwy/ops/x86_128-inl.h:IfThenElse", "hwy/ops/x86_128-inl.h:IfNegativeThenElse", "hwy/ops/x86_128-inl.h:IfNegativeThenNegOrUndefIfZero", "hwy/ops/x86_128-inl.h:BroadcastSignBit"]}
{"id": "C115", "title": "128-bit comparisons", "statement": "Lt128, Eq128 and Ne128 set both lanes of a pair's mask exactly according to the 128-bit number (lane 1 more significant); the Upper versions compare only the upper lane; Min128 / Max128 return the pair with the smaller / larger number, Min128Upper / Max128Upper a whole pair by its upper lane. Lt128 is a strict total order on pairs.", "quantifier": "every pair of pairs of 64-bit lanes, with and without SSE4 comparisons and blends", "why_tests_cant": "2^256 inputs.", "anchors": ["hwy/ops/x86_128-inl.h:Lt128", "hwy/ops/x86_128-inl.h:Eq128", "hwy/ops/x86_128-inl.h:Ne128", "hwy/ops/x86_128-inl.h:Lt128Upper", "hwy/ops/x86_128-inl.h:Min128", "hwy/ops/x86_128-inl.h:Max128Upper"]}
{"id": "C116", "title": "Integers to floating point", "statement": "On targets without native instructions, ConvertTo, PromoteTo and DemoteTo from uint32_t, int64_t and uint64_t to float and double return the integer rounded once to nearest even, with and without FMA; uint32_t to double is exact. In particular, int64_t and uint64_t to float do not round twice although they go through double.", "quantifier": "every integer of 32 or 64 bits", "why_tests_cant": "2^64 inputs per conversion; errors of double rounding occur only for integers next to the midpoints of floats.", "anchors": ["hwy/ops/x86_128-inl.h:ConvertTo", "hwy/ops/x86_128-inl.h:PromoteTo", "hwy/ops/x86_128-inl.h:DemoteTo", "hwy/ops/x86_128-inl.h:U64ToF64VecFast"]}
{"id": "C117", "title": "Floating point to integers", "statement": "On SSE2 to AVX2, ConvertTo, PromoteTo and DemoteTo from float and double to int32_t, uint32_t, int64_t and uint64_t round toward zero and saturate: values beyond the range, and infinities, become the nearest limit. The InRange versions round toward zero if the result fits, including values in (-1, 0] for unsigned types. GCC's evaluation for constants yields the same as the instructions.", "quantifier": "every float that is not NaN, every pair of types", "why_tests_cant": "2^64 doubles; the code manipulates exponent fields, with special cases at 2^31, 2^32, 2^63 and 2^64.", "anchors": ["hwy/ops/x86_128-inl.h:ConvertTo", "hwy/ops/x86_128-inl.h:ConvertInRangeTo", "hwy/ops/x86_128-inl.h:PromoteInRangeTo", "hwy/ops/x86_128-inl.h:DemoteInRangeTo", "hwy/ops/x86_128-inl.h:ConvAbsInRangeF64ToUI64", "hwy/ops/x86_128-inl.h:ConvInRangeF32ToU32"]}
{"id": "C118", "title": "Integer demotion saturates on x86", "statement": "DemoteTo between integer types, ReorderDemote2To and OrderedDemote2To store in every lane the value of the destination type closest to the source lane, for every pair of signed or unsigned types of 64, 32 or 16 to 32, 16 or 8 bits, every vector size, on SSE2, SSSE3, SSE4 and AVX2; the bytes of the register beyond a partial vector have no effect. The lanes of the first argument precede those of the second; ReorderDemote2To of 256 bits does so within each 128-bit block.", "quantifier": "every pair of types, lane count, contents of the registers", "why_tests_cant": "2^128 vectors; one path per target, size and pair of types, many emulated with byte-wise minimum, shifts and packs that saturate by other rules.", "anchors": ["hwy/ops/x86_128-inl.h:DemoteTo", "hwy/ops/x86_128-inl.h:ReorderDemote2To", "hwy/ops/x86_128-inl.h:DemoteFromU64Saturate", "hwy/ops/x86_256-inl.h:DemoteTo", "hwy/ops/x86_256-inl.h:ReorderDemote2To", "hwy/ops/x86_256-inl.h:OrderedDemote2To", "hwy/ops/generic_ops-inl.h:DemoteTo"]}
{"id": "C119", "title": "Integer promotion and truncation on x86", "statement": "PromoteTo between integer types keeps the value of every lane, signed and unsigned, from 8, 16 and 32 bits to 16, 32 and 64; TruncateTo and OrderedTruncate2To keep the low bits, for every pair of types and vector size, 128 and 256 bits.", "quantifier": "every pair of types, lane count, contents of the registers", "why_tests_cant": "2^128 vectors; one path per target, size and pair of types.", "anchors": ["hwy/ops/x86_128-inl.h:PromoteTo", "hwy/ops/x86_128-inl.h:TruncateTo", "hwy/ops/x86_256-inl.h:TruncateTo", "hwy/ops/x86_256-inl.h:LookupAndConcatHalves", "hwy/ops/generic_ops-inl.h:OrderedTruncate2To"]}
{"id": "C120", "title": "ConcatOdd and ConcatEven on x86", "statement": "ConcatOdd(d, hi, lo) and ConcatEven(d, hi, lo) return the odd (even) lanes of lo in order, then those of hi, for lanes of 8 to 64 bits and vectors of 2 to 32 bytes, on SSE2, SSSE3, SSE4 and AVX2.", "quantifier": "every lane size, lane count, contents of the registers", "why_tests_cant": "2^256 pairs; the paths for 8 and 16 bit lanes go through saturating packs.", "anchors": ["hwy/ops/x86_128-inl.h:ConcatOdd", "hwy/ops/x86_128-inl.h:ConcatEven", "hwy/ops/x86_256-inl.h:ConcatOdd", "hwy/ops/x86_256-inl.h:ConcatEven"]}
{"id": "C121", "title": "Integer multiplication on x86", "statement": "On SSE2, SSSE3, SSE4 (and 128-bit vectors on AVX2): operator* of 8, 16, 32 and 64 bit integer lanes is the product modulo the range of the type; MulEven and MulOdd return the exact double-width product of the even (odd) lanes, of 8 to 64 bits, signed and unsigned; MulHigh is the floor of the product divided by 2 to the number of bits of a lane; MulFixedPoint15 is the product divided by 2^15, rounded to the nearest, unless both are -1.0 (where the result depends on the target); WidenMulPairwiseAdd of 16-bit lanes is the sum of two adjacent products, exact unless all four lanes are -32768, otherwise modulo 2^32; AverageRound is (a + b + 1) / 2 rounded down. For every lane count.", "quantifier": "every lane type, lane count, contents of the registers", "why_tests_cant": "2^256 pairs; before SSE4 signed products are assembled from unsigned ones with corrections for negative lanes, and 64-bit products from four partial products with carries.", "anchors": ["hwy/ops/x86_128-inl.h:operator*", "hwy/ops/x86_128-inl.h:MulEven", "hwy/ops/x86_128-inl.h:MulOdd", "hwy/ops/x86_128-inl.h:MulHigh", "hwy/ops/x86_128-inl.h:MulFixedPoint15", "hwy/ops/x86_128-inl.h:WidenMulPairwiseAdd", "hwy/ops/x86_128-inl.h:AverageRound", "hwy/ops/generic_ops-inl.h:operator*"]}
{"id": "C122", "title": "Odd and even lanes on x86", "statement": "OddEven(a, b) returns the odd lanes of a and the even lanes of b; DupEven and DupOdd copy each even (odd) lane to its neighbour; InterleaveEven(d, a, b) and InterleaveOdd(d, a, b) alternate the even (odd) lanes of a and b; for lanes of 8 to 64 bits and every lane count on SSE2, SSSE3 and SSE4.", "quantifier": "every lane size, lane count, contents of the registers", "why_tests_cant": "2^256 pairs; one path per target, size and lane count, many through shifts of wider lanes.", "anchors": ["hwy/ops/x86_128-inl.h:OddEven", "hwy/ops/x86_128-inl.h:DupEven", "hwy/ops/x86_128-inl.h:DupOdd", "hwy/ops/x86_128-inl.h:InterleaveEven", "hwy/ops/x86_128-inl.h:InterleaveOdd"]}
{"id": "C123", "title": "Slides and shifts by lanes on x86", "statement": "For 0 <= amt < Lanes(d), lane i of SlideUpLanes(d, v, amt) is lane i - amt of v, or zero if i < amt; lane i of SlideDownLanes(d, v, amt) is lane i + amt, or zero if i + amt >= Lanes(d), whether or not the compiler knows amt, on SSE2, SSSE3 and SSE4 (and for 128-bit vectors on AVX2), for lanes of 8 to 64 bits and every lane count. Slide1Up and Slide1Down do the same for one lane and return zero if there is only one; ShiftLeftLanes and ShiftRightLanes by any number of lanes never let bytes beyond a partial vector enter.", "quantifier": "every lane size, lane count, amount, contents of the register including its unused bytes", "why_tests_cant": "2^128 contents times amounts; SSE2 joins two 64-bit shifts, SSSE3 computes shuffle indices modulo 256, partial vectors shift a wider lane.", "anchors": ["hwy/ops/x86_128-inl.h:SlideUpLanes", "hwy/ops/x86_128-inl.h:SlideDownLanes", "hwy/ops/x86_128-inl.h:ShiftLeftLanes", "hwy/ops/x86_128-inl.h:ShiftRightLanes", "hwy/ops/x86_128-inl.h:ShiftRightBytes", "hwy/ops/generic_ops-inl.h:Slide1Up", "hwy/ops/generic_ops-inl.h:Slide1Down"]}
{"id": "C124", "title": "Reverse, Broadcast and CombineShiftRightBytes on x86", "statement": "Reverse(d, v) returns lane N-1-i as lane i; Broadcast<k>(v) returns lane k in every lane; CombineShiftRightBytes<k>(d, hi, lo) returns bytes k to k + size - 1 of the vectors lo and hi concatenated, for 0 < k < size, also for partial vectors; for lanes of 8 to 64 bits and every lane count on SSE2, SSSE3 and SSE4 (and for 128-bit vectors on AVX2).", "quantifier": "every lane size, lane count, constant, contents of the registers including their unused bytes", "why_tests_cant": "2^256 pairs; one path per target, size and lane count; partial vectors must not take bytes from the unused part of lo.", "anchors": ["hwy/ops/x86_128-inl.h:Reverse", "hwy/ops/x86_128-inl.h:Broadcast", "hwy/ops/x86_128-inl.h:CombineShiftRightBytes"]}
{"id": "C125", "title": "Table lookups on x86", "statement": "If every lane of the index vector is below Lanes(d), lane i of TableLookupLanes(v, IndicesFromVec(d, idx)) is lane idx[i] of v; if every lane is below 2 * Lanes(d), lane i of TwoTablesLookupLanes(a, b, IndicesFromVec(d, idx)) is lane idx[i] of a, or lane idx[i] - Lanes(d) of b: on SSE2, SSSE3, SSE4 and AVX2 for vectors of up to 128 bits, for lanes of 8 to 64 bits, every lane count, signed and unsigned index vectors, and whatever the unused bytes of partial vectors hold. TableLookupBytes(v, idx) returns byte idx[p] of v for idx[p] < 16; TableLookupBytesOr0 also returns zero where bit 7 of the index is set.", "quantifier": "every target, lane size, lane count, table, index vector and unused bytes of the registers", "why_tests_cant": "2^128 tables times all index vectors; each target and size has its own path: indices of bytes are computed by 16-bit shifts, 64-bit lookups compare and swap, blends read only the sign bit.", "anchors": ["hwy/ops/x86_128-inl.h:IndicesFromVec", "hwy/ops/x86_128-inl.h:TableLookupLanes", "hwy/ops/x86_128-inl.h:TwoTablesLookupLanes", "hwy/ops/x86_128-inl.h:TableLookupBytes", "hwy/ops/x86_128-inl.h:TableLookupBytesOr0"]}
{"id": "C126", "title": "Interleaving and halves on x86", "statement": "InterleaveLower(a, b) returns alternately lanes of the lower halves of a and b, starting with a; InterleaveUpper and InterleaveWholeUpper those of the upper halves (ZipLower, ZipUpper: the same bytes). UpperHalf and LowerHalf return the halves, Combine joins two vectors, ZeroExtendVector fills with zeros, and ConcatLowerLower, ConcatUpperUpper, ConcatLowerUpper and ConcatUpperLower(d, hi, lo) return the named half of hi above the named half of lo; for lanes of 8 to 64 bits and every vector size up to 128 bits on SSE2, SSSE3 and SSE4 (and for 128-bit vectors on AVX2), whatever the unused bytes hold.", "quantifier": "every lane size, lane count, contents of the registers including their unused bytes", "why_tests_cant": "2^256 pairs; partial vectors treat a half as one wide lane, shift bytes or clear the unused part, full ones use other instructions per target.", "anchors": ["hwy/ops/x86_128-inl.h:InterleaveLower", "hwy/ops/x86_128-inl.h:InterleaveUpper", "hwy/ops/x86_128-inl.h:UpperHalf", "hwy/ops/x86_128-inl.h:LowerHalf", "hwy/ops/x86_128-inl.h:Combine", "hwy/ops/x86_128-inl.h:ZeroExtendVector", "hwy/ops/x86_128-inl.h:ConcatLowerLower", "hwy/ops/x86_128-inl.h:ConcatUpperUpper", "hwy/ops/x86_128-inl.h:ConcatLowerUpper", "hwy/ops/x86_128-inl.h:ConcatUpperLower"]}
