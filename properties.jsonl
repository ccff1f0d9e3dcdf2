{"id": "C01", "title": "Rotations permute bits", "statement": "rol(v,k) moves bit i of v to bit (i+k) mod w and ror(v,k) moves bit (i+k) mod w to bit i, for w=8,16,32,64; hence ror undoes rol, rotations compose additively, and no bit is lost.", "quantifier": "every word of every unsigned width and every rotation amount", "why_tests_cant": "the domain is all 2^w words (2^64 at the widest) for every rotation/shift, far beyond enumeration", "anchors": ["core/src/util/bitwise.h:rol", "core/src/util/bitwise.h:ror"]}
{"id": "C02", "title": "Bit reversal is the exact mirror image", "statement": "reverse_bits(v) has bit i equal to bit w-1-i of v for 8, 16, 32 and 64 bit words; applying it twice gives v back.", "quantifier": "every word of widths 8, 16, 32, 64", "why_tests_cant": "the domain is all 2^w words (2^64 at the widest) for every rotation/shift, far beyond enumeration", "anchors": ["core/src/util/bitwise.h:reverse_bits"]}
{"id": "C03", "title": "Byte swapping mirrors the bytes", "statement": "byteswap<T>(v) (and byte_swap(uint64)) places byte j of v at byte position w/8-1-j, is an involution, and byte_swap agrees with byteswap<uint64_t>.", "quantifier": "every word of widths 8, 16, 32, 64", "why_tests_cant": "the domain is all 2^w words (2^64 at the widest) for every rotation/shift, far beyond enumeration", "anchors": ["core/src/util/bitwise.h:byte_swap", "core/src/util/bitwise.h:byteswap"]}
{"id": "C04", "title": "Power of two rounding", "statement": "bit_width(x) is the least b with x<2^b; bit_floor(x) is the largest power of two <= x (0 for 0); bit_ceil(x) is the smallest power of two >= x whenever it is representable; when it is not, 32/64-bit bit_ceil is undefined behaviour and 8/16-bit bit_ceil returns 0.", "quantifier": "every word of every width", "why_tests_cant": "the domain is all 2^w words (2^64 at the widest) for every rotation/shift, far beyond enumeration", "anchors": ["core/src/util/bitwise.h:bit_width", "core/src/util/bitwise.h:bit_floor", "core/src/util/bitwise.h:bit_ceil"]}
{"id": "C05", "title": "Single-bit access", "statement": "flip_bit changes exactly the addressed bit and is its own inverse, is_bit_set reads exactly the addressed bit, bit_count counts the set bits.", "quantifier": "every word, every in-range bit index", "why_tests_cant": "the domain is all 2^w words (2^64 at the widest) for every rotation/shift, far beyond enumeration", "anchors": ["core/src/util/bitwise.h:flip_bit", "core/src/util/bitwise.h:is_bit_set", "core/src/util/bitwise.h:bit_count"]}
{"id": "C06", "title": "Bit traversal visits every bit once, in order", "statement": "for_each_bit over a data range delivers exactly the bits of the words, word by word and least significant bit first; for_each_bit_block and sliding_bit_window deliver consecutive non-overlapping blocks of that same bit sequence, dropping only the final incomplete block.", "quantifier": "every finite data sequence, every word width, every positive block/window size", "why_tests_cant": "data lengths and block sizes are unbounded", "anchors": ["core/src/util/bitwise.h:for_each_bit", "core/src/util/bitwise.h:for_each_bit_block", "core/src/util/bitwise.h:sliding_bit_window"]}
{"id": "C07", "title": "bit_vector behaves as a sequence of bits", "statement": "A bit_vector after any sequence of add/set_bit calls equals the abstract bit sequence: add(v,k) appends the k low bits of v, set_bit changes only its bit, get(i,k) returns the k bits starting at i as a number, count counts set bits, to_string spells it out; out-of-range accesses are undefined, nothing else is.", "quantifier": "every history of operations on a bit_vector", "why_tests_cant": "histories and sizes are unbounded", "anchors": ["core/src/util/bitvector.h:bit_vector"]}
{"id": "C08", "title": "Ranged streams are repeatable and do not consume their source", "statement": "Iterating a ranged_stream of size n yields exactly the first n values of the source stream, yields the same values each time it is iterated, and leaves the caller's source stream unadvanced - for every stream that owns its state; the thread-safe data stream, which shares its position, is the exception.", "quantifier": "every stream, every n, every number of iterations", "why_tests_cant": "any generator state machine and any length", "anchors": ["core/src/stream.h:ranged_stream", "core/src/stream.h:stream_iterator"]}
{"id": "C09", "title": "Data streams replay their data cyclically", "statement": "create_stream_from_data(data, start) over non-empty data returns data[((start + i) mod 2^64) mod size] on its i-th call (i = 0, 1, ...); for empty data calling it is undefined.", "quantifier": "every data vector and call index", "why_tests_cant": "unbounded data and call counts", "anchors": ["core/src/streams.h:create_stream_from_data"]}
{"id": "C10", "title": "Stream adaptors act pointwise", "statement": "The ror / byteswap / reverse-bits / mixer adaptors return, on the i-th call, that transform of the i-th source value and consume exactly one source value; the bit isolation adaptor packs bit b of w consecutive source values into one word, value j supplying bit j, and consumes exactly w source values.", "quantifier": "every source stream, every position, every bit index", "why_tests_cant": "infinite streams", "anchors": ["core/src/streams.h:create_ror_stream", "core/src/streams.h:create_byteswap_stream", "core/src/streams.h:create_bit_reverse_stream", "core/src/streams.h:create_bit_isolation_stream", "core/src/streams.h:create_stream_from_mixer"]}
{"id": "C11", "title": "Counter based generators have full period", "statement": "A counter stream with odd increment visits every 64-bit state exactly once per 2^64 calls; hence every counter+bijective-mixer generator (mx1/mx2/mx3/splitmix prngs) outputs every 64-bit value exactly once per period and every 32-bit truncation outputs every value exactly 2^32 times.", "quantifier": "every seed; all 2^64 steps", "why_tests_cant": "2^64 steps cannot be run", "anchors": ["core/src/streams.h:create_counter_stream", "impl/src/prngs64.h:mx1", "impl/src/prngs64.h:mx2", "impl/src/prngs64.h:mx3", "impl/src/prngs64.h:splitmix", "impl/src/prngs32.h"]}
{"id": "C12", "title": "Thread-safe data stream hands out each index once", "statement": "Under any interleaving of concurrent callers of the thread-safe data stream, k completed calls have returned, as a multiset, exactly the values at k consecutive (cyclic) positions from the shared index on: no position is handed out twice and none is skipped; used by one caller it is the plain data stream.", "quantifier": "every interleaving of every number of callers", "why_tests_cant": "schedules cannot be enumerated", "anchors": ["core/src/streams.h:create_thread_safe_stream"]}
{"id": "C13", "title": "RRC transforms are reversible and completely enumerated", "statement": "Each rotate/reverse/complement transform is a bijection on words; get_rrc_permutations enumerates, per word width w, all 4 kinds times all w rotations exactly once, in kind-major order.", "quantifier": "every word, every transform, every width", "why_tests_cant": "the domain is all 2^w words (2^64 at the widest) for every rotation/shift, far beyond enumeration", "anchors": ["core/src/rrc.h:permute", "core/src/rrc.h:get_rrc_permutations"]}
{"id": "C14", "title": "RRC source expansion", "statement": "create_rrc_sources produces for every source one derived source for each of the 4w transforms, in source-major order, and each derived stream yields the transform of the source's values.", "quantifier": "every list of sources", "why_tests_cant": "unbounded lists and streams", "anchors": ["core/src/rrc_streams.h"]}
{"id": "C15", "title": "Shift-xor/multiply mixers are bijections", "statement": "Every published 8/16/32/64-bit mixer built from xor-shift and odd multiplication (xm3x, mx1, mx2, mx3, prospector variants, h2, murmur, lea64, degski64, splitmix finalizers, murmur3, xxh3, fast_hash, ...) maps distinct inputs to distinct outputs.", "quantifier": "every pair of distinct w-bit inputs, every listed mixer", "why_tests_cant": "the domain is all 2^w words (2^64 at the widest) for every rotation/shift, far beyond enumeration", "anchors": ["impl/src/mixers8.h", "impl/src/mixers16.h", "impl/src/mixers32.h", "impl/src/mixers64.h"]}
{"id": "C16", "title": "Rotation/add based mixers are bijections", "statement": "nasam, moremur, wang_1 and jenkins style mixers (xor of rotations, add-shift steps) map distinct inputs to distinct outputs.", "quantifier": "every pair of distinct w-bit inputs", "why_tests_cant": "the domain is all 2^w words (2^64 at the widest) for every rotation/shift, far beyond enumeration", "anchors": ["impl/src/mixers32.h", "impl/src/mixers64.h"]}
{"id": "C17", "title": "Combiners are bijective in each argument", "statement": "For the mx1/mx2/mx3 32-bit combiners, fixing either argument leaves a bijection of the other; boost's hash_combine is bijective in the combined value but not in the accumulated one.", "quantifier": "every fixed argument and every pair of distinct other arguments", "why_tests_cant": "the domain is all 2^w words (2^64 at the widest) for every rotation/shift, far beyond enumeration", "anchors": ["impl/src/combiners32.h"]}
{"id": "C18", "title": "PCG generators have full period", "statement": "The pcg LCG state visits all 2^64 states before repeating, from every seed, and pcg64 (rxs_m_xs) outputs every 64-bit value exactly once per period.", "quantifier": "every seed; all 2^64 steps", "why_tests_cant": "2^64 steps cannot be run", "anchors": ["impl/src/prngs64.h:pcg", "impl/src/prngs32.h:pcg", "impl/src/pcg/pcg_random.hpp"]}
{"id": "C19", "title": "SFC generators: reversible with guaranteed minimum period", "statement": "The sfc step is invertible on the whole state for all widths and its state cannot repeat before 2^w steps, from every seed; every cycle length is a multiple of 2^w.", "quantifier": "every seed, every step count", "why_tests_cant": "2^64 steps cannot be run", "anchors": ["impl/src/sfc64.h:sfc"]}
{"id": "C20", "title": "Xorshift generators never reach the all-zero state", "statement": "xorshift 32/64 steps are invertible and linear, keep a non-zero state non-zero for ever, and have the maximal period 2^w-1, visiting every non-zero word once, from every seed whose low w bits are not all zero. (A non-zero 64-bit seed with zero low half makes the 32-bit generator return 0 for ever.)", "quantifier": "every non-zero seed, every number of steps", "why_tests_cant": "2^64 steps cannot be run", "anchors": ["impl/src/prngs64.h:xorshift", "impl/src/prngs32.h:xorshift"]}
{"id": "C21", "title": "Xoroshiro/xoshiro/xorshift128+ states are reversible", "statement": "xorshift128plus, xoroshiro128plus, xoshiro128plus(plus) state updates are invertible, so a non-zero state never becomes zero and every state recurs.", "quantifier": "every non-zero state, every number of steps", "why_tests_cant": "2^128 states", "anchors": ["impl/src/prngs64.h:xorshift128plus", "impl/src/prngs64.h:xoroshiro128plus", "impl/src/prngs32.h:xoshiro128plus"]}
{"id": "C22", "title": "run_jobs runs each job exactly once and terminates", "statement": "For any number of jobs, any thread count >= 1 and any interleaving, run_jobs executes each job exactly once, hands each result exactly once to the collector, never deadlocks and stops after finitely many steps; with 0 threads nothing runs.", "quantifier": "every job list, thread count and schedule", "why_tests_cant": "interleavings cannot be enumerated", "anchors": ["core/src/util/jobs.h:run_jobs"]}
{"id": "C23", "title": "evaluate is schedule independent", "statement": "The results reported by evaluate for each test are, as a multiset, those of running all jobs sequentially, whatever the thread count and schedule; the worst p-value per test and the overall pass/fail verdict are therefore the same for every schedule.", "quantifier": "every setup, thread count and schedule", "why_tests_cant": "interleavings cannot be enumerated", "anchors": ["core/src/evaluate.h:evaluate", "core/src/evaluate.h:create_collector", "core/src/evaluate.h:create_test_jobs", "core/src/util/statistic_analysis.h"]}
{"id": "C24", "title": "Multi-pass evaluation protocol", "statement": "evaluate_multi_pass runs the powers start..stop in increasing order with sample size 2^power, calls the callback once per executed power with the is-last flag set only at stop, stops right after the first callback returning false, and returns the last computed result.", "quantifier": "every start/stop, every callback behaviour", "why_tests_cant": "callback behaviours and ranges are unbounded", "anchors": ["core/src/evaluate.h:evaluate_multi_pass"]}
{"id": "C25", "title": "Test run reports done exactly once", "statement": "With the tool's result callback, the on-done action fires exactly once for a non-empty run (start<=stop), at the first failing power or at the last power, and the printed report claims more ('>') exactly if the last pass had not failed.", "quantifier": "every sequence of pass results", "why_tests_cant": "unbounded histories", "anchors": ["tool/src/command/test_command.h:create_result_callback", "core/src/evaluate.h:evaluate_multi_pass"]}
{"id": "C26", "title": "Results of different tests are never mixed up", "statement": "test_key's ordering is a strict total order that identifies exactly equal (type,name) pairs, so adding a statistic affects only that key's list and appends at its end.", "quantifier": "every pair/triple of keys and every insertion history", "why_tests_cant": "unbounded histories", "anchors": ["core/src/types.h:test_key", "core/src/types.h:test_battery_result"]}
{"id": "C27", "title": "Splitting a test covers the sample", "statement": "split_test runs one test on n values, with the default name, when n fits in the maximum size; otherwise max(2, n/max) tests of exactly the maximum size each, numbered s1, s2, ..., each continuing where the previous one stopped. So for n >= 2*max at most n values are used and fewer than max are left out; for max < n < 2*max more than n values are drawn; max = 0 divides by zero.", "quantifier": "every n and max size", "why_tests_cant": "all 2^64 sizes", "anchors": ["core/src/types.h:split_test"]}
{"id": "C28", "title": "Sample limiting keeps at most the documented number of samples", "statement": "limit_slow / limit_slower pass about n^(6/7) / n^(5/7) samples (truncated, never more than n) to the wrapped test, run nothing when that is below 1024, and are monotone in n; limit_to passes n itself up to its maximum and runs nothing above it.", "quantifier": "every n", "why_tests_cant": "all 2^64 sizes", "anchors": ["core/src/types.h:limit_n_slow", "core/src/types.h:limit_n_slower", "core/src/types.h:limit_n_to"]}
{"id": "C29", "title": "Failure strength and verdict", "statement": "The failure strength is a non-increasing function of the (two-sided) p-value with values 0..10, at least k below 10^-k and less than k above it (up to the accuracy of log10); a statistic passes exactly below strength 9 and is suspicious from strength 5 on, and a battery does not fail iff all its analysed statistics pass.", "quantifier": "every p-value in (0,1], every set of statistics", "why_tests_cant": "a continuum of p-values", "anchors": ["core/src/util/statistic_analysis.h:get_failure_strength", "core/src/util/statistic_analysis.h:statistic_analysis"]}
{"id": "C30", "title": "The worst result is a minimum", "statement": "get_worst_result returns an element of the list whose comparable p-value is minimal, and the first such; the reported worst analysis of a battery is the minimum over all tests.", "quantifier": "every non-empty list of statistics", "why_tests_cant": "unbounded lists", "anchors": ["core/src/util/statistic_analysis.h:get_worst_result", "core/src/util/statistic_analysis.h:get_worst_statistic_analysis"]}
{"id": "C31", "title": "Failure summaries", "statement": "The list of failed tests contains exactly the names of tests with a failing analysis, each name at most once ordered with sample failures before '*'-marked meta-only failures; the result listing shows at most three of the worst suspicious analyses per test type.", "quantifier": "every battery result", "why_tests_cant": "unbounded results", "anchors": ["core/src/format_result.h:get_failed_tests", "core/src/format_result.h:filter_to_show"]}
{"id": "C32", "title": "Runs counting", "statement": "generate_runs_data counts the values above and below the cutoff exactly, and counts the maximal runs of equal side ignoring values equal to the cutoff - with one exception: when the very first value equals the cutoff it is counted like a value below it, which can add one run.", "quantifier": "every finite sequence and cutoff", "why_tests_cant": "unbounded sequences", "anchors": ["core/src/statistics/run.h:generate_runs_data"]}
{"id": "C33", "title": "Gap lengths", "statement": "generate_gaps cuts the values at every visit of the interval [a,b) (of the rescaled value) and tallies the number of misses before each visit, longer gaps in the last bin; the tallies add up to the number of visits. The two half intervals split the words by their top bit, except for the 512 64-bit words just below the middle, which are rounded into the upper half.", "quantifier": "every stream and interval", "why_tests_cant": "unbounded sequences", "anchors": ["core/src/statistics/gap.h:generate_gaps"]}
{"id": "C34", "title": "Coupon collection", "statement": "collect_coupons partitions the consumed values into consecutive segments, each ending exactly when all wanted coupons have been seen, and tallies the segment lengths (lengths beyond the tracked maximum in the last bin).", "quantifier": "every stream", "why_tests_cant": "unbounded sequences", "anchors": ["core/src/statistics/coupon.h:collect_coupons"]}
{"id": "C35", "title": "Divisibility collection", "statement": "collect_divisible records for each segment the position at which the wanted number of divisible values was reached; segments are disjoint and consecutive and tallies sum to the number of completed segments.", "quantifier": "every stream and divisor", "why_tests_cant": "unbounded sequences", "anchors": ["core/src/statistics/divisibility.h:collect_divisible"]}
{"id": "C36", "title": "Permutation histogram", "statement": "The permutation histogram has 2^size bins; bin v counts, saturating at 255, the complete consecutive size-bit windows of the data's bits whose value is v; it depends only on the multiset of windows, never on their order; size >= 64 is undefined.", "quantifier": "every sequence", "why_tests_cant": "unbounded sequences", "anchors": ["core/src/statistics/permutation.h"]}
{"id": "C37", "title": "Binary rank is the true rank", "statement": "row_reduce_and_rank of a square matrix of zeros and ones never accesses out of range and returns its rank over GF(2), for every size; with other cell values (which set() accepts) the result is not a rank.", "quantifier": "every square matrix of every size", "why_tests_cant": "2^(n^2) matrices for every n", "anchors": ["core/src/statistics/binary_rank.h:row_reduce_and_rank"]}
{"id": "C38", "title": "Matrix extraction", "statement": "for_each_matrix chops the bit sequence of the data into consecutive row-major square matrices, dropping only the incomplete last one, whatever the callback leaves behind in the matrix; the binary rank test counts exactly the ranks of these matrices and compares them with the probabilities of the same ranks; the matrix size chosen is the power of two the sample size allows - and 0, leading to an out-of-range write, for fewer than about 955 bits.", "quantifier": "every data sequence and matrix size", "why_tests_cant": "unbounded data", "anchors": ["core/src/statistics/binary_rank.h:for_each_matrix"]}
{"id": "C39", "title": "Rank probabilities are exact", "statement": "The formula used for the probability of rank r equals (number of n x n GF(2) matrices of rank r)/2^(n^2) when computed exactly; the double computed is within relative error (14r+2)/2^53 of it (while n-r <= 31).", "quantifier": "every n and r", "why_tests_cant": "infinitely many n", "anchors": ["core/src/statistics/binary_rank.h:get_rank_probability"]}
{"id": "C40", "title": "Berlekamp-Massey returns the linear complexity", "statement": "berlekamp_massey(u) never accesses out of range and returns the length of the shortest LFSR generating the bit sequence u, for every non-empty u; for the empty sequence it is undefined.", "quantifier": "every non-empty bit sequence", "why_tests_cant": "2^n sequences for every n", "anchors": ["core/src/statistics/linear_complexity.h:berlekamp_massey"]}
{"id": "C41", "title": "Linear complexity probabilities are exact", "statement": "2^lfsr_log2_probability(n,L) equals the fraction of n-bit sequences with linear complexity L, and these sum to 1.", "quantifier": "every n and L", "why_tests_cant": "infinitely many n", "anchors": ["core/src/statistics/linear_complexity.h:lfsr_log2_probability"]}
{"id": "C42", "title": "Strict avalanche histogram", "statement": "sac draws n samples from the stream, mixes each once, and yields a histogram of w+1 bins whose c-th bin is exactly the number of (sample, bit) pairs for which flipping this bit of the mixed sample changes exactly c bits of its image under the mixer; bins total n*w; a bijective mixer never hits bin 0.", "quantifier": "every mixer, stream and n", "why_tests_cant": "function space and streams are unbounded", "anchors": ["core/src/statistics/avalanche.h:sac"]}
{"id": "C43", "title": "Bit independence matrix", "statement": "bic's cell (i,j) is exactly the number of samples for which flipping bit i of the mixed sample flips bit j of its image under the mixer; the total equals the weighted total of the sac histogram.", "quantifier": "every mixer, stream and n", "why_tests_cant": "function space and streams are unbounded", "anchors": ["core/src/statistics/avalanche.h:bic"]}
{"id": "C44", "title": "Serial avalanche counting", "statement": "Serial avalanche counts consecutive non-overlapping pairs of values by the numbers of bits set in both, exactly; the totals equal the number of pairs. It reports at most one result for each row 0..w-1, in order; the row of pairs whose first value has all bits set is counted but never tested.", "quantifier": "every stream and n", "why_tests_cant": "unbounded sequences", "anchors": ["core/src/statistics/serial_avalanche.h"]}
{"id": "C45", "title": "Bin merging preserves mass", "statement": "merge_bins keeps total observed and expected mass, produces equally many observed and expected bins, every merged expected bin reaches the threshold, and is empty only if the threshold is never reached.", "quantifier": "every pair of histograms and threshold", "why_tests_cant": "unbounded lists", "anchors": ["core/src/util/algo.h:merge_bins"]}
{"id": "C46", "title": "Chi-square binning loses no sample", "statement": "bin_data_for_chi2 puts every sample into exactly one of the requested number of bins, and the bin counts add up to the sample count; with 2^k bins the bin is the top k bits of the word for 8-, 16- and (while k <= 20) 32-bit words; for 64-bit words this holds except for the words within 2048 of the upper end of a bin.", "quantifier": "every data sequence, every bin count", "why_tests_cant": "unbounded sequences and rounding of all words", "anchors": ["core/src/statistics/chi2.h:bin_data_for_chi2", "core/src/util/math.h:rescale_type_to_01"]}
{"id": "C47", "title": "Chi-square degrees of freedom", "statement": "chi2_stats yields no statistic unless at least two bins carry enough expected count, otherwise uses one less degree of freedom than included bins, and its value is the sum of (observed-expected)^2/expected over the included bins up to a relative error of 2(n+4)/2^53.", "quantifier": "every pair of histograms", "why_tests_cant": "unbounded lists", "anchors": ["core/src/statistics/chi2.h:chi2_stats"]}
{"id": "C48", "title": "Coupon expectation", "statement": "The coupon expected probability for length i is, within relative error 2^-48, the exact probability that a uniform d-coupon collector finishes at draw i (the fraction of the d^i sequences completing exactly at their last draw), as long as the Stirling number fits into 64 bits - which always is the case for the five coupons used.", "quantifier": "every i and d", "why_tests_cant": "infinitely many", "anchors": ["core/src/statistics/coupon.h:expected_probabilities", "core/src/util/math.h:stirling_second_kind"]}
{"id": "C49", "title": "Stirling numbers", "statement": "stirling_second_kind(n,k) counts the partitions of n elements into k non-empty blocks (modulo 2^64).", "quantifier": "every n and k", "why_tests_cant": "infinitely many", "anchors": ["core/src/util/math.h:stirling_second_kind"]}
{"id": "C50", "title": "Kolmogorov-Smirnov distance", "statement": "The KS statistic equals the supremum distance between the empirical distribution of the sample and the uniform distribution within 2^-53, is exactly the same for every order of the sample and every correct sort, and yields a valid p-value.", "quantifier": "every finite sample in [0,1]", "why_tests_cant": "continuum of samples and points", "anchors": ["core/src/statistics/kolmogorov.h"]}
{"id": "C51", "title": "Markdown escaping", "statement": "escape_for_md prefixes exactly the markdown special characters of the input with one backslash and changes nothing else; replace_all replaces all non-overlapping occurrences left to right and terminates.", "quantifier": "every string", "why_tests_cant": "unbounded strings", "anchors": ["core/src/util/algo.h:escape_for_md", "core/src/util/algo.h:replace_all"]}
{"id": "C52", "title": "Joining and containment", "statement": "join concatenates the non-empty parts separated by single delimiters; contains is exact substring search; contains_ignore_case finds non-empty patterns up to the case of letters. (The empty pattern is found, ignoring case, in every string but the empty one.)", "quantifier": "all string lists", "why_tests_cant": "unbounded strings", "anchors": ["core/src/util/algo.h:join", "core/src/util/algo.h:contains_ignore_case"]}
{"id": "C53", "title": "Table layout", "statement": "A table of two or more columns renders header and rows in order, each cell padded to the width of the widest cell of its column plus two, so that columns are aligned; a row one cell short gets an empty cell, an empty row is dropped; a one-column table and a cell too many are undefined.", "quantifier": "every table content", "why_tests_cant": "unbounded content", "anchors": ["core/src/util/table.h:table"]}
{"id": "C54", "title": "Binary file round trip", "statement": "Reading back words written by write_binary returns the same words, for every history of appends and after a write cut short at any byte (then a prefix); reading drops only an incomplete last word and never returns more than requested. (In a release build a missing file is not reported: the caller gets an exception that is not handled or, with a maximum, that many zeros.)", "quantifier": "every word list and file content", "why_tests_cant": "unbounded contents", "anchors": ["core/src/util/fileutil.h:read_binary_must_exist_skip_remainder", "core/src/util/fileutil.h:write_binary"]}
{"id": "C55", "title": "Image output size", "statement": "write_ppm emits, row by row, the values of its function, each as its bytes, lowest first, three times each: 3*sizeof(T) bytes per value. So the payload matches the declared width*height*3 bytes exactly for one-byte types; the ppm command's 512x512 image of 32-bit values is four times too long, and for a one-byte type a height of 256 or more never ends.", "quantifier": "every dimension and pixel type", "why_tests_cant": "all sizes", "anchors": ["core/src/util/ppm.h:write_ppm"]}
{"id": "C56", "title": "Search terminates and never worsens the seed", "statement": "run_sffs terminates for every schedule and every fitness function with finite values below DBL_MAX (with a non-negative lower bound and a seed of the configured size); its result has the seed's size, a score equal to the fitness of its data, and no vector evaluated during the search - in particular not the seed - has a better score. With a negative lower bound, or a fitness that is never below DBL_MAX, it runs into undefined behaviour.", "quantifier": "every fitness function, seed and schedule", "why_tests_cant": "function space is unbounded", "anchors": ["tool/src/util/sffs.h:run_sffs"]}
{"id": "C57", "title": "Searched mixers are bijective exactly when configured so", "statement": "The xmx/xm2x/xm3x constructions are bijections exactly for non-zero in-range shifts and odd multipliers (for 16-bit words also a multiplier of at most 2^15, beyond which the signed multiplication overflows); the constants decoded from a search bit vector are exactly the encoded fields.", "quantifier": "all constants and words", "why_tests_cant": "the domain is all 2^w words (2^64 at the widest) for every rotation/shift, far beyond enumeration", "anchors": ["tool/src/search/mixer_constructions.h"]}
{"id": "C58", "title": "Seed generation", "statement": "generate_seeds(n), for n up to 2^w, terminates and returns max(n, 2w) seeds with distinct primary words in ascending order containing all rrc permutations of 1, and with pairwise distinct secondary words; create_prng_test_setup uses 4w seeds with pairwise distinct non-zero primary words. For n negative or above 2^w it never ends.", "quantifier": "every n", "why_tests_cant": "unbounded n", "anchors": ["tool/src/util/test_setups.h:generate_seeds", "tool/src/util/test_setups.h:create_prng_test_setup"]}
{"id": "C59", "title": "Evenly seeded streams do not overlap", "statement": "create_evenly_seeded_stream starts sample i at i*(size/sample_count): segments read by different samples are disjoint as long as each sample reads at most size/sample_count values, and may overlap beyond; with fewer values than samples all samples are the same.", "quantifier": "every data size and sample count", "why_tests_cant": "unbounded", "anchors": ["tool/src/util/test_setups.h:create_evenly_seeded_stream"]}
{"id": "C60", "title": "Test lookup is total on the default tests", "statement": "get_test_definition returns the one definition with the requested type, for every test type; names are unique; each definition has exactly one of a stream and a mixer test, and mixer tests (sac, bic) give jobs only for mixer setups.", "quantifier": "every test type and setup", "why_tests_cant": "finite but combined with all setups", "anchors": ["core/src/test_definitions.h:get_tests", "core/src/test_definitions.h:get_test_definition", "core/src/evaluate.h:create_test_jobs"]}
{"id": "C61", "title": "Median", "statement": "get_median of a sorted non-empty sequence returns the middle element for an odd length and the mean of the two middle elements, rounded down, for an even length, for all words of at most 32 bits; it is undefined for an empty sequence; for 64-bit words the even case is refuted (rounded, or out of range).", "quantifier": "every sequence", "why_tests_cant": "unbounded lengths, rounding", "anchors": ["core/src/statistics/basic.h:get_median"]}
{"id": "C62", "title": "Histogram drawing", "statement": "draw_histogram counts every value of [0,1] in one of its 30 lines, draws a star exactly for non-empty lines, in an order-preserving way, one star per value while no line has more than 80 values, and never more than 81 stars; the intended 80-star limit is refuted (147 equal values draw 81).", "quantifier": "every histogram", "why_tests_cant": "unbounded", "anchors": ["core/src/format_result.h:draw_histogram"]}
{"id": "C63", "title": "Derived pair data sets", "statement": "create_bit_flipped_xy pairs the mixer output of each drawn value with the mixer applied to that output with each of its w bits flipped (not to the flipped input); create_serial_xy_by_ref pairs drawn value 2i with drawn value 2i+1 and consumes exactly 2n values; nothing else is produced.", "quantifier": "every data sequence", "why_tests_cant": "unbounded", "anchors": ["core/src/util/algo.h:create_bit_flipped_xy", "core/src/util/algo.h:create_serial_xy_by_ref", "core/src/util/algo.h:isolate_bit_by_ref"]}
{"id": "C64", "title": "Generators built from a bijective mixer are purely periodic", "statement": "create_prng_from_mixer with a bijective mixer yields a generator whose output sequence is purely periodic from the first value, with period at most 2^w; no value outside the cycle of the seed is ever produced.", "quantifier": "every bijective mixer and seed", "why_tests_cant": "function space and infinitely many calls", "anchors": ["core/src/prng.h:create_prng_from_mixer"]}
{"id": "C65", "title": "Gap probabilities", "statement": "For both half intervals, generate_gap_probabilities yields exactly 1/2, 1/4, ..., 1/128 and a last tail entry 1/128, which sum to 1; for an empty interval it never returns.", "quantifier": "every interval and pow implementation exact on powers of one half", "why_tests_cant": "real-valued arithmetic and an unbounded loop", "anchors": ["core/src/statistics/gap.h:generate_gap_probabilities"]}
{"id": "C66", "title": "Binomial coefficients", "statement": "binomial_coefficient(n,k) is exact whenever 12*k*C(n,k) < 2^53 (hence for all rows used with 8, 16 and 32 bit words), 0 for k > n, and otherwise has a relative error of at most 6k/2^53 (plus the final rounding); exactness is refuted for row 64.", "quantifier": "every n and k", "why_tests_cant": "accumulated rounding over unbounded loops", "anchors": ["core/src/statistics/distributions.h:binomial_coefficient"]}
{"id": "C67", "title": "z tests: existence, range and symmetry", "statement": "The runs statistic exists exactly if both kinds of values occur and there are at least three of them, the mean statistic exactly for non-empty data; both have a finite score equal to the stated formula up to a stated rounding error, a p-value in [0,1] that does not depend on the sign of the score and does not grow with its size, and as many degrees of freedom as values.", "quantifier": "every data sequence, every erfc into [0,1]", "why_tests_cant": "unbounded data, rounding", "anchors": ["core/src/statistics/tests.h:z_test", "core/src/statistics/run.h:runs_stats", "core/src/statistics/basic.h:mean_test", "core/src/statistics/distributions.h:normal_two_tailed_cdf"]}
{"id": "C68", "title": "Test input sources", "statement": "The mixer test feeds the 4w rotations/reversals/complements of the counter; the combiner test feeds 3 + 12w streams: (x,0) accumulated, (0,i), (i,0), and for every kind and rotation the pairs (a,a+1), (a,a), (a,2-a), both arguments permuted alike.", "quantifier": "every word width, combiner, stream index and position in the stream", "why_tests_cant": "streams are infinite and there are hundreds of them per width", "anchors": ["tool/src/util/stream_sources.h:create_sources", "tool/src/util/stream_sources.h:create_combiner_sources"]}
{"id": "C69", "title": "128-bit linear generators have maximal period", "statement": "From any seed words that are not all zero, xorshift128+, xoroshiro128+, xoshiro128+ and xoshiro128++ run through all 2^128 - 1 non-zero states in one cycle: two states are equal exactly if their positions agree modulo 2^128 - 1. Per cycle each non-zero output value occurs exactly 2^64 (32-bit generators: 2^96) times and zero one time less, and 2^128 - 1 is the least period of the output sequence itself.", "quantifier": "every non-zero seed, every position", "why_tests_cant": "2^128 states", "anchors": ["impl/src/prngs64.h:xorshift128plus", "impl/src/prngs64.h:xoroshiro128plus", "impl/src/prngs32.h:xoshiro128plus", "impl/src/prngs32.h:xoshiro128plusplus"]}
{"id": "C70", "title": "Test report", "statement": "The -test command writes, per word size, a markdown file whose header is followed by one row per subject in a fixed order (data files, mixers, generators, combiners): escaped name, the power of two of samples at which the run ended ('>' if it did not fail), and the failed tests, which are listed exactly if the run failed. Each run covers 2^10 samples up to its last power or first failure. With the debug flag nothing is written; other files are never touched; after a crash the file is the old content or a prefix of the new one made of the header, complete rows and at most one partial row.", "quantifier": "every set of subjects, test results with valid p-values, thread schedule and crash point", "why_tests_cant": "unbounded sets of subjects and results; crash points between and inside writes", "anchors": ["tool/src/command/test_command.h:test_command", "tool/src/command/test_command.h:create_result_callback", "core/src/util/fileutil.cpp:write_append"]}
{"id": "C71", "title": "Per-test power table", "statement": "After each test the per-test table is rewritten with sorted distinct rows: for every subject the power at which it failed that test alone, or '>' and the last power; the score row holds the sum of 26 - power over failing subjects; columns of tests not yet run are empty. The mean test never shows '>' because it has no results above 2^20 samples: a subject that does not fail it has an empty cell.", "quantifier": "every set of subjects, results and schedule", "why_tests_cant": "unbounded sets of subjects and results", "anchors": ["tool/src/command/inspect_test_command.h:inspect_test_per_test_command", "tool/src/command/inspect_test_command.h:write"]}
{"id": "C72", "title": "Inspecting the tests", "statement": "inspect_test judges each source by a run of its own and returns the passing and failing ones in order; a source without results in its last battery is in neither list. For each test a PASS line is printed if no source has the wrong verdict (or exactly four for the runs test on sources that should fail), else one FAIL line per offending source; mixer tests are skipped for sources that should pass. For the mean test on sources that should fail the PASS is vacuous: it is printed whatever the sources are.", "quantifier": "every source list, test list and result", "why_tests_cant": "unbounded source lists and results", "anchors": ["tool/src/command/inspect_test_command.h:inspect_test", "tool/src/command/inspect_test_command.h:inspect_tests"]}
{"id": "C73", "title": "Search fitness", "statement": "The fitness of a run that ended at 2^p samples is a finite number between stop - p and stop - p + 2, so a run that gets at least three powers further always scores strictly better and one that gets two further never worse; one power further can score worse (refuted). An empty range of powers is undefined behaviour.", "quantifier": "every battery of results with valid p-values, every range", "why_tests_cant": "real-valued p-values, unbounded results", "anchors": ["tool/src/util/sffsutils.h:get_score", "tool/src/util/sffsutils.h:sffs_fitness_test"]}
{"id": "C74", "title": "Exhaustive search", "statement": "The exhaustive search tries 1584 distinct shift triples, each a bijective mixer of 32-bit words, evaluates every one and prints the 21 highest powers reached in decreasing order.", "quantifier": "every platform, result and sort implementation", "why_tests_cant": "2^32 words per mixer; arbitrary results", "anchors": ["tool/src/command/exhaust_command.h:exhaust_command"]}
{"id": "C75", "title": "Command line", "statement": "The program exits with 1, running nothing, exactly if it does not get two arguments or the command is unknown; otherwise it runs the parts of the command in order up to the first one that throws a runtime error, and exits with 0 even then.", "quantifier": "every argument list and every pattern of failures", "why_tests_cant": "unbounded argument lists", "anchors": ["tool/src/main.cpp:main"]}
{"id": "C76", "title": "Uniform test", "statement": "The uniform test of n w-bit words counts every word in one of 2^k equally likely bins (k = min(K,w), 2^K between 2 n^0.4 and about twice that) given, up to 32 bits, by the k highest bits, and reports the chi-square statistic of these counts against n/2^k each with 2^k - 1 degrees of freedom, correct up to a stated rounding error.", "quantifier": "every stream of words, every n up to 2^53, every word size, every C library of the stated accuracy", "why_tests_cant": "unbounded streams; real-valued accuracy", "anchors": ["core/src/statistics/uniform.h:uniform_test", "core/src/statistics/chi2.h:chi2_uniform_stats", "core/src/statistics/chi2.h:bin_count_pow2"]}
{"id": "C77", "title": "Gap test", "statement": "The gap test cuts the values at those in the lower half (and, second result, at those in the upper half), tallies the lengths of the pieces 1..7 and longer, and compares them with n/2 pieces halving from length to length; both results '1/2' and '2/2' are reported exactly from 42 values on.", "quantifier": "every stream, every n up to 2^53, every word size", "why_tests_cant": "unbounded streams", "anchors": ["core/src/statistics/gap.h:gap_test", "core/src/statistics/gap.h:gap_sub_test"]}
{"id": "C78", "title": "Coupon test", "statement": "The coupon test cuts the values into segments that just collect all five coupons, tallies their lengths 5..28 and longer, and compares them with 12n/137 segments times the exact share of words of that length over five letters that are completed by their last letter; the shares add up to 1, and from 110 values on there is a result.", "quantifier": "every stream of words, every n up to 2^53, every word size", "why_tests_cant": "counting arguments over 5^28 words; unbounded streams", "anchors": ["core/src/statistics/coupon.h:coupon_test", "core/src/statistics/coupon.h:coupon_stats"]}
{"id": "C79", "title": "Divisibility test", "statement": "The divisibility test cuts the values into segments that end with the fifth even number, tallies their lengths 5..19 and longer, and compares them with floor(n/10) segments times the exact negative binomial probabilities (the share of bit sequences of that length whose fifth one is at the end); it reports 'd2' exactly from 1000 values on.", "quantifier": "every stream, every n up to 2^44", "why_tests_cant": "unbounded streams", "anchors": ["core/src/statistics/divisibility.h:divisibility_test"]}
{"id": "C80", "title": "Permutation test", "statement": "The permutation test cuts the bits of the values into windows whose size is chosen such that each of the 2^size windows is expected between 28 and 95 times, counts them (in bytes that stop at 255) and compares the counts with floor(n w/size)/2^size each.", "quantifier": "every stream, every n and w with 8192 <= n w <= 2^53", "why_tests_cant": "window size from an approximation of Lambert's W for unbounded n", "anchors": ["core/src/statistics/permutation.h:permutation_test", "core/src/statistics/permutation.h:get_permutation_size"]}
{"id": "C81", "title": "Strict avalanche criterion", "statement": "For every value and every input bit the test counts how many output bits of the mixer change when that bit of the (once mixed) value is flipped, and compares these counts with n w times the binomial distribution of w fair coins; from 8w values on there is a result.", "quantifier": "every word stream, every mixer of words, every n with n w <= 2^53", "why_tests_cant": "2^w inputs; unbounded streams", "anchors": ["core/src/statistics/avalanche.h:sac_test", "core/src/statistics/avalanche.h:avalanche_sac_stats"]}
{"id": "C82", "title": "Bit independence", "statement": "The bit independence test compares, for every input bit j and output bit k, twice the number of values for which flipping j changes k with n; a perfect avalanche (every count exactly n/2) gives the value 0.", "quantifier": "every word stream, every mixer of words, every n up to 2^52", "why_tests_cant": "2^w inputs; unbounded streams", "anchors": ["core/src/statistics/avalanche.h:avalanche_mixer_bic_test", "core/src/statistics/avalanche.h:avalanche_bic_stats"]}
{"id": "C83", "title": "Binary rank test", "statement": "The binary rank test fills p x p matrices over GF(2), p the largest power of two that leaves about 954 matrices, once with all bits of the values and once with the lowest bit of each, and compares the numbers of matrices by rank with the exact numbers of GF(2) matrices of that rank (error bound stated); both results are always reported.", "quantifier": "every stream, every n with 955 <= n w <= 2^53", "why_tests_cant": "2^(p*p) matrices; unbounded streams", "anchors": ["core/src/statistics/binary_rank.h:binary_rank_test"]}
{"id": "C84", "title": "Linear complexity test", "statement": "Below 8192 values the linear complexity test reports nothing; otherwise it compares the linear complexities of 1024 (up to 1151) blocks of floor(n/1024) lowest bits with the exact numbers of bit sequences by linear complexity.", "quantifier": "every stream, every n up to 2^53", "why_tests_cant": "2^bs sequences; unbounded streams", "anchors": ["core/src/statistics/linear_complexity.h:linear_complexity_test"]}
{"id": "C85", "title": "Serial avalanche test", "statement": "The serial avalanche test pairs consecutive values; for each c < w the pairs whose first value has c ones are tallied by the number of ones of the second value, compared with n pairs of 2 w fair coins after merging bins until 5 are expected, and reported as bit(c) unless fewer than 35% of the bins remain.", "quantifier": "every word stream, every n up to 2^53, every word size", "why_tests_cant": "unbounded streams", "anchors": ["core/src/statistics/serial_avalanche.h:serial_avalanche_test"]}
{"id": "C86", "title": "Tests never fail", "statement": "For 1024 up to 2^26 values none of the twelve default tests runs into undefined behaviour, and every p-value they report is a number in [0,1].", "quantifier": "every word stream, every mixer of words, every n from 1024 to 2^26, every word size", "why_tests_cant": "unbounded streams; undefined behaviour is invisible to tests", "anchors": ["core/src/test_definitions.h:get_tests"]}
{"id": "C87", "title": "Battery verdict", "statement": "With the default tests, on any sources and mixer of w-bit words, the verdict at every power of two from 2^10 to 2^26 is defined and the same for every number of threads and every schedule; the report of the test command is written without undefined behaviour, with one row for each subject in order; the project's mixers and sources are such subjects.", "quantifier": "every schedule, number of threads, word sources and mixer", "why_tests_cant": "all thread interleavings; unbounded streams", "anchors": ["core/src/evaluate.h:evaluate", "tool/src/command/test_command.h:test_command", "core/src/test_definitions.h:get_tests"]}
{"id": "C88", "title": "Chi-square probability", "statement": "For every finite statistic x >= 0 and every whole number of degrees of freedom from 1 to 2^53 the chi-square p-value is a number in [0,1]: never NaN, infinite or outside the range, although it is computed in doubles with a truncated series, a continued fraction and a logarithm of the gamma function. With it all default tests, at 2^10 to 2^26 values, give p-values in [0,1], and the report of the test command is defined.", "quantifier": "every finite double x >= 0, every whole number of degrees of freedom, every C library with log accurate to 2^-40", "why_tests_cant": "2^62 statistics times 2^53 degrees of freedom; rounding errors", "anchors": ["core/src/statistics/distributions.h:chi2_distribution_cdf", "core/src/statistics/distributions.cpp:gamma_regularized", "core/src/statistics/distributions.cpp:kf_gammap", "core/src/util/math.cpp:log_gamma"]}
{"id": "C89", "title": "Perfect agreement", "statement": "A chi-square statistic of 0 gives the p-value 1 exactly, for every number of degrees of freedom below 1100000.", "quantifier": "every number of degrees of freedom", "why_tests_cant": "a million cases", "anchors": ["core/src/statistics/distributions.h:chi2_distribution_cdf"]}
{"id": "C90", "title": "Granularity of p-values", "statement": "Every chi-square p-value is a multiple of 2^-53: a p-value is either exactly 0 or at least 2^-53 (1.1e-16), so evidence stronger than that is reported as 0.", "quantifier": "every finite statistic and whole number of degrees of freedom", "why_tests_cant": "2^62 statistics", "anchors": ["core/src/statistics/distributions.h:chi2_distribution_cdf", "core/src/statistics/distributions.cpp:gamma_regularized"]}
{"id": "C91", "title": "Chi-square direction", "statement": "A chi-square statistic below its degrees of freedom never gives a p-value under 0.007 (no alarm), and one of at least 4 times the degrees of freedom plus 200 always gives at most 1e-14 (alarm), for fewer than 1100000 degrees of freedom.", "quantifier": "every finite statistic, every number of degrees of freedom below 1100000", "why_tests_cant": "2^62 statistics times a million degrees of freedom", "anchors": ["core/src/statistics/distributions.h:chi2_distribution_cdf", "core/src/statistics/distributions.cpp:kf_gammap"]}
{"id": "C92", "title": "Stuck bits and few values are found", "statement": "If the highest bit of all words is the same, or if the n words have at most n^0.4 different values (such as a generator with a period that short) and no more than half of all words, the uniform test reports a p-value of at most 1e-14.", "quantifier": "every such stream of 8, 16, 32 or 64 bits, every n from 1024 to 2^26", "why_tests_cant": "unbounded streams; only samples of them can be tried", "anchors": ["core/src/statistics/uniform.h:uniform_test", "core/src/statistics/chi2.h:chi2_uniform_stats"]}
{"id": "C93", "title": "Linear mixers are found", "statement": "For a mixer made of xors, shifts, rotations and constants (affine over GF(2)), and for one made of additions, multiplications and left shifts (the lowest k output bits depend on the lowest k input bits), the bit independence test reports a p-value of at most 1e-14, whatever the input stream; with 4w^2+200 samples a single pair of an input bit and an output bit that always or never changes with it is enough.", "quantifier": "every such mixer, every word stream, every n from 1024 to 2^26", "why_tests_cant": "2^(w 2^w) mixers", "anchors": ["core/src/statistics/avalanche.h:avalanche_mixer_bic_test"]}
{"id": "C94", "title": "Feedback registers are found", "statement": "If the lowest bits of the words follow a linear recurrence of length below n/2048 (a feedback register, a short period, a counter, a linear congruential generator), the linear complexity test reports a p-value of at most 1e-14.", "quantifier": "every such stream, every recurrence, every n from 8192 to 2^26", "why_tests_cant": "unbounded streams", "anchors": ["core/src/statistics/linear_complexity.h:linear_complexity_test"]}
{"id": "C95", "title": "A stuck lowest bit is found", "statement": "If all words are even, or all are odd, the divisibility test on 4096 or more words reports a p-value of at most 1e-14.", "quantifier": "every such stream, every n from 4096 to 2^26", "why_tests_cant": "unbounded streams", "anchors": ["core/src/statistics/divisibility.h:divisibility_test"]}
{"id": "C96", "title": "Defects make the battery fail", "statement": "If one of the sources (after mixing) has one of these defects, or the mixer has, and the test that finds it is requested, the battery's verdict is a failure, for every number of threads, every schedule and whatever the other sources and tests give.", "quantifier": "every setup, source, mixer, power of two (10 to 26; 15 for divisibility and bit independence; by register length for linear complexity) and schedule", "why_tests_cant": "all schedules and sources", "anchors": ["core/src/evaluate.h:evaluate", "core/src/test_definitions.h:get_tests", "core/src/util/statistic_analysis.h"]}
{"id": "C97", "title": "Linear generators fail", "statement": "The lowest bits of xorshift (64, 32 and 32 of 64 bits), xorshift128+, xoroshiro128+ and xoshiro128+ come from a feedback register of as many bits as the state; tested with the seeds and streams of the tool they fail from 2^24, 2^23, 2^24, 2^26, 2^26 and 2^26 samples on.", "quantifier": "every seed, every schedule", "why_tests_cant": "2^128 states; needs gigabytes of samples per run", "anchors": ["impl/src/prngs64.h", "impl/src/prngs32.h", "tool/src/util/test_setups.h:create_prng_test_setup"]}
{"id": "C98", "title": "Kendall's rank correlation", "statement": "For at least two points the statistic exists exactly if neither coordinate is constant; its score is Kendall's tau-b (concordant minus discordant pairs over the geometric mean of the numbers of untied pairs) over sqrt((4n+10)/(9n(n-1))), up to 48 roundings, its p-value in [0,1] is the two-sided normal one. Only the order of the values counts, not their sizes, the order of the points or which coordinate comes first; reversing the order of one coordinate negates the score and keeps the p-value. The test of a stream takes blocks of at most 10000 points of two successive words.", "quantifier": "every pair of equally long lists of up to 2^26 doubles of usual size, every stream and sample count, every erfc into [0,2]", "why_tests_cant": "unbounded lists; rounding", "anchors": ["core/src/statistics/correlation.h:kendall_correlation_stats", "core/src/statistics/correlation.h:kendall_correlation_test", "core/src/util/algo.h:create_serial_xy_by_ref"]}
{"id": "C99", "title": "Pearson's correlation", "statement": "With at least three points from the unit square the statistic exists and has a finite score and a p-value in [0,1]: rounding never takes the coefficient to a value with infinite or undefined Fisher transform. For coordinates of variance at least 1/32 and a coefficient of at most 1/2 the score is artanh(r) sqrt((n-3)/adjustment) with a stated error; it is the same, bit by bit, with exchanged coordinates; constant data give score 0 and p-value 1; identical coordinates a score of at least 18 sqrt((n-3)/adjustment). The test of a stream gives such results for every block.", "quantifier": "every pair of equally long lists of 3 to 10^6 doubles in [0,1], every stream and sample count, every atanh accurate to 2^-46", "why_tests_cant": "rounding of unboundedly long sums", "anchors": ["core/src/statistics/correlation.h:pearson_correlation_stats", "core/src/statistics/correlation.h:adjust_correlation", "core/src/util/math.h:fishers_transformation_safe"]}
{"id": "C100", "title": "Spearman's rank correlation", "statement": "For lists of different values the score is finite, the p-value lies in [0,1] and only the order of the values counts; for points sorted by x the score is the Fisher transform of Spearman's coefficient times sqrt((n-3)/1.06) with a stated error. In general it is that of the two lists of sorted positions instead of ranks, so that it depends on the order of the points: two orders of the same four points give scores of opposite sign (refuted: independence of the order).", "quantifier": "every pair of equally long lists of 3 to 10^6 different doubles, every sort, every atanh accurate to 2^-46", "why_tests_cant": "all orders of unboundedly many points", "anchors": ["core/src/statistics/correlation.h:spearman_correlation_stats", "core/src/util/algo.h:get_ranks", "core/src/util/algo.h:rescale_to_01"]}
{"id": "C101", "title": "Incomplete beta function", "statement": "For arguments that are multiples of 1/2 (all that the t test and the F test use) the regularized incomplete beta function ends after at most one exchange of its arguments, for every x; it is 0 at 0, 1 at 1, and infinite outside [0,1] and for NaN. For other arguments it need not end: a=1+2^-52, b=1+5*2^-52, x=1/2-2^-53 is exchanged for ever (refuted: termination).", "quantifier": "every double x (also NaN and infinities), all multiples of 1/2 up to 2^52 (1200000 for the values)", "why_tests_cant": "2^64 values of x; non-termination cannot be observed", "anchors": ["core/src/statistics/distributions.cpp:beta_regularized"]}
{"id": "C102", "title": "t test", "statement": "The t test always ends, its p-value does not depend on which sample comes first (bit by bit, for all arguments), equal means give the p-value 1 exactly. Two constant samples give 0 for different means, and an infinite p-value for equal means (refuted: p-values are numbers in [0,1]).", "quantifier": "every sample size, mean and variance", "why_tests_cant": "2^256 arguments", "anchors": ["core/src/statistics/tests.h:t_test", "core/src/statistics/distributions.h:student_t_distribution_cdf"]}
{"id": "C103", "title": "F test", "statement": "The F test always ends, its result does not depend on which sample comes first if the variances differ; a constant and a varying sample give 0, two constant samples infinity. Two samples of 100001 values with the same variance give infinity instead of a probability, because the continued fraction needs more than its 200 steps (refuted: p-values are numbers).", "quantifier": "every sample size and variance", "why_tests_cant": "2^128 arguments", "anchors": ["core/src/statistics/tests.h:f_test", "core/src/statistics/distributions.h:f_distribution_cdf"]}
{"id": "C104", "title": "Fisher's method", "statement": "Combining up to 2^47 probabilities by Fisher's method gives a probability. With up to 2^19 of them the result is at most 1e-14 if -2 times the sum of their logarithms (zeros counted as 1e-16) is at least 8n+201, at least 0.007 if that sum is at most 2n-1, and exactly 1 for up to 550000 ones. For no probabilities at all the result is 0 (refuted: no evidence is no alarm).", "quantifier": "every list of probabilities (doubles in [0,1]), every C library with log and exp of stated accuracy", "why_tests_cant": "unbounded lists, rounding", "anchors": ["core/src/statistics/fishersmethod.h:fishers_combined_probabilities", "core/src/util/math.h:log_safe", "core/src/statistics/distributions.h:chi2_distribution_cdf"]}
{"id": "C105", "title": "Cumulative binomial probability", "statement": "binomial_cdf returns a number in [0,1] that does not decrease with the number of successes and no longer changes from the number of trials on. Up to 4096 trials and for p from 2^-33 to 1-2^-33 it is the probability of at most k successes with an error of at most 2^-23. From 2^31-1 successes on its loop counter overflows (undefined behaviour). For certain success it is 0 although it should be 1 (refuted).", "quantifier": "every number of trials below 2^32, every number of successes below 2^31-1, every double p in [0,1], every C library with log accurate to 2^-40, exp >= 0 and pow of probabilities in [0,1]", "why_tests_cant": "2^32 * 2^31 * 2^62 arguments, rounding", "anchors": ["core/src/statistics/distributions.cpp:binomial_cdf", "core/src/util/math.h:stirling"]}
{"id": "C106", "title": "G test", "statement": "The G test has a result exactly if at least two bins are used, with one degree of freedom less than used bins; its statistic is 2 * sum o ln(o/(e*O/E)) over the used bins up to a stated error, and its p-value is a probability if the statistic is not below that error; counts that are exactly the expected ones give 0 and 1. Empty bins are left out, so that all values in two of many bins pass perfectly, and rounding can make the statistic negative and the p-value NaN (refuted: p-values are probabilities).", "quantifier": "every list of bins (counts up to 2^53, usual expectations), every threshold, every C library with log accurate to 2^-40", "why_tests_cant": "unbounded lists, rounding", "anchors": ["core/src/statistics/g_test.h:g_test_stats", "core/src/statistics/distributions.h:chi2_distribution_cdf"]}
{"id": "C107", "title": "Anderson-Darling test", "statement": "The Anderson-Darling test of n numbers from [0,1] has no result exactly for n = 0, depends neither on their order nor on the sort, its statistic is the formula (logarithms cut at 1e-16) up to 2^-36 n + 2^-45 n^2, and up to 10000 numbers its p-value is a number in [0,1]. However far the data are from uniform p stays between 0.0004/n and 0.0008/n for a statistic above 33: it never becomes smaller. From 46341 numbers on an int product overflows if the statistic is at most 1/5 (undefined behaviour), and the statistic 0 gives NaN (refuted: p-values are numbers).", "quantifier": "every list of doubles in [0,1] (sizes as stated), every sort, every C library with log and exp of stated accuracy", "why_tests_cant": "unbounded lists, rounding; undefined behaviour is invisible to tests", "anchors": ["core/src/statistics/andersondarling.h:anderson_darling_stats", "core/src/statistics/distributions.cpp:anderson_darling_cdf", "core/src/statistics/distributions.cpp:AndersonDarlingInf", "core/src/statistics/distributions.cpp:AndersonDarlingErrFix"]}
{"id": "C108", "title": "Printed mixers", "statement": "The C++ code that the search prints for a found mixer computes the mixer that was tested, for the xmx and xm3x configurations with 16, 32 and 64 bits, and for xm2x with a multiplier below 2^31 (or below 2^63 with 64 bits); the printed list of constants determines the constants; every solution of the configuration's number of bits can be printed. The printed xm2x code with a 32-bit multiplier above 2^31 overflows a signed type for some words and with a 64-bit one from 2^63 on is no legal literal; with 8 bits the numbers are printed as characters (refuted: the code is the mixer).", "quantifier": "every solution of the search, every word of 16, 32 or 64 bits", "why_tests_cant": "2^88 solutions times 2^64 words; undefined behaviour and the text's meaning are invisible to tests", "anchors": ["tool/src/search/search_configs.h:get_xmx_config", "tool/src/search/search_configs.h:get_xm2x_config", "tool/src/search/search_configs.h:get_xm3x_config"]}
{"id": "C109", "title": "minstd_rand", "statement": "From every seed the generator made of std::minstd_rand returns every number from 1 to 2^31-2 exactly once in 2^31-2 calls and then repeats. Its highest bit (bit 31 of the 32-bit word) is therefore always 0: the uniform test reports a p-value of at most 1e-14, and with the seeds and streams of the tool it fails from 2^10 samples on.", "quantifier": "every seed, every n from 1024 to 2^26, every number of threads and schedule", "why_tests_cant": "2^32 seeds and two thousand million calls", "anchors": ["impl/src/prngs32.h:minstd_rand", "impl/src/prngs32.h:get_prngs"]}
{"id": "C110", "title": "mt19937", "statement": "The generator made of std::mt19937 is reversible on its 19937 bits of state, so from every seed its outputs are periodic from the first on (period at most 2^19937), and never 624 consecutive ones are zero; the tempering is a bijection of the words. Every bit of its outputs satisfies a linear recurrence of length 19968, and the linear complexity test finds it from 40895488 words on.", "quantifier": "every seed, every call", "why_tests_cant": "states of 19937 bits", "anchors": ["impl/src/prngs32.h:mt19337", "impl/src/prngs32.h:get_prngs"]}
{"id": "C111", "title": "AES generators", "statement": "The mixing function of the AES generator of 32 bits is a bijection, and words that differ in one byte only are mapped to words that differ in all four bytes; the outputs are periodic from the first on for every seed. The generator with 128 bits loses nothing of its state in a call, so its outputs are periodic from the first on too.", "quantifier": "every word, every seed, every call", "why_tests_cant": "2^128 states", "anchors": ["impl/src/external/aes/aes.cpp:aes_mix", "impl/src/external/aes/aes.cpp:aes_prng128", "impl/src/prngs32.h:aes", "impl/src/prngs32.h:aes_128"]}
{"id": "C112", "title": "Stirling numbers", "statement": "stirling_second_kind(n,k) is the number of partitions of n elements into k blocks modulo 2^64, exactly that number for up to 26 elements (refuted from 27 on: 27 elements and 10 blocks), and 0 for negative k.", "quantifier": "every n >= 0, every k", "why_tests_cant": "unbounded; the count of partitions is no formula", "anchors": ["core/src/util/math.h:stirling_second_kind"]}
