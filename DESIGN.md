# Formal model of jonmaiga/tests-for-randomness — design

Source under study: `/repo` (C++20, read as text only).  Proof assistant: Coq 8.16.1.

## Layout

* `rocq/theories/<Area>Model.v` – Gallina definitions transcribing the C++; each definition cites file and lines.
* `rocq/theories/<Area>Spec.v`  – small independent specification vocabulary (bit positions, maximal runs,
  shortest LFSR, permutation of results, ...), not using the model's helpers.
* `rocq/theories/<Area>Proofs.v` – the proofs.
* `rocq/theories/Prop_<Area>.v` – only the property theorems, each `exact`ing a lemma, `Print Assumptions`
  beneath, and an `Example` exhibiting a concrete non-trivial instance.

## Conventions

* A `w`-bit unsigned C++ word is an `N` smaller than `2^w`; arithmetic is written with an explicit `mod 2^w`.
  Widths are 8, 16, 32, 64; theorems that hold for every width are stated for every width.
* Undefined behaviour is an explicit outcome: `outcome A := Ok a | UB`.  `assertion(c, msg)` in the code does
  not abort (Release: nothing, Debug: prints), so it never guards anything in the model.
* Integer promotion is modelled where it matters (`uint8_t`/`uint16_t` operands are promoted to a 32-bit `int`,
  so e.g. `uint16_t * uint16_t` may be signed overflow, i.e. UB).
* A `stream<T>` (a copyable `std::function` with value-captured state) is a state machine
  `{ state; step : state -> state * T }`; copying it copies the state.
* `std::map`/`std::set` are modelled by sorted association lists / sorted lists.
* Floating point: where the property concerns rounding, IEEE binary64 via Flocq; otherwise the real-number (`R`)
  or rational (`Q`) value of the formula is modelled and this is said at the definition.
* Threads: interleaving semantics (each step of some thread is one atomic action; lock-protected sections
  are atomic).  Sequential consistency is assumed.

## Plan per property

* **C01 Rotations permute bits** – area Bitwise: rotl/rotr as shift-or on N; testbit characterisation, unbounded in w.
* **C02 Bit reversal is the exact mirror image** – area Bitwise: masks-and-shifts transcription; proof by GF(2)-linearity on bit basis (symbolic testbit evaluation).
* **C03 Byte swapping mirrors the bytes** – area Bitwise: as C02; memory representation as list of bytes for byteswap.
* **C04 Power of two rounding** – area Bitwise: countl_zero through N.size; UB outcome for over-wide shifts.
* **C05 Single-bit access** – area Bitwise: testbit lemmas.
* **C06 Bit traversal visits every bit once, in order** – area Bitwise: callbacks as emitted lists; induction over data.
* **C07 bit_vector behaves as a sequence of bits** – area BitVector: refinement to list bool over every operation list.
* **C08 Ranged streams are repeatable and do not consume their source** – area Streams: state machines; induction over n.
* **C09 Data streams replay their data cyclically** – area Streams: state machine with index mod 2^64.
* **C10 Stream adaptors act pointwise** – area Streams: pointwise lemma per adaptor.
* **C11 Counter based generators have full period** – area Prng: additive order of an odd number mod 2^64.
* **C12 Thread-safe data stream hands out each index once** – area Streams: interleaving model of fetch_add.
* **C13 RRC transforms are reversible and completely enumerated** – area Streams: bijection by explicit inverse.
* **C14 RRC source expansion** – area Streams: list equation for the loops.
* **C15 Shift-xor/multiply mixers are bijections** – area Mixers: step language (xor-shift, odd multiply, rotate, add) with bijectivity per step; composition.
* **C16 Rotation/add based mixers are bijections** – area Mixers: as C15, explicit inverses for linear steps.
* **C17 Combiners are bijective in each argument** – area Mixers: as C15; boost collision by witness.
* **C18 PCG generators have full period** – area Prng: Hull-Dobell for modulus 2^k by induction on k; rxs_m_xs inverse.
* **C19 SFC generators: reversible with guaranteed minimum period** – area Prng: explicit inverse; counter argument for period.
* **C20 Xorshift generators never reach the all-zero state** – area Prng: GF(2) linear maps; order via prime factors of 2^w-1.
* **C21 Xoroshiro/xoshiro/xorshift128+ states are reversible** – area Prng: explicit inverse.
* **C22 run_jobs runs each job exactly once and terminates** – area Jobs: small-step interleaving semantics of the worker loop; invariants over all traces; termination measure.
* **C23 evaluate is schedule independent** – area Jobs/Evaluate: evaluate on top of run_jobs; permutation-invariance of min / verdict.
* **C24 Multi-pass evaluation protocol** – area Evaluate: recursion over powers with callback oracle.
* **C25 Test run reports done exactly once** – area Evaluate: callback state machine.
* **C26 Results of different tests are never mixed up** – area Types: lexicographic order; sorted association list map.
* **C27 Splitting a test covers the sample** – area Types: list of requested sizes.
* **C28 Sample limiting keeps at most the documented number of samples** – area Types: list of requested sizes.
* **C29 Failure strength and verdict** – area Analysis: real-valued p; floor/log10 thresholds.
* **C30 The worst result is a minimum** – area Analysis: first minimum.
* **C31 Failure summaries** – area Report: sets of names.
* **C32 Runs counting** – area Collect: induction; counterexample for leading cutoff values.
* **C33 Gap lengths** – area Collect: fuel-free: recursion over consumed prefix.
* **C34 Coupon collection** – area Collect: segments.
* **C35 Divisibility collection** – area Collect: segments.
* **C36 Permutation histogram** – area Collect: counting.
* **C37 Binary rank is the true rank** – area Rank: mathcomp \rank over 'F_2; elimination invariant.
* **C38 Matrix extraction** – area Rank: list chopping.
* **C39 Rank probabilities are exact** – area Rank: counting of matrices by rank.
* **C40 Berlekamp-Massey returns the linear complexity** – area BM: Massey's theorem, polynomials over GF(2) as coefficient functions.
* **C41 Linear complexity probabilities are exact** – area BM: counting argument on top of C40.
* **C42 Strict avalanche histogram** – area Avalanche: histogram = count of pairs.
* **C43 Bit independence matrix** – area Avalanche: cell = count.
* **C44 Serial avalanche counting** – area Avalanche: pairs.
* **C45 Bin merging preserves mass** – area Collect: rational-valued bins.
* **C46 Chi-square binning loses no sample** – area Chi2: Flocq binary64 for the rescaling.
* **C47 Chi-square degrees of freedom** – area Chi2: option-valued result.
* **C48 Coupon expectation** – area Coupon: surjection counting.
* **C49 Stirling numbers** – area Coupon: set partition counting.
* **C50 Kolmogorov-Smirnov distance** – area KS: supremum over R.
* **C51 Markdown escaping** – area Strings: strings as list ascii.
* **C52 Joining and containment** – area Strings: strings as list ascii.
* **C53 Table layout** – area Table: list of rows; string rendering.
* **C54 Binary file round trip** – area Files: file = list of bytes.
* **C55 Image output size** – area Files: byte count.
* **C56 Search terminates and never worsens the seed** – area Search: fuelled loop + termination theorem.
* **C57 Searched mixers are bijective exactly when configured so** – area Search: step language of C15, UB for promoted multiply.
* **C58 Seed generation** – area Seeds: set as sorted list; termination because mixer is injective.
* **C59 Evenly seeded streams do not overlap** – area Seeds: index intervals.
* **C60 Test lookup is total on the default tests** – area Types: definition table.
* **C61 Median splits the range evenly** – area Math: midpoints.
* **C62 Histogram drawing** – area Report: strings.
* **C63 Derived pair data sets** – area Streams: list equations.
* **C64 Generators built from a bijective mixer** – area Prng: orbit of a permutation of a finite set; pigeonhole for pure periodicity.
* **C65 Gap probabilities** – area Collect: binary64 loop evaluated for any `pow` that is exact on powers of 1/2; non-termination for an empty interval.
* **C66 Binomial coefficients** – area Stats: binary64 product loop, relative error by induction, exact while the bound stays below 1/2.
* **C67 z tests** – area Stats: binary64 formulas of runs/mean/normal cdf, forward error analysis with the library's `erfc` as a parameter.
* **C68 Test input sources** – area Seeds: list equations for the sources given to mixers and combiners.
* **C69 128-bit linear generators** – area Prng (`GF2Poly`, `MaxPeriod` ...): transition as GF(2)-linear map; the characteristic polynomial is computed and shown primitive by modular exponentiation against the prime factors of 2^128-1 (with primality certificates); output counts by a bijection.
* **C70 Test report** – area Commands: command as a relation from initial environment to the list of file operations; disk as a map; crash points are prefixes of the operation list with a cut last operation.
* **C71 Per-test power table** – area Commands: invariant over the loop of tests: filled columns, sorted rows.
* **C72 Inspecting the tests** – area Commands: induction over sources and definitions.
* **C73 Search fitness** – area Commands: binary64 sum of three terms, bounds from the KS range; counterexample by computation.
* **C74 Exhaustive search** – area Commands: enumeration of constants; selection of the 21 largest from any correct sort.
* **C75 Command line** – area Commands: case analysis of the arguments, prefix of the list of parts.
* **C76 Uniform test** – area Tests: complete test function = binning + expected counts + chi2; independent expectation in `TestsSpec.v`, error bound of the chi2 value from `StatFormulas`.
* **C77 Gap test**, **C78 Coupon test**, **C79 Divisibility test**, **C80 Permutation test**, **C81 SAC**, **C82 BIC**, **C83 Binary rank test**, **C84 Linear complexity test**, **C85 Serial avalanche test** – area Tests: as C76: what is counted (independent cut/tally specification), what is expected (exact combinatorial shares), which results are reported, error of the reported value.
* **C86 Tests never fail** – area Tests: totality (no UB outcome) and p-value range of each test function, from the assumptions on the C library (below).
* **C87 Battery verdict** – area Battery: C86 discharges the hypothesis of C23/C70 for the actual default tests, sources and mixers.
* **C88 Chi-square probability** – area Dist: model of log_gamma, _kf_gammap, _kf_gammaq, chi2_distribution_cdf over doubles; real-number bounds of the series (1+sqrt(2s)), of the Lentz continued fraction (z/fall) and of the Lanczos sum against Stirling give a negative exponent with a margin of 0.01; floating-point error analysis gives 0.001; hence exp of a non-positive number.
* **C89 Perfect agreement**, **C90 Granularity of p-values** – area Dist: corollaries of the form 1 - p with p a double in [0,1].
* **C91 Chi-square direction** – area Dist: the margins of C88 as inequalities on the p-value, and exponent <= -0.4 z for z >= 4 s + 100.
* **C92 Stuck bits and few values**, **C93 Linear mixers**, **C94 Feedback registers**, **C95 Stuck lowest bit** – area Detect: from what the tests compute (C76, C79, C82, C84) a lower bound 4 df + 200 on the chi-square sum (empty bins, constant cells, blocks of small linear complexity), then C91.
* **C96 Defects make the battery fail** – area Detect: the alarming result is among the sequential results, hence in the battery by C23, and fails the analysis by C29; the limits n^(5/7), n^(6/7) at powers of two by logarithms.
* **C97 Linear generators fail** – area Detect: a bit that is a linear function of a linear state of dimension d satisfies a recurrence of length <= d (pigeonhole on 2^(d+1) sums); the seeds of the tool by C58; then C96.
* **C98 Kendall's rank correlation** – area Corr: the integer counts of the loop are the numbers of pairs (fold over pairs, differences of doubles are exact in sign), permutation invariance of pair counts, error of the quotient; C98_stream through split_test (C45).
* **C99 Pearson's correlation** – area Corr: error of the sums of products of deviations 14 n^2 u, of the quotient 512 n u; |r| <= 1 + small by Cauchy-Schwarz on the computed deviations, so adjust_correlation and the transformation stay below 1 - 2^-53.
* **C100 Spearman's rank correlation** – area Corr: sorted positions are unique for distinct values; the correlation of positions against (0..n-1) equals that of ranks (inverse permutation); the counterexample from the formula.
* **C101 Incomplete beta function** – area Beta: model of beta_regularized with fuel for the recursion; (a+1)/(a+b+2) in doubles for multiples of 1/2 is exact enough that after the exchange 1-x is not above it; the continued fraction at x = 0; the endless case by evaluation of the two comparisons in the kernel.
* **C102 t test**, **C103 F test** – area Beta: algebra of the double operations (commutativity, NaN, infinities), C101; C103_large_refuted by evaluation of the 200 steps of the continued fraction in the kernel (vm_compute on Flocq doubles, once).
* **C104 Fisher's method** – area Other: every summand is in [-37,0], the sum is exact up to n^2 2^-47, so the doubled negated sum is a legal chi-square statistic; then C88 and C91 for the p-value. Spec: `fisher` (real sum of logarithms).
* **C105 Cumulative binomial probability** – area Other: the loop as an iteration adding non-negative terms; monotonicity of rounded addition and of the final clamp; the terms vanish beyond n. C105_value: error bound of each term against C(n,i) p^i (1-p)^(n-i), summed over at most 4097 terms.
* **C106 G test** – area Other: fold over the bins with running error bounds (sums of counts exact, logarithm 2^-40, rounding 2^-53 per addition); the counterexamples by evaluation of closed doubles.
* **C107 Anderson-Darling test** – area Other: unique sorted order of doubles in [0,1]; bounds of the two logarithms (1e-16 cut) summed with weights 2i+1; adinf and errfix by interval bounds of their polynomials in doubles (Horner with error tracking); positivity of the statistic by the real inequality ad_value >= c/n; UB of n*n from 46341 on.
* **C108 Printed mixers** – area Config: the texts as strings (decimal numbers of the standard library), a reader with its inverse property, an interpreter for the two kinds of lines with C++'s types; the counterexamples choose the word that the first shift maps to 2^32-1 (a bijection).
* **C109 minstd_rand** – area Engines: the standard's linear congruential engine; 48271 is a primitive root modulo the prime 2^31-1 (certified by powers for the prime factors of 2^31-2), so one orbit; then C92 and C97 for the tests.
* **C110 mt19937** – area Engines: the state as the list of the last 624 words; GF(2)-linearity of transition and tempering, kernels for bijectivity; reversibility on the 19937 bits that matter; dependence among 19969 iterated states for the recurrence; the all-zero state is reached by no seed.
* **C111 AES generators** – area Aes: the round on four 32-bit columns; the S-box by its inverse (256 values computed), MixColumns linear and of order 4 (32 basis vectors), the spread of a byte for all 255 differences; then the orbits of C19.
* **C112 Stirling numbers** – area Stirling: the recursion modulo 2^64 against exact numbers; a list of all partitions built by the same recursion (last element in an old block or in a new one); the rows up to 26 computed.

(The status of each is in MANIFEST.json.)

## Trusted base

1. Coq 8.16.1's kernel (and, for `coqchk`, the checker); `vm_compute` is used in some proofs and is part of the kernel.
   No native_compute, no plugins, no kernel check switched off, no axioms of our own, no functors or module types.
2. Axioms of the standard library, used by the theorems that mention real or floating-point numbers (through
   `Reals` and Flocq, which is a library of definitions and proofs and adds no axiom):
   `ClassicalDedekindReals.sig_not_dec`, `ClassicalDedekindReals.sig_forall_dec`,
   `FunctionalExtensionality.functional_extensionality_dep`, `Classical_Prop.classic`.
   All other theorems, including those proved with mathcomp (rank, counting), are closed under the global context.
   The table at the end lists them theorem by theorem.
3. The transcription of the C++ into Gallina.  It was made by reading; every definition cites its lines.  Nothing checks it.
4. The reading of the C++ semantics: two's complement, `int` of 32 and `size_t`/`uint64_t` of 64 bits, IEEE 754 binary64
   `double` with round-to-nearest-even and no extended intermediate precision or contraction (no `-ffast-math`, no FMA),
   sequentially consistent threads, little endian memory for the binary files.
5. The C and C++ library.  What it does is never axiomatised: library functions are *arguments* of the model and the
   theorems state as hypotheses what they need:
   * `good_math` (TestsSpec.v): `pow`, `log`, `log2`, `tgamma` are accurate to a stated relative error and exact where
     stated, `erfc` is in [0,2].  Met by `exact_math` (TestsInst.v, `exact_math_good`): the correctly rounded functions.
   * `good_libs` (ResultSpec/LibInst): `exp`, `log10` are within stated bounds, `std::sort` sorts.  Met by `exact_libs`.
   * `good_cdf` (C86, C87): the chi-square p-value function gives numbers in [0,1].  Proved of the function of the code in C88,
     from `good_dist`: log accurate to 2^-40 and -infinity at 0, exp of non-positive numbers in [0,1], erfc in [0,2];
     C91-C97 also need `accurate_exp` (good_lib).  Met by the correctly rounded functions (DistInst.v).
   * C104-C107: `log_sign`, `exp_nonneg`, `pow01` (signs and ranges of log, exp, pow), for C105_value also `exp_1` and `pow_near` (pow accurate to a stated error); met together with `good_dist` and `accurate_exp`
     by OtherInst.v; `nan_lib` (C106_nan_refuted: log and exp of NaN and of negative numbers), met in C106_instance.
   * std::map, std::set, std::string, std::vector behave as the sorted lists and lists they are modelled by; memory is unlimited.

## What is modelled

| file of /repo | model |
|---|---|
| core/src/util/bitwise.h, bitvector.h | BitwiseModel, BitVectorModel |
| core/src/stream.h, streams.h, rrc.h, rrc_streams.h | StreamModel |
| core/src/util/random.h, core/src/prng.h, impl/src/prngs*.h, external/sfc/sfc64.h | PrngModel |
| std::minstd_rand, std::mt19937 (prngs32.h:147-163; as the C++ standard defines them) | EngineModel |
| impl/src/external/aes/aes.cpp, prngs32.h:171-189 (the instruction AESENC as FIPS-197 defines it) | AesModel |
| core/src/mixer.h, combiner.h (types), impl/src/mixers*.h, combiners*.h, tool/src/search/mixer_constructions.h | MixerModel |
| core/src/util/jobs.h | JobsModel |
| core/src/evaluate.h, types.h, test_definitions.h | EvaluateModel, ResultModel, CommandModel |
| core/src/util/statistic_analysis.h, statistics/kolmogorov.h | ResultModel |
| core/src/statistics/run.h, gap.h, coupon.h, divisibility.h, permutation.h, avalanche.h, serial_avalanche.h, chi2.h, uniform.h, basic.h, tests.h |  CollectModel, CouponModel, StatsModel, TestsModel, BetaModel (t_test, f_test) |
| core/src/statistics/binary_rank.h, linear_complexity.h | RankModel, LfsrModel |
| core/src/statistics/distributions.{h,cpp} | StatsModel, ResultModel, TestsModel, DistModel, BetaModel (see the per-definition comments) |
| core/src/util/math.h, math.cpp | StatsModel, TestsModel, DistModel (log_gamma), CorrModel (Fisher's transformation) |
| core/src/util/algo.h, table.h | TextModel, CorrModel (ranks, rescaling, serial pairs) |
| core/src/statistics/correlation.h | CorrModel |
| core/src/statistics/fishersmethod.h, g_test.h, andersondarling.h, distributions.cpp 134-218 | OtherModel |
| core/src/format_result.h | FormatModel |
| core/src/util/math.h: stirling_second_kind | StirlingModel |
| core/src/util/fileutil.{h,cpp}, ppm.h, core/src/trng_data.h | FilesModel |
| tool/src/util/sffs.h, sffs_types.h, sffsutils.h, tool/src/search/search_command.h | SearchModel, CommandModel |
| tool/src/util/stream_sources.h, test_setups.h | SeedModel, BatteryUse |
| tool/src/search/search_configs.h | ConfigModel (texts, sizes), CommandModel (fitness) |
| tool/src/main.cpp, tool/src/command/{test,inspect_test,exhaust}_command.h | CommandModel |


## What is not modelled

* Console output other than the tables, histograms and verdict lines named in C31, C53, C62, C72 and C74; timing (timer.h) and passed_milliseconds.
* RDRAND (impl/src/external/rdrand) and the programs building trng/rdrand data files.
* Exceptions other than the runtime errors of the commands (C75); allocation failure; file system errors other than a missing file (C54).
* core/src/config.cpp (a string setter).
* `assertion` (core/src/util/assertion.*): it never stops the program, so it has no effect on any result.
* The unit tests.


## Findings (claims a user would make that the code refutes, each a theorem)

* C07_out_of_range_is_ub, C07_add_more_than_64_is_ub, C05_flip_bit_ub, C05_is_bit_set_ub, C06_for_each_bit_block_zero_is_ub: unguarded arguments are undefined behaviour.
* C08_thread_safe_stream_not_repeatable_refuted: the thread-safe data stream shares its position between copies.
* C112_overflow_refuted: Stirling numbers of 27 elements do not fit.
* C09_empty_data_is_ub: a data stream over no data.
* C17_boost_bijective_in_first_refuted: boost's combiner loses information.
* C20_nonzero_seed_suffices_refuted: a non-zero 64-bit seed may give the all-zero 32-bit xorshift state.
* C24_power_out_of_range_ub: powers outside 0..63 shift out of range.
* C32_first_equal_refuted: a leading value equal to the cutoff counts as a run of its own.
* C33_halves_64_refuted, C46_top_bits_64_refuted: 64-bit words are rounded to the next bin.
* C37_cells_beyond_one_refuted, C38_isolated_draws_refuted, C38_small_samples_refuted: matrix cells other than 0/1; more values drawn than announced; out-of-range access for tiny samples.
* C40_empty_refuted: Berlekamp-Massey on no bits.
* C44_last_row_ignored: pairs whose first value has all bits set are never tested.
* C52_empty_refuted, C53_one_column_refuted, C53_too_many_cells_refuted: text utilities.
* C54_missing_file_refuted, C55_tool_image_refuted, C55_uint8_never_ends_refuted: files and images.
* C56_negative_min_refuted, C56_invalid_fitness_refuted: the search.
* C58_too_many_seeds_refuted, C59_short_data_refuted: seeds.
* C61_64_refuted: the median of 64-bit words; C66_row_64_refuted: C(64,17) is off by one.
* C62_eighty_refuted: 81 stars.
* C63_not_flips_of_the_input_refuted: the avalanche pairs flip the mixed value, not the input.
* C71_mean_never_passes, C72_mean_vacuous: the mean test has no results above 2^20 samples, so it is never reported as passed, and its check on failing sources is vacuous.
* C73_one_power_refuted, C73_empty_range: fitness of the search.
* C100_depends_on_order: Spearman's test correlates sorted positions, not ranks, and so depends on the order of the points.
* C101_endless: the incomplete beta function can recurse without end.
* C102_no_variance, C103_no_variance: infinite "p-values" of two constant samples; C103_large_refuted: the F test of two large samples of equal variance is infinite.
* C90_granularity: chi-square p-values below 2^-53 are reported as 0.
* C104_empty_refuted: Fisher's method of no p-values is 0, the strongest alarm.
* C105_certain_refuted: binomial_cdf(n, 1, n) is 0 instead of 1; C105_overflow_ub: its int counter overflows for k >= 2^31-1.
* C106_concentrated_refuted: the G test leaves out empty bins; C106_nan_refuted: rounding makes the statistic negative and the p-value NaN.
* C107_floor: the Anderson-Darling p-value never falls below 0.0004/n; C107_overflow_ub: int n*n overflows from 46341 values on; C107_zero_refuted: the statistic 0 gives NaN.
* C108_xm2x_refuted, C108_xm2x_64_refuted, C108_bytes_refuted: printed code of search results that overflows, is no legal literal, or prints numbers as characters.

## What `Print Assumptions` lists, per theorem

Generated from the build; `Print Assumptions` follows every theorem in the sources.

### Closed under the global context (252 theorems)

C01_full_turns_are_identity, C01_rol_moves_bits, C01_rol_undoes_ror, C01_ror_moves_bits, C01_ror_undoes_rol, C01_rotations_add, C02_reverse_bits_involutive, C02_reverse_bits_mirrors, C03_byte_swap_is_byteswap, C03_byteswap_involutive, C03_byteswap_mirrors_bytes, C04_bit_ceil, C04_bit_ceil_unrepresentable, C04_bit_floor, C04_bit_floor_zero, C04_bit_width_least, C05_bit_count, C05_flip_bit, C05_flip_bit_involutive, C05_flip_bit_ub, C05_is_bit_set, C05_is_bit_set_ub, C06_chopping_is_unique, C06_for_each_bit, C06_for_each_bit_block, C06_for_each_bit_block_zero_is_ub, C06_sliding_bit_window, C07_add_more_than_64_is_ub, C07_bit_vector_refines, C07_default_bit_vector_refines, C07_out_of_range_is_ub, C08_iteration_does_not_consume, C08_ranged_stream_first_n, C08_thread_safe_stream_not_repeatable_refuted, C09_data_stream_cycles, C09_empty_data_is_ub, C108_bits, C108_bytes_refuted, C108_code, C108_code_xm2x, C108_constants, C108_xm2x_64_refuted, C108_xm2x_refuted, C109_full_period, C10_bit_isolation, C10_bit_reverse, C10_byteswap, C10_combined, C10_combined_incremental, C10_constant, C10_counter_values, C10_get_raw_by_ref, C10_isolate_by_ref_consumes_w, C10_mixer, C10_prng_from_mixer, C10_ror, C10_word_of_bits_meaning, C110_not_zero, C110_periodic, C110_register, C110_reversible, C110_tempering, C111_mix, C111_periodic, C111_periodic_128, C111_reversible, C111_spread, C112_counts, C112_exact, C112_negative, C112_overflow_refuted, C112_partitions, C11_any_counter_generator_full_period, C11_counter_generators_32, C11_counter_generators_64, C11_generators_are_streams, C11_truncation_16, C11_truncation_8, C11_truncations_32, C12_any_time, C12_no_duplicates, C12_sequential_use, C12_thread_safe_hands_out_each_once, C13_all_permutations_enumerated, C13_permute_bijection, C13_permute_bits, C14_rrc_sources, C15_each_mixer32, C15_each_mixer64, C15_mix16_bijective, C15_mix8_bijective, C15_mixers32_bijective, C15_mixers64_bijective, C16_jenkins_bijective, C16_moremur_bijective, C16_nasam_bijective, C16_wang_1_bijective, C17_boost_bijective_in_first_refuted, C17_boost_bijective_in_second, C17_mx_combiners_bijective_in_each_argument, C18_pcg16_equidistributed, C18_pcg32_equidistributed, C18_pcg64_every_value_once, C18_pcg8_equidistributed, C18_pcg_state_full_period, C19_sfc16_period, C19_sfc32_period, C19_sfc64_period, C19_sfc_reversible, C20_nonzero_seed_suffices_refuted, C20_xorshift32_maximal_period, C20_xorshift64_maximal_period, C20_xorshift_invertible_and_linear, C21_xoroshiro128_reversible, C21_xoroshiro128plus, C21_xorshift128_reversible, C21_xorshift128plus, C21_xoshiro128_reversible, C21_xoshiro128plus, C21_xoshiro128plusplus, C22_default_threads, C22_each_job_once_each_result_once, C22_mutual_exclusion, C22_never_twice, C22_no_deadlock, C22_no_infinite_execution, C22_returns, C22_zero_threads_runs_nothing, C23_evaluate_returns, C23_results_multiset, C24_defined, C24_power_out_of_range_ub, C24_protocol, C26_add_affects_one_key, C26_add_files_by_key, C26_key_order_strict_total, C27_fits, C27_max_zero_undefined, C27_split, C27_values_used, C28_limit_to, C28_wrapped_mixer_test, C28_wrapped_test, C31_header_tests, C32_counts, C32_cutoff, C32_empty, C32_first_equal_refuted, C32_run_count_meaning, C32_runs, C33_cut_is_determined, C33_total, C35_divisible, C35_divisor_zero_undefined, C36_histogram, C36_order_irrelevant, C36_wide_window_undefined, C37_at_most_n, C37_cells_beyond_one_refuted, C37_rank, C37_reduced_matrix, C38_isolated_draws_refuted, C38_matrices, C39_counts_add_up, C40_empty_refuted, C40_shortest_register, C40_unique, C41_add_up, C41_closed_form, C41_counts, C42_bijective_never_zero, C42_histogram, C43_cells, C43_total, C44_counts, C48_finishes, C48_finishing_words, C48_five_no_overflow, C48_words, C49_negative, C49_ontob, C49_stirling, C51_escape, C51_escape_reversible, C51_replace_all, C51_replace_all_empty, C51_replace_all_unique, C52_contains, C52_contains_ignore_case, C52_empty_refuted, C52_join, C53_aligned, C53_full_rows, C53_last_cell, C53_one_column_refuted, C53_rendering, C53_too_many_cells_refuted, C54_append_history, C54_cached_words, C54_missing_file_refuted, C54_partial_write, C54_read, C54_round_trip, C55_payload_size, C55_pixel, C55_row_major, C55_stream_values, C55_tool_image_refuted, C55_uint8_never_ends_refuted, C57_constants_decoded, C57_constructions_16_bijective_iff, C57_constructions_bijective_iff, C57_decoded_constants_in_range, C57_even_multiplier_collides, C57_large_16bit_multiplier_overflows, C58_generate_seeds, C58_prng_setup, C58_secondary_words, C58_seed_number, C58_too_many_seeds_refuted, C58_xorshift_seeds, C59_bound_exact, C59_no_overlap, C59_short_data_refuted, C59_streams, C59_warning, C60_missing, C61_empty, C63_bit_flipped_pairs, C63_not_flips_of_the_input_refuted, C63_serial_pairs, C64_mixer_prng_purely_periodic, C64_stream_cycles, C66_choose_meaning, C68_combiner_first, C68_combiner_pairs, C68_sources, C69_xoroshiro128plus, C69_xorshift128plus, C69_xoshiro128plus, C69_xoshiro128plusplus, C70_disk, C70_subjects, C71_subjects, C74_mixers, C75_exit_code, C75_parts, C87_mixer_catalogue, C87_sources, C93_kinds, C97_registers, C97_xorshift_all_bits

### `ClassicalDedekindReals.sig_forall_dec`, `FunctionalExtensionality.functional_extensionality_dep` (4 theorems)

C39_formula, C78_shares, C79_shares, C84_lc_prob

### `ClassicalDedekindReals.sig_forall_dec`, `ClassicalDedekindReals.sig_not_dec`, `Classical_Prop.classic`, `FunctionalExtensionality.functional_extensionality_dep` (197 theorems)

C100_depends_on_order, C100_formula, C100_order, C100_sorted, C100_valid, C101_endless, C101_ends, C101_values, C102_ends, C102_equal_means, C102_no_variance, C102_symmetric, C103_ends, C103_large_refuted, C103_no_variance, C103_symmetric, C104_alarm, C104_calm, C104_empty_refuted, C104_ones, C104_probability, C105_certain_refuted, C105_monotone, C105_overflow_ub, C105_probability, C105_value, C106_concentrated_refuted, C106_equal, C106_formula, C106_nan_refuted, C106_probability, C106_result, C107_floor, C107_none, C107_order, C107_overflow_ub, C107_probability, C107_result, C107_statistic, C107_zero_refuted, C109_fail, C109_found, C110_found, C23_verdict_schedule_independent, C25_done_exactly_once, C25_verdict_defined, C28_limit_slow, C28_limit_slower, C28_limits_monotone, C29_battery_passes_iff_all_pass, C29_strength_antitone, C29_strength_decades, C29_strength_range, C29_thresholds, C30_battery_worst, C30_two_sided_accuracy, C30_worst_defined_iff_nonempty, C30_worst_is_first_minimum, C31_failed_tests, C31_key_names_distinct, C31_no_failed_tests_iff_pass, C31_shown, C31_summary, C33_gaps, C33_halves, C33_halves_64_refuted, C33_no_bins_undefined, C34_coupon_fifths, C34_coupon_total, C34_coupons, C38_isolated_bit, C38_matrix_size, C38_rank_test_counts, C38_rank_test_probabilities, C38_small_samples_refuted, C39_accuracy, C41_probabilities, C41_test_counts, C41_test_size, C44_last_row_ignored, C44_results, C45_expected_mass, C45_groups, C45_mass, C45_missing_expected_undefined, C46_bins, C46_top_bits, C46_top_bits_64, C46_top_bits_64_refuted, C47_df, C47_perfect_fit, C47_value, C48_expectation, C50_ks_is_supremum, C50_ks_order_independent, C50_ks_p_valid, C56_find_seed, C56_finishes, C56_get_state, C56_invalid_fitness_refuted, C56_negative_min_refuted, C56_no_undefined_behaviour, C56_result, C56_terminates, C60_jobs, C60_lookup, C60_names_and_defaults, C60_stream_or_mixer, C61_64_refuted, C61_even, C61_odd, C62_counts, C62_drawing, C62_eighty_refuted, C62_line_of_value, C65_empty_interval_diverges, C65_gap_probabilities, C66_accurate, C66_exact, C66_exact_rows, C66_row_64_refuted, C67_mean, C67_mean_formula, C67_monotone, C67_p_value, C67_runs, C67_runs_formula, C67_two_tailed, C67_z_score, C70_debug, C70_defined, C70_report, C70_sound, C71_mean_never_passes, C71_table, C72_defined, C72_lines, C72_mean_vacuous, C72_verdicts, C73_empty_range, C73_further_is_better, C73_one_power_refuted, C73_range, C74_printed, C76_highest_bits, C76_uniform, C77_gap, C77_highest_bit, C77_present, C78_coupon, C79_divisibility, C80_permutation, C81_sac, C82_bic, C82_perfect, C83_binary_rank, C84_linear_complexity, C85_serial_avalanche, C86_defined, C87_report, C87_sound, C87_verdict, C88_probability, C88_report, C88_tests, C89_zero, C90_granularity, C91_below, C91_far, C92_few_values, C92_short_period, C92_stuck_bit, C93_affine, C93_low_to_high, C93_one_pair, C94_congruential, C94_feedback_register, C94_period, C95_stuck_bit, C96_bit_independence, C96_divisibility, C96_linear_complexity, C96_uniform, C97_fail, C98_order, C98_permutation, C98_reverse, C98_stream, C98_swap, C98_test, C99_constant, C99_defined, C99_formula, C99_identical, C99_stream, C99_symmetric, C99_valid
