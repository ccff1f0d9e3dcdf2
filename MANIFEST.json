{
 "claims": [
  {
   "property": "C01",
   "status": "proved",
   "theorems": [
    "C01_rol_moves_bits",
    "C01_ror_moves_bits",
    "C01_ror_undoes_rol",
    "C01_rol_undoes_ror",
    "C01_rotations_add",
    "C01_full_turns_are_identity"
   ],
   "note": "for every width w >= 1 and every (also negative or huge) rotation count; all widths used are instances."
  },
  {
   "property": "C02",
   "status": "proved",
   "theorems": [
    "C02_reverse_bits_mirrors",
    "C02_reverse_bits_involutive"
   ],
   "note": "widths 8, 16, 32, 64 (the four overloads), every word."
  },
  {
   "property": "C03",
   "status": "proved",
   "theorems": [
    "C03_byteswap_mirrors_bytes",
    "C03_byteswap_involutive",
    "C03_byte_swap_is_byteswap"
   ],
   "note": "widths 8, 16, 32, 64; byte_swap is the memory view of the same operation."
  },
  {
   "property": "C04",
   "status": "proved",
   "theorems": [
    "C04_bit_width_least",
    "C04_bit_floor",
    "C04_bit_floor_zero",
    "C04_bit_ceil",
    "C04_bit_ceil_unrepresentable"
   ],
   "note": "bit_ceil of a word above 2^(w-1) is undefined; shown separately."
  },
  {
   "property": "C05",
   "status": "proved",
   "theorems": [
    "C05_flip_bit",
    "C05_flip_bit_involutive",
    "C05_flip_bit_ub",
    "C05_is_bit_set",
    "C05_is_bit_set_ub",
    "C05_bit_count"
   ],
   "note": "bit positions outside 0..w-1 are undefined behaviour; shown separately."
  },
  {
   "property": "C06",
   "status": "proved",
   "theorems": [
    "C06_for_each_bit",
    "C06_for_each_bit_block",
    "C06_for_each_bit_block_zero_is_ub",
    "C06_sliding_bit_window",
    "C06_chopping_is_unique"
   ],
   "note": "callbacks are modelled by the list of emitted values; block sizes 1..63, size 0 divides by zero."
  },
  {
   "property": "C07",
   "status": "proved",
   "theorems": [
    "C07_bit_vector_refines",
    "C07_default_bit_vector_refines",
    "C07_out_of_range_is_ub",
    "C07_add_more_than_64_is_ub"
   ],
   "note": "refinement to list bool for every sequence of operations; out-of-range accesses are shown to be UB rather than silently wrong."
  },
  {
   "property": "C08",
   "status": "proved",
   "theorems": [
    "C08_ranged_stream_first_n",
    "C08_iteration_does_not_consume",
    "C08_thread_safe_stream_not_repeatable_refuted"
   ],
   "note": "holds for every stream that owns its state; the thread-safe data stream is a counterexample, proved as ..._refuted."
  },
  {
   "property": "C09",
   "status": "proved",
   "theorems": [
    "C09_data_stream_cycles",
    "C09_empty_data_is_ub"
   ],
   "note": "index arithmetic is modulo 2^64, so for a size that does not divide 2^64 the cycle jumps once after 2^64 calls; this is part of the statement."
  },
  {
   "property": "C10",
   "status": "proved",
   "theorems": [
    "C10_counter_values",
    "C10_constant",
    "C10_bit_reverse",
    "C10_byteswap",
    "C10_ror",
    "C10_mixer",
    "C10_combined",
    "C10_combined_incremental",
    "C10_prng_from_mixer",
    "C10_bit_isolation",
    "C10_isolate_by_ref_consumes_w",
    "C10_get_raw_by_ref",
    "C10_word_of_bits_meaning"
   ],
   "note": "one theorem per adaptor, each for every underlying stream."
  },
  {
   "property": "C11",
   "status": "proved",
   "theorems": [
    "C11_generators_are_streams",
    "C11_any_counter_generator_full_period",
    "C11_counter_generators_64",
    "C11_counter_generators_32",
    "C11_truncations_32",
    "C11_truncation_16",
    "C11_truncation_8"
   ],
   "note": "outputs of each modelled generator, as a function of the call number; truncated ones are equidistributed."
  },
  {
   "property": "C12",
   "status": "proved",
   "theorems": [
    "C12_thread_safe_hands_out_each_once",
    "C12_any_time",
    "C12_no_duplicates",
    "C12_sequential_use"
   ],
   "note": "all interleavings of atomic claims and reads; the step relation lets a call be overtaken between its claim and its read."
  },
  {
   "property": "C13",
   "status": "proved",
   "theorems": [
    "C13_permute_bits",
    "C13_permute_bijection",
    "C13_all_permutations_enumerated"
   ],
   "note": "explicit position of each bit, any rotation."
  },
  {
   "property": "C14",
   "status": "proved",
   "theorems": [
    "C14_rrc_sources"
   ],
   "note": "order and number of the generated sources and their values."
  },
  {
   "property": "C15",
   "status": "proved",
   "theorems": [
    "C15_mixers32_bijective",
    "C15_mixers64_bijective",
    "C15_mix8_bijective",
    "C15_mix16_bijective",
    "C15_each_mixer32",
    "C15_each_mixer64"
   ],
   "note": "16-bit and 8-bit mixers are computed in signed int; that no overflow happens is part of the theorem."
  },
  {
   "property": "C16",
   "status": "proved",
   "theorems": [
    "C16_nasam_bijective",
    "C16_moremur_bijective",
    "C16_wang_1_bijective",
    "C16_jenkins_bijective"
   ],
   "note": "the rotate/add based ones need their own argument (inverse of x ^ rot x ^ rot x)."
  },
  {
   "property": "C17",
   "status": "proved",
   "theorems": [
    "C17_mx_combiners_bijective_in_each_argument",
    "C17_boost_bijective_in_second",
    "C17_boost_bijective_in_first_refuted"
   ],
   "note": "the boost combiner is bijective in its second argument only; a collision in the first is exhibited."
  },
  {
   "property": "C18",
   "status": "proved",
   "theorems": [
    "C18_pcg_state_full_period",
    "C18_pcg64_every_value_once",
    "C18_pcg32_equidistributed",
    "C18_pcg16_equidistributed",
    "C18_pcg8_equidistributed"
   ],
   "note": "Hull-Dobell for 2^64, and the output permutation."
  },
  {
   "property": "C19",
   "status": "proved",
   "theorems": [
    "C19_sfc_reversible",
    "C19_sfc64_period",
    "C19_sfc32_period",
    "C19_sfc16_period"
   ],
   "note": "period is a multiple of 2^w because of the counter word."
  },
  {
   "property": "C20",
   "status": "proved",
   "theorems": [
    "C20_xorshift_invertible_and_linear",
    "C20_xorshift64_maximal_period",
    "C20_xorshift32_maximal_period",
    "C20_nonzero_seed_suffices_refuted"
   ],
   "note": "the order of the linear map is computed with matrices over GF(2); all prime factors of 2^w-1 are ruled out as proper divisors. The 32-bit generator gets a zero state from a non-zero 64-bit seed whose low half is 0 (..._refuted)."
  },
  {
   "property": "C21",
   "status": "proved",
   "theorems": [
    "C21_xorshift128_reversible",
    "C21_xoroshiro128_reversible",
    "C21_xoshiro128_reversible",
    "C21_xorshift128plus",
    "C21_xoroshiro128plus",
    "C21_xoshiro128plus",
    "C21_xoshiro128plusplus"
   ],
   "note": "reversibility, purely periodic, zero state isolated."
  },
  {
   "property": "C22",
   "status": "proved",
   "theorems": [
    "C22_each_job_once_each_result_once",
    "C22_never_twice",
    "C22_mutual_exclusion",
    "C22_no_deadlock",
    "C22_no_infinite_execution",
    "C22_returns",
    "C22_zero_threads_runs_nothing",
    "C22_default_threads"
   ],
   "note": "interleaving semantics of the worker loop: all schedules; no deadlock, no infinite execution."
  },
  {
   "property": "C23",
   "status": "proved",
   "theorems": [
    "C23_results_multiset",
    "C23_verdict_schedule_independent",
    "C23_evaluate_returns"
   ],
   "note": "for every schedule; floating point p-values are uninterpreted doubles."
  },
  {
   "property": "C24",
   "status": "proved",
   "theorems": [
    "C24_protocol",
    "C24_defined",
    "C24_power_out_of_range_ub"
   ],
   "note": "the test run is an oracle; powers outside 0..63 are undefined."
  },
  {
   "property": "C25",
   "status": "proved",
   "theorems": [
    "C25_done_exactly_once",
    "C25_verdict_defined"
   ],
   "note": "every run of the callback protocol."
  },
  {
   "property": "C26",
   "status": "proved",
   "theorems": [
    "C26_key_order_strict_total",
    "C26_add_files_by_key",
    "C26_add_affects_one_key"
   ],
   "note": "names compared as byte strings."
  },
  {
   "property": "C27",
   "status": "proved",
   "theorems": [
    "C27_fits",
    "C27_split",
    "C27_values_used",
    "C27_max_zero_undefined"
   ],
   "note": "the split may draw more values than n when max < n < 2 max."
  },
  {
   "property": "C28",
   "status": "proved",
   "theorems": [
    "C28_limit_slow",
    "C28_limit_slower",
    "C28_limits_monotone",
    "C28_limit_to",
    "C28_wrapped_test",
    "C28_wrapped_mixer_test"
   ],
   "note": "pow is a parameter constrained only by a stated accuracy."
  },
  {
   "property": "C29",
   "status": "proved",
   "theorems": [
    "C29_strength_range",
    "C29_strength_antitone",
    "C29_strength_decades",
    "C29_thresholds",
    "C29_battery_passes_iff_all_pass"
   ],
   "note": "log10 is a parameter constrained only by a stated accuracy / monotonicity."
  },
  {
   "property": "C30",
   "status": "proved",
   "theorems": [
    "C30_worst_is_first_minimum",
    "C30_worst_defined_iff_nonempty",
    "C30_battery_worst",
    "C30_two_sided_accuracy"
   ],
   "note": "ties: the first minimum."
  },
  {
   "property": "C31",
   "status": "proved",
   "theorems": [
    "C31_shown",
    "C31_failed_tests",
    "C31_no_failed_tests_iff_pass",
    "C31_key_names_distinct",
    "C31_header_tests",
    "C31_summary"
   ],
   "note": "text of the report; numbers' formatting is a parameter."
  },
  {
   "property": "C32",
   "status": "proved",
   "theorems": [
    "C32_counts",
    "C32_empty",
    "C32_runs",
    "C32_run_count_meaning",
    "C32_cutoff",
    "C32_first_equal_refuted"
   ],
   "note": "a leading value equal to the cutoff is counted as below (..._refuted)."
  },
  {
   "property": "C33",
   "status": "proved",
   "theorems": [
    "C33_gaps",
    "C33_cut_is_determined",
    "C33_total",
    "C33_halves",
    "C33_halves_64_refuted",
    "C33_no_bins_undefined"
   ],
   "note": "512 64-bit words below the middle are rounded into the upper half (..._refuted)."
  },
  {
   "property": "C34",
   "status": "proved",
   "theorems": [
    "C34_coupons",
    "C34_coupon_total",
    "C34_coupon_fifths"
   ],
   "note": "segments of the stream as the code cuts them."
  },
  {
   "property": "C35",
   "status": "proved",
   "theorems": [
    "C35_divisible",
    "C35_divisor_zero_undefined"
   ],
   "note": "divisor 0 is undefined."
  },
  {
   "property": "C36",
   "status": "proved",
   "theorems": [
    "C36_histogram",
    "C36_order_irrelevant",
    "C36_wide_window_undefined"
   ],
   "note": "bins saturate at 255: modelled, part of the statement."
  },
  {
   "property": "C37",
   "status": "proved",
   "theorems": [
    "C37_rank",
    "C37_at_most_n",
    "C37_reduced_matrix",
    "C37_cells_beyond_one_refuted"
   ],
   "note": "mathcomp's rank over GF(2) is the specification."
  },
  {
   "property": "C38",
   "status": "proved",
   "theorems": [
    "C38_matrices",
    "C38_rank_test_counts",
    "C38_rank_test_probabilities",
    "C38_isolated_bit",
    "C38_isolated_draws_refuted",
    "C38_matrix_size",
    "C38_small_samples_refuted"
   ],
   "note": "with fewer than about 955 bits the matrix size is 0 and the test writes out of range (..._refuted); the isolated-bit variant reads more values than requested (..._refuted)."
  },
  {
   "property": "C39",
   "status": "proved",
   "theorems": [
    "C39_formula",
    "C39_counts_add_up",
    "C39_accuracy"
   ],
   "note": "counting of matrices by rank is proved, not assumed; accuracy of the double in terms of 2^-53."
  },
  {
   "property": "C40",
   "status": "proved",
   "theorems": [
    "C40_shortest_register",
    "C40_unique",
    "C40_empty_refuted"
   ],
   "note": "Massey's theorem for every non-empty sequence; empty is UB (..._refuted)."
  },
  {
   "property": "C41",
   "status": "proved",
   "theorems": [
    "C41_counts",
    "C41_closed_form",
    "C41_add_up",
    "C41_probabilities",
    "C41_test_counts",
    "C41_test_size"
   ],
   "note": "counts of sequences by linear complexity proved by induction."
  },
  {
   "property": "C42",
   "status": "proved",
   "theorems": [
    "C42_histogram",
    "C42_bijective_never_zero"
   ],
   "note": "histogram of the numbers of differing output bits over all one-bit flips."
  },
  {
   "property": "C43",
   "status": "proved",
   "theorems": [
    "C43_cells",
    "C43_total"
   ],
   "note": "the cells and their total."
  },
  {
   "property": "C44",
   "status": "proved",
   "theorems": [
    "C44_counts",
    "C44_results",
    "C44_last_row_ignored"
   ],
   "note": "the tested rows are characterised completely, including expected values within stated relative error."
  },
  {
   "property": "C45",
   "status": "proved",
   "theorems": [
    "C45_groups",
    "C45_mass",
    "C45_expected_mass",
    "C45_missing_expected_undefined"
   ],
   "note": "expected mass is the left-to-right double sum of the merged bins."
  },
  {
   "property": "C46",
   "status": "proved",
   "theorems": [
    "C46_bins",
    "C46_top_bits",
    "C46_top_bits_64",
    "C46_top_bits_64_refuted"
   ],
   "note": "exactness of top bits fails for 64-bit words next to a bin's upper end (..._refuted)."
  },
  {
   "property": "C47",
   "status": "proved",
   "theorems": [
    "C47_df",
    "C47_perfect_fit",
    "C47_value"
   ],
   "note": "C47_value bounds the relative error of the computed chi-square value by 2(n+4)2^-53."
  },
  {
   "property": "C48",
   "status": "proved",
   "theorems": [
    "C48_finishing_words",
    "C48_words",
    "C48_finishes",
    "C48_expectation",
    "C48_five_no_overflow"
   ],
   "note": "five coupons never overflow the Stirling number."
  },
  {
   "property": "C49",
   "status": "proved",
   "theorems": [
    "C49_stirling",
    "C49_ontob",
    "C49_negative"
   ],
   "note": "recursion equals counting of set partitions."
  },
  {
   "property": "C50",
   "status": "proved",
   "theorems": [
    "C50_ks_is_supremum",
    "C50_ks_order_independent",
    "C50_ks_p_valid"
   ],
   "note": "sup over all reals of |F_n - F|."
  },
  {
   "property": "C51",
   "status": "proved",
   "theorems": [
    "C51_replace_all",
    "C51_replace_all_unique",
    "C51_replace_all_empty",
    "C51_escape",
    "C51_escape_reversible"
   ],
   "note": "replace_all with an empty pattern returns its input; escape is reversible."
  },
  {
   "property": "C52",
   "status": "proved",
   "theorems": [
    "C52_join",
    "C52_contains",
    "C52_contains_ignore_case",
    "C52_empty_refuted"
   ],
   "note": "the empty pattern is not found in the empty string when ignoring case (..._refuted)."
  },
  {
   "property": "C53",
   "status": "proved",
   "theorems": [
    "C53_rendering",
    "C53_full_rows",
    "C53_last_cell",
    "C53_aligned",
    "C53_one_column_refuted",
    "C53_too_many_cells_refuted"
   ],
   "note": "one column and too many cells are undefined (..._refuted)."
  },
  {
   "property": "C54",
   "status": "proved",
   "theorems": [
    "C54_read",
    "C54_round_trip",
    "C54_partial_write",
    "C54_append_history",
    "C54_missing_file_refuted",
    "C54_cached_words"
   ],
   "note": "the file system is a partial map from paths to byte lists; partial writes are allowed."
  },
  {
   "property": "C55",
   "status": "proved",
   "theorems": [
    "C55_payload_size",
    "C55_tool_image_refuted",
    "C55_uint8_never_ends_refuted",
    "C55_row_major",
    "C55_stream_values",
    "C55_pixel"
   ],
   "note": "the image of the tool does not have the size its header claims (..._refuted); with uint8_t the loop does not end (..._refuted)."
  },
  {
   "property": "C56",
   "status": "proved",
   "theorems": [
    "C56_terminates",
    "C56_no_undefined_behaviour",
    "C56_finishes",
    "C56_result",
    "C56_get_state",
    "C56_find_seed",
    "C56_negative_min_refuted",
    "C56_invalid_fitness_refuted"
   ],
   "note": "all schedules and tie breaks; a negative minimum or an invalid fitness runs into undefined behaviour (..._refuted)."
  },
  {
   "property": "C57",
   "status": "proved",
   "theorems": [
    "C57_constructions_bijective_iff",
    "C57_constructions_16_bijective_iff",
    "C57_even_multiplier_collides",
    "C57_large_16bit_multiplier_overflows",
    "C57_constants_decoded",
    "C57_decoded_constants_in_range"
   ],
   "note": "bijective exactly when the multipliers are odd; 16-bit multipliers may overflow int."
  },
  {
   "property": "C58",
   "status": "proved",
   "theorems": [
    "C58_generate_seeds",
    "C58_seed_number",
    "C58_secondary_words",
    "C58_too_many_seeds_refuted",
    "C58_prng_setup",
    "C58_xorshift_seeds"
   ],
   "note": "asks for more seeds than words, or a negative number: no termination (..._refuted)."
  },
  {
   "property": "C59",
   "status": "proved",
   "theorems": [
    "C59_streams",
    "C59_no_overlap",
    "C59_bound_exact",
    "C59_warning",
    "C59_short_data_refuted"
   ],
   "note": "with less data than samples all samples coincide (..._refuted)."
  },
  {
   "property": "C60",
   "status": "proved",
   "theorems": [
    "C60_lookup",
    "C60_names_and_defaults",
    "C60_stream_or_mixer",
    "C60_jobs",
    "C60_missing"
   ],
   "note": "lookup for every test type; a type that is not in the list yields a definition without any test."
  },
  {
   "property": "C61",
   "status": "proved",
   "theorems": [
    "C61_odd",
    "C61_even",
    "C61_empty",
    "C61_64_refuted"
   ],
   "note": "the mean of the two middle 64-bit words is computed in double: rounded, and undefined at the top of the range (..._refuted)."
  },
  {
   "property": "C62",
   "status": "proved",
   "theorems": [
    "C62_line_of_value",
    "C62_counts",
    "C62_drawing",
    "C62_eighty_refuted"
   ],
   "note": "the intended bound of 80 stars fails by rounding: 81 (..._refuted)."
  },
  {
   "property": "C63",
   "status": "proved",
   "theorems": [
    "C63_serial_pairs",
    "C63_bit_flipped_pairs",
    "C63_not_flips_of_the_input_refuted"
   ],
   "note": "create_bit_flipped_xy flips the output of the mixer, not its input (..._refuted)."
  },
  {
   "property": "C64",
   "status": "proved",
   "theorems": [
    "C64_mixer_prng_purely_periodic",
    "C64_stream_cycles"
   ],
   "note": "least period, at most 2^w."
  },
  {
   "property": "C65",
   "status": "proved",
   "theorems": [
    "C65_gap_probabilities",
    "C65_empty_interval_diverges"
   ],
   "note": "an empty interval makes the loop run for ever (shown)."
  },
  {
   "property": "C66",
   "status": "proved",
   "theorems": [
    "C66_exact",
    "C66_exact_rows",
    "C66_accurate",
    "C66_choose_meaning",
    "C66_row_64_refuted"
   ],
   "note": "exact for rows up to 63; row 64 is off by one in places (..._refuted), still within the stated relative error."
  },
  {
   "property": "C67",
   "status": "proved",
   "theorems": [
    "C67_two_tailed",
    "C67_monotone",
    "C67_runs",
    "C67_mean",
    "C67_z_score",
    "C67_p_value",
    "C67_runs_formula",
    "C67_mean_formula"
   ],
   "note": "erfc / the distribution functions are parameters; the runs test's variance divides by n instead of n-1, which is what the theorem states."
  },
  {
   "property": "C68",
   "status": "proved",
   "theorems": [
    "C68_sources",
    "C68_combiner_first",
    "C68_combiner_pairs"
   ],
   "note": "all sources of the mixer and combiner tests."
  },
  {
   "property": "C69",
   "status": "proved",
   "theorems": [
    "C69_xorshift128plus",
    "C69_xoroshiro128plus",
    "C69_xoshiro128plus",
    "C69_xoshiro128plusplus"
   ],
   "note": "certificates for the factors of 2^128-1 (checked by vm_compute) plus a linear algebra argument; 2^128 - 1 = product of nine proven primes."
  },
  {
   "property": "C70",
   "status": "proved",
   "theorems": [
    "C70_subjects",
    "C70_sound",
    "C70_report",
    "C70_defined",
    "C70_debug",
    "C70_disk"
   ],
   "note": "'|' in a subject's name is not escaped by escape_for_md; no subject of the project has one. File operations are assumed to succeed (their results are ignored by the code)."
  },
  {
   "property": "C71",
   "status": "proved",
   "theorems": [
    "C71_subjects",
    "C71_table",
    "C71_mean_never_passes"
   ],
   "note": "C71_mean_never_passes: blank cells in the mean column."
  },
  {
   "property": "C72",
   "status": "proved",
   "theorems": [
    "C72_verdicts",
    "C72_defined",
    "C72_lines",
    "C72_mean_vacuous"
   ],
   "note": "C72_mean_vacuous: the PASS of the mean test on sources that should fail is vacuous."
  },
  {
   "property": "C73",
   "status": "proved",
   "theorems": [
    "C73_range",
    "C73_further_is_better",
    "C73_one_power_refuted",
    "C73_empty_range"
   ],
   "note": "refuted for a difference of one power; undefined behaviour for an empty range shown."
  },
  {
   "property": "C74",
   "status": "proved",
   "theorems": [
    "C74_mixers",
    "C74_printed"
   ],
   "note": "the 4 ranges of the loops; the name of the mixers is not part of the claim."
  },
  {
   "property": "C75",
   "status": "proved",
   "theorems": [
    "C75_exit_code",
    "C75_parts"
   ],
   "note": "exceptions other than std::runtime_error (and the ones thrown in threads) are not modelled."
  },
  {
   "property": "C76",
   "status": "proved",
   "theorems": [
    "C76_uniform",
    "C76_highest_bits"
   ],
   "note": "64-bit words: bins by C46 (words at the upper end of a bin may round into the next one)."
  },
  {
   "property": "C77",
   "status": "proved",
   "theorems": [
    "C77_gap",
    "C77_highest_bit",
    "C77_present"
   ],
   "note": "64-bit words: halves up to rounding, see C33_halves_64_refuted."
  },
  {
   "property": "C78",
   "status": "proved",
   "theorems": [
    "C78_coupon",
    "C78_shares"
   ],
   "note": ""
  },
  {
   "property": "C79",
   "status": "proved",
   "theorems": [
    "C79_divisibility",
    "C79_shares"
   ],
   "note": "the last share is 1 minus the sum of the others, which rounding does not disturb."
  },
  {
   "property": "C80",
   "status": "proved",
   "theorems": [
    "C80_permutation"
   ],
   "note": "tiny samples (n w below 8192) are outside the claim; the tool starts at 2^10 values."
  },
  {
   "property": "C81",
   "status": "proved",
   "theorems": [
    "C81_sac"
   ],
   "note": "the flipped value is the once mixed sample (C42), as in the code."
  },
  {
   "property": "C82",
   "status": "proved",
   "theorems": [
    "C82_bic",
    "C82_perfect"
   ],
   "note": ""
  },
  {
   "property": "C83",
   "status": "proved",
   "theorems": [
    "C83_binary_rank"
   ],
   "note": ""
  },
  {
   "property": "C84",
   "status": "proved",
   "theorems": [
    "C84_linear_complexity",
    "C84_lc_prob"
   ],
   "note": ""
  },
  {
   "property": "C85",
   "status": "proved",
   "theorems": [
    "C85_serial_avalanche"
   ],
   "note": "row c = w is computed but not reported (C44_last_row_ignored)."
  },
  {
   "property": "C86",
   "status": "proved",
   "theorems": [
    "C86_defined"
   ],
   "note": "good_cdf asks that chi2_distribution_cdf gives numbers in [0,1] (proved of the code's function in C88, see C88_tests); good_math asks the C library for powers of two exact and about 2^-40 accuracy."
  },
  {
   "property": "C87",
   "status": "proved",
   "theorems": [
    "C87_sound",
    "C87_verdict",
    "C87_report",
    "C87_sources",
    "C87_mixer_catalogue"
   ],
   "note": "mixers8/16 are stated as outcome functions in C15 and therefore not in C87_mixer_catalogue; sources with a shared index (streams.h:84-92) are excluded."
  },
  {
   "property": "C88",
   "status": "proved",
   "theorems": [
    "C88_probability",
    "C88_tests",
    "C88_report"
   ],
   "note": "log accurate to 2^-40, log 0 = -infinity, exp of non-positive numbers in [0,1], erfc in [0,2] are hypotheses (good_dist), met by correctly rounded functions (DistInst.v). C88_tests and C88_report are C86 and C87 with this p-value instead of the hypothesis good_cdf."
  },
  {
   "property": "C89",
   "status": "proved",
   "theorems": [
    "C89_zero"
   ],
   "note": "from 1100000 degrees of freedom on the normal approximation is used; its value at 0 depends on erfc."
  },
  {
   "property": "C90",
   "status": "proved",
   "theorems": [
    "C90_granularity"
   ],
   "note": "a finding: gamma_regularized returns 1 - (1 - Q)."
  },
  {
   "property": "C91",
   "status": "proved",
   "theorems": [
    "C91_below",
    "C91_far"
   ],
   "note": "not claimed: the accuracy of the p-value against the true distribution between the two ranges, and the normal approximation."
  },
  {
   "property": "C92",
   "status": "proved",
   "theorems": [
    "C92_stuck_bit",
    "C92_few_values",
    "C92_short_period"
   ],
   "note": "good_lib: what is assumed of std::log, exp, erfc, pow, tgamma (accuracy or ranges); lib_math/lib_exp show it can be met. C92_stuck_bit, C92_few_values, C92_short_period. Alarm = a chi-square result with p <= 1e-14 (the default limit is 1e-9)."
  },
  {
   "property": "C93",
   "status": "proved",
   "theorems": [
    "C93_affine",
    "C93_low_to_high",
    "C93_one_pair",
    "C93_kinds"
   ],
   "note": "C93_affine, C93_low_to_high, C93_one_pair; C93_kinds shows that linear congruential and xorshift steps are of these kinds. The code mixes the value once before flipping a bit; that is in the model."
  },
  {
   "property": "C94",
   "status": "proved",
   "theorems": [
    "C94_feedback_register",
    "C94_period",
    "C94_congruential"
   ],
   "note": "C94_feedback_register, with C94_period and C94_congruential as cases."
  },
  {
   "property": "C95",
   "status": "proved",
   "theorems": [
    "C95_stuck_bit"
   ],
   "note": "C95_stuck_bit covers both all even and all odd."
  },
  {
   "property": "C96",
   "status": "proved",
   "theorems": [
    "C96_uniform",
    "C96_divisibility",
    "C96_bit_independence",
    "C96_linear_complexity"
   ],
   "note": "the four tests of C92-C95 in the default battery with its limits n^(6/7) and n^(5/7); C96_instance runs to a verdict."
  },
  {
   "property": "C97",
   "status": "proved",
   "theorems": [
    "C97_registers",
    "C97_xorshift_all_bits",
    "C97_fail"
   ],
   "note": "C97_registers, C97_xorshift_all_bits, C97_fail (the list linear_generators in DetectSpec.v gives the powers of two). xorshift128+ and xoroshiro128+ pass everything shown before: nothing is claimed about smaller samples."
  },
  {
   "property": "C98",
   "status": "proved",
   "theorems": [
    "C98_test",
    "C98_order",
    "C98_permutation",
    "C98_swap",
    "C98_reverse",
    "C98_stream"
   ],
   "note": "doubles of usual size: at most 2^500 and multiples of 2^-500 (so that no product of differences underflows to zero)."
  },
  {
   "property": "C99",
   "status": "proved",
   "theorems": [
    "C99_defined",
    "C99_valid",
    "C99_formula",
    "C99_symmetric",
    "C99_constant",
    "C99_identical",
    "C99_stream"
   ],
   "note": "C99_identical and C99_constant are the extreme cases; for coefficients between 1/2 and 1 only validity is claimed."
  },
  {
   "property": "C100",
   "status": "proved",
   "theorems": [
    "C100_order",
    "C100_valid",
    "C100_formula",
    "C100_sorted",
    "C100_depends_on_order"
   ],
   "note": "C100_depends_on_order is the counterexample; ties are not covered by C100_order/C100_formula (std::sort may order them in any way)."
  },
  {
   "property": "C101",
   "status": "proved",
   "theorems": [
    "C101_ends",
    "C101_endless",
    "C101_values"
   ],
   "note": "C101_ends: depth is fuel for the recursion, the result is the same from depth 2 on. C101_endless is the counterexample for other arguments. Accuracy of the continued fraction is not proved."
  },
  {
   "property": "C102",
   "status": "proved",
   "theorems": [
    "C102_ends",
    "C102_symmetric",
    "C102_equal_means",
    "C102_no_variance"
   ],
   "note": "C102_no_variance contains the finding (infinite p-value for two constant samples of equal means)."
  },
  {
   "property": "C103",
   "status": "proved",
   "theorems": [
    "C103_ends",
    "C103_symmetric",
    "C103_no_variance",
    "C103_large_refuted"
   ],
   "note": "C103_no_variance and C103_large_refuted are findings."
  },
  {
   "property": "C104",
   "status": "proved",
   "theorems": [
    "C104_probability",
    "C104_alarm",
    "C104_calm",
    "C104_ones",
    "C104_empty_refuted"
   ],
   "note": "good_dist (accuracy of log, exp, erfc), log_sign (log is not positive up to 1) are hypotheses on the C library. C104_empty_refuted is a finding."
  },
  {
   "property": "C105",
   "status": "proved",
   "theorems": [
    "C105_probability",
    "C105_monotone",
    "C105_value",
    "C105_overflow_ub",
    "C105_certain_refuted"
   ],
   "note": "C105_value compares it with the real sum of binomial probabilities (up to 4096 trials; log accurate to 2^-40, exp and pow near the real functions, exp(1) as stated). The counterexample is k = n, p = 1; the overflow of the int counter is C105_overflow_ub."
  },
  {
   "property": "C106",
   "status": "proved",
   "theorems": [
    "C106_result",
    "C106_formula",
    "C106_probability",
    "C106_equal",
    "C106_concentrated_refuted",
    "C106_nan_refuted"
   ],
   "note": "usual_bin: bounds on the expectation relative to the count that keep the quotient within the range of log. C106_concentrated_refuted and C106_nan_refuted (the library hypotheses nan_lib are those of glibc: log of a negative number is NaN, exp of NaN is NaN) are findings."
  },
  {
   "property": "C107",
   "status": "proved",
   "theorems": [
    "C107_none",
    "C107_order",
    "C107_result",
    "C107_statistic",
    "C107_probability",
    "C107_floor",
    "C107_overflow_ub",
    "C107_zero_refuted"
   ],
   "note": "C107_floor, C107_overflow_ub and C107_zero_refuted are findings. Up to 46340 data the p-value is a probability if the computed statistic is positive (C107_result); C107_probability shows it positive up to 10000 data."
  },
  {
   "property": "C108",
   "status": "proved",
   "theorems": [
    "C108_code",
    "C108_code_xm2x",
    "C108_xm2x_refuted",
    "C108_xm2x_64_refuted",
    "C108_bytes_refuted",
    "C108_bits",
    "C108_constants"
   ],
   "note": "ConfigSpec has a reader of the printed lines and the meaning of a line in C++ (promotions, types of literals). C108_code: 16-bit words wherever the mixer itself does not overflow. Refuted: xm2x without suffix (C108_xm2x_refuted, C108_xm2x_64_refuted) and 8-bit words (C108_bytes_refuted)."
  },
  {
   "property": "C109",
   "status": "proved",
   "theorems": [
    "C109_full_period",
    "C109_found",
    "C109_fail"
   ],
   "note": ""
  },
  {
   "property": "C110",
   "status": "proved",
   "theorems": [
    "C110_reversible",
    "C110_periodic",
    "C110_not_zero",
    "C110_tempering",
    "C110_register",
    "C110_found"
   ],
   "note": ""
  },
  {
   "property": "C111",
   "status": "proved",
   "theorems": [
    "C111_mix",
    "C111_spread",
    "C111_periodic",
    "C111_reversible",
    "C111_periodic_128"
   ],
   "note": ""
  },
  {
   "property": "C112",
   "status": "proved",
   "theorems": [
    "C112_partitions",
    "C112_counts",
    "C112_exact",
    "C112_overflow_refuted",
    "C112_negative"
   ],
   "note": ""
  }
 ]
}