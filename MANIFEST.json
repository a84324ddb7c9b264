{
 "claims": [
  {
   "property": "C01",
   "status": "proved",
   "theorems": [
    "C01_window_is_last_n",
    "C01_window_any_factor"
   ],
   "note": "refinement to a stream for every op sequence; any scaling factor in [1,2] unconditionally, any factor >= 1 for exception-free histories"
  },
  {
   "property": "C02",
   "status": "proved",
   "theorems": [
    "C02_push_returns_dropped"
   ],
   "note": ""
  },
  {
   "property": "C03",
   "status": "proved",
   "theorems": [
    "C03_push_rejected_iff",
    "C03_push_total_partial",
    "C03_push_total_refuted",
    "C03_constructor_rejects"
   ],
   "note": "C03_push_rejected_iff: the exact condition. C03_push_total_partial: memory size, and factors or chunks for which push never raises; C03_push_total_refuted: it does raise for a factor above 2."
  },
  {
   "property": "C04",
   "status": "proved",
   "theorems": [
    "C04_diag_indices"
   ],
   "note": ""
  },
  {
   "property": "C05",
   "status": "proved",
   "theorems": [
    "C05_cut_indices"
   ],
   "note": "shapes with at least one row and column"
  },
  {
   "property": "C06",
   "status": "proved",
   "theorems": [
    "C06_distances_optimal"
   ],
   "note": "also for +inf costs; only needs that addition is monotone, so also for rounded addition"
  },
  {
   "property": "C07",
   "status": "proved",
   "theorems": [
    "C07_path_optimal",
    "C07_infinite_cost_refuted"
   ],
   "note": "proved for finite costs as stated; the refuted variant shows that infinite costs fail"
  },
  {
   "property": "C08",
   "status": "proved",
   "theorems": [
    "C08_window_view",
    "C08_addresses",
    "C08_accepts_iff"
   ],
   "note": ""
  },
  {
   "property": "C09",
   "status": "proved",
   "theorems": [
    "C09_lowest_is_greedy",
    "C09_order_and_cover"
   ],
   "note": ""
  },
  {
   "property": "C10",
   "status": "proved",
   "theorems": [
    "C10_highest_is_greedy",
    "C10_order_and_cover"
   ],
   "note": ""
  },
  {
   "property": "C33",
   "status": "proved",
   "theorems": [
    "C33_diagonals",
    "C33_spec_unique"
   ],
   "note": "Any list of fitting diagonals, NaN and inf included; closed under the global context."
  },
  {
   "property": "C34",
   "status": "proved",
   "theorems": [
    "C34_column"
   ],
   "note": "Any state with arrays of the right length, any NaN-free non-empty column."
  },
  {
   "property": "C35",
   "status": "proved",
   "theorems": [
    "C35_merged",
    "C35_column_minimum"
   ],
   "note": "Any mix of diagonals and complete NaN-free columns that agree with one matrix."
  },
  {
   "property": "C36",
   "status": "proved",
   "theorems": [
    "C36_exact",
    "C36_no_match_partial",
    "C36_no_match_streaming",
    "C36_column_index_refuted"
   ],
   "note": "C36_exact: any mixture of diagonals and NaN-free columns. C36_no_match_partial: diagonals with NaN too. C36_column_index_refuted: the plain 'index -1 iff no match' is false for columns."
  },
  {
   "property": "C37",
   "status": "proved",
   "theorems": [
    "C37_monotone"
   ],
   "note": "Stated for any two sets of deliveries, one contained in the other."
  },
  {
   "property": "C38",
   "status": "proved",
   "theorems": [
    "C38_streaming_history",
    "C38_streaming_merged"
   ],
   "note": "All histories of diagonals, NaN-free columns and shifts, scaling factor in [1,2]."
  },
  {
   "property": "C39",
   "status": "proved",
   "theorems": [
    "C39_diagonals",
    "C39_merged",
    "C39_column",
    "C39_mixed",
    "C39_nan_column_refuted",
    "C39_rejects"
   ],
   "note": "Every outcome of the random source; diagonals without -inf (distances are never -inf), NaN-free columns, and any mixture of these. A NaN in a column makes the random pick fail (witness)."
  },
  {
   "property": "C40",
   "status": "proved",
   "theorems": [
    "C40_left",
    "C40_right",
    "C40_merged",
    "C40_column_left",
    "C40_column_right",
    "C40_mixed"
   ],
   "note": "Exact probabilities, every draw independent and uniform; also for the merged index and for any mixture of diagonals and columns."
  },
  {
   "property": "C41",
   "status": "proved",
   "theorems": [
    "C41_diagonals",
    "C41_column",
    "C41_agree"
   ],
   "note": "Every threshold list and sequence of diagonals; columns replace their counts."
  },
  {
   "property": "C42",
   "status": "proved",
   "theorems": [
    "C42_column",
    "C42_picks",
    "C42_scan_functional",
    "C42_no_exclusion",
    "C42_nan_refuted"
   ],
   "note": "Every NaN-free column sequence and every tie order of argsort. Outside the quantifier: NaN counts as a match (witness)."
  },
  {
   "property": "C43",
   "status": "proved",
   "theorems": [
    "C43_kth_smallest",
    "C43_unique",
    "C43_init"
   ],
   "note": "Every column, including NaN, and every list of ranks."
  },
  {
   "property": "C44",
   "status": "proved",
   "theorems": [
    "C44_history",
    "C44_kth_match_partial",
    "C44_any_ranks",
    "C44_duplicates_refuted",
    "C44_stale_refuted"
   ],
   "note": "C44_history is the property, for any ranks and any sequence of columns. C44_kth_match_partial: the usual reading, for distinct ranks and one delivery per column; the refuted theorems show that it fails otherwise."
  },
  {
   "property": "C45",
   "status": "proved",
   "theorems": [
    "C45_latest",
    "C45_unique",
    "C45_complete",
    "C45_too_long"
   ],
   "note": "Every history of diagonals, columns and shifts (any amount) that fits the window."
  },
  {
   "property": "C46",
   "status": "proved",
   "theorems": [
    "C46_query_contexts",
    "C46_series_contexts",
    "C46_meaning",
    "C46_init",
    "C46_argsort_exists"
   ],
   "note": "Exact multiset of ranges, any context layout, any tie order of argsort; series lookup needs one non-empty series range (otherwise the lookup raises)."
  },
  {
   "property": "C47",
   "status": "proved",
   "theorems": [
    "C47_rectangle_minimum",
    "C47_unique"
   ],
   "note": "Every static context layout, complete NaN-free diagonals and columns in any order, scaling factor in [1,2]."
  },
  {
   "property": "C48",
   "status": "partial",
   "theorems": [
    "C48_shifts_partial",
    "C48_block_manager",
    "C48_roll_refuted",
    "C48_resurrection_refuted",
    "C48_query_shift",
    "C48_right_shift",
    "C48_wrong_shift",
    "C48_safe_shifts"
   ],
   "note": "Proved for every streaming manager and every history that drops no query context; refuted when query contexts are dropped (wrong roll direction; stale results resurrected). What a query shift does in every state is proved exactly: it is right if all contexts or exactly half of them are dropped, otherwise the first row shows another context. C48_safe_shifts: the property for every history whose query shifts drop none, all or half of the contexts and that drops no series context after a query context. C104 says what the entries are in every other history."
  },
  {
   "property": "C49",
   "status": "proved",
   "theorems": [
    "C49_columns",
    "C49_unique",
    "C49_argsort_exists"
   ],
   "note": "Every number of channels, window, scaling factor in [1,2], tie order of argsort and history of columns and shifts."
  },
  {
   "property": "C50",
   "status": "proved",
   "theorems": [
    "C50_unshifted",
    "C50_diagonals_partial",
    "C50_long_query_refuted",
    "C50_shifted_query_refuted",
    "C50_shifted_series_refuted"
   ],
   "note": "C50_unshifted is the property. C50_diagonals_partial: also with shifts, while they keep diagonals on their side; the refuted theorems show what happens otherwise."
  },
  {
   "property": "C25",
   "status": "proved",
   "theorems": [
    "C25_amounts",
    "C25_rejected"
   ],
   "note": "ints, floats (as exact rationals, nan and infinities) and other types"
  },
  {
   "property": "C60",
   "status": "proved",
   "theorems": [
    "C60_self_join",
    "C60_join",
    "C60_streaming"
   ],
   "note": "both calculators"
  },
  {
   "property": "C26",
   "status": "proved",
   "theorems": [
    "C26_join_partial",
    "C26_self",
    "C26_self_partial",
    "C26_self_refuted"
   ],
   "note": "C26_join_partial: every join. C26_self: every self-join and every buffer. C26_self_refuted: with buffer -1 the cells are not delivered once."
  },
  {
   "property": "C27",
   "status": "proved",
   "theorems": [
    "C27_work"
   ],
   "note": "for every sequence of earlier calls"
  },
  {
   "property": "C28",
   "status": "proved",
   "theorems": [
    "C28_interrupt"
   ],
   "note": "every sequence of requests and interruptions; interruption is an arbitrary function of the loop test"
  },
  {
   "property": "C29",
   "status": "proved",
   "theorems": [
    "C29_columns"
   ],
   "note": "for every state of the calculator, generators and consumers abstract"
  },
  {
   "property": "C30",
   "status": "proved",
   "theorems": [
    "C30_interrupt"
   ],
   "note": ""
  },
  {
   "property": "C31",
   "status": "proved",
   "theorems": [
    "C31_windows",
    "C31_shifts"
   ],
   "note": "every history of well-formed calls"
  },
  {
   "property": "C32",
   "status": "proved",
   "theorems": [
    "C32_columns",
    "C31_windows"
   ],
   "note": "every history of appends and calculate_columns without start"
  },
  {
   "property": "C11",
   "status": "proved",
   "theorems": [
    "C11_stats",
    "C11_rejected",
    "C11_sliding"
   ],
   "note": "finite real data, every sequence of appends; non-finite data and too short series are rejected"
  },
  {
   "property": "C12",
   "status": "proved",
   "theorems": [
    "C12_diagonals"
   ],
   "note": "finite real data, exact arithmetic, after any sequence of calculations"
  },
  {
   "property": "C13",
   "status": "proved",
   "theorems": [
    "C13_columns",
    "C13_columns_exact"
   ],
   "note": "exact arithmetic, any order of calls; squares of distances are at most 1e-15 too small because small values are clipped before they are reused, exact if no squared distance lies strictly between 0 and 1e-15"
  },
  {
   "property": "C14",
   "status": "partial",
   "theorems": [
    "C14_streaming_partial",
    "C14_streaming_exact_partial",
    "C14_streaming_diagonals_partial",
    "C14_streaming_refuted"
   ],
   "note": "proved for self-joins, for histories whose chunks arrive before the first column, when the window is full or take at most half of the free room, and for increasing columns; refuted otherwise (dropped points are miscounted)"
  },
  {
   "property": "C15",
   "status": "proved",
   "theorems": [
    "C15_bound",
    "C15_bound_streaming",
    "C15_numbers_partial",
    "C15_numbers_refuted"
   ],
   "note": "C15_bound: every history of calculations. C15_numbers_partial: no NaN if no squared distance lies strictly between 0 and 1e-15; C15_numbers_refuted: NaN occurs otherwise."
  },
  {
   "property": "C16",
   "status": "proved",
   "theorems": [
    "C16_diagonals"
   ],
   "note": "finite real data, exact arithmetic, after any sequence of calculations"
  },
  {
   "property": "C17",
   "status": "proved",
   "theorems": [
    "C17_columns"
   ],
   "note": "finite real data, exact arithmetic, any order of calls"
  },
  {
   "property": "C18",
   "status": "proved",
   "theorems": [
    "C18_agree"
   ],
   "note": "every noise level, every cell, after any sequence of calculations"
  },
  {
   "property": "C19",
   "status": "proved",
   "theorems": [
    "C19_range",
    "C19_symmetric",
    "C19_self",
    "C19_affine"
   ],
   "note": ""
  },
  {
   "property": "C20",
   "status": "proved",
   "theorems": [
    "C20_noise"
   ],
   "note": "every pair of noise levels"
  },
  {
   "property": "C21",
   "status": "partial",
   "theorems": [
    "C21_streaming_partial",
    "C21_streaming_refuted"
   ],
   "note": "as C14, for columns, diagonals and single cells with any noise level; refuted for the miscounted drops"
  },
  {
   "property": "C22",
   "status": "proved",
   "theorems": [
    "C22_mask"
   ],
   "note": ""
  },
  {
   "property": "C23",
   "status": "proved",
   "theorems": [
    "C23_filter",
    "C23_prepare",
    "C23_nonfinite_znorm",
    "C23_nonfinite_euclid"
   ],
   "note": "For every wrapped generator and every validity function; composed with the z-normalised and the Euclidean generator for data with NaN and infinities (Euclidean columns: data whose compared subsequences are equal or at least 1e-15 apart in squared distance)."
  },
  {
   "property": "C24",
   "status": "proved",
   "theorems": [
    "C24_masks",
    "C24_appends",
    "C24_chunks",
    "C24_nonfinite_znorm_partial",
    "C24_empty_refuted"
   ],
   "note": "Non-empty appends, as stated; the composition with the z-normalised generator is for the histories of C21_streaming_partial. Empty appends raise (m > 1) or corrupt the mask (m = 1): C24_empty_refuted."
  },
  {
   "property": "C58",
   "status": "proved",
   "theorems": [
    "C58_profile",
    "C58_complete",
    "C58_euclid",
    "C58_nonfinite"
   ],
   "note": "C58_profile: after any calls, each entry is the minimum over the delivered cells; C58_complete: after calls that complete, over all cells. Also for the Euclidean generator (data whose compared subsequences are equal or at least 1e-15 apart in squared distance) and for data with NaN and infinities under the filter."
  },
  {
   "property": "C61",
   "status": "proved",
   "theorems": [
    "C61_mixed"
   ],
   "note": ""
  },
  {
   "property": "C59",
   "status": "proved",
   "theorems": [
    "C59_stream",
    "C59_nonfinite",
    "C59_euclid",
    "C59_all_columns"
   ],
   "note": "Self-joins and joins. C59_nonfinite: behind the filter, for data with NaN and infinities. C59_euclid: data that are multiples of a quantum u with u*u >= 1e-15."
  },
  {
   "property": "C52",
   "status": "proved",
   "theorems": [
    "C52_consensus_motif",
    "C52_spec_radius",
    "C52_rejects"
   ],
   "note": "All collections of at least 2 finite series, all m >= 3, every argsort. The reported radius, series and subsequence are optimal for the definition (maximum over the other series of the best match); bad input raises RuntimeError. Over the reals."
  },
  {
   "property": "C53",
   "status": "partial",
   "theorems": [
    "C53_subset_motif_partial",
    "C53_subset_motif_refuted",
    "C53_spec_radius",
    "C53_spec_all",
    "C53_rejects"
   ],
   "note": "Proved for k = 2 and 3 (uninterrupted); refuted for k = 4: the index of the examined series does not depend on the loop variable, so a collection whose every radius is at least 2 is reported to have radius 0."
  },
  {
   "property": "C54",
   "status": "proved",
   "theorems": [
    "C54_anytime",
    "C54_complete",
    "C54_other_k"
   ],
   "note": "Finite data; reals; every shuffle, fraction sequence and interruption. get_radii(k_best <= 0) wraps around, k_best >= number of series raises."
  },
  {
   "property": "C55",
   "status": "proved",
   "theorems": [
    "C55_bound",
    "C55_distance",
    "C55_noise_refuted",
    "C55_flat_refuted"
   ],
   "note": "Over the reals. The bound ignores noise_std and the flatness threshold 1e-6; without the hypotheses on these it is unsound (the two _refuted theorems)."
  },
  {
   "property": "C56",
   "status": "proved",
   "theorems": [
    "C56_full"
   ],
   "note": "Finite data, reals, every noise_std >= 0, every argsort, cache size >= 1. Also describes the lists of lower bounds that are kept."
  },
  {
   "property": "C57",
   "status": "partial",
   "theorems": [
    "C57_motifs_partial",
    "C57_motifs_refuted",
    "C57_stuck",
    "C57_single",
    "C57_rejects",
    "C57_no_cache",
    "C57_cache_refuted"
   ],
   "note": "The complete function, over the reals, noise_std = 0, no nearly flat windows. It returns a top motif for every length, or raises ValueError because at some length every window could be pruned (np.min of an empty list); the latter happens. cache_size = 0 raises IndexError."
  },
  {
   "property": "C51",
   "status": "proved",
   "theorems": [
    "C51_restored",
    "C51_alive",
    "C51_recorded",
    "C51_transparent",
    "C51_foreign",
    "C51_restored_refuted",
    "C51_thread"
   ],
   "note": "All programs over with/try/raise/is_interrupted, SIGINT possible between any two steps. C51_foreign / C51_restored_refuted: without the condition on the entry handler (getsignal returns None) leaving raises TypeError and the catcher's handler stays installed."
  },
  {
   "property": "C62",
   "status": "proved",
   "theorems": [
    "C62_config_euclid",
    "C62_config_znorm",
    "C62_config_filter",
    "C62_query_euclid",
    "C62_query_znorm",
    "C62_query_filter"
   ],
   "note": "Any carrier; every history of successful calls; the filter for any wrapped generator."
  },
  {
   "property": "C63",
   "status": "partial",
   "theorems": [
    "C63_stats",
    "C63_raises",
    "C63_recovers_partial",
    "C63_same",
    "C63_stats_refuted",
    "C63_znorm_refuted"
   ],
   "note": "As stated it is refuted (C63_stats_refuted, C63_znorm_refuted: a wrong distance without exception). Proved instead: exactly when appends raise, what StreamingStats shows after any appends, and that a z-normalised self-join gives right results again once more than a window of points was accepted. C107: joins, and what is left in between."
  },
  {
   "property": "C64",
   "status": "proved",
   "theorems": [
    "C64_motifs",
    "C64_discords"
   ],
   "note": "Finite data, reals, every completing schedule."
  },
  {
   "property": "C65",
   "status": "proved",
   "theorems": [
    "C65_numbers",
    "C65_error",
    "C65_relative_refuted"
   ],
   "note": "Rounded reals (no overflow), successful calls. C65_relative_refuted is a run in binary64."
  },
  {
   "property": "C66",
   "status": "partial",
   "theorems": [
    "C66_columns_partial",
    "C66_binary64_partial",
    "C66_columns_refuted"
   ],
   "note": "As stated it is refuted by a run in binary64 on integer data. Proved: full calculations are numbers, derived columns are numbers or NaN; C66_binary64_partial for IEEE binary64 itself (data up to 2^200)."
  },
  {
   "property": "C67",
   "status": "proved",
   "theorems": [
    "C67_numbers",
    "C67_range_refuted"
   ],
   "note": "Rounded reals without overflow, successful calls, every noise_std. C67_range_refuted: in binary64 two constant windows get a distance above 10^6."
  },
  {
   "property": "C68",
   "status": "proved",
   "theorems": [
    "C68_euclidean",
    "C68_euclidean_batch",
    "C68_znorm",
    "C68_znorm_batch"
   ],
   "note": "Any carrier of numbers, no laws assumed; streaming and batch."
  },
  {
   "property": "C69",
   "status": "proved",
   "theorems": [
    "C69_numbers"
   ],
   "note": "IEEE binary64 (SpecFloat), streaming and batch, every legal history; the calls are shown to succeed."
  },
  {
   "property": "C70",
   "status": "proved",
   "theorems": [
    "C70_diagonals"
   ],
   "note": "IEEE binary64 (SpecFloat), streaming and batch, every legal history; the calls are shown to succeed."
  },
  {
   "property": "C71",
   "status": "proved",
   "theorems": [
    "C71_sliding_partial",
    "C71_sliding_refuted"
   ],
   "note": "C71_sliding_partial is the property (every window, window size >= 1), for any ordered numbers; pandas' rolling minimum is modelled by its documentation. C71_sliding_refuted: a window with an infinity does not give its minimum."
  },
  {
   "property": "C72",
   "status": "proved",
   "theorems": [
    "C72_exact",
    "C72_affected_partial",
    "C72_affected_refuted"
   ],
   "note": "C72_exact is the property; C72_affected_refuted: unaffected indices are returned and the documented maximum is not."
  },
  {
   "property": "C73",
   "status": "partial",
   "theorems": [
    "C73_columns_same",
    "C73_columns_partial",
    "C73_columns_refuted",
    "C73_diagonals_same",
    "C73_diagonals_partial",
    "C73_diagonals_refuted"
   ],
   "note": "Printing changes nothing and never raises, for every history; the lines are described exactly. Refuted: a complete calculation of columns ends below 100 percent, one of diagonals can end above it, with negative time left."
  },
  {
   "property": "C74",
   "status": "proved",
   "theorems": [
    "C74_matrix_values",
    "C74_zone"
   ],
   "note": ""
  },
  {
   "property": "C75",
   "status": "proved",
   "theorems": [
    "C75_getitem"
   ],
   "note": ""
  },
  {
   "property": "C76",
   "status": "partial",
   "theorems": [
    "C76_same",
    "C76_partial",
    "C76_finish",
    "C76_refuted"
   ],
   "note": "Refuted: at most once; a ThresholdCounter before the consumer that raised counts values twice. Proved for every history: nothing is lost, only right values are delivered, and the calculation can be completed. C106 says exactly what every consumer receives."
  },
  {
   "property": "C77",
   "status": "proved",
   "theorems": [
    "C77_profile"
   ],
   "note": ""
  },
  {
   "property": "C78",
   "status": "proved",
   "theorems": [
    "C78_consumers",
    "C78_profiles"
   ],
   "note": "Reals; the generators where they are exact (finite data unless filtered; for Euclidean no subsequences at a squared distance strictly between 0 and 1e-15)."
  },
  {
   "property": "C79",
   "status": "proved",
   "theorems": [
    "C79_distance_matrices"
   ],
   "note": "As C78."
  },
  {
   "property": "C80",
   "status": "proved",
   "theorems": [
    "C80_contextual"
   ],
   "note": "As C78; any contexts that GeneralStaticManager accepts, with a non-empty series context."
  },
  {
   "property": "C81",
   "status": "partial",
   "theorems": [
    "C81_counters_partial",
    "C81_counters_columns_partial",
    "C81_counters_refuted",
    "C81_main_diagonal_refuted"
   ],
   "note": "Proved for programs that calculate diagonals only (self-join: buffer >= 0) and for programs that calculate columns only; refuted for programs that do both and for buffer -1."
  },
  {
   "property": "C82",
   "status": "proved",
   "theorems": [
    "C82_radius"
   ],
   "note": "As C78."
  },
  {
   "property": "C83",
   "status": "proved",
   "theorems": [
    "C83_reservoir",
    "C83_reservoir_partial",
    "C83_reservoir_refuted",
    "C83_main_diagonal_refuted"
   ],
   "note": "C83_reservoir: every program, exact profile, index of a best match and exact probabilities. C83_reservoir_partial: uniformity for diagonals followed by columns (self-join: buffer >= 0); the refuted theorems show that it fails otherwise."
  },
  {
   "property": "C84",
   "status": "proved",
   "theorems": [
    "C84_multidim",
    "C84_multidim_refuted"
   ],
   "note": "Both when the program returns and what the profiles are; C84_multidim_refuted is a program that raises IndexError."
  },
  {
   "property": "C85",
   "status": "proved",
   "theorems": [
    "C85_columns",
    "C85_diagonals",
    "C85_diagonal_refuted",
    "C85_column_refuted"
   ],
   "note": "Batch generators, real arithmetic with NaN and infinities. The refuted theorems show finite subsequences whose distance is lost."
  },
  {
   "property": "C86",
   "status": "proved",
   "theorems": [
    "C86_consumers",
    "C86_told",
    "C86_profiles"
   ],
   "note": "All three generator kinds, real arithmetic (Euclidean on grid data), any channels and numbers of generators and consumers, any histories with interruptions."
  },
  {
   "property": "C87",
   "status": "proved",
   "theorems": [
    "C87_distance_matrices"
   ],
   "note": "As C86."
  },
  {
   "property": "C88",
   "status": "proved",
   "theorems": [
    "C88_multidim"
   ],
   "note": "As C86."
  },
  {
   "property": "C89",
   "status": "partial",
   "theorems": [
    "C89_contexts_partial",
    "C89_contexts_refuted"
   ],
   "note": "Proved for histories that drop no query context and whose columns are complete; refuted otherwise. C105 gives the exact result of all these programs."
  },
  {
   "property": "C90",
   "status": "proved",
   "theorems": [
    "C90_counters"
   ],
   "note": "Integer example; thresholds without NaN."
  },
  {
   "property": "C91",
   "status": "proved",
   "theorems": [
    "C91_radius"
   ],
   "note": "Integer examples, also with repeated ranks and with a diagonal."
  },
  {
   "property": "C92",
   "status": "proved",
   "theorems": [
    "C92_raises",
    "C92_classes"
   ],
   "note": "The classes of the model; integer example."
  },
  {
   "property": "C93",
   "status": "proved",
   "theorems": [
    "C93_profiles",
    "C93_thresholds",
    "C93_counters",
    "C93_radius0",
    "C93_radius"
   ],
   "note": "As C86; integer examples."
  },
  {
   "property": "C94",
   "status": "proved",
   "theorems": [
    "C94_classes",
    "C94_anytime",
    "C94_streaming"
   ],
   "note": "Integer examples for both calculators."
  },
  {
   "property": "C95",
   "status": "proved",
   "theorems": [
    "C95_anytime",
    "C95_streaming"
   ],
   "note": "Integer examples for both calculators."
  },
  {
   "property": "C96",
   "status": "partial",
   "theorems": [
    "C96_same",
    "C96_partial",
    "C96_appends",
    "C96_finish",
    "C96_consumer_refuted",
    "C96_generator_refuted"
   ],
   "note": "Proved when only calculate_columns raises and appends return or are rejected for their shape. Refuted when a generator or consumer raises during an append: the other generators have the points, consumers miss shifts."
  },
  {
   "property": "C97",
   "status": "partial",
   "theorems": [
    "C97_self_partial",
    "C97_join_partial",
    "C97_join_refuted"
   ],
   "note": "Proved for all generators of the package: self-joins, and joins whose client gives points to the series only before it has a subsequence, when its window is full, or at most half of what fits, and asks for columns when the query has a subsequence. Refuted for other joins: a column that is calculated again after a caught exception and an append gets wrong Euclidean distances."
  },
  {
   "property": "C98",
   "status": "proved",
   "theorems": [
    "C98_rounded",
    "C98_ends",
    "C98_monotone",
    "C98_rejects",
    "C98_fraction",
    "C98_fraction_refuted",
    "C98_exact_refuted"
   ],
   "note": "IEEE binary64. C98_rounded reduces a call with a float to a call with an int, to which the theorems on the calculators apply. The refuted statements are that the exact ceiling is always returned, and that k/n resolves to k."
  },
  {
   "property": "C99",
   "status": "proved",
   "theorems": [
    "C99_examined",
    "C99_examined_small",
    "C99_not_examined",
    "C99_all_series",
    "C99_agree",
    "C99_agree_subset",
    "C99_subset_below",
    "C99_too_large_refuted"
   ],
   "note": "Exact characterisation of find_consensus_motif_subset for every k on real-valued data, uninterrupted; with ten series and k = 5 it reports 2 where the radius is 0."
  },
  {
   "property": "C100",
   "status": "proved",
   "theorems": [
    "C100_columns",
    "C100_full",
    "C100_binary64",
    "C100_relative_refuted"
   ],
   "note": "Batch data with any columns and diagonals for derived columns; any history, streaming too, for columns that are calculated in full. C100_binary64 is the statement about IEEE doubles up to 2^200."
  },
  {
   "property": "C101",
   "status": "proved",
   "theorems": [
    "C101_columns",
    "C101_columns_exact",
    "C101_derived",
    "C101_iff",
    "C101_diagonals",
    "C101_znorm",
    "C101_trusted"
   ],
   "note": "Real arithmetic. Exact condition in place of the sufficient one of C14 and C21 (C101_trusted); after a wrong column, columns derived from it are not described until one is calculated in full."
  },
  {
   "property": "C102",
   "status": "proved",
   "theorems": [
    "C102_consumer",
    "C102_counters",
    "C102_right_iff"
   ],
   "note": "The exact counts of the programs for which C81 is refuted; all three generator kinds, real arithmetic (Euclidean on grid data)."
  },
  {
   "property": "C103",
   "status": "proved",
   "theorems": [
    "C103_series",
    "C103_query",
    "C103_refused",
    "C103_point"
   ],
   "note": "The exact state behind the refutations of C96."
  },
  {
   "property": "C104",
   "status": "proved",
   "theorems": [
    "C104_entries",
    "C104_unique",
    "C104_delivered",
    "C104_safe",
    "C48_safe_shifts"
   ],
   "note": "Every streaming manager, size, scaling factor and history; C104_unique: the value is determined by the set; C48_safe_shifts: when the sets are those of C48."
  },
  {
   "property": "C105",
   "status": "proved",
   "theorems": [
    "C105_contexts",
    "C105_safe"
   ],
   "note": "Every generator kind, window, manager and history of the programs of C86; the exact result where C89 is refuted."
  },
  {
   "property": "C106",
   "status": "proved",
   "theorems": [
    "C106_attempts",
    "C106_whole",
    "C106_once",
    "C106_counter",
    "C106_counter_last"
   ],
   "note": "The exact deliveries behind the refutation of C76; generators that raise and consumers that raise in any state."
  },
  {
   "property": "C107",
   "status": "proved",
   "theorems": [
    "C107_left",
    "C107_raises",
    "C107_self",
    "C107_join",
    "C107_fixed"
   ],
   "note": ""
  },
  {
   "property": "C108",
   "status": "proved",
   "theorems": [
    "C108_statistics",
    "C108_single",
    "C108_diagonal",
    "C108_column",
    "C108_one_by_one",
    "C108_column_one_by_one",
    "C108_chunks",
    "C108_chunks_one",
    "C108_silent"
   ],
   "note": ""
  }
 ]
}