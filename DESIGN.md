# Formal model of seriesdistancematrix in Rocq (Coq 8.16.1)

## 1. Approach

The Python code in `/repo/distancematrix` is modelled function by function as small total Gallina
functions.  Exceptions are values (`res T := Ok t | Err exn`).  NumPy arrays are lists; slices use the
Python slice rules (`Np.v`).  Mutation becomes returning the new state.  Loops become structural recursion
or recursion on fuel with an explicit error value, and the theorems show that the error is unreachable.

Numbers.  A distance is `num A`: `NaN | NInf | Fin a | PInf` with IEEE-style comparisons (every comparison
with NaN is false).  The finite carrier `A` is a parameter with an operations class `NumOps A`:

* definitions are polymorphic in `A`, so they run (`vm_compute`) on `Z`/`Qc`;
* consumer/calculator theorems hold for every `A` whose `<` is a strict total order (`OrdLaws A`);
* generator theorems are stated at `A := R` (exact real arithmetic, Coq's standard reals).

In these theorems NaN, infinities, comparisons and every tolerance constant (1e-15, 1e-12, 1e-6) are modelled, the rounding
of + - * / sqrt is not.  C65-C67 look at the generators again with rounding: the same definitions at `NumRnd rnd` (reals, every
operation followed by an arbitrary rounding function `rnd`) and at IEEE double precision (`InstF.v`).  C69 and C70 are about the latter.

## 2. Layers (files in `rocq/theories`)

* `Np.v`, `NpFacts.v`, `Mat.v`, `Inst.v`: result monad, Python slices, min/argmin/argsort, numbers, matrices, the
  instance of the number operations at `Z` for running the model.
* `InstF.v`: the instance at IEEE double precision (`SpecFloat` of the standard library), for running the generators with the
  rounding of the code.  `SRound.v`: real arithmetic in which every operation is followed by a rounding function.
* `M*.v`: the model (no proofs).  Every definition cites file and lines.
* `S*.v`: small specifications, independent of the model.  `SReal.v` has the mathematical definitions over the reals
  (mean, standard deviation, z-normalised distance) and the instance of the number operations at `R`.
* `P*.v`: lemmas and proofs.
* `Conf*.v`: the project's unit tests (`distancematrix/tests`), transcribed to `Example`s about the model, with the expected values of the tests.
  They compare the model with what the authors of the code observed.  Generators, Ostinato and VALMOD run in binary64 with the
  tolerances of the tests, the rest on integers.  Most binary64 tests are evaluated when the file is compiled and leave no proof term.  Left out: tests that depend on NumPy's random number generator, and tests of
  `sliding_mean_std` that would compare a definition with itself.
* `Prop*.v`: the property theorems, each followed by `Print Assumptions` and by an `Example` that meets the hypotheses
  with a non-trivial case.

Theorem names start with the property id.  `_partial` marks a theorem that proves less than the property, `_refuted` a
proof that the property as written is false of the code (with a concrete witness).

## 3. Approach per property

| id | modelled | proof |
|----|----------|-------|
| C01-C03 | `RingBuffer` (memory block, start, length; arbitrary initial memory) | refinement to "last N of the stream" by invariant over op lists; C03 refuted by witness for factor > 2 |
| C04, C05 | `diag_length`, `diag_indices`, `cut_indices_of` | arithmetic, membership characterisation |
| C06, C07 | DP table and backtracking | induction over the table; path relation as spec; fuel shown sufficient |
| C08 | N-d stride arithmetic over a flat memory | induction over dimensions |
| C09, C10 | generator as the list of yields | loop invariant on the masked array |
| C11 | `StreamingStats` over ring buffers, reals | corollary of C01 + capacity argument |
| C12-C15 | `BoundStreamingEuclidean` with caches | telescoping sums, cache invariant over histories; witnesses for the refuted parts |
| C16-C21 | `BoundZNormEuclidean` | algebra over R (Cauchy-Schwarz), same cache invariant |
| C22-C24 | `FilterGenerator` | loop invariant; ring-buffer refinement |
| C25-C32, C60 | calculators, generic in generators and consumers; interruption = oracle number of iterations | fold laws over event lists; counting of diagonal cells |
| C33-C45, C61 | consumers as state machines over events | invariant over event lists against a log of delivered cells |
| C46-C48 | context manager and contextual profile | membership characterisation, log invariant; witnesses |
| C49, C50 | multidimensional profile | log invariant; witnesses |
| C51 | small-step programs over a process state (installed handler, thread, cells of the catchers); an oracle delivers signals at any step | induction on programs |
| C52-C54 | the three Ostinato variants with the z-normalised generator model | loop invariants on pruning; witnesses |
| C55-C57 | VALMOD bound and loops with the z-normalised generator model | real algebra; loop invariants; witnesses |
| C58, C59 | calculator + generator + filter + profile, composed | corollaries |
| C64 | C58 followed by `lowest_value_idxs`/`highest_value_idxs` | corollary of C09, C10, C58 |
| C65-C67 | the generators over rounded reals, for every rounding function; runs in binary64 | finiteness and sign invariants over histories; forward error analysis of the running sums; witnesses |
| C68 | the generators over any number type | invariants on the lengths of the buffers and caches |
| C71, C72, C74, C75 | `MMisc.v` | direct; C74 from C26's counting lemmas, C75 from C01 |
| C73 | calculators with printing (`MProgress.v`) | simulation with the calculators without printing; invariant on the number of values calculated |
| C76, C77 | calculators whose generators, consumers and own fields keep their state when something raises (`MRaise.v`) | simulation with the calculators without exceptions; invariant over histories on what every consumer has received |
| C78-C84 | programs: calculator, generators, consumers of each class, calls (`SEndAll.v`) | what a consumer is told is the mixture of C61 of the matrices of its generators (`PEndAll.v`, `PEndKind.v`); then the theorem of each consumer class on such calls (`PEndCons.v`, `PEndMulti.v`) |
| C85 | Euclidean generator on NaN and infinities (`STaint.v`) | every operation keeps "not finite"; invariant on the cached column with the number of columns it goes back (`PTaint.v`) |
| C86–C89 | complete streaming programs: several channels, generators and consumers (`SEndStreamAll.v`) | C36/C59 for generators, then each consumer's own theorem on the events of the history (`PEndStreamAll.v`) |
| C90, C91 | consumers that only process columns (DistancedThresholdCounter, RadiusProfile) in complete programs (`SCols.v`) | C78 events are columns, or the program raises; then C42/C44 per column (`PEndCols.v`) |
| C92, C93 | consumers without shift methods in streaming programs | C86 events: a shift raises; without shifts they are columns of the complete stream (`PEndPlain.v`) |
| C94, C95 | consumers bound to several generators | steps depend on the first channel only; C78/C86 events of `firstn 1` of the generators |
| C96 | StreamingCalculator after exceptions | state-and-exception model (`MStreamRaise.v`) agrees with `MCalc.v`; invariant over runs with the events each consumer heard; refuted for appends that raise |
| C97 | profiles of streams after exceptions, with the generators of the package | C96 with the invariant "the generator is in the state after some calls in range"; the appends return by C96_appends; log of the events heard as cells; joins with the same simulation under a condition on chunk sizes (`paced (measured m W)`), refuted for other joins |
| C98 | fractions in double precision (`MRatio.v`) | the product is the rounded real product (Flocq); integers up to 2^53 are fixed by rounding, so the ceiling moves by at most one |
| C99 | Ostinato searches for every k and their agreement | repeated rounds with one distance give the k-th smallest of a multiset in which that distance is repeated; then C52, C53, C54 |
| C100 | Error of the columns of the Euclidean generator in floating point | error of dot products and of the recurrence by induction on the cached columns; the number of roundings and the extent of the data grow along the diagonal; then the simulation of C70 for binary64 |
| C101 | Which columns of a streaming generator are wrong | the invariant of C14 with the label and the true place of the kept column tracked apart (`kept_after`), for all histories |
| C102 | ThresholdCounter in any mixture of columns and diagonals | the cells delivered since the last delivery of the column, counted row by row with the weights of C83 (`PEndCount.v`) |
| C103 | state of a StreamingCalculator after an append that raises | loops over the generators and consumers up to the one that raised (`PropAppend.v`) |
| C104 | what every entry of a contextual profile stands for, dropped query contexts included | sets of delivered cells moved by the shifts (`SHeld.v`), the buffer beneath the replaced view (`PHeld.v`), `PropContextExact.v` |
| C105 | contextual profiles in streaming programs, every history | `C104_entries` for the events of C86 (`PropContextStream.v`) |
| C106 | attempts: which consumer gets which calls when something raises (`SAttempt.v`) | exact invariant over the calculator of `MRaise.v` (`PAttempt.v`); counters by `tc_of` |
| C107 | what rejected appends leave, and recovery from them | an invariant per series that survives rejections (`PRejectJoin.v`); a simulation of generators with outdated caches (`PRejectFixed.v`) |
| C108 | which statistics are held after rejected appends, and the cells calculated with them | the held statistics as a function of the chunks (`SStaleStats.v`, `PStaleStats.v`); points one by one (`PStaleOne.v`); columns (`PStaleColumn.v`); any chunks (`PStaleChunks.v`) |
| C69, C70 | the generators in binary64 (`InstF.v`) | simulation between binary64 and rounded reals (`PSim.v`, `PFloat.v`, `PBinary*.v`): bounds on magnitudes exclude overflow; then C65-C67 |
| C62, C63 | configuration checks; the state an append leaves when it raises (`MRejected.v`) | case analysis; a weaker invariant that survives rejections; witnesses |

## 4. Trusted base

### 4.1 Logic

* Coq 8.16.1: its kernel (type checker, including the `vm_compute` machine used by examples and witnesses) and the
  standard library.  No plugin, no axiom of our own, no admitted proof, no functor or module type.
* `Print Assumptions` of every theorem of the manifest lists one of the sets below.  The first three axioms are
  the axioms of Coq's standard library of real numbers; `Classical_Prop.classic`, also of the standard library, comes in with Flocq's
  theorems about binary64.


**Closed under the global context** (182 theorems):

`C01_window_is_last_n`, `C01_window_any_factor`, `C02_push_returns_dropped`, `C03_push_rejected_iff`,
`C03_push_total_partial`, `C03_push_total_refuted`, `C03_constructor_rejects`, `C04_diag_indices`, `C05_cut_indices`,
`C06_distances_optimal`, `C07_path_optimal`, `C07_infinite_cost_refuted`, `C08_window_view`, `C08_addresses`,
`C08_accepts_iff`, `C09_lowest_is_greedy`, `C09_order_and_cover`, `C10_highest_is_greedy`, `C10_order_and_cover`,
`C33_diagonals`, `C33_spec_unique`, `C34_column`, `C35_merged`, `C35_column_minimum`, `C36_exact`,
`C36_no_match_partial`, `C36_no_match_streaming`, `C36_column_index_refuted`, `C37_monotone`, `C38_streaming_history`,
`C38_streaming_merged`, `C39_diagonals`, `C39_merged`, `C39_column`, `C39_mixed`, `C39_nan_column_refuted`,
`C39_rejects`, `C40_left`, `C40_right`, `C40_merged`, `C40_column_left`, `C40_column_right`, `C40_mixed`,
`C41_diagonals`, `C41_column`, `C41_agree`, `C42_column`, `C42_picks`, `C42_scan_functional`, `C42_no_exclusion`,
`C42_nan_refuted`, `C43_kth_smallest`, `C43_unique`, `C43_init`, `C44_history`, `C44_kth_match_partial`,
`C44_any_ranks`, `C44_duplicates_refuted`, `C44_stale_refuted`, `C45_latest`, `C45_unique`, `C45_complete`,
`C45_too_long`, `C46_query_contexts`, `C46_series_contexts`, `C46_meaning`, `C46_init`, `C46_argsort_exists`,
`C47_rectangle_minimum`, `C47_unique`, `C48_shifts_partial`, `C48_block_manager`, `C48_roll_refuted`,
`C48_resurrection_refuted`, `C48_query_shift`, `C48_right_shift`, `C48_wrong_shift`, `C48_safe_shifts`, `C49_columns`,
`C49_unique`, `C49_argsort_exists`, `C50_unshifted`, `C50_diagonals_partial`, `C50_long_query_refuted`,
`C50_shifted_query_refuted`, `C50_shifted_series_refuted`, `C25_amounts`, `C25_rejected`, `C60_self_join`, `C60_join`,
`C60_streaming`, `C26_join_partial`, `C26_self`, `C26_self_partial`, `C26_self_refuted`, `C27_work`, `C28_interrupt`,
`C29_columns`, `C30_interrupt`, `C31_windows`, `C31_shifts`, `C32_columns`, `C22_mask`, `C23_filter`, `C23_prepare`,
`C24_masks`, `C24_appends`, `C24_chunks`, `C24_empty_refuted`, `C61_mixed`, `C59_all_columns`, `C51_restored`,
`C51_alive`, `C51_recorded`, `C51_transparent`, `C51_foreign`, `C51_restored_refuted`, `C51_thread`,
`C62_config_euclid`, `C62_config_znorm`, `C62_config_filter`, `C62_query_euclid`, `C62_query_znorm`,
`C62_query_filter`, `C63_same`, `C66_columns_refuted`, `C68_euclidean`, `C68_euclidean_batch`, `C68_znorm`,
`C68_znorm_batch`, `C71_sliding_partial`, `C71_sliding_refuted`, `C72_exact`, `C72_affected_partial`,
`C72_affected_refuted`, `C73_columns_same`, `C73_columns_partial`, `C73_columns_refuted`, `C73_diagonals_same`,
`C73_diagonals_partial`, `C73_diagonals_refuted`, `C74_matrix_values`, `C74_zone`, `C75_getitem`, `C76_same`,
`C76_partial`, `C76_finish`, `C76_refuted`, `C77_profile`, `C81_counters_refuted`, `C81_main_diagonal_refuted`,
`C83_reservoir_refuted`, `C83_main_diagonal_refuted`, `C84_multidim_refuted`, `C89_contexts_refuted`, `C96_same`,
`C96_partial`, `C96_appends`, `C96_finish`, `C96_consumer_refuted`, `C96_generator_refuted`, `C97_join_refuted`,
`C98_fraction_refuted`, `C99_examined_small`, `C99_not_examined`, `C101_trusted`, `C102_consumer`, `C103_series`,
`C103_query`, `C103_refused`, `C103_point`, `C104_entries`, `C104_unique`, `C104_delivered`, `C104_safe`,
`C106_attempts`, `C106_whole`, `C106_once`, `C106_counter`, `C106_counter_last`, `C107_left`, `C108_chunks_one`

**`ClassicalDedekindReals.sig_not_dec`, `ClassicalDedekindReals.sig_forall_dec`, `FunctionalExtensionality.functional_extensionality_dep`** (137 theorems):

`C11_stats`, `C11_rejected`, `C11_sliding`, `C12_diagonals`, `C13_columns`, `C13_columns_exact`,
`C14_streaming_partial`, `C14_streaming_exact_partial`, `C14_streaming_diagonals_partial`, `C14_streaming_refuted`,
`C15_bound`, `C15_bound_streaming`, `C15_numbers_partial`, `C15_numbers_refuted`, `C16_diagonals`, `C17_columns`,
`C18_agree`, `C19_range`, `C19_symmetric`, `C19_self`, `C19_affine`, `C20_noise`, `C21_streaming_partial`,
`C21_streaming_refuted`, `C23_nonfinite_znorm`, `C23_nonfinite_euclid`, `C24_nonfinite_znorm_partial`, `C58_profile`,
`C58_complete`, `C58_euclid`, `C58_nonfinite`, `C59_stream`, `C59_nonfinite`, `C59_euclid`, `C52_consensus_motif`,
`C52_spec_radius`, `C52_rejects`, `C53_subset_motif_partial`, `C53_subset_motif_refuted`, `C53_spec_radius`,
`C53_spec_all`, `C53_rejects`, `C54_anytime`, `C54_complete`, `C54_other_k`, `C55_bound`, `C55_distance`,
`C55_noise_refuted`, `C55_flat_refuted`, `C56_full`, `C57_motifs_partial`, `C57_motifs_refuted`, `C57_stuck`,
`C57_single`, `C57_rejects`, `C57_no_cache`, `C57_cache_refuted`, `C63_stats`, `C63_raises`, `C63_recovers_partial`,
`C63_stats_refuted`, `C63_znorm_refuted`, `C64_motifs`, `C64_discords`, `C65_numbers`, `C65_error`,
`C65_relative_refuted`, `C66_columns_partial`, `C67_numbers`, `C67_range_refuted`, `C78_consumers`, `C78_profiles`,
`C79_distance_matrices`, `C80_contextual`, `C81_counters_partial`, `C81_counters_columns_partial`, `C82_radius`,
`C83_reservoir`, `C83_reservoir_partial`, `C84_multidim`, `C85_columns`, `C85_diagonals`, `C85_diagonal_refuted`,
`C85_column_refuted`, `C86_consumers`, `C86_told`, `C86_profiles`, `C87_distance_matrices`, `C88_multidim`,
`C89_contexts_partial`, `C90_counters`, `C91_radius`, `C92_raises`, `C92_classes`, `C93_profiles`, `C93_thresholds`,
`C93_counters`, `C93_radius0`, `C93_radius`, `C94_classes`, `C94_anytime`, `C94_streaming`, `C95_anytime`,
`C95_streaming`, `C97_self_partial`, `C97_join_partial`, `C99_examined`, `C99_all_series`, `C99_agree`,
`C99_agree_subset`, `C99_subset_below`, `C99_too_large_refuted`, `C100_columns`, `C100_full`, `C100_relative_refuted`,
`C101_columns`, `C101_columns_exact`, `C101_derived`, `C101_iff`, `C101_diagonals`, `C101_znorm`, `C102_counters`,
`C102_right_iff`, `C105_contexts`, `C105_safe`, `C107_raises`, `C107_self`, `C107_join`, `C107_fixed`,
`C108_statistics`, `C108_single`, `C108_diagonal`, `C108_column`, `C108_one_by_one`, `C108_column_one_by_one`,
`C108_chunks`, `C108_silent`

**`ClassicalDedekindReals.sig_not_dec`, `ClassicalDedekindReals.sig_forall_dec`, `FunctionalExtensionality.functional_extensionality_dep`, `Classical_Prop.classic`** (9 theorems):

`C66_binary64_partial`, `C69_numbers`, `C70_diagonals`, `C98_rounded`, `C98_ends`, `C98_monotone`, `C98_rejects`,
`C98_fraction`, `C100_binary64`

**`ClassicalDedekindReals.sig_forall_dec`, `FunctionalExtensionality.functional_extensionality_dep`** (1 theorems):

`C98_exact_refuted`

### 4.2 That the model is the code

The correspondence between `M*.v` and the Python text is by reading.  It is not checked by machine, because the code
cannot be run here.  The project's own unit tests hold of the model (`Conf*.v`).  The definitions cite the lines they transcribe.

| file | modelled | not modelled |
|------|----------|--------------|
| `ringbuffer.py` | constructor, `push`, view, `__setitem__`, `num_dropped` results (`MRing.v`), `__getitem__`, `__delitem__` (`MMisc.v`) | keys other than integers and slices without step; dtype conversion |
| `util.py` | `diag_length`, `diag_indices`, `diag_indices_of`, `cut_indices_of`, `shortest_path_distances`, `shortest_path`, `sliding_window_view` (`MUtil.v`), `sliding_min`, `sliding_max` (`MMisc.v`, pandas by its documentation, window >= 1) | `writeable`, `subok` |
| `math_tricks.py` | everything (`MStats.v`) | how NumPy and Pandas sum up: the result is the exact value |
| `insights.py` | everything (`MInsights.v`); a generator is the list of its yields | laziness |
| `interrupt_util.py` | everything (`MInterrupt.v`) | signals between two bytecodes of one model step; other signals; other threads changing the handler |
| `calculator.py` | everything but the next column (`MCalc.v`; printing and timing in `MProgress.v`, fractions in double precision in `MRatio.v`, `num_dist_matrix_values` and `_find_invalid_subseq_idxs` in `MMisc.v`; the state of calculators after an exception in `MRaise.v` and `MStreamRaise.v`) | the text layout and output stream of the progress lines |
| `generator/euclidean.py` | everything (`MEuclid.v`, `MCache.v`) | |
| `generator/znorm_euclidean.py` | everything (`MZnorm.v`, `MCache.v`, `MRejected.v`) | |
| `generator/filter_generator.py` | everything (`MFilter.v`) | |
| `generator/abstract_generator.py`, `consumer/abstract_consumer.py` | the operations of the interfaces, as parameters of `MCalc.v` | |
| `tests/`, `docs/` | | not part of the package |
| `consumer/*.py` | every class (`MProfile.v`, `MReservoir.v`, `MDist.v`, `MCounters.v`, `MContext.v`, `MMulti.v`) | |
| `ostinato.py`, `valmod.py` | everything (`MOstinato.v`, `MValmod.v`) | tests of `ndim`, `print` |

Deliberate simplifications:

* Arithmetic is exact except in C65-C67, C69 and C70; C68 holds for any arithmetic.  NaN, infinities, comparisons and all tolerance constants are modelled; overflow, signed
  zeros and the order of summation are not.  Any other theorem about distances therefore describes the algorithm over the reals.
* C65-C67 quantify over rounding functions (`sane`, `accurate` in `SRound.v`).  Binary64 rounding without overflow is `sane`
  and `accurate` (`PFloat.v`, with Flocq); so is truncation to 53 bits (`chop_sane`).  Sums are left
  to right.  That is the order of `np.cumsum`, on which the error bound of C65 rests; NaN-freeness does not depend on the order.
  In C69 and C70 the operations are those of IEEE binary64, including overflow (the operations of `SpecFloat` round to nearest even).
  The witnesses in binary64 sum at most three values, where NumPy also goes from left to right, and have no overflow.
* Machine integers do not overflow; dtypes are not converted (a NaN written into an integer array, for instance).
* Arrays have the shapes the constructors produce.  An operation on arrays of different lengths raises; NumPy's
  broadcasting of one-element arrays is not modelled unless the code relies on it.
* NumPy views are modelled where aliasing matters (ring buffer, sliding windows); elsewhere values are copied.
* After an exception the state is not modelled, except in `MRejected.v`, `MInterrupt.v`, `MRaise.v` and `MStreamRaise.v`.

What the model leaves open is a universally quantified parameter (oracle) of the theorems: the contents of uninitialised
memory, the order of equal elements in `argsort`, the result of `random.shuffle`, random draws, the moment of an interrupt, the
iteration order of sets.

### 4.3 Specifications

The theorems say what `S*.v` says.  These files are short and must be read.  Each is used by an `Example` with concrete
data, and several theorems (`_unique`, `_complete`, `_functional`, `_meaning`) show that a specification determines the result.

## 5. Statements that are false of the code

* C03: with a scaling factor above 2 a chunk of more than a window can be rejected (`C03_push_total_refuted`).
* C07: with infinite costs `shortest_path` can raise UnboundLocalError (`C07_infinite_cost_refuted`).
* C14, C21, C101: a chunk that takes more than half of the free room of the series window makes a join overcount the dropped
  points (`append_series` compares the chunk with the room that is left after it), so a cached column gets a label that is too
  small, and the column after that label is derived from the wrong column.
* C15: the clipping of tiny squared distances to 0 is carried along the diagonal, where a later value can become negative and its
  root NaN.
* C24: an empty append makes the streaming filter raise, or shift its mask against the data (`C24_empty_refuted`).
* C26: `trivial_match_buffer = -1` delivers the main diagonal twice (and nothing else twice: `C26_self`).
* C36: `MatrixProfileLR.process_column` stores an index for a column of infinities (exactly when: `C36_exact`).
* C39: a NaN in a column makes the reservoir profile draw from an empty list, which raises (`C39_nan_column_refuted`).
* C42: NaN is counted as a match below every threshold (`C42_nan_refuted`).
* C44: trackers after a repeated rank are never filled; a column delivered twice leaves old values (exactly which: `C44_history`).
* C48: `shift_query` rolls in the wrong direction and old results come back; rolling is right only if all or exactly half of the contexts are dropped
  (`C48_query_shift`, `C48_right_shift`, `C48_wrong_shift`); `C104_entries` says which delivered cells every entry stands for after any history,
  `C48_safe_shifts` in which histories these are the intended ones.
* C50: diagonals below the main one raise IndexError when the query is longer than the series (exactly then: `C50_unshifted`); those of shifted
  profiles raise or are stored on the wrong side.
* C51: a handler that was not installed from Python cannot be restored (`C51_restored_refuted`).
* C53, C99: for k >= 4 the examined series does not depend on the loop variable: a wrong radius is reported, too small or too large.
* C55: with noise elimination, and with nearly flat windows, the lower bound is not a lower bound.
* C57: `find_variable_length_motifs` raises `ValueError` if every window of some length is pruned, and `IndexError` for
  `cache_size = 0`.
* C65: the error of a Euclidean diagonal is not relative to the distance: in binary64 a distance of 1 is calculated as 0
  (`C65_relative_refuted`).
* C66: in binary64 a Euclidean column that is derived from the previous one can contain NaN (`C66_columns_refuted`).
* C67: in binary64 constant windows of large values are not recognised as flat and get distances far above 2 sqrt m
  (`C67_range_refuted`).
* C71: pandas replaces infinities by NaN, so sliding_min of a window with an infinity is NaN (`C71_sliding_refuted`).
* C72: `_find_invalid_subseq_idxs` has a misplaced parenthesis and returns every index from 0 to a bound (`C72_affected_refuted`).
* C73: the progress of a complete calculation of columns ends below 100 percent, that of diagonals can end above it, with negative
  time left (`C73_columns_refuted`, `C73_diagonals_refuted`).
* C76: after an exception of a consumer, the consumers before it receive the same diagonal or column again (`C76_refuted`). `C106_attempts` says exactly who gets what again; consumers behind the ones that raise are not affected (`C106_once`).
* C81, C83: a calculator that calculates columns and diagonals delivers cells twice, a self-join with trivial_match_buffer -1 delivers the main
  diagonal twice: counts are too high (`C81_counters_refuted`, `C81_main_diagonal_refuted`; by how much: `C102_counters`), drawn indices are not uniform but proportional to the deliveries
  (`C83_reservoir_refuted`, `C83_main_diagonal_refuted`).
* C84: diagonals below the main one, with a query longer than the series, raise in MultidimensionalMatrixProfileLR (`C84_multidim`, exactly then; IndexError in
  `C84_multidim_refuted`).
* C85: without a FilterGenerator a NaN or infinity is also spread to distances of other subsequences: along the rest of the diagonal, and into
  the columns calculated after it (`C85_diagonal_refuted`, `C85_column_refuted`).
* C89: a ContextualMatrixProfile in a StreamingCalculator raises ValueError (`np.min` of an empty slice) when a column is calculated while a query
  context has no points yet (`C89_contexts_refuted`).
* C96: an exception during append_series or append_query leaves a StreamingCalculator inconsistent: other generators have the points although the
  calculator has not counted them (`C96_generator_refuted`), consumers behind the one that raised are not shifted and no further columns are
  calculated (`C96_consumer_refuted`).
* C97: in joins, a consumer exception that is caught in calculate_columns, followed by an append and a new calculation, gives silently wrong
  Euclidean distances to the other consumers: the column is calculated again from a cached column that is misplaced (the slip of C21;
  `C97_join_refuted`).  Self-joins are right, and joins in which chunks of the series arrive before it has a subsequence, in a full window,
  or take at most half of the room (`C97_join_partial`).
* C98: in double precision 0.07 of 100 columns are 8 columns (`C98_fraction_refuted`), and 0.1 of 10 columns are 1 although the double 0.1 is larger
  than 1/10 (`C98_exact_refuted`).
* C63: after a rejected append the statistics no longer belong to the data: the next distance is wrong, without exception.
* C108: a rejected chunk with finite points in it leaves wrong distances even when the bad points have left the window and nothing raises any more (`C108_silent`); appending point by point avoids that (`C108_one_by_one`).

## 6. Tests against wrong programs

`seeded/LOG.jsonl` has one line per deliberate error that was put into the model: the definition, the edit, the claim it breaks, the
theorems whose proofs failed, and the theorems that were tightened because the error was not noticed.
