{"id": "C01", "title": "RingBuffer shows the last N points of the stream", "statement": "After constructing a RingBuffer of length N (scaling factor between 1 and 2) and any sequence of pushes and in-place item writes, the visible window contains exactly the last min(N, total) points of the stream, in order, with each item write applied to the point it targeted.", "quantifier": "every window length N >= 1, every scaling factor in [1,2], every initial memory content, every element type, every finite sequence of push/setitem operations with every chunk length (including 0 and chunks larger than N)", "why_tests_cant": "The internal buffer wraps at positions that depend on the whole history of chunk lengths; tests sample a handful of histories.", "anchors": ["distancematrix/ringbuffer.py:RingBuffer.__init__", "distancematrix/ringbuffer.py:RingBuffer.push", "distancematrix/ringbuffer.py:RingBuffer.__setitem__"]}
{"id": "C02", "title": "push reports how many points left the window", "statement": "The integer returned by push equals (points visible before + points pushed) - (points visible after), and is 0 exactly when nothing was dropped.", "quantifier": "every reachable buffer state and every chunk", "why_tests_cant": "The value is computed in three different branches (partial fill, slide, reset) that depend on history.", "anchors": ["distancematrix/ringbuffer.py:RingBuffer.push"]}
{"id": "C03", "title": "When push accepts a chunk", "statement": "For every documented scaling factor (>= 1) and every reachable state, push raises ValueError exactly if more than a window of points is left over after filling the window while these still fit behind the window in memory (so never for factors <= 2 nor for chunks not larger than the window, but for some chunks with larger factors); otherwise it succeeds and the backing memory keeps its size. The constructor raises RuntimeError exactly if neither data nor shape and dtype are given.", "quantifier": "every scaling factor >= 1, every reachable state, every chunk length", "why_tests_cant": "A failing combination needs a large factor, a full window and an oversized chunk at once.", "anchors": ["distancematrix/ringbuffer.py:RingBuffer.push", "distancematrix/generator/euclidean.py:Euclidean.__init__"]}
{"id": "C04", "title": "A diagonal is enumerated exactly", "statement": "diag_length(h,w,d) is the number of cells (r,c) of an h x w matrix with c-r=d, and diag_indices(h,w,d) lists exactly these cells, each once, from top-left to bottom-right.", "quantifier": "every h, w >= 0 and every integer d (also outside the matrix)", "why_tests_cant": "Universal over matrix shapes and diagonal indices.", "anchors": ["distancematrix/util.py:diag_length", "distancematrix/util.py:diag_indices"]}
{"id": "C05", "title": "A cut is enumerated exactly", "statement": "cut_indices_of lists exactly the cells (r,c) with r+c=cut, each once, from bottom-left to top-right, and nothing for cuts outside the matrix.", "quantifier": "every matrix shape and every integer cut index", "why_tests_cant": "Universal over shapes and cuts; four boundary regimes.", "anchors": ["distancematrix/util.py:cut_indices_of"]}
{"id": "C06", "title": "shortest_path_distances is optimal", "statement": "Every entry (i,j) of the result is the cost of some monotone path (steps right, down, diagonal) from (0,0) to (i,j) and is not larger than the cost of any such path.", "quantifier": "every non-empty rectangular matrix of finite costs and every monotone path", "why_tests_cant": "The number of paths grows exponentially with the matrix.", "anchors": ["distancematrix/util.py:shortest_path_distances"]}
{"id": "C07", "title": "shortest_path terminates with an optimal path", "statement": "For finite costs shortest_path returns a path that starts at (0,0), ends at the bottom-right corner, uses only single right/down/diagonal steps, and whose total cost is minimal among all such paths. (Refuted when costs may be infinite: the function fails with an unbound step.)", "quantifier": "every non-empty rectangular matrix of finite costs", "why_tests_cant": "Termination and optimality over all matrices; ties and borders steer the backtracking.", "anchors": ["distancematrix/util.py:shortest_path"]}
{"id": "C08", "title": "sliding_window_view reads the right elements and stays in bounds", "statement": "For valid window shape and step, the returned view has shape ((x.shape-shape)//step+1, shape), its element at window position i and offset j is x[i*step+j], no element outside x is ever addressed, and one more window along any axis would not fit; invalid arguments are rejected.", "quantifier": "every number of dimensions, array shape, memory strides (also negative), window shape and step", "why_tests_cant": "Uses raw stride arithmetic (as_strided): an out-of-bounds read is silent, and depends on all shapes/strides.", "anchors": ["distancematrix/util.py:sliding_window_view"]}
{"id": "C09", "title": "lowest_value_idxs is the greedy exclusion order", "statement": "The generator terminates; the k-th index yielded has the lowest finite value (lowest index on ties) among positions further than exclude_distance from all previously yielded ones; every finite position ends up within exclude_distance of a yielded index whose value is not larger; values are yielded in non-decreasing order.", "quantifier": "every non-empty 1-D array (with NaN/inf entries) and every exclude_distance >= 0", "why_tests_cant": "Depends on the interplay of all positions and all exclusion zones; arbitrary NaN/inf placement.", "anchors": ["distancematrix/insights.py:lowest_value_idxs"]}
{"id": "C10", "title": "highest_value_idxs mirrors lowest_value_idxs", "statement": "highest_value_idxs yields, greedily and with the same exclusion rule, the indices of the highest finite values, in non-increasing value order.", "quantifier": "every non-empty 1-D array and exclude_distance >= 0", "why_tests_cant": "As C09.", "anchors": ["distancematrix/insights.py:highest_value_idxs"]}
{"id": "C11", "title": "StreamingStats tracks the window exactly", "statement": "After any sequence of appends of finite data, data is the last N points and mean/std are exactly the mean and population standard deviation of every length-m subwindow of that data.", "quantifier": "every initial series, m <= len(series), every sequence of finite chunks of any length", "why_tests_cant": "Depends on the whole append history through three ring buffers.", "anchors": ["distancematrix/math_tricks.py:StreamingStats", "distancematrix/math_tricks.py:sliding_mean_std"]}
{"id": "C12", "title": "Euclidean diagonals are the Euclidean distances", "statement": "calc_diagonal(d) returns, for every cell of diagonal d of the distance matrix, sqrt(sum of squared differences) of the two subsequences.", "quantifier": "all finite series and queries, every m >= 1, every diagonal that contains at least one cell", "why_tests_cant": "Computed from running sums; equality must hold for all data and all diagonals.", "anchors": ["distancematrix/generator/euclidean.py:BoundStreamingEuclidean.calc_diagonal"]}
{"id": "C13", "title": "Euclidean columns are the Euclidean distances, in any call order", "statement": "Whatever columns were asked before and in whatever order, calc_column(c) returns for every query row the Euclidean distance of the two subsequences; the squared value is within 1e-15 of the true one, and exact if no compared pair lies strictly between 0 and 1e-15.", "quantifier": "all finite series/queries, every m, every finite sequence of calc_column/calc_diagonal calls", "why_tests_cant": "The incremental path reuses a cached column and cached first row; correctness depends on the call history.", "anchors": ["distancematrix/generator/euclidean.py:BoundStreamingEuclidean.calc_column", "distancematrix/generator/euclidean.py:_euclidean_distance_squared"]}
{"id": "C14", "title": "Streaming Euclidean equals batch Euclidean", "statement": "After any interleaving of append_series, append_query and calc_column/calc_diagonal calls, calc_column returns the distances of the data currently in the windows. (Refuted: when an append partly fills the series window of a non-self-join, a re-requested column can be computed from the wrong cached column. Proved for self-joins, and for non-self-joins when the appended chunk does not trigger the miscounted drop.)", "quantifier": "every window size, every history of appends and calculations", "why_tests_cant": "Only specific append lengths relative to the free window space followed by re-calculation of a specific column expose it.", "anchors": ["distancematrix/generator/euclidean.py:BoundStreamingEuclidean.append_series", "distancematrix/generator/euclidean.py:BoundStreamingEuclidean.append_query", "distancematrix/generator/euclidean.py:BoundStreamingEuclidean.calc_column"]}
{"id": "C15", "title": "When Euclidean distances of finite data are NaN", "statement": "In exact arithmetic calc_column on finite data returns, after any calculations in any order, numbers between 0 and the distance whose square is less than 1e-15 too small, or NaN for distances whose square is less than 1e-15; if no compared pair has a squared distance strictly between 0 and 1e-15 it returns the distances. NaN does occur: clipping tiny squared distances to 0 makes the incremental update negative. The same for streams whose columns are right by C14.", "quantifier": "all finite data, all call histories", "why_tests_cant": "Needs two near-equal subsequences followed by an exactly equal pair on the same diagonal.", "anchors": ["distancematrix/generator/euclidean.py:_euclidean_distance_squared", "distancematrix/generator/euclidean.py:BoundStreamingEuclidean.calc_column"]}
{"id": "C16", "title": "Z-normalised diagonals match the definition", "statement": "calc_diagonal returns for every cell: 0 if both subsequences are flat (std <= 1e-6), sqrt(m) if exactly one is, otherwise the Euclidean distance of the z-normalised subsequences (squared values below 1e-12 become 0).", "quantifier": "all finite series/queries, every m >= 1, every diagonal with at least one cell, noise_std = 0", "why_tests_cant": "Algebraic identity between the dot-product formula over cumulative sums and the definition, for all data.", "anchors": ["distancematrix/generator/znorm_euclidean.py:BoundZNormEuclidean.calc_diagonal"]}
{"id": "C17", "title": "Z-normalised columns match the definition in any call order", "statement": "Same statement for calc_column, whatever columns/diagonals were requested before and in whatever order.", "quantifier": "all finite data, all m, every finite sequence of calls", "why_tests_cant": "Incremental dot products and first-row cache depend on the call history.", "anchors": ["distancematrix/generator/znorm_euclidean.py:BoundZNormEuclidean.calc_column"]}
{"id": "C18", "title": "calc_single, calc_column and calc_diagonal agree", "statement": "For every cell (row, column) and every noise_std >= 0 the three methods give the same distance, also when calc_single is handed the correct dot product.", "quantifier": "all data, all cells, all noise levels", "why_tests_cant": "Three separate code paths with different masking must agree on all flat/non-flat combinations.", "anchors": ["distancematrix/generator/znorm_euclidean.py:BoundZNormEuclidean.calc_single", "distancematrix/generator/znorm_euclidean.py:BoundZNormEuclidean.calc_column", "distancematrix/generator/znorm_euclidean.py:BoundZNormEuclidean.calc_diagonal"]}
{"id": "C19", "title": "Z-normalised distance has the expected geometry", "statement": "It lies in [0, 2*sqrt(m)], is symmetric, is 0 between a subsequence and itself, and does not change when a non-flat subsequence is shifted or scaled by a positive factor that keeps it non-flat.", "quantifier": "all subsequences of all lengths", "why_tests_cant": "Real inequalities over arbitrary data.", "anchors": ["distancematrix/generator/znorm_euclidean.py:BoundZNormEuclidean.calc_single"]}
{"id": "C20", "title": "Noise elimination only lowers distances", "statement": "With noise_std > 0 every distance is at least 0 and at most the distance without noise elimination; larger noise_std gives lower or equal distances.", "quantifier": "all data, all cells, all noise levels", "why_tests_cant": "Real inequality over all data.", "anchors": ["distancematrix/generator/znorm_euclidean.py:BoundZNormEuclidean.calc_single", "distancematrix/generator/znorm_euclidean.py:BoundZNormEuclidean.calc_column"]}
{"id": "C21", "title": "Streaming z-normalised generator equals batch", "statement": "After any interleaving of appends and calculations the distances are those of the data in the current windows, including per-window mean/std and flatness. (Same drop-miscount exception as C14.)", "quantifier": "every window size, every history", "why_tests_cant": "As C14, plus three more ring buffers that must stay aligned with the data window.", "anchors": ["distancematrix/generator/znorm_euclidean.py:BoundZNormEuclidean.append_series", "distancematrix/generator/znorm_euclidean.py:BoundZNormEuclidean.append_query", "distancematrix/generator/znorm_euclidean.py:BoundZNormEuclidean.calc_column"]}
{"id": "C22", "title": "A subsequence is invalid iff it contains an invalid point", "statement": "The mask built from point validity marks window i exactly when one of its m points is invalid.", "quantifier": "every boolean array of length >= m and every m >= 1", "why_tests_cant": "Uses a countdown whose correctness depends on all earlier positions.", "anchors": ["distancematrix/generator/filter_generator.py:_invalid_data_to_invalid_subseq"]}
{"id": "C23", "title": "FilterGenerator yields infinity exactly for invalid subsequences", "statement": "calc_diagonal/calc_column of a filtered generator return +inf for every cell whose row or column subsequence contains an invalid point, and otherwise the wrapped generator's value on the data with invalid points replaced by 0.", "quantifier": "all data, all validity functions, all wrapped generators, all diagonals and columns", "why_tests_cant": "Universal over data, masks and diagonals (positive and negative offsets).", "anchors": ["distancematrix/generator/filter_generator.py:BoundFilterGenerator.calc_diagonal", "distancematrix/generator/filter_generator.py:BoundFilterGenerator.calc_column", "distancematrix/generator/filter_generator.py:FilterGenerator.prepare"]}
{"id": "C24", "title": "Streaming filter equals batch filter for every chunking", "statement": "After any sequence of non-empty appends the subsequence masks are those of the current data window, independent of how the data was chunked. (Refuted for empty appends: they raise, or corrupt the mask for m = 1.)", "quantifier": "every window size, m, every sequence of chunks", "why_tests_cant": "Mask buffer and data window must stay aligned through arbitrary chunk lengths.", "anchors": ["distancematrix/generator/filter_generator.py:BoundStreamingFilterGenerator.append_series", "distancematrix/generator/filter_generator.py:BoundStreamingFilterGenerator.append_query"]}
{"id": "C25", "title": "Requested amounts are clipped and rounded as documented", "statement": "An int request is clamped to [0, limit]; a float ratio in [0,1] becomes the smallest integer >= ratio*total, clamped to the limit; ratios outside [0,1] are rejected.", "quantifier": "every request value, total and limit", "why_tests_cant": "Universal arithmetic.", "anchors": ["distancematrix/calculator.py:_ratio_to_int"]}
{"id": "C26", "title": "How often a complete diagonal calculation delivers every cell", "statement": "After calculate_diagonals(1.0), whatever the shuffled order, a non-self-join has delivered every cell of the distance matrix to every consumer exactly once, a self-join every cell with |row-column| > trivial_match_buffer exactly once and no other, except that with trivial_match_buffer = -1 the cells of the main diagonal are delivered twice.", "quantifier": "every matrix size, every shuffle, every trivial match buffer, every set of consumers", "why_tests_cant": "All shuffles and sizes.", "anchors": ["distancematrix/calculator.py:AnytimeCalculator.__init__", "distancematrix/calculator.py:AnytimeCalculator.calculate_diagonals"]}
{"id": "C27", "title": "calculate_diagonals does the amount of work asked for and stops", "statement": "It never runs out of diagonals, stops as soon as the requested number of values is reached, overshoots by less than one diagonal, and never recalculates a diagonal.", "quantifier": "every size, shuffle, sequence of partial requests", "why_tests_cant": "Universal over sizes, orders and request sequences; an off-by-one in the total would index past the end.", "anchors": ["distancematrix/calculator.py:AnytimeCalculator.calculate_diagonals"]}
{"id": "C28", "title": "Interrupting or splitting a diagonal calculation changes nothing", "statement": "Any sequence of partial/interrupted calculate_diagonals calls leaves consumers in exactly the state of one uninterrupted call that computes the same number of diagonals; repeating an interrupted call completes it with the same final result.", "quantifier": "every sequence of requests and every interruption point", "why_tests_cant": "All crash points/schedules.", "anchors": ["distancematrix/calculator.py:AnytimeCalculator.calculate_diagonals", "distancematrix/interrupt_util.py:interrupt_catcher"]}
{"id": "C29", "title": "calculate_columns delivers exactly the requested columns, masked", "statement": "Consumers receive exactly columns start..upto-1 in order; each carries the generator's values with +inf exactly at rows within trivial_match_buffer of the column (self-join).", "quantifier": "every size, start, upto, trivial match buffer, generator", "why_tests_cant": "Universal over sizes and ranges incl. boundary clipping of the trivial-match zone.", "anchors": ["distancematrix/calculator.py:AbstractCalculator.calculate_columns"]}
{"id": "C30", "title": "Interrupting or splitting a column calculation changes nothing", "statement": "Any sequence of calculate_columns(upto=..) calls without explicit start, each possibly interrupted anywhere, equals one call over the union: every column is delivered once, in order.", "quantifier": "every sequence of requests, every interruption point", "why_tests_cant": "All crash points/schedules.", "anchors": ["distancematrix/calculator.py:AbstractCalculator.calculate_columns"]}
{"id": "C31", "title": "Streaming bookkeeping agrees with the data windows", "statement": "After any history of appends, the number of available columns/rows equals the number of complete subsequences in the windows, and the total shift announced to every consumer equals the number of points dropped from the windows.", "quantifier": "every window size, every sequence of chunks, self-join or not", "why_tests_cant": "Depends on the entire append history.", "anchors": ["distancematrix/calculator.py:StreamingCalculator.append_series", "distancematrix/calculator.py:StreamingCalculator.append_query", "distancematrix/calculator.py:StreamingCalculator._max_column"]}
{"id": "C32", "title": "Streaming never skips or repeats a column", "statement": "With default start, across any interleaving of append_series and (possibly interrupted) calculate_columns, no absolute column is delivered twice, and after an uninterrupted calculate_columns() every column in the window that was still in reach has been delivered.", "quantifier": "every history of appends and calculations", "why_tests_cant": "History dependent.", "anchors": ["distancematrix/calculator.py:StreamingCalculator.append_series", "distancematrix/calculator.py:AbstractCalculator.calculate_columns"]}
{"id": "C33", "title": "Left/right matrix profile over any set of diagonals", "statement": "After processing any diagonals in any order, left (right) profile entry c holds the smallest delivered distance in column c at a row <= c (> c) and its index entry the row of the first delivered smallest one; entries with no finite delivered value are +inf with index -1.", "quantifier": "every matrix (incl. NaN/inf), every sequence of diagonals", "why_tests_cant": "All subsets and orders of diagonals.", "anchors": ["distancematrix/consumer/matrix_profile_lr.py:MatrixProfileLR.process_diagonal", "distancematrix/consumer/matrix_profile_lr.py:MatrixProfileLR._update_matrix_profile"]}
{"id": "C34", "title": "Left/right matrix profile over columns", "statement": "After process_column(c) the left/right entries of column c are the minima over rows <= c / > c with the lowest minimising row, and other columns are untouched.", "quantifier": "every column length, index, NaN-free values", "why_tests_cant": "Universal.", "anchors": ["distancematrix/consumer/matrix_profile_lr.py:MatrixProfileLR.process_column"]}
{"id": "C35", "title": "Merged profile is the column minimum", "statement": "matrix_profile() is entry-wise the smaller of left and right and profile_index() is the index belonging to that side, hence after complete NaN-free processing by columns, by diagonals or any mix, matrix_profile()[c] is the minimum of column c.", "quantifier": "every matrix, every mix of row/diagonal processing that covers it", "why_tests_cant": "All interleavings.", "anchors": ["distancematrix/consumer/matrix_profile_lr.py:MatrixProfileLR.matrix_profile", "distancematrix/consumer/matrix_profile_lr.py:MatrixProfileLR.profile_index"]}
{"id": "C36", "title": "Index of an entry without match", "statement": "For diagonals and for the streaming consumer the index is -1 whenever the profile entry is +inf. For MatrixProfileLR after any mixture of diagonals and NaN-free columns, the index of an infinite left entry c is -1 if column c was never delivered as a column and 0 otherwise; that of an infinite right (or merged) entry is -1 if column c was never delivered as a column with rows below the main diagonal and c+1 otherwise, so 'index -1 iff no match' is false for columns.", "quantifier": "every matrix, mixture of columns and diagonals, history", "why_tests_cant": "Needs fully masked columns and mixed histories.", "anchors": ["distancematrix/consumer/matrix_profile_lr.py:MatrixProfileLR.process_column", "distancematrix/consumer/matrix_profile_lr.py:MatrixProfileLR.process_diagonal", "distancematrix/consumer/matrix_profile_lr.py:ShiftingMatrixProfileLR.process_column"]}
{"id": "C37", "title": "Anytime results are monotone upper bounds", "statement": "While diagonals are being added, no matrix profile entry ever increases, and every entry is at least the entry of the fully calculated profile.", "quantifier": "every matrix, every sequence of diagonals", "why_tests_cant": "All prefixes of all orders.", "anchors": ["distancematrix/consumer/matrix_profile_lr.py:MatrixProfileLR.process_diagonal", "distancematrix/calculator.py:AnytimeCalculator.calculate_diagonals"]}
{"id": "C38", "title": "Streaming matrix profile over any history", "statement": "After any history of column/diagonal processing and series/query shifts, ShiftingMatrixProfileLR's left (right) entry for a window column is the smallest distance ever delivered for that absolute column at an absolute row <= (>) it, the index is the absolute query position of the first such delivery, and entries of newly arrived columns are +inf/-1.", "quantifier": "every history, scale factor in [1,2], shifts of any size in any order", "why_tests_cant": "History dependent; five ring buffers must stay aligned.", "anchors": ["distancematrix/consumer/matrix_profile_lr.py:ShiftingMatrixProfileLR"]}
{"id": "C39", "title": "Reservoir profile: value, count and index are right for every random outcome", "statement": "After any diagonals, the profile is the minimum, num_matches is the number of delivered cells attaining it and the index is one of their rows, whatever the random generator returns; the merged index always points at a cell attaining the merged profile. In a mixture of diagonals and columns the same holds for the cells delivered since the column itself was last delivered.", "quantifier": "every matrix, order, and every outcome of the random source", "why_tests_cant": "All random outcomes.", "anchors": ["distancematrix/consumer/matrix_profile_lr.py:MatrixProfileLRReservoir"]}
{"id": "C40", "title": "Reservoir index is uniformly distributed over ties", "statement": "If k delivered finite cells tie for the minimum, each of their rows is stored with probability exactly 1/k.", "quantifier": "every sequence of deliveries, every number of ties", "why_tests_cant": "Statistical property; tests can only estimate it.", "anchors": ["distancematrix/consumer/matrix_profile_lr.py:MatrixProfileLRReservoir._update_matrix_profile"]}
{"id": "C41", "title": "ThresholdCounter counts exactly the delivered values", "statement": "After any diagonals, counts[t][c] is the number of delivered values of column c that are <= threshold t; process_column sets it to the number in that column; both agree after complete processing.", "quantifier": "every matrix, threshold list, sequence of diagonals", "why_tests_cant": "Universal.", "anchors": ["distancematrix/consumer/threshold_counter.py:ThresholdCounter"]}
{"id": "C42", "title": "DistancedThresholdCounter counts separated matches greedily", "statement": "process_column adds to counts[t] the number of values <= threshold t picked by scanning values in ascending order and skipping any within `exclusion` of an earlier pick; picks are pairwise more than `exclusion` apart and every value <= threshold is within `exclusion` of a pick that is not larger.", "quantifier": "every NaN-free column, sorted thresholds, exclusion, every tie order of argsort", "why_tests_cant": "Universal over values, ties and exclusion zones.", "anchors": ["distancematrix/consumer/threshold_counter.py:DistancedThresholdCounter.process_column"]}
{"id": "C43", "title": "RadiusProfile0 stores the k-th smallest distance", "statement": "values[t][c] is the k-th smallest (k = t-th sorted track index, 0-based) value of column c, NaN if the column has too few values.", "quantifier": "every column and track index list", "why_tests_cant": "Universal.", "anchors": ["distancematrix/consumer/radius_profile.py:RadiusProfile0.process_column"]}
{"id": "C44", "title": "RadiusProfile stores the distance of the k-th non-trivial match", "statement": "After any sequence of columns, the entry of rank k and column c is the distance of the k-th match, in lowest_value_idxs order, of the last delivery of column c that had a k-th match, and NaN if none had one; it is always NaN if some rank <= k is listed twice in track_indices (its second tracker and all later ones are never filled). With distinct ranks and each column delivered once this is the k-th match of the column.", "quantifier": "every sequence of columns (NaN, infinite and repeated ones included), exclusion, list of tracked k", "why_tests_cant": "Universal over values, histories and k lists.", "anchors": ["distancematrix/consumer/radius_profile.py:RadiusProfile.process_column"]}
{"id": "C45", "title": "DistanceMatrix mirrors the delivered cells", "statement": "After any history of diagonals, columns and shifts, entry (r,c) is the last value delivered for that absolute cell since it entered the window, or NaN if none. A diagonal or column with more values than cells is a ValueError, except a single value for a diagonal without cells, which changes nothing.", "quantifier": "every matrix size, history and shift amounts", "why_tests_cant": "History dependent.", "anchors": ["distancematrix/consumer/distance_matrix.py:DistanceMatrix"]}
{"id": "C46", "title": "Context lookup returns exactly the overlapping contexts", "statement": "query_contexts(a,b) and series_contexts(a,b) return exactly the non-empty context ranges that intersect [a,b), with the id of the context they were given for.", "quantifier": "every list of contexts (nested or not), every range a <= b", "why_tests_cant": "Four code paths with sorted lookups must agree on all inputs.", "anchors": ["distancematrix/consumer/contextmanager.py:GeneralStaticManager.query_contexts", "distancematrix/consumer/contextmanager.py:GeneralStaticManager.series_contexts", "distancematrix/consumer/contextmanager.py:GeneralStaticManager.__init__"]}
{"id": "C47", "title": "Contextual matrix profile is the rectangle minimum", "statement": "After processing any diagonals and/or columns, entry (i,j) is the minimum of the delivered distances whose row lies in query context i and column in series context j (+inf if none), and the match indices name a delivered cell attaining it (-1 if none).", "quantifier": "every NaN-free matrix, contexts (overlapping, multi-range, out of bounds), any sequence of diagonals/columns", "why_tests_cant": "Universal over context layouts and processing orders.", "anchors": ["distancematrix/consumer/contextual_matrix_profile.py:ContextualMatrixProfile.process_diagonal", "distancematrix/consumer/contextual_matrix_profile.py:ContextualMatrixProfile.process_column"]}
{"id": "C48", "title": "Contextual profile follows shifts", "statement": "shift_series(n)/shift_query(n) move the context matrix by the number of contexts that left, keep surviving contexts' results and blank the new ones. (Refuted for shift_query: rows are rolled the wrong way and later series shifts resurrect stale data.)", "quantifier": "every context matrix size and shift history", "why_tests_cant": "The only shipped test uses two rows, where both roll directions coincide.", "anchors": ["distancematrix/consumer/contextual_matrix_profile.py:ContextualMatrixProfile.shift_series", "distancematrix/consumer/contextual_matrix_profile.py:ContextualMatrixProfile.shift_query"]}
{"id": "C49", "title": "Multidimensional profile over columns and shifts", "statement": "After any history of process_column and shifts, entry (k,c) of the left (right) profile is the smallest, over delivered rows, of the average of the k+1 smallest channel distances, with its absolute row and the k+1 channels attaining it.", "quantifier": "every number of channels, NaN-free matrices, every history", "why_tests_cant": "History dependent.", "anchors": ["distancematrix/consumer/multidimensional_matrix_profile_lr.py:MultidimensionalMatrixProfileLR.process_column", "distancematrix/consumer/multidimensional_matrix_profile_lr.py:MultidimensionalMatrixProfileLR.shift_series", "distancematrix/consumer/multidimensional_matrix_profile_lr.py:MultidimensionalMatrixProfileLR.shift_query"]}
{"id": "C50", "title": "Multidimensional profile over diagonals", "statement": "Same for process_diagonal mixed with columns, for unshifted profiles with non-negative distances, and the run raises IndexError iff a diagonal has rows beyond the number of series subsequences (query longer than the series). (For shifted profiles, to which no calculator delivers diagonals: proved while diagonals stay on their side of the main diagonal, refuted otherwise: IndexError or inflated values on the other side.)", "quantifier": "every number of channels, matrices, sequences of diagonals and columns", "why_tests_cant": "Requires wide matrices or shifted state.", "anchors": ["distancematrix/consumer/multidimensional_matrix_profile_lr.py:MultidimensionalMatrixProfileLR.process_diagonal"]}
{"id": "C51", "title": "The interrupt handler is always restored", "statement": "On leaving interrupt_catcher, normally, by exception or nested, the SIGINT handler is the one that was installed on entry, and SIGINTs received inside are recorded by the innermost catcher only and never raise.", "quantifier": "every nesting, every position of interrupts and exceptions, every handler on entry that was installed from Python", "why_tests_cant": "All schedules of signals and exceptions.", "anchors": ["distancematrix/interrupt_util.py:interrupt_catcher"]}
{"id": "C52", "title": "find_consensus_motif returns the optimal consensus motif", "statement": "The returned radius is the minimum over all subsequences of all series of the maximum over the other series of the best-match distance, and the returned indices attain it, despite pruning.", "quantifier": "every collection of >= 2 series, every m, every argsort tie order", "why_tests_cant": "Pruning correctness over all data.", "anchors": ["distancematrix/ostinato.py:find_consensus_motif"]}
{"id": "C53", "title": "find_consensus_motif_subset returns the optimal k-of-n motif", "statement": "The radius is the minimum over subsequences of the (k-1)-th smallest best-match distance to the other series. (Refuted for k >= 4: one series is examined repeatedly and others never; proved for k <= 3.)", "quantifier": "every collection, every k in [2,n]", "why_tests_cant": "Needs k >= 4 and a particular arrangement of distances.", "anchors": ["distancematrix/ostinato.py:find_consensus_motif_subset"]}
{"id": "C54", "title": "OstinatoAnytime is exact when complete and an upper bound before", "statement": "After calculate(1.0) get_radii gives for every subsequence the max (or k-th smallest) over the other series of the best-match distance; after any smaller fraction the reported radii are not smaller than that and never increase.", "quantifier": "every collection, every fraction sequence and shuffle", "why_tests_cant": "All fractions, shuffles and data.", "anchors": ["distancematrix/ostinato.py:OstinatoAnytime", "distancematrix/ostinato.py:_MPReverse"]}
{"id": "C55", "title": "The VALMOD lower bound is sound", "statement": "For any two subsequences, the stored lower bound base divided by the standard deviation of the extended subsequence never exceeds the z-normalised distance of the extended subsequences.", "quantifier": "all data, lengths and extensions (non-flat subsequences, no noise correction)", "why_tests_cant": "Real inequality for all data.", "anchors": ["distancematrix/valmod.py:_find_all_motifs_full_matrix_iteration", "distancematrix/valmod.py:find_variable_length_motifs"]}
{"id": "C56", "title": "VALMOD's full iteration finds the top motif", "statement": "_find_all_motifs_full_matrix_iteration returns a pair of subsequences outside the trivial-match zone with minimal distance.", "quantifier": "every distance matrix", "why_tests_cant": "Universal.", "anchors": ["distancematrix/valmod.py:_find_all_motifs_full_matrix_iteration"]}
{"id": "C57", "title": "VALMOD's pruned iteration finds the top motif", "statement": "Given sound lower bounds, the pruned iteration returns a non-trivial pair with minimal distance. (Refuted as a total function: when every subsequence can be pruned the reduction over an empty list raises; proved otherwise.)", "quantifier": "all distance matrices, lower-bound lists satisfying soundness", "why_tests_cant": "Requires every subsequence to be prunable at once.", "anchors": ["distancematrix/valmod.py:find_variable_length_motifs"]}
{"id": "C58", "title": "Batch z-normalised matrix profile, end to end", "statement": "AnytimeCalculator + ZNormEuclidean + MatrixProfileLR on a series: after calculate_columns() or calculate_diagonals(), in any split or interruption pattern that completes, matrix_profile()[j] is the minimum z-normalised distance of subsequence j to any subsequence more than trivial_match_buffer away (+inf if none).", "quantifier": "all finite series, m, buffers, shuffles, interruption schedules", "why_tests_cant": "Composition of every layer over all data and schedules.", "anchors": ["distancematrix/calculator.py:AnytimeCalculator", "distancematrix/generator/znorm_euclidean.py:BoundZNormEuclidean", "distancematrix/consumer/matrix_profile_lr.py:MatrixProfileLR"]}
{"id": "C59", "title": "Streaming z-normalised self-join profile, end to end", "statement": "StreamingCalculator + ZNormEuclidean + ShiftingMatrixProfileLR: after any history of append_series and calculate_columns, every profile entry equals the minimum over the cells that were calculated while in the window.", "quantifier": "all histories", "why_tests_cant": "Composition of all streaming components.", "anchors": ["distancematrix/calculator.py:StreamingCalculator", "distancematrix/generator/znorm_euclidean.py:BoundZNormEuclidean", "distancematrix/consumer/matrix_profile_lr.py:ShiftingMatrixProfileLR"]}
{"id": "C60", "title": "trivial_match_buffer is validated", "statement": "A self-join calculator accepts exactly buffers in [-1, number of subsequences) and defaults to m//2; a non-self-join ignores it.", "quantifier": "every m, size and buffer value", "why_tests_cant": "Universal.", "anchors": ["distancematrix/calculator.py:AbstractCalculator.__init__"]}
{"id": "C61", "title": "Columns and diagonals can be mixed", "statement": "For any sequence of calculate_columns and calculate_diagonals calls on one AnytimeCalculator, with any amounts, starts and interruptions, every consumer receives exactly the columns and diagonals that the calls ask for: each diagonal at most once, every value that of the generator with the trivial-match zone replaced by +inf.", "quantifier": "every sequence of calls, generator and consumer", "why_tests_cant": "Universal over interleavings of two calculation orders.", "anchors": ["distancematrix/calculator.py:AnytimeCalculator"]}
{"id": "C62", "title": "Generators reject invalid configurations and queries of self-joins", "statement": "Euclidean, ZNormEuclidean and FilterGenerator raise ValueError for rb_scale_factor < 1, ZNormEuclidean also for noise_std < 0. After any calls, append_query on a bound generator of a self-join raises RuntimeError for all values (also empty ones).", "quantifier": "every configuration, every reachable state, every values", "why_tests_cant": "Universal over histories; the tests try one call on a new generator at most.", "anchors": ["distancematrix/generator/euclidean.py:BoundStreamingEuclidean.append_query", "distancematrix/generator/znorm_euclidean.py:BoundZNormEuclidean.append_query", "distancematrix/generator/filter_generator.py:BoundStreamingFilterGenerator.append_query"]}
{"id": "C63", "title": "Rejected appends are harmless", "statement": "If append raises because of NaN or infinite values, the object is unchanged, so that a caller who catches the exception can go on: StreamingStats.append and BoundZNormEuclidean.append_series.", "quantifier": "every history with rejected appends", "why_tests_cant": "State after an exception, over all histories. (Refuted: the points are pushed before the statistics are calculated. What holds: when an append raises, the state of StreamingStats, and that a self-join recovers after more than a window of accepted points. C107: joins.)", "anchors": ["distancematrix/math_tricks.py:StreamingStats.append", "distancematrix/generator/znorm_euclidean.py:BoundZNormEuclidean.append_series"]}
{"id": "C64", "title": "Motifs and discords, end to end", "statement": "AnytimeCalculator + ZNormEuclidean + MatrixProfileLR followed by lowest_value_idxs (highest_value_idxs): every index produced has the closest pair (the furthest nearest neighbour) among the subsequences more than d away from the earlier ones, the index profile names the match, and every subsequence that has a match is within d of an index produced.", "quantifier": "all finite series, m, buffers, shuffles, splits and interruptions that complete, all d", "why_tests_cant": "Composition of every layer with the greedy search, over all data.", "anchors": ["distancematrix/insights.py:lowest_value_idxs", "distancematrix/insights.py:highest_value_idxs", "distancematrix/calculator.py:AnytimeCalculator", "distancematrix/consumer/matrix_profile_lr.py:MatrixProfileLR"]}
{"id": "C65", "title": "Euclidean diagonals under rounding", "statement": "When every operation rounds (monotone, idempotent, small integers exact), calc_diagonal after any calls returns non-negative numbers, never NaN; with relative error u per operation (and absolute error u*t near underflow) the error of cell r is at most (1+u) sqrt(((1+u)^(r+m+4)-1) * (before + (2r+m) t)) + u * (distance + t), where `before` is the squared distance accumulated along the diagonal. (An error relative to the distance itself is refuted in double precision.)", "quantifier": "every rounding function, data, m, history and diagonal", "why_tests_cant": "Cancellation in running sums shows only for particular data; tests compare with a tolerance.", "anchors": ["distancematrix/generator/euclidean.py:BoundStreamingEuclidean.calc_diagonal"]}
{"id": "C66", "title": "Euclidean columns under rounding", "statement": "When every operation rounds, calc_column returns non-negative numbers, never NaN. (Refuted in double precision for a column that is derived from the previous one, on integer data; proved for columns calculated in full.)", "quantifier": "every rounding function, data, m and history", "why_tests_cant": "Needs cancellation below zero before the square root.", "anchors": ["distancematrix/generator/euclidean.py:BoundStreamingEuclidean.calc_column", "distancematrix/generator/euclidean.py:_euclidean_distance_squared"]}
{"id": "C67", "title": "Z-normalised distances under rounding are numbers", "statement": "When every operation rounds, calc_column, calc_diagonal and calc_single of the z-normalised generator, batch or streaming, after any calls, return non-negative numbers, never NaN or infinity. (The range [0, 2 sqrt m] of C19 is refuted in double precision: constant windows of large values are not recognised as flat.)", "quantifier": "every rounding function without overflow, data, noise, m and history", "why_tests_cant": "Universal over roundings and histories.", "anchors": ["distancematrix/generator/znorm_euclidean.py:BoundZNormEuclidean.calc_diagonal", "distancematrix/generator/znorm_euclidean.py:BoundZNormEuclidean.calc_column", "distancematrix/generator/znorm_euclidean.py:BoundZNormEuclidean.calc_single"]}
{"id": "C68", "title": "Generators accept every legal history", "statement": "For every arithmetic (any number type), after any sequence of append_series, append_query, calc_column and calc_diagonal calls whose columns and diagonals lie in the current window, the next legal calc_column, calc_diagonal (and calc_single) succeeds and returns as many values as the column or diagonal has cells; so do prepare and prepare_streaming with 1 <= rb_scale_factor <= 2. The z-normalised generator needs finite data, the Euclidean one none.", "quantifier": "every history, number type, window sizes, initial memory", "why_tests_cant": "Absence of IndexError and of shape mismatches over all interleavings, also those where the values are wrong (C14, C21).", "anchors": ["distancematrix/generator/euclidean.py:BoundStreamingEuclidean", "distancematrix/generator/znorm_euclidean.py:BoundZNormEuclidean"]}
{"id": "C69", "title": "Z-normalised distances in double precision", "statement": "In IEEE binary64, for data and noise up to 2^200 in magnitude, windows up to 2^40 points and fewer than 2^40 calls, all legal histories: calc_column, calc_diagonal and calc_single succeed and return finite doubles, at least 0: no NaN, no overflow.", "quantifier": "every data, noise, m, window and history within the bounds", "why_tests_cant": "Overflow and NaN need particular data and histories.", "anchors": ["distancematrix/generator/znorm_euclidean.py:BoundZNormEuclidean.calc_diagonal", "distancematrix/generator/znorm_euclidean.py:BoundZNormEuclidean.calc_column", "distancematrix/generator/znorm_euclidean.py:BoundZNormEuclidean.calc_single"]}
{"id": "C70", "title": "Euclidean diagonals in double precision", "statement": "Within the bounds of C69, calc_diagonal of the Euclidean generator in IEEE binary64 returns finite doubles, at least 0, with the error bound of C65 for u = 2^-53 and t = 2^-1022.", "quantifier": "every data, m, window, history and diagonal within the bounds", "why_tests_cant": "A rounding error bound over all data.", "anchors": ["distancematrix/generator/euclidean.py:BoundStreamingEuclidean.calc_diagonal"]}
{"id": "C71", "title": "Sliding minimum and maximum", "statement": "sliding_min(array, w) and sliding_max(array, w) return, in order, for every window of w consecutive finite values its minimum (maximum), and NaN for every window with a NaN or an infinite value (also where the minimum or maximum of the window is a number or infinity).", "quantifier": "every array and window size >= 1", "why_tests_cant": "The tests use finite data only.", "anchors": ["distancematrix/util.py:sliding_min", "distancematrix/util.py:sliding_max"]}
{"id": "C72", "title": "Affected subsequences", "statement": "_find_invalid_subseq_idxs returns for every dimension, once each, the indices y >= 0 for which the dimension has an invalid point i with y < min_result_idx, or y + m <= i, or y < max_result_idx and y < i + m. So no affected index in [min_result_idx, max_result_idx) is missed, but (a misplaced parenthesis) unaffected and disallowed indices are returned too.", "quantifier": "all invalid points, m, bounds, set orders", "why_tests_cant": "The function is unused and untested.", "anchors": ["distancematrix/calculator.py:_find_invalid_subseq_idxs"]}
{"id": "C73", "title": "Progress output", "statement": "With print_progress, calculate_columns and calculate_diagonals calculate the same as without and never raise from the printing; one line is printed per column or diagonal; percentages grow, stay within (0, 100], the last line of a calculation that was not interrupted says 100 percent and no time left. (The last clause and the local percentage of diagonals are refuted.)", "quantifier": "every history of calls, amounts, interruptions and clock", "why_tests_cant": "Universal over histories; division by zero would need particular states.", "anchors": ["distancematrix/calculator.py:AbstractCalculator._calculate_columns", "distancematrix/calculator.py:AnytimeCalculator.calculate_diagonals"]}
{"id": "C74", "title": "Size of the distance matrix", "statement": "num_dist_matrix_values is the number of cells; the diagonals of an AnytimeCalculator have this many values for a join; for a self-join twice as many as the diagonals plus the cells of the trivial match zone.", "quantifier": "all sizes, m and buffers", "why_tests_cant": "Arithmetic over all sizes.", "anchors": ["distancematrix/calculator.py:AbstractCalculator.num_dist_matrix_values", "distancematrix/calculator.py:AnytimeCalculator.__init__"]}
{"id": "C75", "title": "Indexing a RingBuffer", "statement": "After any pushes and assignments, buffer[i] and buffer[lo:hi] (Python's negative indices included) read the last N points of the stream, an index outside raises; del buffer[i] always raises.", "quantifier": "every history, capacity, scaling factor in [1, 2] and key", "why_tests_cant": "Universal over histories.", "anchors": ["distancematrix/ringbuffer.py:RingBuffer.__getitem__", "distancematrix/ringbuffer.py:RingBuffer.__delitem__"]}
{"id": "C76", "title": "Calculators after exceptions", "statement": "If a generator or a consumer raises and the client goes on with the same AnytimeCalculator, no diagonal and no column is lost: every consumer has received right values only, and in full those of every diagonal and column that the calculator regards as done; a complete call that returns normally completes the calculation; every cell is delivered once. (The last clause is refuted: consumers before the one that raised receive the values again, so a ThresholdCounter counts them twice.)", "quantifier": "every history of calls, interruptions and exceptions of any generator and consumer", "why_tests_cant": "The tests have no generators or consumers that raise.", "anchors": ["distancematrix/calculator.py:AnytimeCalculator.calculate_diagonals", "distancematrix/calculator.py:AbstractCalculator._calculate_columns"]}
{"id": "C77", "title": "Matrix profile in spite of exceptions", "statement": "Once a calculation is complete, by diagonals or by columns, a MatrixProfileLR among its consumers has the matrix profile of the distance matrix, whatever exceptions of generators and other consumers were raised and caught on the way.", "quantifier": "every history of calls, interruptions and exceptions, every distance matrix without NaN", "why_tests_cant": "Universal over histories of exceptions.", "anchors": ["distancematrix/calculator.py:AnytimeCalculator.calculate_diagonals", "distancematrix/calculator.py:AbstractCalculator._calculate_columns", "distancematrix/consumer/matrix_profile_lr.py:MatrixProfileLR.process_diagonal"]}
{"id": "C78", "title": "Any program with any consumers, end to end", "statement": "A program that makes an AnytimeCalculator, adds generators (ZNormEuclidean, Euclidean or FilterGenerator over ZNormEuclidean, on any channels), adds consumers of any classes with any of the generators, and makes any calls: each consumer is told exactly the delivered columns and diagonals of the distance matrices of its own generators (trivial matches at +inf, self-joins mirrored), independently of the other consumers, and the program returns iff each consumer accepts them. Each of several MatrixProfileLR consumers has the matrix profile of its generator.", "quantifier": "all finite data (filtered: any data), channels, consumers, calls, shuffles, set orders, interruptions", "why_tests_cant": "Composition of every layer, over all programs.", "anchors": ["distancematrix/calculator.py:AnytimeCalculator", "distancematrix/calculator.py:AbstractCalculator.add_generator", "distancematrix/calculator.py:AbstractCalculator.add_consumer", "distancematrix/generator/euclidean.py:Euclidean", "distancematrix/generator/znorm_euclidean.py:ZNormEuclidean", "distancematrix/generator/filter_generator.py:FilterGenerator"]}
{"id": "C79", "title": "DistanceMatrix, end to end", "statement": "In the programs of C78 every DistanceMatrix consumer holds, for each delivered cell, the distance of the two subsequences (+inf for trivial matches), NaN elsewhere, whatever mixture of columns and diagonals delivered it.", "quantifier": "all programs of C78", "why_tests_cant": "Composition of every layer, over all programs.", "anchors": ["distancematrix/consumer/distance_matrix.py:DistanceMatrix", "distancematrix/calculator.py:AnytimeCalculator"]}
{"id": "C80", "title": "ContextualMatrixProfile, end to end", "statement": "In the programs of C78 entry (i,j) of every ContextualMatrixProfile with a GeneralStaticManager is the smallest distance of a delivered non-trivial match of query context i and series context j, with its location (+inf and -1 if none).", "quantifier": "all programs of C78, all contexts", "why_tests_cant": "Composition of every layer, over all programs.", "anchors": ["distancematrix/consumer/contextual_matrix_profile.py:ContextualMatrixProfile.process_diagonal", "distancematrix/consumer/contextual_matrix_profile.py:ContextualMatrixProfile.process_column", "distancematrix/consumer/contextmanager.py:GeneralStaticManager.query_contexts", "distancematrix/calculator.py:AnytimeCalculator"]}
{"id": "C81", "title": "ThresholdCounter, end to end", "statement": "In the programs of C78 the entry for threshold x and column j of a ThresholdCounter is the number of delivered non-trivial rows at a distance of at most x. (Refuted for programs that mix columns and diagonals, and for self-joins with trivial_match_buffer -1, which deliver the main diagonal twice; proved for diagonals otherwise and for columns.)", "quantifier": "all programs of C78", "why_tests_cant": "The tests use one way of calculation only.", "anchors": ["distancematrix/consumer/threshold_counter.py:ThresholdCounter", "distancematrix/calculator.py:AnytimeCalculator"]}
{"id": "C82", "title": "RadiusProfile0, end to end", "statement": "In the programs of C78 a RadiusProfile0 holds for every delivered column the k-th smallest distances for the tracked k, if no diagonals are delivered; if a diagonal is delivered the program raises.", "quantifier": "all programs of C78, all tracked ranks", "why_tests_cant": "Composition of every layer, over all programs.", "anchors": ["distancematrix/consumer/radius_profile.py:RadiusProfile0", "distancematrix/calculator.py:AnytimeCalculator"]}
{"id": "C83", "title": "MatrixProfileLRReservoir, end to end", "statement": "In the programs of C78 a MatrixProfileLRReservoir has the exact matrix profile of the delivered cells whatever is drawn, its index names a best match, and each best match is drawn with a probability proportional to the number of deliveries of its cell since its column was last delivered: all best matches are equally likely for diagonals followed by columns, but not for columns followed by diagonals nor for trivial_match_buffer -1.", "quantifier": "all programs of C78, all random outcomes", "why_tests_cant": "Probabilities over all programs.", "anchors": ["distancematrix/consumer/matrix_profile_lr.py:MatrixProfileLRReservoir", "distancematrix/calculator.py:AnytimeCalculator"]}
{"id": "C84", "title": "MultidimensionalMatrixProfileLR, end to end", "statement": "In the programs of C78 entry (k,j) of a MultidimensionalMatrixProfileLR is the smallest, over the delivered non-trivial rows of column j, of the average of its k+1 smallest distances over the consumer's generators, with the row and the generators; the left and right profiles take the rows up to j and after j. If the query is longer than the series and a diagonal below the main diagonal is delivered, the program raises; otherwise it does not.", "quantifier": "all programs of C78", "why_tests_cant": "Composition of every layer, over all programs.", "anchors": ["distancematrix/consumer/multidimensional_matrix_profile_lr.py:MultidimensionalMatrixProfileLR.process_column", "distancematrix/consumer/multidimensional_matrix_profile_lr.py:MultidimensionalMatrixProfileLR.process_diagonal", "distancematrix/calculator.py:AnytimeCalculator"]}
{"id": "C85", "title": "Euclidean distances of data with NaN and infinities", "statement": "Without a FilterGenerator, after any calculations, a cell of a Euclidean diagonal or column is the distance of its subsequences (columns: square up to 1e-15) if they and the points before them on the diagonal are finite, as far back as the calculation goes (to the first cell of the diagonal; for columns to the first of the columns calculated one after the other, or the first row). Otherwise it is +inf if the points before the subsequences are finite, infinities in the subsequences with which the calculation began meet only numbers and infinities of the opposite sign, and the later pairs are neither NaN nor the same infinity (diagonals: the pairs of the subsequences); and else NaN. (That cells of finite subsequences are always right is refuted.)", "quantifier": "all data with NaN and infinities anywhere, all calculations in any order", "why_tests_cant": "How far a NaN spreads depends on the order of the calls; tests use filtered data.", "anchors": ["distancematrix/generator/euclidean.py:BoundStreamingEuclidean.calc_column", "distancematrix/generator/euclidean.py:BoundStreamingEuclidean.calc_diagonal", "distancematrix/generator/euclidean.py:_euclidean_distance_squared"]}
{"id": "C86", "title": "Any streaming program with any consumers, end to end", "statement": "A program that makes a StreamingCalculator for several channels, adds generators (ZNormEuclidean, Euclidean or FilterGenerator over ZNormEuclidean), adds consumers of any classes with any of the generators, and then appends points and calculates columns in any order, with interruptions: each consumer is told exactly the calculated cells of the distance matrices of the complete streams (trivial matches at +inf) and the points dropped, independently of the other consumers, and the program returns iff each consumer accepts them. Each of several ShiftingMatrixProfileLR consumers has, per column of the window, the smallest calculated distance and its row, also on the left and on the right.", "quantifier": "all windows, buffers, channels, generators, consumers, histories of appends and calculations with interruptions (Euclidean: data on a grid of at least sqrt 1e-15)", "why_tests_cant": "Composition of every streaming layer, over all histories.", "anchors": ["distancematrix/calculator.py:StreamingCalculator", "distancematrix/calculator.py:AbstractCalculator._calculate_columns", "distancematrix/consumer/matrix_profile_lr.py:ShiftingMatrixProfileLR"]}
{"id": "C87", "title": "DistanceMatrix in a stream, end to end", "statement": "In the programs of C86 a DistanceMatrix consumer holds for the points now in the window the distances that were calculated (+inf for trivial matches), NaN elsewhere.", "quantifier": "all programs of C86", "why_tests_cant": "Composition of every streaming layer, over all histories.", "anchors": ["distancematrix/consumer/distance_matrix.py:DistanceMatrix.shift_series", "distancematrix/consumer/distance_matrix.py:DistanceMatrix.shift_query", "distancematrix/calculator.py:StreamingCalculator"]}
{"id": "C88", "title": "MultidimensionalMatrixProfileLR in a stream, end to end", "statement": "In the programs of C86 entry (k,j) of a MultidimensionalMatrixProfileLR is the smallest, over the calculated non-trivial rows of the column now at j, of the average of its k+1 smallest distances over the consumer's generators, with the row (in the complete stream) and the generators; the left and right profiles take the rows up to the column and after it.", "quantifier": "all programs of C86", "why_tests_cant": "Composition of every streaming layer, over all histories.", "anchors": ["distancematrix/consumer/multidimensional_matrix_profile_lr.py:MultidimensionalMatrixProfileLR.process_column", "distancematrix/consumer/multidimensional_matrix_profile_lr.py:MultidimensionalMatrixProfileLR.shift_series", "distancematrix/consumer/multidimensional_matrix_profile_lr.py:MultidimensionalMatrixProfileLR.shift_query", "distancematrix/calculator.py:StreamingCalculator"]}
{"id": "C89", "title": "ContextualMatrixProfile in a stream, end to end", "statement": "In the programs of C86 entry (i,j) of a ContextualMatrixProfile whose manager has contexts at fixed positions of the complete streams is the smallest calculated distance of a non-trivial match of the contexts now at i and j, with its location. (Refuted when query contexts are dropped, C48, and when a column is calculated while a query context has no points yet: ValueError. Proved otherwise.)", "quantifier": "all programs of C86, all context managers", "why_tests_cant": "Composition of every streaming layer, over all histories.", "anchors": ["distancematrix/consumer/contextual_matrix_profile.py:ContextualMatrixProfile.process_column", "distancematrix/consumer/contextual_matrix_profile.py:ContextualMatrixProfile.shift_series", "distancematrix/consumer/contextual_matrix_profile.py:ContextualMatrixProfile.shift_query", "distancematrix/calculator.py:StreamingCalculator"]}
{"id": "C90", "title": "DistancedThresholdCounter end to end", "statement": "In the programs of C78 with DistancedThresholdCounter consumers, the program raises if a diagonal is delivered (process_diagonal is NotImplemented); otherwise the entry of a threshold and a column is, once per delivery of the column, the number of rows of a set of matches (distance at most the threshold, trivial matches at +inf) pairwise more than exclusion_zone apart such that every other match lies within the exclusion zone of one that is at least as good.", "quantifier": "all programs of C78, thresholds without NaN, exclusion zones, tie orders of argsort", "why_tests_cant": "Composition of generator, filter, calculator and consumer, over all call sequences and mixtures.", "anchors": ["distancematrix/consumer/threshold_counter.py:DistancedThresholdCounter", "distancematrix/calculator.py:AnytimeCalculator"]}
{"id": "C91", "title": "RadiusProfile end to end", "statement": "In the programs of C78 with RadiusProfile consumers, the program raises if a diagonal is delivered; otherwise the entry of the i-th smallest tracked rank k in a delivered column is the distance of the k-th greedily chosen non-trivial match (trivial matches at +inf), NaN if there are not so many or if one of the tracked ranks up to k is repeated, and NaN in columns that were not delivered.", "quantifier": "all programs of C78, non-empty lists of non-negative ranks (repeated or not), exclusion zones", "why_tests_cant": "Composition of every layer, and the tracked list may contain repetitions, which tests do not cover.", "anchors": ["distancematrix/consumer/radius_profile.py:RadiusProfile", "distancematrix/calculator.py:AnytimeCalculator"]}
{"id": "C92", "title": "Consumers without shift methods in a stream", "statement": "In the programs of C86 a consumer of a class without shift_series/shift_query (MatrixProfileLR, ThresholdCounter, DistancedThresholdCounter, RadiusProfile0, RadiusProfile) makes the program raise as soon as points leave the window of the series or of the query.", "quantifier": "all programs of C86 that drop points", "why_tests_cant": "When points are dropped depends on the sizes of all appends; the calculator does not check its consumers.", "anchors": ["distancematrix/calculator.py:StreamingCalculator.append_series", "distancematrix/calculator.py:StreamingCalculator.append_query"]}
{"id": "C93", "title": "Consumers without shift methods before anything is dropped", "statement": "In the programs of C86, as long as no points left the windows, MatrixProfileLR, ThresholdCounter, DistancedThresholdCounter, RadiusProfile0 and RadiusProfile consumers hold exactly their values for the rows that were present when a column was calculated (counters: once per calculation of the column).", "quantifier": "all programs of C86 that drop nothing", "why_tests_cant": "Composition of every streaming layer, over all histories.", "anchors": ["distancematrix/calculator.py:StreamingCalculator", "distancematrix/consumer/matrix_profile_lr.py:MatrixProfileLR", "distancematrix/consumer/threshold_counter.py:ThresholdCounter", "distancematrix/consumer/threshold_counter.py:DistancedThresholdCounter", "distancematrix/consumer/radius_profile.py:RadiusProfile0", "distancematrix/consumer/radius_profile.py:RadiusProfile"]}
{"id": "C94", "title": "Consumers of one channel bound to several generators", "statement": "All consumer classes except MultidimensionalMatrixProfileLR and DistanceMatrix use only the first of the generators they are bound to: in complete programs of both calculators they hold what they hold when bound to that generator alone.", "quantifier": "all programs of C78 and C86, all bindings", "why_tests_cant": "Tests bind these consumers to one generator each.", "anchors": ["distancematrix/consumer/matrix_profile_lr.py:MatrixProfileLR.process_column", "distancematrix/consumer/contextual_matrix_profile.py:ContextualMatrixProfile.process_column", "distancematrix/consumer/threshold_counter.py:ThresholdCounter.process_column", "distancematrix/consumer/radius_profile.py:RadiusProfile0.process_column", "distancematrix/calculator.py:AbstractCalculator.add_consumer"]}
{"id": "C95", "title": "DistanceMatrix needs exactly one generator", "statement": "In programs of both calculators, a DistanceMatrix consumer that is bound to none or to several generators makes the program raise.", "quantifier": "all programs of C78 and C86, all bindings", "why_tests_cant": "All bindings in all programs.", "anchors": ["distancematrix/consumer/distance_matrix.py:DistanceMatrix.initialise", "distancematrix/calculator.py:AbstractCalculator.add_consumer"]}
{"id": "C96", "title": "StreamingCalculator after exceptions", "statement": "A client that catches the exceptions of generators and consumers can go on with the same StreamingCalculator: every consumer is told all shifts and right column values only, and has processed every column that the calculator regards as calculated; a complete calculation that returns has calculated all columns.", "quantifier": "all generators and consumers that may raise, all sequences of calls", "why_tests_cant": "Exceptions can occur at any call of any generator or consumer, and sequences of calls are unbounded.", "anchors": ["distancematrix/calculator.py:StreamingCalculator.append_series", "distancematrix/calculator.py:StreamingCalculator.append_query", "distancematrix/calculator.py:AbstractCalculator.calculate_columns"]}
{"id": "C97", "title": "Profiles of streams after exceptions", "statement": "A ShiftingMatrixProfileLR attached to a StreamingCalculator with generators of the package is right after exceptions that other consumers raise in calculate_columns and the client catches: every entry is the smallest distance, among columns calculated at some earlier moment and still in the window, between the points that have arrived. (Proved for self-joins, and for joins whose chunks arrive before the series has a subsequence, in a full window, or take at most half of the room; refuted for other joins.)", "quantifier": "all points, generators of the package, consumers that raise in calculate_columns, and sequences of calls", "why_tests_cant": "The generators keep caches between columns, and an exception can occur at any column of any calculation, followed by any appends.", "anchors": ["distancematrix/calculator.py:StreamingCalculator.append_series", "distancematrix/calculator.py:AbstractCalculator.calculate_columns", "distancematrix/consumer/matrix_profile_lr.py:ShiftingMatrixProfileLR", "distancematrix/generator/euclidean.py:Euclidean.calc_column"]}
{"id": "C98", "title": "Fractions in double precision", "statement": "A requested fraction x of n columns (or values), calculated in binary64, resolves to the smallest integer that is at least x*n, or to one less if x*n exceeds that by a relative 2^-53 at most; 1.0 resolves to everything, 0.0 to nothing, a larger fraction never to less, and anything outside [0, 1] is rejected.  The double nearest to k/n resolves to k or k+1 of n.", "quantifier": "all doubles and all sizes up to 2^53 (2^52 for k/n)", "why_tests_cant": "There are 2^62 doubles in [0, 1], and rounding errors occur at isolated fractions.", "anchors": ["distancematrix/calculator.py:_ratio_to_int"]}
{"id": "C99", "title": "What find_consensus_motif_subset computes for every k, and how the three searches agree", "statement": "find_consensus_motif_subset returns the subsequence that minimises the (k-1)-th smallest best-match distance to a multiset of series: the next n-k+1 series in the collection once each and the one after them k-2 times; for k <= 3 these are all other series, for k >= 4 the k-3 series before the subsequence's own are never examined. With k = n it minimises the larger distance to the next two series, so it never reports more than find_consensus_motif; for other k it can report too much. After calculate(1.0) the least radius of OstinatoAnytime is the one find_consensus_motif returns, at the motif it returns, and likewise get_radii(k-1) for find_consensus_motif_subset with k <= 3.", "quantifier": "every collection of real-valued series, every k in [2,n], every oracle of argsort and shuffle, every sequence of calculate calls containing calculate(1.0)", "why_tests_cant": "The unit tests use k at most n = 4 on collections where the repeated series does not change the result.", "anchors": ["distancematrix/ostinato.py:find_consensus_motif_subset", "distancematrix/ostinato.py:find_consensus_motif", "distancematrix/ostinato.py:OstinatoAnytime"]}
{"id": "C100", "title": "Error bound of Euclidean columns in floating point", "statement": "For every rounding arithmetic with relative error u (and underflow threshold t), in particular binary64 with data up to 2^200: whatever columns and diagonals of fixed data were asked for before, a column of the Euclidean generator is delivered without exception and each entry is either within (1+u)*sqrt(E)+u*(exact+t) of the exact distance, or NaN, in which case the exact distance is at most sqrt(E). E bounds the error of the squared distance: (1+u)^(m+4+2k)-1 times the sum of (|x|+|y|)^2 over the k+m pairs on the cell's diagonal up to its window plus that over the first k, plus the threshold of 1e-15. A column that does not follow the last one (also when streaming) is never NaN and has the error of its own two subsequences with m+4 roundings. The error is not relative to the distance: at 10^9 a distance of 1 is calculated as 0.", "quantifier": "every data, every order of columns and diagonals, every rounding function of bounded relative error", "why_tests_cant": "Error accumulation over caches of arbitrary histories; tests compare with a tolerance on a few small inputs.", "anchors": ["distancematrix/generator/euclidean.py:BoundStreamingEuclidean.calc_column", "distancematrix/generator/euclidean.py:_euclidean_distance_squared"]}
{"id": "C101", "title": "Which columns a streaming generator gets wrong", "statement": "After any sequence of appended series and query points, columns and diagonals, ZNormEuclidean and Euclidean streams deliver every diagonal and single cell right, and every column right unless it is derived from a kept column that the generator takes for the column before it but that is another one. The kept label drops by the number of new points less the room left after the append, the column itself by the number of points that left the window; so the label is never too large, and it is right in self-joins, in full windows, and if the chunk takes at most half of the room. A column derived from column q instead of c-1 has row 0 right, and row r+1 off by exactly the difference in row r of column q and of column c-1 (squared distances, or dot products), so that a Euclidean one is right exactly if the two columns agree in all rows but the last.", "quantifier": "all parameters and real-valued data, all histories of calls in range (no condition on chunk sizes)", "why_tests_cant": "The columns that go wrong depend on the sizes of all chunks and on which column was asked for last.", "anchors": ["distancematrix/generator/euclidean.py:BoundStreamingEuclidean.append_series", "distancematrix/generator/euclidean.py:BoundStreamingEuclidean.calc_column", "distancematrix/generator/znorm_euclidean.py:BoundZNormEuclidean.append_series", "distancematrix/generator/znorm_euclidean.py:BoundZNormEuclidean.calc_column", "distancematrix/generator/znorm_euclidean.py:BoundZNormEuclidean.calc_diagonal"]}
{"id": "C102", "title": "ThresholdCounter in programs that mix columns and diagonals", "statement": "In every program of C78, a ThresholdCounter counts a row within the threshold as often as its cell was delivered since, and including, the last delivery of the column (mirrored diagonals of self-joins count as deliveries; delivered trivial matches are at +inf). After complete calculations a count for a finite threshold is never too low, and it is the number of rows within the threshold iff each of them was delivered once. At the level of the consumer: for any mixture of columns and diagonals the count is that of the values delivered for the column since it was last delivered as a whole.", "quantifier": "all programs of C78, all sequences of columns and diagonals", "why_tests_cant": "The tests use one way of calculation only; the counts depend on the order of all calls.", "anchors": ["distancematrix/consumer/threshold_counter.py:ThresholdCounter.process_diagonal", "distancematrix/consumer/threshold_counter.py:ThresholdCounter.process_column", "distancematrix/calculator.py:AnytimeCalculator"]}
{"id": "C103", "title": "Where an append that raises leaves a StreamingCalculator", "statement": "After append_series or append_query, returning or raising: if a generator raised, the generators before it have appended the block, it is in the state in which it raised, those after it are unchanged, and the calculator has counted nothing and told the consumers nothing. Otherwise the points are counted, and if k>0 points left the window, the consumers have made shift_series(k) (append_series) and then, for self-joins, shift_query(k) up to the one that raised; the last column calculated moves by k only if none raised. Values of a wrong shape, and appending to the query of a self-join, change nothing.", "quantifier": "all generators and consumers that may raise and change their state in doing so, all states of the calculator, all blocks", "why_tests_cant": "Exceptions can occur at any call of any generator or consumer; tests never inspect the state after one.", "anchors": ["distancematrix/calculator.py:StreamingCalculator.append_series", "distancematrix/calculator.py:StreamingCalculator.append_query"]}
{"id": "C104", "title": "What every entry of a contextual profile stands for", "statement": "After every history of columns, diagonals and shifts, also those dropping query contexts, entry (i,j) is the smallest of a stated set of delivered cells with the position of one attaining it: deliveries add the cells of query context i+kq and series context j+ks; dropping k query contexts gives row i the set of row i-k (cyclically) and empties the last k rows; dropping k series contexts gives column j the set of column j+k of the table as it was before query contexts were dropped since the last dropped series context, and empties the last k columns; the run raises exactly what the manager raises, and ValueError at the first column with a series context that ends before a query context of the window begins. Hence C48 holds for every history in which query shifts drop none, all or exactly half of the contexts and no series context is dropped after a query context.", "quantifier": "every context manager with fixed contexts, context matrix size, scaling factor in [1,2], NaN-free values and history", "why_tests_cant": "Depends on the whole history of shifts and deliveries.", "anchors": ["distancematrix/consumer/contextual_matrix_profile.py:ContextualMatrixProfile.shift_series", "distancematrix/consumer/contextual_matrix_profile.py:ContextualMatrixProfile.shift_query", "distancematrix/consumer/contextual_matrix_profile.py:ContextualMatrixProfile.process_column", "distancematrix/consumer/contextual_matrix_profile.py:ContextualMatrixProfile.process_diagonal"]}
{"id": "C105", "title": "Contextual profiles in streaming programs, every history", "statement": "A program of C86 whose consumers are ContextualMatrixProfiles with fixed contexts returns iff for every consumer the history can be followed in the sense of C104 (no column is calculated that ends before a query context of the window begins, the manager does not raise); every entry is then the smallest of the cells C104 assigns to it, all of which are calculated cells of the matrix of the complete streams. If query shifts drop none, all or half of the contexts and no series context is dropped after a query context, entry (i,j) is the smallest calculated distance of a non-trivial match of the contexts now at i and j, with its location.", "quantifier": "all programs of C86, all context managers with fixed contexts", "why_tests_cant": "All histories of appends, calculations and dropped contexts, all data.", "anchors": ["distancematrix/consumer/contextual_matrix_profile.py:ContextualMatrixProfile.process_column", "distancematrix/consumer/contextual_matrix_profile.py:ContextualMatrixProfile.shift_series", "distancematrix/consumer/contextual_matrix_profile.py:ContextualMatrixProfile.shift_query", "distancematrix/calculator.py:StreamingCalculator"]}
{"id": "C106", "title": "What every consumer receives when something raises", "statement": "Whatever generators and consumers of an AnytimeCalculator raise, and whatever the client calls after catching it: what has happened is a list of attempts to deliver a column or diagonal; in an attempt that ended with consumer k raising in its n-th call, the consumers before k received all calls, consumer k the first n, those after it none; diagonals are attempted in order until done. So a consumer that does not raise has received, in whole, what is done and everything at which a later consumer raised; one after which none raises has received exactly what is done, once, as if nothing had been raised. A ThresholdCounter counts a row within the threshold once per such delivery since the last delivery of its column; after the complete calculation by diagonals its counts are right if no consumer after it raises.", "quantifier": "all generators and consumers that may raise, all histories of calls, all interruptions", "why_tests_cant": "Exceptions can occur at any call of any generator or consumer; the order of the consumers decides who gets what twice.", "anchors": ["distancematrix/calculator.py:AnytimeCalculator.calculate_diagonals", "distancematrix/calculator.py:AbstractCalculator.calculate_columns", "distancematrix/consumer/threshold_counter.py:ThresholdCounter.process_diagonal"]}
{"id": "C107", "title": "Z-normalised streams recover after rejected points", "statement": "An append of BoundZNormEuclidean, to either series, after any calls whose exceptions were caught, raises iff a subsequence that is new in the window has a NaN or infinite point. It then leaves the new points in the window, the old statistics, and: for the series, the cached column and first row as they were, the latter marked as behind by the new points; for the query, no cached column, and no first row if points were dropped. Everything calculated is right again, then and in every later history in which streams are right, after more than a window of accepted points (self-joins), more than a window of accepted points for each of the series in any order (joins), or two windows of accepted series points (joins whose query only ever received finite points).", "quantifier": "every history with rejected appends and calculations in between, every window, subsequence length, noise level and chunking", "why_tests_cant": "Wrong results between the rejection and the recovery are silent; that none survives in the statistics or in either cache is a statement about all histories.", "anchors": ["distancematrix/generator/znorm_euclidean.py:BoundZNormEuclidean.append_series", "distancematrix/generator/znorm_euclidean.py:BoundZNormEuclidean.append_query", "distancematrix/generator/znorm_euclidean.py:BoundZNormEuclidean.calc_column"]}
{"id": "C108", "title": "Statistics in use after rejected appends", "statement": "After any calls on a streaming BoundZNormEuclidean whose exceptions were caught, the means, standard deviations and flatness flags it holds are those of the last window-length + 1 - m subsequences that were new in an append that did not raise, for the series and for the query, whatever points the windows have. calc_single at (r, c) combines the dot product of the points in the windows with the statistics held at r and c: the exact value is given for every history, it is the z-normalised distance when those belong to the same subsequences, and IndexError is raised when fewer statistics are held. Diagonals, and the columns that are calculated after the last append if none was calculated before, likewise when the points in the windows are finite. If the points are appended one by one (the query of a join possibly all at once), all of these are right as soon as all points in the windows are finite. The same holds for any chunks if every rejected one left a point that is not finite among the last m. Otherwise they need not be: after a rejected chunk that ended with m finite points, with all points finite and nothing raising, the distance of a subsequence to itself can be the root of 5.5.", "quantifier": "every history with rejected appends, every window, subsequence length, noise level and chunking, self-joins and joins", "why_tests_cant": "Nothing raises while statistics and points are out of step; which subsequences the statistics belong to depends on the whole history of chunks.", "anchors": ["distancematrix/generator/znorm_euclidean.py:BoundZNormEuclidean.append_series", "distancematrix/generator/znorm_euclidean.py:BoundZNormEuclidean.append_query", "distancematrix/generator/znorm_euclidean.py:BoundZNormEuclidean.calc_single", "distancematrix/generator/znorm_euclidean.py:BoundZNormEuclidean.calc_diagonal", "distancematrix/generator/znorm_euclidean.py:BoundZNormEuclidean.calc_column"]}
