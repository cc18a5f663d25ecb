{"id": "C01", "title": "Fresh id mapping is a contiguous bijection", "statement": "Building an id mapping from a sequence of pairwise distinct ids assigns index start+i to the i-th id; looking an id up and translating the index back is the identity in both directions, the used indices are exactly start..start+n-1, and the advertised number of indices is n. If the sequence contains a repeated id the mapping is NOT a bijection (some index translates back to an id that maps elsewhere).", "quantifier": "every finite sequence of ids and every start index", "why_tests_cant": "a test fixes a handful of id lists; the claim is about every list and identifies exactly when bijectivity is lost", "anchors": ["source/data_preparation.py: get_cont_mapping_struct"]}
{"id": "C02", "title": "Extending a mapping never moves an existing id", "statement": "After any sequence of mapping extensions, each with pairwise distinct ids not yet known at that moment, every id keeps the index it had first been given, the mapping is still a bijection onto 0..n-1 with n the total number of ids, and ids of one extension receive consecutive indices in the order given. A repeated or already known id in an extension breaks the bijection.", "quantifier": "every initial mapping and every finite sequence of extensions", "why_tests_cant": "needs induction over arbitrarily long update histories", "anchors": ["source/data_preparation.py: update_cont_mapping_struct", "source/models/psi.py: PSI._add_new_entities_and_get_local_map", "source/models/tirec.py: TIRec.preprocess_raw_input_data"]}
{"id": "C03", "title": "Re-indexing a data set is invertible and keeps first-appearance order", "statement": "Re-indexing a table succeeds on every table, changes only the user and item columns, keeps the row order, is undone by the returned mappings, and numbers users (items) 0,1,2,... in order of first appearance.", "quantifier": "every finite table of interactions", "why_tests_cant": "round trip must hold for every table, including repeated ids and ids whose numeric order differs from appearance order", "anchors": ["source/data_preparation.py: get_df_with_updated_indices"]}
{"id": "C04", "title": "Re-training on concatenated data keeps matrix-model indices", "statement": "When a table is extended by appending rows, re-indexing the longer table gives every user and item of the shorter table the same index as before, so internal indices of a re-trained matrix model (SVD) agree with those of the earlier model.", "quantifier": "every table and every appended table", "why_tests_cant": "relates two runs on arbitrary data", "anchors": ["source/data_preparation.py: get_df_with_updated_indices", "source/models/svd.py: SVD.train", "source/experiments/dynamical_experiment.py: dynamical_experiment"]}
{"id": "C05", "title": "Mapping a table through existing mappings fails exactly on unknown ids", "statement": "Mapping the user/item columns of a table through given mappings raises KeyError if and only if some row has an unknown user or item; otherwise all rows are kept in order and translating back restores the table.", "quantifier": "every table and every well-formed mapping pair", "why_tests_cant": "failure condition is an iff over all tables", "anchors": ["source/data_preparation.py: map_df_columns"]}
{"id": "C06", "title": "Test selection: one known test item per known user", "statement": "For each chunk, the users to recommend for are exactly the users having at least one row whose user and item are both known, each listed once in order of their first such row, and the test item of a user is the item of that first row. Hence every selected user and every test item is known to the model, and recommending for them cannot raise KeyError.", "quantifier": "every chunk of interactions and every mapping pair", "why_tests_cant": "quantifies over all chunks incl. repeated users and arbitrary mixes of known/unknown ids", "anchors": ["source/data_preparation.py: get_known_ui_df_mask, mask_first_occurence, get_users_to_recommend_test_items, get_inds_vals"]}
{"id": "C07", "title": "Sequential history is the last L interactions of each user", "statement": "After any sequence of history updates starting from the empty structure, the stored history of every user who ever interacted is exactly the last L elements of L pads followed by all the user's items in arrival order; users who never interacted have no entry; how the interactions were split into update calls is irrelevant.", "quantifier": "every list of interaction batches and every history length L", "why_tests_cant": "needs induction over unbounded interaction streams and all ways of chunking them", "anchors": ["source/ti_data_processing.py: update_user_seq_history"]}
{"id": "C08", "title": "Delta tensor is exactly new history minus old history", "statement": "For every cell (user, item, position), the sum of delta values listed at the cell equals the indicator of the cell in the new history minus that in the old history; pads never appear; each listed value is +1 or -1; no cell is listed twice.", "quantifier": "every pair of old and new history structures with the same history length for shared users and where no user disappears", "why_tests_cant": "cell-wise equality for all histories, lengths and items", "anchors": ["source/ti_data_processing.py: calculate_delta"]}
{"id": "C09", "title": "Deltas telescope over the whole stream", "statement": "Starting from a model with empty sequential history, the sum of all delta tensors produced by successive updates equals the tensor of the current history, for every stream of chunks.", "quantifier": "every stream of chunks", "why_tests_cant": "unbounded histories of updates", "anchors": ["source/models/tirec.py: TIRec.get_train_tensor", "source/ti_data_processing.py: calculate_delta, update_user_seq_history"]}
{"id": "C10", "title": "Cropping keeps exactly the latest L interactions of each user", "statement": "Cropping a table to history length L >= 1 returns, for each user in ascending id order, exactly the last min(n,L) of the user's rows (in timestamp order when sorting is requested, otherwise in table order) with positions 0,1,..; no row of another user is lost, no row is altered. L = 0 raises ValueError on every non-empty table.", "quantifier": "every table, every L and both settings of the sorting switch", "why_tests_cant": "all tables with ties, unsorted input and all lengths", "anchors": ["source/ti_data_processing.py: add_order_cropped, get_df_with_cropped_pos_column"]}
{"id": "C11", "title": "Training tensor and history tensor agree exactly for full-length users", "statement": "The tensor a sequential model is trained on places a user's n cropped interactions at positions 0..n-1, while the stored history (against which later deltas are computed) places them at positions L-n..L-1. So, with relevance 1 throughout as the preparation scripts produce, 'trained tensor + all later deltas = tensor of the current history' holds for a user if and only if the user had at least L training interactions (or none).", "quantifier": "every user history and history length", "why_tests_cant": "relates training and an arbitrary later stream; exact characterisation of a silent misalignment", "anchors": ["source/models/tdrec.py: TDRec.train", "source/models/tirec.py: TIRec.get_train_tensor", "source/ti_data_processing.py: add_order_cropped, update_user_seq_history"]}
{"id": "C12", "title": "Hit rate is the exact fraction of hits", "statement": "hr returns (number of users whose test item is in their recommendation row)/(number of users), lies in [0,1], is invariant under permuting users and under permuting a row, can only grow when rows are extended, and raises ZeroDivisionError exactly when there are no users.", "quantifier": "every recommendation array and test item array (exact rational arithmetic)", "why_tests_cant": "bounds and invariances over all arrays", "anchors": ["source/evaluation.py: hr"]}
{"id": "C13", "title": "MRR is sandwiched by hit rate", "statement": "mrr equals the mean of 1/(rank of first occurrence of the test item) (0 when absent), and hr/topn <= mrr <= hr <= 1 for rows of length topn >= 1.", "quantifier": "every recommendation array and test item array (exact rational arithmetic)", "why_tests_cant": "inequality for all arrays", "anchors": ["source/evaluation.py: mrr, hr"]}
{"id": "C14", "title": "WJI is a similarity", "statement": "wji_sim is symmetric, lies in [0,1], equals 1 when both arrays are equal, and for rows of distinct items a user's contribution is 1 only if both rows are equal and 0 exactly if they share no item. For rows of topn >= 1 it has a defined result exactly when there is at least one user and every item index is below the catalogue size (compiled code does not check bounds).", "quantifier": "every pair of recommendation arrays with equal shape (exact rational arithmetic)", "why_tests_cant": "metric axioms quantify over all arrays", "anchors": ["source/evaluation.py: wji, wji_sim"]}
{"id": "C15", "title": "Recommendations are a correct unseen top-k", "statement": "Whenever a recommend call returns, every row consists of min(k,n_items) distinct catalogue items, none of which is in the recorded history of that user when filtering is on, and every candidate item left out scores at most as much as every item returned. This holds for every partial-sort outcome the numpy contract allows.", "quantifier": "every score vector, history, k >= 1 and every admissible argpartition result", "why_tests_cant": "argpartition is only specified up to a family of outcomes; the claim is over the whole family", "anchors": ["source/models/svd.py: SVD.recommend", "source/models/tdrec.py: TDRec.recommend"]}
{"id": "C16", "title": "Recommend fails exactly when fewer than k unseen items remain", "statement": "For catalogues of at least two items and known users, recommend with filtering on raises ValueError iff some requested user has fewer than min(k,n_items) unseen items (k >= 1); with filtering off it never fails for known users; an unknown user raises KeyError and nothing else is ever raised. With a one-item catalogue a filtered call in external ids never succeeds.", "quantifier": "every history, catalogue size, user list and k", "why_tests_cant": "exact failure condition over all states", "anchors": ["source/models/svd.py: SVD.recommend", "source/models/tdrec.py: TDRec.recommend", "source/models/random_rec.py: RandomRec.recommend"]}
{"id": "C17", "title": "Recommendation rows need not be sorted by score", "statement": "The only order guarantee on a recommendation row is that its last element has the lowest score of the row; there are score vectors and admissible partial-sort outcomes for which the best item is not first, so MRR of a model is not determined by its scores, while HR and the recommended set are determined up to ties.", "quantifier": "all score vectors and admissible outcomes (universal part), an explicit outcome (existential part)", "why_tests_cant": "a run shows one outcome of an unspecified order", "anchors": ["source/models/svd.py: SVD.recommend", "source/models/tdrec.py: TDRec.recommend", "source/evaluation.py: mrr, hr"]}
{"id": "C18", "title": "PSI update consumes each interaction exactly once", "statement": "PSI.update splits a chunk into steps (new-new, new users, new items, known) such that the value of every row reaches the factors through exactly one step and lands at the coordinates its ids have (in every supported configuration; in the default one the four tables partition the chunk). An update never raises KeyError: it succeeds unless, without embedding initialisation, a step has more new vectors than rows (ValueError), and it rejects the configuration (no initialisation, integrator).", "quantifier": "every model state and every chunk", "why_tests_cant": "partition property for all chunks, with mappings changing between the steps", "anchors": ["source/models/psi.py: PSI.update, prepare_data_with_mask_by_mode, _get_divide_df_mask, process_data_for_calculations"]}
{"id": "C19", "title": "PSI embeddings stay aligned with ids", "statement": "After training and any sequence of PSI updates (any of the supported configurations), the number of user (item) embedding rows equals the number of known users (items), and the embedding row appended for a new user (item) is the row with the index the mapping gives to that id.", "quantifier": "every stream of chunks and supported configuration", "why_tests_cant": "invariant over unbounded update histories", "anchors": ["source/models/psi.py: PSI.update, _updater, _add_new_entities_and_get_local_map"]}
{"id": "C20", "title": "PSI never recommends an interaction it was ever given", "statement": "For SVD and PSI, after train and any sequence of updates, with filtering on, no recommended item for a user occurs in any row of that user ever passed to train or update.", "quantifier": "every training table, stream of chunks, user and k", "why_tests_cant": "history invariant over unbounded streams", "anchors": ["source/models/psi.py: PSI._update_history, PSI.update", "source/models/svd.py: SVD.recommend"]}
{"id": "C21", "title": "TIRec update consumes each delta entry exactly once", "statement": "TIRec.update hands every entry of the delta tensor to exactly one of the four steps, and after the steps every new user and every new item of the chunk has received an embedding row: row counts equal mapping sizes.", "quantifier": "every delta array and lists of new users/items; every model state and chunk for the row counts", "why_tests_cant": "partition and coverage for all arrays", "anchors": ["source/models/tirec.py: TIRec.update, _get_divide_inds_array_mask"]}
{"id": "C22", "title": "TIRecA applies new-new entries twice", "statement": "In its default configuration TIRecA.update passes every delta entry to the final integrator step, so entries of new users with new items (already used to extend the factors) are applied a second time; they are applied once exactly when the chunk has no such entry.", "quantifier": "every model state and chunk", "why_tests_cant": "exact characterisation of a double count over all chunks", "anchors": ["source/models/tirec_accelerated.py: TIRecA.update, _get_divide_inds_array_mask"]}
{"id": "C23", "title": "TIRec embedding rows follow step order, not id order", "statement": "After TIRec.update (and TIRecA.update in its default configuration) appended user rows belong, in order, to the sorted new users with a new item followed by the sorted other new users; row i belongs to the user with internal index i for all users iff every new user of the first kind precedes every new user of the second kind. Analogously for items. TIRecA with integrator processing is always aligned.", "quantifier": "every model state and chunk", "why_tests_cant": "exact alignment criterion over all chunks; silent permutation of embeddings otherwise", "anchors": ["source/models/tirec.py: TIRec.update, _map_to_local, process_data_for_calculations", "source/models/tirec_accelerated.py: TIRecA.update"]}
{"id": "C24", "title": "Sequential models may recommend items a user has already consumed", "statement": "With filtering on, TIRec never recommends an item among the rows of the user kept by cropping in train or any update; an item only in rows dropped by cropping can be recommended again.", "quantifier": "every stream of chunks; explicit witness for the converse", "why_tests_cant": "history invariant over unbounded streams plus a precise limit", "anchors": ["source/models/tirec.py: TIRec._update_history, preprocess_raw_input_data", "source/models/tdrec.py: TDRec.recommend"]}
{"id": "C25", "title": "Re-training a sequential model on the same object keeps stale history", "statement": "After the first train call on a fresh TDRec the sequential history of each user is their latest L training items (in internal indices); after any number of train calls on the same object a user's history is the last L of pads followed by what every call contributed for the user who had this index in that call, in that call's item indices. A second call therefore gives the history of a fresh object exactly for users with at least L interactions or with an index unused before, and recommending for a known user may raise IndexError because the stale item index no longer exists.", "quantifier": "every sequence of training tables; explicit stream for the crash", "why_tests_cant": "state carried between calls, all pairs of tables", "anchors": ["source/models/tdrec.py: TDRec.__init__, TDRec.train", "source/models/tdrec_reinit.py: TDRecRe.train"]}
{"id": "C26", "title": "Tensor values and coordinates are paired correctly iff rows are pre-sorted", "statement": "Training pairs the i-th coordinate in (user, position) order with the i-th relevance in table order. The pairing is the table's own pairing for every table that is already sorted by (internal user, position), in particular for every output of the cropping step, and for constant relevance; for a table with pairwise distinct cells the trained tensor is the table's tensor exactly if listing the table in (user, position) order leaves the relevance column unchanged.", "quantifier": "every training table", "why_tests_cant": "all row orders; silent mispairing otherwise", "anchors": ["source/models/tdrec.py: TDRec.train", "source/models/tdrec_reinit.py: TDRecRe.train"]}
{"id": "C27", "title": "WJI of re-trained sequential models compares different index spaces", "statement": "Internal indices of a sequential model re-trained on concatenated cropped data can change for items already known (so internal-index WJI compares unrelated items), unlike the incremental models and SVD where indices of known ids never change.", "quantifier": "explicit pair of tables; universal statement for incremental models", "why_tests_cant": "relates two successive models on arbitrary data", "anchors": ["source/models/tdrec.py: TDRec.train", "source/experiments/dynamical_experiment.py: dynamical_experiment", "source/ti_data_processing.py: get_df_with_cropped_pos_column"]}
{"id": "C28", "title": "Unfolding and folding are mutually inverse", "statement": "For every shape and every mode, fold_dense(unfold_dense(t)) = t and unfold_dense(fold_dense(m)) = m; the unfolding sends cell (i0,i1,i2) to row i_mode and column i_a + n_a*i_b, a bijection onto the matrix cells.", "quantifier": "every tensor, shape (including zero dimensions) and mode", "why_tests_cant": "index arithmetic for all shapes", "anchors": ["source/tensor_operations.py: unfold_dense, fold_dense"]}
{"id": "C29", "title": "Sparse and dense unfoldings agree", "statement": "The sparse unfolding of a COO tensor is the dense unfolding of the tensor obtained by summing duplicate coordinates; no two distinct in-range coordinates share a matrix cell.", "quantifier": "every COO list with in-range coordinates, every shape and mode", "why_tests_cant": "all shapes and coordinate lists", "anchors": ["source/tensor_operations.py: unfold_sparse, unfold_dense"]}
{"id": "C30", "title": "Sparse/dense conversion round trip", "statement": "Converting a dense tensor to COO and back restores it; converting COO with distinct coordinates to dense gives the summed tensor; with a duplicated coordinate the conversion keeps only the last value, unlike the other sparse routines, which add.", "quantifier": "every tensor and COO list", "why_tests_cant": "all shapes and lists, exact duplicate behaviour", "anchors": ["source/tensor_operations.py: dense_to_sparse_tensor, sparse_to_dense_tensor"]}
{"id": "C31", "title": "Core construction is schedule independent and bit-identical to the sequential version", "statement": "Every interleaving of the parallel core construction that preserves each iteration's own order yields exactly the result of the sequential construction, cell for cell, for arbitrary (even non-associative, floating-point-like) addition and multiplication.", "quantifier": "all inputs, all schedules/interleavings, all arithmetic operations", "why_tests_cant": "number of interleavings is astronomically large; tests see one", "anchors": ["source/tensor_operations.py: construct_core, construct_core_parallel"]}
{"id": "C32", "title": "Core construction computes the three-mode contraction", "statement": "construct_core returns core[a,b,c] = sum over listed entries of val*U[i,a]*V[j,b]*W[k,c] (exact arithmetic); the dense variant applied to the summed tensor gives the same core.", "quantifier": "every COO list and factor matrices over any commutative ring", "why_tests_cant": "algebraic identity for all sizes", "anchors": ["source/tensor_operations.py: construct_core, construct_core_parallel_dense"]}
{"id": "C33", "title": "Tensor-times-matrix routines compute mode products", "statement": "tensordot and tensordot2 return the mode-n product, resp. double contraction, of the COO tensor for every mode; and composing three mode products gives construct_core.", "quantifier": "every COO list, factor matrices and modes over any commutative ring", "why_tests_cant": "algebraic identity for all sizes and modes", "anchors": ["source/tensor_operations.py: tensordot, tensordot2, _double_tensordot"]}
{"id": "C34", "title": "Chunked contraction silently drops the tail above 10000 entries", "statement": "sparse_tensor_double_tensor equals the full contraction (and the cached older variant) when the number of entries is between 1 and 10000 or a multiple of 10000; otherwise its result is the contraction of the first floor(n/10000)*10000 entries only; with zero entries it raises ZeroDivisionError.", "quantifier": "every number of entries and all inputs over any commutative ring", "why_tests_cant": "boundary at 10000 entries plus all sizes", "anchors": ["source/tensor_operations.py: sparse_tensor_double_tensor, sparse_tensor_double_tensor_old, kron_vec_jit", "source/tucker_integrator.py: tucker_intergrator"]}
{"id": "C35", "title": "Element-wise reconstruction agrees with full reconstruction", "statement": "get_tucker_element equals the corresponding entry of construct_tensor_from_tucker, get_svd_element the entry of svd2mtx, and get_mf_element the entry of the factor product, for all indices in range.", "quantifier": "all factors, cores and indices over any commutative ring", "why_tests_cant": "algebraic identity for all sizes", "anchors": ["source/tensor_operations.py: get_tucker_element, construct_tensor_from_tucker", "source/matrix_operations.py: get_svd_element, get_mf_element", "source/random_svd.py: svd2mtx"]}
{"id": "C36", "title": "Attention matrix is unit lower triangular Toeplitz and invertible", "statement": "get_global_attention(size,f) has entry (d+1)^(-f) at distance d below the diagonal, 0 above and 1 on it; entries do not increase with distance for f >= 0; it is invertible, and consequently the last-position embedding used for scoring is the last row of the position factor regardless of the attention.", "quantifier": "every size >= 1 and decay profile", "why_tests_cant": "all sizes; consequence about inverse cannot be sampled", "anchors": ["source/models/tdrec.py: get_global_attention, TDRec.__init__, TDRec.train"]}
{"id": "C37", "title": "Sequential scores use the latest L-1 items with shifted positions", "statement": "The (position, item) pairs used to score a user are (L-2, last item), (L-3, second last), ... down to position 0, at most L-1 of them, ignoring pads; with L = 1 or an empty history scoring raises IndexError.", "quantifier": "every history and every L", "why_tests_cant": "all lengths including boundaries", "anchors": ["source/models/tdrec.py: _get_pos_items_arrays, TDRec._recommend_user"]}
{"id": "C38", "title": "Projector-splitting step: exact formula and exactness", "statement": "psi_step returns factors whose product is A0 + dA*VV' + U1U1'*dA - U1U1'*dA*VV' for any QR factorisation; so it leaves the approximation unchanged for dA = 0, is exact when the rows of dA lie in the span of V, and reproduces A0+dA exactly whenever the columns of A0+dA are in the span of (A0+dA)V (the rank-r exactness property).", "quantifier": "all matrices over any real field and every QR oracle", "why_tests_cant": "algebraic identity for all sizes and all admissible QR outputs", "anchors": ["source/psi.py: psi_step"]}
{"id": "C39", "title": "Appending vectors reproduces the extended matrix before truncation", "statement": "update_svd_new_vectors builds factors whose product is [U S V' | N] exactly, with and without re-orthogonalisation, for any QR; if the inner SVD is exact the returned triple reproduces the extended matrix.", "quantifier": "all matrices over any real field, every QR/SVD oracle", "why_tests_cant": "algebraic identity for all sizes", "anchors": ["source/psi.py: update_svd_new_vectors"]}
{"id": "C40", "title": "Appending a diagonal block keeps the best singular triples", "statement": "update_svd_new_submatrix returns factors of the block-diagonal matrix diag(A, N) truncated to the r largest of the merged singular values, with vectors permuted consistently; without truncation the product is diag(A,N).", "quantifier": "all inputs, every inner SVD oracle", "why_tests_cant": "algebraic identity and selection correctness for all sizes", "anchors": ["source/psi.py: update_svd_new_submatrix"]}
{"id": "C41", "title": "Randomised SVD is a projection and exact on low rank", "statement": "random_svd's untruncated factors multiply to QQ'X; they reproduce X whenever the sampled range covers the columns of X; returned left vectors are orthonormal.", "quantifier": "all matrices, every QR/SVD/RNG outcome", "why_tests_cant": "all random outcomes", "anchors": ["source/random_svd.py: random_svd"]}
{"id": "C42", "title": "Random initialisation of new items changes predictions for known pairs", "statement": "Adding zero embeddings never changes the reconstructed scores of known pairs; adding random embeddings preserves them for new users (PSI, TIRecA) and new items in TIRecA, but PSI's new-item variant multiplies the middle factor on the wrong side and changes them in general.", "quantifier": "all factors and every QR oracle; explicit witness for the failure", "why_tests_cant": "algebraic identity for all sizes plus counterexample", "anchors": ["source/models/psi.py: PSI._add_zero_embeddings, PSI._add_random_embeddings", "source/models/tirec_accelerated.py: TIRecA._add_zero_embeddings, TIRecA._add_random_embeddings"]}
{"id": "C43", "title": "Tucker integrator applies attention twice at the second mode", "statement": "In tucker_intergrator with an attention matrix A, the contraction of the first mode uses A*W, that of the second mode uses A*A*W, and the final core uses A*W; without attention all use W. With zero-valued entries the represented tensor is unchanged. If A*A*W = A*W the result represents the old tensor plus the attended data exactly (for at most 10000 entries or a multiple of 10000, orthonormal old factors, and unfoldings that keep their column space under projection on the old row spaces); without A*A*W = A*W this fails.", "quantifier": "all factors, cores, entries and QR oracles", "why_tests_cant": "algebraic identity for all sizes", "anchors": ["source/tucker_integrator.py: tucker_intergrator"]}
{"id": "C44", "title": "GA-SATF with identity attention is RP-HOOI", "statement": "With the identity attention matrix, no callback and no forced iterations, ga_satf returns exactly what rp_hooi returns for every input, seed and behaviour of the inner SVD; both stop after at most n_iter sweeps and the returned core is the core of the returned factors when n_iter >= 1.", "quantifier": "all inputs and inner SVD behaviours", "why_tests_cant": "equality of two algorithms on all inputs and oracles", "anchors": ["source/rp_hooi.py: ga_satf, rp_hooi, _core_grew_bool"]}
{"id": "C45", "title": "Date grouping", "statement": "Grouping dates by a minimal number of actions labels every date, labels are dates not later than the date, every closed group exceeds the minimum, and dates of the same label are consecutive; but the repair of an undersized last group only relabels the last date with the previous date, so the last group need not reach the minimum and its label need not be an existing group.", "quantifier": "every table of dated interactions and every minimum", "why_tests_cant": "all date/count sequences; exact behaviour of the tail repair", "anchors": ["source/experiments/prepare_data.py: get_date_to_group_mapping"]}
{"id": "C46", "title": "Initial/stream split is a partition that respects time", "statement": "prepare_data_for_experiment partitions the time-sorted rows into an initial prefix and stream groups: concatenating initial part and groups gives all rows, no row occurs twice, and no initial row is later than a stream row.", "quantifier": "every table and split ratio", "why_tests_cant": "all tables incl. ties", "anchors": ["source/experiments/prepare_data.py: prepare_data_for_experiment, train_test_split"]}
{"id": "C47", "title": "p-core filtering returns the largest p-core", "statement": "pcore_filter terminates and returns, in original order, exactly the largest subset of rows in which every remaining user and every remaining item occurs at least p times (it may be empty); filtering again changes nothing.", "quantifier": "every table and p", "why_tests_cant": "fixpoint and maximality for all tables", "anchors": ["load_data.py: pcore_filter"]}
{"id": "C48", "title": "Early stopping rule", "statement": "The exit callback stops a run exactly at the first score that does not exceed the best so far when the preceding three (patience) scores did not improve either; the recorded list is the scores before stopping and the reported maximum is max(0, scores). The score table of the search has exactly one row per configuration and recorded score. In a training run the factors left in the model are those of the last sweep, hence not those of the best score when it stopped early.", "quantifier": "every sequence of scores and patience", "why_tests_cant": "all score sequences", "anchors": ["source/experiments/hyperparameters_search.py: prepare_exit_callback"]}
{"id": "C49", "title": "Best hyper-parameter selection", "statement": "get_optimal_svd_rank returns the smallest rank among those attaining the maximal metric; get_optimal_tdrec_params returns the first smallest-core candidate with at most five iterations for the data set's rule; it raises (argmin of an empty selection) for ml_20m exactly when the maximum is attained only without attention, and IndexError for the second-best rule exactly when all metrics are equal.", "quantifier": "every metric table", "why_tests_cant": "all tables incl. ties", "anchors": ["source/experiments/hyperparameters_search.py: get_optimal_svd_rank, get_optimal_tdrec_params"]}
{"id": "C50", "title": "Dynamic experiment: test-then-train with consistent series lengths", "statement": "The dynamic experiment evaluates each chunk on the model state before that chunk is used for updating, and after T processed chunks the series have lengths T+1 (time), T (HR, MRR, users) and T-1 (WJI and factor changes); what is reported on a chunk does not depend on later chunks; with how_many_iterations <= 0 the whole stream is processed; a chunk without any known user-item row aborts with ZeroDivisionError. The full experiment never succeeds on two or more chunks with how_many_iterations = 0, a model without embeddings (RandomRec) never succeeds, and disappearing items are reported as -1 except between the first two chunks.", "quantifier": "every stream of chunks and every model behaviour", "why_tests_cant": "unbounded streams, arbitrary models", "anchors": ["source/experiments/dynamical_experiment.py: dynamical_experiment, full_dynamical_experiment"]}
{"id": "C51", "title": "Random grid sampling", "statement": "random_grid returns distinct configurations of the product grid (or the cache) none of which is skipped, and stops with |grid| + |skipped| >= n; it may return fewer than n although more admissible configurations exist. It terminates once all configurations are drawn if the value lists have no repetition, returns exactly the product for n = 0, and never terminates for a request of the whole grid when a value is repeated. full_grid returns exactly the product.", "quantifier": "every grid, skip predicate and random choice sequence", "why_tests_cant": "all random choice sequences", "anchors": ["source/random_grid.py: random_grid, full_grid"]}
{"id": "C52", "title": "Sliding window and relative norm", "statement": "sliding_window of window w over n >= w >= 1 values returns n-w+1 values, the i-th being the sum (mean) of values i..i+w-1, and returns the input unchanged if n < w (whatever the mode); the reported factor change is ||u1||/||u2-u1|| with the older rows padded by zeros, which is not the relative change ||u2-u1||/||u2||, and divides by zero for an unchanged model.", "quantifier": "every array and window", "why_tests_cant": "all lengths; algebraic identity", "anchors": ["source/general_functions.py: sliding_window, rel_norm", "source/experiments/dynamical_experiment.py: dynamical_experiment"]}
{"id": "C53", "title": "Warm re-training fails exactly when the last item vanishes", "statement": "TDRecRe.train with the previous factors succeeds exactly if the rank is valid and fits, the last position is present and the table contains a user (item) that is new or has the largest index; it then keeps every known index, gives new ids the next indices and has one factor row per known id. In the experiment this means a step fails with ValueError exactly when the item with the largest index has left every window and no new item arrived.", "quantifier": "every state, table, chunk and rank", "why_tests_cant": "an if-and-only-if over all states and tables; the failing case needs a particular item to vanish", "anchors": ["source/models/tdrec_reinit.py: TDRecRe.train", "source/rp_hooi.py: ga_satf", "source/experiments/dynamical_experiment.py: dynamical_experiment"]}
{"id": "C54", "title": "Chunk splitting partitions a matrix; block-diagonal splitting drops the remainder", "statement": "split_matrix returns chunks whose concatenation is the matrix: the first has floor(n*ratio_first) slices, the others floor((n-first)*ratio_next) except a shorter last one, and it raises ZeroDivisionError exactly if that step is 0; the block-diagonal split returns full diagonal blocks only and leaves out up to step-1 last rows and columns, none exactly if the step divides n-first.", "quantifier": "every matrix and all ratios with 0 <= first <= 1, 0 <= next", "why_tests_cant": "all sizes and ratios", "anchors": ["source/matrix_operations.py: split_matrix", "source/psi_experiments/psi_step_experiments.py: split_mtx_block_diag"]}
{"id": "C55", "title": "Tucker integrator is exact on tensors its old factors can see", "statement": "Without attention, if the number of entries is below 10000 or a multiple of 10000, the old second and third factors are orthonormal, and each unfolding of (old tensor + new data) keeps its column space when projected on the row space the integrator uses, then the factors and core returned by tucker_intergrator represent old tensor + new data exactly, cell by cell.", "quantifier": "all sizes, ranks, factors, cores, entries and QR oracles", "why_tests_cant": "exactness of a multi-step projection over all tensors; a numerical test only sees small residuals on samples", "anchors": ["source/tucker_integrator.py: tucker_intergrator", "source/tensor_operations.py: double_tensordot"]}
{"id": "C56", "title": "HOOI result is the orthogonal projection of the attended data", "statement": "After at least one sweep ga_satf (rp_hooi) returns orthonormal factors of the requested shape whose core and factors represent, cell by cell, the projection of the attended data (of the data) onto the factors in all three modes; the representation is exact if and only if each factor spans the columns of its unfolding; the squared norm of the attended data is that of the core plus that of the error.", "quantifier": "all data, shapes, ranks, attention matrices, initial factors, callbacks, numbers of sweeps and inner SVDs returning orthonormal vectors", "why_tests_cant": "algebraic identity for all inputs and oracles; tests see rounding and samples", "anchors": ["source/rp_hooi.py: rp_hooi, ga_satf", "source/tensor_operations.py: construct_core, tensordot2"]}
{"id": "C57", "title": "HOOI core norm never decreases with an exact inner SVD", "statement": "If every inner SVD returns a best subspace, the squared norm of the core never decreases from the first sweep on and never exceeds that of the attended data, so a growth tolerance of at most 0 never stops the iteration before n_iter sweeps.", "quantifier": "all data, ranks, attention matrices and optimal inner SVDs", "why_tests_cant": "monotonicity over all runs", "anchors": ["source/rp_hooi.py: rp_hooi, ga_satf, _core_grew_bool"]}
{"id": "C58", "title": "One-pass and partial Tucker decompositions are projections", "statement": "hosvd, hosvd_dense, tucker2_dense and tucker2 return factors made of the singular vectors of the corresponding unfoldings (contractions for tucker2) with columns reversed, and factors and core represent the projection of the data; the identity mode is untouched; hosvd_dense cuts ranks that exceed a mode; tucker2_dense with a rank that is not a valid Tucker rank returns square factors and reproduces the tensor exactly; hosvd and hosvd_dense raise RuntimeError exactly for an invalid rank.", "quantifier": "all tensors, ranks, identity modes and SVD routines meeting their contracts", "why_tests_cant": "for all tensors and SVD behaviours", "anchors": ["source/hosvd.py: hosvd, hosvd_dense, tucker2_dense", "source/rp_hooi.py: tucker2"]}
{"id": "C59", "title": "Steam table cleaning and id encoding", "statement": "Building the Steam table keeps the last row of every user-item pair, leaves every user with at least five distinct items and every item with at least five distinct users, and loses no pair that could be kept; encode_column renumbers a column with codes 0..n-1 that compare like the values.", "quantifier": "every table", "why_tests_cant": "maximality and order for all tables", "anchors": ["load_data.py: pcore_filter, drop_duplicates", "prepare_data.py: encode_column"]}
{"id": "C60", "title": "Stability test users are the most active known users", "statement": "The stability experiment's test users are known users of the first days of the stream, at most 50 (all if there are no more), and no left-out candidate is active on more days than a chosen one.", "quantifier": "every stream and initial table", "why_tests_cant": "selection by rank over all streams incl. ties", "anchors": ["source/experiments/prepare_data.py"]}
{"id": "C61", "title": "Adding users or items to a Tucker model keeps the rest", "statement": "update_tucker_new_vectors appends rows to the factor of one mode, leaves the other two factors untouched, keeps core shape and orthonormality, and raises only if QR or an SVD raises. The tensor it represents differs from (old tensor, new vectors projected on the two other factors) exactly by the image of the truncation error of the last SVD; if that SVD loses nothing every old cell is kept and every new row is the projection of the given vector. The implicit operator of explicit_calc=False multiplies by the same matrix as the explicit one. More new vectors than columns of the unfolding are always refused.", "quantifier": "all modes, sizes, ranks, factors, cores, new vectors, both settings of explicit_calc, every QR and SVD meeting its contract", "why_tests_cant": "algebraic identity over all inputs and oracles; tests only see residuals on samples", "anchors": ["source/tucker_integrator.py: update_tucker_new_vectors", "source/psi.py: update_svd_new_vectors", "source/random_svd.py: random_svd"]}
{"id": "C62", "title": "Adding a block of new users and new items projects the block tensor", "statement": "update_tucker_new_matrix returns orthonormal factors with the new rows appended to the first two and the same ranks; with the core they represent the orthogonal projection of the block tensor (old tensor and attended new data, projected on the third factor, in opposite corners, zero elsewhere), exactly if and only if each factor spans its unfolding; the factors are the block-extended old ones times the leading singular vectors of the block tensor's coordinates. It always raises if the rank of the core is not a valid Tucker rank (RuntimeError unless an SVD raised before), and otherwise only if an SVD raises.", "quantifier": "all sizes, ranks, orthonormal factors, cores, entries, attention matrices and SVDs meeting their contracts", "why_tests_cant": "exactness of a chain of decompositions over all inputs", "anchors": ["source/tucker_integrator.py: update_tucker_new_matrix", "source/hosvd.py: hosvd_dense, tucker2_dense", "source/tensor_operations.py: tensordot"]}
{"id": "C63", "title": "Truncated updates lose nothing exactly when the target fits in the kept rank", "statement": "With orthonormal starting factors and an inner SVD that is exact on matrices of the requested rank, update_svd_new_vectors, update_svd_new_submatrix (both forms of s), hosvd, hosvd_dense and update_tucker_new_matrix reproduce their target ([A | N], diag(A, N), the tensor, the block tensor) if and only if the target (its unfoldings) fits in the kept rank; update_tucker_new_vectors and tucker2_dense reproduce it if it fits; random_svd does so exactly when the matrix fits in the rank, provided its random sample covers the columns.", "quantifier": "all factors, new vectors, blocks, tensors, ranks, QR and SVD routines meeting their contracts", "why_tests_cant": "an equivalence between a rank condition and exact reproduction over all inputs", "anchors": ["source/psi.py: update_svd_new_vectors, update_svd_new_submatrix", "source/random_svd.py: random_svd", "source/hosvd.py: hosvd, hosvd_dense, tucker2_dense", "source/tucker_integrator.py: update_tucker_new_vectors, update_tucker_new_matrix"]}
{"id": "C64", "title": "PSI factors stay in step with the mappings", "statement": "After SVD.train and any stream of PSI.update calls, in every configuration, mappings, history and log are those of the bookkeeping model, the factors keep the trained rank and have exactly one row per known user and one column per known item, and the scores of a known user are that user's row of U S Vt; an update raises only when the bookkeeping refuses the chunk or a QR/SVD routine raises.", "quantifier": "all tables, streams, configurations, ranks, QR/SVD/argsort/normal routines meeting their contracts, any commutative ring", "why_tests_cant": "an invariant over unbounded streams and all oracle answers", "anchors": ["source/models/psi.py: PSI.update, _updater, update_factors_by_mode", "source/models/svd.py: SVD.train, _recommend_user", "source/psi.py"]}
{"id": "C65", "title": "A PSI stream that fits in the rank equals training on everything", "statement": "If the matrices to be represented fit in the rank at each step (and the integrator's exactness condition and, for new users, symmetry of the middle factor hold), one update adds exactly the chunk's relevances to the scores: known pairs get old score plus new relevance, pairs of new users or items their relevance. Training plus a stream of such updates gives, for every pair, the total relevance of all interactions ever seen, duplicates summed.", "quantifier": "all tables, streams, ranks, configurations without random embeddings, all routines meeting their contracts over any ordered field", "why_tests_cant": "equality of the incremental and the batch result over all streams", "anchors": ["source/models/psi.py: PSI.update", "source/models/svd.py: SVD.train", "source/psi.py: psi_step, update_svd_new_vectors, update_svd_new_submatrix"]}
{"id": "C66", "title": "New users and the middle factor", "statement": "When a chunk has only new users rating known items and the incremental SVD is used, the update starts from U S^T Vt instead of U S Vt: the scores become those of U S^T Vt plus the new rows (if that fits in the rank), so known users keep their scores if and only if S is symmetric. After an integrator step S is in general not symmetric, and known users' scores do change.", "quantifier": "all models with orthonormal factors, chunks of new users and routines meeting their contracts over any ordered field; the defect by a run from training", "why_tests_cant": "needs the exact condition on a hidden factor; a residual test would call it truncation error", "anchors": ["source/models/psi.py: _updater, _prepare_factors_new_vectors", "source/psi.py: update_svd_new_vectors"]}
{"id": "C67", "title": "Interactions of new users with new items under the integrator option", "statement": "With zero embeddings and nu_ni_process_integrator, a new user all of whose items in the chunk are new gets score 0 for every item, whatever the relevances, as long as the integrator step keeps full rank.", "quantifier": "all models with orthonormal factors, chunks, routines meeting their contracts over any ordered field", "why_tests_cant": "an effect of the composition of three steps for all inputs", "anchors": ["source/models/psi.py: _updater, _add_zero_embeddings, PSI.update", "source/psi.py: psi_step"]}
{"id": "C68", "title": "Prepared tables keep time order", "statement": "prepare_ml20m, prepare_amazon and prepare_steam write the rows of the raw table (ml_20m: the latest part, never dropping a later row than a kept one) numbered from 0 in time order, with ids renumbered in their order (ml_20m: unchanged). The day of a row is the midnight nearest to its time (at noon the one with an even number), so it never decreases, and it is the calendar day exactly for times up to noon: an interaction of the afternoon carries the next day. Read back by prepare_data_for_experiment, no initial row is later than a stream row and rows of an earlier group are strictly earlier than rows of a later one, with or without grouping of small days.", "quantifier": "every raw table, every sort of equal times, every split point and minimum group size", "why_tests_cant": "no future leak and exact day boundaries over all tables; a test sees some", "anchors": ["prepare_data.py: prepare_ml20m, prepare_amazon, prepare_steam, encode_column", "source/experiments/prepare_data.py: prepare_data_for_experiment"]}
{"id": "C69", "title": "Saved data dynamics leave out the last processed group", "statement": "save_data_dynamics saves, per group of the stream in order, the number of distinct users and of interactions, for the first min(how_many_iterations, number of groups) - 1 groups: the last group the experiment processes is left out. It raises IndexError exactly if no iterations are asked for or the stream is empty.", "quantifier": "every table, split, grouping and number of iterations", "why_tests_cant": "exact length and content over all streams", "anchors": ["prepare_data.py: save_data_dynamics", "source/experiments/prepare_data.py: prepare_data_for_experiment"]}
{"id": "C70", "title": "New-entities graph shows the rows PSI adds", "statement": "For each chunk plot_new_entities_dynamics counts the users (items) that occur in no earlier data, split by whether they occur in a row of the chunk where both user and item are new. For PSI, in every configuration, these are exactly the numbers of users and items its steps 'new', 'new_users' and 'new_items' handle and of embedding rows it gains. The plot raises ValueError exactly if the stream has fewer chunks than how_many_iterations. For the sequential models the graph is not that number: an item cropped from the initial histories is new to the model and known to the graph.", "quantifier": "every initial table, stream and PSI configuration", "why_tests_cant": "agreement of two independent computations over all streams", "anchors": ["source/experiments/prepare_graphs.py: plot_new_entities_dynamics", "source/models/psi.py: PSI.update", "source/models/tirec.py: preprocess_raw_input_data"]}
{"id": "C71", "title": "Errors of the rows/columns experiment", "statement": "In get_dynamics_vec the matrix has the size and at most the rank asked for; the series has one record per chunk, with the shapes of the growing target. With a fresh SVD per step the relative error is 0 exactly at the steps whose target fits in the rank. With the incremental update the approximation keeps the rank min(rank, width of the first chunk) for ever: an error of 0 implies that the target fits in that rank, and conversely if the first chunk has that rank. So with a first chunk narrower than the rank the incremental error does not vanish on data of the right rank. It raises ZeroDivisionError exactly if the step width rounds to 0, else only what a QR/SVD routine raises.", "quantifier": "all sizes, ranks, ratios, both axes, all QR/SVD routines meeting their contracts over any ordered field", "why_tests_cant": "an equivalence over all matrices and all numbers of steps", "anchors": ["source/psi_experiments/psi_step_experiments.py: get_svd_triple, get_incremental_svd_triple, get_dynamics_vec", "source/matrix_operations.py: generate_matrix, split_matrix, sqrt_err_relative_mtx"]}
{"id": "C72", "title": "Errors of the block experiment", "statement": "In get_dynamics_mtx the k-th record has the shape of the first k diagonal blocks and an error that is 0 exactly if their block-diagonal matrix fits in the rank (fresh SVD) or in min(rank, size of the first block) (incremental update). If the ratio divides the rest exactly, the small rank chosen for the generated matrix makes every target fit in the rank; if the block width is rounded down there can be more blocks than the formula counts and the last targets do not fit.", "quantifier": "all sizes, ranks, ratios, all SVD/argsort routines meeting their contracts over any ordered field", "why_tests_cant": "an equivalence over all matrices and numbers of blocks; the rounding defect needs the exact arithmetic", "anchors": ["source/psi_experiments/psi_step_experiments.py: split_mtx_block_diag, get_incremental_svd_triple_block, get_dynamics_mtx", "source/psi.py: update_svd_new_submatrix"]}
{"id": "C73", "title": "Errors of projector splitting along a list of matrices", "statement": "get_psi_dynamics records, for every matrix of the list, the relative error of an approximation within the rank; the first is exact if the matrix fits; at each step the error matrix moves by at most the change of the data (in Frobenius norm), and it stays zero if the next matrix keeps its rank when multiplied by the transpose of the one before. Fitting in the rank alone is not enough. get_svd_dynamics is exact exactly at the matrices that fit. An empty list raises UnboundLocalError.", "quantifier": "all non-empty lists of matrices of one shape, all ranks and routines meeting their contracts over any ordered field", "why_tests_cant": "a bound along unbounded sequences for all routines", "anchors": ["source/psi_experiments/psi_step_experiments.py: get_psi_dynamics, get_svd_dynamics", "source/psi.py: psi_step"]}
{"id": "C74", "title": "The numerical experiment", "statement": "NumericalExperiment sets up two matrices and two skew-symmetric generators of the size asked for, and without noise every mixture has rank at most the block size. The k-th matrix of the dynamics is the mixture a1 + exp(t0 + k h) a2 between k explicit Euler steps on each side; it has the rank of the mixture, and a norm at least as large: the Euler steps are not rotations and the norm does grow. compare_approximations plots the errors at the times of the matrices; the SVD error is 0 exactly if the mixture of that time fits in the rank, the PSI error only if it does, and at the first time also whenever it does. Zero steps raise UnboundLocalError.", "quantifier": "all sizes, step widths, numbers of steps, random draws, exp functions and routines meeting their contracts over any ordered field", "why_tests_cant": "an identity and a rank invariant for every number of steps", "anchors": ["source/psi_experiments/psi_step_experiments.py: NumericalExperiment, get_dynamics_list, _solve_ivp, _get_skew_symmetric, compare_approximations"]}
{"id": "C75", "title": "The factors of the sequential models follow the data", "statement": "Training TDRec on a cropped table and updating TIRec or TIRecA (with or without integrator processing, random or zero new rows, explicit or implicit SVD, with or without attention) does to the mappings, histories and row counts exactly what the data handling prescribes: after every call u and v have one row per known user and item, the three factors have orthonormal columns of the chosen ranks, the core has the shape of the ranks and the position embeddings are those of the current position factor. A call raises only if the data handling raises or a QR/SVD routine does.", "quantifier": "every table, stream, configuration and all routines meeting their contracts over any commutative ring", "why_tests_cant": "an invariant over unbounded streams and all numerical routines", "anchors": ["source/models/tirec.py: TIRec.update, update_factors_by_mode", "source/models/tirec_accelerated.py: TIRecA.update", "source/models/tdrec.py: TDRec.train"]}
{"id": "C76", "title": "Lossless updates keep the tensor equal to the histories", "statement": "Without attention, an update of TIRec, or of TIRecA with integrator processing, that loses nothing (the new vectors fit in the ranks, the integrator meets its exactness condition, new rows are not random) changes every cell of the represented tensor by the change of the position tensor of the sequential histories; so over any stream a model equal to its histories stays equal to them. TIRecA without integrator processing adds the entries of new users with new items twice. Without the exactness condition an interaction of a new user with a new item can be lost completely.", "quantifier": "every state, chunk, stream and all routines meeting their contracts over any ordered field", "why_tests_cant": "an identity of all cells over all streams; the double entry shows only in such cells", "anchors": ["source/models/tirec.py: TIRec.update", "source/models/tirec_accelerated.py: TIRecA.update", "source/tucker_integrator.py: update_tucker_new_vectors, update_tucker_new_matrix, tucker_intergrator"]}
{"id": "C77", "title": "Scores depend on the represented tensor only", "statement": "Two sequential models with the same histories and attention matrices and the same tensor, of the second and third ranks of the model, give the same scores to every user; so after a lossless stream the scores are those of any model of the same histories, a retrained one included. If the position rank equals the number of positions all scores of all users are 0, for every attention matrix.", "quantifier": "every pair of models, user and stream, over any ordered field", "why_tests_cant": "independence of the choice of factors for all models", "anchors": ["source/models/tdrec.py: TDRec._recommend_user", "source/models/tirec.py: TIRec.update"]}
{"id": "C78", "title": "Integrator processing forgets newcomers that meet only newcomers", "statement": "In TIRecA with integrator processing and without random new rows, with or without attention, a chunk small enough to be processed whole gives a new user none of whose items was known a zero slice of the represented tensor, provided old tensor and new data together see the old user space with the full rank. Under the same condition for the items, a new item that only such users have gets a zero slice and score 0 for every user, and a user whose recent items are all of this kind has score 0 for every item, so the list is a tie. Users with a history and only zero scores do occur.", "quantifier": "every state, chunk, attention matrix and all routines meeting their contracts over any ordered field", "why_tests_cant": "a kernel argument over all states and factorisations", "anchors": ["source/models/tirec_accelerated.py: TIRecA.update", "source/tucker_integrator.py: tucker_intergrator", "source/models/tdrec.py: TDRec._recommend_user"]}
{"id": "C79", "title": "A whole PSI experiment", "statement": "dynamical_experiment with the PSI model runs through exactly when the tables allow it: the rank is positive and below the numbers of different users and items of the initial table; every chunk processed has a row whose user and item both occurred before; every user of such a row, and every test user, has occurred before and has at least k different known items they did not take; there are test users if there are two chunks or more; and the update takes the chunk (no random or zero rows: no more new vectors than the incremental SVD can take, no integrator processing; otherwise any chunk). If it meets this it can only raise what a numerical routine raised. The reported HR and MRR of step t are those of lists of k different items not taken before chunk t, one for the first such row of each user, made of the highest scores of the model trained on the initial table and updated with the first t chunks; the stability values lie in [0, 1].", "quantifier": "every initial table, stream, configuration, k >= 1, rank, test users and all routines meeting their contracts over any ordered field", "why_tests_cant": "an exact condition over all tables and streams of a run of many model calls", "anchors": ["source/experiments/dynamical_experiment.py: dynamical_experiment", "source/experiments/prepare_model.py: _prepare_psirec_model", "source/models/psi.py: PSI.update", "source/models/svd.py: SVD.recommend"]}
{"id": "C80", "title": "A whole experiment with retraining", "statement": "dynamical_experiment with the SVD model runs through exactly when the rank is positive and below the numbers of different users and items of the initial table, every chunk processed has a row with known ids, every user of such a row and every test user is known and has k known items left, and there are test users if there are two chunks or more; new ids in chunks never matter. If so it can only raise what the truncated SVD raised. The model of step t is what training on the initial table and the first t chunks gives, and HR and MRR are those of its k best items not taken before chunk t.", "quantifier": "every initial table, stream, k >= 1, rank, test users and all truncated SVD and argpartition routines meeting their contracts over any ordered field", "why_tests_cant": "an exact condition over all tables and streams of a run of many model calls", "anchors": ["source/experiments/dynamical_experiment.py: dynamical_experiment", "source/experiments/prepare_model.py: _prepare_svd_model", "source/models/svd.py: SVD.train, SVD.recommend"]}
{"id": "C81", "title": "A whole TIRec or TIRecA experiment", "statement": "dynamical_experiment with TIRec or TIRecA (any processing, any attention) on an initial table with at least two different kept items runs through exactly when: the ranks are mutually consistent and no larger than the numbers of users, kept items and positions; some user has as many rows as there are positions; every chunk processed has a row with known ids; every user of such a row and every test user is known and has k known items left; there are test users if there are two chunks or more; every chunk changes the last L items of some user; and for TIRec the new users and items fit the incremental SVD. Known means: in a row that cropping to the last L rows of each user kept, in the initial table and in each chunk separately. If so it can only raise what a numerical routine raised. The model of step t is the one trained on the cropped table and updated with the first t chunks; HR and MRR are those of its k best items among the known ones the user has no kept row with; stability values lie in [0, 1]. So a chunk in which every user repeats the items they already end with stops the experiment.", "quantifier": "every initial table, stream, configuration, attention, k >= 1, ranks, at least 2 positions, test users and all routines meeting their contracts over any ordered field", "why_tests_cant": "an exact condition over all tables and streams of a run of many model calls", "anchors": ["source/experiments/dynamical_experiment.py: dynamical_experiment", "source/experiments/prepare_model.py: _prepare_tirec_model, _prepare_tireca_model", "source/models/tirec.py: TIRec.update", "source/models/tirec_accelerated.py: TIRecA.update", "source/models/tdrec.py: TDRec.train, TDRec.recommend"]}
{"id": "C82", "title": "A whole TDRec experiment", "statement": "dynamical_experiment with TDRec retrains one object on the table that is cropped to the last L rows of each user after every chunk. With at least two different items in each such table: if the run goes through, then before every chunk and at the end the ranks were mutually consistent and no larger than the numbers of users, items and positions, some user had L rows, every chunk had a row with ids in the table, every user of such a row and every test user was in the table and had k of its items left, there were test users if there were two chunks or more, and the first of two or more chunks did not lower the number of items. Conversely, if all this holds and no chunk but the last lowers the number of items, the run can only raise what a numerical routine raised. The histories of the object are never reset: the lists of step t are the k best of the object, and for users with L - 1 rows or more in the table also the k best of a new object trained on the same table. If cropping lowers the number of items the run may stop with IndexError, ValueError or an index outside the array, although every table can be trained on.", "quantifier": "every initial table, stream, k >= 1, ranks, at least 2 positions, test users and all routines meeting their contracts over any ordered field; witnesses for the three failures", "why_tests_cant": "a condition over all tables and streams; the failures need an item that falls out of every history", "anchors": ["source/experiments/dynamical_experiment.py: dynamical_experiment", "source/experiments/prepare_model.py: _prepare_tdrec_model", "source/models/tdrec.py: TDRec.train, TDRec.recommend", "source/ti_data_processing.py: get_df_with_cropped_pos_column"]}
{"id": "C83", "title": "From the prepared file to the reported series", "statement": "full_dynamical_experiment on a table with numbered rows in day order and a positive number of iterations trains on the first rows and runs over the others in groups that follow each other in time; no initial row is later than a group. The stability test takes at most 50 users, all in the initial table and in a processed group, and all such users if there are no more. So for SVD, PSI, TIRec, TIRecA and TDRec the run goes through under the conditions of the earlier experiment properties without the one that there are test users: if the first group can be tested, the stability test is not empty. Without grouping of days, two tables that differ only in later days give, if both runs go through, the same HR, MRR, norms and changes of the embeddings on the days they share; the stability series does not have this property: its users are chosen by the later days.", "quantifier": "every table, number of initial rows, grouping minimum, positive number of iterations, unstable sort, model; a witness for the stability series", "why_tests_cant": "an argument over all tables and both unstable sorts; the leak only shows when two runs are compared", "anchors": ["source/experiments/dynamical_experiment.py: full_dynamical_experiment", "source/experiments/prepare_data.py: prepare_data_for_experiment, get_users_stability", "source/ti_data_processing.py: get_df_with_cropped_pos_column"]}
{"id": "C84", "title": "A whole TDRecReinit experiment", "statement": "dynamical_experiment with TDRecRe restarts each training from the factors and mappings of the one before, on the table that is cropped to the last L rows of each user after every chunk. With at least two different items in the initial table it runs through exactly when: the ranks are mutually consistent and no larger than the numbers of users, items and positions of the initial table; some user has L rows there; every chunk processed has a row whose user and item occurred in some table so far; every user of such a row and every test user is in the present table and has k items of all tables so far left that they have no row with in the present one; there are test users if there are two chunks or more; and after every chunk the item that came in last for the first time is still in the table. If so it can only raise what a numerical routine raised. The lists of step t are the k best of the model that was trained t times again; an item that has left the table is still offered. If the newest item leaves the table the run stops with ValueError, although all tables can be trained on and all chunks tested. From a prepared table (full_dynamical_experiment) the same holds without the condition that there are test users.", "quantifier": "every initial table, stream, k >= 1, ranks, at least 2 positions, test users and all routines meeting their contracts over any ordered field; a witness for the failure", "why_tests_cant": "an exact condition over all tables and streams; the failure needs the newest item to fall out of every history", "anchors": ["source/experiments/dynamical_experiment.py: dynamical_experiment, full_dynamical_experiment", "source/experiments/prepare_model.py: _prepare_tdrec_reinit_model", "source/models/tdrec_reinit.py: TDRecRe.train", "source/rp_hooi.py: ga_satf", "source/ti_data_processing.py: get_df_with_cropped_pos_column"]}
{"id": "C85", "title": "The search for the SVD rank and the tuned experiments", "statement": "hyperparameters_search_svd on a prepared table uses only the initial rows. It parts them at a day, trains one SVD per different rank on the earlier days and reports its HR on the later days, where each tested user gets their topk best unseen items; the order in which Python lists the grid does not matter. It returns exactly when every rank of the grid is below the numbers of users and items of the earlier part and the later part has a known row whose users all have topk unseen items (or scipy raises); otherwise it returns nothing at all. The rank chosen by get_optimal_svd_rank is the smallest of those with the highest HR, and it can be used to train on all initial rows, so that the SVD and PSIRec experiments with it need only that every step can be tested and every update takes its chunk.", "quantifier": "for all prepared tables, cuts, quantiles, grids, numbers of recommendations and results of scipy and numpy satisfying their contracts", "why_tests_cant": "an exact condition over all tables and grids, and a guarantee carried from the search to the experiment", "anchors": ["source/experiments/hyperparameters_search.py: get_hparams_metric_grid_svd, hyperparameters_search_svd, get_optimal_svd_rank", "source/experiments/prepare_data.py: train_test_split", "source/experiments/dynamical_experiment.py: full_dynamical_experiment"]}
{"id": "C86", "title": "The search for the TDRec parameters and the tuned experiments", "statement": "hyperparameters_search_tdrec on a prepared table uses only the initial rows. It crops them to the last L rows of each user and parts them at a day; each configuration is trained on the earlier days, and after every sweep the HR of the model with its factors is taken on the later days. The saved table lists the recorded scores of every configuration in turn, numbered from 1; recording stops before the fourth score in a row without a new best one, or after all sweeps. With at least two items in the earlier part, it returns only if every rank is mutually consistent and no larger than the numbers of users, items and positions there, some user has L rows there and the later part can be tested; if all this holds, only a numerical routine can stop it. Whatever get_optimal_tdrec_params takes from the table is one of the configurations with one of the first five sweeps, and its rank fits the whole cropped initial table, so that the TIRec and TIRecA experiments with it need only that every step can be tested and updated; for Amazon beauty and Steam there always is a choice.", "quantifier": "for all prepared tables, cuts, quantiles, grids with positive ranks, numbers of recommendations, at least 2 positions and results of numpy and scipy satisfying their contracts; witnesses for the failures", "why_tests_cant": "a condition over all tables and grids and over runs of unbounded length with an early stop, and a guarantee carried from the search to the experiment", "anchors": ["source/experiments/hyperparameters_search.py: prepare_exit_callback, get_hparams_metric_grid_tdrec, hyperparameters_search_tdrec, get_optimal_tdrec_params", "source/experiments/prepare_data.py: train_test_split", "source/models/tdrec.py: TDRec.train", "source/experiments/dynamical_experiment.py: full_dynamical_experiment"]}
{"id": "C87", "title": "Figures made from saved results", "statement": "prepare_graphs.py draws from the saved results: an experiment of n steps saves n+1 times, n values of HR and n-1 of stability; if all models of the configuration have results of the same number of steps, the script saves the times, the running totals of HR, the stability and, for every window length, the averages of HR over the window, each with one curve per model under its name; if two of them differ in the number of steps, or a result is missing, no figure at all is saved. For the ablation study every file of the study has its own curve with its own label, whatever the order of the directory, if the path of the directory does not contain the model name and no other file does; another file with the model name stops it with ValueError. A backup copy x.json.bak replaces the curve of x.json or not depending on the order of the directory, a directory whose path contains the model name cannot be drawn, and the axis of the stability figure is labelled REGULAR.", "quantifier": "for all result files, model lists, window lengths, directories, file orders, settings printed as numbers; witnesses for the defects", "why_tests_cant": "all directories, orders of listing and settings; matters only across files", "anchors": ["prepare_graphs.py: dynamical_experiment, ablation_study, map_tensor_name, map_matrix_name", "source/experiments/prepare_graphs.py: plot_computational_time_dynamics, plot_stability, plot_cum_metrics, plot_sliding_window_metrics", "source/plotting.py: plot_results", "dynamical_ablation_study.py"]}
{"id": "C88", "title": "Tables made from saved results", "statement": "Both tables of get_table_results_latex.py have for every dataset, model and metric the same cell: the mean of the saved series (nan if it is empty) when the file can be read and has all four series, otherwise a dash for all four, also for series that were saved.", "quantifier": "for all datasets, models, metrics without repetition and all contents of the files", "why_tests_cant": "all contents of files, including partly filled cells that are overwritten after an exception", "anchors": ["get_table_results_latex.py"]}
{"id": "C89", "title": "What a complete run leaves on disk", "statement": "run_experiments.py never stops: after a run each table of hyperparameters is the one just found if its search succeeded and else the earlier one; each result is that of the experiment with the tables then on disk if it succeeded and else the earlier file; each setting of the ablation study is new if it and all settings before it succeeded and else the earlier file. So a failed search or experiment is not seen: later experiments use the parameters of an earlier run and figures and tables show its results.", "quantifier": "for all outcomes of the searches, experiments and settings, and all earlier files", "why_tests_cant": "all combinations of failures over all scripts; the defect needs files of an earlier run", "anchors": ["run_experiments.py", "find_hyperparams.py", "dynamical_experiment.py", "dynamical_ablation_study.py"]}
{"id": "C90", "title": "Exactly which recommendations are possible for a model", "statement": "np.argpartition only promises that nothing smaller than the k-th best score comes after its position, so a model does not determine its recommendations. The tables recommend can return are exactly those in which every user has k different candidate items, none of which scores lower than a candidate left out, with a lowest of them last: each such table is returned for some behaviour within the contract, and no other. In particular the items before the last may come in any order, and if scores are pairwise different the MRR of one and the same model ranges exactly from the mean that counts a tested item in the list, unless it is last, as 1/(k-1) to the mean that counts it as 1.", "quantifier": "for all score types with a total order, model states, users (also repeated), k, filter_viewed, internal and tested items", "why_tests_cant": "quantifies over all behaviours of argpartition; a test sees one", "anchors": ["source/models/svd.py: recommend", "source/models/tdrec.py: recommend", "source/evaluation.py: mrr"]}
{"id": "C91", "title": "A model that reproduces its data recommends arbitrary items", "statement": "If the rank holds the interactions, after training and after every update, SVD and PSIRec give every known user and item the total relevance of their interactions, hence 0 to each item the user does not have. Then with filter_viewed any k unseen items per user, in any order, are a possible result of recommend, and nothing else is; for users with more than k unseen items every assignment of hits and misses to the tested users, hence every hit rate, is possible.", "quantifier": "for all tables, streams, ranks, options and k, all results of numpy and scipy satisfying their contracts, under the lossless conditions of C65", "why_tests_cant": "universal over data and over the behaviours of argpartition; the hit rate observed in a test is an accident", "anchors": ["source/models/svd.py: train, _recommend_user, recommend", "source/models/psi.py: PSI.update"]}
{"id": "C92", "title": "What an experiment owes to the order of the raw log", "statement": "Every raw log is prepared to a table that is numbered and in day order. If no two rows of the log fall into one second, the prepared table does not depend on the order of the log or on the sort. In general, for the Amazon and Steam logs, the initial rows and the groups of an experiment (with or without a minimum of actions per group) are the same, up to the order inside them, for every order of the log and every sort if and only if the cut between initial rows and stream does not fall into a second with two different rows; for MovieLens also the cut that drops the oldest rows must not. Otherwise the reported numbers change: one log of nine rows gives HR 1 in one order and HR 0 in another.", "quantifier": "for all logs, row orders, sorts of the log and of the days, cuts, minima of actions; a witness run for the bad side", "why_tests_cant": "quantifies over all orders of the log and all behaviours of an unstable sort; time stamps of whole days make ties the rule", "anchors": ["prepare_data.py: prepare_ml20m, prepare_amazon, prepare_steam, encode_column", "source/experiments/prepare_data.py: prepare_data_for_experiment"]}
{"id": "C93", "title": "The published statistics of the data", "statement": "print_recsys_df_stats saves for every table that is not empty the numbers of different users, items and days, the number of rows, the median of the numbers of rows per user, and to two decimals their mean and the density in percent; an empty table raises ZeroDivisionError. get_data_stats_latex.py prints for each dataset its own numbers with the fraction of the median cut off, or nothing if one of them fails. Without repeated pairs the density is between 0 and 100; with them it can exceed 100. The statistics of Amazon and Steam logs do not depend on the order of their rows; those of MovieLens do only if the cut that drops the oldest rows falls into a second with two different rows. The cleaned Steam table has a median and a mean of at least 5 and a density of at most 100.", "quantifier": "for all tables, logs, row orders and sorts; witnesses for the limits", "why_tests_cant": "universal over tables and over the order of the log; the printed numbers of one dataset do not show what they depend on", "anchors": ["source/data_preparation.py: print_recsys_df_stats", "get_data_stats_latex.py", "prepare_data.py: prepare_ml20m, prepare_amazon, prepare_steam", "load_data.py: load_steam"]}
{"id": "C94", "title": "Setting up the data", "statement": "In a working directory without data/, load_data.py, if every download and parser succeeds, finishes with exactly data/ml_20m/<files of the archive>, data/amz_b/amz_b.gz, data/amz_g/amz_g.gz and data/steam/steam.csv below data/, no temporary file, every results/<dataset>/{hyperparams,metric_dynamics,graphics,ablation_study} and configs/<dataset> directory in place, and nothing else changed. If data/ml_20m exists and is not empty the script cannot finish: it stops with an OSError before the other datasets and the result directories, having touched only data/temp.zip and data/ml-20m. So once the MovieLens part has finished, no later run finishes: an interrupted setup cannot be completed by running the script again.", "quantifier": "all file systems, file contents, outcomes of downloads, archives and parsers, all numbers of earlier runs", "why_tests_cant": "Tests would download 4 datasets; a failure between two downloads and the state it leaves on disk are not something a unit test visits.", "anchors": ["load_data.py:24-39", "load_data.py:47-68", "load_data.py:99-140", "configs/ml_20m/config.py:54-57"]}
{"id": "C95", "title": "The random model is the baseline of chance", "statement": "If the scores RandomRec.recommend draws for each user are exchangeable in the items and have no ties, the expected hit rate of its recommendations is exactly the mean over the tested users of min(k, number of items) / (number of items the user has not seen), where users whose tested item is unknown or already seen count 0; this holds for every behaviour of argpartition and without independence between users.", "quantifier": "all histories, mappings, k, users, test items, exchangeable families of draws, behaviours of argpartition", "why_tests_cant": "A test sees one seed and one outcome; an expectation over the draws cannot be read off any finite number of runs.", "anchors": ["source/models/random_rec.py:46-74", "source/evaluation.py:19-26"]}
{"id": "C96", "title": "A sequential model that reproduces its data recommends arbitrary items", "statement": "If the tensor TDRec, TIRec or TIRecA represents, after training on a table and any number of updates, is the data with at most one item at each place of a user and the places weighted by an invertible matrix (the identity, or the attention of training), then every known user's score of every known item outside their last L is 0. Then any k unseen items per user, in any order, are a possible result of recommend, and nothing else is; for users with more than k unseen items every assignment of hits and misses to the tested users is possible. TIRec, and TIRecA with integrator processing, are in this case without attention if training leaves no error and each update meets the exactness condition. So what these models recommend beyond the last L items is decided by their approximation error.", "quantifier": "all tables, streams of chunks, ranks, L of at least 2, variants, attention matrices, k, all behaviours of QR, SVD and argpartition within their contracts", "why_tests_cant": "Universal over data, factorisations and behaviours of argpartition; a test sees one ranking of the tied items and cannot tell it from a learned one.", "anchors": ["source/models/tdrec.py: train, recommend, _recommend_user", "source/models/tirec.py: update", "source/models/tirec_accelerated.py: update", "source/evaluation.py:19-26"]}
{"id": "C97", "title": "What the CSV files between the scripts do to the ids", "statement": "load_data.py writes user and item names to CSV files which prepare_data.py reads back with default settings and numbers. Two rows get the same number exactly when their names were equal, if and only if at most one of the names reads as missing (NA, null, None, nan, ...), names in chunks of the file that hold only numbers are different numbers, and no name of such a chunk occurs in a chunk that is read as text. It suffices that every chunk has a name that is neither, and at most one name reads as missing. Then the published statistics are those of the table before it was written, so Steam has a median and mean of at least 5 and a density of at most 100. Otherwise different users become one (users NA and null: density above 100), or one user becomes two (users named by numbers: median below 5).", "quantifier": "all files, divisions into chunks, ways to read numbers, orders of the categories, sorts, spellings of ids; witnesses for the bad side", "why_tests_cant": "universal over names and over the boundaries of chunks, which depend on the size of the file; a test with a small file has one chunk and ordinary names", "anchors": ["load_data.py:64-66, 110-121", "prepare_data.py:31-37, 56-96", "source/data_preparation.py: print_recsys_df_stats"]}
{"id": "C98", "title": "Which downloaded lines the loaders accept", "statement": "A line of an Amazon file becomes a row exactly when every object in it, at any depth, has all the fields reviewerID, asin and unixReviewTime; the row has their values, the last one of a repeated key. A review that has all fields but also some object inside another key raises KeyError. A line of the Steam file becomes a row exactly when it is a dict with the fields username, product_id and date, whatever is inside its values. A file becomes one row per line in order, or the exception of its first bad line and no table. On records without inner objects the two parsers agree.", "quantifier": "all JSON values, field lists, files, readers of lines", "why_tests_cant": "universal over nested records of any depth; a test would have to guess which of the many optional fields of a review are objects", "anchors": ["load_data.py:42-45, 63-64", "load_data.py:71-75, 109-110"]}
{"id": "C99", "title": "How many rows the ratios take", "statement": "The sizes int(rows * ratio) are computed in double precision. Any ratio between 0 and 1 takes between none and all of the rows, a larger ratio never takes fewer, and the number is within one of the exact one. The ratios 0.2, 0.4 and 0.8 take exactly one, two and four fifths, rounded down: MovieLens keeps the latest n // 5 rows and trains on the first two fifths of them, Steam trains on 4n // 5. The ratio 0.7 of the Amazon data sets takes 7n // 10 rows, except exactly when n = 10k with 2^m < k < 2^(m+3) / 7 for some m (n = 90, 170, 180, ...): then it takes one row less, which is streamed instead of trained on.", "quantifier": "all numbers of rows below 2^50 (2^53 for the general bounds), all real ratios between 0 and 1, all logs, sorts and iteration limits; witness for the bad side", "why_tests_cant": "universal over sizes and over ratios; the sizes at which the rounding of 0.7 shows are a matter of the binary expansion, and the data sets of a test rarely have them", "anchors": ["prepare_data.py:40, 47", "source/experiments/prepare_data.py:37", "configs/ml_20m/config.py:14", "configs/amz_b/config.py:14", "configs/amz_g/config.py:14", "configs/steam/config.py:14"]}
{"id": "C100", "title": "What the relative error of a decomposition sees", "statement": "sqrt_err_relative of a Tucker decomposition (and of an SVD, with singular values in a vector or a diagonal matrix) is the root of the summed squared differences at the listed entries over the root of the summed squared values plus EPS. It is 0 exactly when every listed entry is reproduced. For distinct entries it is at most the relative error over all cells, and equal to it exactly when the decomposition vanishes at all cells that are not listed; if all cells are listed, as for a dense tensor or gen_hilbert_tensor, it is that error. Otherwise an error of 0 says nothing: the error over all cells can be anything. If a coordinate is listed twice, a decomposition that represents the data without loss has a positive error. After rp_hooi the error is below 1, and at most the root of the squared norm of the data minus that of the core, over the norm of the data; equal to it when all cells are listed, so it is 0 exactly when the core has the norm of the data.", "quantifier": "all entries, factors, cores, ordered fields, square roots that are strictly monotone, positive EPS; all QR and SVD routines meeting their contracts; witnesses for the bad side", "why_tests_cant": "universal over data and decompositions; the tests of the repository use complete or nearly complete tensors, where the error over listed entries and over all cells agree", "anchors": ["source/tensor_operations.py: _sqrt_err, sqrt_err_relative, gen_hilbert_tensor", "source/matrix_operations.py: _sqrt_err, sqrt_err_relative", "source/rp_hooi.py: rp_hooi"]}
{"id": "C101", "title": "What a larger sweep budget buys", "statement": "For the same data, random numbers and start, all values of n_iter share one run: rp_hooi and ga_satf with l sweeps allowed return what the run with n >= l sweeps had after l sweeps, or its end if it stopped earlier. If the inner SVD returns best subspaces, a larger n_iter never lowers the norm of the core and never raises the distance to the (attended) data, whatever the callback, the growth test and force_n_iter; and the reported relative error does not rise if every cell is listed. Two limits: if not all cells are listed the reported error can rise with the second sweep although each SVD is optimal; and if the inner SVD is only orthonormal, which is all random_svd guarantees, the second sweep can be worse, and the growth test then stops the run but the worse decomposition is returned.", "quantifier": "all data, shapes, ranks, attention matrices, starts, callbacks, growth tests, budgets, QR and SVD routines meeting their contracts; witnesses for the limits", "why_tests_cant": "universal over budgets and runs; a test compares two budgets on one tensor", "anchors": ["source/rp_hooi.py: rp_hooi, ga_satf", "source/tensor_operations.py: sqrt_err_relative", "source/matrix_operations.py: random_svd"]}
{"id": "C102", "title": "The ids are only names", "statement": "Renaming users and items one to one in all tables (and test users) renames the mappings of a trained or updated model and changes nothing else: factors, histories and numbers of rows are the same, recommendations are the renamed ones (the same ones with internal indices), and failures are the same. For SVD and PSI this holds for all renamings, and the dynamic experiment reports the same series. From the prepared file on, two runs that go through agree in all series but the stability series, and in that one too if the new names keep the order of the users. RandomRec recommends the renamed items on the same draws. For TDRec, TDRecRe, TIRec and TIRecA training on a prepared table commutes with all renamings, but cropping sorts by user id: updates and the experiment are unchanged if the new names keep the order of the users, and otherwise even the hit rates of TDRec can change. With more than 50 equally active users the names also decide whose recommendations are watched for stability.", "quantifier": "all tables, streams, one-to-one renamings of users and items, options, numerical routines, budgets; order-keeping renamings of users for the sequential models; witnesses for the limits", "why_tests_cant": "universal over renamings and executions; a test compares two fixed sets of names", "anchors": ["source/data_preparation.py: get_df_with_updated_indices, map_df_columns, get_users_to_recommend_test_items", "source/ti_data_processing.py: get_df_with_cropped_pos_column", "source/models/svd.py: train, recommend", "source/models/psi.py: update", "source/models/tdrec.py: train, recommend", "source/models/tdrec_reinit.py: train", "source/models/random_rec.py: recommend", "source/models/tirec.py: update", "source/models/tirec_accelerated.py: update", "source/experiments/dynamical_experiment.py: dynamical_experiment, full_dynamical_experiment", "source/experiments/prepare_data.py: get_users_stability"]}
{"id": "C103", "title": "What timestamps and relevances do", "statement": "SVD and PSI never look at timestamps: with arbitrary other values in that column (and the same days) training and updating leave the same attributes, and the dynamic experiment reports the same series or stops with the same exception, from the tables and from the prepared file on. For TDRec, TDRecRe, TIRec and TIRecA only the order of the timestamps of each user counts: times that order the rows of every user in the same way, ties included, give the same experiment; times that merely keep later rows from becoming earlier, so that ties arise, can change the hit rates of TDRec. An update of TIRec or TIRecA also ignores the relevances of the new rows (each counts 1), so relevances in the stream change nothing in their experiments, while PSI adds the relevances it is given.", "quantifier": "all tables, streams, replacements of timestamps and relevances row by row, options, numerical routines, budgets; witnesses for the limits", "why_tests_cant": "universal over columns and executions; a test compares two fixed tables", "anchors": ["source/ti_data_processing.py: get_df_with_cropped_pos_column", "source/models/svd.py: train", "source/models/psi.py: update", "source/models/tdrec.py: train", "source/models/tirec.py: update", "source/models/tirec_accelerated.py: update", "source/experiments/dynamical_experiment.py: dynamical_experiment, full_dynamical_experiment"]}
{"id": "C104", "title": "The model names of the dynamic experiment", "statement": "prepare_model succeeds exactly for the seven known names with a usable configuration: the keys it reads are there, the tuned parameters are found, and the fixed parameters are keywords of the constructor, without repetition, without the tuned ones and with all required ones (PSI needs n_power_iter, oversampling_factor and seed, the tensor models seq_len; att_light_mode only for TIRec and TIRecA). It then returns train on the concatenated data or, for PSIRec, TIRec and TIRecA, update on the chunks, and re-initialises only for TDRecReinit. Any other name is a RuntimeError, in the script too, and so is any dataset but the four. What the script passes on always suffices if the tuned parameters are found, its tables have the dimension of the model, and the object has every method the experiment uses, except that Random lacks get_u and get_v. So the experiment with Random, whatever the draws, returns only if the stream is empty; otherwise it raises on the first chunk, AttributeError if the recommendations can be made and scored.", "quantifier": "all strings, configurations, outcomes of the parameter search; all tables, streams, draws, tested users and budgets", "why_tests_cant": "every name and set of keywords; every stream for the failure of Random", "anchors": ["source/experiments/prepare_model.py: prepare_model", "dynamical_experiment.py", "source/models/random_rec.py: RandomRec", "source/experiments/dynamical_experiment.py: dynamical_experiment, full_dynamical_experiment", "source/models/svd.py, psi.py, tdrec.py, tdrec_reinit.py, tirec.py, tirec_accelerated.py: __init__", "configs"]}
{"id": "C105", "title": "What the chunk boundaries decide", "statement": "The same interactions may be streamed in other chunks. PSI then knows the same users and items, as many of them, and excludes the same items for the same users, in any order of the rows; the ids of the initial table keep their indices; with random or zero embeddings every stream is accepted, and while nothing is lost to the rank the score of a user and an item is the total relevance of their rows either way. With the incremental SVD the boundaries decide whether the stream is accepted (merging two accepted chunks can raise, and so can splitting one), and they decide the indices of new ids. For TIRec and TIRecA the window of a user holds the last L items of the initial table and the stream together, padded on the left, if the rows of each user come in the order of time, so users and windows are independent of the boundaries; items and exclusions are too when no chunk holds more than L rows of one user. Otherwise a model can miss an item, or recommend one the user has taken; late rows change the windows; and merging or splitting can make an update raise.", "quantifier": "all initial tables, ranks, configurations and streams; every realFieldType and routines meeting their contracts for the scores", "why_tests_cant": "all ways of cutting a stream into chunks", "anchors": ["source/models/psi.py: PSI.update", "source/models/tirec.py: TIRec.update", "source/models/tirec_accelerated.py: TIRecA.update", "source/ti_data_processing.py: get_df_with_cropped_pos_column"]}
{"id": "C106", "title": "What the number of iterations decides", "statement": "For every integer how_many_iterations the full experiment runs over the first how_many_iterations groups after the initial table, over all of them if the number is 0, negative or too large. The users of the stability test are those of the initial table who return in the first how_many_iterations groups; for a negative number -k, in all groups but the last k. Of two runs over the same table that get through, the shorter is the longer one cut off in HR, MRR, the norms and changes of the embeddings and the readings of the clock. This holds for the stability series too if both numbers choose the same test users, and then the shorter run gets through when the longer one does; otherwise the stability values of the same groups can differ. A number that leaves no group to choose from (0, or at least as far below 0 as there are groups) stops every experiment of two groups or more.", "quantifier": "all tables, initial parts, groupings, models and pairs of integers", "why_tests_cant": "compares runs for all pairs of numbers of iterations, over all tables and models", "anchors": ["source/experiments/dynamical_experiment.py: dynamical_experiment, full_dynamical_experiment", "source/experiments/prepare_data.py: get_users_stability"]}
{"id": "C107", "title": "What the length of the lists decides", "statement": "Where lists of k2 items can be recommended, lists of k1 <= k2 items can. If no two items score the same for a user, each shorter list is part of the longer one, so HR does not fall when topk grows, whatever order argpartition leaves; with ties it can fall. MRR can fall when topk grows even without ties, because the lists are not sorted. If a full sort replaced the partition, the shorter lists would be the beginnings of the longer ones and neither HR nor MRR could fall, ties or not. In a dynamic experiment with given ranks topk changes only HR, MRR and the stability series: for every model the states, the clock and the norms and changes of the embeddings are the same, and HR and MRR of each group are those of lists of both lengths from the same state, so with a full sort they grow with topk in every group.", "quantifier": "all model states, users, lengths and index arrays within the contract of argpartition; all models and streams; witnesses for the falling metrics", "why_tests_cant": "compares runs with different topk over all states and all behaviours of an unstable partition", "anchors": ["source/models/svd.py: SVD.recommend", "source/models/tdrec.py: TDRec.recommend", "source/evaluation.py: hr, mrr", "source/experiments/dynamical_experiment.py: dynamical_experiment"]}
{"id": "C108", "title": "What repeated interactions do", "statement": "For SVD and PSI, several rows of the same user and item count as one row with the sum of their relevances, and only the place of the first of them matters: tables with the same pairs, first seen in the same order, and with the same totals lead, through training and any stream of updates, to the same mappings, the same factors, the same excluded items and the same recommendations, or to the same exception, for every option of PSI and whatever the numerical routines return; the series of a whole dynamic experiment are the same too, metrics included, when the initial tables and the groups of the stream agree in this way. In particular the table with one summed row per pair can stand for any table. For training alone it suffices that users and items are first seen in the same order; for updates it does not: the internal numbers of new users depend on which of their pairs came first. Sequential models do not see tables this way: a repetition takes a place in the window and can drive another item of the user out of what is learnt.", "quantifier": "all tables, chunks, ranks, options and numerical routines over any exact addition; witnesses for the negative parts", "why_tests_cant": "relates runs on two tables for arbitrary tables and numerical routines; tests use tables without repetitions", "anchors": ["source/models/svd.py: SVD.train, SVD.recommend", "source/models/psi.py: PSI.update, PSI.process_data_for_calculations", "source/matrix_operations.py: get_mapped_matrix", "source/ti_data_processing.py: get_df_with_cropped_pos_column"]}
{"id": "C109", "title": "Starting an experiment later", "statement": "If a model is trained anew on the concatenated table at every step and no item leaves that table, it does not matter where the experiment starts: with the first j groups of the stream moved into the initial table (and j iterations fewer asked for), the run succeeds whenever the longer one does, and its HR, MRR, stability, norms and changes of embeddings are the tails of those of the longer run after j steps. SVD is such a model for every svds within its contract. PSI is not: after an update it can have other embeddings than after a training on all rows, so its series depend on how much of the data was initial.", "quantifier": "all models of this kind, tables, streams, numbers of iterations and j; all svds within the contract; a witness for PSI", "why_tests_cant": "compares two runs for arbitrary streams and numerical routines", "anchors": ["source/experiments/dynamical_experiment.py: dynamical_experiment", "source/experiments/prepare_model.py: _prepare_svd_model", "source/models/svd.py: SVD.train", "source/models/psi.py: PSI.update"]}
{"id": "C110", "title": "What the averages in the tables mean", "statement": "For every model and experiment that runs through at least one step, the HR and MRR cells of the table of results are plain means over the steps. They lie between the values of the worst and of the best step, and so do the share of hits and the mean reciprocal rank over all tests of the experiment; both agree when all steps test the same number of users. Otherwise the cells can put two models in the opposite order to their numbers of hits on the same tests, and the numbers of hits cannot be found from the saved file, which does not tell how many users were tested. The end of a curve in the figure of running totals of HR is the number of steps times the cell, so figure and table order the models alike. The time cell averages the training with the updates, so a model that is faster in every update can have the larger time.", "quantifier": "all models, tables, streams, clocks and numbers of iterations; witnesses for the defects", "why_tests_cant": "relates every possible run to what is printed from its saved file", "anchors": ["get_table_results_latex.py: np.mean(metrics_dict[metric])", "source/experiments/dynamical_experiment.py: dynamical_experiment", "source/evaluation.py: hr, mrr", "source/experiments/prepare_graphs.py: plot_cum_metrics"]}
{"id": "C111", "title": "What the users of the stability test decide", "statement": "For SVD, PSI, TIRec, TIRecA and TDRec an experiment with several test users gets through exactly if it does with each of them as the only test user. Each stability value is then the mean of the values of these single runs, a user named twice counting twice, so the order of the test users does not matter, and no other reported series depends on the test users at all.", "quantifier": "all models whose lists are made user by user, all data, streams and nonempty lists of test users", "why_tests_cant": "compares runs with different test users for arbitrary data and numerical routines", "anchors": ["source/experiments/dynamical_experiment.py: dynamical_experiment (test_users)", "source/evaluation.py: wji_sim", "source/models/svd.py: SVD.recommend", "source/models/tdrec.py: TDRec.recommend"]}
