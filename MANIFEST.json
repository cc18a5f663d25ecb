{
 "claims": [
  {
   "property": "C01",
   "status": "proved",
   "theorems": [
    "mapping_struct_bijection_iff"
   ],
   "note": "Bijection iff the id list is duplicate-free; duplicates do break it."
  },
  {
   "property": "C02",
   "status": "proved",
   "theorems": [
    "mapping_extension_iff",
    "mapping_extension_history"
   ],
   "note": "All extension histories."
  },
  {
   "property": "C03",
   "status": "proved",
   "theorems": [
    "reindex_invertible"
   ],
   "note": ""
  },
  {
   "property": "C04",
   "status": "proved",
   "theorems": [
    "reindex_append_stable"
   ],
   "note": ""
  },
  {
   "property": "C05",
   "status": "proved",
   "theorems": [
    "map_df_columns_spec"
   ],
   "note": ""
  },
  {
   "property": "C06",
   "status": "proved",
   "theorems": [
    "test_selection_spec"
   ],
   "note": ""
  },
  {
   "property": "C07",
   "status": "proved",
   "theorems": [
    "history_is_last_L"
   ],
   "note": ""
  },
  {
   "property": "C08",
   "status": "proved",
   "theorems": [
    "delta_is_new_minus_old"
   ],
   "note": ""
  },
  {
   "property": "C09",
   "status": "proved",
   "theorems": [
    "deltas_telescope"
   ],
   "note": ""
  },
  {
   "property": "C10",
   "status": "proved",
   "theorems": [
    "crop_keeps_latest",
    "crop_zero_length_raises"
   ],
   "note": "pandas 2.0 groupby.apply order (pinned in environment/requirements.txt)."
  },
  {
   "property": "C11",
   "status": "proved",
   "theorems": [
    "training_tensor_matches_history_iff",
    "training_tensor_matches_history_later_user"
   ],
   "note": "Exact characterisation of a misalignment: users with fewer than L training interactions are trained left-aligned but stored right-aligned."
  },
  {
   "property": "C12",
   "status": "proved",
   "theorems": [
    "hr_is_hit_fraction",
    "hr_invariant_under_user_order",
    "hr_monotone_in_rows"
   ],
   "note": "Exact rational arithmetic."
  },
  {
   "property": "C13",
   "status": "proved",
   "theorems": [
    "mrr_is_mean_reciprocal_rank",
    "mrr_between_hr_bounds"
   ],
   "note": "Exact rational arithmetic."
  },
  {
   "property": "C14",
   "status": "proved",
   "theorems": [
    "wji_symmetric",
    "wji_in_unit_interval",
    "wji_defined_iff",
    "wji_user_extremes"
   ],
   "note": "Exact rational arithmetic; an out-of-range index is an unchecked access in the compiled code, modelled as an undefined result."
  },
  {
   "property": "C15",
   "status": "proved",
   "theorems": [
    "recommend_returns_top_k"
   ],
   "note": "argpartition is any function meeting its documented contract."
  },
  {
   "property": "C16",
   "status": "proved",
   "theorems": [
    "recommend_fails_iff",
    "recommend_single_item_never"
   ],
   "note": ""
  },
  {
   "property": "C17",
   "status": "proved",
   "theorems": [
    "recommend_last_is_lowest",
    "recommend_items_determined",
    "recommend_hr_determined",
    "recommend_sorted_refuted",
    "recommend_mrr_determined_refuted"
   ],
   "note": "Universal guarantees plus explicit witnesses for the missing ordering."
  },
  {
   "property": "C18",
   "status": "proved",
   "theorems": [
    "psi_update_consumes_once",
    "psi_update_outcome"
   ],
   "note": "Any aligned state (every state reachable by train/update, C19) and any chunk. Factor matrices are represented by row counts, the matrices handed to the linear algebra by a log."
  },
  {
   "property": "C19",
   "status": "proved",
   "theorems": [
    "psi_embeddings_aligned"
   ],
   "note": "Induction over arbitrary streams starting from SVD.train."
  },
  {
   "property": "C20",
   "status": "proved",
   "theorems": [
    "psi_never_recommends_seen"
   ],
   "note": "For arbitrary score functions of the right length and any argpartition meeting its contract."
  },
  {
   "property": "C21",
   "status": "proved",
   "theorems": [
    "tirec_update_consumes_once",
    "tirec_update_outcome",
    "tirec_stream_rows"
   ],
   "note": "All three update procedures. Known items are those of rows kept by cropping. The update raises ValueError when the chunk leaves every window unchanged (empty delta) or, for TIRec, when the incremental SVD size condition fails."
  },
  {
   "property": "C22",
   "status": "proved",
   "theorems": [
    "tireca_applies_new_twice"
   ],
   "note": "Characterises a defect of the code: the double application is proved, not ruled out."
  },
  {
   "property": "C23",
   "status": "proved",
   "theorems": [
    "tirec_row_order",
    "tirec_steps_land",
    "tireca_integrator_always_aligned",
    "tirec_row_order_refuted"
   ],
   "note": "Exact criterion; a witness where a delta entry is applied to another user's row is given (defect of the code)."
  },
  {
   "property": "C24",
   "status": "proved",
   "theorems": [
    "tirec_never_recommends_kept",
    "tirec_recommends_consumed_refuted"
   ],
   "note": "For seq_len >= 2 and arbitrary score functions; the second theorem is the explicit limit (defect of the code)."
  },
  {
   "property": "C25",
   "status": "proved",
   "theorems": [
    "retrain_history_accumulates",
    "retrain_history_fresh_iff",
    "reinit_history_fresh_iff",
    "retrain_keeps_recommending_refuted"
   ],
   "note": "Exact characterisation plus an explicit two-step stream ending in IndexError (defect of the code)."
  },
  {
   "property": "C26",
   "status": "proved",
   "theorems": [
    "values_paired_when_sorted",
    "values_paired_after_crop",
    "values_paired_when_constant",
    "values_paired_iff",
    "values_paired_refuted"
   ],
   "note": "TDRec; TDRecRe uses the same pairing of sorted coordinates with unsorted values."
  },
  {
   "property": "C27",
   "status": "proved",
   "theorems": [
    "wji_reads_ids_when_indices_stable",
    "known_ids_keep_indices",
    "retrained_wji_reads_ids_refuted",
    "reindex_append_stable"
   ],
   "note": "Explicit witness for TDRec (defect of the experiment), universal statement for the other models."
  },
  {
   "property": "C53",
   "status": "proved",
   "theorems": [
    "reinit_train_outcome",
    "reinit_experiment_step_fails_iff",
    "known_ids_keep_indices"
   ],
   "note": "The inner SVD is assumed to return factors of the requested shape."
  },
  {
   "property": "C28",
   "status": "proved",
   "theorems": [
    "unfold_dense_cells",
    "unfold_cells_bijective",
    "fold_unfold",
    "unfold_fold",
    "fold_dense_cells"
   ],
   "note": "Arbitrary element type, all shapes including empty ones."
  },
  {
   "property": "C29",
   "status": "proved",
   "theorems": [
    "unfold_sparse_outcome",
    "unfold_sparse_is_dense_of_sum",
    "unfold_sparse_agrees",
    "unfold_sparse_duplicates",
    "unfold_cells_bijective",
    "unfold_sparse_aliasing_refuted"
   ],
   "note": "Coordinates are natural numbers. The witness shows that coordinates outside the shape are not always rejected."
  },
  {
   "property": "C30",
   "status": "proved",
   "theorems": [
    "dense_sparse_roundtrip",
    "sparse_to_dense_last",
    "unfold_sparse_duplicates"
   ],
   "note": ""
  },
  {
   "property": "C31",
   "status": "proved",
   "theorems": [
    "parallel_core_any_schedule",
    "parallel_core_completes",
    "parallel_dense_any_schedule",
    "core_cells_in_order"
   ],
   "note": "Arbitrary operations; each prange iteration is a thread, every += a separate load and store."
  },
  {
   "property": "C32",
   "status": "proved",
   "theorems": [
    "core_is_contraction",
    "core_sparse_dense",
    "core_cells_in_order"
   ],
   "note": "Any commutative ring."
  },
  {
   "property": "C33",
   "status": "proved",
   "theorems": [
    "tensordot2_contracts",
    "tensordot_mode_product",
    "core_is_three_products",
    "core_from_tensordot2"
   ],
   "note": "Any commutative ring for the compositions, arbitrary operations for the cell formulas."
  },
  {
   "property": "C34",
   "status": "proved",
   "theorems": [
    "double_tensor_chunks",
    "double_tensor_complete_iff",
    "double_tensor_old_contracts",
    "double_tensor_is_old_on_prefix",
    "double_tensor_tail_dropped_refuted"
   ],
   "note": "Characterises a defect of the code: the tail above a multiple of 10000 is lost."
  },
  {
   "property": "C35",
   "status": "proved",
   "theorems": [
    "tucker_element_formula",
    "tucker_reconstruction",
    "tucker_reconstruction_outcome",
    "tucker_error",
    "svd_element_is_cell",
    "svd_element_formula",
    "mf_element_formula",
    "mf_element_is_cell",
    "svd2mtx_outcome",
    "svd_element_broadcast_refuted",
    "matrix_error"
   ],
   "note": "Any commutative ring. For the SVD the number of singular values must be the number of columns; a witness shows why."
  },
  {
   "property": "C54",
   "status": "proved",
   "theorems": [
    "split_matrix_partitions",
    "block_diag_split",
    "block_diag_tail_refuted"
   ],
   "note": "Ratios are exact rationals (the code multiplies floats)."
  },
  {
   "property": "C36",
   "status": "proved",
   "theorems": [
    "attention_cells",
    "attention_power",
    "attention_invertible",
    "last_position_ignores_attention",
    "trained_sequence_scores"
   ],
   "note": "attention_power is over the reals and uses their standard-library axioms; the others hold in any commutative ring for any decay profile starting with 1. inv is any function returning a right inverse."
  },
  {
   "property": "C37",
   "status": "proved",
   "theorems": [
    "scored_positions",
    "sequence_scores",
    "trained_sequence_scores",
    "stream_scores_refine"
   ],
   "note": "Any commutative ring."
  },
  {
   "property": "C38",
   "status": "proved",
   "theorems": [
    "psi_step_formula",
    "psi_step_exact"
   ],
   "note": "Any commutative ring and any QR meeting its contract. The middle factor may be a vector or a matrix."
  },
  {
   "property": "C39",
   "status": "proved",
   "theorems": [
    "append_vectors_product",
    "append_vectors_exact",
    "append_vectors_too_many"
   ],
   "note": "Any commutative ring, any QR, any inner truncated SVD. More new vectors than rows always raises."
  },
  {
   "property": "C40",
   "status": "proved",
   "theorems": [
    "append_block_keeps_largest",
    "append_block_matrix"
   ],
   "note": "Any commutative ring, any SVD meeting its contract and any argsort for any order."
  },
  {
   "property": "C41",
   "status": "proved",
   "theorems": [
    "random_svd_projection",
    "random_svd_exact"
   ],
   "note": "full_matrices=False, the only way it is called."
  },
  {
   "property": "C42",
   "status": "proved",
   "theorems": [
    "zero_embeddings_keep_scores",
    "random_user_embeddings_keep_scores",
    "random_item_embeddings_error",
    "random_item_embeddings_refuted",
    "tucker_zero_embeddings_keep_scores",
    "tucker_random_embeddings_keep_scores"
   ],
   "note": "Any commutative ring, any QR meeting its contract, any random numbers. The PSI new-item variant is refuted by a witness (defect of the code)."
  },
  {
   "property": "C43",
   "status": "proved",
   "theorems": [
    "integrator_formula",
    "integrator_zero_data",
    "integrator_attention_exact",
    "integrator_attention_refuted"
   ],
   "note": "Any commutative ring and any QR meeting its contract. The double application is proved and shown to matter by a witness (defect of the code)."
  },
  {
   "property": "C55",
   "status": "proved",
   "theorems": [
    "integrator_exact"
   ],
   "note": "Any commutative ring and any QR meeting its contract."
  },
  {
   "property": "C44",
   "status": "proved",
   "theorems": [
    "ga_satf_identity_is_rp_hooi",
    "ga_satf_run",
    "rp_hooi_run",
    "ga_satf_input_checks",
    "random_svd_is_inner"
   ],
   "note": "Any commutative ring; QR, random numbers, inner SVD, norm, growth test and callback are arbitrary (for the first theorem they only keep the number of rows)."
  },
  {
   "property": "C56",
   "status": "proved",
   "theorems": [
    "ga_satf_projects",
    "rp_hooi_projects",
    "random_svd_is_inner"
   ],
   "note": "Any commutative ring and any inner SVD returning orthonormal left vectors of the right shape, which random_svd does."
  },
  {
   "property": "C57",
   "status": "proved",
   "theorems": [
    "core_norm_ascends",
    "no_early_stop",
    "full_svd_is_optimal"
   ],
   "note": "Any ordered domain. Optimality of the inner SVD is a hypothesis: random_svd is optimal only when it captures the column space."
  },
  {
   "property": "C58",
   "status": "proved",
   "theorems": [
    "hosvd_projects",
    "hosvd_dense_projects",
    "tucker2_dense_projects",
    "tucker2_projects",
    "random_svd_is_inner"
   ],
   "note": "Any commutative ring. For tucker2 and tucker2_dense the rank of the identity mode is its size, as the code needs. scipy svds raises ValueError for k outside 1..min(shape)-1, so does the oracle."
  },
  {
   "property": "C45",
   "status": "proved",
   "theorems": [
    "date_grouping",
    "date_labels_in_order",
    "date_groups_exceed_minimum_refuted"
   ],
   "note": "Dates are integers. The statement is an exact characterisation of the tail; the witness is a defect of the code."
  },
  {
   "property": "C46",
   "status": "proved",
   "theorems": [
    "stream_is_partition",
    "stream_respects_time",
    "train_test_split_at_quantile"
   ],
   "note": "int(n*ratio) is an argument; the quantile is exact; unstable sorts are any sorted permutation."
  },
  {
   "property": "C47",
   "status": "proved",
   "theorems": [
    "pcore_filter_largest",
    "largest_core_unique",
    "pcore_filter_idempotent"
   ],
   "note": "Termination is part of the first theorem (enough fuel is the number of rows)."
  },
  {
   "property": "C59",
   "status": "proved",
   "theorems": [
    "steam_table_clean",
    "encode_column_renumbers"
   ],
   "note": "Ids are integers (pandas category codes sort the values)."
  },
  {
   "property": "C60",
   "status": "proved",
   "theorems": [
    "stability_users_most_active"
   ],
   "note": "value_counts breaks ties in any way."
  },
  {
   "property": "C48",
   "status": "proved",
   "theorems": [
    "exit_callback_stops_first",
    "metric_grid_tdrec_rows",
    "training_stops_early",
    "training_keeps_best_refuted"
   ],
   "note": "Scores are exact rationals. The last theorem is a witness: the model left after early stopping is not the best one."
  },
  {
   "property": "C49",
   "status": "proved",
   "theorems": [
    "optimal_svd_rank_smallest_best",
    "optimal_tdrec_params_rule"
   ],
   "note": "No missing metrics. The exception class for an empty selection is that of pandas 2.0 for object columns (TypeError)."
  },
  {
   "property": "C51",
   "status": "proved",
   "theorems": [
    "random_grid_sound",
    "random_grid_terminates",
    "random_grid_all_nodes",
    "random_grid_repeated_value_hangs",
    "random_grid_size_refuted",
    "random_grid_bad_arguments",
    "full_grid_is_product"
   ],
   "note": "Random choices are an arbitrary sequence; values are integers. Not ending is: out of draws for every sequence."
  },
  {
   "property": "C50",
   "status": "proved",
   "theorems": [
    "dynamical_experiment_test_then_train",
    "dynamical_experiment_causal",
    "dynamical_experiment_unknown_chunk",
    "dynamical_experiment_needs_embeddings",
    "full_experiment_unlimited_fails",
    "dynamical_experiment_shrinking"
   ],
   "note": "Any model interface; recommending leaves the state unchanged, embeddings are values (no model writes them in place). hr, mrr and wji are those of C12-C14."
  },
  {
   "property": "C52",
   "status": "proved",
   "theorems": [
    "sliding_window_values",
    "reported_change_formula",
    "reported_change_unchanged",
    "opposite_same_norm",
    "reported_change_not_relative_refuted"
   ],
   "note": "Exact rationals for windows; any ring, norm and division for the change. The last theorem is a witness of the defect."
  },
  {
   "property": "C61",
   "status": "proved",
   "theorems": [
    "implicit_unfolding_operator",
    "new_vectors_error",
    "new_vectors_cells",
    "new_vectors_cells_random_svd",
    "new_vectors_too_many"
   ],
   "note": "Any commutative ring; orthonormal other factors, rank between 1 and the number of columns. Exactness of the first SVD (explicit_calc) is a hypothesis, discharged for random_svd when its sampled powers span the unfolding; svds at full rank is exact by its contract. The last SVD always uses 1 power iteration and 2 extra samples (the parameters are not forwarded)."
  },
  {
   "property": "C62",
   "status": "proved",
   "theorems": [
    "new_matrix_projects"
   ],
   "note": "Any commutative ring; entries inside the new block, right vectors of the SVDs orthonormal."
  },
  {
   "property": "C63",
   "status": "proved",
   "theorems": [
    "append_vectors_low_rank",
    "append_block_low_rank",
    "append_block_largest_low_rank",
    "new_vectors_low_rank",
    "new_matrix_low_rank",
    "hosvd_dense_low_rank",
    "hosvd_low_rank",
    "tucker2_dense_low_rank",
    "random_svd_low_rank"
   ],
   "note": "Fits in rank r means: is a product through dimension r. Inner SVDs are oracles: orthonormal truncated triples, exact on matrices that fit in the requested rank. The vector form of s and random_svd need ordered real fields and non-negative singular values."
  },
  {
   "property": "C64",
   "status": "proved",
   "theorems": [
    "numpsi_update_bookkeeping",
    "numpsi_stream_bookkeeping",
    "numpsi_train_bookkeeping",
    "numpsi_scores"
   ],
   "note": "Contracts: QR, SVD and truncated SVD return factors of the stated shapes that are orthonormal (and reproduce the input for QR/SVD)."
  },
  {
   "property": "C65",
   "status": "proved",
   "theorems": [
    "numpsi_update_lossless",
    "numpsi_stream_lossless"
   ],
   "note": "Exact arithmetic. The fit conditions are hypotheses (lossless_update in Num_spec.v); rounding and truncation are outside."
  },
  {
   "property": "C66",
   "status": "proved",
   "theorems": [
    "numpsi_new_users_transposed",
    "numpsi_known_users_kept_refuted"
   ],
   "note": "The property states the actual behaviour; the refuted theorem is a witness of the defect, a run from training."
  },
  {
   "property": "C67",
   "status": "proved",
   "theorems": [
    "numpsi_cold_interactions_ignored"
   ],
   "note": "States the actual behaviour of the option: the interactions of such users are ignored."
  },
  {
   "property": "C68",
   "status": "proved",
   "theorems": [
    "day_is_nearest_midnight",
    "prepared_tables",
    "prepared_stream_in_time_order"
   ],
   "note": "Whole seconds; ids are integers, no missing values; int(n*ratio) is an argument; unstable sorts are any sorted permutation; CSV round trips are the identity. The statement includes the defect (afternoons carry the next day)."
  },
  {
   "property": "C69",
   "status": "proved",
   "theorems": [
    "data_dynamics_series"
   ],
   "note": "how_many_iterations is a natural number."
  },
  {
   "property": "C70",
   "status": "proved",
   "theorems": [
    "new_entities_graph_counts",
    "new_entities_graph_is_psi",
    "new_entities_graph_length",
    "new_entities_graph_is_tirec_refuted"
   ],
   "note": "Sets are lists; drawing is not modelled, only the series and the length check of matplotlib. The last theorem is a witness for the sequential models."
  },
  {
   "property": "C71",
   "status": "proved",
   "theorems": [
    "generated_matrix_rank",
    "relative_error_value",
    "refit_errors",
    "incremental_errors",
    "generated_refit_exact",
    "generated_incremental_exact",
    "incremental_exact_refuted"
   ],
   "note": "Exact arithmetic; first chunk not empty; contracts: qr_ok, truncated_ok, lossless; the square root is any function that is non-negative and zero only at zero. The refuted theorem is a witness of the defect."
  },
  {
   "property": "C72",
   "status": "proved",
   "theorems": [
    "block_refit_errors",
    "block_incremental_errors",
    "block_rank_budget",
    "generated_block_exact",
    "generated_block_incremental_exact",
    "block_rank_budget_refuted"
   ],
   "note": "As C71, plus non-negative singular values and the argsort contract. The refuted theorem is a witness of the rounding defect."
  },
  {
   "property": "C73",
   "status": "proved",
   "theorems": [
    "psi_dynamics_errors",
    "psi_dynamics_exact",
    "psi_dynamics_exact_refuted",
    "svd_dynamics_errors"
   ],
   "note": "Exact arithmetic; matrices with at least one cell. The refuted theorem shows the overlap condition is needed."
  },
  {
   "property": "C74",
   "status": "proved",
   "theorems": [
    "numerical_setup",
    "dynamics_list_value",
    "dynamics_norm_refuted",
    "compare_approximations_errors"
   ],
   "note": "Exact arithmetic; exp and the random draws are arbitrary; linspace is the exact formula; plotting left out. The refuted theorem is a witness that norms grow."
  },
  {
   "property": "C75",
   "status": "proved",
   "theorems": [
    "sequential_update_lockstep",
    "sequential_training_lockstep",
    "sequential_stream_lockstep"
   ],
   "note": "Contracts: QR, SVD, truncated SVD and svds return factors of the stated shapes that are orthonormal. TDRec.train without a callback."
  },
  {
   "property": "C76",
   "status": "proved",
   "theorems": [
    "sequential_update_exact",
    "sequential_update_tracks",
    "sequential_stream_tracks",
    "sequential_tracking_refuted",
    "sequential_lossless_needed_refuted"
   ],
   "note": "Exact arithmetic; the conditions are lossless_update and lossless_stream in Nti_spec.v. In the per-mode variants the rows must be in index order (rows_aligned), see C23. The refuted theorems are witnesses of the defects."
  },
  {
   "property": "C77",
   "status": "proved",
   "theorems": [
    "sequential_scores_by_tensor",
    "sequential_stream_scores",
    "sequential_full_position_rank"
   ],
   "note": "Exact arithmetic; position embeddings as the code computes them after training or an update."
  },
  {
   "property": "C78",
   "status": "proved",
   "theorems": [
    "newcomers_get_nothing",
    "newcomer_scores_refuted"
   ],
   "note": "Exact arithmetic; the rank conditions are sees_users and sees_items in Cold_spec.v. The refuted theorem is a witness of the defect with a genuine attention matrix."
  },
  {
   "property": "C79",
   "status": "proved",
   "theorems": [
    "psi_experiment_outcome",
    "psi_experiment_report"
   ],
   "note": "Exact arithmetic. The rank is given; condition in Full_spec.v (trainable, feasible, psi_fits)."
  },
  {
   "property": "C80",
   "status": "proved",
   "theorems": [
    "svd_experiment_outcome",
    "svd_experiment_report"
   ],
   "note": "Exact arithmetic. The rank is given; condition in Full_spec.v (trainable, feasible)."
  },
  {
   "property": "C81",
   "status": "proved",
   "theorems": [
    "sequential_experiment_outcome",
    "sequential_experiment_report"
   ],
   "note": "Exact arithmetic. Ranks given; condition in Seqx_spec.v (crops, seq_trainable, seq_fits) and Full_spec.v (feasible). A chunk that changes nobody's last L items makes the update raise ValueError (Findings)."
  },
  {
   "property": "C82",
   "status": "proved",
   "theorems": [
    "retrained_experiment_outcome",
    "retrained_experiment_report",
    "retrained_experiment_refuted"
   ],
   "note": "Exact arithmetic. Conditions in Tdx_spec.v (recropped, retrainable, items_stay). The converse needs items_stay; without it the run may fail (retrained_experiment_refuted, Findings)."
  },
  {
   "property": "C83",
   "status": "proved",
   "theorems": [
    "pipeline_order",
    "pipeline_ignores_later_days",
    "stability_ignores_later_days_refuted",
    "svd_pipeline_outcome",
    "psi_pipeline_outcome",
    "sequential_pipeline_outcome",
    "retrained_pipeline_outcome"
   ],
   "note": "Exact arithmetic; how_many_iterations positive; the number of initial rows is given. For TDRec the two directions of C82. The refuted theorem is a witness of the leak. Writing the JSON file is not modelled."
  },
  {
   "property": "C84",
   "status": "proved",
   "theorems": [
    "reinit_experiment_outcome",
    "reinit_experiment_report",
    "reinit_tables_exist",
    "reinit_experiment_refuted",
    "reinit_pipeline_outcome"
   ],
   "note": "Exact arithmetic. Conditions in Rex_spec.v (successive, reinitialisable, newest_stays). The refuted theorem is a witness of the ValueError when the newest item leaves the table (Findings)."
  },
  {
   "property": "C85",
   "status": "proved",
   "theorems": [
    "svd_search_outcome",
    "svd_search_choice",
    "svd_search_ignores_stream",
    "svd_tuned_pipeline",
    "psi_tuned_pipeline",
    "svd_search_keeps_good_ranks_refuted"
   ],
   "note": "Exact arithmetic. Conditions in Hps_spec.v and Full_spec.v. The refuted theorem is a witness that one too large rank loses the whole search (Findings). The CSV file between the search and the choice is not modelled."
  },
  {
   "property": "C86",
   "status": "proved",
   "theorems": [
    "tdrec_search_outcome",
    "tdrec_search_choice",
    "tdrec_search_ignores_stream",
    "sequential_tuned_pipeline",
    "tdrec_search_fitting_rank_refuted",
    "tdrec_search_keeps_good_ranks_refuted"
   ],
   "note": "Exact arithmetic; positive ranks, at least two items in the earlier part (two_items). Conditions in Hpt_spec.v and Seqx_spec.v. The refuted theorems are witnesses that a rank fitting the initial rows can stop the search and that one bad rank loses all results (Findings). The CSV file between the search and the choice is not modelled."
  },
  {
   "property": "C87",
   "status": "proved",
   "theorems": [
    "saved_series_lengths",
    "model_graphs_outcome",
    "model_graphs_missing",
    "study_graphs_outcome",
    "study_graphs_stray_file",
    "all_graphs",
    "no_graphs",
    "study_graphs_any_directory_refuted",
    "study_curve_of_its_file_refuted",
    "stability_axis_refuted"
   ],
   "note": "Values are exact rationals; a file is a dictionary of series; windows are positive; of drawing only the length check of matplotlib is modelled. The refuted theorems are witnesses of the defects (Findings)."
  },
  {
   "property": "C88",
   "status": "proved",
   "theorems": [
    "result_tables",
    "saved_metric_shown_refuted"
   ],
   "note": "Exact rationals; the LaTeX text and the rounding to three digits are not modelled. The refuted theorem is a witness of the defect."
  },
  {
   "property": "C89",
   "status": "proved",
   "theorems": [
    "run_outcome",
    "run_is_fresh_refuted"
   ],
   "note": "Searches and experiments are arbitrary functions (their own behaviour is C79-C86); a script that fails writes nothing more. The refuted theorem is a witness of the defect."
  },
  {
   "property": "C90",
   "status": "proved",
   "theorems": [
    "recommend_possible_iff",
    "recommend_reordered",
    "recommend_mrr_range"
   ],
   "note": "Scores of any type with a total order; argpartition may behave differently at every call, within its documented contract. Complements C15-C17, which give the direction from results to the specification."
  },
  {
   "property": "C91",
   "status": "proved",
   "theorems": [
    "lossless_psi_recommends_anything",
    "lossless_svd_recommends_anything"
   ],
   "note": "Exact arithmetic in a real field. The condition that nothing is lost is the one of C65; that svds and the randomised SVD are exact on matrices that fit in the rank is a hypothesis."
  },
  {
   "property": "C92",
   "status": "proved",
   "theorems": [
    "prepared_logs_in_day_order",
    "untied_logs_prepared_alike",
    "encoded_split_determined_iff",
    "ml20m_split_determined_iff",
    "hr_independent_of_row_order_refuted"
   ],
   "note": "Times are whole seconds, ids integers; the sorts are any functions returning a sorted permutation. The condition is exact; the refuted theorem is a witness run with a true truncated SVD and stable sorts."
  },
  {
   "property": "C93",
   "status": "proved",
   "theorems": [
    "stats_of_table",
    "stats_table",
    "density_is_a_share",
    "stats_of_log",
    "steam_stats",
    "density_at_most_100_refuted",
    "ml20m_stats_independent_of_row_order_refuted"
   ],
   "note": "Exact rationals; np.round is rounding to the nearest hundredth, ties to even; the LaTeX text and the round trip of the CSV file are not modelled. The refuted theorems are witnesses of the limits."
  },
  {
   "property": "C94",
   "status": "proved",
   "theorems": [
    "setup_of_fresh_directory",
    "setup_stops_at_existing_movielens",
    "setup_cannot_be_resumed"
   ],
   "note": "File system as a map from paths to directories and files with POSIX rename; permissions, links, disk space and the flush of partially downloaded files are left out. Downloads, the archive and the parsers are arbitrary. setup_cannot_be_resumed is a defect of the script, proved as stated."
  },
  {
   "property": "C95",
   "status": "proved",
   "theorems": [
    "random_hit_rate_is_chance"
   ],
   "note": "The random draws are a finite non-empty list of equally likely outcomes, exchangeable in the items and without ties (ties of normal draws have probability 0); independence between users is not needed. filter_viewed=True, external ids."
  },
  {
   "property": "C96",
   "status": "proved",
   "theorems": [
    "exact_sequential_recommends_anything",
    "weighted_histories_reproduce",
    "lossless_sequential_recommends_anything"
   ],
   "note": "Exact arithmetic in a real field. That the tensor is the weighted data is a hypothesis (reproduces, Sblind_spec.v); the last two theorems give sufficient conditions, the second those of C76. With attention in the updates only the general theorem applies. Examples train and update such models."
  },
  {
   "property": "C97",
   "status": "proved",
   "theorems": [
    "codes_of_column",
    "ids_survive_csv_exactly",
    "textual_ids_survive_csv",
    "stats_survive_csv",
    "steam_stats_after_csv",
    "missing_names_stay_apart_refuted",
    "numbered_names_stay_whole_refuted"
   ],
   "note": "Exact characterisation. Defect: read_csv is called without dtype or keep_default_na, so different users named like missing values are merged, and users named by numbers can be split or merged between chunks; the bounds of C93 for Steam then fail."
  },
  {
   "property": "C98",
   "status": "proved",
   "theorems": [
    "amazon_line_accepted_exactly",
    "amazon_row_of_fields",
    "amazon_review",
    "steam_line_accepted_exactly",
    "files_line_by_line",
    "parsers_agree_on_flat_records",
    "review_with_fields_accepted_refuted"
   ],
   "note": "Exact characterisation. Defect: the object hook of the Amazon parser is applied to nested objects too, so a review with a nested object in any key aborts the load."
  },
  {
   "property": "C99",
   "status": "proved",
   "theorems": [
    "sizes_are_ieee",
    "any_ratio_takes_part",
    "fifths_are_exact",
    "seven_tenths_one_short",
    "seven_tenths_refuted",
    "parts_of_the_logs"
   ],
   "note": "Exact characterisation, in IEEE doubles. Defect: the ratio 0.7 of the Amazon configs takes one row less than seven tenths at the sizes n = 10 k with 2^m < k < 2^(m+3)/7. Sizes below 2^50. The first two theorems use axioms of the standard library (real numbers)."
  },
  {
   "property": "C100",
   "status": "proved",
   "theorems": [
    "tensor_error_sees_listed_entries",
    "matrix_error_sees_listed_entries",
    "listed_error_below_full_error",
    "error_zero_is_exact_refuted",
    "exact_has_error_zero_refuted",
    "rp_hooi_error_from_core",
    "hilbert_tensor_is_full"
   ],
   "note": "Exact characterisation over ordered fields, for every square root that is strictly monotone. Defect: the error ignores all cells that are not stored, and a coordinate stored twice makes a lossless decomposition have an error."
  },
  {
   "property": "C101",
   "status": "proved",
   "theorems": [
    "budgets_share_one_run",
    "more_sweeps_ga_satf",
    "more_sweeps_rp_hooi",
    "more_sweeps_error",
    "listed_error_never_rises_refuted",
    "stopping_keeps_the_best_refuted"
   ],
   "note": "Exact characterisation over ordered fields. Defect: with an inner SVD that is only orthonormal, which is what random_svd guarantees, the sweep that makes the growth test stop is kept although it is worse than the one before."
  },
  {
   "property": "C102",
   "status": "proved",
   "theorems": [
    "names_in_training",
    "names_in_sequential_training",
    "names_in_recommendations",
    "names_in_psi_experiment",
    "names_in_svd_experiment",
    "names_in_2d_files",
    "names_in_3d_experiments",
    "names_in_tdrecre_training",
    "names_in_tdrecre_experiments",
    "names_in_random_recommendations",
    "names_in_any_order_refuted",
    "stability_users_ignore_names_refuted"
   ],
   "note": "Exact characterisation. Defect: the sequential models sort by user id when cropping, so their indices, and with them start and results, depend on the order of the names; and with more than 50 equally active users the names decide whose stability is watched."
  },
  {
   "property": "C103",
   "status": "proved",
   "theorems": [
    "times_unused_by_matrix_models",
    "times_unused_in_matrix_experiments",
    "times_order_sequential_experiments",
    "times_order_tdrecre_experiments",
    "relevances_unused_by_sequential_updates",
    "times_may_tie_refuted",
    "relevances_unused_by_psi_refuted"
   ],
   "note": "Exact characterisation. Defect: updates of TIRec and TIRecA take every new interaction with weight 1 whatever its relevance, while their training and PSI use the relevance column; harmless on the prepared files, whose relevances are all 1."
  },
  {
   "property": "C104",
   "status": "proved",
   "theorems": [
    "models_prepared_iff",
    "script_models_fit",
    "random_experiment_never_returns"
   ],
   "note": "Exact characterisation. Defect: the script accepts and advertises the model name Random, but RandomRec has no get_u and get_v, so its dynamic experiment stops with an exception on the first chunk and never writes a result. Only the presence of parameters is modelled, not their values."
  },
  {
   "property": "C105",
   "status": "proved",
   "theorems": [
    "psi_books_ignore_chunks",
    "psi_chunks_decide_refuted",
    "psi_scores_ignore_chunks",
    "window_is_last_items",
    "windows_ignore_chunks",
    "windows_chunks_decide_refuted"
   ],
   "note": "Exact characterisation: what is independent of the chunk boundaries is proved for all streams, what depends on them is refuted by witnesses for every variant. Defects: a chunk with more than L rows of a user makes TIRec and TIRecA forget the earlier ones, so that the items are missing or recommended again; whether an update raises depends on the boundaries."
  },
  {
   "property": "C106",
   "status": "proved",
   "theorems": [
    "any_number_of_iterations",
    "iterations_cut_series",
    "iterations_cut_stability",
    "iterations_cut_stability_refuted",
    "no_group_to_choose_from_fails"
   ],
   "note": "Exact characterisation for every integer, negative ones included. Defect: the stability series of a shorter run is not the beginning of that of a longer one, since its users are chosen by how_many_iterations; 0, or a number at least as far below 0 as there are groups, stops every experiment of two groups or more."
  },
  {
   "property": "C107",
   "status": "proved",
   "theorems": [
    "shorter_lists_possible",
    "longer_lists_hit_more",
    "longer_lists_hit_more_refuted",
    "longer_lists_rank_refuted",
    "sorted_lists_are_beginnings",
    "experiments_with_other_lists",
    "experiments_with_sorted_lists"
   ],
   "note": "Exact characterisation. Defect: argpartition puts the lists in no order, so MRR may fall when topk grows, even without ties; with ties HR may fall too. A full sort would exclude both (proved). The ranks are given: that the search for them evaluates with the same topk is C85, C86."
  },
  {
   "property": "C108",
   "status": "proved",
   "theorems": [
    "matrix_models_see_totals",
    "experiments_see_totals",
    "repetitions_can_be_summed",
    "training_sees_totals",
    "updates_see_totals_refuted",
    "sequential_models_see_totals_refuted"
   ],
   "note": "Exact arithmetic: addition is associative and commutative (a hypothesis; the code adds float64 relevances, exact for integers below 2^53). The numerical routines are arbitrary functions. The refutations show what the view must contain (order of first appearance of the pairs for updates) and that sequential models see more."
  },
  {
   "property": "C109",
   "status": "proved",
   "theorems": [
    "starting_later_reports_the_tail",
    "svd_starting_later",
    "psi_forgets_refuted"
   ],
   "note": "For experiments on the concatenated table (upd_data_mode other than chunk) and given test users and ranks; the times are not compared. The refutation shows that PSI, which is updated with chunks, is not in this class."
  },
  {
   "property": "C110",
   "status": "proved",
   "theorems": [
    "table_of_experiment",
    "curves_end_in_table_order",
    "table_ranks_by_hits_refuted",
    "hits_from_file_refuted",
    "table_ranks_update_times_refuted"
   ],
   "note": "Over exact rationals; the table is that of get_table_results_latex.py before it is printed with three digits. The witnesses use recommenders with given lists; the universal statements hold for every model."
  },
  {
   "property": "C111",
   "status": "proved",
   "theorems": [
    "panel_succeeds",
    "panel_stability_is_mean",
    "panel_order_irrelevant",
    "recommenders_serve_users_alone",
    "matrix_models_serve_users_alone",
    "sequential_models_serve_users_alone"
   ],
   "note": "Over exact rationals, for a nonempty list of test users and an argpartition that answers by the array alone (numpy is deterministic); RandomRec, whose lists differ from call to call, is not in this class."
  }
 ]
}