# Formal model of DynamicCF

Target: AlbMLpy/DynamicCF (Python) as checked out in /repo.  The code is read as text; nothing is run.
Prover: Rocq/Coq 8.16.1.  Sources: `rocq/theories/*.v`, logical name `Verif`.

## Conventions

* One group of files per area: `X_model.v` (executable Gallina translation of the Python functions, each with
  the file and lines it models), `X_spec.v` (small independent specification vocabulary), `X_proofs.v` (lemmas),
  `X_props.v` (property theorems only, closed by `exact`, each followed by `Print Assumptions`, with concrete
  non-vacuity examples).
* Python exceptions are values: `res A := Ok a | Err e`.  Loops are folds over the iterated list; the one
  unbounded loop of each kind (`while`) carries fuel together with a proof that the fuel suffices.
* Python dicts are insertion-ordered association lists with in-place overwrite.  Data frames are lists of rows.
  Ids are integers (`Z`): the data preparation scripts encode ids as integers before anything else runs.
* External calls are never axioms.  QR, SVD, random numbers, `argpartition`, unstable sorts and thread schedules
  are universally quantified: as arguments satisfying the library's documented contract, or as relations.
* Floating point: numbers are exact (rationals, an arbitrary commutative ring, or an arbitrary field/real field);
  where a statement is about bit-equality (parallel core construction) the arithmetic operations are completely
  arbitrary, so the statement covers IEEE floats.
* When the natural statement is false of the code, the property states the exact boundary: a universally
  quantified theorem on the good side, and a `_refuted` theorem with a concrete witness on the other.

## Plan per property (see properties.jsonl for the statements)

| property | model | proof method |
|---|---|---|
| C01-C06 | DataPrep: mapping structs, re-indexing, mapping, test selection | induction over value lists / extension sequences; decode∘encode round trips; counterexample for duplicates |
| C07-C11 | History: seq. history, delta, cropping, training tensor | fold invariants; refinement of the bounded deque to "last L of the stream"; cell-wise sums; telescoping |
| C12-C14 | Evaluation over Q | induction over rows, order reasoning on rationals |
| C15-C17 | Recommend: recommend with relational argpartition | permutation/partition contract ⇒ top-k specification; explicit outcome for unsortedness |
| C18-C20 | PSI model update state machine (mappings, row owners, history) | partition argument, invariants over streams of chunks |
| C21-C27 | TIRec/TIRecA/TDRec state machines (mappings, row owners, histories, seq. histories) | partition argument, sortedness reasoning, counterexamples |
| C53 | TDRecRe re-training | outcome analysis, maxima of index columns |
| C28-C35 | Tensor: index arithmetic, COO routines over an arbitrary commutative ring; parallel loop as interleavings of atomic cell updates over arbitrary operations | induction over entry lists, div/mod arithmetic, commutation of writes to distinct rows |
| C36-C37 | Attention, position arrays, scores | list induction; explicit inverse of a triangular Toeplitz matrix; reals for the power decay |
| C38-C44 | LinAlg: mathcomp matrices over a field; QR/SVD as arguments with their contract | matrix algebra |
| C45-C46 | Experiments: date grouping, splits | induction with loop invariants |
| C47 | p-core filter | measure-based termination, monotonicity ⇒ greatest fixpoint |
| C48-C49 | Hyper-parameter search | state-machine invariants, argmin/argmax specs |
| C50 | Dynamic experiment driver over an abstract model | trace invariants |
| C51 | Grid sampling for every choice stream | loop invariants |
| C52 | Sliding window, relative norm | list arithmetic; witness over R/Q |
| C53-C60 | see properties.jsonl | as their neighbours |
| C61-C62 | Adding rows or a block to a Tucker model, over any commutative ring | matrix identities over the Kronecker form, orthogonal projections |
| C63 | Exact reproduction <-> rank condition for the truncated updates, over any commutative ring (ordered field for the vector form and random_svd) | rank factorisations of products, zero minor argument for diagonal matrices |
| C64 | The model with factors (Num_model) moves its bookkeeping as Psi_model for any routines; shapes follow the mappings | forward simulation, invariant `model_ok` |
| C65 | One update adds the chunk's totals to the score matrix under a rank condition per step; streams by induction | decomposition of the update into four stages (Num_sim), each stage exact by the LinAlg/Exact theorems, cells of the landed matrix (Num_cells) |
| C66 | The new-user stage is exact for the turned score matrix; equality with the old scores iff S is symmetric; witness run | as C65, orthonormal factors cancelled |
| C67 | Zero rows of the start matrix stay zero through the integrator for users without known items | stages + kernel of the L-step |
| C68-C70 | Prepared tables, data dynamics, new-entities graph | sortedness, list induction, refinement to the PSI partition |
| C71-C72 | Step experiments with new rows, columns or blocks: induction over the chunks, each step by the C63 characterisations | rank factorisations; exact rational arithmetic for the ratios |
| C73-C74 | PSI along a list; Euler dynamics | orthogonal projections do not increase the norm; I + hT invertible for skew T |
| C75 | The sequential models with their factors (Nti_model) move as Tirec_model for any routines; orthonormal factors, core shape and position embeddings kept | forward simulation over the steps of an update (Nti_sim), training (Nti_train), streams by induction (Nti_end) |
| C76 | Lossless updates without attention change the tensor as the histories' position tensor; TIRecA's double entry; loss without the exactness condition | exactness of each step (Upd, Exact, Tucker integrator theorems), landing of entries (Nti_land), C08 and C21-C23 for the histories |
| C77 | Scores are a function of V V^T and A W W^T A^-1, which are the projectors on the column spaces of the unfoldings | uniqueness of orthonormal projectors; W W^T = I when the position rank is full |
| C78 | Under integrator processing (any attention) new users without known items, and items only they have, get zero vectors; scores 0 | kernel of the K- and L-steps of the Tucker integrator: a zero row of the data seen through full-rank data is a zero row of Q; landing of the entries in the histories |
| C79 | A whole PSI experiment: exact condition on the tables for running through, and what it reports | generic simulation of the experiment loop over any model whose training and updates have exact outcomes (Full_exp), then C64 and the recommendation lemmas |
| C80 | The same for retraining (SVD): the model of step t is a fresh training on everything before chunk t | as C79, with the table as extra state |
| C81 | The same for TIRec and TIRecA, in terms of the rows cropping keeps | as C79: bookkeeping invariant `sinv` (mappings, histories and entries are those of the kept rows), `train_iff`, exact update condition |
| C82 | The same for TDRec, retrained on the table cropped after every chunk; what happens when cropping lowers the number of items | as C79 with a table that may shrink (Full_gen); retraining with old histories against a new object (Tdx_num.`trained`) |
| C83 | full_dynamical_experiment from the prepared table: order in time, stability users, exact conditions for all models, what later days can change | groups by rank of their label (Pipe_main); instances of C79 to C82 with the test users computed; two histories compared step by step |
| C84 | The same for TDRecReinit (training restarted from old factors and mappings), whole experiment and from the prepared table | as C82 with two tables, rows kept and items so far (Rex_gen); mappings grow with first appearances, so the largest index used is that of the newest item (Rex_book) |
| C85 | hyperparameters_search_svd from the prepared table; the chosen rank; SVD and PSI experiments with it | evaluation of one model as a step of C79 (Hps_val); the earlier part is contained in the initial rows, so the rank stays below the sizes |
| C86 | hyperparameters_search_tdrec from the prepared table; the chosen parameters; TIRec and TIRecA experiments with them | one configuration as a HOOI run with the early-stopping callback (C48, Hpt_num); the earlier part of a cropped table is its own cropping (Hpt_crop); a user with L rows there has L rows in the whole table |
| C87 | figures from result files: experiment and ablation study | curves per series (Report_graph); splitting of strings by first occurrences, labels injective over the study's names (Report_str, Report_names); loops that assign new keys append |
| C88 | the two tables of results | one value per dataset, model, metric; a permutation of the rows keeps the lookup (Report_tab) |
| C89 | the run script | file names are distinct; induction over scripts and settings (Report_tab) |
| C90 | The exact set of tables `recommend` can return; range of the MRR | an argpartition that returns wanted index arrays wherever they meet the contract, which the order decides, and sorted positions elsewhere (Blind_rec); rearrangements (Blind_main) |
| C91 | SVD/PSI without loss: scores are totals, any unseen items possible | C65 carried from indices to ids, ties, C90 (Blind_rows, Blind_num) |
| C92 | from raw file to split: which logs determine the split, whatever the order of their rows | permutation of the sorted log, "torn" seconds at the boundaries, injective encodings (Rawlog_main) |
| C93 | dataset statistics: users, items, density, medians, and what they depend on | medians of counts, cents, C47 p-core, C92 for the row order (Stats_main) |
| C94 | setup script: the tree it leaves, and that it cannot be resumed | file system as finite map, invariants of the steps (Load_main, Load_fresh) |
| C95 | RandomRec hits by chance: expected HR is k over the number of unseen items | symmetry: exchanging two unseen items keeps the outcomes, the frequencies add up to k (Chance_main) |
| C96 | sequential models whose tensor is the weighted data: scores 0 outside the last L, any unseen items possible | the item projector fixes the unit vectors of items in the data, so unseen items get no weight; C75, C76, C82 state, ties of C90 (Sblind_alg, Sblind_main) |
| C97 | names survive the CSV files iff no two read as missing, numbers are distinct and no name is read both ways; then the statistics survive | codes separate cells; cells of a name by chunk; statistics of tables equal up to renaming (Csv_main) |
| C98 | lines accepted by the Amazon and Steam parsers, their rows, the outcome of a file | induction on nested JSON values; the hook needs the fields in every object (Parse_main) |
| C99 | rows taken by the ratios 0.2, 0.4, 0.7, 0.8 and by any ratio, in IEEE doubles; sizes of the parts of the logs | integer model of the rounded product, shown equal to Flocq's rounding; floors by bounds on the distance to the next integer (Ratio_*) |
| C100 | relative errors compare listed entries only; listed error vs error over all cells; error of rp_hooi from the norm of its core; Hilbert tensor | split of the sum over all cells into listed and other ones, where the data vanish; Pythagoras of C56 (Relerr_main) |
| C101 | sweep budgets share one run; more sweeps are never worse with optimal inner SVDs; the reported error can rise on sparse data, and a worse last sweep is kept | prefix property of the loop, then the monotonicity and Pythagoras of C56 along the trajectory (Sweeps_main); rational witnesses (Sweeps_wit) |
| C102 | renaming users and items commutes with training, updating, recommending and the experiments; for sequential models only if the order of the users is kept | equivariance of every function from the dictionaries up, then of the loop of the experiment for any model whose methods commute (Rename_main, Rename_exp; TDRecRe and RandomRec in Reinit_main); rational runs for the limits (Rename_wit, Reinit_wit) |
| C103 | timestamps: unused by SVD and PSI, only their order per user counts for the sequential models; relevances: unused by updates of TIRec and TIRecA, used by PSI | invariance of every function under changes of a column (for the sequential models: comparison with the table whose column is constant after cropping), then of the loop of the experiment (Columns_main; TDRecRe in Reinit_main); rational runs for the limits (Columns_wit) |
| C104 | which names and configurations prepare_model can use, what it returns, and that the script's choices fit, except for Random, whose experiment never returns | case analysis on the name, keyword lists as sets; the first iteration of the loop for RandomRec (Choice_main) |
| C105 | which parts of a model's state depend on where the stream is cut into chunks: PSI's books and lossless scores, the windows, items and exclusions of the sequential models, and acceptance | the invariants of Psi_main and Seqx_book for both streams; `lastn` absorbs what cropping drops (Chunks_main); C65 for both streams (Chunks_num) |
| C106 | what how_many_iterations decides, for every integer: the groups run over, the users of the stability test, which series are cut off | the slice as a number of groups (Iter_main), `stability_selected` of C83, `experiments_agree` for two runs over one stream |
| C107 | what topk decides: when shorter lists are possible, nested lists and the metrics, which series of an experiment depend on it | counting as in C17 for two lengths, beginnings of a full sort, equal states of two runs (Topk_main); C16 for success |
| C108 | what SVD and PSI see of a table: pairs in order of first appearance and their totals | sums over rows as sums of totals, filters and first appearances commute, simulation of two objects through training and updates (Dup_main) and of two experiments (Dup_exp) |
| C109 | a retrained model reports the tail of the series when the experiment starts later; SVD is such a model, PSI is not | the history of C50 shifted by j steps (Later_main), shapes of the factors from C80 (Later_svd) |
| C110 | the cells of the tables against all tests of an experiment; the order of models in table and figure; what the time cell averages | weighted means lie between the extremes (Avg_main) over the history of C50 and the cells of C88; toy recommenders with given lists for the defects (Avg_wit) |
| C111 | test users: success, stability and order reduce to single users; the recommenders of the repository are of this kind | the history of C50 with its lists replaced (Panel_main); recommend as a map over users when argpartition ignores the position |

## Trusted base

* Coq's kernel; what `Print Assumptions` lists for each theorem.  All theorems are "Closed under the global
  context" except those about the real numbers, which use axioms of Coq's standard library only:
  `ClassicalDedekindReals.sig_not_dec`, `ClassicalDedekindReals.sig_forall_dec`,
  `FunctionalExtensionality.functional_extensionality_dep`, `Classical_Prop.classic`
  (theorems `attention_power`, `sizes_are_ieee`, `any_ratio_takes_part`; the last two through Flocq's definitions).
* A whole-library listing (coqchk) also names `Coq.ssr.ssrunder.Under_rel...`: standard-library module
  parameters loaded with ssreflect, used by no theorem here.
* The reading of Python/numpy/pandas/numba semantics embodied in the `*_model.v` files, each definition with its
  source lines and simplifications.
* Not modelled: IEEE rounding (except where arithmetic is arbitrary, and in C99), performance, memory, plotting, file IO,
  logging, ClearML/pickle plumbing.

## Modelled code

| files | code | simplifications |
|---|---|---|
| DataPrep_* | source/data_preparation.py | ids are integers |
| History_* | source/ti_data_processing.py, TDRec.train bookkeeping (source/models/tdrec.py:166-219) | relevance is an integer; pandas 2.0 group order |
| Eval_* | source/evaluation.py | exact rationals; unchecked numba access = `Err OutOfBounds` |
| Recommend_* | recommend of SVD, PSI, TDRec, TIRec, TIRecA, RandomRec | scores are an arbitrary function; argpartition is any function meeting its contract |
| Psi_* | source/models/psi.py, SVD.train | factors by their rows' owners; linear algebra calls as a log of inputs |
| Tirec_* | source/models/tirec.py, tirec_accelerated.py, TDRec.train outcome | as Psi |
| Retrain_* | repeated TDRec.train, source/models/tdrec_reinit.py, growing table of the experiment | as Psi; ga_satf only through its input checks (justified by `ga_satf_input_checks`) |
| Tensor_* | source/tensor_operations.py:12-417 | C-ordered buffers over an arbitrary element type; coordinates are naturals; compiled out-of-range access = `Err OutOfBounds`; np.dot sums in index order (irrelevant in a ring); a prange iteration is a thread, `+=` is a load and a store; square roots and the relative errors are left out |
| Matrix_* | source/matrix_operations.py (elements, error sums, split_matrix), svd2mtx, split_mtx_block_diag | as Tensor; ratios are exact rationals |
| Attention_* | source/models/tdrec.py:21-67, 149-156, 218-219, 252-264; scipy.sparse.diags | exact arithmetic; `inv` is any function returning a right inverse |
| LinAlg_* | source/psi.py, source/random_svd.py:8-53, embeddings in source/models/psi.py:105-137 | any commutative ring, read as mathcomp matrices; QR/SVD/argsort/random numbers are arguments with their contract (contracts speak of returned results only); run-time shapes, mismatches are ValueError; sparse and dense products are the same |
| Tucker_* | source/tucker_integrator.py:23-100, embeddings in source/models/tirec_accelerated.py:228-262 | as LinAlg and Tensor; timing prints left out |
| Hooi_*, Hosvd_main, Tucker2_main | source/rp_hooi.py:14-264, source/hosvd.py:22-171 | log output left out; `random_svd` is an oracle indexed by the number of the call (it may depend on the generator), its contract is proved of the model of random_svd (`random_svd_is_inner`); norm and growth test are arbitrary functions; the parallel core is the sequential one (C31); negative identity modes left out |
| Upd_* | source/tucker_integrator.py:102-288 | as Tucker and Hooi; a LinearOperator is a record of two functions on lists, svds on it an oracle with a contract; new vectors are a dense matrix; np.linalg.multi_dot multiplies from the left |
| Exact_* | no new code: LinAlg, Hooi and Upd models under the extra contract `lossless` (the inner SVD is exact on a matrix that factors through the requested rank), which both a LAPACK SVD and scipy svds meet up to rounding | - |
| Num_* | source/models/psi.py 139-218 with the factors, source/models/svd.py 35-47 (train), 75-76 (scores), source/random_svd.py 88-92 (csr branch of svd_step). Sparse and dense storage not distinguished; of_rel (integer to float) is any function; scipy svds has its own contract `svds_mat_ok`. Not modelled: verbose timing, rsvd_params |
| Nti_* | source/models/tirec.py 185-314, source/models/tirec_accelerated.py 191-385, source/models/tdrec.py 166-219 (train, no callback), 252-264 with the factors. `att` is the attention matrix when att_f is set and att_light_mode is off; the theorems of C76 are for no attention. `routines` are the external calls of one step. A negative coordinate raises OutOfBounds (numpy would wrap; no such entry is produced, C21). of_val (integer to float64) is any additive function in C76. |
| Cold_* | no new code: TIRecA.update with integrator processing and zero new rows in the Nti model | - |
| Full_* | source/experiments/prepare_model.py:15-37 with source/models/svd.py (recommend, get_u, get_v) and source/models/psi.py, run by dynamical_experiment | the rank is given (the hyperparameter search is Search_*); filter_viewed=True; time, norms and the stability of the factors are arbitrary functions |
| Seqx_* | source/experiments/prepare_model.py:63-85 with source/models/tirec.py, tirec_accelerated.py and the recommend, get_u, get_v of source/models/tdrec.py, run by dynamical_experiment | as Full; ranks and attention given; the object is fresh (empty seq_history); at least two positions and two different kept items |
| Tdx_* | source/experiments/prepare_model.py:39-49 with source/models/tdrec.py (train, recommend, get_u, get_v), run by dynamical_experiment, the table cropped at dynamical_experiment.py:156-160 | as Seqx; the histories of the object are kept between trainings |
| Pipe_* | source/experiments/dynamical_experiment.py:176-248, with prepare_data.py and prepare_model.py:15-85 | reading and writing files and the rank search are left out (ranks given); a negative number of iterations is in Iter_*; the columns the models get are stated in Prow_spec; TDRecRe is in Rex_*, Random in Choice_* |
| Rex_* | source/experiments/prepare_model.py:51-61 with source/models/tdrec_reinit.py and the recommend, get_u, get_v, get_factors of source/models/tdrec.py, run by dynamical_experiment with reinit_model_bool (lines 165-168) | as Tdx; get_factors returns the factors of the object, mappings are passed by value (the object stores the same mappings anyway) |
| Hps_* | source/experiments/hyperparameters_search.py:44-108 with prepare_data.py:31-49, 64-69 and source/random_grid.py:78-100 | the grid has the one parameter rank; the order of a set is an arbitrary permutation; the CSV file is not modelled |
| Hpt_* | source/experiments/hyperparameters_search.py:136-239 with source/models/tdrec.py:147-219 | the grid is a list of configurations (rank, att_f); the day of a cropped row is recomputed from its time stamp, as in the prepared table; force_n_iter is False; the CSV file is not modelled |
| Report_* | prepare_graphs.py, source/experiments/prepare_graphs.py:24-120, source/plotting.py:35-44, get_table_results_latex.py, run_experiments.py, dynamical_ablation_study.py:45-106 (names, order) | strings are ASCII; a result file is a dictionary of series of rationals; digits of integers and the opening of files are arguments; the graphs of lines 91-105 are an argument (Tables_*); drawing only as matplotlib's length check; scripts are arbitrary functions that write one file at the end; the LaTeX text is not modelled |
| Avg_* | no new code: get_table_results_latex.py 22-30 and source/experiments/prepare_graphs.py 77-97 of Report_model applied to the results of Dynamic_model | exact rationals; the rounding to three digits when printing is not modelled |
| Blind_* | no new code: the recommend methods of Recommend_model and the models of Num_model and Full_model | quantified over the behaviours of argpartition |
| Rawlog_* | no new code: read_preprocess_data of Tables_model followed by the split of DataPrep_model | the order of rows with the same timestamp is the file's |
| Stats_* | source/data_preparation.py:83-112 print_recsys_df_stats, get_data_stats_latex.py:10-39 | numbers are rationals; the LaTeX text itself is not modelled |
| Load_* | load_data.py:24-140 | paths are lists of names; downloads, the archive and the parsers are arbitrary functions; POSIX rename; no permissions, links or partial writes |
| Chance_* | source/models/random_rec.py:46-74 | draws of randn are an argument; an expectation is a mean over a finite list of equally likely outcomes |
| Choice_model | source/experiments/prepare_model.py, dynamical_experiment.py:22-41, hyperparameters_search.py:29-40, the method names and constructor parameters of source/models, random_rec.py:17-74 as run by dynamical_experiment | a configuration is the set of its keys, values are left out; the parameter search is a result that may be an exception; the draws are any function of the object, the users and `internal` (enough, since no run gets past the first chunk) |
| Sblind_* | no new code: the models of Nti_model with the recommend method of Seqx_model | exactness is a hypothesis on the tensor, see Sblind_spec |
| Csv_model | to_csv/read_csv between load_data.py and prepare_data.py, encode_column on what was read, prepare_amazon and prepare_steam from the file on | reading a number is any function of the chunk and the text; categories in any order; quoting keeps the text (assumed); boolean columns left out |
| Parse_model | load_data.py:42-45 and 71-75: parse_lines_amz, parse_lines_steam | text to syntax is external and may raise; Python literals are those JSON has; numbers are integers; from_records keeps the rows |
| Ratio_model | int(n * ratio): prepare_data.py:47, source/experiments/prepare_data.py:37, source/matrix_operations.py:133-134 | positive normal doubles as mantissa and exponent, n below 2^53; no overflow |
| Relerr_model | tensor_operations.py:392-402, 420-429 and matrix_operations.py:66-74: gen_hilbert_tensor, sqrt_err_relative | exact arithmetic in an ordered field; the root is any strictly monotone function with root of 0 equal to 0; EPS any positive number |
| Tables_* | prepare_data.py 39-124, source/experiments/prepare_graphs.py 136-194 (series only) | times are whole seconds; CSV round trips are the identity; drawing left out except matplotlib's length check; sets are lists |
| Steps_* | source/psi_experiments/psi_step_experiments.py 15-261, generate_matrix and sqrt_err_relative_mtx of source/matrix_operations.py | elapsed times left out; ratios are exact rationals; random draws, exp, QR, SVD are arguments (contracts `qr_ok`, `truncated_ok`, `lossless`, `nonneg_rsvd`); the square root is any function meeting `sqrt_ok`; nan (0/0 on an empty matrix) is None; plotting left out |
| Pcore_* | load_data.py:77-112, prepare_data.py:31-37 | ids are integers |
| Stream_* | source/experiments/prepare_data.py | dates and ids are integers; `int(n*ratio)` is an argument; quantiles are exact rationals (nearest, ties to even); unstable sorts give any sorted permutation |
| Search_*, Training_* | source/experiments/hyperparameters_search.py:44-67, 110-192, 241-279, source/random_grid.py | scores are exact rationals and never missing; training is a function giving the scores of its sweeps (Search) or ga_satf itself (Training); random choices are an arbitrary sequence; argmin of an empty object column raises TypeError (pandas) |
| Dynamic_* | source/experiments/dynamical_experiment.py:23-174, source/general_functions.py:11-30 | the recommender is any record of functions on any state; recommending leaves the state unchanged; times are an oracle; norm and division are arbitrary functions; `np.mean` of an empty window is 0; the table grows by any function (2d and 3d instances given) |

## Findings (refuted natural statements, each with a witness theorem)

* C11: users with fewer than L interactions are trained left-aligned and stored right-aligned.
* C17: recommendations are not sorted (`recommend_sorted_refuted`), hence MRR is not determined by the scores
  (`recommend_mrr_determined_refuted`).
* C22: TIRecA applies entries of new users twice.
* C23: an incremental step can land on another user's row (`tirec_row_order_refuted`).
* C24: consumed items that left the window are recommended again (`tirec_recommends_consumed_refuted`).
* C25: a second `train` on one TDRec object mixes stale indices into histories; recommending can then raise
  IndexError (`retrain_keeps_recommending_refuted`).
* C26: values are attached to wrong cells for unsorted tables (`values_paired_refuted`).
* C27: internal-index WJI of re-trained TDRec compares unrelated items (`retrained_wji_reads_ids_refuted`).
* C53: warm re-training fails when the item with the largest index vanishes (`reinit_experiment_step_fails_iff`).
* C29: out-of-range coordinates can land on another cell instead of being rejected
  (`unfold_sparse_aliasing_refuted`); C30: duplicates overwrite in `sparse_to_dense_tensor` but add everywhere else.
* C34: the chunked contraction drops the tail above a multiple of 10000 entries
  (`double_tensor_tail_dropped_refuted`), used by the Tucker integrator.
* C35: `svd2mtx` broadcasts where `get_svd_element` does not (`svd_element_broadcast_refuted`).
* C54: block-diagonal splitting loses the remainder (`block_diag_tail_refuted`).
* C39: more new vectors than rows always raises (`append_vectors_too_many`).
* C42: random embeddings of new items in PSI change scores of known pairs (`random_item_embeddings_refuted`).
* C43: the integrator applies the attention twice at the second mode; the result is then not the attended tensor
  (`integrator_attention_refuted`).
* C61: more new users than (items x sequence length) in one step always raises (`new_vectors_too_many`); new vectors are
  stored projected on the factors of the other modes (`new_vectors_cells`); `n_power_iter`, `oversampling_factor` and `seed` do
  not reach the last SVD (visible in `new_vectors_cells_random_svd`).
* C45: the last group of dates need not exceed the minimum, and its label need not be that of a group
  (`date_groups_exceed_minimum_refuted`).
* C48: after early stopping the model holds the factors of the last sweep, not of the best one
  (`training_keeps_best_refuted`).
* C49: for ml_20m the choice raises when the best metric is reached without attention only; for amz_g when all metrics
  are equal (`optimal_tdrec_params_rule`).
* C51: random_grid can return fewer configurations than requested (`random_grid_size_refuted`) and never ends when a
  value list has a repetition and the whole grid is requested (`random_grid_repeated_value_hangs`).
* C68: `round('d')` gives the nearest midnight, so an interaction of the afternoon carries the next day's date
  (`day_is_nearest_midnight`).
* C69: `data_dynamics.json` misses the last processed group; its series are one shorter than those of the experiment
  (`data_dynamics_series`).
* C70: the new-entities graph counts against the uncropped initial table, the sequential models are trained on the cropped
  one (`new_entities_graph_is_tirec_refuted`); a stream shorter than how_many_iterations makes the plot raise.
* C50: full_dynamical_experiment with how_many_iterations = 0 (process everything) selects no stability users and fails on
  the second chunk (`full_experiment_unlimited_fails`); the 'Random' model has no get_u and fails on the first chunk
  (`dynamical_experiment_needs_embeddings`); vanished items abort between the first two chunks only
  (`dynamical_experiment_shrinking`).
* C52: the reported "relative norm difference" is ||old||/||new-old||, large for small changes and a division by zero for
  none, because rel_norm is called with the difference as its first argument (`reported_change_not_relative_refuted`).
* C66: `_updater` passes `self.s`, not its transpose, for new users (psi.py:141-145), so that known users' scores change
  whenever S is not symmetric, e.g. after any integrator step (`numpsi_known_users_kept_refuted`).
* C67: with `nu_ni_process_integrator` the interactions of new users with new items have no effect
  (`numpsi_cold_interactions_ignored`).
* C71: with a first chunk narrower than the rank, the incremental SVD keeps the smaller rank for ever
  (`incremental_exact_refuted`).
* C72: rounding of the block width gives more blocks than the rank budget counts (`block_rank_budget_refuted`).
* C73: projector splitting is not exact for two rank-1 matrices that do not see each other (`psi_dynamics_exact_refuted`).
* C74: the explicit Euler steps are not orthogonal, so the norm of the dynamics grows (`dynamics_norm_refuted`).
* C76: TIRecA.update takes the old entries from the whole chunk with a mask of new/new pairs computed after the new rows
  were removed from the lists, so entries of new users with new items enter twice (`sequential_tracking_refuted`); an
  interaction between a new user and a new item can be lost (`sequential_lossless_needed_refuted`).
* C77: with a position rank equal to the number of positions W W^T = I and all scores are 0, for every attention matrix
  (`sequential_full_position_rank`).
* C78: under integrator processing a new user whose items are all new, and the items only such users have, contribute
  nothing: zero vectors, and every score 0, so the recommendation list is an arbitrary tie (`newcomers_get_nothing`,
  `newcomer_scores_refuted`).
* C81: a chunk that leaves every user's last L items unchanged (each repeats the items they already end with) makes
  TIRec and TIRecA raise ValueError, which stops the experiment (`sequential_experiment_case`).
* C82: cropping the table after every chunk can lower the number of items. TDRec keeps the histories of earlier
  trainings, so an index of an old table may then be no item of the new one: IndexError for a user with few rows. The
  difference of the item factors of the first two steps has no shape check (ValueError), and the stability measure
  indexes outside its array (`retrained_experiment_refuted`). For users with few rows the scores also depend on indices
  that an old table gave to other items.
* C110: the tables average HR over steps, not over tests: the model with more hits on the same tests can have the lower
  cell (`table_ranks_by_hits_refuted`), the numbers of tests are not saved (`hits_from_file_refuted`), and the time cell
  mixes the training with the updates (`table_ranks_update_times_refuted`).
* C108: sequential models do not treat repeated rows as one row with a larger relevance: each takes a place in the
  window (`sequential_models_see_totals_refuted`).
* C107: MRR may fall when topk grows, even without ties (`longer_lists_rank_refuted`), and with ties HR may fall
  (`longer_lists_hit_more_refuted`).
* C106: the stability series of a run with fewer iterations is not the beginning of that of a run with more
  (`iterations_cut_stability_refuted`).
* C83: the users of the stability test are those most active on all processed days, so the stability value between two
  days depends on later days (`stability_ignores_later_days_refuted`), and one more row of a user with few items left,
  on the last day and with an unknown item, can stop a run that otherwise gets through (`pipeline_later_case`).
* C84: TDRecRe takes the tensor shape from the largest index in the present table but overlays the old factors, whose
  number of rows is that of all items so far. When the newest item leaves the table by cropping, the overlay has no
  matching shape and the run stops with ValueError (`reinit_experiment_refuted`, rp_hooi.py:234-235). Any other item may
  leave the table; it is still offered afterwards (`reinit_experiment_case`).
* C85: the search keeps its results in a list until the end; one rank that is not below the numbers of users and items
  of the training part (or one exception of scipy) loses the results of all the others
  (`svd_search_keeps_good_ranks_refuted`). Validation rows without any known user stop it with ZeroDivisionError.
* C86: the search cuts the last days off the cropped table, so a configuration that fits the initial table can still
  stop the search with ValueError, when no user has L rows in the earlier days (`tdrec_search_fitting_rank_refuted`);
  one rank that does not fit together loses all results (`tdrec_search_keeps_good_ranks_refuted`). The number of sweeps
  get_optimal_tdrec_params returns is dropped by all four prepare functions (prepare_model.py:40, 52, 64, 76): the
  experiments run with the n_iter of the configuration, so the model with the chosen HR is not the one that is used.
* C87: `target_model in str(p)` tests the whole path, so a results directory below e.g. `runs_TIRec/` makes every file a
  file of the study and stops it with ValueError (`study_graphs_any_directory_refuted`); `split('.json')[0]` gives a
  backup copy the label of the original, and the later of the two in the listing is drawn
  (`study_curve_of_its_file_refuted`); `plot_stability` labels its axis with the mode (`stability_axis_refuted`).
* C88: one missing series replaces all cells of the model by dashes (`saved_metric_shown_refuted`).
* C89: `os.system` ignores exit statuses, so a failed search or experiment leaves earlier files that later scripts take
  for new ones (`run_is_fresh_refuted`).
* C90/C91: recommend does not determine the order of a list (known from C17) and the MRR of a fixed model has a range
  whose two ends are attained; a model with a rank large enough for its data scores all unseen items 0, so its
  recommendations and its hit rate are decided by the implementation of argpartition alone.
* C92: the split is fixed by the set of rows exactly if no second (day, for Amazon and Steam, whose times are whole
  days) is cut by one of its boundaries.  Otherwise a file with the same rows in another order gives another split;
  a log of nine rows is exhibited on which HR goes from 1 to 0.
* C93: the printed density exceeds 100 % if pairs are repeated (Amazon and MovieLens are not deduplicated by the
  printing function); the medians of the LaTeX table are truncated, not rounded; the statistics of ML-20M depend on the
  order of the file's rows if the last day kept is torn.
* C94: load_data.py can be run only once.  os.rename("data/ml-20m", "data/ml_20m") fails on a non-empty target, so when a
  later download fails the datasets already present have to be removed by hand before the next attempt.
* C96: the same holds for the sequential models.  When the Tucker model is exact the projector on the item factor is the
  identity on every item in the data, so a user's scores vanish outside their last L items: everything these models
  recommend comes from the truncation of the ranks.
* C97: prepare_data.py reads the names with pd.read_csv's defaults.  Users called "NA", "null", "None", "nan", ... are all
  read as missing and share the id -1; in a file read in several chunks a user whose name is a number gets two ids when
  one chunk has only numbers and another has not.  The statistics of C93 are about ids before this trip; dtype=str and
  keep_default_na=False would close the gap.
* C98: the object hook of parse_lines_amz is applied to every JSON object of a line, not just to the review, so a review
  with any nested object (the "style" of newer Amazon files) raises KeyError and the whole load is lost.
* C99: int(n * 0.7) is 7n // 10 - 1 when n = 10k and 2^m < k < 2^(m+3)/7 (n = 90, 170, 180, ...): the double 0.7 lies
  below 7/10 and the product is rounded below the integer.  0.2, 0.4 and 0.8 lie above and never lose a row.  The
  initial part of an Amazon log of such a size has one row less than the ratio says.
* C100: sqrt_err_relative looks at the listed entries only.  On sparse data it can be 0 although the decomposition is
  arbitrarily far from the tensor at the other cells, and the decompositions (which treat unlisted cells as 0 and add
  repeated coordinates up) minimise a different error.
* C101: the growth test of rp_hooi and ga_satf stops *after* the sweep that did not improve and returns that sweep.
  With random_svd (orthonormal, not optimal) this sweep can be worse than the previous one, which is lost.
* C102: get_df_with_cropped_pos_column sorts by user id (groupby), so the sequential models number the users by the
  order of their names.  Other names can change the hit rates that are reported for TDRec.  get_users_stability breaks
  ties by name: with more than 50 equally active users the names decide who is left out.
* C103: updates of TIRec and TIRecA give every new interaction weight 1 (get_train_tensor, calculate_delta_tensor)
  whatever its relevance, while training and PSI use the relevance column.  All prepared files have relevance 1, so
  this shows only with other data.
