{
 "claims": [
  {
   "property": "C01",
   "status": "proved",
   "theorems": [
    "C01_bernoulli",
    "C01_categorical",
    "C01_geometric",
    "C01_exponential",
    "C01_poisson",
    "C01_normal",
    "C01_lognormal",
    "C01_vonmises",
    "C01_beta",
    "C01_normal_trunc",
    "C01_crp"
   ],
   "note": "One theorem per primitive class, over every sequence of incorporate, unincorporate, hyperparameter and parameter updates, accepted or rejected."
  },
  {
   "property": "C02",
   "status": "proved",
   "theorems": [
    "C02_undo",
    "C02_crp"
   ],
   "note": "All ten primitive classes."
  },
  {
   "property": "C03",
   "status": "proved",
   "theorems": [
    "C03_exchangeable",
    "C03_crp"
   ],
   "note": "All ten primitive classes: statistics, score and predictive densities depend only on the rows held."
  },
  {
   "property": "C04",
   "status": "partial",
   "theorems": [
    "C04_bernoulli",
    "C04_categorical",
    "C04_geometric",
    "C04_exponential",
    "C04_poisson",
    "C04_normal",
    "C04_lognormal",
    "C04_vonmises_partial",
    "C04_vonmises_refuted",
    "C04_vonmises_concentration_refuted",
    "C04_beta_partial",
    "C04_beta_refuted",
    "C04_normal_trunc_partial",
    "C04_normal_trunc_refuted",
    "C04_normal_trunc_nan_refuted",
    "C04_crp"
   ],
   "note": "Proved in full for bernoulli, categorical, geometric, exponential, poisson, normal and lognormal. False as stated for von mises (vanishing resultant, unchecked concentration), beta (end points are clipped on incorporate but not in logpdf) and truncated normal (prior scale l+h): refuted with witnesses, and proved under the extra conditions in the _partial theorems."
  },
  {
   "property": "C05",
   "status": "partial",
   "theorems": [
    "C05_bernoulli",
    "C05_categorical",
    "C05_poisson",
    "C05_geometric",
    "C05_exponential",
    "C05_normal",
    "C05_lognormal",
    "C05_normal_trunc_partial",
    "C05_beta_refuted",
    "C05_beta_partial",
    "C05_vonmises_partial"
   ],
   "note": "Proved in full for seven classes; the geometric class rejects with TypeError instead of ValueError. Refuted for beta at 0, with the part that holds proved; truncated normal proved for 0 <= l; von mises proved up to the vanishing resultant."
  },
  {
   "property": "C06",
   "status": "proved",
   "theorems": [
    "C06_bernoulli",
    "C06_categorical",
    "C06_geometric",
    "C06_poisson",
    "C06_crp",
    "C06_crp_seated",
    "C06_crp_simulate"
   ],
   "note": "Bernoulli, categorical, crp (finite sums) and geometric, poisson (infinite sums)."
  },
  {
   "property": "C07",
   "status": "proved",
   "theorems": [
    "C07_crp_counts",
    "C07_crp_unseat"
   ],
   "note": "Every history of seating, unseating and concentration updates, accepted or rejected."
  },
  {
   "property": "C08",
   "status": "proved",
   "theorems": [
    "C08_crp_score",
    "C08_crp_order"
   ],
   "note": "Sequential product, order independence and closed form, for every log-gamma satisfying the recurrence and vanishing at 1."
  },
  {
   "property": "C09",
   "status": "proved",
   "theorems": [
    "C09_gibbs_proposal",
    "C09_gibbs_columns",
    "C09_no_customers"
   ],
   "note": "Seated customers, singleton or not, any number of auxiliary tables; also the column-level variant in general.py. C09_no_customers records that the proposal for an unseated customer fails on an empty restaurant."
  },
  {
   "property": "C10",
   "status": "proved",
   "theorems": [
    "C10_simulate_crp",
    "C10_bad_arguments",
    "C10_distribution"
   ],
   "note": "For every generator meeting numpy's contract; C10_distribution gives the exact sampling distribution, equal to exp of logp_crp."
  },
  {
   "property": "C11",
   "status": "proved",
   "theorems": [
    "C11_constrained",
    "C11_negative_refuted"
   ],
   "note": "Every accepted input over non-negative columns, including row constraints (customers sharing a table have agreeing row constraints). C11_negative_refuted shows that accepted negative column numbers break the internal assertion."
  },
  {
   "property": "C12",
   "status": "proved",
   "theorems": [
    "C12_simulate",
    "C12_counts",
    "C12_density",
    "C12_distribution",
    "C12_empty_block_refuted"
   ],
   "note": "Simulator, effective counts, density, and equality of the density with the sampling distribution. C12_empty_block_refuted: an accepted empty block makes the density raise IndexError."
  },
  {
   "property": "C13",
   "status": "partial",
   "theorems": [
    "C13_accepts_exactly",
    "C13_validation_partial",
    "C13_well_formed_accepted",
    "C13_validation_refuted"
   ],
   "note": "The claim is false as stated: empty blocks and negative columns are accepted (C13_validation_refuted). C13_accepts_exactly states exactly what is accepted; C13_validation_partial is the claim for non-empty blocks of non-negative columns."
  },
  {
   "property": "C14",
   "status": "proved",
   "theorems": [
    "C14_logsumexp",
    "C14_special"
   ],
   "note": "All lists of extended reals."
  },
  {
   "property": "C15",
   "status": "proved",
   "theorems": [
    "C15_log_normalize",
    "C15_log_normalize_zero",
    "C15_logmeanexp",
    "C15_logmeanexp_pinf",
    "C15_logmeanexp_weighted"
   ],
   "note": "All lists of log weights with positive total; the degenerate all-zero case and plus infinities are separate theorems."
  },
  {
   "property": "C16",
   "status": "proved",
   "theorems": [
    "C16_pflip",
    "C16_pflip_many",
    "C16_pflip_distribution",
    "C16_log_pflip",
    "C16_log_pflip_many"
   ],
   "note": "Every random source that returns the index of a positive entry."
  },
  {
   "property": "C17",
   "status": "proved",
   "theorems": [
    "C17_topological_sort",
    "C17_network_accepted",
    "C17_network_rejected"
   ],
   "note": "Every dependency graph with distinct node names; also when the network constructor accepts."
  },
  {
   "property": "C18",
   "status": "proved",
   "theorems": [
    "C18_ancestors",
    "C18_descendents",
    "C18_required_inputs"
   ],
   "note": "Recursion depth is an argument: any depth above the number of components suffices on an accepted network. Required inputs are characterised exactly."
  },
  {
   "property": "C19",
   "status": "proved",
   "theorems": [
    "C19_weighted_sample"
   ],
   "note": "Components are arbitrary; the only assumption is that simulate returns the requested targets."
  },
  {
   "property": "C20",
   "status": "proved",
   "theorems": [
    "C20_unbiased",
    "C20_joint_probability"
   ],
   "note": "Finite discrete components whose logpdf and simulate are marginals and conditionals of one distribution; also for the weight times any function of the targets."
  },
  {
   "property": "C21",
   "status": "proved",
   "theorems": [
    "C21_simulate",
    "C21_simulate_count",
    "C21_logpdf"
   ],
   "note": "Weights that are log densities (finite or minus infinity)."
  },
  {
   "property": "C22",
   "status": "proved",
   "theorems": [
    "C22_rows_partitioned",
    "C22_removal_and_reinsertion",
    "C22_cluster_statistics"
   ],
   "note": "For every history of calls on a column of a known class (the ten primitives and the conditional classes as `regression`) the ledger read off the calls' outcomes gives the one cluster of each inserted row; observed values are in exactly that cluster's rows and statistics, missing ones in none; removal and reinsertion succeed/fail exactly by the ledger. RandomForest.unincorporate's unchanged counts are outside the `regression` model."
  },
  {
   "property": "C23",
   "status": "partial",
   "theorems": [
    "C23_columns_follow_partition",
    "C23_partition_counts"
   ],
   "note": "Proved for every history of calls in which a forced cell is not the input of an unforced column; C51_inputs_refuted shows the claim false when it is."
  },
  {
   "property": "C24",
   "status": "proved",
   "theorems": [
    "C24_insert_then_remove"
   ],
   "note": "Insertion with a given cluster followed by removal restores partition, statistics, predictive densities and score."
  },
  {
   "property": "C25",
   "status": "partial",
   "theorems": [
    "C25_consistent_partial",
    "C25_table_follows_operations",
    "C25_refuted"
   ],
   "note": "False as stated: C25_refuted (a column step can put a column with the clusters of another view). Proved for every history whose operations are `safe`: column steps only with views numbered in order or with collapsed unconditional columns, no forced input of an unforced column, no removal of a column that is an input."
  },
  {
   "property": "C26",
   "status": "proved",
   "theorems": [
    "C26_data_unchanged",
    "C26_rows_and_columns_kept"
   ],
   "note": "Every state (reachable or not), every list of kernels, any draws, also when a kernel raises; C26_rows_and_columns_kept adds that the views hold the same rows and columns."
  },
  {
   "property": "C27",
   "status": "partial",
   "theorems": [
    "C27_blocks_kept",
    "C27_pairs_kept_partial",
    "C27_refuted"
   ],
   "note": "False as stated for independence pairs: C27_refuted. Proved: dependence blocks in every state; independence pairs when the views are in ascending order."
  },
  {
   "property": "C28",
   "status": "partial",
   "theorems": [
    "C28_row_weights",
    "C28_weights_exist",
    "C28_row_step",
    "C28_step_total",
    "C28_pass_total",
    "C28_detailed_balance",
    "C28_reaches"
   ],
   "note": "For every reachable view with collapsed columns: C28_row_weights (the weights are the joint densities of the placements up to one constant, the choices are the clusters of the other rows and exactly one empty one), C28_weights_exist, C28_row_step, C28_step_total and C28_pass_total (with a random stream that meets its contract a step and a whole pass never fail), C28_detailed_balance and C28_reaches (the step is reversible for the posterior over partitions; proved when the hyperparameters of clusters and auxiliary component agree, which construction and hyperparameter transitions keep, but explicit set_hypers does not, see C45)."
  },
  {
   "property": "C29",
   "status": "partial",
   "theorems": [
    "C29_weights_partial",
    "C29_refuted"
   ],
   "note": "False as stated: C29_refuted (weights are added in two different orders of the views). Proved when the views are in ascending order."
  },
  {
   "property": "C30",
   "status": "proved",
   "theorems": [
    "C30_mixture",
    "C30_agree",
    "C30_given_cluster",
    "C30_cluster_target",
    "C30_observed",
    "C30_no_rows"
   ],
   "note": "Views with at least one row whose columns are of the eight conjugate classes and take no inputs, new rows: both query paths return the mixture, and raise ValueError together when the constraints have density zero. C30_no_rows: a view without rows cannot be queried. C30_cluster_target, C30_given_cluster: the cluster variable among the targets or the constraints; with the cluster among the targets, constraints of density zero give NaN instead of an exception."
  },
  {
   "property": "C31",
   "status": "proved",
   "theorems": [
    "C31_view",
    "C31_chain",
    "C31_validation",
    "C31_view_validation"
   ],
   "note": "Whole states: new rows, conjugate columns without inputs, cells spread over any views. C31_validation, C31_view_validation: exactly which queries are accepted."
  },
  {
   "property": "C32",
   "status": "proved",
   "theorems": [
    "C32_split_dict",
    "C32_split_list",
    "C32_independent",
    "C32_joint"
   ],
   "note": "New rows, conjugate columns without inputs. The answer is the product over views with targets of the conditional mixtures; constraints in views without targets have no influence, not even when their density is zero."
  },
  {
   "property": "C33",
   "status": "proved",
   "theorems": [
    "C33_normalised"
   ],
   "note": "Any set of discrete columns (Bernoulli, Categorical, Geometric, Poisson) of a view, given any constraints of positive density."
  },
  {
   "property": "C34",
   "status": "partial",
   "theorems": [
    "C34_samples_partial",
    "C34_view",
    "C34_no_targets",
    "C34_returns_partial",
    "C34_no_targets_refuted"
   ],
   "note": "Proved for at least one target: exactly N dictionaries with exactly the target keys, and (conjugate columns, constraints of positive density) the call returns. False for zero targets: C34_no_targets_refuted (no sample, or IndexError)."
  },
  {
   "property": "C35",
   "status": "partial",
   "theorems": [
    "C35_sorted_partial",
    "C35_first",
    "C35_refuted"
   ],
   "note": "False as stated: C35_refuted. Proved: the samples are those of independent draws with the right probabilities, sorted by cluster; the first is from the lowest cluster with probability 1-(1-p)^N."
  },
  {
   "property": "C36",
   "status": "partial",
   "theorems": [
    "C36_dependence_columns",
    "C36_dependence_symmetric",
    "C36_dependence_range",
    "C36_dependence_matrix",
    "C36_row_similarity",
    "C36_row_symmetric",
    "C36_row_range",
    "C36_row_no_columns",
    "C36_row_matrix",
    "C36_duplicates_refuted"
   ],
   "note": "Proved for every state and every composite: symmetry (errors included), diagonal, range, exact value (one view models both; fraction of views in which the rows share a cluster), and the matrices for lists of distinct columns. False for a list that repeats a column (C36_duplicates_refuted); with no columns the similarity is NaN (C36_row_no_columns)."
  },
  {
   "property": "C37",
   "status": "partial",
   "theorems": [
    "C37_rearranged",
    "C37_posterior",
    "C37_read_only",
    "C37_self",
    "C37_no_query",
    "C37_unknown",
    "C37_alone",
    "C37_repeated",
    "C37_state_rows",
    "C37_state_read_only",
    "C37_state_answers",
    "C37_state_unknown",
    "C37_alone_refuted",
    "C37_repeated_refuted",
    "C37_state_unknown_refuted"
   ],
   "note": "False as stated when the rows asked about are all rows of the view (C37_alone_refuted: the rows are taken out and stay out), when a query row is named twice (C37_repeated_refuted), and for a whole state when the target is unknown and there are hypothetical rows (C37_state_unknown_refuted: they stay in). Otherwise, for every settled view of collapsed unconditional columns with agreeing hyperparameters and every question: C37_read_only (rows, clusters, counts, contents, scores and answers to queries are those before), C37_posterior (the value is the posterior probability that the target shares the cluster of the query rows, computed from the scores of all placements, and lies strictly between 0 and 1), C37_rearranged (these placements exist), C37_self, C37_no_query, C37_unknown, C37_alone, C37_repeated (errors and what is left behind). State.relevance_probability: C37_state_rows, C37_state_read_only, C37_state_answers, C37_state_unknown."
  },
  {
   "property": "C38",
   "status": "partial",
   "theorems": [
    "C38_schedule",
    "C38_default",
    "C38_time_limit",
    "C38_zero_refuted",
    "C38_negative",
    "C38_counters",
    "C38_records",
    "C38_no_records",
    "C38_refused",
    "C38_foreign",
    "C38_counters_refuted",
    "C38_logscore",
    "C38_logscore_dependent",
    "C38_logscore_independent",
    "C38_checkpoint_independent",
    "C38_checkpoint_refuted",
    "C38_only_chosen_views",
    "C38_only_chosen_columns",
    "C38_only_chosen_moves",
    "C38_only_chosen_rows",
    "C38_one_new_view",
    "C38_unknown_view",
    "C38_every_row",
    "C38_every_view",
    "C38_every_column"
   ],
   "note": "False for N = 0 and for the counter of the rows kernel on one-row tables (C38_zero_refuted, C38_counters_refuted), and with independence constraints every record raises (C38_checkpoint_refuted); proved otherwise. Model Schedule.v: State.transition, transition_foreign, _transition_generic, the counters and the recorded diagnostics; kernel calls and the clock are arguments of the generic part and the State model's kernels in the concrete part. Proved: for every list of kernels, positive N and checkpoint interval, what happens is N rounds in the given order with a record exactly at the multiples (also when an event raises); with a time limit, a beginning of the same schedule that stops at the first test that finds the time used up; counters; content of the records; refusals; composed components. Findings: N = 0 raises ZeroDivisionError, N < 0 without time limit never ends, and the rows kernel of a one-row table is not counted. Not modelled: progress bar, transition_lovecat, transition_loom. C38_logscore*: the recorded score is the log probability of the column partition, of the row partitions and of the columns; with dependence constraints the columns are scored by blocks. C38_only_chosen_*: views, columns and rows that were not asked for are left alone; C38_every_*: those that were asked for are all visited, once per call; C38_one_new_view: a column is offered one new view; C38_unknown_view: an unknown view is refused."
  },
  {
   "property": "C39",
   "status": "partial",
   "theorems": [
    "C39_ends",
    "C39_map",
    "C39_returned",
    "C39_raises",
    "C39_once",
    "C39_bounded",
    "C39_no_workers",
    "C39_lethal",
    "C39_no_workers_refuted",
    "C39_unsendable_refuted"
   ],
   "note": "False as stated: C39_no_workers_refuted (parallelism 0) and C39_unsendable_refuted (a result whose sending raises anything but PicklingError, or a call that ends its worker) deadlock; C39_no_workers and C39_lethal show that this happens in every execution. Otherwise proved for every function, list, number of workers and interleaving, as a transition system of parent, workers and pipes (results may be too large for a pipe): no infinite execution, no deadlock, results in input order, each item run exactly once, the call raises exactly if a call of the function raised."
  },
  {
   "property": "C40",
   "status": "partial",
   "theorems": [
    "C40_map",
    "C40_parallel",
    "C40_selected",
    "C40_raises_parallel",
    "C40_raises_map",
    "C40_index",
    "C40_repeated_map",
    "C40_repeated_parallel",
    "C40_repeated_refuted",
    "C40_empty_refuted",
    "C40_evaluate",
    "C40_evaluate_parallel",
    "C40_evaluate_distinct",
    "C40_seeds",
    "C40_simulate_refuted",
    "C40_all",
    "C40_all_short",
    "C40_init",
    "C40_get",
    "C40_drop",
    "C40_add",
    "C40_reachable"
   ],
   "note": "False as stated for an empty selection, which means all states (C40_empty_refuted), for repeated states under parallel_map, whose outcome depends on which worker gets which item (C40_repeated_refuted), and for simulate and mutual_information, which reseed unselected states too (C40_simulate_refuted). Otherwise proved for every reachable engine (C40_reachable), both mappers and every operation: C40_selected, C40_all, C40_raises_parallel (all or nothing), C40_raises_map (the states up to the failing call are changed), C40_index, C40_repeated_map, C40_repeated_parallel, C40_evaluate (also repeated states), C40_seeds, C40_get, C40_drop, C40_add, C40_init. Not modelled: transition_loom, the likelihood-weighted combination of results."
  },
  {
   "property": "C41",
   "status": "partial",
   "theorems": [
    "C41_view_partial",
    "C41_state_partial",
    "C41_composite_partial",
    "C41_collapsed_partial",
    "C41_parameters_refuted",
    "C41_negative_refuted",
    "C41_tokens_refuted",
    "C41_composite_refuted",
    "C41_view_rows_refuted",
    "C41_grids",
    "C41_all_composed"
   ],
   "note": "False as stated: C41_parameters_refuted (parameters of uncollapsed columns are redrawn), C41_tokens_refuted, C41_composite_refuted (a state with conditional columns comes back as one without), C41_view_rows_refuted (a view with gaps in its rows), C41_negative_refuted (a negative column number). For every reachable state (sreach safe) with rows, non-negative outputs, columns of classes without parameters and a defined score: C41_state_partial (it can be written and built, whatever the constructor draws; data, partitions, contents, hyperparameters, constraints are the same; equal answers for density, samples, similarity of rows and score), C41_composite_partial (composed components, dependence of columns), C41_collapsed_partial (the collapsed classes need no premise on scores), C41_view_partial (views). json and pickle are taken to return what they were given. C41_grids, C41_all_composed: for everything that can be built, the grids are those of the data and no composed component is left out."
  },
  {
   "property": "C42",
   "status": "partial",
   "theorems": [
    "C42_view_partial",
    "C42_view_refuted",
    "C42_state_partial",
    "C42_state_refuted"
   ],
   "note": "False as stated: C42_view_refuted and C42_state_refuted. Proved: ids and columns that are not acceptable are refused without change, and a rejection never disturbs another row, column list or column partition."
  },
  {
   "property": "C43",
   "status": "proved",
   "theorems": [
    "C43_wellformed",
    "C43_accepted",
    "C43_registered",
    "C43_rejected",
    "C43_removed",
    "C43_undo",
    "C43_state_change",
    "C43_new_column"
   ],
   "note": "Every history of compositions, removals and state operations that leave the network accepted. C43_new_column: a column added later under the name of a composed output makes the network refused from then on."
  },
  {
   "property": "C44",
   "status": "partial",
   "theorems": [
    "C44_observed_partial",
    "C44_new_row",
    "C44_refuted"
   ],
   "note": "False as stated: C44_refuted (the cell of the first column is not used). Proved: every other observed cell is used, and on new rows nothing is added."
  },
  {
   "property": "C45",
   "status": "partial",
   "theorems": [
    "C45_transition_agreement",
    "C45_initial_agreement",
    "C45_explicit_partial",
    "C45_explicit_stale",
    "C45_explicit_refuted",
    "C45_grid_weights",
    "C45_drawn_from_grid",
    "C45_transition_returns",
    "C45_state_agreement"
   ],
   "note": "Proved for construction and hyperparameter transitions; false for explicit setting (C45_explicit_refuted: clusters created after set_hypers keep the old values). C45_state_agreement: in every reachable state all columns have their hyperparameters set, and those of the clusters and of the auxiliary component are the column's."
  },
  {
   "property": "C46",
   "status": "partial",
   "theorems": [
    "C46_mh_chain",
    "C46_mh",
    "C46_mh_domain",
    "C46_mh_ends",
    "C46_mh_refuted",
    "C46_jump_inside",
    "C46_jump_unit",
    "C46_jump_half_refuted",
    "C46_bracket",
    "C46_slice_chain",
    "C46_slice",
    "C46_slice_refuted",
    "C46_rejection_run",
    "C46_rejection",
    "C46_rejection_log"
   ],
   "note": "False as stated for a start of zero density (C46_mh_refuted) and for slice_sample started outside of the domain (C46_slice_refuted); proved otherwise. utils/sampling.py: mh_sample, slice_sample, _find_slice_interval and rejection_sample with the callbacks and the random streams arbitrary. C46_mh_chain/C46_slice_chain/C46_rejection_run say exactly which chain is run and which of its points are returned; C46_mh, C46_mh_domain, C46_slice, C46_rejection derive domain, density and count; C46_mh_ends bounds the iterations. The claim fails for a start of zero density (C46_mh_refuted) and for slice_sample started outside of the domain (C46_slice_refuted). The tuning of the step size is left out because proposals are arbitrary. C46_jump_inside: the proposal in the remaining domains."
  },
  {
   "property": "C47",
   "status": "proved",
   "theorems": [
    "C47_accepts",
    "C47_rejects",
    "C47_blocks",
    "C47_length",
    "C47_injective",
    "C47_linreg",
    "C47_ols",
    "C47_linreg_injective",
    "C47_untyped_refuted",
    "C47_lookup_refuted",
    "C47_lookup_partial",
    "C47_lookup_indices_refuted"
   ],
   "note": "dummy_code for every schema and row of floats (NaN and infinities included): C47_accepts, C47_rejects (which exception), C47_blocks, C47_length, C47_injective (rows of equal length). The preprocess methods of LinearRegression and OrdinaryLeastSquares on top of it: C47_linreg, C47_ols (exactly which rows are accepted; their assertion never fails), C47_linreg_injective. LinearRegression deliberately accepts one category more than declared. Findings: C47_untyped_refuted, C47_lookup_refuted. C47_lookup_partial: with inputs numbered from 0 the table of positions is off by the number of nominal inputs before; C47_lookup_indices_refuted is an instance."
  },
  {
   "property": "C48",
   "status": "partial",
   "theorems": [
    "C48_reindex",
    "C48_joint",
    "C48_chain",
    "C48_order",
    "C48_latent",
    "C48_latent_pd",
    "C48_latent_refuted"
   ],
   "note": "False as stated for noise that is only invertible: C48_latent_refuted gives a loading of 1 and noise of -1, where the conditioning raises. For every dimension, loading matrix and positive definite noise the conditional mean and covariance are the textbook ones (C48_latent_pd); for invertible symmetric noise C48_latent says exactly when it raises and that otherwise it agrees. Also the chain rule of the density under conditioning (C48_chain), independence of the order of the variables (C48_order), the joint covariance (C48_joint) and the reindexing of queries (C48_reindex). scipy's normal density is modelled by its formula; fitting is not modelled."
  },
  {
   "property": "C49",
   "status": "proved",
   "theorems": [
    "C49_bayes",
    "C49_exchangeable",
    "C49_ratio",
    "C49_chain",
    "C49_student"
   ],
   "note": "Linreg.v: posterior_hypers, calc_log_Z, calc_predictive_logp, calc_logpdf_marginal over mathcomp matrices on the reals, for every number of covariates. C49_exchangeable holds for all hyperparameters and rows, exceptions included. C49_ratio and C49_chain need b > 0 and a positive definite V (the defaults meet it, set_hypers keeps it). Beyond the claim: C49_bayes (prior times likelihood = posterior times score, for all weights and variances) and C49_student (closed form of the predictive). gammaln is an arbitrary function."
  },
  {
   "property": "C50",
   "status": "partial",
   "theorems": [
    "C50_linreg",
    "C50_ols",
    "C50_linreg_stored",
    "C50_linreg_logpdf",
    "C50_ols_stored",
    "C50_ols_refuted",
    "C50_forest",
    "C50_forest_inputs",
    "C50_forest_counts",
    "C50_forest_counts_refuted",
    "C50_forest_counts_unused",
    "C50_forest_stored",
    "C50_table",
    "C50_fa_stored",
    "C50_kde_stored",
    "C50_knn_stored",
    "C50_knn_simulate_stored",
    "C50_dataset",
    "C50_kde_score",
    "C50_kde_score_refuted",
    "C50_fa_score_refuted",
    "C50_ols_new",
    "C50_forest_density",
    "C50_forest_normalised",
    "C50_forest_outside",
    "C50_fa_query",
    "C50_knn_accepts",
    "C50_knn_density",
    "C50_knn_count",
    "C50_knn_targets"
   ],
   "note": "False as stated: the per-category counts of RandomForest are never decremented (C50_forest_counts_refuted; C50_forest_counts says what they count, C50_forest_counts_unused that nothing depends on them), OrdinaryLeastSquares.simulate on a stored row ignores N (C50_ols_refuted), and the scores of FactorAnalysis and MultivariateKde raise (C50_fa_score_refuted, C50_kde_score_refuted). Otherwise proved for every history of incorporate and unincorporate, accepted or refused: C50_linreg, C50_ols, C50_forest, C50_table (factor analysis, KDE, KNN) say which calls are accepted and that rows and row count are those of the ledger; C50_linreg_stored, C50_ols_stored, C50_forest_stored, C50_fa_stored, C50_kde_stored, C50_knn_stored, C50_knn_simulate_stored say what queries on a stored row use; C50_dataset, C50_kde_score say which rows KDE and KNN work on. The densities themselves and sklearn/statsmodels are arguments. P30: answers on new rows (C50_ols_new, C50_forest_density, C50_forest_normalised, C50_forest_outside, C50_fa_query) and which nearest neighbour queries are accepted and what they return (C50_knn_*)."
  },
  {
   "property": "C51",
   "status": "partial",
   "theorems": [
    "C51_view",
    "C51_inputs_refuted",
    "C51_state_partial",
    "C51_observed_rejected"
   ],
   "note": "View and state level: proved for the forced cell and everything else; forcing an observed cell is rejected without change. C51_inputs_refuted: a column with the forced column as input is not updated."
  },
  {
   "property": "C52",
   "status": "proved",
   "theorems": [
    "C52_normal_scale",
    "C52_lognormal_scale"
   ],
   "note": "Exact decomposition of the posterior scale for the normal class; positivity also for the lognormal class."
  },
  {
   "property": "C53",
   "status": "partial",
   "theorems": [
    "C53_sound",
    "C53_dependence_partial",
    "C53_refuted"
   ],
   "note": "False as stated: C53_refuted (a component without inputs and its child get 0). Proved: an answer of 1 is always explained by the network (C53_sound), and the answer is exact when every composed component has an input and none reads the cluster variable of a view."
  },
  {
   "property": "C54",
   "status": "partial",
   "theorems": [
    "C54_logpdf_raises",
    "C54_refuted"
   ],
   "note": "False as stated: C54_refuted; C54_logpdf_raises shows that on observed rows the query always raises."
  },
  {
   "property": "C55",
   "status": "proved",
   "theorems": [
    "C55_observed",
    "C55_unobserved",
    "C55_bernoulli",
    "C55_categorical",
    "C55_crp",
    "C55_poisson",
    "C55_beta",
    "C55_normal_trunc",
    "C55_exponential",
    "C55_geometric",
    "C55_normal",
    "C55_lognormal",
    "C55_vonmises"
   ],
   "note": "PrimSim.v models simulate of the twelve primitives with the numpy generators as arguments. C55_observed, C55_unobserved: observed rows, number and order of samples. For bernoulli, categorical and crp the generator is the model of utils.general and its law is exactly exp(logpdf) for every value. For poisson, beta and the truncated normal the parameters handed to numpy are exactly those of the reported density. For exponential, geometric, normal, lognormal and vonmises the theorem gives the law of the pair (parameter, value) as exp(logpdf) times a named posterior density of the parameter, so that integrating the parameter out gives logpdf. That the named densities integrate to one and that numpy draws from them is assumed, being facts about numpy. vonmises needs a resultant that does not vanish, as C04."
  },
  {
   "property": "C56",
   "status": "partial",
   "theorems": [
    "C56_nearest_partial",
    "C56_nearest_exact",
    "C56_locality_partial",
    "C56_mixture",
    "C56_normalised",
    "C56_point",
    "C56_succeeds",
    "C56_density",
    "C56_self",
    "C56_samples",
    "C56_draws",
    "C56_nearest_refuted",
    "C56_locality_refuted",
    "C56_support_refuted",
    "C56_simulate"
   ],
   "note": "False as stated: C56_nearest_refuted (with ties a row at distance 0 can be left out for one at distance 1), C56_locality_refuted (M > K: localities have only K rows), C56_support_refuted (the category -1 has the mass of the last). Proved for every order the tree may return and every choice among ties: C56_nearest_partial (K rows, fewer than K rows nearer than any of them), C56_nearest_exact (the K nearest where exactly K are within some distance), C56_locality_partial (the min(M, K) nearest), C56_self, C56_point (how rows become points), C56_succeeds (exactly which searches succeed), C56_mixture, C56_normalised, C56_samples; C56_density and C56_simulate for a component after any history of rows, on a new row. C56_draws: how every value of a sample is drawn from its locality."
  },
  {
   "property": "C57",
   "status": "partial",
   "theorems": [
    "C57_integrate",
    "C57_integrate_mean",
    "C57_resample",
    "C57_share",
    "C57_first_refuted",
    "C57_lengths_partial",
    "C57_lengths_refuted",
    "C57_inputs_refuted",
    "C57_impossible_partial",
    "C57_impossible_refuted"
   ],
   "note": "False as stated: C57_inputs_refuted (the inputs are passed where the constraints belong, so states that need inputs make the query fail), C57_lengths_refuted (with a selection of states any number of densities is accepted, by the precedence of the conditional expression in the assertion), C57_impossible_refuted (a single state of weight zero: its samples are returned), C57_first_refuted (the samples come in the order of the states, so the first is not one of a state chosen by weight). Proved without inputs, for every engine, selection and mapper: C57_integrate, C57_integrate_mean, C57_resample, C57_share (expectation over all draws), C57_lengths_partial (all states), C57_impossible_partial (two states or more)."
  },
  {
   "property": "C58",
   "status": "partial",
   "theorems": [
    "C58_log_linspace",
    "C58_valid",
    "C58_transition",
    "C58_empty",
    "C58_empty_refuted",
    "C58_column",
    "C58_kappa",
    "C58_newton",
    "C58_normal_covers",
    "C58_poisson_shapes",
    "C58_alpha",
    "C58_no_rows_refuted",
    "C58_linreg",
    "C58_linreg_refuted",
    "C58_ends"
   ],
   "note": "False as stated: C58_empty_refuted (a column without values; C58_empty: all collapsed classes raise), C58_no_rows_refuted (a partition of no rows), C58_linreg_refuted (a regression without data gets NaN). Proved for one value or more: C58_valid (every choice from the grids is accepted, all ten classes), C58_transition (the collapsed classes but the von Mises: choosing and transitioning returns after any history), C58_alpha, C58_linreg, C58_log_linspace, C58_normal_covers, C58_poisson_shapes, C58_ends (the ends and ratios of every grid). The von Mises class needs that its estimated concentration is a positive number; C58_kappa proves it for one value, equal values and values that cancel, and that the estimate is never NaN or negative. Numbers are exact; Bessel functions are arguments. C58_newton: a step of the von Mises estimate is a step of Newton's method for I1/I0 = rbar."
  },
  {
   "property": "C59",
   "status": "proved",
   "theorems": [
    "C59_kernel",
    "C59_transition",
    "C59_operation",
    "C59_init",
    "C59_history",
    "C59_cells",
    "C59_grids",
    "C59_dependent"
   ],
   "note": "C59_init (a state is built), C59_kernel, C59_transition (any schedule; with a number of passes it ends), C59_operation, C59_history (any sequence of operations, each valid where it runs). C59_cells says which values each class takes, C59_grids that the grids built from a column with an observed value are as required. The hypothesis on the column kernel is needed: C59_dependent (with a dependence constraint it always raises). Checkpoints are covered for states without constraints; with constraints the score raises, C38_checkpoint_refuted. The von Mises class is not covered: its density raises when the angles cancel exactly (C04_vonmises_refuted). Numbers are exact."
  },
  {
   "property": "C60",
   "status": "partial",
   "theorems": [
    "C60_table",
    "C60_codes",
    "C60_partitions",
    "C60_rows_partial",
    "C60_take",
    "C60_lovecat",
    "C60_roundtrip_partial",
    "C60_defaults",
    "C60_missing",
    "C60_loom_safe",
    "C60_loom",
    "C60_defaults_refuted",
    "C60_missing_refuted",
    "C60_unused_refuted",
    "C60_constraints_refuted",
    "C60_roundtrip_refuted"
   ],
   "note": "False as stated in four places: C60_roundtrip_refuted (after a row has moved, Zr().values() is not in the order of the rows, so lovecat gets a permuted partition; C60_rows_partial and C60_roundtrip_partial prove the claim while the rows are in order), C60_missing_refuted (a column of categories without an observed value, lovecat.py:140), C60_defaults_refuted (no N and no S), C60_constraints_refuted (loom ignores the independence constraints), and C60_unused_refuted (an answer with an unused partition leaves an empty view). Proved for all states and answers: C60_table, C60_codes, C60_partitions (what is handed over), C60_take, C60_lovecat (the whole run is total), C60_loom, C60_loom_safe (any classes). The samplers are arguments."
  },
  {
   "property": "C61",
   "status": "partial",
   "theorems": [
    "C61_entropy",
    "C61_entropy_range",
    "C61_order",
    "C61_relabel",
    "C61_cmidd",
    "C61_midd",
    "C61_symmetric",
    "C61_chain",
    "C61_midd_refuted",
    "C61_distance",
    "C61_kldiv",
    "C61_kldiv_affine",
    "C61_kldiv_one",
    "C61_entropy_shift",
    "C61_mi_symmetric",
    "C61_mi_shift",
    "C61_cmi_symmetric",
    "C61_entropy_value",
    "C61_mi_value",
    "C61_cmi_value",
    "C61_cmi_truncates",
    "C61_cmi_refuted",
    "C61_micd",
    "C61_micd_sparse",
    "C61_micd_long"
   ],
   "note": "False as stated in two places: C61_midd_refuted (lists of different length are accepted and give negative information) and C61_cmi_refuted (cmi does not check its third list, and answers over fewer than k points; C61_cmi_truncates: a shorter list cuts the others). Also C61_kldiv_one: with one neighbour kldiv passes its checks and always raises. Proved for all samples: C61_entropy, C61_entropy_range, C61_order, C61_relabel, C61_midd, C61_cmidd, C61_symmetric, C61_chain (samples of equal number); C61_kldiv, C61_entropy_value, C61_mi_value, C61_cmi_value, C61_micd (the formulas), C61_kldiv_affine, C61_entropy_shift, C61_mi_shift, C61_mi_symmetric, C61_cmi_symmetric. The digamma function is an argument. That the estimates converge is not stated."
  },
  {
   "property": "C62",
   "status": "partial",
   "theorems": [
    "C62_two",
    "C62_two_float",
    "C62_quadrant",
    "C62_four",
    "C62_four_refuted",
    "C62_four_partial",
    "C62_troll",
    "C62_troll_rows",
    "C62_piece_partial",
    "C62_piece_posterior",
    "C62_piece_blind_refuted",
    "C62_piece_coin_refuted",
    "C62_piece_refuses",
    "C62_piece_simulate",
    "C62_undirected",
    "C62_marginal_refuted",
    "C62_order",
    "C62_linear",
    "C62_linear_information",
    "C62_cross",
    "C62_dots",
    "C62_dots_refuted",
    "C62_dots_partial",
    "C62_undirected_simulate",
    "C62_ring",
    "C62_uniform",
    "C62_given",
    "C62_sin",
    "C62_parabola",
    "C62_diamond",
    "C62_directed",
    "C62_directed_refuted"
   ],
   "note": "False as stated in six places: C62_four_refuted (two rows of the table sum to 0.9 and 1.1; C62_four_partial for the other two), C62_piece_blind_refuted (the density of z and x given y does not look at x), C62_piece_coin_refuted (every z but 0 gets the mass of 1), C62_marginal_refuted (a marginal query of a plane always raises AttributeError), C62_dots_refuted (the conditional of the dots is the marginal of the condition; C62_dots_partial where they agree), C62_directed_refuted (a directed population drops the constraints; C62_directed). Proved for all parameters: C62_two, C62_four, C62_quadrant, C62_troll, C62_piece_partial, C62_piece_posterior, C62_piece_simulate, C62_order, C62_linear, C62_linear_information, C62_cross, C62_dots, C62_undirected_simulate, C62_ring, C62_uniform, C62_sin, C62_parabola (areas are Riemann integrals), C62_diamond. The samplers of the generator are arguments; that a normal density integrates to one is not used. C62_piece_refuses gives every refusal of PieceWise."
  },
  {
   "property": "C63",
   "status": "partial",
   "theorems": [
    "C63_init",
    "C63_incorporate",
    "C63_unincorporate",
    "C63_undo",
    "C63_simulate_partial",
    "C63_observed",
    "C63_spoiled",
    "C63_history_partial",
    "C63_metadata",
    "C63_simulate_refuted",
    "C63_half_refuted",
    "C63_leak_refuted",
    "C63_metadata_refuted",
    "C63_logpdf_refuted"
   ],
   "note": "False as stated in five places: C63_simulate_refuted (a query with constraints on a row without data leaves an entry behind: the row can then be unincorporated, and data for it are refused; C63_spoiled says so for all such queries), C63_half_refuted and C63_leak_refuted (when an observer refuses a value the observations before it stay, after incorporate as after simulate), C63_logpdf_refuted (logpdf is always 0), C63_metadata_refuted (the program is run again; a row left behind comes back as one with data). Proved for all programs whose observers accept the values: C63_init, C63_incorporate, C63_unincorporate, C63_undo, C63_simulate_partial (both cases of the state afterwards are given), C63_observed, C63_history_partial (histories that never constrain a row without data), C63_metadata. The program is external: the observer of an output is taken to record one observation under the label it is given, and what is drawn is an argument. The argument N of simulate is ignored by the code; the row None is not modelled."
  },
  {
   "property": "C64",
   "status": "partial",
   "theorems": [
    "C64_arguments",
    "C64_init",
    "C64_logpdf_partial",
    "C64_simulate_partial",
    "C64_stuck",
    "C64_history_partial",
    "C64_order",
    "C64_metadata",
    "C64_stuck_refuted",
    "C64_form_refuted"
   ],
   "note": "False as stated in two places: C64_stuck_refuted (when Venture raises in the middle of a query the label of the expression stays, and then no query is answered any more; C64_stuck says so for all later histories) and C64_form_refuted (an expression without an arrow is taken, its pieces between commas are counted). Proved: C64_arguments, C64_init, C64_order, C64_metadata, C64_logpdf_partial and C64_simulate_partial (the state after an exception of Venture is given, it is not the one before), C64_history_partial (histories in which Venture does not raise). The interpreter is external: the density and the sample of an expression applied to a text of arguments are arguments of the model, and a second live directive for one label or for the symbol expr is taken to be refused. Executing the expression in the constructor is taken to succeed."
  },
  {
   "property": "C65",
   "status": "partial",
   "theorems": [
    "C65_parse",
    "C65_each",
    "C65_refuses",
    "C65_codes",
    "C65_sorted",
    "C65_schema",
    "C65_accepts",
    "C65_k_refuted",
    "C65_name_refuted",
    "C65_empty",
    "C65_lines"
   ],
   "note": "False as stated in two places: C65_k_refuted (categorical(k=7), which the docstring permits, is not recognised: the column is not coded and has no argument) and C65_name_refuted (the name of a categorical column is parsed for arguments in the place of its class: a name with parentheses loses the number of categories or is refused); C65_empty (a schema that keeps no column raises IndexError). Proved for all else: C65_parse, C65_each, C65_refuses, C65_codes, C65_sorted, C65_schema, C65_accepts. float and sorted are arguments; Series.replace is taken to replace all values at once; the returned table is given by its columns. C65_lines: arguments do not extend over lines."
  },
  {
   "property": "C66",
   "status": "partial",
   "theorems": [
    "C66_values",
    "C66_laws",
    "C66_first",
    "C66_trunc",
    "C66_partition",
    "C66_drawn",
    "C66_categorical",
    "C66_table",
    "C66_columns",
    "C66_misfit",
    "C66_restrict",
    "C66_alphas",
    "C66_hypers",
    "C66_separation_refuted",
    "C66_labels_refuted",
    "C66_hypers_refuted"
   ],
   "note": "False as stated in three places: C66_separation_refuted (at separation 0, which is permitted, a von Mises column raises ZeroDivisionError), C66_labels_refuted (a partition of the columns with other labels than 0, 1, ... raises IndexError) and C66_hypers_refuted (ValueError is made and not raised: a column of another class is left without hyperparameters). Proved for separations above 0: C66_partition, C66_values, C66_laws, C66_trunc, C66_table, C66_first (the first cluster of a binary column, hence a column of one cluster, is zero whatever the separation), C66_hypers, C66_alphas, C66_restrict. The answers of numpy's generator are arguments, taken to lie in the support of valid requests; floats are reals. gen_dims_from_structure, column_average_ari and the fixed engines, states and views are not modelled. C66_table is for columns that are not truncated normals. C66_columns (each column of the table from its view, class, separation and draws), C66_misfit, C66_drawn and C66_categorical (which weights are drawn from)."
  },
  {
   "property": "C67",
   "status": "partial",
   "theorems": [
    "C67_law",
    "C67_request",
    "C67_simulate",
    "C67_mass",
    "C67_levels_refuted",
    "C67_infinite_refuted",
    "C67_few_refuted",
    "C67_chain",
    "C67_query",
    "C67_chain_refuted"
   ],
   "note": "False as stated in four places: C67_levels_refuted and C67_infinite_refuted (the density counts the categories that occur, the sampler those declared: the masses sum to more than one, or are infinite), C67_few_refuted (the density is refused for few rows while samples are drawn) and C67_chain_refuted (with missing cells the joint is not conditional times marginal). Proved when every category of a target occurs and rows suffice: C67_law (the density is that of the draw), C67_request and C67_simulate (the draw made), C67_query (queries of the component reduce to these on the complete rows), C67_chain (over the same rows), C67_mass (the sum of the masses in general). The kernels of statsmodels are written from its source, which is not in the repository; floats are reals; the search for bandwidths is not modelled."
  },
  {
   "property": "C68",
   "status": "partial",
   "theorems": [
    "C68_logpdf",
    "C68_gradient",
    "C68_gradients",
    "C68_conditional",
    "C68_singular",
    "C68_negative",
    "C68_indefinite",
    "C68_indefinite_refuted",
    "C68_factor"
   ],
   "note": "False as stated: C68_indefinite_refuted (a matrix that is no covariance is not refused; of minus the identity the values grow without bound; C68_indefinite is the general statement, and C68_singular and C68_negative give the infinite and NaN values of the other matrices). Proved for every positive definite covariance: C68_logpdf, C68_gradient (all of point, mean and covariance moving), C68_gradients (each entry of the three arrays, for every symmetric matrix of positive determinant), C68_conditional, C68_factor. scipy's cho_factor, lstsq and pinv are arguments, correct on positive definite and nonsingular matrices (C68_correct is a witness, by a proof that factors exist); floats are reals."
  },
  {
   "property": "C69",
   "status": "partial",
   "theorems": [
    "C69_linreg",
    "C69_prior",
    "C69_prior_refuted",
    "C69_ols",
    "C69_forest",
    "C69_spoiled",
    "C69_kde",
    "C69_knn",
    "C69_fact",
    "C69_answers"
   ],
   "note": "False as stated in two places: C69_prior_refuted (the mean and the covariance of the prior of a linear regression are not saved; C69_prior says what it is rebuilt with) and C69_spoiled (reading the metadata of least squares and of the random forest puts the regressor into them, and they can no longer be written as JSON). Proved otherwise: C69_linreg (default prior), C69_ols, C69_forest: equal when read directly, equal up to the order of the rows after JSON; C69_answers (that order does not matter to a density symmetric in the rows); C69_kde, C69_knn, C69_fact: equal either way. Premise: unpickling what was pickled gives it back."
  },
  {
   "property": "C70",
   "status": "partial",
   "theorems": [
    "C70_edges",
    "C70_refused",
    "C70_apart",
    "C70_query",
    "C70_estimators",
    "C70_block",
    "C70_block_refuted",
    "C70_asked",
    "C70_whole"
   ],
   "note": "False as stated: C70_block_refuted (the constraints without a value are drawn from their own law, not given the values of the others: (1/2) ln 2 instead of (1/3) ln 2). Proved: C70_refused, C70_edges and C70_apart (unconnected targets: exactly zero), C70_query (the split, and the mean of the answer, with the law of the constraints without a value that the code uses), C70_block (all constraints have a value or none has: the mean is as claimed), C70_estimators (mutual information and entropy, any number of samples). The queries of the state are those of a finite law; C07 and others are about how they are answered. scipy's connected_components is an argument. C70_whole: when the connected parts are independent and the constraints all have a value or none has, the mean of the answer is the mutual information (or entropy) of the whole query."
  },
  {
   "property": "C71",
   "status": "partial",
   "theorems": [
    "C71_appends",
    "C71_told",
    "C71_apart",
    "C71_drops",
    "C71_dim",
    "C71_shared",
    "C71_values",
    "C71_fill",
    "C71_dropped",
    "C71_filled",
    "C71_refused",
    "C71_shared_refuted"
   ],
   "note": "False as stated: C71_shared_refuted (incorporate_dim keeps the list it is given, so with multiprocess=0 all states hold one list; of two new rows the second is not what any view is told), C71_shared (for any number of states from two on: the list grows by one cell per state, and the second row repeats the first row's cell), C71_fill (filling a shared missing cell always fails at the second state, after the first was changed). Proved: C71_apart (no list held twice: any number of rows, each told exactly and each column extended by them), C71_dropped and C71_filled (the same for taking the last row away and for filling missing cells), C71_refused, C71_appends, C71_told and C71_drops (exactly what happens to every list, whoever holds it), C71_dim (who holds a new column), C71_values (without sharing the loops act as State.v has them on values). parallel_map is left out: it returns copies."
  },
  {
   "property": "C72",
   "status": "partial",
   "theorems": [
    "C72_saved",
    "C72_written",
    "C72_again",
    "C72_refused",
    "C72_first",
    "C72_table_all",
    "C72_table_inference",
    "C72_listed",
    "C72_unsaved_refuted"
   ],
   "note": "False as stated: C72_unsaved_refuted (incorporate_dim that raises leaves the column listed; with multiprocess=0 the engine can then no longer be written; C72_listed says in general what is left behind), C72_first (when the tables differ every state comes back with the rows of the first). Proved: C72_saved (non-empty engine whose states hold one table and are as C41_state_partial needs them, without composed components), C72_written, C72_again, C72_table_all and C72_table_inference (the same call on all states, and inference on any selection, keep one table when they succeed), C72_refused."
  },
  {
   "property": "C73",
   "status": "partial",
   "theorems": [
    "C73_rows",
    "C73_stops",
    "C73_order",
    "C73_forced_partial",
    "C73_force_stops",
    "C73_twice",
    "C73_returns",
    "C73_force_returns",
    "C73_logpdf",
    "C73_simulate",
    "C73_lengths",
    "C73_lost_refuted"
   ],
   "note": "False as stated: C73_lost_refuted (incorporate_bulk with fewer row ids than observations returns and drops the rest; the lengths are not compared). Proved: C73_rows (as many rows as the shorter of the two lists, in order, all other cells kept), C73_stops (a failure keeps the earlier rows), C73_order, C73_forced_partial (for forces that are safe in the sense of C51), C73_force_stops (a failure keeps what was forced and observed), C73_twice (no cell is forced twice), C73_returns and C73_force_returns (in the states of C59 valid arguments are all carried out), C73_logpdf and C73_simulate (exactly when they return, and what), C73_lengths. The queries are those of a state that is not a composite."
  },
  {
   "property": "C74",
   "status": "proved",
   "theorems": [
    "C74_exponential",
    "C74_normal_trunc",
    "C74_normal",
    "C74_normal_whole",
    "C74_lognormal",
    "C74_lognormal_total",
    "C74_beta"
   ],
   "note": "lgam (scipy gammaln) is an argument: the exponential class uses lgam(x+1) = ln x + lgam x; the integral of the normal and lognormal densities uses Euler's integral of (1+t^2)^-e at the exponent of the component (euler_at; met at nu = 1 in C74_normal_ex; for whole nu C74_normal_whole derives it from the recurrence and the values of lgam at 1/2 and 1). cdf of the truncated normal is an argument whose derivative is the normal density (met in C74_normal_trunc_ex). For the beta class the value of Euler's integral of the first kind at the two parameters is a premise (met at parameters 1 and 1 in C74_beta_ex), so C74_beta says that the code uses the right exponents and constant. The von Mises density is not covered."
  }
 ]
}