{"id": "C01", "title": "Sufficient statistics always summarise exactly the rows currently held", "statement": "For every primitive distribution (bernoulli, categorical, crp, geometric, exponential, poisson, lognormal, normal, beta, normal_trunc, vonmises), after any sequence of incorporate and unincorporate calls, including calls that raise, the reported sufficient statistics equal the statistics computed from scratch from the rows that were accepted and not since removed.", "quantifier": "every primitive, every finite history of incorporate/unincorporate calls (valid or rejected), every value and row id", "why_tests_cant": "The incremental += / -= updates can drift only after particular histories (duplicate rows, rejected values, removal of the last member of a category); tests run a few fixed histories.", "anchors": ["src/primitives/*.py: incorporate, unincorporate, get_suffstats"]}
{"id": "C02", "title": "Unincorporate undoes incorporate", "statement": "Incorporating an accepted observation under a fresh row id and then unincorporating that row id leaves a primitive with the same data, sufficient statistics, predictive density and score as before.", "quantifier": "every primitive state reachable by any history, every fresh row id, every accepted value", "why_tests_cant": "Gibbs sampling performs this pair millions of times from arbitrary states; a test checks a handful of states.", "anchors": ["src/primitives/*.py: incorporate, unincorporate"]}
{"id": "C03", "title": "Exchangeability: the order of rows never matters", "statement": "Two histories that end with the same set of (row id, value) pairs give equal sufficient statistics, equal logpdf_score and equal logpdf for every target value.", "quantifier": "every pair of histories with the same final contents, every primitive, every target value", "why_tests_cant": "The number of orders is factorial in the number of rows.", "anchors": ["src/primitives/*.py: logpdf_score, logpdf"]}
{"id": "C04", "title": "Predictive density equals the ratio of marginal likelihoods", "statement": "For each collapsed primitive, logpdf of a value x for a new row equals logpdf_score after incorporating x minus logpdf_score before, for the current data and hyperparameters.", "quantifier": "every data set, all admissible hyperparameters, every value in the support, every log-gamma function satisfying the gamma recurrence", "why_tests_cant": "Tests compare the two at a few floating point inputs; the identity must hold for all hyperparameters for Gibbs sampling to target the right posterior.", "anchors": ["src/primitives/{bernoulli,categorical,geometric,exponential,poisson,normal,lognormal,vonmises,crp}.py: calc_predictive_logp, calc_logpdf_marginal"]}
{"id": "C05", "title": "Out-of-support values are rejected atomically and have zero density", "statement": "incorporate rejects exactly the values to which logpdf assigns minus infinity, and a rejected incorporate leaves the primitive unchanged.", "quantifier": "every primitive, every state, every real value", "why_tests_cant": "The boundary cases (0, 1, k-1, k, non-integers, end points) are values a random test rarely draws, and agreement is between two independently written checks.", "anchors": ["src/primitives/*.py: incorporate, logpdf"]}
{"id": "C06", "title": "Discrete predictive distributions sum to one", "statement": "For bernoulli, categorical and crp (over existing tables plus one new table), and for geometric and poisson (as an infinite series), the exponentiated logpdf over all values of the support sums to one in every reachable state.", "quantifier": "every reachable state, every number of categories, all admissible hyperparameters", "why_tests_cant": "Infinite supports and all parameter values cannot be enumerated.", "anchors": ["src/primitives/{bernoulli,categorical,crp,geometric,poisson}.py: logpdf"]}
{"id": "C07", "title": "CRP seating counts match the seating", "statement": "After any history of seating and unseating customers, the table counts are exactly the numbers of seated customers per table, no table has zero customers, and N is the number of customers.", "quantifier": "every history of incorporate/unincorporate on a crp", "why_tests_cant": "A stale zero-count table appears only after particular removals.", "anchors": ["src/primitives/crp.py: incorporate, unincorporate, counts"]}
{"id": "C08", "title": "CRP score is the product of sequential seating probabilities, in any order", "statement": "The crp logpdf_score equals the sum of the predictive log probabilities of seating the customers one after the other, for every order of seating, and equals the closed formula logp_crp.", "quantifier": "every seating, every order, every concentration alpha > 0", "why_tests_cant": "Orders are factorial; the identity mixes log-gamma with incremental counts.", "anchors": ["src/primitives/crp.py: logpdf_score, calc_predictive_logp", "src/utils/general.py: logp_crp"]}
{"id": "C09", "title": "Gibbs proposal for a customer is the exact conditional", "statement": "For a seated customer, the proposal tables and proposal weights returned by the CRP have the same length, list every other occupied table once, and their weights are proportional to the predictive probabilities with that customer unseated, the m auxiliary tables together carrying the concentration alpha.", "quantifier": "every seating, every customer (singleton or not), every number m of auxiliary tables", "why_tests_cant": "Singleton and m > 1 cases interact; a wrong weight yields a sampler that still runs and produces plausible output.", "anchors": ["src/primitives/crp.py: gibbs_tables, gibbs_logps", "src/utils/general.py: logp_crp_gibbs, logp_crp_fresh"]}
{"id": "C10", "title": "simulate_crp returns a valid partition for every random stream", "statement": "For every outcome of the random generator, simulate_crp(N, alpha) returns N table numbers that start at 0 and never skip a table (each entry is at most one more than all entries before it), so its internal assertions never fire.", "quantifier": "every N > 0, every alpha > 0, every sequence of random draws", "why_tests_cant": "Random outcomes grow like the Bell numbers.", "anchors": ["src/utils/general.py: simulate_crp"]}
{"id": "C11", "title": "Constrained CRP simulation always satisfies its constraints", "statement": "For accepted inputs, whatever the random draws, simulate_crp_constrained returns a partition in which every dependence block shares a table and no independence pair shares one, and its final validity assertion never fires.", "quantifier": "every N, every accepted set of dependence blocks, independence pairs and row constraints over non-negative column numbers, every random stream", "why_tests_cant": "Interaction between blocks and enemies depends on the random history of tables.", "anchors": ["src/utils/general.py: simulate_crp_constrained", "src/utils/validation.py"]}
{"id": "C12", "title": "Dependence-constrained CRP: draw and density agree on what is possible", "statement": "simulate_crp_constrained_dependent returns a partition of length N in which each block shares a table; the effective number of customers equals the sum of effective table counts for every assignment, and the log density is minus infinity exactly for partitions that break a block.", "quantifier": "every N, every accepted set of non-empty blocks of non-negative customers, every random stream, every partition", "why_tests_cant": "Same: depends on all block structures.", "anchors": ["src/utils/general.py: simulate_crp_constrained_dependent, logp_crp_constrained_dependent, get_crp_constrained_num_effective, get_crp_constrained_partition_counts"]}
{"id": "C13", "title": "Constraint validation accepts exactly the consistent constraints", "statement": "validate_dependency_constraints accepts a set of dependence blocks and independence pairs over N columns exactly when blocks are disjoint, contain at least two columns, all columns are in range, and no independence pair is reflexive or lies inside a block.", "quantifier": "every N, every list of blocks and pairs", "why_tests_cant": "The set of malformed inputs is infinite; tests list a few.", "anchors": ["src/utils/validation.py: validate_dependency_constraints"]}
{"id": "C14", "title": "logsumexp is the log of the sum of exponentials", "statement": "For every list of finite numbers and minus infinities, logsumexp returns log of the sum of their exponentials, minus infinity if all are minus infinity or the list is empty; plus infinities and NaNs propagate as documented.", "quantifier": "every list of extended reals", "why_tests_cant": "Infinities in arbitrary positions and arbitrary lengths.", "anchors": ["src/utils/general.py: logsumexp"]}
{"id": "C15", "title": "Log-space normalisation and averaging are exact", "statement": "log_normalize produces weights whose exponentials sum to one and preserve ratios; logmeanexp is the log of the arithmetic mean of the exponentials counting minus infinities as zeros; logmeanexp_weighted is the log of the weighted mean.", "quantifier": "every non-degenerate list of log weights", "why_tests_cant": "All lengths and all mixtures with minus infinity.", "anchors": ["src/utils/general.py: log_normalize, logmeanexp, logmeanexp_weighted"]}
{"id": "C16", "title": "A weighted coin flip never returns an impossible outcome", "statement": "log_pflip and pflip return an element of the given array at an index with positive weight, or the requested number of such elements.", "quantifier": "every weight vector with positive finite sum, every random stream, every size argument", "why_tests_cant": "Zero-weight outcomes would have to be hit by chance.", "anchors": ["src/utils/general.py: pflip, log_pflip"]}
{"id": "C17", "title": "Topological order exists iff the network is acyclic", "statement": "topological_sort terminates on every dependency graph; it returns an order containing every node exactly once with all parents before children, and raises exactly when the graph has a cycle.", "quantifier": "every finite dependency graph", "why_tests_cant": "All graphs, including self loops and disconnected parts.", "anchors": ["src/network/helpers.py: topological_sort, retrieve_adjacency_list"]}
{"id": "C18", "title": "Network queries involve exactly the ancestors they need", "statement": "Ancestor and descendant retrieval return exactly the nodes reachable against or along dependencies, for every acyclic network, and the required-input computation of a query returns only variables that some active node needs and that are not already given.", "quantifier": "every acyclic network of cgpms, every query", "why_tests_cant": "Reachability over arbitrary graphs.", "anchors": ["src/network/helpers.py: retrieve_ancestors, retrieve_descendents, retrieve_required_inputs", "src/network/importance.py: retrieve_required_inputs"]}
{"id": "C19", "title": "A weighted network sample covers the query and keeps the evidence", "statement": "For every acyclic network and admissible query, a weighted sample assigns every constrained variable its given value, assigns every target, never lacks an input that an invoked component declares, and its weight is the sum over components of the log density of that component's constrained outputs given its inputs in the sample.", "quantifier": "every acyclic network, every admissible targets/constraints/inputs, every component behaviour and random stream", "why_tests_cant": "Network shapes, query shapes and component behaviours are unbounded.", "anchors": ["src/network/importance.py: weighted_sample, invoke_cgpm, retrieve_required_inputs"]}
{"id": "C20", "title": "Importance weights are unbiased for the evidence", "statement": "For networks of discrete components, the expected exponentiated weight of a weighted sample equals the joint probability of the constraints (and of targets moved into the constraints) under the product of the components.", "quantifier": "every acyclic network of finite discrete components, every evidence assignment", "why_tests_cant": "An expectation over all samples cannot be established by sampling.", "anchors": ["src/network/importance.py: weighted_sample, logpdf"]}
{"id": "C21", "title": "Network logpdf and simulate report what the sampler computed", "statement": "simulate returns exactly the requested targets with one sample per request and raises exactly when every particle has zero weight; logpdf returns the log average joint weight minus the log average evidence weight.", "quantifier": "every network, every accuracy setting, every random stream", "why_tests_cant": "Depends on all weight patterns including zero weights.", "anchors": ["src/network/importance.py: simulate, logpdf"]}
{"id": "C22", "title": "A mixture column keeps every row in exactly one cluster with the right data", "statement": "After any history of row insertions and removals on a mixture column, every inserted row is recorded in exactly one cluster, observed values are in the sufficient statistics of exactly that cluster and missing values in none.", "quantifier": "every history of incorporate/unincorporate calls on a column with any cluster assignments, including missing values", "why_tests_cant": "Histories are unbounded.", "anchors": ["src/mixtures/dim.py: incorporate, unincorporate"]}
{"id": "C23", "title": "A view's columns and its row partition never disagree", "statement": "After any history of row insertion, removal, row reassignment by inference, cell forcing, and column insertion or removal, every column of the view assigns each row to the same cluster as the view's row partition, and the clusters of each column contain exactly the data of the rows assigned to them.", "quantifier": "every history of view operations, every random stream of the samplers", "why_tests_cant": "The view maintains the partition redundantly in each column; the copies may diverge only after long histories.", "anchors": ["src/mixtures/view.py: incorporate, unincorporate, incorporate_dim, unincorporate_dim, force_cell, transition_rows, _migrate_row, _check_partitions"]}
{"id": "C24", "title": "Removing a just-inserted row restores the view", "statement": "Inserting a new row in a view with an explicit cluster and removing it again leaves the same partition, cluster contents and score.", "quantifier": "every reachable view, every new row and cluster, existing or new", "why_tests_cant": "All states.", "anchors": ["src/mixtures/view.py: incorporate, unincorporate"]}
{"id": "C25", "title": "The table of data, the column partition and the row partitions stay consistent in a crosscat state", "statement": "After any history of the public mutating operations of a crosscat state (row and column insertion and removal, cell forcing, column type change, and every inference kernel with any random outcome), each column belongs to exactly one view, no view is empty, every view holds exactly the columns assigned to it, every view partitions exactly the rows of the table, and each cluster summarises exactly the cells of the table assigned to it.", "quantifier": "every history of successful operations, every random stream", "why_tests_cant": "Unbounded histories; the code's own partition check runs only in debug mode.", "anchors": ["src/crosscat/state.py: incorporate, unincorporate, incorporate_dim, unincorporate_dim, force_cell, update_cctype, transition*, _gibbs_transition_dim, _migrate_dim, _check_partitions"]}
{"id": "C26", "title": "Inference never changes the data", "statement": "No inference kernel, however often and in whatever order it runs and whatever it draws, changes the stored table, its row ids or its columns.", "quantifier": "every state, every sequence of kernels, every random stream", "why_tests_cant": "All random outcomes.", "anchors": ["src/crosscat/state.py: transition, transition_dims, transition_view_rows, transition_dim_hypers, transition_view_alphas, transition_crp_alpha"]}
{"id": "C27", "title": "Inference respects dependence and independence constraints on columns", "statement": "If the column partition satisfies the user's dependence blocks and independence pairs, it still does after any number of column transitions.", "quantifier": "every state built through the public API with constraints, every sequence of column transitions, every random stream", "why_tests_cant": "A violation needs a particular order of view identifiers and a particular draw.", "anchors": ["src/crosscat/state.py: _gibbs_transition_dim, transition_dims"]}
{"id": "C28", "title": "Row reassignment samples from the exact conditional posterior", "statement": "The weights with which a row's new cluster is drawn are, up to a common factor, the exponentiated total score of the view with the row placed in that cluster, so the kernel satisfies detailed balance with respect to the posterior.", "quantifier": "every reachable view, every row, every assignment of collapsed primitives to columns", "why_tests_cant": "Proportionality is an equation between real functions of the whole data set.", "anchors": ["src/mixtures/view.py: _gibbs_transition_row, _logpdf_row_gibbs, _logpdf_cell_gibbs, logpdf_score"]}
{"id": "C29", "title": "Column reassignment uses each view's own probability", "statement": "The weight used for moving a column into an existing view is that view's prior weight times the likelihood of the column under that same view's row partition.", "quantifier": "every state reachable through the public API, every column", "why_tests_cant": "A mismatch depends on the internal ordering of view identifiers.", "anchors": ["src/crosscat/state.py: _gibbs_transition_dim"]}
{"id": "C30", "title": "The density of a hypothetical row is the mixture over clusters", "statement": "For a new row, the exponentiated log density of the targets given the constraints in one view equals the sum over existing clusters and one new cluster of prior weight times cluster density of targets and constraints, divided by the same sum for the constraints alone; the network-based path and the specialised path agree.", "quantifier": "every view, every targets and constraints in the view", "why_tests_cant": "An equation over all data and queries between two independent implementations.", "anchors": ["src/mixtures/view.py: logpdf", "src/crosscat/sampling.py: view_logpdf, _logpdf_row"]}
{"id": "C31", "title": "Chain rule of conditional queries", "statement": "For a new row, logpdf(A and B) equals logpdf(B) plus logpdf(A given B) for disjoint sets of variables whenever B has positive density, and adding no constraints changes nothing.", "quantifier": "every crosscat state, every disjoint targets and constraints", "why_tests_cant": "An identity over all states and queries.", "anchors": ["src/crosscat/sampling.py: state_logpdf, view_logpdf", "src/crosscat/state.py: logpdf"]}
{"id": "C32", "title": "Columns in different views are independent; query splitting is lossless", "statement": "The joint log density of targets spanning several views is the sum over views of the view's own joint density, and splitting targets and constraints by view neither loses, duplicates nor changes any entry.", "quantifier": "every column partition, every targets (list or dictionary) and constraints", "why_tests_cant": "All partitions and queries.", "anchors": ["src/utils/validation.py: partition_query_evidence, partition_list, partition_dict", "src/crosscat/sampling.py: state_logpdf"]}
{"id": "C33", "title": "Joint predictive probabilities of discrete columns sum to one", "statement": "For a view all of whose queried columns are discrete, the exponentiated logpdf of a new row's targets, given any constraints of positive density, sums to one over all joint values of the targets.", "quantifier": "every view, every finite set of discrete target columns, all constraints", "why_tests_cant": "All states and evidence.", "anchors": ["src/crosscat/sampling.py: view_logpdf"]}
{"id": "C34", "title": "simulate returns the requested number of complete samples", "statement": "simulate of a state or view with N samples returns exactly N dictionaries with exactly the target keys, and without N returns one.", "quantifier": "every query including zero targets, every N, every random stream", "why_tests_cant": "Edge cases of N and targets; depends on random cluster counts.", "anchors": ["src/crosscat/sampling.py: state_simulate, view_simulate, _simulate_row"]}
{"id": "C35", "title": "Repeated samples are unordered draws", "statement": "In a simulate call with several samples, the sample at each position is distributed as a single sample is: the cluster serving it is not determined by its position.", "quantifier": "every view, every query of a new row, every N > 1", "why_tests_cant": "It is a property of the joint distribution of all N outputs, not of any one output.", "anchors": ["src/crosscat/sampling.py: view_simulate, state_simulate"]}
{"id": "C36", "title": "Pairwise summaries are symmetric and bounded", "statement": "dependence_probability and row_similarity are symmetric, equal to one on the diagonal, and lie between zero and one; pairwise matrices report for each pair the value of the single query.", "quantifier": "every state, every pair of rows or columns", "why_tests_cant": "All states and pairs.", "anchors": ["src/crosscat/state.py: dependence_probability, dependence_probability_pairwise, row_similarity, row_similarity_pairwise"]}
{"id": "C37", "title": "Relevance queries are read-only", "statement": "A relevance probability query leaves the view with the same rows, clusters, cluster contents and score as before, for every target row and query rows, and returns a probability.", "quantifier": "every reachable view, every target row, every non-empty list of query rows", "why_tests_cant": "The query temporarily removes and re-inserts rows; restoration has to work for every sharing pattern of clusters, and also when no row is left over.", "anchors": ["src/mixtures/relevance.py: relevance_probability", "src/crosscat/state.py: relevance_probability"]}
{"id": "C38", "title": "Transition schedules run every kernel the requested number of times", "statement": "A transition by iterations runs each requested kernel exactly N times in the requested order; checkpointed diagnostics are recorded exactly at the multiples of the checkpoint interval; iteration counters add up.", "quantifier": "every N, every kernel list, every checkpoint interval", "why_tests_cant": "All N and kernel subsets; counters are cumulative over a history.", "anchors": ["src/crosscat/state.py: _transition_generic, _increment_iterations, _increment_diagnostics"]}
{"id": "C39", "title": "parallel_map computes map under every schedule", "statement": "For every interleaving of worker processes, parallel_map returns the results in input order, each item is processed exactly once, and the call never deadlocks; if any worker raises, the call raises.", "quantifier": "every function, every list, every number of workers, every interleaving", "why_tests_cant": "Schedules are exponential in number and not controllable from a test.", "anchors": ["src/utils/parallel_map.py: parallel_map"]}
{"id": "C40", "title": "Engine operations act on exactly the selected states, in order", "statement": "Applying an operation to selected states of an engine changes exactly those states as if applied individually, keeps the order and number of states, and returns results in the order of the selection.", "quantifier": "every engine, every selection (including empty and duplicated selections), every operation", "why_tests_cant": "All selections and interleavings.", "anchors": ["src/crosscat/engine.py: transition, incorporate, logpdf, simulate, _evaluate_*"]}
{"id": "C41", "title": "Serialisation round trip", "statement": "Rebuilding a state or view from its metadata gives the same data, column partition, row partitions, cluster contents, hyperparameters and constraints, hence the same answers to all queries.", "quantifier": "every reachable state", "why_tests_cant": "All reachable states, including identifiers with gaps.", "anchors": ["src/crosscat/state.py: to_metadata, from_metadata", "src/mixtures/view.py: to_metadata, from_metadata", "src/crosscat/engine.py"]}
{"id": "C42", "title": "Failed updates leave the model unchanged", "statement": "If a row or cell insertion into a view or state raises, the observable state (data, partitions, cluster contents, number of rows) is what it was before the call.", "quantifier": "every reachable state, every rejected observation", "why_tests_cant": "A rejection may come from any of the columns after others have been updated.", "anchors": ["src/crosscat/state.py: incorporate, force_cell", "src/mixtures/view.py: incorporate", "src/mixtures/dim.py: incorporate"]}
{"id": "C43", "title": "Composition is atomic and reversible", "statement": "compose_cgpm either registers the component and leaves a well-formed network, or raises and leaves the state unchanged; decompose removes exactly that component.", "quantifier": "every state, every component and set of already composed components", "why_tests_cant": "All network shapes.", "anchors": ["src/crosscat/state.py: compose_cgpm, decompose_cgpm, build_network"]}
{"id": "C44", "title": "Queries on an observed row of a composite use all its observed cells", "statement": "When components are composed onto a state, a query on an observed row conditions on every observed cell of that row that is neither target nor constraint.", "quantifier": "every composite state, every observed row, every query", "why_tests_cant": "Depends on the column position of the missing cell.", "anchors": ["src/crosscat/state.py: _populate_constraints"]}
{"id": "C45", "title": "Hyperparameter transitions keep all clusters of a column in agreement", "statement": "After a hyperparameter transition or an explicit setting of hyperparameters, every cluster of the column, including clusters created later, uses the column's hyperparameters, and each drawn value is from its grid.", "quantifier": "every column, every history, every random stream", "why_tests_cant": "Clusters created after the change are observed only in later operations.", "anchors": ["src/mixtures/dim.py: transition_hypers, set_hypers, create_aux_model, incorporate"]}
{"id": "C46", "title": "Approximate samplers stay in the support and return the requested number of samples", "statement": "mh_sample, slice_sample and rejection_sample return only points in the declared domain with positive density, num_samples of them, for every target and random stream on which they return.", "quantifier": "every target density, every domain, every random stream, every num_samples/burn/lag", "why_tests_cant": "All random streams.", "anchors": ["src/utils/sampling.py: mh_sample, slice_sample, rejection_sample"]}
{"id": "C47", "title": "Dummy coding is faithful", "statement": "dummy_code rejects exactly the rows with a non-integer or out-of-range discrete entry, produces vectors of one fixed length, and maps different rows to different codes.", "quantifier": "every schema, every row", "why_tests_cant": "All rows and schemas.", "anchors": ["src/utils/data.py: dummy_code", "src/regressions/linreg.py: preprocess"]}
{"id": "C48", "title": "Factor analysis conditioning agrees with the latent posterior formula", "statement": "Conditioning the joint Gaussian of latents and observables by the Schur complement gives, for the latents given all observables, exactly the textbook posterior mean and covariance, for every loading matrix and positive noise.", "quantifier": "every dimension, every loading matrix, every invertible noise covariance", "why_tests_cant": "Matrix identity over all dimensions.", "anchors": ["src/factor/factor.py: mvn_condition, joint_parameters", "src/utils/mvnormal.py: conditional"]}
{"id": "C49", "title": "Linear regression is exchangeable and coherent", "statement": "The linear regression score does not depend on the order of rows, and its predictive density is the ratio of scores after and before incorporating the row.", "quantifier": "every data set, every hyperparameters", "why_tests_cant": "Orders are factorial.", "anchors": ["src/regressions/linreg.py: posterior_hypers, calc_predictive_logp, calc_logpdf_marginal"]}
{"id": "C50", "title": "Row-holding components report the rows they hold", "statement": "For linear regression, ordinary least squares, random forest, factor analysis, KDE and KNN, after any history of incorporate and unincorporate calls the stored rows, the row count and all derived counts agree, and queries on a stored row use exactly its observed values that are neither target nor constraint.", "quantifier": "every history, every rejected call", "why_tests_cant": "Histories.", "anchors": ["src/regressions/{linreg,ols,forest}.py", "src/factor/factor.py", "src/kde/mvkde.py", "src/knn/mvknn.py"]}
{"id": "C51", "title": "Forcing a cell changes that cell only", "statement": "force_cell on a missing cell stores the value and incorporates it in the row's current cluster; no other cell, partition or cluster changes, and forcing an already observed cell is rejected.", "quantifier": "every reachable state, every cell", "why_tests_cant": "All states.", "anchors": ["src/crosscat/state.py: force_cell", "src/mixtures/view.py: force_cell"]}
{"id": "C52", "title": "The normal model's posterior scale is always positive", "statement": "For every data set and admissible hyperparameters, the posterior scale computed by the normal and lognormal primitives from running sums is positive, so scores and predictive densities are always defined.", "quantifier": "every data set, all admissible hyperparameters", "why_tests_cant": "Needs an inequality over all data sets.", "anchors": ["src/primitives/normal.py: posterior_hypers, calc_log_Z"]}
{"id": "C53", "title": "Dependence follows the network", "statement": "For two variables of a composite, dependence_probability is one exactly when they have a common ancestor in the network, each counted as an ancestor of itself and outputs of one component counted as one, and zero otherwise.", "quantifier": "every composite state, every pair of its variables", "why_tests_cant": "All network shapes; the answer is wrong only for components without inputs.", "anchors": ["src/crosscat/state.py: dependence_probability, _dependence_probability_composite", "src/network/helpers.py: retrieve_ancestors"]}
{"id": "C54", "title": "Composed variables can be queried on observed rows", "statement": "logpdf of a variable of a composed component is answered on an observed row under the conditions under which it is answered on a new row.", "quantifier": "every composite state, every observed row", "why_tests_cant": "Needs composites with foreign components; the failing look-up is in a validation shared by all queries.", "anchors": ["src/crosscat/state.py: logpdf, _validate_cgpm_query"]}
{"id": "C55", "title": "Simulation draws from the reported distribution", "statement": "simulate of a component on an observed row returns the observed value; on any other row it draws from the distribution whose log density logpdf reports: directly for the bernoulli, categorical, crp, poisson, beta and truncated normal components, and for the exponential, geometric, normal, lognormal and vonmises components by drawing parameters from their posterior and then a value given them, which integrates to the reported density.", "quantifier": "every component class, valid hyperparameters, history of incorporates and unincorporates, row, value", "why_tests_cant": "The two are written separately with different parametrisations of the numpy generators (scale against rate, size against probability); a swapped or inverted parameter only shows in the law of many samples.", "anchors": ["src/primitives/*.py: simulate", "src/primitives/normal.py: sample_parameters, simulate", "src/primitives/vonmises.py: simulate", "src/primitives/crp.py: simulate"]}
{"id": "C56", "title": "The nearest neighbour model is the mixture it describes", "statement": "A query with constraints takes the K complete rows nearest to the constraints (no row left out is nearer than one taken), and for each the M rows nearest to it in targets and constraints; the density is the mixture with equal weights of the products of the local models, a normal with the mean and standard deviation (at least 0.01) of the locality for numbers and the shares in the locality for categories; the masses of nominal targets sum to one, other values have none, and every sample has values its locality makes possible.", "quantifier": "every data set, K, M, targets, constraints, answer of the tree and draw of the generator", "why_tests_cant": "Depends on ties between distances, on the generator, and on all data sets and query shapes.", "anchors": ["src/knn/mvknn.py: logpdf, simulate, _find_neighborhoods, _create_local_model_joint, _create_local_model_numerical, _create_local_model_categorical"]}
{"id": "C57", "title": "An ensemble is combined by likelihood weight", "statement": "The density of an engine is the average of the densities of its states weighted by the likelihood each gives the constraints (equally without constraints), and of N samples it returns each state supplies in expectation the share its weight is of all, no sample twice, none of a state of weight zero; answers whose number is not that of the states, and constraints impossible under all of them, are refused; inputs are passed on to the states as inputs.", "quantifier": "every engine, selection of states, densities, samples, weights and draw of the generator", "why_tests_cant": "Needs the law of the resampling over all draws, and selections and inputs the tests do not use.", "anchors": ["src/crosscat/engine.py: _likelihood_weighted_integrate, _likelihood_weighted_resample"]}
{"id": "C58", "title": "Grids of hyperparameters are valid for the data", "statement": "From any values a class of columns takes, construct_hyper_grids returns for each hyperparameter a non-empty grid of at most n_grid numbers such that every choice from the grids is accepted as hyperparameters; a column of any history can draw its hyperparameters from them and transition over them without an error and ends with valid hyperparameters; likewise the concentration of a partition, which stays between 1/rows and rows, and the grids of a linear regression; log_linspace is a geometric progression between its ends; the means offered to a normal column cover its values, the shapes offered to a poisson column are the distinct ascending integers.", "quantifier": "all classes, all lists of values, grid sizes, histories of the column, orders and draws of the generator", "why_tests_cant": "Needs all data sets, among them those with one value, equal values, no values, which tests do not use, and all choices from grids of 30^4 points.", "anchors": ["src/primitives/*.py: construct_hyper_grids", "src/regressions/linreg.py: construct_hyper_grids", "src/mixtures/dim.py: transition_hyper_grids, transition_hypers", "src/utils/general.py: log_linspace", "src/primitives/vonmises.py: estimate_kappa"]}
{"id": "C59", "title": "Inference and edits on collapsed columns never fail", "statement": "A state of columns of the collapsed classes (the von Mises class excepted) is built without an error from any table with values of those classes, any partition of its columns and any row partitions, given or drawn. Every kernel on it returns, transition with any non-empty list of kernels returns whatever the generator draws, and incorporating a row, removing the last one, filling a missing cell, adding and removing a column and changing the class of one return when their arguments are valid. In the state that results all of this holds again.", "quantifier": "all tables, partitions, hyperparameter grids, draws of the generator, lists of kernels, and sequences of operations with valid arguments, of any length", "why_tests_cant": "A failure needs a particular table, a particular sequence of moves and a particular draw, such as an emptied view or a candidate of weight zero; tests run a few seeds on a few tables.", "anchors": ["src/crosscat/state.py: __init__, incorporate, unincorporate, force_cell, incorporate_dim, unincorporate_dim, update_cctype, transition, transition_crp_alpha, transition_view_alphas, transition_dim_hypers, transition_dim_grids, transition_view_rows, transition_dims", "src/mixtures/view.py: incorporate, unincorporate, force_cell, transition_rows", "src/mixtures/dim.py: incorporate, transition_hypers, transition_hyper_grids, bulk_incorporate"]}
{"id": "C60", "title": "A state survives the external samplers", "statement": "What a state hands to lovecat describes it: the table has the numbers, the missing values and the codes of the categories (equal codes just for equal categories, with a dictionary to read them back), the column partition and the row partitions have the same blocks as those of the state, and counts, concentrations and columns of the views are those of the state. Taking a valid answer of lovecat or a valid sample of loom never fails on a state of collapsed columns; two columns are then in the same view just when the answer puts them together, every row is in the cluster the answer gives it, the concentrations are those of the answer (lovecat), the data, classes and hyperparameters are unchanged and all invariants hold. A sampler that returns what it is given changes nothing. Constraints and missing values are respected.", "quantifier": "all states, tables, partitions, valid answers of the samplers, orders of features and rows", "why_tests_cant": "The samplers are external packages, and the tests run them only on a few tables from fresh states; numbering of views, features and rows differs between the two sides.", "anchors": ["src/crosscat/lovecat.py: _crosscat_M_c, _crosscat_T, _crosscat_X_D, _crosscat_X_L, _update_state, transition", "src/crosscat/loomcat.py: _retrieve_column_partition, _retrieve_featureid_to_cgpm, _retrieve_row_partitions, _update_state", "src/crosscat/state.py: transition_lovecat, _migrate_dim, _append_view"]}
{"id": "C61", "title": "The information estimators estimate information", "statement": "entropyd is the entropy of the relative frequencies, between zero (just for one value) and the logarithm of the number of samples, whatever the order or the names of the values; midd and cmidd are not negative, zero just when the values are independent (given the third), symmetric, and obey the chain rule. The nearest neighbour estimators kldiv, entropy, mi and cmi are the formulas of their authors over the distances of the k-th neighbours in the maximum norm, the same when data are shifted (entropy grows by the logarithm of a scale), and mi and cmi are symmetric; micd is the overall entropy less the mean entropy of the points with the same label.", "quantifier": "all lists of samples, of any values and dimension, number of neighbours and base, whatever the jitter", "why_tests_cant": "Tests compare a few samples with the analytic value to a loose tolerance; a wrong neighbour, count or term is hidden by it, and inequalities and symmetries hold for all samples only.", "anchors": ["src/utils/entropy_estimators.py: entropy, mi, cmi, kldiv, entropyd, midd, cmidd, hist, entropyfromprobs, elog, micd, avgdigamma, zip2"]}
{"id": "C62", "title": "The synthetic populations have the densities they sample from", "statement": "For the populations made for tests and examples, logpdf is the logarithm of the density of what simulate draws. The masses of the two tables sum to one; the normal with inputs for mean and scale, the piecewise mixture of two normals and its posterior, the joint, marginal and conditional densities of the linear, crossed and dotted planes agree with one law each and do not depend on the order of the variables; the mutual information reported is the mean of the log ratio; the uniform variable and the sine and parabola given their parent integrate to one and give every interval the probability of the sampler; ring and diamond samples lie where they should. A directed population answers as its network does.", "quantifier": "all parameters, values, names of variables, queries and draws of the generator", "why_tests_cant": "Tests sample a few points at one noise level and compare pictures or a loose statistic; the densities are mostly not tested at all.", "anchors": ["src/dummy/fourway.py: FourWay", "src/dummy/twoway.py: TwoWay", "src/dummy/trollnormal.py: TrollNormal", "src/dummy/piecewise.py: PieceWise", "src/uncorrelated/undirected.py: UnDirectedXyGpm", "src/uncorrelated/directed.py: DirectedXyGpm", "src/uncorrelated/linear.py", "src/uncorrelated/xcross.py", "src/uncorrelated/dots.py", "src/uncorrelated/ring.py", "src/uncorrelated/uniformx.py", "src/uncorrelated/parabola.py", "src/uncorrelated/sin.py", "src/uncorrelated/diamond.py"]}
{"id": "C63", "title": "A Venturescript cgpm conditions its program on its data, no more and no less", "statement": "The observations in force in the program are those of the incorporated rows: incorporate adds one observation for each value given, of the row, the number of the output, the inputs in the order of the cgpm and the value, when all are numbers, the outputs are new to the row and the inputs agree with it, and otherwise raises and changes nothing; unincorporate takes out the observations of the row and undoes its incorporation. A query draws each target once from the program conditioned on the data and the constraints, after inference on the row when there are constraints, and leaves the data as they were; a target that is observed is returned as it is. All this after any history. The metadata give the cgpm back.", "quantifier": "all programs (counts of simulators, inputs and observers; whatever they draw), outputs, inputs, rows, values, labels, queries, and histories of operations", "why_tests_cant": "Tests run a few programs on a few rows; that no label is lost or left over after any interleaving of queries with data, and every refused combination of arguments, cannot be enumerated.", "anchors": ["src/venturescript/vscgpm.py: __init__, incorporate, unincorporate, logpdf, simulate, transition, to_metadata, from_metadata, _predict_cell, _observe_cell, _forget_cell, _validate_incorporate, _validate_simulate, _check_matched_inputs, _obs_to_json, _obs_from_json"]}
{"id": "C64", "title": "An inline Venturescript cgpm is its expression applied to its inputs", "statement": "The arguments of an expression (a,b,c) ~> body are its names, however it is spaced, and the cgpm is made just when there is one output, the inputs are distinct from it and each other and as many as the arguments. A density or a sample is that of the expression applied to the texts of the inputs in the order of the cgpm, whatever the order of the dictionary; N samples are N successive draws. Queries of another form are refused. No query leaves anything behind, so after any history every query of the right form is answered. The metadata give the cgpm back.", "quantifier": "all expressions, names and spacings, outputs, inputs, values, densities and samples of the interpreter, queries and histories of queries", "why_tests_cant": "Tests use a few expressions with one or two arguments and never a query on which the interpreter raises; directives left over show only in a later query.", "anchors": ["src/venturescript/vsinline.py: __init__, logpdf, simulate, incorporate, unincorporate, transition, _retrieve_args, _validate_expression_concrete, to_metadata, from_metadata", "src/utils/general.py: simulate_many"]}
{"id": "C65", "title": "A schema is read as it is written", "statement": "parse_distargs reads each class written as name or name(key=number,...) back as the name and the dictionary of its numbers, each by itself, and refuses a piece that is not key=number. parse_schema gives for each column that is not ignored, in order, its name, index, class and data: missing values stay missing, values of a numeric column stay, and values of a binary or categorical column become codes by a numbering from 0 of the values that occur (in their order when they are sorted), kept in valmap; a binary column has two values and a categorical one the number of its values, or the number given in the schema, as argument. It fails only for a column that is not in the table or a binary one without two values.", "quantifier": "all lists of classes, keys, numbers, schemas, tables, values, and orders in which values are sorted", "why_tests_cant": "Tests parse a few fixed lists and no schema at all; a code that is missing, doubled or out of range shows only for particular tables.", "anchors": ["src/utils/config.py: parse_distargs", "src/utils/data.py: parse_schema, build_valmap"]}
{"id": "C66", "title": "The generators of test data make what they are asked for", "statement": "gen_partition gives a partition of N rows with exactly the clusters of its weights, each with a row, and refuses weights that are zero or do not sum to one and more clusters than rows. For each class a column has one value of the class for each row; rows of one cluster are drawn from one law, and the laws of the clusters are spread in proportion to the separation: at equal steps of the mean, in equal steps about a half, around the circle, or at the centres of equal bins of an interval, for values between 0 and 1 of the separation. A truncated normal column takes for each row the first of 101 draws within its ends and fails just when there is none. gen_data_table puts these together for any partition of the columns. The helpers that change the hyperparameters set those of every column, and raise for a class that is not recognised.", "quantifier": "all partitions, weights, numbers of rows and columns, classes, separations and answers of the generator", "why_tests_cant": "The generators are what the tests test with: a value outside its class or an empty cluster shows only as a rare failure of another test.", "anchors": ["src/utils/test.py: gen_data_table, gen_partition, _gen_beta_data, _gen_normal_data, _gen_normal_trunc_data, _gen_vonmises_data, _gen_poisson_data, _gen_exponential_data, _gen_geometric_data, _gen_lognormal_data, _gen_bernoulli_data, _gen_categorical_data, change_column_hyperparameters, change_concentration_hyperparameters, restrict_evidence_to_query"]}
{"id": "C67", "title": "The kernel density estimator samples from the density it reports", "statement": "The density of a query, given constraints or not, is that of the draw made by simulate: a row that has all the cells asked for, chosen with weights that are the products of its kernels at the constraints, and then each target by its kernel about the cell of the row (a normal with the bandwidth as scale, or the category itself with probability one less the bandwidth and each other one with an equal share of it). N samples are N such draws. The joint density is the conditional times the marginal. Densities of the categories of an output sum to one.", "quantifier": "all outputs, kinds, numbers of categories, bandwidths, rows, missing cells, targets, constraints and draws of the generator", "why_tests_cant": "Tests compare histograms of samples with the density to a loose tolerance on one data set in which every category occurs and every density is defined.", "anchors": ["src/kde/mvkde.py: logpdf, simulate, _simulate_member, _simulate_gaussian_kernel, _simulate_aitchison_aitken_kernel, _dataset, _bw, _stattypes"]}
{"id": "C68", "title": "The log density of the multivariate normal, its gradients and its conditionals agree", "statement": "mvnormal.logpdf gives the logarithm of the density of the normal with the given mean and covariance, or raises. Each entry of the three arrays of dlogpdf is the derivative of that logarithm along the given direction of the point, of the mean or of the covariance, and the three together give its derivative when all of them move. conditional gives the mean and covariance of the first block given the second: the density of the whole is the density of the second block times that of the first with these parameters, and the covariance is again positive definite. The density that FactorAnalysis reports is this one.", "quantifier": "all dimensions, points, means, matrices, directions and differentiable curves of them, and all behaviours of the factorisation that are correct on positive definite matrices", "why_tests_cant": "mvnormal.py is only used as the reference in the tests of factor analysis; dlogpdf and conditional are never called by a test, and numeric tests of gradients compare finite differences at a few points and never use a matrix that is no covariance.", "anchors": ["src/utils/mvnormal.py: _covariance_factor, Covariance_Cholesky, Covariance_Loser, logpdf, dlogpdf, conditional", "src/factor/factor.py: logpdf"]}
{"id": "C69", "title": "A component rebuilt from its saved metadata is the component that was saved", "statement": "For LinearRegression, OrdinaryLeastSquares, RandomForest, MultivariateKde, MultivariateKnn and FactorAnalysis, from_metadata applied to the result of to_metadata gives a component with the same outputs, inputs, statistical types, hyperparameters, parameters and rows, both directly and after the metadata have been written as JSON and read again, where keys become strings and dictionaries lose their order. Reading the metadata leaves them unchanged.", "quantifier": "all components made by the constructors, all histories of incorporate and unincorporate, all later hyperparameters and parameters, and all orders in which dictionaries are walked", "why_tests_cant": "The tests of to_metadata and from_metadata build one component each with default hyperparameters, do not compare the priors, and never use the metadata twice.", "anchors": ["src/regressions/linreg.py: to_metadata, from_metadata, get_hypers", "src/regressions/ols.py: to_metadata, from_metadata", "src/regressions/forest.py: to_metadata, from_metadata", "src/kde/mvkde.py: to_metadata, from_metadata", "src/knn/mvknn.py: to_metadata, from_metadata", "src/factor/factor.py: to_metadata, from_metadata"]}
{"id": "C70", "title": "The mutual information of a state is what it says", "statement": "mutual_information refuses targets that are also constrained, and targets that overlap without being the same, with a ValueError, and unknown variables with a KeyError. Variables in parts of the network that are not connected have mutual information exactly zero. Otherwise the query is split by the connected parts, each part keeping its targets and its constraints, and the answer has as its mean the sum over the parts of the mutual information of the targets (their entropy, when both targets are the same) given the constraints that have a value, averaged over the law that the constraints without a value have given those with one; for any number of samples. When the parts are independent this is the mutual information of the whole query.", "quantifier": "all networks of components, targets, constraints, numbers of samples, orders of the parts and finite laws of the variables whose queries the state answers", "why_tests_cant": "Tests compare one estimate with a known value to a loose tolerance, for one constraint at a time; constraints with and without a value together are never used, where the wrong law shows only as another number.", "anchors": ["src/crosscat/state.py: mutual_information, _compute_mutual_information, _compute_mi, _compute_entropy, _partition_mutual_information_query, logpdf_bulk", "src/network/helpers.py: retrieve_adjacency_matrix, retrieve_weakly_connected_components"]}
{"id": "C71", "title": "The data of a state are its own", "statement": "When a row is added to the states of an engine, each state tells its views exactly the cells that were observed, and each of its columns grows by exactly that one cell, whatever the other states and columns do; likewise when the last row is taken away or a missing cell is filled. In particular this holds after a column has been given to the engine.", "quantifier": "all numbers of states and columns, tables, lists given as new columns, sequences of new rows, and all ways in which states and columns may hold the same list in memory", "why_tests_cant": "Tests add columns to engines through parallel_map, whose states are copies, or pass slices of arrays; none adds a column and then rows with multiprocess=0 and looks at the second row.", "anchors": ["src/crosscat/state.py: incorporate_dim, incorporate, unincorporate, force_cell", "src/crosscat/engine.py: incorporate_dim, incorporate, unincorporate, force_cell"]}
{"id": "C72", "title": "An engine is built again as it was written", "statement": "An engine with at least one state can be written as metadata at any time, and the engine built from these metadata, with map or parallel_map and whatever the seeds, has the same states in the same order, with the same contents and the same answers to every query; reading the same metadata twice gives the same. The data are written once, those of the first state, because all states hold the same table after every history of calls.", "quantifier": "all engines, lists of states, histories of calls on all states and of inference on selected ones, mappers and seeds", "why_tests_cant": "Tests save an engine right after it was made or after inference; none saves one after a call that raised, and one round trip does not show that the states share one table after every history.", "anchors": ["src/crosscat/engine.py: to_metadata, from_metadata", "src/crosscat/state.py: incorporate_dim, data_array, to_metadata, from_metadata"]}
{"id": "C73", "title": "A bulk call does what its calls do one by one", "statement": "incorporate_bulk and force_cell_bulk of a state treat the i-th row id together with the i-th observation, in order. If they return, every observation is a row of the table, the row ids were the next ones in order, and every forced value is in its cell, which was missing before; all other cells are as they were. If they fail, the pairs before the failing one have been carried out and stay, and no later one is looked at. simulate_bulk and logpdf_bulk return the answers of the single queries in order, take absent constraints and inputs as empty and absent numbers of samples as one, and raise AssertionError when the lists are not of the same length.", "quantifier": "all states that histories of safe operations lead to, all lists of row ids, observations, queries, targets, constraints, inputs and numbers, and all draws of the generator", "why_tests_cant": "Tests give lists of equal length whose calls all succeed; what remains after a failure, and what happens to an observation without a row id, is never looked at.", "anchors": ["src/crosscat/state.py: simulate_bulk, logpdf_bulk, incorporate_bulk, force_cell_bulk, incorporate, force_cell, logpdf, simulate", "src/crosscat/engine.py: incorporate_bulk, force_cell_bulk, logpdf_bulk, simulate_bulk"]}
{"id": "C74", "title": "Continuous predictive densities integrate to one", "statement": "After any history of calls, the exponential of logpdf of an unobserved row is a probability density for the exponential, normal, lognormal, truncated normal and beta classes. Exponential: with A the shape hyperparameter plus the number of values held and B the rate plus their sum, the interval from 0 to t has probability 1 - (B/(B+t))^A, which tends to one; negative values have density zero. Truncated normal: an interval inside the bounds has the normal probability of the interval divided by that of the bounds, the bounds together have probability one and values outside density zero. Normal: the density is symmetric around the posterior mean and falls on both sides of it, and integrates to one. Lognormal: an interval has the probability that a normal component that holds the logarithms gives to the logarithms of its ends, values that are not positive have density zero, and the whole integrates to one. Beta: the density integrates to one over the open unit interval and is zero outside it.", "quantifier": "all hyperparameters and parameters the constructors accept, all histories of incorporate, unincorporate and hyperparameter changes, and all intervals", "why_tests_cant": "Tests integrate numerically at a few hyperparameters and a few data sets, to a tolerance; a wrong constant that depends on the number of values held can stay below it.", "anchors": ["src/primitives/exponential.py: logpdf, calc_predictive_logp, calc_log_Z", "src/primitives/normal.py: logpdf, calc_predictive_logp, posterior_hypers, calc_log_Z", "src/primitives/lognormal.py: logpdf", "src/primitives/normal_trunc.py: logpdf, calc_predictive_logp, calc_log_normalizer", "src/primitives/beta.py: logpdf, calc_predictive_logp"]}
