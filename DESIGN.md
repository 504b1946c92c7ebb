# Design: a Rocq model of probcomp/cgpm

## 1. Method

The code is Python 2. Each modelled function is re-written as a total Gallina
function that mirrors the source branch by branch; exceptions are values
(`Err e`), mutation returns the new object (also when the call raises, so that
half-done updates are visible), dictionaries are association lists in insertion
order, loops are folds, structural recursion or carry fuel whose exhaustion is a
separate result. Every definition cites the file and lines it models.

* **Model files** contain definitions only: `Base Ext Prim PrimSim LogSpace Crp
  Validation CrpSim Network Importance Dim View Classes Partition State Query
  Compose Schedule ParallelMap Engine DummyCode Sampling Holders Linreg
  FactorAnalysis Relevance`. `Prob.v` (finite random programs) and
  `RealField.v` (the reals as a mathcomp field) are support.
* **Fact files** (`*Facts.v`, `PrimScore`, `PrimSums`, `PrimLift`, `PoissonSum`,
  `GammaWitness`, `CrpDensity`, `CrpDepDensity`, `ImportanceLaw`, `RowGibbs`,
  `ViewUndo`, `QueryNet`, `StateQuery`, `SimLaw`) hold lemmas.
* **Property files** `P01` to `P51` hold the theorems `Cnn_...` of property `Cnn`,
  the small specifications they are stated with, an `Example ..._ex` beside each
  theorem that meets its hypotheses, and `Print Assumptions`.

Three theorem shapes are used: algebraic laws for all inputs, invariants by
induction over every history of calls (accepted or refused), and agreement with
an abstract specification (a ledger of rows, a mixture density, a reachability
relation, a random program).

### Simplifications that hold everywhere

* **Numbers.** Python floats are Coq's real numbers `R` (exact arithmetic), ints
  are `Z` or `nat`. Rounding, overflow and underflow are *not* modelled. Where the
  code tests for NaN or an infinity the model has an explicit constructor for it
  (`ext := Fin | PInf | NInf | NaN`).
* **Special functions.** `gammaln`, `betaln`, Bessel functions, the normal cdf are
  arguments, with the facts used as hypotheses (`lgam (x+1) = ln x + lgam x` for
  `x > 0`, `lgam 1 = 0`). `GammaWitness.v` exhibits a function that meets them.
* **Randomness.** A generator is an argument: whatever it draws is arbitrary up to
  the contract of the call (`choice` returns an index of positive probability).
  Where a *distribution* is claimed, the generator is a finite random program
  (`Prob.v`) and the claim is about its exact law.
* **Dict order.** Python 2 dictionaries iterate in an arbitrary order. Where it is
  observable the order is an argument or the theorem is up to permutation. Sets of
  views or rows visited by kernels are visited in an arbitrary given order.
* **Names.** Variables, row ids, cluster ids are integers, as in CrossCat.
* **Pickling** of states between processes is faithful.

## 2. Properties: model and proof

| id | subject | model | proof |
|----|---------|-------|-------|
| C01-C06, C52 | the primitives: statistics, undo, exchangeability, predictive = score ratio, support, normalisation | `Prim.v` | `P01_Prim.v`; telescoping series for geometric, negative binomial series in `PoissonSum.v` |
| C55 | simulate of the primitives | `PrimSim.v` | `P25_Simulate.v` |
| C14-C16 | log space, normalisation, pflip | `LogSpace.v` | `P02_LogSpace.v` |
| C07-C09 | Chinese restaurant process | `Crp.v` | `P03_Crp.v` |
| C10-C13 | simulators of partitions, constraints, validation | `CrpSim.v`, `Validation.v` | `P04_CrpSim.v` (exact laws over `Prob.v`) |
| C17-C21 | network: topological order, ancestors, importance sampling | `Network.v`, `Importance.v` | `P05_Network.v` |
| C22, C45 | Dim | `Dim.v`, `Classes.v` | `P06_Dim.v`, refinement to a ledger of rows |
| C23, C24, C28, C42, C51 | View | `View.v` | `P07_View.v`, `P08_ViewErrors.v`, `P28_RowKernel.v` (C28) |
| C25-C27, C29, C42 | State, inference kernels, column moves | `State.v`, `Partition.v` | `P09_State.v`, `P10_Columns.v`, `P11_StateErrors.v` |
| C30, C31, C33 | queries on a view | `Query.v` | `P12_ViewQuery.v` |
| C31, C32, C34, C35 | queries on a state | `Query.v` | `P13_StateQuery.v` |
| C43, C44, C54 | composed components | `Compose.v` | `P14_Compose.v` |
| C36, C53 | pairwise summaries | `Compose.v` | `P15_Pairwise.v` |
| C38 | schedule of the kernels, what they touch, counters, recorded score | `Schedule.v` | `P16_Schedule.v`, `P18_Score.v`, `P29_Targets.v` |
| C39 | parallel_map | `ParallelMap.v`, transition system of parent, workers, pipes | `P17_Parallel.v`: invariant and decreasing measure over all interleavings |
| C40 | engine | `Engine.v`, states as references into a memory | `P19_Engine.v` |
| C47 | dummy coding, preprocessing of the regressions | `DummyCode.v` | `P20_DummyCode.v` |
| C46 | slice, Metropolis and rejection samplers | `Sampling.v` | `P21_Sampling.v` |
| C50 | rows of the regressions, forest, factor analysis, KDE, KNN | `Holders.v` | `P22_Holders.v`, `P30_Answers.v` |
| C56 | neighbourhoods and local mixture of KNN | `Knn.v` | `P32_Knn.v` |
| C57 | combining states by likelihood weight | `Ensemble.v` | `P33_Ensemble.v` |
| C58 | grids of hyperparameters | `Grids.v` | `P34_Grids.v` |
| C59 | inference and edits never fail | `State.v`, `Schedule.v`, `ProgressFacts.v`, `ProgressHistory.v`, `ProgressEdits.v` | `P35_Progress.v` |
| C60 | handing a state to lovecat and loom and taking their answer | `Backends.v`, `BackendsFacts.v`, `BackendsCodes.v`, `BackendsLoom.v` | `P36_Backends.v` |
| C61 | estimators of entropy and information | `Entropy.v`, `EntropyFacts.v`, `EntropyNear.v` | `P37_Entropy.v` |
| C62 | synthetic populations | `Synthetic.v`, `SyntheticLaw.v` | `P38_Synthetic.v` |
| C63 | Venturescript cgpm | `Venture.v`, `VentureFacts.v` | `P39_Venture.v` |
| C64 | Inline Venturescript cgpm | `VsInline.v` | `P40_Inline.v` |
| C65 | Reading schemas | `Schema.v` | `P41_Schema.v` |
| C66 | Generators of test data | `TestData.v` | `P42_TestData.v` |
| C67 | Densities and samples of the kernel density estimator | `Kde.v` | `P43_Kde.v` |
| C68 | The multivariate normal: density, gradients, conditionals | `Mvnormal.v` | `P44_Mvnormal.v` |
| C69 | saving and rebuilding single components | `Saved.v` | `P45_Saved.v` |
| C70 | mutual information of a state | `MutualInfo.v` | `P46_MutualInfo.v`, `P47_InfoWhole.v` |
| C71 | who holds the lists of cells | `SharedData.v` | `P48_SharedData.v` |
| C72 | engine written down and built again | `EngineSaved.v` | `P49_EngineSaved.v` |
| C73 | calls that do many things at once | `Bulk.v` | `P50_Bulk.v` |
| C74 | integrals of the continuous predictive densities | `Prim.v` | `P51_Density.v` (Coquelicot's integral; Euler's integral for `lgam` and the derivative of `cdf` are premises) |
| C49 | Bayesian linear regression | `Linreg.v`, real matrices | `P23_Linreg.v` |
| C48 | factor analysis | `FactorAnalysis.v`, real matrices | `P24_Factor.v` |
| C37 | relevance queries | `Relevance.v`, `RelevanceFacts.v`, `RelevanceState.v` | `P26_Relevance.v` |
| C41 | metadata round trip | `Metadata.v` | `P27_Metadata.v` (states and views), `P31_Rebuild.v` (composites, collapsed columns, where it fails); facts in `MetadataFacts.v`, `SettledFacts.v` |

No property was found inexpressible. C20, C33, C35 are statements about
distributions and are expressed over finite discrete distributions (C33 with
infinite sums for geometric and poisson columns).

### Not modelled

* floating point; speed; progress bars; plotting, `bql` glue; Venturescript itself (the
  cgpm around it is modelled, `Venture.v`);
* the external samplers behind `lovecat` and `loomcat` (what is handed to them and how
  their answer is taken is modelled, `Backends.v`), scikit-learn,
  `multivariate normal` fitting: they are arguments where a modelled function calls
  them; of statsmodels the kernels are written out (`Kde.v`), the search for bandwidths
  is not;
* uncollapsed parameter updates (`transition_params`) draw arbitrary values: the
  distribution of these moves is not modelled;
* the grids of the hyperparameters are arbitrary lists in the model of columns and
  states; `construct_hyper_grids` is modelled on its own (`Grids.v`), over exact numbers,
  with the Bessel functions as arguments.

Limits of single models are stated at the head of each model file.

## 3. Trusted base

* Coq 8.16.1 kernel (and `coqchk`).
* Axioms, all of the standard library, printed after each theorem:
  `ClassicalDedekindReals.sig_forall_dec`, `ClassicalDedekindReals.sig_not_dec`,
  `FunctionalExtensionality.functional_extensionality_dep` (real numbers);
  `Classical_Prop.classic` (Coquelicot/Reals series and some real analysis);
  `ClassicalEpsilon.constructive_indefinite_description` and
  `Classical_Prop.classic` in the matrix properties C48, C49 and C68 (decidable equality
  on `R` for mathcomp, `RealField.v`).
  Theorems without reals are closed under the global context. No axiom, parameter
  or hypothesis of our own.
* The faithfulness of the hand-written model to the source. The code is not run. For C67
  also that the kernels in `Kde.v` are those of statsmodels, which is not in the sandbox; for C68
  that scipy's `cho_factor`, `lstsq` and `pinv` are correct (premise `correct`); for C69
  that unpickling what was pickled gives it back, and that JSON keeps numbers; for C70 that
  scipy's `connected_components` labels the connected parts (premise `labels_ok`).

## 4. Wrong programs

Model definitions were edited one at a time in a copy and the development rebuilt;
`seeded/LOG.jsonl` lists each edit, the claim it breaks, the proofs that failed and
the theorems of that claim that are lost with them. Edits that survived led to new
theorems: `C31_validation`, `C31_view_validation`, `C30_cluster_target`,
`C38_logscore`, `C06_crp_seated`, `C55_observed`; `C38_logscore` showed that the
model of the score itself had been wrong.

## 5. Findings

Each is a theorem about the model, with a witness; line numbers are of `/repo/src`.

### State, views, columns

1. **Column weights in two orders** (`C29_refuted`, `C25_refuted`, `C27_refuted`;
   crosscat/state.py `_gibbs_transition_dims`). The likelihoods are listed in the
   order of the view dictionary, the CRP weights in sorted order. With views that
   are not in ascending order the wrong weights are added, an independence
   constraint can be broken and an uncollapsed column can end with the clusters of
   another view.
2. **Half-done updates** (`C42_view_refuted`, `C42_state_refuted`). A row or cell that
   one column rejects stays in the columns visited before, and in the state's table,
   and cannot be removed afterwards.
3. **force_cell and inputs** (`C51_inputs_refuted`). A column that reads the forced
   column as an input is not updated.
4. **Stale hyperparameters** (`C45_explicit_refuted`; dim.py `set_hypers`). The
   template for new clusters is not refreshed: clusters created after `set_hypers`
   use the old values.
5. **First column dropped** (`C44_refuted`; state.py `_populate_constraints`,
   `outputs[1:]`): on an observed row the cell of the first column is not used.
6. **Composed variables on observed rows** (`C54_refuted`, `C54_logpdf_raises`):
   `logpdf` always raises.
7. **Dependence of roots** (`C53_refuted`): a composed component without inputs and
   its own child get dependence 0.
8. **Samples are sorted by cluster** (`C35_refuted`): the first of N samples is
   biased to the lowest cluster.
9. **No targets** (`C34_no_targets_refuted`): `simulate` of no variables raises or
   returns no sample.
10. **Repeated columns** (`C36_duplicates_refuted`) give a wrong pairwise matrix; no
    columns give NaN (`C36_row_no_columns`).
11. **A column under a composed name** (`C43_new_column`) makes the network refused
    from then on.
12. **A view without rows** cannot be queried (`C30_no_rows`); with the cluster
    variable among the targets constraints of density zero give NaN
    (`C30_cluster_target`).
13. **Schedule** (`C38_zero_refuted`: N = 0 raises ZeroDivisionError; `C38_negative`:
    N < 0 never ends; `C38_counters_refuted`: the rows kernel of a one-row table is
    not counted; `C38_checkpoint_refuted`: with independence constraints every
    recorded score raises).

    **Relevance queries** (`C37_alone_refuted`, `C37_repeated_refuted`): when no other row
    is left, or a query row is named twice, the query raises after it took rows out of
    the view, and they stay out.  `C37_state_unknown_refuted`: an unknown target raises
    after the hypothetical rows were inserted, and they stay in.

### Primitives and partitions

14. **Von Mises** (`C04_vonmises_refuted`, `C04_vonmises_concentration_refuted`):
    data that cancel the prior make score and density raise; `set_hypers` accepts a
    negative concentration.
15. **Beta** (`C04_beta_refuted`, `C05_beta_refuted`): 0 and 1 are accepted and
    clipped by `incorporate` but have density zero in `logpdf`.
16. **Truncated normal** (`C04_normal_trunc_refuted`, `C04_normal_trunc_nan_refuted`):
    the prior scale `l + h` may be zero or negative.
17. **Geometric** rejects with TypeError instead of ValueError (note of C05).
18. **Validation of constraints** (`C13_validation_refuted`, `C12_empty_block_refuted`,
    `C11_negative_refuted`): empty blocks and negative columns are accepted and break
    later code.

### Engine, parallel map, samplers

19. **parallel_map** (`C39_no_workers_refuted`, `C39_unsendable_refuted`): deadlock with
    parallelism 0, and when a result cannot be sent for another reason than
    PicklingError.
20. **Engine** (`C40_empty_refuted`: an empty selection means all states;
    `C40_repeated_refuted`: repeated states depend on the scheduling;
    `C40_simulate_refuted`: simulate reseeds unselected states).
21. **Samplers** (`C46_mh_refuted`, `C46_slice_refuted`, `C46_jump_half_refuted`): a start
    of zero density is returned; a start outside of the domain is not refused; the
    half-line proposal leaves the domain and trips the assertion.

### Regressions, factor analysis, KDE, KNN

22. **C47_untyped_refuted**, **C47_lookup_refuted**, **C47_lookup_indices_refuted**: an
    unbound variable for other types; the table of input positions is wrong if inputs
    are not numbered from 0, and also then: every nominal input before the one looked up
    shifts it by one (`C47_lookup_partial`).
23. **C48_latent_refuted**: a singular observed block raises although the posterior
    exists.
24. **C50_ols_refuted** (N ignored on stored rows), **C50_forest_counts_refuted** (counts
    never decremented), **C50_fa_score_refuted**, **C50_kde_score_refuted** (the scores
    raise).
25. **C56_nearest_refuted**: rows as far as the K-th neighbour make the nearer ones
    candidates of a random choice too, so that a row at distance 0 can be left out for one
    at distance 1 (mvknn.py 197-202). **C56_locality_refuted**: with M > K the localities
    have K rows instead of M (line 204). **C56_support_refuted**: the category -1 has
    the mass of the last one (line 236).

### Metadata

26. **Writing a state down and building it again** loses
    * the parameters of uncollapsed columns, so that densities change
      (`C41_parameters_refuted`, a Beta column);
    * the tokens of composed components: those handed out name other components, or none
      (`C41_tokens_refuted`);
    * the knowledge that a state has conditional columns and must be queried as a network:
      the constructor leaves `_composite` False (`C41_composite_refuted`);
    * the numbers of the rows of a view from which rows were removed
      (`C41_view_rows_refuted`).
    A state with a negative column number, which `incorporate_dim` accepts, cannot be built
    again (`C41_negative_refuted`).

### Ensembles

27. **C57_inputs_refuted**: `Engine._likelihood_weighted_*` pass the inputs in the place of
    the constraints (engine.py 367, 380). **C57_lengths_refuted**: the assertion on the
    number of answers reads `(a == b) if statenos is None else len(statenos)` (364-365), so
    that with a selection of states nothing is compared. **C57_impossible_refuted**: a
    single state under which the constraints are impossible still supplies its samples,
    several such states make the query raise. **C57_first_refuted**: the samples come in
    the order of the states; the first of two, of two equal states, is one of the first
    state with probability 3/4.

### Grids

28. **C58_empty_refuted**, **C58_empty**: a column of a collapsed class all of whose values
    are missing has no grids: `construct_hyper_grids` of every such class raises, so a
    state with such a column cannot be built. **C58_no_rows_refuted**: nor can a view
    without rows. **C58_linreg_refuted**: a linear regression without data gets a grid of
    NaN for `b`, without an error.

### External samplers

29. **C60_roundtrip_refuted**: `_crosscat_X_D` hands over `Zr().values()` (lovecat.py
    102-117), the clusters in the order of the dictionary of the rows. A row that the row
    kernel moves goes to its end, so lovecat gets the clusters of permuted rows, against a
    table that is not permuted. Even a sampler that returns what it is given then changes
    the state. **C60_rows_partial**, **C60_roundtrip_partial**: as long as no row has moved,
    nothing is permuted.
30. **C60_missing_refuted**, **C60_missing**: lovecat asserts that a column of categories has
    an observed value (line 140). Removing the last row that has one is allowed, and a run
    of lovecat then fails.
31. **C60_defaults_refuted**, **C60_defaults**: a run of lovecat without `N` and `S`, the
    default, ends in `assert False` (line 363).
32. **C60_constraints_refuted**: loom is not told of the constraints between columns; a valid
    sample takes a state for which they hold to one for which they do not.
33. **C60_unused_refuted**: the check of lovecat.py:289 counts views, so an answer with a row
    partition that no column uses is taken, and leaves a view without columns.

### Estimators of information

34. **C61_midd_refuted**: `midd` and `cmidd` do not compare the lengths of their lists. The
    joint entropy is then over the shortest, and the "information" can be negative.
35. **C61_cmi_refuted**, **C61_cmi_truncates**: `cmi` checks the number of neighbours against
    its first list only. A shorter third list silently cuts the others, and with at most
    `k` points left all distances are infinite and the answer depends on nothing but the
    lengths.
36. **C61_kldiv_one**: `kldiv` with `k = 1` passes its assertions and always raises
    IndexError, as the tree returns numbers instead of lists for one neighbour.
37. **C61_micd_sparse**: `micd` reports no information at all when no label occurs more than
    `k` times. This is what its warning announces; it is zero, not a bound.
38. **C62_four_refuted**: the table of `FourWay` (`fourway.py:32-37`) has rows that sum to 0.9
    and 1.1: for two of the four quadrants it is not a distribution.
39. **C62_piece_blind_refuted**, **C62_piece_coin_refuted**: the joint density of `PieceWise`
    (`piecewise.py:99`) reads the value of `z` for both `z` and `x`, so it does not depend on
    `x`; and every `z` other than 0 is given the mass of one value (line 101).
40. **C62_marginal_refuted**: `UnDirectedXyGpm.logpdf` calls `logpdf_maringal`
    (`undirected.py:44`), so every marginal query raises `AttributeError`.
41. **C62_dots_refuted**: `Dots.logpdf_conditional(w, z)` returns the density of `z`
    (`dots.py:51-52`). The coordinates are independent, so it should be that of `w`.
42. **C62_directed**, **C62_directed_refuted**: `DirectedXyGpm` passes its arguments by position
    (`directed.py:52,57`): the inputs arrive as constraints, the number of samples as inputs,
    and the constraints are dropped.
43. **C62_diamond**, **C62_two_float**: `DiamondY` raises at `x = 0`, and `TwoWay` accepts the
    floats `0.0` and `1.0` in its assertion and then fails to index with them.

44. **C63_simulate_refuted**, **C63_spoiled**: `VsCGpm.simulate` with constraints on a row that
    has no data leaves an entry for the row in `self.obs`, a `defaultdict`, without its
    inputs (`vscgpm.py:182`). Afterwards the row can be unincorporated, and incorporating
    data that were admissible raises `KeyError` when the cgpm has inputs.
45. **C63_half_refuted**, **C63_leak_refuted**: when the observer of a later output refuses its
    value, the observations made before stay: half a row after `incorporate`, and constraints
    that condition all later answers after `simulate` (`vscgpm.py:80-83`, `100-118`).
46. **C63_logpdf_refuted**: `VsCGpm.logpdf` returns 0 for every query (`vscgpm.py:93-94`).
47. **C63_metadata_refuted**: `VsCGpm.from_metadata` passes the source of the program beside the
    saved ripl, so that the constructor runs the program a second time (`vscgpm.py:52-54`,
    `148-157`).
48. **C64_stuck_refuted**, **C64_stuck**: when Venture raises in `InlineVsCGpm.logpdf` or
    `simulate`, for instance on a value outside the support, the label of the expression is not
    forgotten and every later query raises (`vsinline.py:71-81`, `91-94`).
49. **C64_form_refuted**: the constructor of an inline cgpm takes an expression without `~>` and
    counts its pieces between commas (`vsinline.py:130-134`).
50. **C65_k_refuted**: `parse_schema` does not recognise `categorical(k=7)`, which its docstring
    permits; the column stays uncoded, without arguments, under that class (`data.py:98`).
51. **C65_name_refuted**: `parse_schema` looks for the number of categories in the name of the
    column; a name with parentheses loses the count or is refused (`data.py:106-110`).
    A schema that keeps no column raises IndexError (**C65_empty**, `data.py:114`).
52. **C66_separation_refuted**: the von Mises column of `gen_data_table` raises ZeroDivisionError
    at separation 0, which the docstring permits (`test.py:183-184`).
53. **C66_labels_refuted**: a `view_partition` whose labels are not 0, 1, ... passes the
    assertions and raises IndexError (`test.py:91-103`).
54. **C66_hypers_refuted**: `change_column_hyperparameters` makes a ValueError for a class it does
    not recognise and does not raise it; the column is left without hyperparameters
    (`test.py:403-406`).
    Rows of the first cluster of a binary column are zero whatever the separation, and so is a
    column of one cluster (**C66_first**, `test.py:248`).
55. **C67_levels_refuted**: the kernel of statsmodels spreads the bandwidth over the categories
    that occur in the data, the sampler over those declared; when one does not occur the
    densities of the categories sum to more than one (**C67_mass** gives the sum;
    `mvkde.py:134-152` and `199-208`). **C67_infinite_refuted**: with one category in the data
    the others have infinite density.
56. **C67_few_refuted**: `logpdf` without constraints is refused when there are no more complete
    rows than targets, although one observation is said to be enough and `simulate` answers
    (`mvkde.py:121-122`, `134-140`).
57. **C67_chain_refuted**: with missing cells the joint density is not the conditional times the
    marginal, as each is taken over the rows complete for its own variables (`mvkde.py:230-233`).
58. **C68_indefinite_refuted**: `mvnormal.logpdf` does not refuse a matrix that is no covariance.
    When the factorisation fails it falls back to least squares and the determinant
    (`mvnormal.py:29-44`, `66-74`): a singular matrix gives plus infinity at every point
    (**C68_singular**), a negative determinant gives NaN (**C68_negative**), and any other
    indefinite matrix gives finite values without an upper bound (**C68_indefinite**).
59. **C69_prior_refuted**: `LinearRegression.to_metadata` saves `get_hypers`, which is `a` and `b`
    only (`linreg.py:171-172`, `346`). The constructor also takes `mu` and `V`; a component made
    with others than the defaults is rebuilt with the defaults (**C69_prior**), without an error.
60. **C69_spoiled**: `from_metadata` of least squares and of the random forest assigns the
    unpickled regressor into the metadata it is given (`ols.py:239`, `forest.py:257`). After that
    the same metadata cannot be written as JSON: TypeError.
61. **C70_block_refuted**: with constraints that have a value and others that have none,
    `_compute_mutual_information` draws the latter by `self.simulate(None, m_constraints, N=T)`
    (`state.py:674`), without the values of the former. The average is over p(m) instead of
    p(m | e): (1/2) ln 2 instead of (1/3) ln 2 in the witness.
62. **C71_shared**, **C71_shared_refuted**: `State.incorporate_dim` keeps the list it is given
    (`state.py:208`), and `Engine.incorporate_dim` gives all states the same list
    (`engine.py:123-126`). With `multiprocess=0` all states then hold one list. A new row is
    appended to it once by every state, so the column is longer than the others, and the next
    new row is told to every view with the cell of the row before. With one state the caller's
    own list grows. With parallel_map the states that come back are copies.
63. **C71_fill**: with a column shared in that way, `Engine.force_cell` on a missing cell changes
    the first state and then raises a ValueError at the second, which finds the cell no longer
    missing (`state.py:312-313`).
64. **C72_unsaved_refuted**, **C72_listed**: `State.incorporate_dim` puts the column into `X` and
    `outputs` (`state.py:208-209`) before the steps that can raise, and does not take it out again.
    A state left in this way has a column without a view: `to_metadata` raises KeyError. With
    `multiprocess=0` such a call makes the engine impossible to save; with parallel_map it changes
    nothing.
65. **C72_first**: `Engine.to_metadata` writes the data of `states[0]` only (`engine.py:396`). States
    whose tables differ, as after a call that raised part of the way through `map`, are rebuilt
    with the rows of the first.
66. **C73_lost_refuted**: `State.incorporate_bulk` and `force_cell_bulk` loop over `zip` of their two
    lists (`state.py:527,532`) and, unlike `simulate_bulk` and `logpdf_bulk`, do not compare the
    lengths. Observations without a row id are dropped and nothing is said.

### Observed while modelling, not stated as theorems

* `State.incorporate_dim` accepts an array as the new column; the next `incorporate` raises
  AttributeError at `append` (state.py 277), after the columns before it have grown.
* A random forest rebuilt from metadata that did not pass through JSON shares its list of
  counts with the original (forest.py 237, 270).
* `View.logpdf` passes `inputs` in the place of `constraints` to its network (view.py
  307).
* `col_ensure` is keyed by outputs while lovecat's columns are positions (lovecat.py
  200-216).
* `state._loom_path` is set once and kept when rows are added or removed (loomcat.py
  277-278); the lengths of loom's row partitions are not compared with the number of rows.
* `VsCGpm.simulate` ignores `N` and returns one sample; for the row `None` its command
  `(atom %i)` raises TypeError after the constraints are observed (vscgpm.py 96-105).
* `loomcat.transition_engine` passes `N=None` on as `extra_passes`.
* `NormalTrunc.transition_params` adds the normaliser in the density of sigma; `params`
  with `mu = 0` are resampled silently; `Beta(params={'strength': s})` always asserts.
