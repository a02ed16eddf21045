# Formal model of ThrunGroup/FastForest in Rocq (Coq 8.16.1)

## 1. Approach

`rocq/theories` holds a shallow, executable Gallina model of the Python code, function by function,
with exceptions as values (`res A := Ok a | Err e`).  Every model definition cites the file and lines it
models and says where it simplifies.  Properties are stated in terms of the modelled API and of a small
independent specification (`Spec.v`), and proved for all inputs, random outcomes and uninitialised-memory
contents.  Where the faithful model violates a property a user would rely on, the violation is proved as a
`_refuted` theorem, beside the strongest positive statement that does hold.

### Conventions of the model

* **Numbers.** Finite floats are exact rationals (`Qc`, canonical rationals of the standard library), so
  results hold up to rounding (the structural ones hold with any rounding: C149).  Special values are kept: `xn := Fin q | PInf | NInf | NaN` follows IEEE-754
  (no signed zero).  `np.sqrt` and `np.log` are arbitrary functions supplied as parameters (record `math`):
  theorems quantify over them.  C65 and C132 are about actual IEEE doubles (FloatBin.v models the binning a
  second time over Flocq's binary64), C67 is about the real logarithm (EntSpec.v).
* **Randomness.** A generator is a tape of natural numbers.  `choice`, `uniform`, `randint` decode it so that
  every tape is a legal outcome and every legal outcome is produced by some tape; a theorem over all tapes
  is a theorem over all outcomes, and in particular over every seed.  There are three tapes: the tree's (or
  forest's) `Generator`, numpy's global state, Python's global `random` state.
* **Uninitialised memory.** `np.empty` yields the contents of an arbitrary function of the cell.
* **Arrays.** 2-D estimate arrays are functions `nat -> nat -> xn` restricted to the F x B rectangle.
* **Labels** are numbers (class names included); strings, lists, NaN in the data are not modelled.
* **Loops** are structural recursions; `while` loops carry fuel, running out is a distinct error, and it is
  proved unreachable.

### Files (rocq/theories)

| file | contents |
|---|---|
| Base.v, Num.v, Rng.v | errors, lists, numbers, random tapes |
| Utils.v | model of utils/utils.py |
| Histogram.v | model of data_structures/histogram.py, utils/utils_histogram.py |
| FloatBin.v | model of get_bin and linear_bin (LINEAR) in binary64 |
| Criteria.v | model of utils/criteria.py |
| Vector.v | model of the branches of histogram.py and criteria.py that VECTORIZE = True selects |
| Solvers.v | model of utils/solvers.py |
| Tree.v | model of data_structures/node.py, tree_base.py, classifier.py, regressor.py, tree_classifier.py, tree_regressor.py |
| TreeGen.v | the fitting part of Tree.v with the split search and the arithmetic on reductions and proportions as parameters |
| Forest.v | model of data_structures/forest_base.py, forest_classifier.py, forest_regressor.py, utils/boosting.py |
| Permutation.v | model of data_structures/permutation.py |
| Compare.v | model of the loop, the scores and the verdict of experiments/budget_exps/compare_budgets.py and runtime_exps/compare_runtimes.py, without the times |
| Baseline.v | model of compare_accuracies of experiments/sklearn_exps/compare_baseline_implementations.py, scikit-learn's model being any function |
| Scaling.v | model of experiments/scaling_exps/investigate_scaling.py on given data, without the times and files |
| Stability.v | model of experiments/feature_stability/feature_importance_tests.py on given data |
| Heart.v | model of experiments/heart: preprocess_heart.py, get_subset and split_data of fit_heart.py, the verdict of compare_experiment.py |
| Tables.v | model of the figures of experiments/produce_tables.py and of R squared in scaling_exps/make_scaling_plot.py |
| Logs.v | model of load_housing of experiments/exp_utils.py and of experiments/snappy_analysis/analyze_output.py, on given data and lines |
| BiasVar.v | model of the arithmetic of experiments/bias_variance/bias_variance_analysis.py |
| Wrappers.v | model of data_structures/wrappers/*.py and of keyword binding |
| Spec.v, SolverSpec.v, TreeSpec.v, ForestSpec.v, PermSpec.v, WrapSpec.v, VarSpec.v, EntSpec.v, FloatSpec.v, TrustSpec.v, InvarSpec.v, FInvarSpec.v, TrainSpec.v, TreeGenSpec.v, CopySpec.v (with make_huge of experiments/exp_utils.py), ColSpec.v, FColSpec.v, NestSpec.v, GrowSpec.v, OrderSpec.v, EnsSpec.v, CompareSpec.v, StabSpec.v, ReportSpec.v, BudgetSpec.v, FBudgetSpec.v, BaselineSpec.v, BanditSpec.v, ScalingSpec.v, BatchSpec.v, SmallSpec.v, HeartSpec.v, TablesSpec.v, LogsSpec.v | specification vocabulary of the theorem statements, independent of the model's helpers |
| NumFacts.v, ListFacts.v | general lemmas and tactics |
| HistFacts.v, HistAdd.v, HistProps.v, HistProps2.v, CritFacts.v, ReductionFacts.v, VarFacts.v, EntFacts.v, FloatFacts.v, VectorFacts.v, VectorRed.v, VectorHist.v | proofs: histograms and impurities |
| SampleFacts.v, DrawFacts.v, MakeHist.v, ExactFacts.v, ExactProps.v, ExactTotal.v | proofs: exact solver |
| MabFacts.v, MabLoop.v, MabProps.v, MabMore.v, MabSim.v, MabThms.v, MabTrust.v, TrustWitness.v | proofs: bandit solver |
| TreeFacts.v, TreeThms.v, TreeMore.v, NestThms.v, NestTree.v, GrowFacts.v, GrowThms.v, GrowSeed.v, GrowStops.v, PileFacts.v, OrderThms.v, EnsThms.v, TwiceThms.v, BlindThms.v, CompareThms.v, CompareMore.v, StabThms.v, ReportThms.v, BudgetThms.v, FBudgetThms.v, BaselineThms.v, BanditThms.v, BanditForest.v, ScalingThms.v, BatchThms.v, BatchTree.v, SmallTree.v, SmallTrain.v, SmallForest.v, HeartThms.v, TablesThms.v, LogsThms.v, TreeTotal.v, TreeValue.v, TreeArgs.v, BestFirst.v, Columns.v, CountFacts.v, Repro.v, Terminate.v, MoveFacts.v, TreeSim.v, TrainFacts.v, TrainExact.v, TreeGenFacts.v, TreeGenThms.v, TreeGenTotal.v, GenMore.v, CopyFacts.v, CopySim.v, ColSim.v, ColThms.v | proofs: trees |
| ForestFacts.v, ForestThms.v, ForestMore.v, ForestLife.v, ForestReset.v, ForestCol.v, FColThms.v, NestForest.v, GrowForest.v, ForestOob.v, ForestMdi.v, ForestRun.v, ForestDraws.v, ForestRound.v, ForestRepro.v, ForestTotal.v, NpStill.v, ForestMove.v, BoostError.v | proofs: forests |
| UtilsFacts.v, PermFacts.v, PermLife.v, PermMore.v, WrapFacts.v, WrapBase.v, WrapLife.v, WrapTotal.v, BiasVarFacts.v | proofs: helpers, stability, wrappers, experiments |
| Samples.v, TreeWitness.v, InvarWitness.v, ForestWitness.v, FInvarWitness.v, TrainWitness.v, GenWitness.v, CopyWitness.v, ResetWitness.v, ColWitness.v, FColWitness.v, NestWitness.v, GrowWitness.v, PileWitness.v, OrderWitness.v, EnsWitness.v, TwiceWitness.v, BlindWitness.v, CompareWitness.v, StabWitness.v, ReportWitness.v, BudgetWitness.v, FBudgetWitness.v, BaselineWitness.v, BanditWitness.v, ScalingWitness.v, BatchWitness.v, SmallWitness.v, SmallForestWitness.v, HeartWitness.v, TablesWitness.v, LogsWitness.v, PermWitness.v, WrapWitness.v | concrete runs behind examples and refutations |
| Props*.v | the property theorems, one `exact` each, with examples and `Print Assumptions` |

Outside rocq/: `tools/` regenerates properties.jsonl, MANIFEST.json and ASSUMPTIONS.md; `seeded/LOG.jsonl` records
the wrong programs the theorems were tested against.

## 2. Plan per property

| id | modelled | proof |
|---|---|---|
| C01 | get_bin, linear/random/identity_bin | arithmetic of ceil and of sorted insertion |
| C02 | Histogram.add (classification) | induction over batches and samples |
| C03, C04 | Histogram.add (regression), welford | induction over the batch; refutation witness for several batches |
| C05, C06, C07, C61 | get_gini, get_mse, get_impurity_reductions | algebra over rationals, induction over class lists |
| C08-C11, C66 | solve_exactly, sample_targets, make_histograms | composition of C01-C03 with argmin lemmas |
| C12-C19 | solve_mab | loop invariants, fuel measure |
| C20-C33 | Node, TreeBase.fit, predict | invariant over the best-first loop |
| C34, C35, C37 | same | invariant plus no-exception lemma; refutation witness |
| C36 | TreeBase.fit with arguments | refutation witness; invariant that the root is evaluated once, on what the constructor stored |
| C38-C41 | ForestBase.predict, predict_batch | induction over trees / points with cache invariant |
| C42-C44 | ForestBase.fit with a heap of label arrays | induction over estimators |
| C45, C46 | get_out_of_bag, get_oob_score | list lemmas; refutation witnesses |
| C47-C49 | calculate_mdi, reset | recursion over the tree; refutation witnesses |
| C50, C51 | constructors and fit with the global random states | equality of runs; refutation witnesses |
| C52 | get_entropy | case analysis on the number of classes |
| C53-C57 | utils.py | list inductions, refutation witnesses |
| C58, C59 | permutation.py | sums over rationals; refutation witnesses |
| C60 | boosting.py | field |
| C62 | wrappers | case analysis over wrappers |
| C63, C64 | verify_reduction, filter_tied_arms | list lemmas |
| C134, C135 | vectorised Histogram.add and get_impurity_reductions | refinement against the loops; refutation witnesses |
| C136-C138 | solve_mab when its intervals contain the truth | loop invariant: the best candidate is kept or tied, estimates are centred in their intervals; refutation witness |
| C139-C141 | solve_exactly, Node, TreeBase run on two tables related by a change of units or order | simulation: each step of one run is matched by the other; refutation witnesses |
| C142-C143 | ForestBase constructed, fitted and used on two tables related by a change of units | simulation of the loop over trees, boosting updates and caches included; refutation witnesses |
| C144-C145 | TreeBase fitted and asked for its training rows | sums over rows regrouped by leaf (the leaves partition the rows); the mean minimises squared error |
| C146, C148 | TreeBase with the exhaustive search | impurity of the two sides against the whole; telescoping over nodes; equality case of the convexity bound |
| C147 | ForestBase.fit with boosting | invariant on the sum of squared residuals along the rounds; refutation witnesses |
| C149 | Node, TreeBase.fit with an arbitrary search and arithmetic (TreeGen.v) | the invariant of C20-C33 without any fact about numbers; the exact model is an instance |
| C150 | make_huge; solve_exactly, Node, TreeBase run on a table and on k copies of it | simulation as for C139, with counts, queries and budget multiplied; refutation witness |
| C151 | bias_variance_analysis | algebra over rationals; refutation witness |
| C152 | forest reset, then fit, predict, get_oob_score, calculate_mdi | the loop depends on the query count only additively; refutation witness |
| C153, C154 | adding and removing columns of the table | simulation between the two fits under a renumbering of columns; chosen columns persist along the loop; first minimum in (column, position) order; refutation witnesses |
| C155, C156 | the same for forests, with out-of-bag score and importances | simulation of the loop over trees; importances compared position by position |
| C157, C158 | raising max_leaf_nodes; training error | the loop passes through the smaller tree; order on nodes kept by every step; leafwise optimality (C144, C145) |
| C159 | raising n_estimators | prefix of a fold; one tree or stop per step |
| C160 | an exhaustive fit is the recursive tree | refinement: invariant that a node with `is_check_splittable` false failed a test for good; induction on row counts |
| C161 | stricter stopping rules prune | recursion on the two shapes; leafwise optimality |
| C162 | non-negative min_impurity_decrease | every reported reduction is negative; step-by-step equality of the loops |
| C164 | order of the columns | the recursive tree of C160 on the reordered table; first best cut of a finite list |
| C165 | averaging trees | bias/spread identity of a mean, row by row |
| C166 | fitting again | what the loop of fit finds after fit has ended; the root's labels are gone |
| C167 | no seed is read | lock-step of two runs whose random states differ |
| C168 | comparisons | the round taken apart; each model's run compared with its run alone |
| C169 | stability test | induction over the trials; mean and standard error in exact arithmetic |
| C170 | numbers of a comparison | induction over the rows and the rounds |
| C171 | leaf limit and budget prune | induction over node numbers, uniqueness of the first best cut |
| C172 | larger budget fits no worse | simulation of the two loops until one budget is used up |
| C173 | budgets that change nothing | the same simulation |
| C174 | larger budget of a forest | simulation of the two loops over the estimators, then one run is stopped |
| C175 | forest budgets that change nothing | the same simulation with the budget accounted for |
| C176 | comparison with scikit-learn | one seed taken apart, then induction on the seeds; the boosted contest by C42 |
| C177 | cost of a bandit fit | the sum over the searched nodes of the best-first run, C71 at each node, counting nodes per level, induction on the trees |
| C178 | scaling experiment | the rounds of the runtime comparison with one seed, the explicit options evaluated, C177 for the ceiling, fold over sizes |
| C179 | one batch decides | the single round of C71; the estimates after it are the exact decreases on the rows drawn; node data and labels carried back to rows of the data |
| C180 | one batch holds everything | C16 at every node (a node without thresholds has nothing to find), rows of a node never outnumber the training rows, the telescoping sum of C146 |
| C181 | bandits in a forest | invariant of the loop over trees: the arguments of each tree are well-formed and carry the forest's table, labels and sample; then C179 and C180 |
| C182-C184 | heart experiment | positions of the swapped columns; code = number of smaller values, from sortedness of unique; permutation of row and label pairs; arithmetic |
| C185-C188 | tables, scaling plot | rounding by cases on the fractional part; sums of squares as polynomials, normal equations from minimality |
| C189, C190 | housing data, log analysis | permutation of row and target pairs; invariant of the loop over the lines: finished rows, the current row padded with zeros, untouched rows |
| C163 | Gini and entropy for regression | as C09, with the impurity the code computes from a pile |
| C133 | int(N*alpha), labels.astype(int) in ForestBase.fit | floor facts, lifted through C112 and C124 |
| C65, C132 | get_bin/linear_bin on binary64 | vm_compute witnesses (refutation); monotone rounding, error bounds |
| C67 | entropy over the reals | ln concavity (standard library Reals) |

| C68-C77, C110, C118-C120 | the functions of C01-C37 | exact values, liveness and counterexamples found while proving the first list |
| C78-C90, C111, C112, C121-C125 | forests | invariants over the list of trees and the heap of label arrays; what each tree is trained on; totality |
| C91-C95, C113, C130, C131 | helpers, criteria | list inductions |
| C96-C102, C126-C128 | permutation.py | composition with the forest theorems |
| C103-C109, C129 | wrappers, forest constructors | keyword binding, case analysis over classes |
| C114-C117 | sampling variances | algebra over the rationals |

Not expressible: wall-clock speed, memory use, numba compilation, multi-process behaviour, plotting scripts and
experiments (no semantic contract), statistical guarantees about the probability that MAB misses the best arm
(would need a probability theory of the bootstrap and a proof that the heuristic confidence bounds are valid,
which they are not claimed to be).

## 3. Trusted base

* Coq's kernel (8.16.1) and its virtual machine (`vm_compute` is used for the witnesses).
* `Print Assumptions` for every theorem is recorded in ASSUMPTIONS.md.  Every theorem is closed under the global
  context, except the ones that speak about real numbers: C67_* (PropsEntropy.v) and C65_*, C132_* (PropsFloat.v).
  Those rest on the standard library's axioms `ClassicalDedekindReals.sig_not_dec`,
  `ClassicalDedekindReals.sig_forall_dec`, `FunctionalExtensionality.functional_extensionality_dep` and
  `Classical_Prop.classic`, and on nothing else.  No axiom is declared here and none comes from another library
  (Flocq is used for its definitions and lemmas, which rest on the same axioms).
* The claim that the Gallina definitions of the model files say what the Python code does.  Each carries the file
  and lines; this is a reading of the source, checked by nobody but the reader.
* The assumed behaviour of numpy and Python: `np.unique`, `argsort` (see below), `searchsorted`, `linspace`,
  `argpartition`/`argmin` (first minimum; NaN first), `bincount`, boolean masks, broadcasting, aliasing of arrays,
  slices with step, `dict` order, keyword binding, truncation of float to int32.  Each is written out as a definition
  with a comment at its use.
* That pseudo-random generators are functions of their seed (record `prng`); nothing about their distribution.

## 4. What is modelled and what is not

Modelled, for all arguments unless noted:

| source | modelled | left out |
|---|---|---|
| utils/utils.py | set_seed, count_occurrence, class_to_idx, counts_of_labels, data_to_discrete, choose_bin_type, make_histograms, choose_features, remap_discrete_features, empty_histograms, get_subset_2d | type_check (empty), printing |
| utils/utils_histogram.py | welford_variance_calc | |
| utils/criteria.py | get_gini, get_entropy, get_mse, get_impurity_fn, get_impurity_reductions, with and without VECTORIZE | |
| utils/solvers.py | verify_reduction, sample_targets, solve_exactly, solve_mab, filter_tied_arms | messages |
| utils/boosting.py | find_gradient, find_hessian, get_next_targets for both built-in losses | custom loss functions |
| data_structures/histogram.py | everything but set_bin, with and without VECTORIZE (off by default; only C134 and C135 are about it on) | |
| data_structures/node.py, tree_base.py, tree_classifier.py, tree_regressor.py, classifier.py, regressor.py | constructors, fit (BEST and DEPTH), split search with memoisation, predict, predict_batch, get_depth | printing |
| data_structures/forest_*.py | constructors, fit, predict, predict_batch, get_oob_score, calculate_mdi, reset, aliasing of caller's label arrays | |
| data_structures/permutation.py | everything | |
| data_structures/wrappers/*.py | all twenty constructors and the forests they build | positional arguments |

Simplifications:

* Finite arithmetic is exact.  Ties, thresholds and convergence tests that depend on the last bits may come out
  differently in floats.  C65/C132 quantify this for the one place where the code itself notes the problem; C149 lists
  what no rounding can change.
* Labels and class names are numbers; NaN and infinite data are not modelled.
* `fit` does not see other threads and the caller does not change arrays while it runs.
* Uses of default (unstable) `argsort` are modelled with stable order; theorems about stability metrics say so where it
  matters (ties).
* `tests/`, `experiments/` (but for make_huge, the arithmetic of bias_variance_analysis, compare_budgets/compare_runtimes without the times, compare_accuracies of sklearn_exps/compare_baseline_implementations.py, investigate_scaling without the times, the two stability tests, the data handling and verdict of experiments/heart, the figures of produce_tables.py, R squared of make_scaling_plot.py, load_housing and analyze_output.py), `utils/profile_rf.py`, `utils/data_generator.py` (plots, timing, data files) are not modelled.

## 5. Where the code departs from what one would rely on

Each is a theorem (a `_refuted` theorem, or a positive one saying what happens instead); ids in brackets.

Split search
1. MAB with GINI and LINEAR bins: the last edge is the maximum, one side is empty, its estimate is NaN and the search
   stops after one round [C71].  MSE is not affected.
2. MAB with at most five candidates: the loop never runs and the answer is read from uninitialised memory, with no query
   at all [C15].  With more than five the answer does not depend on it.
3. All features constant with LINEAR bins: MAB raises AttributeError, EXACT IndexError.  IDENTITY bins with MAB raise [C35, C73, C76].
4. Regression piles: adding a batch of zero variance is not merged correctly, so the variance of several batches is wrong
   [C04].
5. With replacement, histograms keep rows of earlier draws, and the query budget can be overshot [C14, C18].
6. LINEAR bins in doubles: a value may be counted on the wrong side of an edge, the maximum may lie right of the last
   edge even for whole numbers, and far from zero the index is off by several bins [C65].  One bin divides by zero.
7. get_entropy with variance raises ValueError for three or more classes [C52, C91]; its docstring says log base 2, the
   code uses the natural logarithm.
8. The Gini variance ignores covariances between classes for three or more classes and depends on their order [C114, C117].
9. DISCRETE features from data_to_discrete are sets, which the histogram cannot index; the parameter n is ignored (10 is
   hard-coded); a node discards the remapped discrete features; num_bins of one feature leaks into the next under the
   automatic type [C53-C55, C130].

Trees
10. max_leaf_nodes 0 raises and 1 yields a stump; a node is split only with strictly more than min_samples_split rows;
    max_depth None raises TypeError; the weight of the impurity decrease is applied twice [C24, C25, C77].
11. fit(data, labels) keeps the root's old rows; a second fit after a split raises AttributeError [C36].
12. XOR data are never split (no single split reduces impurity), so an unlimited exact tree need not reproduce consistent
    labels; with the default min_samples_split = 2 two rows with different labels stay together [C75, C148].

Forests
13. criterion and splitter are not passed on to the trees; classifier labels are truncated to int32; a classifier given no
    labels raises KeyError; the order of custom `classes` is not the order used by the trees [C38, C51, C78, C86].
14. Fitting stops at the first tree whose queries exceed the remaining budget plus BUFFER; num_queries accumulates over
    fits; reset does not restore the budget, keeps the cached importance for ever and loses the data [C44, C48, C49, C83, C84].
15. Impurity importance counts leaves that were evaluated but not split [C47, C82].
16. Boosting overwrites the caller's label array (integer arrays truncate the residuals) and the out-of-bag score of a
    boosted forest compares with the overwritten residuals [C43, C125]; predict with no trees raises UnboundLocalError.
17. The out-of-bag score of a regressor divides by the counts twice; that of a classifier compares a class index with a
    label [C46, C81].
18. Tree seeds come from numpy's global generator, so random_state alone does not fix a forest [C50, C85].

Vectorised branches (VECTORIZE in utils/constants.py, off by default)
19. The lookup table of replace_array is indexed by label value: negative classes collide with positive ones, unknown
    labels count as the first class, names that are not whole numbers fail [C134].  get_entropy reads the logarithms of
    the last edge for the variances of all edges; empty histograms give NaN where the loop raises [C135].

Importance and stability
20. Jaccard of identical rankings is (L-1)/L; Spearman and Kuncheva skip index 0; Kuncheva is negative on identical
    rankings without ties; frequency stability is NaN for one row or when nothing is selected [C58, C59, C93, C94].
21. The permutation score subtracts an out-of-bag fraction from a number of hits; for regressors all labels are compared
    with the first prediction [C102, C127].
22. get_importance_array accumulates forests when called twice [C98].

Wrappers
23. The five gradient-boosted classifiers always raise TypeError; every wrapper defaults max_depth to None, so fit raises
    TypeError unless it is given; GBExtremelyRandomRegressor's default num_bins None fails at fit; the random-patches
    wrappers store feature indices for a predict that does not exist [C37, C62, C104-C106, C109].

Split search, continued
24. The bandit loop stops when five candidates are left and returns the least sample estimate among them.  So even with
    every confidence interval right and tolerance 0 the answer can be worse than the best [C136]; C137 says by how much.

Out-of-bag scores and units
25. The out-of-bag score changes when the classes are renamed (labels are compared with positions), and when a constant is
    added to regression targets (the mean prediction is divided by the number of votes twice); boosting on an integer label
    array does not commute with scaling the targets, because residuals are truncated [C143].

Boosting
26. With bootstrap a round can increase the squared residuals at any learning rate: the tree is fitted to the sample with
    repetitions, but the residual of a row is updated once [C147]. The rate is not checked; above 2 residuals can diverge.

Experiments
27. bias_variance_analysis: noise, bias^2 and variance need not add up to the error, pointwise or on average; a cross term
    2 (mean prediction - true value)(true value - label) is missing [C151].
28. reset empties the forest but does not rewind its generator: fitting again after a reset is not the first fit again [C152].
29. LINEAR bins are placed from the left: adding the negative of a column can change the answers [C153], and removing a
    column no split uses can make fit raise IndexError, when all columns left are constant on some node's rows [C154].
30. When nodes draw the columns they look at, a copy of a column changes the draws and so the answers [C155].
31. min_impurity_decrease is compared with a negative number: the default 0.005 and the 100 of compare_budgets.py do the
    same as 0, and only negative values ever prevent a split [C162].
32. A regressor with criterion GINI is not refused: it optimises the Gini formula of (number, mean, variance), which depends
    on the zero of the targets; with ENTROPY it raises ValueError [C163].
33. A second fit never trains: it raises AttributeError (the root's labels were deleted after the split), raises
    GenericException, or returns without changing a prediction, even when it is given new data [C166].
34. compare_budgets and compare_runtimes do not compare like with like.  Classifiers: the exhaustive model takes its tree
    seeds from the global state the bandit model left, so it is not the model its random_state gives alone.  Boosting: the
    exhaustive model is fitted to the residuals of the bandit model, in the same array, and both training errors are taken
    against the final residuals; with several seeds the labels drain further.  The overlap flag is always False for one
    seed, the default.  run_theirs without predict raises UnboundLocalError [C168].
35. run_stability_stats_test limits the leaves of the exhaustive forests only, compares one side of the intervals (so it
    reports an overlap when EXACT is clearly more stable), and passes on nan [C169].  experiments/heart uses a name Forest that
    is not defined (read, not modelled).
36. Budget boundary (C173): the loop of TreeBase.fit tests the remaining budget before it looks at a leaf, also when the best split of the leaf is already known and costs nothing. A budget that equals the insertions of the unlimited fit therefore stops early (eight rows, 24 insertions: five leaves instead of eight).
37. Budgets and accuracy (C172): with one more unit of budget a classification tree can label fewer training rows correctly (nine rows, budget 11: 7 correct, budget 12: 6 correct), because the leaf looked at last is split instead of an earlier one.
38. Trees that cost nothing (C175): ForestBase.fit keeps a tree under a budget only if it made at least one insertion, and stops at the first that made none. One bootstrap sample with a single label therefore ends the fit whatever the budget, and with equal labels a forest with a budget of 10^9 has no trees at all (its regression predictions are nan), while the forest without a budget has all of them.
39. More budget, fewer trees (C174): a tree is thrown away if it overran the remaining budget by BUFFER (a million) insertions. A larger budget lets a tree start one more search, and nothing stops that search from overrunning by more than that, so the last tree of the smaller budget may have no counterpart; C174 shows that this is the only tree that can be lost. No such run is exhibited: it takes more than a million insertions.
40. Boosting against scikit-learn (C176): in the contest GBRFR of compare_baseline_implementations.py our fit overwrites the label array before scikit-learn's model is fitted to it. scikit-learn's model learns our model's errors, and its test error is taken against the real labels; in a run with six rows and a learner that fits any labels perfectly it is 24.4 against 0.04. Later seeds start from the overwritten labels. The printed training error of our model is the mean of (2 p - y)^2 over its predictions p.
41. Standard deviation or standard error (C170, C176): compare_accuracies calls two results overlapping if the means differ by less than the sum of the standard deviations over the seeds, compare_budgets and compare_runtimes divide the deviations by the root of the number of seeds. With one seed both verdicts are always negative, also for equal scores.
42. The confidence intervals of the bandit search play no part in classification (C71, C177): with linear bins a classification fit never takes a second batch at a node, so the whole tree is decided by one batch per node and its cost does not depend on the number of rows. In regression the same search does take further batches (C177_regression_refuted).
43. The scaling experiment (C178). compare_runtimes is called with its default of one seed, so every model of the experiment has random_state=0 and the five fitting seeds only change which rows are drawn; they are drawn with repetition, also for sizes below the number of rows. The recorded classification file experiments/scaling_exps/HRFC_size_to_insertions_dict levels off at 3.89 million, below the proved ceiling 5 * 1000 * 28 * 31 = 4.34 million for MNIST's 784 columns. The regression file reaches 7.817 million, above 5 * 1000 * 50 * 31 = 7.75 million: further batches are taken in regression (C177_regression_refuted), so no such ceiling holds there.
44. In classification with linear bins the bandit search is not adaptive (C179). The NaN confidence width of the last threshold (C71) makes every candidate fail the comparison after the first batch, so the answer is the best split of one batch of rows and neither the confidence level, the tolerance epsilon nor the budget can change it. With twenty rows, batches of five and a threshold that separates the two classes, the fitted tree is a single leaf when the batch holds one class only (C179_separable_refuted).
45. Small data (C180): with at most batch_size (1000 by default) training rows the bandit search reads every row of every node once per feature, so it costs exactly what the exhaustive search costs and finds splits as good. Only ties are resolved differently: the exhaustive search takes the first of the best splits, the bandit search draws one.
46. Heart data (C182): preprocess_heart means to pass over numerical columns, but its test compares a value with the type float, which is always unequal. BMI and the like are replaced by the ranks of their values among the different values of the file. Order, and therefore any tree with enough thresholds, is unaffected; equally spaced (LINEAR) thresholds are not the same.
47. Heart verdict (C184): the value returned as "the intervals overlap" is True only when the first interval lies wholly above the second by more than the sum of the half-widths, and is False for equal results.
48. Table 6 (C187): its column Test Performance is filled with the averages and spreads of the training scores.
49. Table 5 (C186): the figure after the plus-minus sign is the half-width of the confidence interval (multiplier times standard error), in a variable named std; tables 1 to 4 show the standard error without the multiplier and table 6 the standard deviation (see item 41).
50. Log analysis (C190): a size with fewer than NUM_TRIALS round counts is averaged as if the missing ones were zero; the program warns only if that happens in the last row of the table.
