import json
P=[]
def p(title,statement,quant,why,anchors):
    P.append(dict(id="C%02d"%(len(P)+1),title=title,statement=statement,quantifier=quant,why_tests_cant=why,anchors=anchors))
S="utils/solvers.py";C="utils/criteria.py";U="utils/utils.py";H="data_structures/histogram.py";N="data_structures/node.py";T="data_structures/tree_base.py";F="data_structures/forest_base.py";PM="data_structures/permutation.py";B="utils/boosting.py"
p("Binning agrees with the split comparison","For LINEAR, RANDOM and IDENTITY binning, a feature value is counted on the left of bin edge b exactly when value <= that edge, i.e. exactly when Node.split and predict would send it left.","every feature value, every minimum/maximum, every number of bins >= 2, every edge","The agreement is between two different computations (ceil of a quotient versus a comparison); tests only sample values and miss the boundary ones.",[H+":get_bin",H+":linear_bin",N+":split"])
p("Classification histogram is a faithful counter over any history of batches","After any sequence of add() calls, left[b][k] (right[b][k]) is the number of inserted samples of class k whose value is <= (>) edge b; nothing is lost or double counted.","every sequence of batches, every batch content, every edge and class","Unbounded histories of inserts.",[H+":add"])
p("Regression histogram of one batch is exact","After a single add() into an empty regression histogram, each side of each edge and the whole carry the exact (count, mean, population variance) of the samples inserted on that side.","every batch, every edge","Quantifies over all real-valued batches.",[H+":add",H+":update_bins"])
p("Regression histogram over several batches","After several add() calls, counts and means are those of all samples inserted so far, and so is the variance.","every sequence of batches","Depends on arbitrary histories; the shortcut for zero variance only shows on special histories.",[H+":update_bins","utils/utils_histogram.py:welford_variance_calc"])
p("Gini impurity range","The Gini impurity of any non-empty count vector over K classes lies between 0 and 1-1/K, and is 0 exactly when one class holds all the samples.","every count vector, every K","All count vectors.",[C+":get_gini"])
p("Splitting never increases Gini impurity","For any split of any node the weighted child Gini impurity is at most the parent's, and strictly smaller exactly when the two children have different class distributions.","every pair of class count vectors","Inequality over all inputs.",[C+":get_impurity_reductions"])
p("Splitting never increases variance","For any split of any regression node the reported reduction over the full data is minus (nL*nR/n^2)*(meanL-meanR)^2, hence never positive, and zero exactly when the two means coincide.","every pair of non-empty target lists","Identity over all inputs.",[C+":get_mse",C+":get_impurity_reductions"])
p("EXACT reports the true impurity change","When the EXACT solver returns a split, the reported reduction equals weighted child impurity minus parent impurity recomputed from scratch from the node's rows and labels at (feature, value).","every dataset, every configuration accepted by the exact solver","Relates an incremental histogram pipeline to a from-scratch definition on every dataset.",[S+":solve_exactly"])
p("EXACT is optimal over its candidate edges","No candidate (feature, bin edge) has a strictly lower true impurity change than the one EXACT returns; EXACT returns no split only when no candidate lowers impurity.","every dataset, every candidate edge","Optimality against every alternative.",[S+":solve_exactly"])
p("EXACT query accounting","The number of queries EXACT reports is the number of rows times the number of features having at least one candidate edge.","every dataset","Counting claim over all shapes.",[S+":solve_exactly",S+":sample_targets"])
p("EXACT does not depend on row order","Permuting the rows (with their labels) leaves EXACT's returned feature, value, reduction and queries unchanged.","every dataset, every permutation, LINEAR and IDENTITY bins","All permutations.",[S+":solve_exactly"])
p("A split returned by any solver is usable","Whatever the random draws, a split returned by MAB or EXACT names an existing feature column, a value that is one of that feature's bin edges, and a strictly negative reduction.","every dataset, every random outcome, every uninitialised memory content","Quantifies over random draws and memory contents.",[S+":solve_mab",S+":solve_exactly"])
p("MAB without replacement never costs more than EXACT","Sampling without replacement terminates, inserts each row at most once into each feature's histogram, and so reports at most rows*features queries.","every dataset, batch size >= 1, every sequence of random draws","Termination and a bound over every random run.",[S+":solve_mab",S+":sample_targets"])
p("MAB with replacement terminates with bounded cost","Sampling with replacement terminates for every batch size >= 1 and its reported queries are bounded by a function of rows, features, bins only.","every dataset, batch size, random draws","Termination over every random run.",[S+":solve_mab"])
p("MAB does not read uninitialised memory","The split returned does not depend on the prior contents of the freshly allocated estimate arrays.","every dataset, every content of uninitialised memory","Memory contents are not under a test's control.",[S+":solve_mab"])
p("MAB with a full batch equals EXACT","When one batch covers all rows, MAB without replacement finds a split with the same (optimal) reduction as EXACT, and reports the same number of queries.","every dataset with more than five candidate edges, every draw","All datasets and draws.",[S+":solve_mab",S+":solve_exactly"])
p("MAB keeps sampling while confidence intervals overlap","MAB stops only when at most five candidate arms remain, the budget or the data is exhausted, or no arm can reduce impurity.","every dataset and draw","Concerns all runs.",[S+":solve_mab",C+":get_gini"])
p("MAB respects the query budget","MAB stops sampling as soon as its queries reach the budget; it overshoots by less than one round (features*batch).","every dataset, budget, draws","All budgets and runs.",[S+":solve_mab"])
p("Arm estimates are attached to the right arms","Each estimate computed by sampling is stored for the (feature, edge) arm it was computed for, whatever subset of arms is still alive.","every candidate set produced by the solvers","All subsets of arms.",[S+":sample_targets"])
p("Leaves partition the training rows","After fit, the index lists held by the tree's leaves together are exactly (as a multiset) the indices the tree was built on, and no leaf is empty.","every dataset, configuration and random outcome for which fit returns","All fits.",[T+":fit",N+":split"])
p("Training rows are routed to their own leaf","After fit, predict() on a training row walks to the very leaf that holds this row, under feature subsampling too.","every dataset, configuration and random outcome for which fit returns","All fits and rows.",[T+":predict",N+":split"])
p("Every point reaches exactly one leaf","After fit, predict() on any point with enough features walks down to a current leaf and never loops or raises 'Tree is malformed'.","every fitted tree, every datapoint","All trees and points.",[T+":predict"])
p("Depth limit","No node of a fitted tree is deeper than max_depth, and get_depth() is the depth of the deepest leaf.","every fit","All fits.",[T+":check_splittable_constraints",T+":get_depth"])
p("Leaf limit","A fitted tree has at most max_leaf_nodes leaves when that is >= 1, and fit never raises the 'too many leaves' exception then.","every fit","All fits.",[T+":fit"])
p("Only eligible nodes are split","Every internal node had more than min_samples_split rows, at least two distinct labels, depth below max_depth and a strictly negative reduction below min_impurity_decrease; its split feature was among the features the tree may use.","every fit","All fits.",[T+":fit",T+":check_splittable"])
p("Split counter and tree shape","After fit every internal node has two children, and the number of leaves is the number of splits plus one.","every fit","All fits.",[T+":fit"])
p("Node proportion","Each node's proportion is its number of rows over the tree's number of rows.","every fit","Product of ratios along arbitrary paths.",[N+":create_child_node"])
p("Tree classification output","predict() returns the class frequencies of the training rows in the leaf: each in [0,1], summing to 1, and a class of maximal frequency.","every fitted classification tree, every point","All trees and points.",[T+":predict"])
p("Tree regression output","predict() returns the mean of the leaf's training targets, hence between the smallest and largest training target.","every fitted regression tree, every point","All trees and points.",[T+":predict"])
p("Prediction has no memory","The answer of predict() does not depend on which points were predicted before (caching is transparent).","every sequence of earlier predict calls","All histories.",[T+":predict"])
p("Tree query accounting","After fit num_queries equals the sum of the queries of all nodes ever evaluated, each counted once, and with a budget num_queries + remaining_budget is the initial budget.","every fit","All fits.",[T+":fit"])
p("Tree budget","A node is evaluated only while the remaining budget is positive, so queries exceed the budget by less than the cost of one evaluation; with budget <= 0 the tree stays a single leaf.","every fit and budget","All fits.",[T+":fit"])
p("Tree fitting terminates","fit() stops after at most (rows - 1) splits for every data and random outcome.","every dataset and random outcome","Termination.",[T+":fit"])
p("Exact identity-binned trees never raise","With the EXACT solver and IDENTITY bins (the RandomForest wrappers), fit on a well-formed dataset with a numeric max_depth returns without raising.","every well-formed dataset and random outcome","Absence of exceptions on all inputs.",[T+":fit",S+":solve_exactly"])
p("Fitting does not raise on valid data (LINEAR bins)","fit() with LINEAR bins succeeds on every finite numeric dataset.","every dataset","Absence of exceptions on all inputs.",[S+":solve_exactly",S+":solve_mab",H+":__init__"])
p("fit(data, labels) trains the tree on the data passed","tree.fit(data, labels) fits the tree to those arguments.","every constructor/fit argument pair","Histories of calls.",[T+":fit"])
p("Default depth of the wrappers is usable","A wrapper built without max_depth can be fitted on a dataset with two classes.","every dataset","All inputs.",[T+":check_splittable_constraints","data_structures/wrappers"])
p("Forest probabilities","A classification forest's predicted probabilities are the mean of its trees' probabilities: each in [0,1], summing to 1, and the returned label has maximal mean probability.","every non-empty fitted forest, every point","All forests and points.",[F+":predict"])
p("Forest regression output","A non-boosted regression forest's prediction is the mean of its trees' predictions, hence between the smallest and largest training target.","every fitted non-empty forest, every point","All forests and points.",[F+":predict"])
p("Order of trees is irrelevant","Permuting the trees of a non-boosted forest does not change any prediction.","every forest, every permutation","All permutations.",[F+":predict"])
p("Batch prediction is pointwise","predict_batch on any data is the list of the single predictions, in order, even though predictions share caches.","every list of points","All lists and cache histories.",["data_structures/classifier.py:predict_batch","data_structures/regressor.py:predict_batch"])
p("Boosting residual identity","In a boosted forest without row subsampling and with float targets, after fit target residual + forest prediction = original target on every training row.","every number of trees, learning rate and dataset","Induction over trees.",[F+":fit",F+":predict",B+":get_next_targets"])
p("fit leaves the caller's labels unchanged","fitting does not modify the label array passed by the caller.","every fit","Aliasing over all configurations.",[F+":fit"])
p("Forest budget","With a budget the forest's reported queries plus remaining budget equal the initial budget, the internal 'went over budget' assertion never fails, queries stay below budget + BUFFER, at most n_estimators trees are kept, and every kept tree made at least one query.","every fit and budget","All runs.",[F+":fit"])
p("Out-of-bag indices","The out-of-bag list of a tree is exactly the increasing list of rows not drawn in its bootstrap sample.","every bootstrap sample and data size","All samples.",[F+":get_out_of_bag"])
p("Out-of-bag score","get_oob_score is the accuracy (classification) or mean squared error (regression) of the out-of-bag predictions.","every fitted forest","All forests.",[F+":get_oob_score"])
p("Impurity importance","calculate_mdi attributes to each feature the sum of the weighted reductions of the splits actually made on it; no entry is positive.","every fitted forest","All forests.",[F+":calculate_mdi",F+":recursive_mdi_helper"])
p("Importance follows the current model","calculate_mdi after a re-fit describes the newly fitted trees.","every history of fit/calculate_mdi/reset calls","Histories.",[F+":calculate_mdi",F+":reset"])
p("reset restores the budget","After reset(budget=b) the next fit has budget b and starts from zero trees and zero queries.","every history","Histories.",[F+":reset"])
p("Reproducibility","A forest constructed with a given random_state and fitted gives the same trees whatever happened before its construction; nothing that happens between construction and fit matters either.","every history of other library calls","Histories of calls sharing global random state.",[F+":__init__",F+":fit",U+":set_seed"])
p("The criterion option is honoured","The criterion passed to a forest is the criterion its trees use.","every criterion and forest","Configuration plumbing over all values.",[F+":fit"])
p("Entropy criterion works for any number of classes","Scoring a split with the ENTROPY criterion and variance returns a value for any number of classes.","every number of classes, every histogram","All class counts.",[C+":get_entropy"])
p("Discrete feature detection","data_to_discrete(data, n) lists exactly the features with at most n distinct values, with their values.","every dataset, every n","All inputs.",[U+":data_to_discrete"])
p("Discrete binning usable with detected features","A histogram of type DISCRETE can be built from the values detected by data_to_discrete.","every dataset with a discrete feature","All inputs.",[H+":discrete_bin",U+":data_to_discrete"])
p("Discrete values follow feature subsampling","A node that sampled features f_0.. uses for its i-th column the discrete values of feature f_i.","every subsample","All subsamples.",[N+":__init__",U+":remap_discrete_features"])
p("Feature subsampling","choose_features returns distinct features of the pool: ceil(sqrt F), k, or ceil(r*F) of them, or the whole pool.","every pool, option and random draw","All draws.",[U+":choose_features"])
p("Label counting","counts_of_labels gives for each class the number of occurrences; the counts add up to the number of labels; a label outside the class dict raises.","every label list and class dict","All inputs.",[U+":counts_of_labels",U+":class_to_idx"])
p("Stability score by frequency","get_stability_freq is at most 1, and equals 1 when all forests select the same features.","every importance matrix, every k","All matrices.",[PM+":get_stability_freq"])
p("Pairwise stability","get_pairwise_stability is symmetric in its arguments and gives 1 on identical rankings.","every pair of rankings","All rankings.",[PM+":get_pairwise_stability"])
p("Boosting targets for classification","get_next_targets for classification is (p^2+s)/(p+s): it does not depend on the targets.","every target and prediction other than -s, where numpy divides by zero","All reals.",[B+":get_next_targets"])
p("Exact sampling collapses the confidence interval","When every row has been inserted without replacement the variance reported for a Gini or MSE arm with both sides large enough is 0.","every histogram","All count vectors.",[C+":get_gini",C+":get_mse"])
p("Wrapper settings","Each documented wrapper can be constructed and forces its documented fixed settings whatever the caller passes.","every wrapper, all caller arguments","All arguments.",["data_structures/wrappers"])
p("verify_reduction","verify_reduction accepts exactly the splits that leave both sides non-empty.","every dataset, feature and value","All inputs.",[S+":verify_reduction"])
p("filter_tied_arms","filter_tied_arms returns exactly the candidates that are not tied, each once, in row-major order.","every candidate and tie list with bins < B","All inputs.",[S+":filter_tied_arms"])
p("LINEAR binning under floating point","The agreement of C01 holds for IEEE double arithmetic.","every double value, minimum, maximum, number of bins","Rounding boundary cases.",[H+":get_bin",H+":linear_bin"])
p("Affine invariance of EXACT with LINEAR bins","Rescaling and shifting a feature by x -> a*x+c (a>0) rescales EXACT's split value accordingly and changes nothing else.","every dataset, every a>0 and c","All transformations.",[S+":solve_exactly"])
p("Entropy impurity range","The entropy of any non-empty count vector over K classes lies between 0 and ln K and splitting never increases it.","every count vector","Real analysis over all inputs.",[C+":get_entropy"])
p("Candidate edges","LINEAR edges are evenly spaced from the minimum to the maximum (both included); IDENTITY edges are exactly the distinct values of the column in increasing order; RANDOM edges are the requested number of increasing values in [minimum, maximum).","every column, minimum, maximum, number of bins, random draws","All columns and draws.",[H+":linear_bin",H+":identity_bin",H+":random_bin"])
p("EXACT answers whenever it can","On well-formed input EXACT returns (split or no split) exactly when at least one feature has a candidate threshold; it raises otherwise.","every well-formed dataset, LINEAR and IDENTITY bins","Totality over all inputs.",[S+":solve_exactly"])
p("EXACT is deterministic","EXACT's answer depends neither on the random state nor on the contents of uninitialised arrays.","every random state and memory content, LINEAR and IDENTITY bins","Memory contents are not under a test's control.",[S+":solve_exactly"])
p("MAB with Gini and LINEAR bins draws exactly one batch","With the Gini criterion, LINEAR bins, at least two classes and more than five candidate edges, MAB stops after its first batch: it reports exactly min(batch, rows) queries per non-constant feature, however the confidence intervals look.","every dataset, batch size, draws, with or without replacement","All datasets and draws; a surprising stopping rule caused by NaN.",[S+":solve_mab",C+":get_gini"])
p("MAB reports the impurity change of a sample","With more than five candidate edges, the reduction MAB reports for classification is the true impurity change of the returned split over a non-empty sample of the rows (without repetition when sampling without replacement).","every dataset, batch size, draws","All draws and all states of the loop.",[S+":solve_mab",S+":sample_targets"])
p("MAB answers","With more than five candidate edges MAB always returns a split or 'no split'; it raises nothing.","every well-formed dataset, batch size >= 1, draws, memory contents","Totality over all inputs and draws.",[S+":solve_mab"])
p("Splits of EXACT trees are optimal","In a tree fitted with the EXACT solver every split has the smallest impurity change among all thresholds of all features considered at that node, and the recorded reduction is that change times the node's share of the rows.","every well-formed dataset and configuration, every random outcome","Optimality at every node of every tree.",[N+":calculate_best_split",S+":solve_exactly",T+":fit"])
p("EXACT trees stop only when nothing is left","When a tree fitted with the EXACT solver without budget stops below its leaf limit, no leaf that may still be split (size, labels, depth) has a threshold that improves impurity by the required amount.","every well-formed dataset and configuration","A statement about all thresholds of all leaves.",[T+":fit",N+":calculate_best_split"])
p("Bandit classification trees fit","With the MAB solver fit() of a classification tree returns without raising whenever each splittable node proposes at least six thresholds.","every well-formed dataset, random outcome and memory content","All draws.",[T+":fit",S+":solve_mab"])
p("max_depth=None cannot be fitted","fit() of a tree whose max_depth is None raises TypeError on every well-formed dataset unless the leaf limit is 1.","every well-formed dataset","All datasets.",[T+":__init__","data_structures/wrappers"])
p("Label of a forest that derives its classes","A classification forest constructed from labels only (no classes argument) predicts a label whose class has maximal mean probability, and its classes are exactly the distinct labels.","every label array, every fitted forest and point","All forests and points.",[F+":predict","data_structures/forest_classifier.py:__init__"])
p("Forest predictions answer and do not interfere","predict answers on every point with enough columns, and the answer is the same whatever predict, predict_batch, get_oob_score or calculate_mdi calls came before.","every fitted forest, every history of such calls, every point","Histories are unbounded.",[F+":predict",N+":predict"])
p("Fitting a forest succeeds","fit of a forest returns without raising on every well-formed dataset and configuration with at least two (EXACT) or six (MAB) thresholds at every splittable node.","every dataset, configuration, random outcome, memory content","All data, draws and memory contents.",[F+":fit"])
p("Value of the out-of-bag score","get_oob_score is the mean, over rows left out of at least one bootstrap sample, of [label == index of the most likely class] for classification, and of (label - mean prediction / number of votes)^2 for regression.","every fitted forest, data argument and label array","All forests.",[F+":get_oob_score"])
p("Value of the impurity importance","If calculate_mdi was never called before the last fit, it returns one entry per column: the sum over all trees of the weighted reductions of the nodes whose best split was evaluated on that column.","every fitted forest, every history of calls since","All trees and histories.",[F+":calculate_mdi",F+":recursive_mdi_helper"])
p("Importance is frozen at the first call","After calculate_mdi has returned an array, it returns the same array for ever: after any fit, predict, reset or score calls.","every history of calls","Histories are unbounded.",[F+":calculate_mdi",F+":reset"])
p("Fitting after reset","After reset a fit must be given data and labels, query counting restarts at zero, and the budget is what was left before the reset, whatever argument reset was given.","every history and argument","All histories.",[F+":reset",F+":fit"])
p("Forests depend on their seed only","With at least two (EXACT) or six (MAB) thresholds at every splittable node, constructing and fitting a forest gives the same trees, queries and labels whatever the global random state and the contents of uninitialised memory were before.","every dataset, configuration, pair of prior states","Quantifies over memory contents and prior states.",[F+":fit",F+":__init__",S+":solve_mab"])
p("The criterion of a forest's trees","Every tree of a classification forest uses Gini and every tree of a regression forest uses MSE, with the best-split splitter, and the criterion and splitter options change nothing.","every configuration and fit","All configurations.",[F+":fit"])
p("Trees depend on their seed only","A tree built with a given seed is the same whatever the random state before, if np.empty returns the same contents; with enough thresholds also for any contents.","every dataset, configuration, pair of prior states","Quantifies over memory contents and prior states.",[T+":__init__",T+":fit"])
p("Boosted prediction","A boosted forest predicts the first tree's value plus learning_rate times the sum of the other trees' values.","every boosted forest with trees, every point","All forests.",[F+":predict"])
p("Only boosting touches labels","fit changes no label array except, when boosting a regressor, the one it boosts.","every heap of label arrays, every fit","Aliasing over all arrays.",[F+":fit"])
p("All trees without a budget","Without a budget fit keeps exactly n_estimators trees, and the reported queries grow by exactly the sum of the trees' queries.","every fit","All fits.",[F+":fit"])
p("Entropy works exactly up to two classes","Scoring with ENTROPY and variance returns a value exactly when there are at most two classes; with three or more it raises ValueError.","every number of classes, count vector, population size and logarithm","All class counts.",[C+":get_entropy"])
p("Listed discrete values are the candidate thresholds","When DISCRETE histograms can be built, the i-th histogram's edges are exactly the non-empty list stored under key i, in that order.","every dataset and dictionary","All dictionaries.",[H+":discrete_bin",U+":make_histograms"])
p("Exact frequency stability","get_stability_freq is NaN when no forest selects any feature; otherwise it is 1 - (N*sum p(1-p)/(N-1))/(d(1-d/F)), lies in [-1/(N-1), 1] and equals 1 exactly when all forests select the same features; asking for as many features as there are raises AssertionError.","every matrix with at least two rows, every k below the number of columns, every tie-breaking of the sort","Identity over all matrices.",[PM+":get_stability_freq"])
p("Exact pairwise stability","Jaccard stability lies in [0, (L-1)/L] and is (L-1)/L on identical rankings; Spearman stability is at most 1, reaching it exactly when the rankings agree after the first position; Kuncheva stability of a tie-free ranking with itself is negative.","every pair of rankings","All rankings.",[PM+":get_pairwise_stability"])
p("Ranks","The ranks used by the pairwise metrics are dense and increasing: rank 1 goes to the least important feature, and the stability depends on the order of the importances only.","every importance matrix","All matrices and monotone transformations.",[PM+":get_stability_pairwise"])
p("Pairwise stability averages over forests","get_stability_pairwise lies between the smallest and the largest pairwise value and does not depend on the order of the forests; with one forest it raises ZeroDivisionError.","every matrix with at least two columns","All matrices and permutations.",[PM+":get_stability_pairwise"])
p("The importance array","get_importance_array (impurity) has one row per forest trained so far, each row being minus that forest's impurity importance over all columns, and no entry is negative; vectors cannot be computed before training.","every reachable object state","All states and draws.",[PM+":get_importance_array",PM+":compute_importance_vec"])
p("Repeated importance arrays","A second call of get_importance_array (impurity) returns the earlier rows unchanged, followed by one row for each newly trained forest.","every reachable object state","All histories.",[PM+":get_importance_array"])
p("Importance arrays depend on the seed only","Two objects with the same seed and arguments return the same array whatever the global random state, if np.empty returns the same contents.","every configuration and pair of prior states","Quantifies over prior states.",[PM+":__init__",PM+":get_importance_array"])
p("Importance leaves labels alone","get_importance_array changes no label array.","every heap of label arrays","Aliasing over all arrays.",[PM+":get_importance_array"])
p("Permuting one feature","The table scored for a feature is the original one with that column permuted and every other column unchanged.","every table, feature and draw","All tables and draws.",[PM+":compute_importance_vec"])
p("Permutation importance of a constant feature","A constant column has permutation importance 0.","every dataset","All datasets.",[PM+":compute_importance_vec"])
W="data_structures/wrappers/"
p("The settings of a wrapper","Constructing a wrapper yields an object whose fixed options have the values written in the wrapper's code and whose other options have the values passed, or the documented defaults if not passed; passing an option the wrapper does not declare raises TypeError.","every wrapper, argument list and prior state","All argument lists for all twenty wrappers.",[W+"random_forest_classifier.py:__init__",W+"random_patches_classifier.py:__init__"])
p("Which wrappers can be constructed","No call constructs one of the five gradient boosted classifiers; every proper call constructs any of the other fifteen wrappers. A call that leaves out the learning rate or a sampling fraction where the wrapper insists on it raises an exception.","every wrapper, argument list and prior state","All argument lists.",[W+"gradient_boosted_random_forest_classifier.py:__init__"])
p("A wrapper can be fitted","A wrapper constructed with data, labels and a finite depth fits without raising, when no column is constant, labels are consistent and there are enough thresholds for the solver.","every wrapper, dataset and draw","All datasets and draws.",[W+"random_forest_classifier.py:__init__",F+":fit"])
p("A wrapper needs a depth","With max_depth left at its default None, fitting a wrapper raises TypeError as soon as one tree is to be grown.","every wrapper, dataset and draw","All datasets and draws.",[W+"random_forest_classifier.py:__init__",T+":fit"])
p("What a wrapper is trained on","A patches wrapper is trained on a table made of ceil(alpha_N N) distinct rows and ceil(alpha_F F) distinct columns of the data, each row with its own label, in a fresh label array; every other wrapper is trained on the data and the label array it was given.","every wrapper, dataset and draw","All datasets, fractions and draws.",[W+"random_patches_classifier.py:__init__"])
p("Predictions read training columns only","The prediction of a fitted forest for a row depends only on the entries at the training columns; the prediction of a tree depends only on the entries at the columns it was given.","every configuration, dataset, history and pair of rows","All rows.",[F+":predict",N+":predict_batch",T+":predict_batch"])
p("Patches wrappers predict full rows","A fitted patches wrapper given a row of the original table predicts what its forest predicts for the row restricted to the selected columns.","every patches wrapper, dataset and row","All rows and draws.",[W+"random_patches_classifier.py:__init__"])
p("The best leaf is split first","When the number of leaves is limited, each growth step splits the leaf whose recorded reduction is best among all leaves that can be split, and the order of the growth steps is by that rule from the root on.","every configuration with a leaf limit, dataset and draw","All datasets, limits and intermediate trees.",[T+":fit",T+":__init__"])
p("Settings reach the trees","Every tree of a fitted forest is grown with the forest's depth limit, leaf limit, minimum sizes, bin type, number of bins, solver, feature subsampling, batch size and error settings, and with the column ranges of the training table when these are precomputed.","every configuration, dataset, budget and draw","All configurations.",[F+":fit",F+":__init__"])
p("Rows and columns of a tree","Each tree of a fitted forest is grown on distinct columns and on distinct rows of the training table in the announced numbers (a fraction alpha of the table, all of it by default); with bootstrap it gets as many draws as the table has rows, all from those rows.","every configuration, dataset, budget and draw","All draws.",[F+":fit"])
p("The automatic bin type","The automatic choice is the bin type with the fewest candidate thresholds: the listed values, all data values or evenly spaced ones, in this order of preference on ties.","every triple of sizes","All sizes.",[U+":choose_bin_type"])
p("The Gini variance","The variance that get_gini reports for a sample is the large-sample variance of the Gini impurity, 4 (sum p^3 - (sum p^2)^2) / n, with the finite population correction when a population size is given; it is not negative and vanishes on pure samples.","every sample, class list and population","All samples.",[C+":get_gini"])
p("The entropy variance","For two classes the variance that get_entropy reports is the large-sample variance of the entropy, the variance of log p over the rows divided by n, with the finite population correction.","every two-class sample and population","All samples and logarithms.",[C+":get_entropy"])
p("The mean squared error and its variance","get_mse reports the unbiased estimate of the population variance and the variance of that estimate for kurtosis 3; it is not negative, and with the whole population seen it is zero and the estimate is exact.","every sample of at least two labels and population of at least four","All samples.",[C+":get_mse"])
p("The variance of an impurity change","The variance reported with an impurity change is w_l^2 V_l + w_r^2 V_r + V, with w the shares of the rows on the two sides, V the variances of the impurities of the sides and of the whole, and the population shared out in proportion; the change itself is the weighted estimate minus the whole.","every histogram, content, threshold and population","All histograms.",[C+":get_impurity_reductions"])
p("Features considered at a node","Every node of a fitted tree considers distinct features among those the tree was given, in exactly the number feature_subsampling prescribes: all of them, the square root rounded up, the given number, or the given fraction rounded up.","every configuration, dataset, draw and node","All draws and nodes.",[T+":fit",N+":__init__",U+":choose_features"])
p("The value recorded at a node","With the exact solver every node that was evaluated was allowed to be split; its recorded reduction is the smallest impurity change over the considered features and thresholds times the node's share of the training rows, or there is none when no considered split decreases the impurity.","every exact-solver tree, dataset, draw and node","All nodes, including leaves whose split was computed but not made.",[N+":calculate_best_split",T+":fit"])
p("Queries of an exact tree","The number of queries of a tree fitted with the exact solver is the sum, over the nodes it evaluated, of the node's rows times its considered features that have a threshold; without budget and below the leaf limit the evaluated nodes are exactly those that may be split.","every exact-solver tree, dataset and draw","All datasets and draws.",[T+":fit",N+":calculate_best_split",S+":solve_exactly"])
p("What boosted trees are trained on","In a boosted regression forest the first tree is trained on the labels, and every later tree on what the earlier ones left: after each tree the targets of the rows it saw lose its prediction (times the learning rate from the second tree on; truncated if the label array holds integers), all other targets are unchanged, and the caller's label array ends up holding the final residuals.","every boosted forest, dataset, row sample (with repetitions) and number of trees","All numbers of trees and all samples.",[B+":get_next_targets",F+":fit"])
p("When fitting a forest stops early","A fitted forest has n_estimators trees unless the budget is used up, or a further tree built with the remaining budget made no query or exceeded the remaining budget by the fixed allowance of 1000000.","every configuration, dataset, budget and draw","All budgets and runs.",[F+":fit"])
p("Which forests can be constructed","A forest is constructed exactly when boosting is off or is used for regression with a learning rate, and out-of-bag scoring is off or bootstrapping on; otherwise the documented exception is raised. A new forest has no trees, no queries and the given budget, and fit refuses data without labels and labels without data.","every combination of settings and arguments","All combinations of settings.",[F+":__init__",F+":fit"])
p("The labels of the out-of-bag score","Without boosting, the labels that the out-of-bag score compares with are the labels given to fit (truncated to integers by a classifier), whatever calls were made in between.","every forest without boosting, dataset and sequence of calls","All sequences of calls.",[F+":get_oob_score",F+":fit"])
p("The out-of-bag score of a boosted forest","The out-of-bag score of a boosted forest compares with the labels given to fit.","every boosted forest and dataset","The label array is shared and overwritten while fitting.",[F+":get_oob_score",F+":fit",B+":get_next_targets"])
p("The forests behind an importance array","An importance object needs at least two forests. Computing the array adds exactly num_forests forests, fitted on the object's table and labels with the object's settings, bootstrap samples and otherwise default settings, and seeded with the successive draws of the generator the object was seeded with.","every configuration, seed, dataset and number of calls","All seeds and datasets.",[PM+":__init__",PM+":train_forest",PM+":train_forests"])
p("Permutation scores","With the permutation score, entry j of a forest's importance vector is the distance between the number of rows the forest predicts correctly (for a regressor: the number of labels equal to its first prediction) and its out-of-bag score on a table in which only column j was rearranged.","every fitted forest, table and draw","All tables and shuffles.",[PM+":compute_importance_vec"])
p("The baseline run","run_baseline computes the importance array and returns its pairwise stability for the object's metric, or its frequency stability for the given number of features.","every configuration and dataset","All runs.",[PM+":run_baseline"])
p("The settings of the two forest classes","Constructing ForestClassifier or ForestRegressor with keyword arguments yields a forest whose options have the values passed, or the declared defaults (100 trees, unlimited depth, bootstrap, 11 linear bins, the bandit solver, ...) if not passed; the table and label array are the ones given. A proper call always succeeds; an option the class does not declare (boosting for the classifier, classes for the regressor) raises TypeError.","both classes, every argument list and prior state","All combinations of options.",["data_structures/forest_classifier.py:__init__","data_structures/forest_regressor.py:__init__",F+":__init__"])
p("Bins under the automatic type","With the automatic bin type the number of thresholds tried for a feature is determined by that feature alone: its listed values, its distinct values, or num_bins evenly spaced ones.","every table, dictionary of listed values and number of bins","Only tables mixing the kinds of feature show a dependence on other features.",[U+":make_histograms"])
p("Impurities without variance","Asked for the impurity alone, get_gini and get_entropy return the Gini impurity and the entropy of the rows behind the counts, for any number of classes, and the same number as when the variance is asked for too.","every count vector and logarithm","All count vectors.",[C+":get_gini",C+":get_entropy"])
p("Order of bins under floating point","In IEEE double arithmetic, with bins of positive width, every finite value is given a bin index, of two values the smaller never gets the larger index, and no value up to the minimum leaves the first bin.","every double value, minimum, maximum and number of bins","Rounding and overflow cases.",[H+":get_bin",H+":linear_bin"])
p("Rounding towards zero","A classifier replaces every label by the whole number obtained by rounding it towards zero, and keeps the number and order of the labels; the number of columns per tree, and without bootstrap of rows per tree, is the announced fraction of the table rounded towards zero.","every forest, label array, fraction and sequence of calls","All label values, including negative and fractional ones.",[F+":fit",F+":__init__"])
p("Vectorised counting","With VECTORIZE switched on, adding a sequence of batches to a classification histogram leaves the counts the default program leaves, and raises where the default program raises.","every histogram, class list and sequence of batches","Both values of a module constant, all class labels and batch sequences.",[H+":Histogram.add",H+":replace_array"])
p("Vectorised impurity changes","With VECTORIZE switched on, the impurity changes and variances reported for a set of candidate edges are those the default program reports.","every filled histogram, set of edges, measure and population size","Both values of a module constant, all histograms.",[C+":get_impurity_reductions",C+":get_entropy"])
p("Right intervals, best split","With tolerance 0, whenever every confidence interval the bandit search computes contains the actual impurity change of its candidate, the split returned is a best one.","every data set with more than five candidates, batch size, budget, sampling mode and generator state","The claim is about all runs in which a probabilistic event holds; a test cannot observe the event.",[S+":solve_mab"])
p("Right intervals, nearly best split","With tolerance 0, if every confidence interval computed contains the actual change and the candidates left at the end have estimates within d of it (or intervals no wider than 2d), then the split returned is within 2d of the best one, and a refusal to split is wrong by at most d.","every data set with more than five candidates, batch size, budget, sampling mode, generator state and d","All runs in which a probabilistic event holds, for every tolerance d.",[S+":solve_mab"])
p("Full price, best split","With tolerance 0 and no replacement, if every confidence interval computed contains the actual change and a classification search has read as many rows as the exhaustive one, its answer is a best one.","every data set with more than five candidates, batch size, budget and generator state","All runs in which a probabilistic event holds; rows arrive over any number of batches.",[S+":solve_mab",S+":sample_targets"])
p("Row order","With the exhaustive search over equally spaced thresholds or over all values, training on the same rows in another order gives a tree of the same shape, with the same splits, class counts and number of queries, and the same answer to every query.","every table, order of its rows, tree configuration, budget and seed","All permutations of all tables.",[S+":solve_exactly",N+":Node",T+":TreeBase"])
p("Units of the features","With the exhaustive search, training on a table whose features were each put through an increasing function (through k x + d if thresholds are equally spaced) gives the same tree with the thresholds put through the same functions, and the same answer to every query so translated.","every table, increasing change of units, tree configuration, budget and seed","All increasing functions.",[S+":solve_exactly",U+":make_histograms",T+":TreeBase.predict"])
p("Units and names of the labels","With the exhaustive search, training a regression tree on k y + d in place of y (k not 0, min_impurity_decrease multiplied by k squared), or a classification tree on renamed classes, gives the same splits and number of queries, and answers k v + d, or the renamed class with the same probabilities, where the original answers v.","every table, k, d, renaming, tree configuration, budget and seed","All affine changes and renamings.",[C+":get_impurity",T+":TreeBase.predict"])
p("Units of the features in a forest","With the exhaustive search, constructing and fitting a forest on a table whose features were each put through an increasing function (through k x + d if thresholds are equally spaced) gives the same forest with the thresholds put through the same functions: same trees, budget and query count, same answer to every query so translated, same importances, same out-of-bag score. This holds whatever the random state and the memory were before construction.","every table, increasing change of units, forest configuration (bootstrap, row and column subsampling, boosting), budget and seed","All increasing functions, all sequences of trees.",[F+":ForestBase.fit",F+":ForestBase.predict",F+":ForestBase.calculate_mdi",F+":ForestBase.get_oob_score"])
p("Units and names of the labels in a forest","With the exhaustive search, a regression forest fitted on k y + d in place of y (boosting: k y, and float label arrays unless k = 1), or a classification forest on renamed classes, answers k v + d, or the renamed class with the same probabilities; regression importances are multiplied by k squared; with d = 0 so is the out-of-bag score. The out-of-bag score does depend on the names of the classes and on d, and boosting on integer arrays does depend on k.","every table, k, d, renaming, forest configuration, budget and seed","All affine changes and renamings.",[F+":ForestBase.fit",F+":ForestBase.predict",F+":ForestBase.get_oob_score"])
p("Training error of a regression tree","On the rows it was trained on, the sum of squared errors of a fitted regression tree is at most that of any other answers that are constant on the tree's leaves, and at most the number of rows times the variance of the labels.","every solver, table, row and feature selection, configuration and seed","A bound over all trees and all competing leaf answers.",[T+":TreeBase.predict",N+":Node"])
p("Training accuracy of a classification tree","On the rows it was trained on, a fitted classification tree answers at least as many labels correctly as any other answers that are constant on the tree's leaves, and at least as many as the most frequent label alone.","every solver, table, row and feature selection, configuration and seed","A bound over all trees and all competing leaf answers.",[T+":TreeBase.predict",N+":Node"])
p("What the splits of an exact tree remove","With the exhaustive search, the impurity of the training labels plus the sum of the reductions recorded at the splits is the weighted mean impurity of the leaves; the sum is negative as soon as there is a split; and the training error of a regression tree is the number of rows times the variance plus that sum.","every table, configuration, budget and seed","An identity over trees of any size.",[N+":Node.calculate_best_split",T+":TreeBase.fit",C+":get_impurity_reductions"])
p("Boosting and the training error","Without bootstrap and with a learning rate between 0 and 2, the squared error of a boosted regression forest on its training rows never grows from one tree to the next, and is after the first tree at most the number of rows times the variance; with row subsampling, and with integer label arrays, the sum of squares of the residuals never grows. It can grow with a larger rate, and with bootstrap.","every table, label array, forest configuration, number of trees, budget and seed","All numbers of trees and rates.",[F+":ForestBase.fit",B+":get_next_targets",F+":ForestBase.predict"])
p("What a fully grown exact tree reproduces","With the exhaustive search over all values and without limits on depth, leaves and budget, a leaf is left unsplit only if it has at most min_samples_split rows, or one label, or no considered feature carries information about its labels. So with min_samples_split at most 1 the tree reproduces all training labels whenever one column determines them (every column, if features are subsampled). It need not reproduce them when the columns only together determine them, nor with min_samples_split = 2.","every table, configuration and seed","All tables; trees of any depth.",[T+":TreeBase.fit",N+":Node.calculate_best_split",S+":solve_exactly"])
p("What holds whatever the search and the rounding","For any split search and any arithmetic on reductions and proportions (floating point with its NaN comparisons included), a fitted tree's leaves partition the training rows, every training row is routed to its leaf and every long enough point to exactly one leaf; each split divides its node's rows at a recorded value of a training feature, was made only above min_samples_split rows, below max_depth, with two different labels and with a reduction the arithmetic ranks below the required one; leaves are one more than splits, within max_leaf_nodes and fewer than rows; spent and remaining budget add up; fitting terminates if the search does, and succeeds if the search answers and separates rows.","every split search, arithmetic, table, configuration, budget and seed","Quantifies over all searches and all rounding behaviours.",[T+":TreeBase.fit",N+":Node.split",N+":Node.calculate_best_split",T+":TreeBase.predict"])
p("Repeating every row changes nothing but the counts","With the exhaustive search over all values or equally spaced thresholds, fitting on a table that has every training row k times (make_huge with d doublings: 2^d times), in any order, with min_samples_split and budget k times as large, gives the same tree: same shape, splits, thresholds and reductions, same predictions; row counts, class counts and queries are k times as large. With the same min_samples_split the answers can change.","every table, number of copies, row order, configuration without logarithmic bins, budget and seed","All numbers of copies and all tables.",["experiments/exp_utils.py:make_huge",T+":TreeBase.fit",N+":Node.calculate_best_split",S+":solve_exactly"])
p("What the bias-variance report adds up to","For every test point the reported error is the reported variance plus the squared distance between mean prediction and label; it differs from noise + bias^2 + variance by twice (mean prediction - true value)(true value - label), so the three add up to the error exactly where the label has no noise or the mean prediction no bias; the plotted averages differ by the average of these terms and need not add up.","every array of predictions, number of trials, true values and labels","An identity over all arrays.",["experiments/bias_variance/bias_variance_analysis.py:bias_variance_analysis"])
p("What reset does","Fitting on given data after reset does exactly what fitting on that data without reset would have done (same trees, out-of-bag rows, remaining budget, generator state, labels written, errors), except that the query count starts at zero; in particular the generator is not rewound, so fitting again on the same data can answer differently. Between reset and the next fit a classifier answers its first class with undefined probabilities, a regressor an undefined value, a boosted regressor raises; out-of-bag scores raise; importances raise unless they had been computed before.","every forest state, configuration, budget argument, table, label array and random state","All histories before the reset and all data after it.",[F+":reset",F+":fit",F+":predict",F+":calculate_mdi"])
p("A column that brings nothing new changes nothing","With the exact solver, no feature subsampling and no precomputed ranges, adding at the end of the table a column that never offers a strictly better split than the others leaves the tree (shape, columns, thresholds, reductions, rows, counts) and every prediction unchanged; only the number of queries differs. Such columns are: any non-decreasing or non-increasing function of another column when all values are thresholds; a copy, a constant, or another column in other units (non-negative factor) also with equally spaced thresholds. With equally spaced thresholds the negative of a column can change the answers.","every trainable problem, added column, random state and memory contents; every row predicted, whatever its value in the added column","All tables, trees and added columns.",[T+":fit",N+":calculate_best_split",S+":solve_exactly",T+":predict"])
p("Training again on the columns in use gives the same tree","With the exact solver, no feature subsampling and no precomputed ranges, if every split found while fitting is on one of the columns in a list, then fitting on those columns only gives the same tree with the columns renumbered, and the same answer on every row with the other columns removed; provided all values are thresholds, or rows with different labels differ in one of the columns kept. Without that proviso, with equally spaced thresholds, fitting on the columns kept can raise although the others were not used.","every trainable problem and increasing list of columns, random state and memory contents; every row predicted","All tables, trees and sets of unused columns.",[T+":fit",N+":calculate_best_split",S+":solve_exactly",T+":predict"])
p("A column that follows another one changes nothing about a forest but a zero importance","With the exact solver, no feature subsampling at nodes or trees, no precomputed ranges and no budget, fitting a forest on the table with one more column that follows an existing one (any monotone function of it when all values are thresholds; a copy, a constant or other units also with equally spaced thresholds) succeeds whenever fitting without it does, leaves the same label arrays, generator states, out-of-bag lists and trees, the same answer on every row whatever its value in the new column, the same out-of-bag score, and the same importances followed by 0; boosting, bootstrapping and either task included. When nodes draw the columns they look at, a copy of a column can change the answers.","every trainable forest, table, added column, random state and memory contents; construction data or fit arguments; every row predicted","All tables, forests and added columns.",[F+":fit",F+":predict",F+":get_oob_score",F+":calculate_mdi"])
p("Training a forest again on the columns in use gives the same forest","With the exact solver, no feature subsampling at nodes or trees, no precomputed ranges and no budget, if every split found in the fitted forest is on one of the columns in a list, then fitting with the same seed on those columns only gives the same forest with the columns renumbered: the same label arrays, generator states and out-of-bag score, the same answer on every row with the other columns removed, and for each column kept the same importance; the importances of the columns removed were 0. All values are thresholds, or no two rows agree in all columns kept.","every trainable forest, table and increasing list of columns, random state and memory contents; every row predicted","All tables, forests and sets of unused columns.",[F+":fit",F+":predict",F+":get_oob_score",F+":calculate_mdi"])
p("A larger max_leaf_nodes only splits leaves further","Fit a tree twice with the same data, seed and settings except max_leaf_nodes. Every node of the tree with the smaller limit m is in the other tree with the same rows, columns, parent and depth, and is split the same way if the smaller tree splits it; the smaller tree has exactly min(m, leaves of the other) leaves; every leaf of the larger tree holds rows of one leaf of the smaller; a point lands in the larger tree at or below the leaf it reaches in the smaller, with the same answer if that leaf was not split; and a fit that works with the larger limit works with every smaller positive one.","every training problem, both solvers, with or without budget, feature subsampling and any bins; all pairs of limits, None included; every seed, random tape and memory contents","All tables, settings, seeds and pairs of limits.",[T+":fit",N+":split"])
p("A larger max_leaf_nodes never fits the training rows worse","With the same data, seed and settings, the sum of squared training errors of a regression tree does not rise, and the number of training rows a classification tree labels correctly does not fall, when max_leaf_nodes is raised or removed.","every training problem, both solvers, with or without budget; all pairs of limits","All tables and pairs of limits; single runs show only single pairs.",[T+":fit",T+":predict_batch"])
p("More estimators only append trees","Fitting the same forest object with n_estimators = m instead of n <= m gives the same first trees, out-of-bag lists, label arrays and dictionaries followed by further ones; the smaller forest has min(n, trees of the larger) trees and made no more queries; a fit that works with m estimators works with n.","every forest, data, heap of label arrays and random state; bagging or boosting; any solver; any budget","All configurations, seeds and pairs n <= m.",[F+":fit"])
p("An exhaustive fit is the recursive tree","With the exact solver, linear or value bins, no feature subsampling, no leaf limit and no budget, the fitted tree is the one the textbook recursion defines: a node is a leaf unless it may be split (depth below the limit, more rows than min_samples_split, labels not all equal) and its first best cut over all columns and thresholds lowers the impurity and passes min_impurity_decrease; otherwise it has that cut and the recursive trees of the rows at most and above the threshold. There is exactly one such tree, its leaves hold the rows of the fitted leaves, and neither the seed nor the random generator nor the order in which leaves are visited matters: fits with any two seeds send every point to leaves with the same rows and answer alike.","every training problem, every depth limit, min_samples_split and min_impurity_decrease, every seed, tape and memory contents","All tables and settings; order independence is a statement about every schedule of the queue of leaves.",[T+":fit",N+":calculate_best_split",S+":solve_exactly"])
p("Stricter stopping rules prune the tree","With the exact solver, linear or value bins, no feature subsampling, no leaf limit and no budget, lowering max_depth, raising min_samples_split or lowering min_impurity_decrease, together or alone, replaces some inner nodes by leaves and changes nothing else: the stricter tree is a pruning of the other, has no more leaves, and never fits the training rows better.","every training problem and all pairs of stopping rules in which each is at least as strict","All tables and pairs of settings.",[T+":fit",T+":check_splittable",T+":predict_batch"])
p("Every non-negative min_impurity_decrease is the same","Changing min_impurity_decrease from one non-negative value to another changes neither a fitted tree nor a fitted forest nor any of their answers, nor the random draws: a split the solvers report always has a negative change of impurity, which is below every such bound. Only negative values restrict splitting.","every tree and forest, both solvers, every budget, subsampling, bagging and boosting, every seed and random tape","All configurations and pairs of values.",[T+":check_splittable",S+":solve_exactly",S+":solve_mab",F+":fit"])
p("Gini and entropy for regression","A regression tree with criterion GINI is accepted: the exact search then minimises the Gini formula applied to the number, mean and variance of the targets as if they were counts of three classes (divided by the sum of their whole parts), so the chosen split depends on where the zero of the targets is. With criterion ENTROPY every search raises ValueError.","every regression problem, bin type LINEAR, IDENTITY or RANDOM, all required decreases and random states","All tables and targets; that the choice is the optimum of this formula cannot be tested exhaustively.",[C+":get_gini",C+":get_entropy",C+":get_impurity_reductions",S+":solve_exactly"])
p("The order of the columns matters for ties only","With the exact solver, linear or value bins, no feature subsampling, no precomputed ranges, no leaf limit and no budget, fit a tree again on a list of the table's columns that contains those it splits on, in any order. The new tree is the old one with the columns renumbered, and answers alike, exactly when every split column comes before the listed columns that offer an equally good cut of its node. So without ties every order of the columns gives the same tree; with ties the answers on training rows can differ.","all tables, seeds, generators and lists of columns","Exact characterisation over all tables and all orders.",[S+":solve_exactly",N+":calculate_best_split",T+":fit"])
p("Averaging trees never hurts","On any non-empty labelled test set, the mean squared error of a fitted non-boosted regression forest is the mean of the errors of its trees minus the mean spread of their predictions around the forest's, and the same holds of the Brier score of a classification forest. So the forest is at least as good as its trees are on average, and as at least one of them. Accuracy has no such guarantee: a forest can classify fewer rows correctly than its trees do on average.","all fitted forests and all test sets","Exact identity over every forest and every test set.",[F+":predict",T+":predict"])
p("A tree is fitted once","With no budget, calling fit on a fitted tree never trains it again: if the call returns, whatever data and labels it is given, no prediction changes and nothing random is drawn. Without arguments, a tree that holds a split raises GenericException when its leaves are exactly max_leaf_nodes, returns when max_leaf_nodes is one more than its leaves, and raises AttributeError in every other case; a tree without a split raises GenericException when max_leaf_nodes is 1 and returns otherwise.","all fitted trees, before or after predictions, all arguments","Exhaustive over configurations, trees and the arguments of the second call.",[T+":fit",N+":split"])
p("Trees that read no seed","A tree fitted with the exhaustive search, without feature subsampling and without random bins is the same tree whatever its seed and whatever the global random state; a forest of such trees depends on its own seed only through the bootstrap draws made by its own generator, and not on the global numpy and Python random states. None of the three conditions can be dropped.","all trees and forests with those settings, all seeds and global states","Quantifies over every random state.",[T+":__init__",F+":fit",S+":solve_exactly"])
p("What the comparisons compare","compare_budgets and compare_runtimes build two models of one class on the same arrays, fit the bandit one, then the exhaustive one. The first is exactly its run alone (but for the four wrappers that draw a patch of the data when they are built), and so are its scores unless it boosts. For the plain regression forests the second is also its run alone; for classifiers it is not, since its trees take seeds from the global state the first one left. With boosting the second is fitted to the residuals of the first, both training scores are taken against what is left of the labels after both, and each further seed starts from there. The overlap flag is False whenever neither model's test score varies over the seeds, in particular always with one seed (the default), even for equal averages; with run_theirs and without predict the function never returns.","all data, options, seeds, numbers of seeds and environments","Universally quantified over the two training runs and what happens between them; the defects change results but raise nothing.",["experiments/budget_exps/compare_budgets.py:compare_budgets","experiments/runtime_exps/compare_runtimes.py:compare_runtimes"])
p("What the stability test tests","run_stability_stats_test compares the stabilities that fresh objects find, each with its own seed drawn from the test's generator: the exhaustive one with the given max_leaf_nodes, the bandit one without any limit. For at least one trial, finite stabilities and a non-negative multiplier it returns the two intervals exactly when the upper bound of EXACT is below the lower bound of MAB, so only when MAB is more stable on average; in every other case, also when the intervals are disjoint the other way round, it raises AssertionError (saying that they overlap). If some stability is nan, with no trials or with no features asked for, it returns nan bounds. test_stability_with_budget returns only if MAB's stability is strictly greater, with equal settings and seeds.","all data, settings, numbers of trials, seeds and environments","Universally quantified over the outcomes of the trials; a one-sided comparison and a forgotten argument raise nothing.",["experiments/feature_stability/feature_importance_tests.py:run_stability_stats_test","experiments/feature_stability/feature_importance_tests.py:test_stability_with_budget"])
p("What the numbers of a comparison are","Every training and test score of compare_budgets and compare_runtimes is the fraction of rows whose predicted label is the label (classifiers) or the mean squared error of the predictions (regressors), nan without rows or with a nan prediction. Round i runs with seed i in the state the previous round left, and the rounds reported are exactly those. The reported insertions (budgets), numbers of trees and finite scores are the averages over the rounds with the standard deviation divided by the square root of the number of rounds; for finite test scores the overlap flag is true exactly when the two averages differ by less than the sum of the two standard errors.","all tasks, numbers of rounds, label arrays and environments","Quantified over all rounds and outcomes; a wrong formula in a report raises nothing and no test asserts on the report.",["experiments/budget_exps/compare_budgets.py:compare_budgets","experiments/runtime_exps/compare_runtimes.py:compare_runtimes"])
p("A leaf limit and a budget prune the tree","With the exact solver, linear or value bins and no feature subsampling, a tree fitted with any max_leaf_nodes and any budget is the tree fitted with neither limit with some inner nodes replaced by leaves: every split it makes is a split of the unlimited tree, its leaves are unions of leaves of the unlimited tree, and it never fits the training rows better, whatever the seeds of the two fits.","every training problem, all leaf limits and budgets, both tasks","All tables, limits and budgets.",["data_structures/tree_base.py:fit","data_structures/node.py:calculate_best_split","utils/solvers.py:solve_exactly"])
p("A larger budget fits the training rows no worse","With the exact solver and the same data, seed and settings, raising or removing the budget of a tree never raises the weighted impurity of its leaves nor, for regression, the sum of squared training errors, and never lowers the number of leaves or of insertions. It need not split the leaves of the tree with the smaller budget further, and a classification tree with a larger budget may label fewer training rows correctly.","every training problem, any bins, feature subsampling and leaf limit, all pairs of budgets","All tables and pairs of budgets; the two runs take different splits once one of them runs out.",["data_structures/tree_base.py:fit","data_structures/tree_base.py:check_splittable"])
p("Which budgets change nothing","With the exact solver, a tree fitted with a budget that exceeds the number of insertions of the fit without a budget (or with a larger one) is the same tree. A budget that equals that number can give a smaller tree, although no further insertion would be needed: the fit looks at the remaining budget before it looks at a leaf whose best split is already known.","every training problem, any bins, feature subsampling and leaf limit","All tables and budgets; the boundary is hit by one budget per table.",["data_structures/tree_base.py:fit"])
p("A larger budget keeps every tree of a forest but the last","With the exact solver and the same data, seed and settings, raising or removing the budget of a forest keeps every tree of the forest with the smaller budget except its last one: those trees have the same nodes, leaves and counters. The last tree is one the larger budget grows with at least as many insertions. The larger budget loses at most one tree, and it loses one only if that tree overran the larger budget by a million insertions; without a budget no tree is lost and the total of insertions never falls.","every forest, fit argument and random state with at least one row per tree, both tasks, with or without bootstrap, subsampling and boosting, all pairs of budgets","All tables and pairs of budgets; the two runs share one stream of random numbers and one remaining budget across the trees.",["data_structures/forest_base.py:fit","data_structures/tree_base.py:fit"])
p("The forest budget that changes nothing, and forests no budget can grow","With the exact solver, a budget above the insertions of the fit without a budget gives the same forest, out-of-bag lists, labels and random state, provided every tree of the unlimited fit makes at least one insertion. A tree that makes none ends every fit that has a budget, however large: the forest keeps only the trees before it. With equal labels a forest with any budget has no trees, while without a budget it has all of them.","every forest, fit argument and random state with at least one row per tree, all budgets","All tables and budgets, including the boundary where a tree needs no insertion.",["data_structures/forest_base.py:fit"])
p("What the comparison with scikit-learn compares","compare_accuracies runs, for seed 0, 1, ..., one model of this library and one of scikit-learn. Ours is exactly its run alone with the exhaustive search, five trees, depth five and the settings listed per contest. Without boosting the label arrays are left alone and every model of every seed learns the caller's labels. In the boosted contest scikit-learn's model is fitted to what our fit left in the label array, which is our model's errors, and both are scored against them on the training rows; a learner that fits any labels perfectly can then lose by a factor of a hundred on test rows equal to the training rows. The numbers returned are means and standard deviations over the seeds, and the verdict compares the difference of the means with the sum of the standard deviations; with one seed it is never positive.","every training and test set, label arrays, numbers of seeds, random states and every scikit-learn model that is a function of seed, table and labels","The scikit-learn side is unknown code, and the claim is about all tables and numbers of seeds.",["experiments/sklearn_exps/compare_baseline_implementations.py:compare_accuracies"])
p("A classification tree grown with the bandit search costs one batch per node","With the bandit search and linear bins, num_queries of a fitted classification tree is, summed over the nodes that were searched, batch_size (or the rows of the node, if fewer) times the features that vary there, and nothing where there are five thresholds or fewer; without a budget and below the leaf limit every node that may be split is searched. So with max_depth D a tree costs at most batch_size * k * (2^D - 1) insertions and with at most m leaves at most batch_size * k * (2 m - 1), where k is the number of features considered per node (all of them, or the square root rounded up with SQRT subsampling), however many rows there are, and a forest n_estimators times that, while the exhaustive search reads every row at the root alone. For every task and bin type, without replacement, no node costs more than reading each of its rows once per feature.","every data set, depth, leaf limit, budget, batch size and stream of random numbers","The cost for arbitrarily many rows, and the absence of a second batch for all draws, are not observable in finitely many fits.",["utils/solvers.py:solve_mab","data_structures/tree_base.py:fit","data_structures/forest_base.py:fit"])
p("The scaling experiment records a mean insertion count per size, with a ceiling in classification","The dictionary written by investigate_scaling has one entry per requested size, in order. Each entry is the mean over the fitting seeds of num_queries of a model fitted by itself on that many rows drawn with repetition by a generator with that seed, with the bandit search, five trees, depth five, batches of 1000 rows, linear bins and random_state 0. In classification no entry exceeds 5 * 1000 * ceil(sqrt(features)) * 31, whatever the size.","every data set, list of sizes, number of fitting seeds and stream of random numbers","The published curves stop at finitely many sizes; that the curve is flat beyond them is a claim about all sizes.",["experiments/scaling_exps/investigate_scaling.py","experiments/runtime_exps/compare_runtimes.py:compare_runtimes"])
p("A bandit classification split is the best split of one batch of rows","In classification with linear bins, ranges that cover the data and more than five candidate thresholds at a node, the split the bandit search gives the node is the one with the largest impurity decrease on a single batch of min(batch_size, rows) of its rows, and the recorded decrease is that of the batch; the node has no split when no threshold has a decrease on the batch. The batch is drawn before the data are looked at: it depends on the number of rows and the generator only. Confidence intervals, tolerance and budget play no part, so a tree may remain a single leaf although one of its thresholds separates the classes.","every data set, configuration, stream of random numbers and node","Tests see single fits, where a split that looks good on the whole node cannot be told from one chosen on a sample of it.",["utils/solvers.py:solve_mab","utils/solvers.py:sample_targets","data_structures/node.py:calculate_best_split"])
p("With no more rows than batch_size the bandit search is exhaustive","When a tree has at most batch_size training rows and at least six bins (linear or random, without the logarithmic bin count), a tree fitted with the bandit search has only splits that are best for all rows of their node over the node's thresholds, a leaf that could be split has no threshold that gains enough, the recorded decreases account for the whole training impurity (in regression for the whole training error), and num_queries is the number of rows times the number of features with thresholds, summed over the searched nodes: what the exhaustive search costs. The tree may still differ from the exhaustive one where splits are equally good.","every data set of at most batch_size rows, both tasks, every configuration and stream of random numbers","Equality with the exhaustive search on test data sets does not show that no data set exists on which the sampled search settles for less.",["utils/solvers.py:solve_mab","data_structures/tree_base.py:fit","utils/constants.py:BATCH_SIZE"])
p("What the bandit search decides in the trees of a forest","Every tree of a fitted forest that searches with bandits was built on the forest's table, on a sample of its rows and columns and, without boosting, on its labels. If the table has at most batch_size rows, every split of every tree is the best for all rows of its node, a leaf that could be split has no threshold that gains enough, and the tree's num_queries is the price of reading every row of every searched node: bootstrapping, subsampling and boosting do not change that. In classification with linear bins and any batch_size every split is the best for one batch of the rows of its node.","every well-formed call of fit of a forest, both tasks, with or without boosting, every stream of random numbers","A forest hands its settings and samples to many trees; a test sees the trees of a few seeds.",["data_structures/forest_base.py:fit","data_structures/tree_base.py:fit","utils/solvers.py:solve_mab"])
p("Preprocessing of the heart data","preprocess_heart turns a table with the label first and a column Race into one with the same rows and the label last: each value of Race has a column that is 1 in its rows and 0 elsewhere, each other categorical column holds the codes 0, 1, 2, ... in the order of its values, numerical columns are passed on unchanged, every column of the result comes from exactly one of these, and a table without Race is rejected.","every table with different column names and at least one row","The file is downloaded; a test would fix a handful of columns.",["experiments/heart/preprocess_heart.py:preprocess_heart","experiments/heart/preprocess_heart.py:swap_columns"])
p("Train, validation and test parts of the heart data","split_data returns three parts whose rows, each with its own label, are together exactly the rows of the data, or of subset_size different rows of it if that is given; the test part has the share ratio[2] of them rounded up and the validation part differs from the share ratio[1] by less than one row.","every data set, ratio, subset size and seed and every splitter that does what scikit-learn documents","Rows are moved twice by an external shuffle; a test can only look at a few seeds and sizes.",["experiments/heart/fit_heart.py:split_data","experiments/heart/fit_heart.py:get_subset"])
p("Verdict of the heart experiment","experiment_cf returns True exactly when the two confidence intervals it prints have a point in common.","every pair of mean accuracies and standard errors and every non-negative quantile","The accuracies come from random fits of two libraries.",["experiments/heart/compare_experiment.py:experiment_cf"])
p("Figures of tables 1 to 4","Every row of the runtime and budget tables shows, for one contender, the mean and the spread of its insertions (or trees) and of its test score as the multiples of 1/1000 closest to the recorded numbers; the row of the original model comes before that of MABSplit, printed figures are never in the wrong order, and figures of three digits are exact. A result without predictions cannot be printed.","every pair of recorded results","Rounding is a statement about all numbers, ties included.",["experiments/produce_tables.py:write_runtime_data","experiments/produce_tables.py:write_budget_data","experiments/produce_tables.py:s"])
p("Figures of table 5","From the confidence intervals that the stability test records, table 5 recovers the mean stability of each model and shows beside it the confidence multiplier times the standard error, each as the closest multiple of 1/1000.","every list of stabilities with finite mean and non-negative spread, every non-negative multiplier","The log holds only the bounds; that mean and spread can be recovered from them is an identity over all numbers.",["experiments/produce_tables.py:produce_table5","experiments/feature_stability/feature_importance_tests.py:run_stability_stats_test"])
p("Figures of table 6","The column Test Performance of table 6 shows the mean and spread of the scores on the test data.","every result of the comparison with scikit-learn","Training and test scores look alike; a test on recorded files compares the table with itself.",["experiments/produce_tables.py:produce_table6"])
p("R squared of the scaling plot","The R squared of a least-squares line in the scaling plot lies between 0 and 1, is 1 exactly when the line passes through every point, and is the square of the correlation of sizes and counts; if all counts are equal it is nan.","every list of sizes (or their logarithms) and counts and every line that fits them best","An inequality over all data sets; plots are looked at, not tested.",["experiments/scaling_exps/make_scaling_plot.py:main"])
p("Train and test rows of the housing data","load_housing returns training and test rows, each with its own target, that are together exactly the rows of the data set; the training part has TRAIN_TEST_SPLIT rows or all of them if there are fewer.","every table with as many targets as rows, every split point and every stream of random numbers","The rows are shuffled; a test sees one data set and one seed.",["experiments/exp_utils.py:load_housing"])
p("Averages of the logged round counts","For a log that lists the round counts of each size before the line naming the size, at most NUM_SIZES sizes and at most NUM_TRIALS counts each, analyze_output prints the sizes in order, a table with one row per size, and for each size the sum of its counts divided by NUM_TRIALS, which is their mean exactly when no trial is missing (or the sum is zero); other lines have no effect and one count too many raises IndexError.","every such log","All logs, with lines of any kind in between.",["experiments/snappy_analysis/analyze_output.py:main"])
json_lines="\n".join(json.dumps(x) for x in P)+"\n"
open("/verif/properties.jsonl","w").write(json_lines)
print(len(P))
