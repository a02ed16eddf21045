{"id": "C01", "title": "Binning agrees with the split comparison", "statement": "For LINEAR, RANDOM and IDENTITY binning, a feature value is counted on the left of bin edge b exactly when value <= that edge, i.e. exactly when Node.split and predict would send it left.", "quantifier": "every feature value, every minimum/maximum, every number of bins >= 2, every edge", "why_tests_cant": "The agreement is between two different computations (ceil of a quotient versus a comparison); tests only sample values and miss the boundary ones.", "anchors": ["data_structures/histogram.py:get_bin", "data_structures/histogram.py:linear_bin", "data_structures/node.py:split"]}
{"id": "C02", "title": "Classification histogram is a faithful counter over any history of batches", "statement": "After any sequence of add() calls, left[b][k] (right[b][k]) is the number of inserted samples of class k whose value is <= (>) edge b; nothing is lost or double counted.", "quantifier": "every sequence of batches, every batch content, every edge and class", "why_tests_cant": "Unbounded histories of inserts.", "anchors": ["data_structures/histogram.py:add"]}
{"id": "C03", "title": "Regression histogram of one batch is exact", "statement": "After a single add() into an empty regression histogram, each side of each edge and the whole carry the exact (count, mean, population variance) of the samples inserted on that side.", "quantifier": "every batch, every edge", "why_tests_cant": "Quantifies over all real-valued batches.", "anchors": ["data_structures/histogram.py:add", "data_structures/histogram.py:update_bins"]}
{"id": "C04", "title": "Regression histogram over several batches", "statement": "After several add() calls, counts and means are those of all samples inserted so far, and so is the variance.", "quantifier": "every sequence of batches", "why_tests_cant": "Depends on arbitrary histories; the shortcut for zero variance only shows on special histories.", "anchors": ["data_structures/histogram.py:update_bins", "utils/utils_histogram.py:welford_variance_calc"]}
{"id": "C05", "title": "Gini impurity range", "statement": "The Gini impurity of any non-empty count vector over K classes lies between 0 and 1-1/K, and is 0 exactly when one class holds all the samples.", "quantifier": "every count vector, every K", "why_tests_cant": "All count vectors.", "anchors": ["utils/criteria.py:get_gini"]}
{"id": "C06", "title": "Splitting never increases Gini impurity", "statement": "For any split of any node the weighted child Gini impurity is at most the parent's, and strictly smaller exactly when the two children have different class distributions.", "quantifier": "every pair of class count vectors", "why_tests_cant": "Inequality over all inputs.", "anchors": ["utils/criteria.py:get_impurity_reductions"]}
{"id": "C07", "title": "Splitting never increases variance", "statement": "For any split of any regression node the reported reduction over the full data is minus (nL*nR/n^2)*(meanL-meanR)^2, hence never positive, and zero exactly when the two means coincide.", "quantifier": "every pair of non-empty target lists", "why_tests_cant": "Identity over all inputs.", "anchors": ["utils/criteria.py:get_mse", "utils/criteria.py:get_impurity_reductions"]}
{"id": "C08", "title": "EXACT reports the true impurity change", "statement": "When the EXACT solver returns a split, the reported reduction equals weighted child impurity minus parent impurity recomputed from scratch from the node's rows and labels at (feature, value).", "quantifier": "every dataset, every configuration accepted by the exact solver", "why_tests_cant": "Relates an incremental histogram pipeline to a from-scratch definition on every dataset.", "anchors": ["utils/solvers.py:solve_exactly"]}
{"id": "C09", "title": "EXACT is optimal over its candidate edges", "statement": "No candidate (feature, bin edge) has a strictly lower true impurity change than the one EXACT returns; EXACT returns no split only when no candidate lowers impurity.", "quantifier": "every dataset, every candidate edge", "why_tests_cant": "Optimality against every alternative.", "anchors": ["utils/solvers.py:solve_exactly"]}
{"id": "C10", "title": "EXACT query accounting", "statement": "The number of queries EXACT reports is the number of rows times the number of features having at least one candidate edge.", "quantifier": "every dataset", "why_tests_cant": "Counting claim over all shapes.", "anchors": ["utils/solvers.py:solve_exactly", "utils/solvers.py:sample_targets"]}
{"id": "C11", "title": "EXACT does not depend on row order", "statement": "Permuting the rows (with their labels) leaves EXACT's returned feature, value, reduction and queries unchanged.", "quantifier": "every dataset, every permutation, LINEAR and IDENTITY bins", "why_tests_cant": "All permutations.", "anchors": ["utils/solvers.py:solve_exactly"]}
{"id": "C12", "title": "A split returned by any solver is usable", "statement": "Whatever the random draws, a split returned by MAB or EXACT names an existing feature column, a value that is one of that feature's bin edges, and a strictly negative reduction.", "quantifier": "every dataset, every random outcome, every uninitialised memory content", "why_tests_cant": "Quantifies over random draws and memory contents.", "anchors": ["utils/solvers.py:solve_mab", "utils/solvers.py:solve_exactly"]}
{"id": "C13", "title": "MAB without replacement never costs more than EXACT", "statement": "Sampling without replacement terminates, inserts each row at most once into each feature's histogram, and so reports at most rows*features queries.", "quantifier": "every dataset, batch size >= 1, every sequence of random draws", "why_tests_cant": "Termination and a bound over every random run.", "anchors": ["utils/solvers.py:solve_mab", "utils/solvers.py:sample_targets"]}
{"id": "C14", "title": "MAB with replacement terminates with bounded cost", "statement": "Sampling with replacement terminates for every batch size >= 1 and its reported queries are bounded by a function of rows, features, bins only.", "quantifier": "every dataset, batch size, random draws", "why_tests_cant": "Termination over every random run.", "anchors": ["utils/solvers.py:solve_mab"]}
{"id": "C15", "title": "MAB does not read uninitialised memory", "statement": "The split returned does not depend on the prior contents of the freshly allocated estimate arrays.", "quantifier": "every dataset, every content of uninitialised memory", "why_tests_cant": "Memory contents are not under a test's control.", "anchors": ["utils/solvers.py:solve_mab"]}
{"id": "C16", "title": "MAB with a full batch equals EXACT", "statement": "When one batch covers all rows, MAB without replacement finds a split with the same (optimal) reduction as EXACT, and reports the same number of queries.", "quantifier": "every dataset with more than five candidate edges, every draw", "why_tests_cant": "All datasets and draws.", "anchors": ["utils/solvers.py:solve_mab", "utils/solvers.py:solve_exactly"]}
{"id": "C17", "title": "MAB keeps sampling while confidence intervals overlap", "statement": "MAB stops only when at most five candidate arms remain, the budget or the data is exhausted, or no arm can reduce impurity.", "quantifier": "every dataset and draw", "why_tests_cant": "Concerns all runs.", "anchors": ["utils/solvers.py:solve_mab", "utils/criteria.py:get_gini"]}
{"id": "C18", "title": "MAB respects the query budget", "statement": "MAB stops sampling as soon as its queries reach the budget; it overshoots by less than one round (features*batch).", "quantifier": "every dataset, budget, draws", "why_tests_cant": "All budgets and runs.", "anchors": ["utils/solvers.py:solve_mab"]}
{"id": "C19", "title": "Arm estimates are attached to the right arms", "statement": "Each estimate computed by sampling is stored for the (feature, edge) arm it was computed for, whatever subset of arms is still alive.", "quantifier": "every candidate set produced by the solvers", "why_tests_cant": "All subsets of arms.", "anchors": ["utils/solvers.py:sample_targets"]}
{"id": "C20", "title": "Leaves partition the training rows", "statement": "After fit, the index lists held by the tree's leaves together are exactly (as a multiset) the indices the tree was built on, and no leaf is empty.", "quantifier": "every dataset, configuration and random outcome for which fit returns", "why_tests_cant": "All fits.", "anchors": ["data_structures/tree_base.py:fit", "data_structures/node.py:split"]}
{"id": "C21", "title": "Training rows are routed to their own leaf", "statement": "After fit, predict() on a training row walks to the very leaf that holds this row, under feature subsampling too.", "quantifier": "every dataset, configuration and random outcome for which fit returns", "why_tests_cant": "All fits and rows.", "anchors": ["data_structures/tree_base.py:predict", "data_structures/node.py:split"]}
{"id": "C22", "title": "Every point reaches exactly one leaf", "statement": "After fit, predict() on any point with enough features walks down to a current leaf and never loops or raises 'Tree is malformed'.", "quantifier": "every fitted tree, every datapoint", "why_tests_cant": "All trees and points.", "anchors": ["data_structures/tree_base.py:predict"]}
{"id": "C23", "title": "Depth limit", "statement": "No node of a fitted tree is deeper than max_depth, and get_depth() is the depth of the deepest leaf.", "quantifier": "every fit", "why_tests_cant": "All fits.", "anchors": ["data_structures/tree_base.py:check_splittable_constraints", "data_structures/tree_base.py:get_depth"]}
{"id": "C24", "title": "Leaf limit", "statement": "A fitted tree has at most max_leaf_nodes leaves when that is >= 1, and fit never raises the 'too many leaves' exception then.", "quantifier": "every fit", "why_tests_cant": "All fits.", "anchors": ["data_structures/tree_base.py:fit"]}
{"id": "C25", "title": "Only eligible nodes are split", "statement": "Every internal node had more than min_samples_split rows, at least two distinct labels, depth below max_depth and a strictly negative reduction below min_impurity_decrease; its split feature was among the features the tree may use.", "quantifier": "every fit", "why_tests_cant": "All fits.", "anchors": ["data_structures/tree_base.py:fit", "data_structures/tree_base.py:check_splittable"]}
{"id": "C26", "title": "Split counter and tree shape", "statement": "After fit every internal node has two children, and the number of leaves is the number of splits plus one.", "quantifier": "every fit", "why_tests_cant": "All fits.", "anchors": ["data_structures/tree_base.py:fit"]}
{"id": "C27", "title": "Node proportion", "statement": "Each node's proportion is its number of rows over the tree's number of rows.", "quantifier": "every fit", "why_tests_cant": "Product of ratios along arbitrary paths.", "anchors": ["data_structures/node.py:create_child_node"]}
{"id": "C28", "title": "Tree classification output", "statement": "predict() returns the class frequencies of the training rows in the leaf: each in [0,1], summing to 1, and a class of maximal frequency.", "quantifier": "every fitted classification tree, every point", "why_tests_cant": "All trees and points.", "anchors": ["data_structures/tree_base.py:predict"]}
{"id": "C29", "title": "Tree regression output", "statement": "predict() returns the mean of the leaf's training targets, hence between the smallest and largest training target.", "quantifier": "every fitted regression tree, every point", "why_tests_cant": "All trees and points.", "anchors": ["data_structures/tree_base.py:predict"]}
{"id": "C30", "title": "Prediction has no memory", "statement": "The answer of predict() does not depend on which points were predicted before (caching is transparent).", "quantifier": "every sequence of earlier predict calls", "why_tests_cant": "All histories.", "anchors": ["data_structures/tree_base.py:predict"]}
{"id": "C31", "title": "Tree query accounting", "statement": "After fit num_queries equals the sum of the queries of all nodes ever evaluated, each counted once, and with a budget num_queries + remaining_budget is the initial budget.", "quantifier": "every fit", "why_tests_cant": "All fits.", "anchors": ["data_structures/tree_base.py:fit"]}
{"id": "C32", "title": "Tree budget", "statement": "A node is evaluated only while the remaining budget is positive, so queries exceed the budget by less than the cost of one evaluation; with budget <= 0 the tree stays a single leaf.", "quantifier": "every fit and budget", "why_tests_cant": "All fits.", "anchors": ["data_structures/tree_base.py:fit"]}
{"id": "C33", "title": "Tree fitting terminates", "statement": "fit() stops after at most (rows - 1) splits for every data and random outcome.", "quantifier": "every dataset and random outcome", "why_tests_cant": "Termination.", "anchors": ["data_structures/tree_base.py:fit"]}
{"id": "C34", "title": "Exact identity-binned trees never raise", "statement": "With the EXACT solver and IDENTITY bins (the RandomForest wrappers), fit on a well-formed dataset with a numeric max_depth returns without raising.", "quantifier": "every well-formed dataset and random outcome", "why_tests_cant": "Absence of exceptions on all inputs.", "anchors": ["data_structures/tree_base.py:fit", "utils/solvers.py:solve_exactly"]}
{"id": "C35", "title": "Fitting does not raise on valid data (LINEAR bins)", "statement": "fit() with LINEAR bins succeeds on every finite numeric dataset.", "quantifier": "every dataset", "why_tests_cant": "Absence of exceptions on all inputs.", "anchors": ["utils/solvers.py:solve_exactly", "utils/solvers.py:solve_mab", "data_structures/histogram.py:__init__"]}
{"id": "C36", "title": "fit(data, labels) trains the tree on the data passed", "statement": "tree.fit(data, labels) fits the tree to those arguments.", "quantifier": "every constructor/fit argument pair", "why_tests_cant": "Histories of calls.", "anchors": ["data_structures/tree_base.py:fit"]}
{"id": "C37", "title": "Default depth of the wrappers is usable", "statement": "A wrapper built without max_depth can be fitted on a dataset with two classes.", "quantifier": "every dataset", "why_tests_cant": "All inputs.", "anchors": ["data_structures/tree_base.py:check_splittable_constraints", "data_structures/wrappers"]}
{"id": "C38", "title": "Forest probabilities", "statement": "A classification forest's predicted probabilities are the mean of its trees' probabilities: each in [0,1], summing to 1, and the returned label has maximal mean probability.", "quantifier": "every non-empty fitted forest, every point", "why_tests_cant": "All forests and points.", "anchors": ["data_structures/forest_base.py:predict"]}
{"id": "C39", "title": "Forest regression output", "statement": "A non-boosted regression forest's prediction is the mean of its trees' predictions, hence between the smallest and largest training target.", "quantifier": "every fitted non-empty forest, every point", "why_tests_cant": "All forests and points.", "anchors": ["data_structures/forest_base.py:predict"]}
{"id": "C40", "title": "Order of trees is irrelevant", "statement": "Permuting the trees of a non-boosted forest does not change any prediction.", "quantifier": "every forest, every permutation", "why_tests_cant": "All permutations.", "anchors": ["data_structures/forest_base.py:predict"]}
{"id": "C41", "title": "Batch prediction is pointwise", "statement": "predict_batch on any data is the list of the single predictions, in order, even though predictions share caches.", "quantifier": "every list of points", "why_tests_cant": "All lists and cache histories.", "anchors": ["data_structures/classifier.py:predict_batch", "data_structures/regressor.py:predict_batch"]}
{"id": "C42", "title": "Boosting residual identity", "statement": "In a boosted forest without row subsampling and with float targets, after fit target residual + forest prediction = original target on every training row.", "quantifier": "every number of trees, learning rate and dataset", "why_tests_cant": "Induction over trees.", "anchors": ["data_structures/forest_base.py:fit", "data_structures/forest_base.py:predict", "utils/boosting.py:get_next_targets"]}
{"id": "C43", "title": "fit leaves the caller's labels unchanged", "statement": "fitting does not modify the label array passed by the caller.", "quantifier": "every fit", "why_tests_cant": "Aliasing over all configurations.", "anchors": ["data_structures/forest_base.py:fit"]}
{"id": "C44", "title": "Forest budget", "statement": "With a budget the forest's reported queries plus remaining budget equal the initial budget, the internal 'went over budget' assertion never fails, queries stay below budget + BUFFER, at most n_estimators trees are kept, and every kept tree made at least one query.", "quantifier": "every fit and budget", "why_tests_cant": "All runs.", "anchors": ["data_structures/forest_base.py:fit"]}
{"id": "C45", "title": "Out-of-bag indices", "statement": "The out-of-bag list of a tree is exactly the increasing list of rows not drawn in its bootstrap sample.", "quantifier": "every bootstrap sample and data size", "why_tests_cant": "All samples.", "anchors": ["data_structures/forest_base.py:get_out_of_bag"]}
{"id": "C46", "title": "Out-of-bag score", "statement": "get_oob_score is the accuracy (classification) or mean squared error (regression) of the out-of-bag predictions.", "quantifier": "every fitted forest", "why_tests_cant": "All forests.", "anchors": ["data_structures/forest_base.py:get_oob_score"]}
{"id": "C47", "title": "Impurity importance", "statement": "calculate_mdi attributes to each feature the sum of the weighted reductions of the splits actually made on it; no entry is positive.", "quantifier": "every fitted forest", "why_tests_cant": "All forests.", "anchors": ["data_structures/forest_base.py:calculate_mdi", "data_structures/forest_base.py:recursive_mdi_helper"]}
{"id": "C48", "title": "Importance follows the current model", "statement": "calculate_mdi after a re-fit describes the newly fitted trees.", "quantifier": "every history of fit/calculate_mdi/reset calls", "why_tests_cant": "Histories.", "anchors": ["data_structures/forest_base.py:calculate_mdi", "data_structures/forest_base.py:reset"]}
{"id": "C49", "title": "reset restores the budget", "statement": "After reset(budget=b) the next fit has budget b and starts from zero trees and zero queries.", "quantifier": "every history", "why_tests_cant": "Histories.", "anchors": ["data_structures/forest_base.py:reset"]}
{"id": "C50", "title": "Reproducibility", "statement": "A forest constructed with a given random_state and fitted gives the same trees whatever happened before its construction; nothing that happens between construction and fit matters either.", "quantifier": "every history of other library calls", "why_tests_cant": "Histories of calls sharing global random state.", "anchors": ["data_structures/forest_base.py:__init__", "data_structures/forest_base.py:fit", "utils/utils.py:set_seed"]}
{"id": "C51", "title": "The criterion option is honoured", "statement": "The criterion passed to a forest is the criterion its trees use.", "quantifier": "every criterion and forest", "why_tests_cant": "Configuration plumbing over all values.", "anchors": ["data_structures/forest_base.py:fit"]}
{"id": "C52", "title": "Entropy criterion works for any number of classes", "statement": "Scoring a split with the ENTROPY criterion and variance returns a value for any number of classes.", "quantifier": "every number of classes, every histogram", "why_tests_cant": "All class counts.", "anchors": ["utils/criteria.py:get_entropy"]}
{"id": "C53", "title": "Discrete feature detection", "statement": "data_to_discrete(data, n) lists exactly the features with at most n distinct values, with their values.", "quantifier": "every dataset, every n", "why_tests_cant": "All inputs.", "anchors": ["utils/utils.py:data_to_discrete"]}
{"id": "C54", "title": "Discrete binning usable with detected features", "statement": "A histogram of type DISCRETE can be built from the values detected by data_to_discrete.", "quantifier": "every dataset with a discrete feature", "why_tests_cant": "All inputs.", "anchors": ["data_structures/histogram.py:discrete_bin", "utils/utils.py:data_to_discrete"]}
{"id": "C55", "title": "Discrete values follow feature subsampling", "statement": "A node that sampled features f_0.. uses for its i-th column the discrete values of feature f_i.", "quantifier": "every subsample", "why_tests_cant": "All subsamples.", "anchors": ["data_structures/node.py:__init__", "utils/utils.py:remap_discrete_features"]}
{"id": "C56", "title": "Feature subsampling", "statement": "choose_features returns distinct features of the pool: ceil(sqrt F), k, or ceil(r*F) of them, or the whole pool.", "quantifier": "every pool, option and random draw", "why_tests_cant": "All draws.", "anchors": ["utils/utils.py:choose_features"]}
{"id": "C57", "title": "Label counting", "statement": "counts_of_labels gives for each class the number of occurrences; the counts add up to the number of labels; a label outside the class dict raises.", "quantifier": "every label list and class dict", "why_tests_cant": "All inputs.", "anchors": ["utils/utils.py:counts_of_labels", "utils/utils.py:class_to_idx"]}
{"id": "C58", "title": "Stability score by frequency", "statement": "get_stability_freq is at most 1, and equals 1 when all forests select the same features.", "quantifier": "every importance matrix, every k", "why_tests_cant": "All matrices.", "anchors": ["data_structures/permutation.py:get_stability_freq"]}
{"id": "C59", "title": "Pairwise stability", "statement": "get_pairwise_stability is symmetric in its arguments and gives 1 on identical rankings.", "quantifier": "every pair of rankings", "why_tests_cant": "All rankings.", "anchors": ["data_structures/permutation.py:get_pairwise_stability"]}
{"id": "C60", "title": "Boosting targets for classification", "statement": "get_next_targets for classification is (p^2+s)/(p+s): it does not depend on the targets.", "quantifier": "every target and prediction other than -s, where numpy divides by zero", "why_tests_cant": "All reals.", "anchors": ["utils/boosting.py:get_next_targets"]}
{"id": "C61", "title": "Exact sampling collapses the confidence interval", "statement": "When every row has been inserted without replacement the variance reported for a Gini or MSE arm with both sides large enough is 0.", "quantifier": "every histogram", "why_tests_cant": "All count vectors.", "anchors": ["utils/criteria.py:get_gini", "utils/criteria.py:get_mse"]}
{"id": "C62", "title": "Wrapper settings", "statement": "Each documented wrapper can be constructed and forces its documented fixed settings whatever the caller passes.", "quantifier": "every wrapper, all caller arguments", "why_tests_cant": "All arguments.", "anchors": ["data_structures/wrappers"]}
{"id": "C63", "title": "verify_reduction", "statement": "verify_reduction accepts exactly the splits that leave both sides non-empty.", "quantifier": "every dataset, feature and value", "why_tests_cant": "All inputs.", "anchors": ["utils/solvers.py:verify_reduction"]}
{"id": "C64", "title": "filter_tied_arms", "statement": "filter_tied_arms returns exactly the candidates that are not tied, each once, in row-major order.", "quantifier": "every candidate and tie list with bins < B", "why_tests_cant": "All inputs.", "anchors": ["utils/solvers.py:filter_tied_arms"]}
{"id": "C65", "title": "LINEAR binning under floating point", "statement": "The agreement of C01 holds for IEEE double arithmetic.", "quantifier": "every double value, minimum, maximum, number of bins", "why_tests_cant": "Rounding boundary cases.", "anchors": ["data_structures/histogram.py:get_bin", "data_structures/histogram.py:linear_bin"]}
{"id": "C66", "title": "Affine invariance of EXACT with LINEAR bins", "statement": "Rescaling and shifting a feature by x -> a*x+c (a>0) rescales EXACT's split value accordingly and changes nothing else.", "quantifier": "every dataset, every a>0 and c", "why_tests_cant": "All transformations.", "anchors": ["utils/solvers.py:solve_exactly"]}
{"id": "C67", "title": "Entropy impurity range", "statement": "The entropy of any non-empty count vector over K classes lies between 0 and ln K and splitting never increases it.", "quantifier": "every count vector", "why_tests_cant": "Real analysis over all inputs.", "anchors": ["utils/criteria.py:get_entropy"]}
{"id": "C68", "title": "Candidate edges", "statement": "LINEAR edges are evenly spaced from the minimum to the maximum (both included); IDENTITY edges are exactly the distinct values of the column in increasing order; RANDOM edges are the requested number of increasing values in [minimum, maximum).", "quantifier": "every column, minimum, maximum, number of bins, random draws", "why_tests_cant": "All columns and draws.", "anchors": ["data_structures/histogram.py:linear_bin", "data_structures/histogram.py:identity_bin", "data_structures/histogram.py:random_bin"]}
{"id": "C69", "title": "EXACT answers whenever it can", "statement": "On well-formed input EXACT returns (split or no split) exactly when at least one feature has a candidate threshold; it raises otherwise.", "quantifier": "every well-formed dataset, LINEAR and IDENTITY bins", "why_tests_cant": "Totality over all inputs.", "anchors": ["utils/solvers.py:solve_exactly"]}
{"id": "C70", "title": "EXACT is deterministic", "statement": "EXACT's answer depends neither on the random state nor on the contents of uninitialised arrays.", "quantifier": "every random state and memory content, LINEAR and IDENTITY bins", "why_tests_cant": "Memory contents are not under a test's control.", "anchors": ["utils/solvers.py:solve_exactly"]}
{"id": "C71", "title": "MAB with Gini and LINEAR bins draws exactly one batch", "statement": "With the Gini criterion, LINEAR bins, at least two classes and more than five candidate edges, MAB stops after its first batch: it reports exactly min(batch, rows) queries per non-constant feature, however the confidence intervals look.", "quantifier": "every dataset, batch size, draws, with or without replacement", "why_tests_cant": "All datasets and draws; a surprising stopping rule caused by NaN.", "anchors": ["utils/solvers.py:solve_mab", "utils/criteria.py:get_gini"]}
{"id": "C72", "title": "MAB reports the impurity change of a sample", "statement": "With more than five candidate edges, the reduction MAB reports for classification is the true impurity change of the returned split over a non-empty sample of the rows (without repetition when sampling without replacement).", "quantifier": "every dataset, batch size, draws", "why_tests_cant": "All draws and all states of the loop.", "anchors": ["utils/solvers.py:solve_mab", "utils/solvers.py:sample_targets"]}
{"id": "C73", "title": "MAB answers", "statement": "With more than five candidate edges MAB always returns a split or 'no split'; it raises nothing.", "quantifier": "every well-formed dataset, batch size >= 1, draws, memory contents", "why_tests_cant": "Totality over all inputs and draws.", "anchors": ["utils/solvers.py:solve_mab"]}
{"id": "C74", "title": "Splits of EXACT trees are optimal", "statement": "In a tree fitted with the EXACT solver every split has the smallest impurity change among all thresholds of all features considered at that node, and the recorded reduction is that change times the node's share of the rows.", "quantifier": "every well-formed dataset and configuration, every random outcome", "why_tests_cant": "Optimality at every node of every tree.", "anchors": ["data_structures/node.py:calculate_best_split", "utils/solvers.py:solve_exactly", "data_structures/tree_base.py:fit"]}
{"id": "C75", "title": "EXACT trees stop only when nothing is left", "statement": "When a tree fitted with the EXACT solver without budget stops below its leaf limit, no leaf that may still be split (size, labels, depth) has a threshold that improves impurity by the required amount.", "quantifier": "every well-formed dataset and configuration", "why_tests_cant": "A statement about all thresholds of all leaves.", "anchors": ["data_structures/tree_base.py:fit", "data_structures/node.py:calculate_best_split"]}
{"id": "C76", "title": "Bandit classification trees fit", "statement": "With the MAB solver fit() of a classification tree returns without raising whenever each splittable node proposes at least six thresholds.", "quantifier": "every well-formed dataset, random outcome and memory content", "why_tests_cant": "All draws.", "anchors": ["data_structures/tree_base.py:fit", "utils/solvers.py:solve_mab"]}
{"id": "C77", "title": "max_depth=None cannot be fitted", "statement": "fit() of a tree whose max_depth is None raises TypeError on every well-formed dataset unless the leaf limit is 1.", "quantifier": "every well-formed dataset", "why_tests_cant": "All datasets.", "anchors": ["data_structures/tree_base.py:__init__", "data_structures/wrappers"]}
{"id": "C78", "title": "Label of a forest that derives its classes", "statement": "A classification forest constructed from labels only (no classes argument) predicts a label whose class has maximal mean probability, and its classes are exactly the distinct labels.", "quantifier": "every label array, every fitted forest and point", "why_tests_cant": "All forests and points.", "anchors": ["data_structures/forest_base.py:predict", "data_structures/forest_classifier.py:__init__"]}
{"id": "C79", "title": "Forest predictions answer and do not interfere", "statement": "predict answers on every point with enough columns, and the answer is the same whatever predict, predict_batch, get_oob_score or calculate_mdi calls came before.", "quantifier": "every fitted forest, every history of such calls, every point", "why_tests_cant": "Histories are unbounded.", "anchors": ["data_structures/forest_base.py:predict", "data_structures/node.py:predict"]}
{"id": "C80", "title": "Fitting a forest succeeds", "statement": "fit of a forest returns without raising on every well-formed dataset and configuration with at least two (EXACT) or six (MAB) thresholds at every splittable node.", "quantifier": "every dataset, configuration, random outcome, memory content", "why_tests_cant": "All data, draws and memory contents.", "anchors": ["data_structures/forest_base.py:fit"]}
{"id": "C81", "title": "Value of the out-of-bag score", "statement": "get_oob_score is the mean, over rows left out of at least one bootstrap sample, of [label == index of the most likely class] for classification, and of (label - mean prediction / number of votes)^2 for regression.", "quantifier": "every fitted forest, data argument and label array", "why_tests_cant": "All forests.", "anchors": ["data_structures/forest_base.py:get_oob_score"]}
{"id": "C82", "title": "Value of the impurity importance", "statement": "If calculate_mdi was never called before the last fit, it returns one entry per column: the sum over all trees of the weighted reductions of the nodes whose best split was evaluated on that column.", "quantifier": "every fitted forest, every history of calls since", "why_tests_cant": "All trees and histories.", "anchors": ["data_structures/forest_base.py:calculate_mdi", "data_structures/forest_base.py:recursive_mdi_helper"]}
{"id": "C83", "title": "Importance is frozen at the first call", "statement": "After calculate_mdi has returned an array, it returns the same array for ever: after any fit, predict, reset or score calls.", "quantifier": "every history of calls", "why_tests_cant": "Histories are unbounded.", "anchors": ["data_structures/forest_base.py:calculate_mdi", "data_structures/forest_base.py:reset"]}
{"id": "C84", "title": "Fitting after reset", "statement": "After reset a fit must be given data and labels, query counting restarts at zero, and the budget is what was left before the reset, whatever argument reset was given.", "quantifier": "every history and argument", "why_tests_cant": "All histories.", "anchors": ["data_structures/forest_base.py:reset", "data_structures/forest_base.py:fit"]}
{"id": "C85", "title": "Forests depend on their seed only", "statement": "With at least two (EXACT) or six (MAB) thresholds at every splittable node, constructing and fitting a forest gives the same trees, queries and labels whatever the global random state and the contents of uninitialised memory were before.", "quantifier": "every dataset, configuration, pair of prior states", "why_tests_cant": "Quantifies over memory contents and prior states.", "anchors": ["data_structures/forest_base.py:fit", "data_structures/forest_base.py:__init__", "utils/solvers.py:solve_mab"]}
{"id": "C86", "title": "The criterion of a forest's trees", "statement": "Every tree of a classification forest uses Gini and every tree of a regression forest uses MSE, with the best-split splitter, and the criterion and splitter options change nothing.", "quantifier": "every configuration and fit", "why_tests_cant": "All configurations.", "anchors": ["data_structures/forest_base.py:fit"]}
{"id": "C87", "title": "Trees depend on their seed only", "statement": "A tree built with a given seed is the same whatever the random state before, if np.empty returns the same contents; with enough thresholds also for any contents.", "quantifier": "every dataset, configuration, pair of prior states", "why_tests_cant": "Quantifies over memory contents and prior states.", "anchors": ["data_structures/tree_base.py:__init__", "data_structures/tree_base.py:fit"]}
{"id": "C88", "title": "Boosted prediction", "statement": "A boosted forest predicts the first tree's value plus learning_rate times the sum of the other trees' values.", "quantifier": "every boosted forest with trees, every point", "why_tests_cant": "All forests.", "anchors": ["data_structures/forest_base.py:predict"]}
{"id": "C89", "title": "Only boosting touches labels", "statement": "fit changes no label array except, when boosting a regressor, the one it boosts.", "quantifier": "every heap of label arrays, every fit", "why_tests_cant": "Aliasing over all arrays.", "anchors": ["data_structures/forest_base.py:fit"]}
{"id": "C90", "title": "All trees without a budget", "statement": "Without a budget fit keeps exactly n_estimators trees, and the reported queries grow by exactly the sum of the trees' queries.", "quantifier": "every fit", "why_tests_cant": "All fits.", "anchors": ["data_structures/forest_base.py:fit"]}
{"id": "C91", "title": "Entropy works exactly up to two classes", "statement": "Scoring with ENTROPY and variance returns a value exactly when there are at most two classes; with three or more it raises ValueError.", "quantifier": "every number of classes, count vector, population size and logarithm", "why_tests_cant": "All class counts.", "anchors": ["utils/criteria.py:get_entropy"]}
{"id": "C92", "title": "Listed discrete values are the candidate thresholds", "statement": "When DISCRETE histograms can be built, the i-th histogram's edges are exactly the non-empty list stored under key i, in that order.", "quantifier": "every dataset and dictionary", "why_tests_cant": "All dictionaries.", "anchors": ["data_structures/histogram.py:discrete_bin", "utils/utils.py:make_histograms"]}
{"id": "C93", "title": "Exact frequency stability", "statement": "get_stability_freq is NaN when no forest selects any feature; otherwise it is 1 - (N*sum p(1-p)/(N-1))/(d(1-d/F)), lies in [-1/(N-1), 1] and equals 1 exactly when all forests select the same features; asking for as many features as there are raises AssertionError.", "quantifier": "every matrix with at least two rows, every k below the number of columns, every tie-breaking of the sort", "why_tests_cant": "Identity over all matrices.", "anchors": ["data_structures/permutation.py:get_stability_freq"]}
{"id": "C94", "title": "Exact pairwise stability", "statement": "Jaccard stability lies in [0, (L-1)/L] and is (L-1)/L on identical rankings; Spearman stability is at most 1, reaching it exactly when the rankings agree after the first position; Kuncheva stability of a tie-free ranking with itself is negative.", "quantifier": "every pair of rankings", "why_tests_cant": "All rankings.", "anchors": ["data_structures/permutation.py:get_pairwise_stability"]}
{"id": "C95", "title": "Ranks", "statement": "The ranks used by the pairwise metrics are dense and increasing: rank 1 goes to the least important feature, and the stability depends on the order of the importances only.", "quantifier": "every importance matrix", "why_tests_cant": "All matrices and monotone transformations.", "anchors": ["data_structures/permutation.py:get_stability_pairwise"]}
{"id": "C96", "title": "Pairwise stability averages over forests", "statement": "get_stability_pairwise lies between the smallest and the largest pairwise value and does not depend on the order of the forests; with one forest it raises ZeroDivisionError.", "quantifier": "every matrix with at least two columns", "why_tests_cant": "All matrices and permutations.", "anchors": ["data_structures/permutation.py:get_stability_pairwise"]}
{"id": "C97", "title": "The importance array", "statement": "get_importance_array (impurity) has one row per forest trained so far, each row being minus that forest's impurity importance over all columns, and no entry is negative; vectors cannot be computed before training.", "quantifier": "every reachable object state", "why_tests_cant": "All states and draws.", "anchors": ["data_structures/permutation.py:get_importance_array", "data_structures/permutation.py:compute_importance_vec"]}
{"id": "C98", "title": "Repeated importance arrays", "statement": "A second call of get_importance_array (impurity) returns the earlier rows unchanged, followed by one row for each newly trained forest.", "quantifier": "every reachable object state", "why_tests_cant": "All histories.", "anchors": ["data_structures/permutation.py:get_importance_array"]}
{"id": "C99", "title": "Importance arrays depend on the seed only", "statement": "Two objects with the same seed and arguments return the same array whatever the global random state, if np.empty returns the same contents.", "quantifier": "every configuration and pair of prior states", "why_tests_cant": "Quantifies over prior states.", "anchors": ["data_structures/permutation.py:__init__", "data_structures/permutation.py:get_importance_array"]}
{"id": "C100", "title": "Importance leaves labels alone", "statement": "get_importance_array changes no label array.", "quantifier": "every heap of label arrays", "why_tests_cant": "Aliasing over all arrays.", "anchors": ["data_structures/permutation.py:get_importance_array"]}
{"id": "C101", "title": "Permuting one feature", "statement": "The table scored for a feature is the original one with that column permuted and every other column unchanged.", "quantifier": "every table, feature and draw", "why_tests_cant": "All tables and draws.", "anchors": ["data_structures/permutation.py:compute_importance_vec"]}
{"id": "C102", "title": "Permutation importance of a constant feature", "statement": "A constant column has permutation importance 0.", "quantifier": "every dataset", "why_tests_cant": "All datasets.", "anchors": ["data_structures/permutation.py:compute_importance_vec"]}
{"id": "C103", "title": "The settings of a wrapper", "statement": "Constructing a wrapper yields an object whose fixed options have the values written in the wrapper's code and whose other options have the values passed, or the documented defaults if not passed; passing an option the wrapper does not declare raises TypeError.", "quantifier": "every wrapper, argument list and prior state", "why_tests_cant": "All argument lists for all twenty wrappers.", "anchors": ["data_structures/wrappers/random_forest_classifier.py:__init__", "data_structures/wrappers/random_patches_classifier.py:__init__"]}
{"id": "C104", "title": "Which wrappers can be constructed", "statement": "No call constructs one of the five gradient boosted classifiers; every proper call constructs any of the other fifteen wrappers. A call that leaves out the learning rate or a sampling fraction where the wrapper insists on it raises an exception.", "quantifier": "every wrapper, argument list and prior state", "why_tests_cant": "All argument lists.", "anchors": ["data_structures/wrappers/gradient_boosted_random_forest_classifier.py:__init__"]}
{"id": "C105", "title": "A wrapper can be fitted", "statement": "A wrapper constructed with data, labels and a finite depth fits without raising, when no column is constant, labels are consistent and there are enough thresholds for the solver.", "quantifier": "every wrapper, dataset and draw", "why_tests_cant": "All datasets and draws.", "anchors": ["data_structures/wrappers/random_forest_classifier.py:__init__", "data_structures/forest_base.py:fit"]}
{"id": "C106", "title": "A wrapper needs a depth", "statement": "With max_depth left at its default None, fitting a wrapper raises TypeError as soon as one tree is to be grown.", "quantifier": "every wrapper, dataset and draw", "why_tests_cant": "All datasets and draws.", "anchors": ["data_structures/wrappers/random_forest_classifier.py:__init__", "data_structures/tree_base.py:fit"]}
{"id": "C107", "title": "What a wrapper is trained on", "statement": "A patches wrapper is trained on a table made of ceil(alpha_N N) distinct rows and ceil(alpha_F F) distinct columns of the data, each row with its own label, in a fresh label array; every other wrapper is trained on the data and the label array it was given.", "quantifier": "every wrapper, dataset and draw", "why_tests_cant": "All datasets, fractions and draws.", "anchors": ["data_structures/wrappers/random_patches_classifier.py:__init__"]}
{"id": "C108", "title": "Predictions read training columns only", "statement": "The prediction of a fitted forest for a row depends only on the entries at the training columns; the prediction of a tree depends only on the entries at the columns it was given.", "quantifier": "every configuration, dataset, history and pair of rows", "why_tests_cant": "All rows.", "anchors": ["data_structures/forest_base.py:predict", "data_structures/node.py:predict_batch", "data_structures/tree_base.py:predict_batch"]}
{"id": "C109", "title": "Patches wrappers predict full rows", "statement": "A fitted patches wrapper given a row of the original table predicts what its forest predicts for the row restricted to the selected columns.", "quantifier": "every patches wrapper, dataset and row", "why_tests_cant": "All rows and draws.", "anchors": ["data_structures/wrappers/random_patches_classifier.py:__init__"]}
{"id": "C110", "title": "The best leaf is split first", "statement": "When the number of leaves is limited, each growth step splits the leaf whose recorded reduction is best among all leaves that can be split, and the order of the growth steps is by that rule from the root on.", "quantifier": "every configuration with a leaf limit, dataset and draw", "why_tests_cant": "All datasets, limits and intermediate trees.", "anchors": ["data_structures/tree_base.py:fit", "data_structures/tree_base.py:__init__"]}
{"id": "C111", "title": "Settings reach the trees", "statement": "Every tree of a fitted forest is grown with the forest's depth limit, leaf limit, minimum sizes, bin type, number of bins, solver, feature subsampling, batch size and error settings, and with the column ranges of the training table when these are precomputed.", "quantifier": "every configuration, dataset, budget and draw", "why_tests_cant": "All configurations.", "anchors": ["data_structures/forest_base.py:fit", "data_structures/forest_base.py:__init__"]}
{"id": "C112", "title": "Rows and columns of a tree", "statement": "Each tree of a fitted forest is grown on distinct columns and on distinct rows of the training table in the announced numbers (a fraction alpha of the table, all of it by default); with bootstrap it gets as many draws as the table has rows, all from those rows.", "quantifier": "every configuration, dataset, budget and draw", "why_tests_cant": "All draws.", "anchors": ["data_structures/forest_base.py:fit"]}
{"id": "C113", "title": "The automatic bin type", "statement": "The automatic choice is the bin type with the fewest candidate thresholds: the listed values, all data values or evenly spaced ones, in this order of preference on ties.", "quantifier": "every triple of sizes", "why_tests_cant": "All sizes.", "anchors": ["utils/utils.py:choose_bin_type"]}
{"id": "C114", "title": "The Gini variance", "statement": "The variance that get_gini reports for a sample is the large-sample variance of the Gini impurity, 4 (sum p^3 - (sum p^2)^2) / n, with the finite population correction when a population size is given; it is not negative and vanishes on pure samples.", "quantifier": "every sample, class list and population", "why_tests_cant": "All samples.", "anchors": ["utils/criteria.py:get_gini"]}
{"id": "C115", "title": "The entropy variance", "statement": "For two classes the variance that get_entropy reports is the large-sample variance of the entropy, the variance of log p over the rows divided by n, with the finite population correction.", "quantifier": "every two-class sample and population", "why_tests_cant": "All samples and logarithms.", "anchors": ["utils/criteria.py:get_entropy"]}
{"id": "C116", "title": "The mean squared error and its variance", "statement": "get_mse reports the unbiased estimate of the population variance and the variance of that estimate for kurtosis 3; it is not negative, and with the whole population seen it is zero and the estimate is exact.", "quantifier": "every sample of at least two labels and population of at least four", "why_tests_cant": "All samples.", "anchors": ["utils/criteria.py:get_mse"]}
{"id": "C117", "title": "The variance of an impurity change", "statement": "The variance reported with an impurity change is w_l^2 V_l + w_r^2 V_r + V, with w the shares of the rows on the two sides, V the variances of the impurities of the sides and of the whole, and the population shared out in proportion; the change itself is the weighted estimate minus the whole.", "quantifier": "every histogram, content, threshold and population", "why_tests_cant": "All histograms.", "anchors": ["utils/criteria.py:get_impurity_reductions"]}
{"id": "C118", "title": "Features considered at a node", "statement": "Every node of a fitted tree considers distinct features among those the tree was given, in exactly the number feature_subsampling prescribes: all of them, the square root rounded up, the given number, or the given fraction rounded up.", "quantifier": "every configuration, dataset, draw and node", "why_tests_cant": "All draws and nodes.", "anchors": ["data_structures/tree_base.py:fit", "data_structures/node.py:__init__", "utils/utils.py:choose_features"]}
{"id": "C119", "title": "The value recorded at a node", "statement": "With the exact solver every node that was evaluated was allowed to be split; its recorded reduction is the smallest impurity change over the considered features and thresholds times the node's share of the training rows, or there is none when no considered split decreases the impurity.", "quantifier": "every exact-solver tree, dataset, draw and node", "why_tests_cant": "All nodes, including leaves whose split was computed but not made.", "anchors": ["data_structures/node.py:calculate_best_split", "data_structures/tree_base.py:fit"]}
{"id": "C120", "title": "Queries of an exact tree", "statement": "The number of queries of a tree fitted with the exact solver is the sum, over the nodes it evaluated, of the node's rows times its considered features that have a threshold; without budget and below the leaf limit the evaluated nodes are exactly those that may be split.", "quantifier": "every exact-solver tree, dataset and draw", "why_tests_cant": "All datasets and draws.", "anchors": ["data_structures/tree_base.py:fit", "data_structures/node.py:calculate_best_split", "utils/solvers.py:solve_exactly"]}
{"id": "C121", "title": "What boosted trees are trained on", "statement": "In a boosted regression forest the first tree is trained on the labels, and every later tree on what the earlier ones left: after each tree the targets of the rows it saw lose its prediction (times the learning rate from the second tree on; truncated if the label array holds integers), all other targets are unchanged, and the caller's label array ends up holding the final residuals.", "quantifier": "every boosted forest, dataset, row sample (with repetitions) and number of trees", "why_tests_cant": "All numbers of trees and all samples.", "anchors": ["utils/boosting.py:get_next_targets", "data_structures/forest_base.py:fit"]}
{"id": "C122", "title": "When fitting a forest stops early", "statement": "A fitted forest has n_estimators trees unless the budget is used up, or a further tree built with the remaining budget made no query or exceeded the remaining budget by the fixed allowance of 1000000.", "quantifier": "every configuration, dataset, budget and draw", "why_tests_cant": "All budgets and runs.", "anchors": ["data_structures/forest_base.py:fit"]}
{"id": "C123", "title": "Which forests can be constructed", "statement": "A forest is constructed exactly when boosting is off or is used for regression with a learning rate, and out-of-bag scoring is off or bootstrapping on; otherwise the documented exception is raised. A new forest has no trees, no queries and the given budget, and fit refuses data without labels and labels without data.", "quantifier": "every combination of settings and arguments", "why_tests_cant": "All combinations of settings.", "anchors": ["data_structures/forest_base.py:__init__", "data_structures/forest_base.py:fit"]}
{"id": "C124", "title": "The labels of the out-of-bag score", "statement": "Without boosting, the labels that the out-of-bag score compares with are the labels given to fit (truncated to integers by a classifier), whatever calls were made in between.", "quantifier": "every forest without boosting, dataset and sequence of calls", "why_tests_cant": "All sequences of calls.", "anchors": ["data_structures/forest_base.py:get_oob_score", "data_structures/forest_base.py:fit"]}
{"id": "C125", "title": "The out-of-bag score of a boosted forest", "statement": "The out-of-bag score of a boosted forest compares with the labels given to fit.", "quantifier": "every boosted forest and dataset", "why_tests_cant": "The label array is shared and overwritten while fitting.", "anchors": ["data_structures/forest_base.py:get_oob_score", "data_structures/forest_base.py:fit", "utils/boosting.py:get_next_targets"]}
{"id": "C126", "title": "The forests behind an importance array", "statement": "An importance object needs at least two forests. Computing the array adds exactly num_forests forests, fitted on the object's table and labels with the object's settings, bootstrap samples and otherwise default settings, and seeded with the successive draws of the generator the object was seeded with.", "quantifier": "every configuration, seed, dataset and number of calls", "why_tests_cant": "All seeds and datasets.", "anchors": ["data_structures/permutation.py:__init__", "data_structures/permutation.py:train_forest", "data_structures/permutation.py:train_forests"]}
{"id": "C127", "title": "Permutation scores", "statement": "With the permutation score, entry j of a forest's importance vector is the distance between the number of rows the forest predicts correctly (for a regressor: the number of labels equal to its first prediction) and its out-of-bag score on a table in which only column j was rearranged.", "quantifier": "every fitted forest, table and draw", "why_tests_cant": "All tables and shuffles.", "anchors": ["data_structures/permutation.py:compute_importance_vec"]}
{"id": "C128", "title": "The baseline run", "statement": "run_baseline computes the importance array and returns its pairwise stability for the object's metric, or its frequency stability for the given number of features.", "quantifier": "every configuration and dataset", "why_tests_cant": "All runs.", "anchors": ["data_structures/permutation.py:run_baseline"]}
{"id": "C129", "title": "The settings of the two forest classes", "statement": "Constructing ForestClassifier or ForestRegressor with keyword arguments yields a forest whose options have the values passed, or the declared defaults (100 trees, unlimited depth, bootstrap, 11 linear bins, the bandit solver, ...) if not passed; the table and label array are the ones given. A proper call always succeeds; an option the class does not declare (boosting for the classifier, classes for the regressor) raises TypeError.", "quantifier": "both classes, every argument list and prior state", "why_tests_cant": "All combinations of options.", "anchors": ["data_structures/forest_classifier.py:__init__", "data_structures/forest_regressor.py:__init__", "data_structures/forest_base.py:__init__"]}
{"id": "C130", "title": "Bins under the automatic type", "statement": "With the automatic bin type the number of thresholds tried for a feature is determined by that feature alone: its listed values, its distinct values, or num_bins evenly spaced ones.", "quantifier": "every table, dictionary of listed values and number of bins", "why_tests_cant": "Only tables mixing the kinds of feature show a dependence on other features.", "anchors": ["utils/utils.py:make_histograms"]}
{"id": "C131", "title": "Impurities without variance", "statement": "Asked for the impurity alone, get_gini and get_entropy return the Gini impurity and the entropy of the rows behind the counts, for any number of classes, and the same number as when the variance is asked for too.", "quantifier": "every count vector and logarithm", "why_tests_cant": "All count vectors.", "anchors": ["utils/criteria.py:get_gini", "utils/criteria.py:get_entropy"]}
{"id": "C132", "title": "Order of bins under floating point", "statement": "In IEEE double arithmetic, with bins of positive width, every finite value is given a bin index, of two values the smaller never gets the larger index, and no value up to the minimum leaves the first bin.", "quantifier": "every double value, minimum, maximum and number of bins", "why_tests_cant": "Rounding and overflow cases.", "anchors": ["data_structures/histogram.py:get_bin", "data_structures/histogram.py:linear_bin"]}
{"id": "C133", "title": "Rounding towards zero", "statement": "A classifier replaces every label by the whole number obtained by rounding it towards zero, and keeps the number and order of the labels; the number of columns per tree, and without bootstrap of rows per tree, is the announced fraction of the table rounded towards zero.", "quantifier": "every forest, label array, fraction and sequence of calls", "why_tests_cant": "All label values, including negative and fractional ones.", "anchors": ["data_structures/forest_base.py:fit", "data_structures/forest_base.py:__init__"]}
{"id": "C134", "title": "Vectorised counting", "statement": "With VECTORIZE switched on, adding a sequence of batches to a classification histogram leaves the counts the default program leaves, and raises where the default program raises.", "quantifier": "every histogram, class list and sequence of batches", "why_tests_cant": "Both values of a module constant, all class labels and batch sequences.", "anchors": ["data_structures/histogram.py:Histogram.add", "data_structures/histogram.py:replace_array"]}
{"id": "C135", "title": "Vectorised impurity changes", "statement": "With VECTORIZE switched on, the impurity changes and variances reported for a set of candidate edges are those the default program reports.", "quantifier": "every filled histogram, set of edges, measure and population size", "why_tests_cant": "Both values of a module constant, all histograms.", "anchors": ["utils/criteria.py:get_impurity_reductions", "utils/criteria.py:get_entropy"]}
{"id": "C136", "title": "Right intervals, best split", "statement": "With tolerance 0, whenever every confidence interval the bandit search computes contains the actual impurity change of its candidate, the split returned is a best one.", "quantifier": "every data set with more than five candidates, batch size, budget, sampling mode and generator state", "why_tests_cant": "The claim is about all runs in which a probabilistic event holds; a test cannot observe the event.", "anchors": ["utils/solvers.py:solve_mab"]}
{"id": "C137", "title": "Right intervals, nearly best split", "statement": "With tolerance 0, if every confidence interval computed contains the actual change and the candidates left at the end have estimates within d of it (or intervals no wider than 2d), then the split returned is within 2d of the best one, and a refusal to split is wrong by at most d.", "quantifier": "every data set with more than five candidates, batch size, budget, sampling mode, generator state and d", "why_tests_cant": "All runs in which a probabilistic event holds, for every tolerance d.", "anchors": ["utils/solvers.py:solve_mab"]}
{"id": "C138", "title": "Full price, best split", "statement": "With tolerance 0 and no replacement, if every confidence interval computed contains the actual change and a classification search has read as many rows as the exhaustive one, its answer is a best one.", "quantifier": "every data set with more than five candidates, batch size, budget and generator state", "why_tests_cant": "All runs in which a probabilistic event holds; rows arrive over any number of batches.", "anchors": ["utils/solvers.py:solve_mab", "utils/solvers.py:sample_targets"]}
{"id": "C139", "title": "Row order", "statement": "With the exhaustive search over equally spaced thresholds or over all values, training on the same rows in another order gives a tree of the same shape, with the same splits, class counts and number of queries, and the same answer to every query.", "quantifier": "every table, order of its rows, tree configuration, budget and seed", "why_tests_cant": "All permutations of all tables.", "anchors": ["utils/solvers.py:solve_exactly", "data_structures/node.py:Node", "data_structures/tree_base.py:TreeBase"]}
{"id": "C140", "title": "Units of the features", "statement": "With the exhaustive search, training on a table whose features were each put through an increasing function (through k x + d if thresholds are equally spaced) gives the same tree with the thresholds put through the same functions, and the same answer to every query so translated.", "quantifier": "every table, increasing change of units, tree configuration, budget and seed", "why_tests_cant": "All increasing functions.", "anchors": ["utils/solvers.py:solve_exactly", "utils/utils.py:make_histograms", "data_structures/tree_base.py:TreeBase.predict"]}
{"id": "C141", "title": "Units and names of the labels", "statement": "With the exhaustive search, training a regression tree on k y + d in place of y (k not 0, min_impurity_decrease multiplied by k squared), or a classification tree on renamed classes, gives the same splits and number of queries, and answers k v + d, or the renamed class with the same probabilities, where the original answers v.", "quantifier": "every table, k, d, renaming, tree configuration, budget and seed", "why_tests_cant": "All affine changes and renamings.", "anchors": ["utils/criteria.py:get_impurity", "data_structures/tree_base.py:TreeBase.predict"]}
{"id": "C142", "title": "Units of the features in a forest", "statement": "With the exhaustive search, constructing and fitting a forest on a table whose features were each put through an increasing function (through k x + d if thresholds are equally spaced) gives the same forest with the thresholds put through the same functions: same trees, budget and query count, same answer to every query so translated, same importances, same out-of-bag score. This holds whatever the random state and the memory were before construction.", "quantifier": "every table, increasing change of units, forest configuration (bootstrap, row and column subsampling, boosting), budget and seed", "why_tests_cant": "All increasing functions, all sequences of trees.", "anchors": ["data_structures/forest_base.py:ForestBase.fit", "data_structures/forest_base.py:ForestBase.predict", "data_structures/forest_base.py:ForestBase.calculate_mdi", "data_structures/forest_base.py:ForestBase.get_oob_score"]}
{"id": "C143", "title": "Units and names of the labels in a forest", "statement": "With the exhaustive search, a regression forest fitted on k y + d in place of y (boosting: k y, and float label arrays unless k = 1), or a classification forest on renamed classes, answers k v + d, or the renamed class with the same probabilities; regression importances are multiplied by k squared; with d = 0 so is the out-of-bag score. The out-of-bag score does depend on the names of the classes and on d, and boosting on integer arrays does depend on k.", "quantifier": "every table, k, d, renaming, forest configuration, budget and seed", "why_tests_cant": "All affine changes and renamings.", "anchors": ["data_structures/forest_base.py:ForestBase.fit", "data_structures/forest_base.py:ForestBase.predict", "data_structures/forest_base.py:ForestBase.get_oob_score"]}
{"id": "C144", "title": "Training error of a regression tree", "statement": "On the rows it was trained on, the sum of squared errors of a fitted regression tree is at most that of any other answers that are constant on the tree's leaves, and at most the number of rows times the variance of the labels.", "quantifier": "every solver, table, row and feature selection, configuration and seed", "why_tests_cant": "A bound over all trees and all competing leaf answers.", "anchors": ["data_structures/tree_base.py:TreeBase.predict", "data_structures/node.py:Node"]}
{"id": "C145", "title": "Training accuracy of a classification tree", "statement": "On the rows it was trained on, a fitted classification tree answers at least as many labels correctly as any other answers that are constant on the tree's leaves, and at least as many as the most frequent label alone.", "quantifier": "every solver, table, row and feature selection, configuration and seed", "why_tests_cant": "A bound over all trees and all competing leaf answers.", "anchors": ["data_structures/tree_base.py:TreeBase.predict", "data_structures/node.py:Node"]}
{"id": "C146", "title": "What the splits of an exact tree remove", "statement": "With the exhaustive search, the impurity of the training labels plus the sum of the reductions recorded at the splits is the weighted mean impurity of the leaves; the sum is negative as soon as there is a split; and the training error of a regression tree is the number of rows times the variance plus that sum.", "quantifier": "every table, configuration, budget and seed", "why_tests_cant": "An identity over trees of any size.", "anchors": ["data_structures/node.py:Node.calculate_best_split", "data_structures/tree_base.py:TreeBase.fit", "utils/criteria.py:get_impurity_reductions"]}
{"id": "C147", "title": "Boosting and the training error", "statement": "Without bootstrap and with a learning rate between 0 and 2, the squared error of a boosted regression forest on its training rows never grows from one tree to the next, and is after the first tree at most the number of rows times the variance; with row subsampling, and with integer label arrays, the sum of squares of the residuals never grows. It can grow with a larger rate, and with bootstrap.", "quantifier": "every table, label array, forest configuration, number of trees, budget and seed", "why_tests_cant": "All numbers of trees and rates.", "anchors": ["data_structures/forest_base.py:ForestBase.fit", "utils/boosting.py:get_next_targets", "data_structures/forest_base.py:ForestBase.predict"]}
{"id": "C148", "title": "What a fully grown exact tree reproduces", "statement": "With the exhaustive search over all values and without limits on depth, leaves and budget, a leaf is left unsplit only if it has at most min_samples_split rows, or one label, or no considered feature carries information about its labels. So with min_samples_split at most 1 the tree reproduces all training labels whenever one column determines them (every column, if features are subsampled). It need not reproduce them when the columns only together determine them, nor with min_samples_split = 2.", "quantifier": "every table, configuration and seed", "why_tests_cant": "All tables; trees of any depth.", "anchors": ["data_structures/tree_base.py:TreeBase.fit", "data_structures/node.py:Node.calculate_best_split", "utils/solvers.py:solve_exactly"]}
{"id": "C149", "title": "What holds whatever the search and the rounding", "statement": "For any split search and any arithmetic on reductions and proportions (floating point with its NaN comparisons included), a fitted tree's leaves partition the training rows, every training row is routed to its leaf and every long enough point to exactly one leaf; each split divides its node's rows at a recorded value of a training feature, was made only above min_samples_split rows, below max_depth, with two different labels and with a reduction the arithmetic ranks below the required one; leaves are one more than splits, within max_leaf_nodes and fewer than rows; spent and remaining budget add up; fitting terminates if the search does, and succeeds if the search answers and separates rows.", "quantifier": "every split search, arithmetic, table, configuration, budget and seed", "why_tests_cant": "Quantifies over all searches and all rounding behaviours.", "anchors": ["data_structures/tree_base.py:TreeBase.fit", "data_structures/node.py:Node.split", "data_structures/node.py:Node.calculate_best_split", "data_structures/tree_base.py:TreeBase.predict"]}
{"id": "C150", "title": "Repeating every row changes nothing but the counts", "statement": "With the exhaustive search over all values or equally spaced thresholds, fitting on a table that has every training row k times (make_huge with d doublings: 2^d times), in any order, with min_samples_split and budget k times as large, gives the same tree: same shape, splits, thresholds and reductions, same predictions; row counts, class counts and queries are k times as large. With the same min_samples_split the answers can change.", "quantifier": "every table, number of copies, row order, configuration without logarithmic bins, budget and seed", "why_tests_cant": "All numbers of copies and all tables.", "anchors": ["experiments/exp_utils.py:make_huge", "data_structures/tree_base.py:TreeBase.fit", "data_structures/node.py:Node.calculate_best_split", "utils/solvers.py:solve_exactly"]}
{"id": "C151", "title": "What the bias-variance report adds up to", "statement": "For every test point the reported error is the reported variance plus the squared distance between mean prediction and label; it differs from noise + bias^2 + variance by twice (mean prediction - true value)(true value - label), so the three add up to the error exactly where the label has no noise or the mean prediction no bias; the plotted averages differ by the average of these terms and need not add up.", "quantifier": "every array of predictions, number of trials, true values and labels", "why_tests_cant": "An identity over all arrays.", "anchors": ["experiments/bias_variance/bias_variance_analysis.py:bias_variance_analysis"]}
{"id": "C152", "title": "What reset does", "statement": "Fitting on given data after reset does exactly what fitting on that data without reset would have done (same trees, out-of-bag rows, remaining budget, generator state, labels written, errors), except that the query count starts at zero; in particular the generator is not rewound, so fitting again on the same data can answer differently. Between reset and the next fit a classifier answers its first class with undefined probabilities, a regressor an undefined value, a boosted regressor raises; out-of-bag scores raise; importances raise unless they had been computed before.", "quantifier": "every forest state, configuration, budget argument, table, label array and random state", "why_tests_cant": "All histories before the reset and all data after it.", "anchors": ["data_structures/forest_base.py:reset", "data_structures/forest_base.py:fit", "data_structures/forest_base.py:predict", "data_structures/forest_base.py:calculate_mdi"]}
{"id": "C153", "title": "A column that brings nothing new changes nothing", "statement": "With the exact solver, no feature subsampling and no precomputed ranges, adding at the end of the table a column that never offers a strictly better split than the others leaves the tree (shape, columns, thresholds, reductions, rows, counts) and every prediction unchanged; only the number of queries differs. Such columns are: any non-decreasing or non-increasing function of another column when all values are thresholds; a copy, a constant, or another column in other units (non-negative factor) also with equally spaced thresholds. With equally spaced thresholds the negative of a column can change the answers.", "quantifier": "every trainable problem, added column, random state and memory contents; every row predicted, whatever its value in the added column", "why_tests_cant": "All tables, trees and added columns.", "anchors": ["data_structures/tree_base.py:fit", "data_structures/node.py:calculate_best_split", "utils/solvers.py:solve_exactly", "data_structures/tree_base.py:predict"]}
{"id": "C154", "title": "Training again on the columns in use gives the same tree", "statement": "With the exact solver, no feature subsampling and no precomputed ranges, if every split found while fitting is on one of the columns in a list, then fitting on those columns only gives the same tree with the columns renumbered, and the same answer on every row with the other columns removed; provided all values are thresholds, or rows with different labels differ in one of the columns kept. Without that proviso, with equally spaced thresholds, fitting on the columns kept can raise although the others were not used.", "quantifier": "every trainable problem and increasing list of columns, random state and memory contents; every row predicted", "why_tests_cant": "All tables, trees and sets of unused columns.", "anchors": ["data_structures/tree_base.py:fit", "data_structures/node.py:calculate_best_split", "utils/solvers.py:solve_exactly", "data_structures/tree_base.py:predict"]}
{"id": "C155", "title": "A column that follows another one changes nothing about a forest but a zero importance", "statement": "With the exact solver, no feature subsampling at nodes or trees, no precomputed ranges and no budget, fitting a forest on the table with one more column that follows an existing one (any monotone function of it when all values are thresholds; a copy, a constant or other units also with equally spaced thresholds) succeeds whenever fitting without it does, leaves the same label arrays, generator states, out-of-bag lists and trees, the same answer on every row whatever its value in the new column, the same out-of-bag score, and the same importances followed by 0; boosting, bootstrapping and either task included. When nodes draw the columns they look at, a copy of a column can change the answers.", "quantifier": "every trainable forest, table, added column, random state and memory contents; construction data or fit arguments; every row predicted", "why_tests_cant": "All tables, forests and added columns.", "anchors": ["data_structures/forest_base.py:fit", "data_structures/forest_base.py:predict", "data_structures/forest_base.py:get_oob_score", "data_structures/forest_base.py:calculate_mdi"]}
{"id": "C156", "title": "Training a forest again on the columns in use gives the same forest", "statement": "With the exact solver, no feature subsampling at nodes or trees, no precomputed ranges and no budget, if every split found in the fitted forest is on one of the columns in a list, then fitting with the same seed on those columns only gives the same forest with the columns renumbered: the same label arrays, generator states and out-of-bag score, the same answer on every row with the other columns removed, and for each column kept the same importance; the importances of the columns removed were 0. All values are thresholds, or no two rows agree in all columns kept.", "quantifier": "every trainable forest, table and increasing list of columns, random state and memory contents; every row predicted", "why_tests_cant": "All tables, forests and sets of unused columns.", "anchors": ["data_structures/forest_base.py:fit", "data_structures/forest_base.py:predict", "data_structures/forest_base.py:get_oob_score", "data_structures/forest_base.py:calculate_mdi"]}
{"id": "C157", "title": "A larger max_leaf_nodes only splits leaves further", "statement": "Fit a tree twice with the same data, seed and settings except max_leaf_nodes. Every node of the tree with the smaller limit m is in the other tree with the same rows, columns, parent and depth, and is split the same way if the smaller tree splits it; the smaller tree has exactly min(m, leaves of the other) leaves; every leaf of the larger tree holds rows of one leaf of the smaller; a point lands in the larger tree at or below the leaf it reaches in the smaller, with the same answer if that leaf was not split; and a fit that works with the larger limit works with every smaller positive one.", "quantifier": "every training problem, both solvers, with or without budget, feature subsampling and any bins; all pairs of limits, None included; every seed, random tape and memory contents", "why_tests_cant": "All tables, settings, seeds and pairs of limits.", "anchors": ["data_structures/tree_base.py:fit", "data_structures/node.py:split"]}
{"id": "C158", "title": "A larger max_leaf_nodes never fits the training rows worse", "statement": "With the same data, seed and settings, the sum of squared training errors of a regression tree does not rise, and the number of training rows a classification tree labels correctly does not fall, when max_leaf_nodes is raised or removed.", "quantifier": "every training problem, both solvers, with or without budget; all pairs of limits", "why_tests_cant": "All tables and pairs of limits; single runs show only single pairs.", "anchors": ["data_structures/tree_base.py:fit", "data_structures/tree_base.py:predict_batch"]}
{"id": "C159", "title": "More estimators only append trees", "statement": "Fitting the same forest object with n_estimators = m instead of n <= m gives the same first trees, out-of-bag lists, label arrays and dictionaries followed by further ones; the smaller forest has min(n, trees of the larger) trees and made no more queries; a fit that works with m estimators works with n.", "quantifier": "every forest, data, heap of label arrays and random state; bagging or boosting; any solver; any budget", "why_tests_cant": "All configurations, seeds and pairs n <= m.", "anchors": ["data_structures/forest_base.py:fit"]}
{"id": "C160", "title": "An exhaustive fit is the recursive tree", "statement": "With the exact solver, linear or value bins, no feature subsampling, no leaf limit and no budget, the fitted tree is the one the textbook recursion defines: a node is a leaf unless it may be split (depth below the limit, more rows than min_samples_split, labels not all equal) and its first best cut over all columns and thresholds lowers the impurity and passes min_impurity_decrease; otherwise it has that cut and the recursive trees of the rows at most and above the threshold. There is exactly one such tree, its leaves hold the rows of the fitted leaves, and neither the seed nor the random generator nor the order in which leaves are visited matters: fits with any two seeds send every point to leaves with the same rows and answer alike.", "quantifier": "every training problem, every depth limit, min_samples_split and min_impurity_decrease, every seed, tape and memory contents", "why_tests_cant": "All tables and settings; order independence is a statement about every schedule of the queue of leaves.", "anchors": ["data_structures/tree_base.py:fit", "data_structures/node.py:calculate_best_split", "utils/solvers.py:solve_exactly"]}
{"id": "C161", "title": "Stricter stopping rules prune the tree", "statement": "With the exact solver, linear or value bins, no feature subsampling, no leaf limit and no budget, lowering max_depth, raising min_samples_split or lowering min_impurity_decrease, together or alone, replaces some inner nodes by leaves and changes nothing else: the stricter tree is a pruning of the other, has no more leaves, and never fits the training rows better.", "quantifier": "every training problem and all pairs of stopping rules in which each is at least as strict", "why_tests_cant": "All tables and pairs of settings.", "anchors": ["data_structures/tree_base.py:fit", "data_structures/tree_base.py:check_splittable", "data_structures/tree_base.py:predict_batch"]}
{"id": "C162", "title": "Every non-negative min_impurity_decrease is the same", "statement": "Changing min_impurity_decrease from one non-negative value to another changes neither a fitted tree nor a fitted forest nor any of their answers, nor the random draws: a split the solvers report always has a negative change of impurity, which is below every such bound. Only negative values restrict splitting.", "quantifier": "every tree and forest, both solvers, every budget, subsampling, bagging and boosting, every seed and random tape", "why_tests_cant": "All configurations and pairs of values.", "anchors": ["data_structures/tree_base.py:check_splittable", "utils/solvers.py:solve_exactly", "utils/solvers.py:solve_mab", "data_structures/forest_base.py:fit"]}
{"id": "C163", "title": "Gini and entropy for regression", "statement": "A regression tree with criterion GINI is accepted: the exact search then minimises the Gini formula applied to the number, mean and variance of the targets as if they were counts of three classes (divided by the sum of their whole parts), so the chosen split depends on where the zero of the targets is. With criterion ENTROPY every search raises ValueError.", "quantifier": "every regression problem, bin type LINEAR, IDENTITY or RANDOM, all required decreases and random states", "why_tests_cant": "All tables and targets; that the choice is the optimum of this formula cannot be tested exhaustively.", "anchors": ["utils/criteria.py:get_gini", "utils/criteria.py:get_entropy", "utils/criteria.py:get_impurity_reductions", "utils/solvers.py:solve_exactly"]}
{"id": "C164", "title": "The order of the columns matters for ties only", "statement": "With the exact solver, linear or value bins, no feature subsampling, no precomputed ranges, no leaf limit and no budget, fit a tree again on a list of the table's columns that contains those it splits on, in any order. The new tree is the old one with the columns renumbered, and answers alike, exactly when every split column comes before the listed columns that offer an equally good cut of its node. So without ties every order of the columns gives the same tree; with ties the answers on training rows can differ.", "quantifier": "all tables, seeds, generators and lists of columns", "why_tests_cant": "Exact characterisation over all tables and all orders.", "anchors": ["utils/solvers.py:solve_exactly", "data_structures/node.py:calculate_best_split", "data_structures/tree_base.py:fit"]}
{"id": "C165", "title": "Averaging trees never hurts", "statement": "On any non-empty labelled test set, the mean squared error of a fitted non-boosted regression forest is the mean of the errors of its trees minus the mean spread of their predictions around the forest's, and the same holds of the Brier score of a classification forest. So the forest is at least as good as its trees are on average, and as at least one of them. Accuracy has no such guarantee: a forest can classify fewer rows correctly than its trees do on average.", "quantifier": "all fitted forests and all test sets", "why_tests_cant": "Exact identity over every forest and every test set.", "anchors": ["data_structures/forest_base.py:predict", "data_structures/tree_base.py:predict"]}
{"id": "C166", "title": "A tree is fitted once", "statement": "With no budget, calling fit on a fitted tree never trains it again: if the call returns, whatever data and labels it is given, no prediction changes and nothing random is drawn. Without arguments, a tree that holds a split raises GenericException when its leaves are exactly max_leaf_nodes, returns when max_leaf_nodes is one more than its leaves, and raises AttributeError in every other case; a tree without a split raises GenericException when max_leaf_nodes is 1 and returns otherwise.", "quantifier": "all fitted trees, before or after predictions, all arguments", "why_tests_cant": "Exhaustive over configurations, trees and the arguments of the second call.", "anchors": ["data_structures/tree_base.py:fit", "data_structures/node.py:split"]}
{"id": "C167", "title": "Trees that read no seed", "statement": "A tree fitted with the exhaustive search, without feature subsampling and without random bins is the same tree whatever its seed and whatever the global random state; a forest of such trees depends on its own seed only through the bootstrap draws made by its own generator, and not on the global numpy and Python random states. None of the three conditions can be dropped.", "quantifier": "all trees and forests with those settings, all seeds and global states", "why_tests_cant": "Quantifies over every random state.", "anchors": ["data_structures/tree_base.py:__init__", "data_structures/forest_base.py:fit", "utils/solvers.py:solve_exactly"]}
{"id": "C168", "title": "What the comparisons compare", "statement": "compare_budgets and compare_runtimes build two models of one class on the same arrays, fit the bandit one, then the exhaustive one. The first is exactly its run alone (but for the four wrappers that draw a patch of the data when they are built), and so are its scores unless it boosts. For the plain regression forests the second is also its run alone; for classifiers it is not, since its trees take seeds from the global state the first one left. With boosting the second is fitted to the residuals of the first, both training scores are taken against what is left of the labels after both, and each further seed starts from there. The overlap flag is False whenever neither model's test score varies over the seeds, in particular always with one seed (the default), even for equal averages; with run_theirs and without predict the function never returns.", "quantifier": "all data, options, seeds, numbers of seeds and environments", "why_tests_cant": "Universally quantified over the two training runs and what happens between them; the defects change results but raise nothing.", "anchors": ["experiments/budget_exps/compare_budgets.py:compare_budgets", "experiments/runtime_exps/compare_runtimes.py:compare_runtimes"]}
{"id": "C169", "title": "What the stability test tests", "statement": "run_stability_stats_test compares the stabilities that fresh objects find, each with its own seed drawn from the test's generator: the exhaustive one with the given max_leaf_nodes, the bandit one without any limit. For at least one trial, finite stabilities and a non-negative multiplier it returns the two intervals exactly when the upper bound of EXACT is below the lower bound of MAB, so only when MAB is more stable on average; in every other case, also when the intervals are disjoint the other way round, it raises AssertionError (saying that they overlap). If some stability is nan, with no trials or with no features asked for, it returns nan bounds. test_stability_with_budget returns only if MAB's stability is strictly greater, with equal settings and seeds.", "quantifier": "all data, settings, numbers of trials, seeds and environments", "why_tests_cant": "Universally quantified over the outcomes of the trials; a one-sided comparison and a forgotten argument raise nothing.", "anchors": ["experiments/feature_stability/feature_importance_tests.py:run_stability_stats_test", "experiments/feature_stability/feature_importance_tests.py:test_stability_with_budget"]}
{"id": "C170", "title": "What the numbers of a comparison are", "statement": "Every training and test score of compare_budgets and compare_runtimes is the fraction of rows whose predicted label is the label (classifiers) or the mean squared error of the predictions (regressors), nan without rows or with a nan prediction. Round i runs with seed i in the state the previous round left, and the rounds reported are exactly those. The reported insertions (budgets), numbers of trees and finite scores are the averages over the rounds with the standard deviation divided by the square root of the number of rounds; for finite test scores the overlap flag is true exactly when the two averages differ by less than the sum of the two standard errors.", "quantifier": "all tasks, numbers of rounds, label arrays and environments", "why_tests_cant": "Quantified over all rounds and outcomes; a wrong formula in a report raises nothing and no test asserts on the report.", "anchors": ["experiments/budget_exps/compare_budgets.py:compare_budgets", "experiments/runtime_exps/compare_runtimes.py:compare_runtimes"]}
{"id": "C171", "title": "A leaf limit and a budget prune the tree", "statement": "With the exact solver, linear or value bins and no feature subsampling, a tree fitted with any max_leaf_nodes and any budget is the tree fitted with neither limit with some inner nodes replaced by leaves: every split it makes is a split of the unlimited tree, its leaves are unions of leaves of the unlimited tree, and it never fits the training rows better, whatever the seeds of the two fits.", "quantifier": "every training problem, all leaf limits and budgets, both tasks", "why_tests_cant": "All tables, limits and budgets.", "anchors": ["data_structures/tree_base.py:fit", "data_structures/node.py:calculate_best_split", "utils/solvers.py:solve_exactly"]}
{"id": "C172", "title": "A larger budget fits the training rows no worse", "statement": "With the exact solver and the same data, seed and settings, raising or removing the budget of a tree never raises the weighted impurity of its leaves nor, for regression, the sum of squared training errors, and never lowers the number of leaves or of insertions. It need not split the leaves of the tree with the smaller budget further, and a classification tree with a larger budget may label fewer training rows correctly.", "quantifier": "every training problem, any bins, feature subsampling and leaf limit, all pairs of budgets", "why_tests_cant": "All tables and pairs of budgets; the two runs take different splits once one of them runs out.", "anchors": ["data_structures/tree_base.py:fit", "data_structures/tree_base.py:check_splittable"]}
{"id": "C173", "title": "Which budgets change nothing", "statement": "With the exact solver, a tree fitted with a budget that exceeds the number of insertions of the fit without a budget (or with a larger one) is the same tree. A budget that equals that number can give a smaller tree, although no further insertion would be needed: the fit looks at the remaining budget before it looks at a leaf whose best split is already known.", "quantifier": "every training problem, any bins, feature subsampling and leaf limit", "why_tests_cant": "All tables and budgets; the boundary is hit by one budget per table.", "anchors": ["data_structures/tree_base.py:fit"]}
{"id": "C174", "title": "A larger budget keeps every tree of a forest but the last", "statement": "With the exact solver and the same data, seed and settings, raising or removing the budget of a forest keeps every tree of the forest with the smaller budget except its last one: those trees have the same nodes, leaves and counters. The last tree is one the larger budget grows with at least as many insertions. The larger budget loses at most one tree, and it loses one only if that tree overran the larger budget by a million insertions; without a budget no tree is lost and the total of insertions never falls.", "quantifier": "every forest, fit argument and random state with at least one row per tree, both tasks, with or without bootstrap, subsampling and boosting, all pairs of budgets", "why_tests_cant": "All tables and pairs of budgets; the two runs share one stream of random numbers and one remaining budget across the trees.", "anchors": ["data_structures/forest_base.py:fit", "data_structures/tree_base.py:fit"]}
{"id": "C175", "title": "The forest budget that changes nothing, and forests no budget can grow", "statement": "With the exact solver, a budget above the insertions of the fit without a budget gives the same forest, out-of-bag lists, labels and random state, provided every tree of the unlimited fit makes at least one insertion. A tree that makes none ends every fit that has a budget, however large: the forest keeps only the trees before it. With equal labels a forest with any budget has no trees, while without a budget it has all of them.", "quantifier": "every forest, fit argument and random state with at least one row per tree, all budgets", "why_tests_cant": "All tables and budgets, including the boundary where a tree needs no insertion.", "anchors": ["data_structures/forest_base.py:fit"]}
{"id": "C176", "title": "What the comparison with scikit-learn compares", "statement": "compare_accuracies runs, for seed 0, 1, ..., one model of this library and one of scikit-learn. Ours is exactly its run alone with the exhaustive search, five trees, depth five and the settings listed per contest. Without boosting the label arrays are left alone and every model of every seed learns the caller's labels. In the boosted contest scikit-learn's model is fitted to what our fit left in the label array, which is our model's errors, and both are scored against them on the training rows; a learner that fits any labels perfectly can then lose by a factor of a hundred on test rows equal to the training rows. The numbers returned are means and standard deviations over the seeds, and the verdict compares the difference of the means with the sum of the standard deviations; with one seed it is never positive.", "quantifier": "every training and test set, label arrays, numbers of seeds, random states and every scikit-learn model that is a function of seed, table and labels", "why_tests_cant": "The scikit-learn side is unknown code, and the claim is about all tables and numbers of seeds.", "anchors": ["experiments/sklearn_exps/compare_baseline_implementations.py:compare_accuracies"]}
{"id": "C177", "title": "A classification tree grown with the bandit search costs one batch per node", "statement": "With the bandit search and linear bins, num_queries of a fitted classification tree is, summed over the nodes that were searched, batch_size (or the rows of the node, if fewer) times the features that vary there, and nothing where there are five thresholds or fewer; without a budget and below the leaf limit every node that may be split is searched. So with max_depth D a tree costs at most batch_size * k * (2^D - 1) insertions and with at most m leaves at most batch_size * k * (2 m - 1), where k is the number of features considered per node (all of them, or the square root rounded up with SQRT subsampling), however many rows there are, and a forest n_estimators times that, while the exhaustive search reads every row at the root alone. For every task and bin type, without replacement, no node costs more than reading each of its rows once per feature.", "quantifier": "every data set, depth, leaf limit, budget, batch size and stream of random numbers", "why_tests_cant": "The cost for arbitrarily many rows, and the absence of a second batch for all draws, are not observable in finitely many fits.", "anchors": ["utils/solvers.py:solve_mab", "data_structures/tree_base.py:fit", "data_structures/forest_base.py:fit"]}
{"id": "C178", "title": "The scaling experiment records a mean insertion count per size, with a ceiling in classification", "statement": "The dictionary written by investigate_scaling has one entry per requested size, in order. Each entry is the mean over the fitting seeds of num_queries of a model fitted by itself on that many rows drawn with repetition by a generator with that seed, with the bandit search, five trees, depth five, batches of 1000 rows, linear bins and random_state 0. In classification no entry exceeds 5 * 1000 * ceil(sqrt(features)) * 31, whatever the size.", "quantifier": "every data set, list of sizes, number of fitting seeds and stream of random numbers", "why_tests_cant": "The published curves stop at finitely many sizes; that the curve is flat beyond them is a claim about all sizes.", "anchors": ["experiments/scaling_exps/investigate_scaling.py", "experiments/runtime_exps/compare_runtimes.py:compare_runtimes"]}
{"id": "C179", "title": "A bandit classification split is the best split of one batch of rows", "statement": "In classification with linear bins, ranges that cover the data and more than five candidate thresholds at a node, the split the bandit search gives the node is the one with the largest impurity decrease on a single batch of min(batch_size, rows) of its rows, and the recorded decrease is that of the batch; the node has no split when no threshold has a decrease on the batch. The batch is drawn before the data are looked at: it depends on the number of rows and the generator only. Confidence intervals, tolerance and budget play no part, so a tree may remain a single leaf although one of its thresholds separates the classes.", "quantifier": "every data set, configuration, stream of random numbers and node", "why_tests_cant": "Tests see single fits, where a split that looks good on the whole node cannot be told from one chosen on a sample of it.", "anchors": ["utils/solvers.py:solve_mab", "utils/solvers.py:sample_targets", "data_structures/node.py:calculate_best_split"]}
{"id": "C180", "title": "With no more rows than batch_size the bandit search is exhaustive", "statement": "When a tree has at most batch_size training rows and at least six bins (linear or random, without the logarithmic bin count), a tree fitted with the bandit search has only splits that are best for all rows of their node over the node's thresholds, a leaf that could be split has no threshold that gains enough, the recorded decreases account for the whole training impurity (in regression for the whole training error), and num_queries is the number of rows times the number of features with thresholds, summed over the searched nodes: what the exhaustive search costs. The tree may still differ from the exhaustive one where splits are equally good.", "quantifier": "every data set of at most batch_size rows, both tasks, every configuration and stream of random numbers", "why_tests_cant": "Equality with the exhaustive search on test data sets does not show that no data set exists on which the sampled search settles for less.", "anchors": ["utils/solvers.py:solve_mab", "data_structures/tree_base.py:fit", "utils/constants.py:BATCH_SIZE"]}
{"id": "C181", "title": "What the bandit search decides in the trees of a forest", "statement": "Every tree of a fitted forest that searches with bandits was built on the forest's table, on a sample of its rows and columns and, without boosting, on its labels. If the table has at most batch_size rows, every split of every tree is the best for all rows of its node, a leaf that could be split has no threshold that gains enough, and the tree's num_queries is the price of reading every row of every searched node: bootstrapping, subsampling and boosting do not change that. In classification with linear bins and any batch_size every split is the best for one batch of the rows of its node.", "quantifier": "every well-formed call of fit of a forest, both tasks, with or without boosting, every stream of random numbers", "why_tests_cant": "A forest hands its settings and samples to many trees; a test sees the trees of a few seeds.", "anchors": ["data_structures/forest_base.py:fit", "data_structures/tree_base.py:fit", "utils/solvers.py:solve_mab"]}
{"id": "C182", "title": "Preprocessing of the heart data", "statement": "preprocess_heart turns a table with the label first and a column Race into one with the same rows and the label last: each value of Race has a column that is 1 in its rows and 0 elsewhere, each other categorical column holds the codes 0, 1, 2, ... in the order of its values, numerical columns are passed on unchanged, every column of the result comes from exactly one of these, and a table without Race is rejected.", "quantifier": "every table with different column names and at least one row", "why_tests_cant": "The file is downloaded; a test would fix a handful of columns.", "anchors": ["experiments/heart/preprocess_heart.py:preprocess_heart", "experiments/heart/preprocess_heart.py:swap_columns"]}
{"id": "C183", "title": "Train, validation and test parts of the heart data", "statement": "split_data returns three parts whose rows, each with its own label, are together exactly the rows of the data, or of subset_size different rows of it if that is given; the test part has the share ratio[2] of them rounded up and the validation part differs from the share ratio[1] by less than one row.", "quantifier": "every data set, ratio, subset size and seed and every splitter that does what scikit-learn documents", "why_tests_cant": "Rows are moved twice by an external shuffle; a test can only look at a few seeds and sizes.", "anchors": ["experiments/heart/fit_heart.py:split_data", "experiments/heart/fit_heart.py:get_subset"]}
{"id": "C184", "title": "Verdict of the heart experiment", "statement": "experiment_cf returns True exactly when the two confidence intervals it prints have a point in common.", "quantifier": "every pair of mean accuracies and standard errors and every non-negative quantile", "why_tests_cant": "The accuracies come from random fits of two libraries.", "anchors": ["experiments/heart/compare_experiment.py:experiment_cf"]}
{"id": "C185", "title": "Figures of tables 1 to 4", "statement": "Every row of the runtime and budget tables shows, for one contender, the mean and the spread of its insertions (or trees) and of its test score as the multiples of 1/1000 closest to the recorded numbers; the row of the original model comes before that of MABSplit, printed figures are never in the wrong order, and figures of three digits are exact. A result without predictions cannot be printed.", "quantifier": "every pair of recorded results", "why_tests_cant": "Rounding is a statement about all numbers, ties included.", "anchors": ["experiments/produce_tables.py:write_runtime_data", "experiments/produce_tables.py:write_budget_data", "experiments/produce_tables.py:s"]}
{"id": "C186", "title": "Figures of table 5", "statement": "From the confidence intervals that the stability test records, table 5 recovers the mean stability of each model and shows beside it the confidence multiplier times the standard error, each as the closest multiple of 1/1000.", "quantifier": "every list of stabilities with finite mean and non-negative spread, every non-negative multiplier", "why_tests_cant": "The log holds only the bounds; that mean and spread can be recovered from them is an identity over all numbers.", "anchors": ["experiments/produce_tables.py:produce_table5", "experiments/feature_stability/feature_importance_tests.py:run_stability_stats_test"]}
{"id": "C187", "title": "Figures of table 6", "statement": "The column Test Performance of table 6 shows the mean and spread of the scores on the test data.", "quantifier": "every result of the comparison with scikit-learn", "why_tests_cant": "Training and test scores look alike; a test on recorded files compares the table with itself.", "anchors": ["experiments/produce_tables.py:produce_table6"]}
{"id": "C188", "title": "R squared of the scaling plot", "statement": "The R squared of a least-squares line in the scaling plot lies between 0 and 1, is 1 exactly when the line passes through every point, and is the square of the correlation of sizes and counts; if all counts are equal it is nan.", "quantifier": "every list of sizes (or their logarithms) and counts and every line that fits them best", "why_tests_cant": "An inequality over all data sets; plots are looked at, not tested.", "anchors": ["experiments/scaling_exps/make_scaling_plot.py:main"]}
{"id": "C189", "title": "Train and test rows of the housing data", "statement": "load_housing returns training and test rows, each with its own target, that are together exactly the rows of the data set; the training part has TRAIN_TEST_SPLIT rows or all of them if there are fewer.", "quantifier": "every table with as many targets as rows, every split point and every stream of random numbers", "why_tests_cant": "The rows are shuffled; a test sees one data set and one seed.", "anchors": ["experiments/exp_utils.py:load_housing"]}
{"id": "C190", "title": "Averages of the logged round counts", "statement": "For a log that lists the round counts of each size before the line naming the size, at most NUM_SIZES sizes and at most NUM_TRIALS counts each, analyze_output prints the sizes in order, a table with one row per size, and for each size the sum of its counts divided by NUM_TRIALS, which is their mean exactly when no trial is missing (or the sum is zero); other lines have no effect and one count too many raises IndexError.", "quantifier": "every such log", "why_tests_cant": "All logs, with lines of any kind in between.", "anchors": ["experiments/snappy_analysis/analyze_output.py:main"]}
