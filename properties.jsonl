{"id": "C01", "title": "Leaves partition the ICE curves", "statement": "After DecisionTreePartitioner.partition(max_depth) returns, every ICE curve of the root region (its x values, y values and variances together) occurs in exactly one returned leaf, unchanged; no curve is lost, duplicated or mixed with another curve's values. (A curve whose split coordinate is NaN, as ConfigSpace encodes an inactive hyperparameter, is lost: the claim is for samples without NaN.)", "quantifier": "all configuration spaces, sample sets, grid sizes, selected hyperparameters, max_depth, num_splits_per_axis, min_points_per_node, and all earlier partition calls on the same object", "why_tests_cant": "tests check only that the leaf sizes add up on a few seeds; loss or duplication of a curve depends on ties at split values and on the order of splits", "anchors": ["pyPDP/algorithms/partitioner/decision_tree_partitioner.py:DecisionTreePartitioner.partition", "pyPDP/algorithms/partitioner/decision_tree_partitioner.py:DTRegion.filter_by_condition", "pyPDP/algorithms/partitioner/decision_tree_partitioner.py:DTRegion.split_at_value"]}
{"id": "C02", "title": "Every configuration lies in exactly one leaf, and get_incumbent_region returns it", "statement": "After partition, for every configuration that assigns a (non-NaN) number to every hyperparameter of a numerical configuration space, exactly one leaf contains it (`config in leaf`), and get_incumbent_region(config) returns that leaf, never None. Before the first partition get_incumbent_region raises AssertionError.", "quantifier": "all configurations, all reachable partitioner states", "why_tests_cant": "the test draws 1000 random configurations, none of which hits a split boundary", "anchors": ["pyPDP/algorithms/partitioner/decision_tree_partitioner.py:DTRegion.__contains__", "pyPDP/algorithms/partitioner/decision_tree_partitioner.py:SplitCondition.is_satisfied", "pyPDP/algorithms/partitioner/decision_tree_partitioner.py:DecisionTreePartitioner.get_incumbent_region"]}
{"id": "C03", "title": "A sample's configuration lies in the leaf that holds its curve", "statement": "In exact arithmetic on a space of float hyperparameters, the leaf that holds the ICE curve of sample s is the leaf that contains the configuration of s. With binary64 rounding, or with an integer hyperparameter, this fails: curves are routed by the normalized coordinate, configurations by the unscaled value.", "quantifier": "all samples, all leaves, all split histories, linear and log scales", "why_tests_cant": "agreement between two different comparisons (normalized and unscaled) at every split value cannot be sampled", "anchors": ["pyPDP/algorithms/partitioner/decision_tree_partitioner.py:DTRegion.filter_by_condition", "pyPDP/algorithms/partitioner/decision_tree_partitioner.py:SplitCondition.is_satisfied", "pyPDP/utils/utils.py:unscale_float"]}
{"id": "C04", "title": "A leaf is exactly the set of curves satisfying its split conditions", "statement": "The curves of a leaf are exactly, and in the original order, those root curves whose normalized coordinates satisfy every split condition of the leaf; the number of conditions equals the leaf's depth.", "quantifier": "all reachable leaves", "why_tests_cant": "needs every split history", "anchors": ["pyPDP/algorithms/partitioner/decision_tree_partitioner.py:DTRegion.filter_by_condition", "pyPDP/algorithms/partitioner/decision_tree_partitioner.py:DTRegion.split_at_value"]}
{"id": "C05", "title": "The chosen split is optimal", "statement": "calc_best_split(node) returns the pair of children produced by a (hyperparameter, split value) candidate that leaves at least min_points_per_node curves on both sides and whose total loss is minimal among all such candidates, the first one on ties; it returns None exactly when no admissible candidate has a finite loss.", "quantifier": "all regions, hyperparameter lists, numbers of candidate split values and minimum node sizes", "why_tests_cant": "optimality quantifies over all candidates and all data", "anchors": ["pyPDP/algorithms/partitioner/decision_tree_partitioner.py:DecisionTreePartitioner.calc_best_split"]}
{"id": "C06", "title": "partition terminates with bounded depth and number of leaves", "statement": "partition(max_depth) always terminates; every leaf has depth <= max_depth, there are at most 2**max_depth leaves and at least one.", "quantifier": "all inputs and max_depth", "why_tests_cant": "termination and size bounds are claims about all executions", "anchors": ["pyPDP/algorithms/partitioner/decision_tree_partitioner.py:DecisionTreePartitioner.partition"]}
{"id": "C07", "title": "A leaf is left unsplit only for a stated reason", "statement": "Every leaf either has depth max_depth, or holds at most one curve, or has no admissible split.", "quantifier": "all reachable leaves", "why_tests_cant": "a universally quantified stopping condition", "anchors": ["pyPDP/algorithms/partitioner/decision_tree_partitioner.py:DecisionTreePartitioner.partition", "pyPDP/algorithms/partitioner/decision_tree_partitioner.py:DTRegion.is_splittable"]}
{"id": "C08", "title": "Minimum node size is respected", "statement": "Every leaf of a DecisionTreePartitioner other than an unsplit root holds at least min_points_per_node curves.", "quantifier": "all inputs", "why_tests_cant": "tests never check it; depends on ties", "anchors": ["pyPDP/algorithms/partitioner/decision_tree_partitioner.py:DecisionTreePartitioner.calc_best_split"]}
{"id": "C09", "title": "Selected and excluded hyperparameters are never split", "statement": "No split condition of any region created by partition mentions a selected hyperparameter or one listed in not_splittable_hp, and every split value is strictly between 0 and 1 in normalized units (exact arithmetic).", "quantifier": "all selections given as names, objects or lists; all reachable regions", "why_tests_cant": "quantifies over all ways to select and all trees", "anchors": ["pyPDP/algorithms/partitioner/__init__.py:Partitioner.__init__", "pyPDP/algorithms/partitioner/decision_tree_partitioner.py:DecisionTreePartitioner.calc_best_split", "pyPDP/utils/utils.py:get_hyperparameters"]}
{"id": "C10", "title": "Region loss is the within-region variance and splitting never increases it", "statement": "Region.loss equals the sum over grid points and curves of the squared deviation of the curve's variance from the region mean at that grid point; it is >= 0, is 0 exactly when all curves have the same variances, and the losses of the two sides of any split sum to at most the loss of the parent. Hence the total loss of the leaves is at most the loss of the root. In binary64 it fails: a surrogate with constant uncertainty has a root of loss 0 and leaves of positive loss.", "quantifier": "all regions of real-valued variances, all splits, all trees (exact arithmetic)", "why_tests_cant": "an inequality over all real matrices", "anchors": ["pyPDP/algorithms/partitioner/__init__.py:Region.loss", "pyPDP/algorithms/partitioner/decision_tree_partitioner.py:DecisionTreePartitioner.partition"]}
{"id": "C11", "title": "implied_config_space describes the leaf", "statement": "For a leaf of a numerical space, a configuration inside the full space is contained in the leaf iff for each hyperparameter its value is at most the implied upper bound and above the implied lower bound (or at it, if that bound was not raised by a split); the implied box is a sub-box of the full space with the same names, in the same order, and has lower < upper whenever the leaf holds a curve. A space with a hyperparameter that is not numerical raises NotImplementedError.", "quantifier": "all reachable leaves, all configurations (exact arithmetic)", "why_tests_cant": "boundary behaviour for every leaf and configuration", "anchors": ["pyPDP/algorithms/partitioner/decision_tree_partitioner.py:DTRegion.implied_config_space", "pyPDP/algorithms/partitioner/decision_tree_partitioner.py:DTRegion.__contains__"]}
{"id": "C12", "title": "Repeated partition calls are independent", "statement": "The leaves returned by partition(d) do not depend on earlier partition calls on the same object: any history of calls ending in partition(d) returns the same regions (data, depth and split conditions, in the same order) as partition(d) on a fresh object.", "quantifier": "all histories of partition calls", "why_tests_cant": "an unbounded set of histories", "anchors": ["pyPDP/algorithms/partitioner/decision_tree_partitioner.py:DecisionTreePartitioner.partition"]}
{"id": "C13", "title": "Tree links are well formed", "statement": "After partition on samples without NaN, every region created by this call is the left or right child of its parent, has depth one larger, and its curves, together with its sibling's, are exactly its parent's curves; it has its parent's conditions and one more, its sibling the opposite one, 'less or equal' being on the left; the leaves returned are exactly the childless regions created by this call, or the root.", "quantifier": "all reachable partitioner states", "why_tests_cant": "a heap invariant over histories", "anchors": ["pyPDP/algorithms/partitioner/decision_tree_partitioner.py:DTRegion", "pyPDP/algorithms/partitioner/decision_tree_partitioner.py:DecisionTreePartitioner.calc_best_split"]}
{"id": "C14", "title": "Constant hyperparameters are never split on", "statement": "If all samples have the same normalized coordinate for a hyperparameter (as for a Constant), and min_points_per_node >= 1, no region is ever split on it.", "quantifier": "all inputs", "why_tests_cant": "quantifies over all trees", "anchors": ["pyPDP/algorithms/partitioner/decision_tree_partitioner.py:DecisionTreePartitioner.calc_best_split"]}
{"id": "C15", "title": "Categorical hyperparameters: partition succeeds but membership raises", "statement": "partition accepts a space with a categorical hyperparameter, but testing whether a configuration is in a region that was split on it raises AttributeError as soon as the test gets to that condition (the unscaling needs .log). get_incumbent_region therefore either returns a leaf that contains the configuration or raises AttributeError, and it always raises when the root was split on a categorical hyperparameter.", "quantifier": "all regions split on a categorical hyperparameter", "why_tests_cant": "no test partitions a categorical space and asks for the incumbent region", "anchors": ["pyPDP/algorithms/partitioner/decision_tree_partitioner.py:SplitCondition.value", "pyPDP/utils/utils.py:unscale_float"]}
{"id": "C16", "title": "from_ICE partitions the given ICE", "statement": "DecisionTreePartitioner.from_ICE(ice) has as root region the curves of `ice` (x, y and variances). This holds when ice.centered is False and the surrogate was not refitted since the ICE was computed; the root always holds a freshly computed, uncentered ICE, so a centered ICE is not what gets partitioned. Its trees are those of the constructor on the ICE's space, surrogate, selection, samples and resolution with the given settings: no condition mentions a selected hyperparameter or one in not_splittable_hp, split values come from num_splits_per_axis, and min_points_per_node is respected.", "quantifier": "all ICE objects, all settings, all histories of partition calls", "why_tests_cant": "the tests never partition a centered ICE", "anchors": ["pyPDP/algorithms/partitioner/decision_tree_partitioner.py:DecisionTreePartitioner.from_ICE", "pyPDP/algorithms/partitioner/__init__.py:Partitioner.ice"]}
{"id": "C17", "title": "Random forest requires an explicit sample_size", "statement": "RandomForestPartitioner.partition called without sample_size (as in the README) raises TypeError before creating any tree, instead of using all samples.", "quantifier": "all forests and all other arguments", "why_tests_cant": "tests always pass sample_size", "anchors": ["pyPDP/algorithms/partitioner/random_forest_partitioner.py:RandomForestPartitioner.partition"]}
{"id": "C18", "title": "Forest incumbent region is the overlap set", "statement": "get_incumbent_region(c, k) returns exactly the forest's ICE curves (in order, x/y/variances aligned) whose sample configuration lies in at least k of the trees' incumbent regions; k=0 gives all curves, the result shrinks as k grows, the default k is the intersection of all, and k > number of trees gives the empty region.", "quantifier": "all forests, incumbents and thresholds", "why_tests_cant": "needs all forests and thresholds", "anchors": ["pyPDP/algorithms/partitioner/random_forest_partitioner.py:RandomForestPartitioner.get_incumbent_region"]}
{"id": "C19", "title": "Forest trees use bootstrapped samples and a nonempty feature subset", "statement": "Each tree created by partition is built on sample_size rows of the forest's samples and splits only on a nonempty subset of the forest's splittable hyperparameters; exactly num_trees trees are kept, regardless of earlier calls.", "quantifier": "all random streams and histories", "why_tests_cant": "quantifies over all random masks, including the all-zero mask", "anchors": ["pyPDP/algorithms/partitioner/random_forest_partitioner.py:RandomForestPartitioner.partition"]}
{"id": "C20", "title": "Forest ignores its own node-size and split-count settings", "statement": "The min_points_per_node and num_splits_per_axis given to RandomForestPartitioner do not influence its trees: a forest with min_points_per_node = m can produce leaves with a single curve.", "quantifier": "all settings", "why_tests_cant": "no test reads these settings", "anchors": ["pyPDP/algorithms/partitioner/random_forest_partitioner.py:RandomForestPartitioner.__init__", "pyPDP/algorithms/partitioner/random_forest_partitioner.py:RandomForestPartitioner.partition"]}
{"id": "C21", "title": "ICE x values", "statement": "ice.x_ice[i, g] equals samples[i] with the coordinates of the selected hyperparameters replaced by grid point g, in selection order; all other coordinates are unchanged; the shape is (num_samples, num_grid_points_per_axis ** n_selected, num_features).", "quantifier": "all samples, selections (any order), grid sizes, numbers of features", "why_tests_cant": "tests look at shapes and one selection", "anchors": ["pyPDP/algorithms/ice.py:ICE._calculate"]}
{"id": "C22", "title": "ICE values are surrogate predictions", "statement": "ice.y_ice[i, g] and ice.y_variances[i, g] are the mean and the squared standard deviation that the surrogate predicts for the row x_ice[i, g].", "quantifier": "all surrogates, samples, grids", "why_tests_cant": "row/column mix-ups are invisible on shapes alone", "anchors": ["pyPDP/algorithms/ice.py:ICE._calculate"]}
{"id": "C23", "title": "Centered ICE", "statement": "With centered=True each curve is shifted by its value at the first grid point, so it starts at 0 and all differences within a curve are preserved; variances and x values are unaffected.", "quantifier": "all surrogates, samples, grids", "why_tests_cant": "tests check only the first column", "anchors": ["pyPDP/algorithms/ice.py:ICE._calculate"]}
{"id": "C24", "title": "The grid is the full cartesian product", "statement": "ice.grid_points has num_grid_points_per_axis ** n_selected rows and contains every combination of the axis points exactly once; axis points run evenly from 0 to 1; the order is that of np.meshgrid: the second selected hyperparameter varies slowest, then the first, then the third and so on, the last one fastest (with two, the first).", "quantifier": "all grid sizes and numbers of selected hyperparameters", "why_tests_cant": "tests check lengths only", "anchors": ["pyPDP/algorithms/ice.py:ICE.grid_points"]}
{"id": "C25", "title": "ICE caching over any history", "statement": "Whatever the history of reads, resets, changes of `centered` and refits of the surrogate, reads of x_ice, y_ice and y_variances return results of one single calculation: the one triggered by the first read since the last reset, with the flag and surrogate of that moment.", "quantifier": "all histories of operations", "why_tests_cant": "unbounded histories", "anchors": ["pyPDP/algorithms/ice.py:ICE.reset", "pyPDP/algorithms/ice.py:ICE.y_ice"]}
{"id": "C26", "title": "PDP is the pointwise mean of the ICE curves", "statement": "pdp.x_pdp, y_pdp and y_variances are at every grid point the mean over all curves; each lies between the minimum and the maximum over the curves; on the selected coordinates x_pdp is the grid itself. After any reads and resets of a PDP object, in any order, its arrays hold these means.", "quantifier": "all ICE sets (exact arithmetic)", "why_tests_cant": "all real matrices", "anchors": ["pyPDP/algorithms/pdp.py:PDP.y_pdp", "pyPDP/algorithms/pdp.py:PDP.x_pdp"]}
{"id": "C27", "title": "The PDP is the size-weighted mean of the regional PDPs", "statement": "For the leaves of a partition, the size-weighted average of region.pdp_as_ice_curve over the leaves equals the PDP of the root, for values and variances.", "quantifier": "all partitions (exact arithmetic)", "why_tests_cant": "all trees and data", "anchors": ["pyPDP/algorithms/partitioner/__init__.py:Region.pdp_as_ice_curve", "pyPDP/algorithms/pdp.py:PDP.y_pdp"]}
{"id": "C28", "title": "scale_float and unscale_float are inverse, bounded and monotone", "statement": "For lower < upper (and 0 < lower on a log scale): scale_float maps into [0,1], unscale_float into [lower, upper], both are monotone (strictly on the proper range), scale(unscale(u)) = u for u in [0,1] and unscale(scale(v)) = v for v in [lower, upper]; values outside are clamped. Between 0 and 1 unscale_float gives the weighted arithmetic mean of the bounds, on a log scale the weighted geometric mean.", "quantifier": "all bounds, values, linear and log scale (exact arithmetic)", "why_tests_cant": "tests use one range", "anchors": ["pyPDP/utils/utils.py:scale_float", "pyPDP/utils/utils.py:unscale_float"]}
{"id": "C29", "title": "Rounding: unscale_float stays in bounds and monotone in binary64, but does not round-trip", "statement": "In binary64 arithmetic unscale_float on a linear scale never leaves [lower, upper] and is monotone in the normalized value; it is not injective, so scale(unscale(u)) = u can fail.", "quantifier": "all finite binary64 inputs without overflow", "why_tests_cant": "rounding errors at arbitrary inputs", "anchors": ["pyPDP/utils/utils.py:unscale_float"]}
{"id": "C30", "title": "unscale agrees with unscale_float", "statement": "unscale on 1-, 2- and 3-dimensional arrays applies unscale_float coordinatewise for coordinates in [0,1], also for any mixture of float and integer, linear and log axes; outside [0,1] it differs on linear axes (extrapolates without clamping). The branch for categorical hyperparameters raises TypeError on every non-empty float array.", "quantifier": "all arrays and spaces (exact arithmetic)", "why_tests_cant": "all shapes and spaces", "anchors": ["pyPDP/utils/utils.py:unscale"]}
{"id": "C31", "title": "Hyperparameter selection is resolved uniformly", "statement": "convert_hyperparameters and get_hyperparameters return, for a name, a hyperparameter, or any list mixing both, the corresponding hyperparameters in the given order; unknown names raise KeyError, other items TypeError; get_selected_idx returns positions that point back at those hyperparameters.", "quantifier": "all selections and spaces", "why_tests_cant": "all mixtures", "anchors": ["pyPDP/utils/utils.py:convert_hyperparameters", "pyPDP/utils/utils.py:get_hyperparameters", "pyPDP/utils/utils.py:get_selected_idx"]}
{"id": "C32", "title": "Seeds and config-space ownership", "statement": "A ConfigSpaceHolder built with an integer seed or None owns a private copy whose seed is in [0, 2**31) and whose sampling never advances the caller's configuration space; two integer seeds give the same stream for a class iff they are congruent mod 2**31; seed=True shares the caller's space, so sampling advances it.", "quantifier": "all seeds, classes, sampling histories", "why_tests_cant": "histories and aliasing", "anchors": ["pyPDP/utils/utils.py:ConfigSpaceHolder.__init__", "pyPDP/utils/utils.py:copy_config_space"]}
{"id": "C33", "title": "Configurations and values stay paired (random and BO samplers)", "statement": "For RandomSampler and BayesianOptimizationSampler, after any history of sample/reset/clear_cache calls, with the objective or surrogate raising at any call, config_list and y_list have equal length and y_list[i] is a value that the objective returned for config_list[i] or that was stored with it in the cache.", "quantifier": "all histories, all failure points", "why_tests_cant": "failure points and histories are unbounded", "anchors": ["pyPDP/sampler/random_sampler.py:RandomSampler._sample", "pyPDP/sampler/bayesian_optimization.py:BayesianOptimizationSampler._sample", "pyPDP/sampler/__init__.py:Sampler.sample"]}
{"id": "C34", "title": "GridSampler loses the pairing when the objective raises", "statement": "If the objective raises during GridSampler.sample, config_list has one entry more than y_list, and values sampled afterwards are attributed to the wrong configurations; without failures the pairing holds.", "quantifier": "all histories, all failure points", "why_tests_cant": "tests have no failing objectives", "anchors": ["pyPDP/sampler/grid_sampler.py:GridSampler._sample"]}
{"id": "C35", "title": "sample(n) adds exactly n points", "statement": "A successful sample(n) adds exactly n points at the end and keeps earlier points, for all samplers and cache contents.", "quantifier": "all histories, n, cache contents", "why_tests_cant": "histories", "anchors": ["pyPDP/sampler/__init__.py:Sampler.sample", "pyPDP/sampler/random_sampler.py:RandomSampler._sample", "pyPDP/sampler/bayesian_optimization.py:BayesianOptimizationSampler._sample", "pyPDP/sampler/grid_sampler.py:GridSampler._sample"]}
{"id": "C36", "title": "Sampling a single point", "statement": "Whether sample_configuration(1) yields a bare configuration or a one-element list, one of RandomSampler.sample(1) and BayesianOptimizationSampler's single initial point raises: the two samplers assume opposite contracts.", "quantifier": "both ConfigSpace contracts, all states without cache", "why_tests_cant": "tests run against one installed version", "anchors": ["pyPDP/sampler/random_sampler.py:RandomSampler._sample", "pyPDP/sampler/bayesian_optimization.py:BayesianOptimizationSampler._sample_initial_points"]}
{"id": "C37", "title": "The incumbent is the best sampled point", "statement": "sampler.incumbent is a sampled (config, value) pair with minimal (maximal when maximizing) value, the earliest such on ties; with no samples it is (None, inf) also when maximizing.", "quantifier": "all sample lists", "why_tests_cant": "all lists and ties", "anchors": ["pyPDP/sampler/__init__.py:Sampler.incumbent"]}
{"id": "C38", "title": "A re-created sampler replays the cached run", "statement": "If a sampler with an empty cache file sampled n points and was deleted, a new sampler with the same identity whose first call is sample(m), m <= n, obtains exactly the first m points and values without calling the objective, whatever the objective does now.", "quantifier": "all samplers, n, m, objectives", "why_tests_cant": "cross-run histories", "anchors": ["pyPDP/sampler/__init__.py:Sampler.sample", "pyPDP/sampler/__init__.py:Sampler.save_cache", "pyPDP/sampler/__init__.py:Sampler._load_cache"]}
{"id": "C39", "title": "Incremental use of the cache drops it too early", "statement": "Sampling in several calls may discard a cache that still holds enough points, because points already taken from the cache are counted twice; deleting the sampler then overwrites a larger cache file with a smaller one. A call uses the cache iff twice the points already replayed plus n do not exceed the cached total.", "quantifier": "all histories of sample calls on a loaded cache", "why_tests_cant": "histories", "anchors": ["pyPDP/sampler/__init__.py:Sampler.sample", "pyPDP/sampler/__init__.py:Sampler.save_cache"]}
{"id": "C40", "title": "Loading the cache never fails", "statement": "Constructing a sampler never raises because of the cache file: for a missing, unparsable, truncated or invalid file the sampler is usable and its cache is the longest valid prefix (empty for unparsable files).", "quantifier": "all file contents, all crash points of a previous save", "why_tests_cant": "crash points", "anchors": ["pyPDP/sampler/__init__.py:Sampler._load_cache", "pyPDP/sampler/__init__.py:Sampler.save_cache"]}
{"id": "C41", "title": "The cache key ignores the optimization direction", "statement": "The cache file name depends only on the sampler class, the hyperparameters, the listed arguments (seed, and for BO acquisition class, its kwargs, initial_points, surrogate class) and str(objective): a maximizing sampler replays points recorded by a minimizing one.", "quantifier": "all pairs of samplers", "why_tests_cant": "tests never mix directions", "anchors": ["pyPDP/sampler/__init__.py:Sampler._hash", "pyPDP/sampler/bayesian_optimization.py:BayesianOptimizationSampler.__init__"]}
{"id": "C42", "title": "GridSampler points are distinct", "statement": "After any history of successful calls, all configurations in config_list of a GridSampler are pairwise distinct (if the initial list and cache are), and each new one is a point of the generated grid.", "quantifier": "all histories, shuffles", "why_tests_cant": "shuffles and histories", "anchors": ["pyPDP/sampler/grid_sampler.py:GridSampler._sample"]}
{"id": "C43", "title": "GridSampler capacity", "statement": "The first sample(n) of a GridSampler on a space of float hyperparameters never exhausts its grid; a later call can: there is a history of calls on a one-dimensional space after which sample raises IndexError although finer grids exist, and a Constant or categorical hyperparameter makes even a first call fail.", "quantifier": "all n, dimensions, shuffles", "why_tests_cant": "depends on shuffles and histories", "anchors": ["pyPDP/sampler/grid_sampler.py:GridSampler._sample"]}
{"id": "C44", "title": "BO: the surrogate is fitted on all points", "statement": "After every successful BayesianOptimizationSampler.sample call the surrogate was last fitted on exactly the current config_list and y_list, and every acquisition step was made with a surrogate fitted on all points known before it and with the current incumbent value.", "quantifier": "all histories", "why_tests_cant": "histories", "anchors": ["pyPDP/sampler/bayesian_optimization.py:BayesianOptimizationSampler.sample", "pyPDP/sampler/bayesian_optimization.py:BayesianOptimizationSampler._sample"]}
{"id": "C45", "title": "BO: number of random initial points", "statement": "If the first call asks for at least initial_points points, exactly initial_points random points precede the acquisition steps; if earlier calls asked for fewer, up to 2*initial_points - 1 random points are drawn.", "quantifier": "all histories of call sizes", "why_tests_cant": "histories", "anchors": ["pyPDP/sampler/bayesian_optimization.py:BayesianOptimizationSampler._sample_initial_points"]}
{"id": "C46", "title": "fit_surrogate always refits", "statement": "fit_surrogate(force=False) refits the surrogate even when it is already fitted on the current points, contrary to its docstring: the stored hash object never equals a new one.", "quantifier": "all states", "why_tests_cant": "performance-only in tests", "anchors": ["pyPDP/sampler/bayesian_optimization.py:BayesianOptimizationSampler.fit_surrogate"]}
{"id": "C47", "title": "get_optimum maximizes the acquisition function over the drawn candidates", "statement": "The acquisition values are those of the predictions for the given configurations or arrays, in their order. AcquisitionFunction.get_optimum returns the first drawn configuration with maximal acquisition value; SurrogateModel.get_incumbent the first with minimal (maximal) predicted mean. When one candidate is drawn and sample_configuration(1) returns it without a list, get_optimum returns the name of a hyperparameter instead of a configuration and get_incumbent raises TypeError.", "quantifier": "all candidate sets and values", "why_tests_cant": "all values and ties", "anchors": ["pyPDP/sampler/acquisition_function.py:AcquisitionFunction._get_optimum_uniform_distribution", "pyPDP/surrogate_models/__init__.py:SurrogateModel.get_incumbent"]}
{"id": "C48", "title": "Lower confidence bound and probability of improvement", "statement": "After update, expected and probable improvement are over the value given last (LCB has none). LCB is increasing in tau and sigma and decreasing in the mean when minimizing (increasing when maximizing); PI is in [0,1], is 0 where sigma is 0, increases with eta when minimizing and decreases with it when maximizing, improves with a better mean, decreases with eps, and reaches 1/2 exactly when the mean improves on eta by eps.", "quantifier": "all means, sigmas, parameters (exact arithmetic)", "why_tests_cant": "all reals", "anchors": ["pyPDP/sampler/acquisition_function.py:LowerConfidenceBound.__call__", "pyPDP/sampler/acquisition_function.py:ProbabilityOfImprovement.__call__"]}
{"id": "C49", "title": "Expected improvement", "statement": "For sigma > 0, EI is the expectation of max(eta - eps - Y, 0) for a normal Y with the predicted mean and sigma, is >= 0 and at least the plain improvement eta - mean - eps, increases with eta and sigma and decreases with the mean. Where sigma is 0 it is 0, even if the mean improves on eta. Constructing it for maximization raises NotImplementedError.", "quantifier": "all means, sigmas, parameters (exact arithmetic, normal cdf/pdf as in analysis)", "why_tests_cant": "all reals; cancellation at far tails", "anchors": ["pyPDP/sampler/acquisition_function.py:ExpectedImprovement.__call__"]}
{"id": "C50", "title": "Calling a surrogate on an array", "statement": "surrogate(X) for an ndarray X returns the vector of predicted means for no X: it raises unless X has exactly two rows, in which case it returns the single mean of the first row. For a configuration it returns the mean as a float, for any list of configurations, also an empty one, the means that predict gives for their vectors, and for a list of rows it raises TypeError; surrogate_score raises TypeError for every nonempty argument and gives two empty arrays for an empty one.", "quantifier": "all arrays, configurations and lists", "why_tests_cant": "tests do not call it with arrays", "anchors": ["pyPDP/surrogate_models/__init__.py:SurrogateModel.__call__", "pyPDP/sampler/bayesian_optimization.py:BayesianOptimizationSampler.surrogate_score"]}
{"id": "C51", "title": "pd_integral is the partial dependence", "statement": "For StyblinskiTang and distinct float hyperparameters, pd_integral returns a function on the remaining hyperparameters whose value equals the average (normalized integral) of the function over the integrated ones; repeating a hyperparameter adds its offset twice. Without arguments it raises ValueError, with a non-numerical hyperparameter among them AssertionError.", "quantifier": "all dimensions, bounds, subsets and inputs", "why_tests_cant": "numerical tests use one box", "anchors": ["pyPDP/blackbox_functions/synthetic_functions.py:StyblinskiTang.pd_integral"]}
{"id": "C52", "title": "Global bounds of the synthetic functions", "statement": "Square >= 0 with equality only at 0; NegativeSquare <= 1; Levy >= 0 with equality exactly at (1,...,1); Ackley >= 0 with equality at 0; StyblinskiTang >= -39.1662*d; CrossInTray is symmetric and < 0.", "quantifier": "all dimensions and real inputs", "why_tests_cant": "tests sample 10000 points", "anchors": ["pyPDP/blackbox_functions/synthetic_functions.py:Square", "pyPDP/blackbox_functions/synthetic_functions.py:Levy", "pyPDP/blackbox_functions/synthetic_functions.py:Ackley", "pyPDP/blackbox_functions/synthetic_functions.py:StyblinskiTang", "pyPDP/blackbox_functions/synthetic_functions.py:CrossInTray"]}
{"id": "C53", "title": "config_space_nd", "statement": "config_space_nd(d) with scalar bounds has d hyperparameters named prefix1..prefixd with the given bounds and scale, Constant where lower equals upper; with iterables it has as many as the shortest one, silently ignoring `dimensions`.", "quantifier": "all dimensions and bounds", "why_tests_cant": "all inputs", "anchors": ["pyPDP/blackbox_functions/__init__.py:config_space_nd", "pyPDP/blackbox_functions/__init__.py:BlackboxFunctionND.for_n_dimensions"]}
{"id": "C54", "title": "Maximum mean discrepancy", "statement": "maximum_mean_discrepancy is a real number in [0, sqrt 2) for at least two samples and two uniform points that are not all equal: the square root of the unbiased estimate, cut off at 0, with a Gaussian kernel whose bandwidth is the median distance. It does not depend on the order of the points, is symmetric, 0 for two equal samples and the same after moving and scaling all points; with a single sample or all points equal it is nan, with no sample or fewer than two uniform points ValueError.", "quantifier": "all samples (exact arithmetic)", "why_tests_cant": "all reals", "anchors": ["pyPDP/sampler/__init__.py:Sampler.maximum_mean_discrepancy", "pyPDP/utils/utils.py:median_distance_between_points"]}
{"id": "C55", "title": "Negative log likelihood and its delta", "statement": "negative_log_likelihood is the mean over grid points of (t-m)^2/(2v) + ln(2 pi v)/2 for true partial dependence t, regional mean m and mean variance v; it raises ValueError on a one-dimensional space. For given variances it is least exactly when the region's PDP is the true partial dependence; for a given PDP it is least exactly when every mean variance is the squared error there. delta_nll is positive exactly when the region has smaller NLL than the root (root NLL nonzero).", "quantifier": "all regions and functions (exact arithmetic)", "why_tests_cant": "all reals", "anchors": ["pyPDP/algorithms/partitioner/__init__.py:Region.negative_log_likelihood", "pyPDP/algorithms/partitioner/__init__.py:Region.delta_nll", "pyPDP/utils/utils.py:calculate_log_delta"]}
{"id": "C56", "title": "Figure grid shape", "statement": "as_quadratic_shape_as_possible_for_n_figures(n) for n >= 1 returns (w, h) with w*h >= n, h <= w, w minimal with w*w >= n and h minimal for that w; for n = 0 it raises ValueError.", "quantifier": "all n", "why_tests_cant": "all naturals", "anchors": ["pyPDP/utils/plotting.py:as_quadratic_shape_as_possible_for_n_figures"]}
{"id": "C57", "title": "Axis labels never get mixed", "statement": "check_and_set_axis either raises ValueError and leaves the axis unchanged or sets labels, limits and scale of the hyperparameters; over any history of calls on one axis, the labels never change once set.", "quantifier": "all histories of calls on an axis", "why_tests_cant": "histories", "anchors": ["pyPDP/utils/plotting.py:check_and_set_axis"]}
{"id": "C58", "title": "Evaluation ranges", "statement": "get_uniform_distributed_ranges returns one increasing range per hyperparameter with samples_per_axis points, from lower to upper inclusive (0 to 1 when scaled), evenly spaced on the axis scale.", "quantifier": "all spaces and sizes (exact arithmetic)", "why_tests_cant": "all inputs", "anchors": ["pyPDP/utils/utils.py:get_uniform_distributed_ranges"]}
{"id": "C59", "title": "ICE-curve implied space", "statement": "ICECurve.implied_config_space of an ICE curve gives the full range for every selected hyperparameter (with at least two grid points) and a Constant at the sample's unscaled value for every other one.", "quantifier": "all curves of float spaces (exact arithmetic)", "why_tests_cant": "all curves", "anchors": ["pyPDP/algorithms/ice.py:ICECurve.implied_config_space"]}
{"id": "C60", "title": "PDP arrays are cached one by one", "statement": "x_pdp, y_pdp and y_variances of a PDP are each the mean of what the ICE object shows at their own first read, and never change afterwards, whatever resets, refits or changes of `centered` follow. Hence the arrays of one PDP can stem from different calculations.", "quantifier": "all histories of operations on a PDP and its ICE", "why_tests_cant": "unbounded histories", "anchors": ["pyPDP/algorithms/pdp.py:PDP.x_pdp", "pyPDP/algorithms/pdp.py:PDP.y_pdp", "pyPDP/algorithms/pdp.py:PDP.y_variances"]}
{"id": "C61", "title": "The partitioner can be constructed", "statement": "For a non-empty selection of known hyperparameters, resolvable not_splittable names, at least one grid point and a surrogate that returns one mean and standard deviation per row, constructing a DecisionTreePartitioner and its root region raises no exception, for any number of samples.", "quantifier": "all spaces, selections, samples", "why_tests_cant": "all inputs", "anchors": ["pyPDP/algorithms/partitioner/__init__.py:Partitioner.__init__", "pyPDP/algorithms/partitioner/decision_tree_partitioner.py:DecisionTreePartitioner.__init__"]}
{"id": "C62", "title": "A forest with nothing to split on raises", "statement": "RandomForestPartitioner.partition (with a positive sample_size) raises ValueError and leaves an empty list of trees when all hyperparameters are selected or there are no samples.", "quantifier": "all forests and histories", "why_tests_cant": "all states and random streams", "anchors": ["pyPDP/algorithms/partitioner/random_forest_partitioner.py:RandomForestPartitioner.partition"]}
{"id": "C63", "title": "Random sampling and the split into calls", "statement": "Without a cache, the points of a RandomSampler are those of sample_configuration calls of the sizes asked for. For a generator whose batches continue one stream (ConfigSpace with one hyperparameter) the split into calls does not matter; for ConfigSpace's generator (all values of the first hyperparameter, then of the second, ...) with two or more hyperparameters it does. A cache of the same generator that is dropped after some replayed points makes it start again, so configurations occur twice.", "quantifier": "all splits into calls, all cache sizes", "why_tests_cant": "unbounded histories", "anchors": ["pyPDP/sampler/random_sampler.py:RandomSampler._sample", "pyPDP/sampler/__init__.py:Sampler.sample"]}
{"id": "C64", "title": "Components never share a seed", "statement": "For one integer seed, any two different classes of the library that hold a configuration space start from different random states (the hash of the class name is MD5, taken mod 2**31 after adding the seed).", "quantifier": "all integer seeds, all pairs of concrete classes", "why_tests_cant": "all integers", "anchors": ["pyPDP/utils/utils.py:ConfigSpaceHolder.__init__"]}
{"id": "C65", "title": "adjust_lightness scales the lightness", "statement": "adjust_lightness returns valid rgb colours, keeps a colour for amount 1, multiplies its HLS lightness by the amount (clamped to 0..1), is monotone in the amount in every component, gives black for amounts <= 0 and white when the product reaches 1.", "quantifier": "all rgb colours and amounts (exact arithmetic)", "why_tests_cant": "all reals", "anchors": ["pyPDP/utils/plotting.py:adjust_lightness"]}
{"id": "C66", "title": "adjust_lightness direction as documented", "statement": "The docstring (amount < 1: lighter, > 1: darker) is false: an amount below 1 makes every colour but black darker, an amount above 1 makes every colour but black and white lighter.", "quantifier": "all rgb colours and amounts (exact arithmetic)", "why_tests_cant": "all reals", "anchors": ["pyPDP/utils/plotting.py:adjust_lightness"]}
{"id": "C67", "title": "Confidence gradient", "statement": "plot_1D_confidence_color_gradients draws sigma_steps bands; band i lies between mean - f*std and mean + f*std with f = i/sigma_steps*max_sigma, so the bands are nested and stay strictly inside max_sigma; exactly one of stds and variances must be given (RuntimeError otherwise).", "quantifier": "all curves, step counts and sigmas (exact arithmetic)", "why_tests_cant": "all inputs", "anchors": ["pyPDP/utils/plotting.py:plot_1D_confidence_color_gradients"]}
{"id": "C68", "title": "Confidence lines", "statement": "plot_1D_confidence_lines draws the mean if 0 is one of the k_sigmas and, for every other k in increasing order, one line at mean - k*std and one at mean + k*std, for tuples of factors k >= 1/5. It does not for smaller factors (ValueError, alpha above 1) nor for iterators, which the membership test uses up.", "quantifier": "all curves and iterables of factors (exact arithmetic)", "why_tests_cant": "all inputs", "anchors": ["pyPDP/utils/plotting.py:plot_1D_confidence_lines"]}
{"id": "C69", "title": "plot_config_space draws a box", "statement": "plot_config_space draws, for one hyperparameter, a span from lower to upper bound, for two the rectangle of both pairs of bounds (a numerical Constant has its value as both bounds), and raises for any other number or kind of hyperparameters.", "quantifier": "all spaces, selections and axes", "why_tests_cant": "all inputs", "anchors": ["pyPDP/utils/plotting.py:plot_config_space"]}
{"id": "C70", "title": "plot_function draws the function", "statement": "plot_function draws the function at evenly spaced points (on the axis scale) of its one or two non-constant hyperparameters, with every Constant passed at its value; other numbers of hyperparameters raise ValueError, non-numerical ones AssertionError.", "quantifier": "all functions, spaces and numbers of points (exact arithmetic)", "why_tests_cant": "all inputs", "anchors": ["pyPDP/utils/plotting.py:plot_function"]}
{"id": "C71", "title": "Plots of a surrogate model", "statement": "plot_means draws the predicted means and plot_confidences the bands and lines of mean and standard deviation, over the original values, of predictions at evenly spaced unit values; for two hyperparameters a mesh of means or of standard deviations; AssertionError for more.", "quantifier": "all row-by-row surrogates, spaces and numbers of points (exact arithmetic)", "why_tests_cant": "all inputs", "anchors": ["pyPDP/surrogate_models/__init__.py:SurrogateModel.plot_means", "pyPDP/surrogate_models/__init__.py:SurrogateModel.plot_confidences"]}
{"id": "C72", "title": "Plot of a sampler", "statement": "Sampler.plot draws, over one hyperparameter, exactly the sampled points with their values, from left to right; over two the sampled points; NotImplementedError for other numbers. Without samples, one hyperparameter can be plotted and two cannot (ValueError).", "quantifier": "all samplers and selections (exact arithmetic)", "why_tests_cant": "all states", "anchors": ["pyPDP/sampler/__init__.py:Sampler.plot"]}
{"id": "C73", "title": "Plot of an acquisition function", "statement": "AcquisitionFunction.plot over one hyperparameter draws the sampled configurations with their acquisition values from left to right, and a star at the optimum of a second sample. The star's x is the first value of the optimum, so it is wrong when another hyperparameter is plotted.", "quantifier": "all acquisition functions, samples and selections (exact arithmetic)", "why_tests_cant": "all inputs", "anchors": ["pyPDP/sampler/acquisition_function.py:AcquisitionFunction.plot"]}
{"id": "C74", "title": "plot_full_bayesian needs a space of x1 alone", "statement": "plot_full_bayesian succeeds for a space with the single numerical hyperparameter x1, drawing surrogate, samples and acquisition, with its last marker at x = 0 and y = the value of x1. Two hyperparameters raise ValueError, three or more AssertionError, another name KeyError.", "quantifier": "all samplers, surrogates and acquisition functions (exact arithmetic)", "why_tests_cant": "all inputs", "anchors": ["pyPDP/utils/advanced_plots.py:plot_full_bayesian"]}
{"id": "C75", "title": "Plots of a single curve", "statement": "ICECurve.plot_values draws the curve over the original values of its hyperparameter, plot_confidences bands and lines of its standard deviation, plot_incumbent a line at its first minimum; over two hyperparameters a triangulated surface and a marked point; any other number raises NotImplementedError. Points on one line cannot be triangulated, and a space with a Constant or categorical hyperparameter cannot be plotted (TypeError).", "quantifier": "all curves of numerical spaces (exact arithmetic)", "why_tests_cant": "all curves", "anchors": ["pyPDP/algorithms/ice.py:ICECurve.plot_values", "pyPDP/algorithms/ice.py:ICECurve.plot_confidences", "pyPDP/algorithms/ice.py:ICECurve.plot_incumbent"]}
{"id": "C76", "title": "Plots of ICE objects and trees", "statement": "ICE.plot draws one line per sample: the surrogate's mean with the selected hyperparameter set to evenly spaced values, over its original values (minus its first value when centered). DecisionTreePartitioner.plot draws every one of these lines exactly once, in the colour of the leaf that holds it; a wrong number of colours or an unpartitioned tree raises AssertionError, another number of selected hyperparameters NotImplementedError.", "quantifier": "all row-by-row surrogates, spaces, samples and trees (exact arithmetic)", "why_tests_cant": "all states", "anchors": ["pyPDP/algorithms/ice.py:ICE.plot", "pyPDP/algorithms/partitioner/decision_tree_partitioner.py:DTRegion.plot", "pyPDP/algorithms/partitioner/decision_tree_partitioner.py:DecisionTreePartitioner.plot"]}
{"id": "C77", "title": "Plots of averages", "statement": "PDP.plot_values and Region.plot_values draw the average, over all samples or those of the region's curves, of the surrogate's mean with the selected hyperparameter set; plot_confidences bands and lines of the square root of the averaged variances; plot_full_pdp all of these and the ICE curves.", "quantifier": "all row-by-row surrogates, spaces, samples and trees (exact arithmetic)", "why_tests_cant": "all states", "anchors": ["pyPDP/algorithms/pdp.py:PDP.plot_values", "pyPDP/algorithms/pdp.py:PDP.plot_confidences", "pyPDP/algorithms/partitioner/__init__.py:Region.plot_values", "pyPDP/algorithms/partitioner/__init__.py:Region.plot_confidences", "pyPDP/utils/advanced_plots.py:plot_full_pdp"]}
{"id": "C78", "title": "Box of the incumbent's region", "statement": "DecisionTreePartitioner.plot_incumbent_cs draws the box of the leaf that contains the configuration: over one hyperparameter two lines and the span between them, over two a rectangle, with the bounds of the leaf's implied space; a legal configuration lies within the drawn box. Any other number of hyperparameters raises NotImplementedError. The hyperparameters drawn are those not recognised as selected: a selected integer one is drawn too.", "quantifier": "all trees, histories and configurations (exact arithmetic)", "why_tests_cant": "all states", "anchors": ["pyPDP/algorithms/partitioner/decision_tree_partitioner.py:DecisionTreePartitioner.plot_incumbent_cs"]}
{"id": "C79", "title": "Boxes of a forest", "statement": "RandomForestPartitioner.plot_incumbent_regions draws for every tree the box of the leaf that contains the configuration, in the tree's colour; every box contains the configuration. Before partition it raises TypeError. With fewer colours than trees the remaining trees are left out without an error.", "quantifier": "all forests, histories and legal configurations (exact arithmetic)", "why_tests_cant": "all states", "anchors": ["pyPDP/algorithms/partitioner/random_forest_partitioner.py:RandomForestPartitioner.plot_incumbent_regions"]}
{"id": "C80", "title": "Figures of partial dependence", "statement": "plot_2D_ICE_Curve_with_confidence draws the means and the standard deviations, each with the first minimum of the means marked. plot_hyperparameter_array_1D gives every hyperparameter one axis with its partial dependence and leaves the other axes empty. plot_hyperparameter_array_2D draws in row r and column c the surface over hyperparameter c (x) and r (y), on the diagonal the dependence on one; with one grid point per axis it raises ValueError.", "quantifier": "all row-by-row surrogates, spaces and samples (exact arithmetic)", "why_tests_cant": "all inputs", "anchors": ["pyPDP/utils/advanced_plots.py:plot_2D_ICE_Curve_with_confidence", "pyPDP/utils/advanced_plots.py:plot_hyperparameter_array_1D", "pyPDP/utils/advanced_plots.py:plot_hyperparameter_array_2D"]}
{"id": "C81", "title": "Values of the synthetic blackbox functions", "statement": "Levy, Ackley, CrossInTray, StyblinskiTang, Square and NegativeSquare return the value of their documented formula at every configuration of a space of floats, in every dimension. A call with keyword arguments reads each value by name whatever their order, and raises ValueError for a missing, unknown or illegal keyword.", "quantifier": "all dimensions and configurations (exact arithmetic)", "why_tests_cant": "unbounded dimension", "anchors": ["pyPDP/blackbox_functions/synthetic_functions.py", "pyPDP/blackbox_functions/__init__.py:BlackboxFunction.__call__"]}
{"id": "C82", "title": "Split conditions compare by value", "statement": "SplitCondition can be made exactly when one of value and normalized_value is given, a value is a number for a hyperparameter with a range, and a float comes with the flag less_equal; giving both or neither raises AssertionError. A condition made with a value keeps it, clamped to the range, and is satisfied by exactly the configurations at most (or above) it; in binary64 this fails (\"<= 1\" is not satisfied by 1). The two flags give complementary conditions. A condition made with a normalized string or integer is equality with the configuration's entry, and one made with a normalized float for a categorical hyperparameter can never be evaluated (AttributeError).", "quantifier": "all hyperparameters, arguments and configurations (by value: exact arithmetic; a witness for binary64)", "why_tests_cant": "all values", "anchors": ["pyPDP/algorithms/partitioner/decision_tree_partitioner.py:SplitCondition"]}
{"id": "C83", "title": "Surrogates around a pipeline keep the books of the last fit", "statement": "num_fitted_points is the number of targets of the last fit whose inputs could be converted, even if that fit raised. Predictions depend on the last such fit only, for every pipeline whose fit forgets earlier data; predicting and fits with inputs that cannot be converted change nothing. The text of a surrogate tells the number of points.", "quantifier": "all pipelines and histories of fit, predict and call", "why_tests_cant": "unbounded histories", "anchors": ["pyPDP/surrogate_models/sklearn_surrogates.py", "pyPDP/surrogate_models/__init__.py:SurrogateModel.fit"]}
{"id": "C84", "title": "Blackbox functions around benchmarks and callables", "statement": "A call of an HPOBench wrapper with legal keywords evaluates the benchmark at that configuration with the constructor's seed and returns its function_value; a result without it raises KeyError, exceptions of the benchmark propagate, illegal keywords raise ValueError. CallableBlackboxFunction calls its function with the configuration; a given name is used, otherwise the name tells the number of hyperparameters.", "quantifier": "all benchmarks, functions, spaces and keywords", "why_tests_cant": "arbitrary foreign code", "anchors": ["pyPDP/blackbox_functions/hpo_bench.py", "pyPDP/blackbox_functions/__init__.py:CallableBlackboxFunction"]}
{"id": "C85", "title": "Algorithms on random points", "statement": "from_random_points of every algorithm gives the object that the constructor makes from the first num_samples configurations of a fresh copy of the surrogate's space with the given seed; spaces that existed before are neither sampled nor changed. Equal seeds and equal spaces give equal objects. A seed outside 0..2^32-1 raises ValueError although the constructor takes it, and one sample raises AttributeError.", "quantifier": "all classes, random states, spaces, seeds, numbers of samples and earlier draws", "why_tests_cant": "all histories of random states", "anchors": ["pyPDP/algorithms/__init__.py:Algorithm.from_random_points"]}
{"id": "C86", "title": "Splits depend on the uncertainty alone", "statement": "Two surrogates that predict the same standard deviations give the same tree, whatever their means: the same leaves in the same order, with the same depths, conditions, x values, variances and losses.", "quantifier": "all numbers including binary64, all surrogates, spaces, samples, depths and histories of both objects", "why_tests_cant": "relates two runs on arbitrary surrogates", "anchors": ["pyPDP/algorithms/partitioner/decision_tree_partitioner.py:DecisionTreePartitioner.partition", "pyPDP/algorithms/partitioner/__init__.py:Region.loss"]}
{"id": "C87", "title": "The order of the samples does not matter", "statement": "With a surrogate that predicts row by row, permuting the samples gives the same tree: leaves with the same conditions, depths and losses, holding the same curves up to their order. In binary64 this fails: the order can decide which hyperparameter is split.", "quantifier": "all permutations, surrogates, spaces and depths (exact arithmetic; a witness for binary64)", "why_tests_cant": "relates two runs; factorially many orders", "anchors": ["pyPDP/algorithms/partitioner/decision_tree_partitioner.py:DecisionTreePartitioner.partition", "pyPDP/algorithms/partitioner/decision_tree_partitioner.py:DTRegion.calc_best_split"]}
{"id": "C88", "title": "The unit of the variances does not matter", "statement": "A surrogate whose variances are a times those of another one plus b (a > 0) gives the same tree, with a**2 times the losses. In binary64 this fails when the squares overflow.", "quantifier": "all a > 0, b, surrogates, spaces, samples and depths (exact arithmetic; a witness for binary64)", "why_tests_cant": "relates two runs; unbounded parameters", "anchors": ["pyPDP/algorithms/partitioner/decision_tree_partitioner.py:DecisionTreePartitioner.partition", "pyPDP/algorithms/partitioner/__init__.py:Region.loss"]}
{"id": "C89", "title": "A deeper tree refines a shallower one", "statement": "The leaves of partition(d') with d' >= d come in non-empty groups, one per leaf of partition(d) in order; the leaves of a group extend the conditions of that leaf and hold curves of it. Their losses sum to at most the loss of that leaf (exact arithmetic), so the total loss never grows with the depth.", "quantifier": "all depths, spaces, samples, surrogates and histories", "why_tests_cant": "unbounded depth; relates two runs", "anchors": ["pyPDP/algorithms/partitioner/decision_tree_partitioner.py:DecisionTreePartitioner.partition"]}
{"id": "C90", "title": "The unit of the objective does not matter to the acquisition functions", "statement": "If mean, eta and exploration of an objective are given in another unit (mean and eta through c * y + b, standard deviation and exploration times c, c > 0), ExpectedImprovement is multiplied by c, ProbabilityOfImprovement is the same and LowerConfidenceBound goes through c * v - b (+ b when maximizing); get_optimum returns the same candidate or error, get_incumbent the same element with its value in the new unit. A negated objective with minimize flipped gives the same values and choices for PI and LCB. With the exploration left as it is, the choice can change.", "quantifier": "all surrogates, units, candidates and both directions (exact arithmetic)", "why_tests_cant": "relates two arbitrary surrogates; unbounded parameters", "anchors": ["pyPDP/sampler/acquisition_function.py:ExpectedImprovement.__call__", "pyPDP/sampler/acquisition_function.py:ProbabilityOfImprovement.__call__", "pyPDP/sampler/acquisition_function.py:LowerConfidenceBound.__call__", "pyPDP/sampler/acquisition_function.py:AcquisitionFunction.get_optimum", "pyPDP/surrogate_models/__init__.py:SurrogateModel.get_incumbent"]}
{"id": "C91", "title": "Samplers follow the unit and the sign of the objective", "statement": "If the values of the objective go through a map that keeps the order, or that reverses it while minimize is flipped, and surrogate and acquisition function follow, then every history of operations samples the same configurations in the same order, raises the same exceptions, and ends with the mapped values and the same incumbent. The acquisition functions of the package over a surrogate that follows its data meet this for c * y + b, and for -y with PI and LCB. In binary64 negation is exact; a shift can change the incumbent.", "quantifier": "all three samplers, spaces, objectives (raising or not), histories; any number type for the general statement", "why_tests_cant": "relates two unbounded histories", "anchors": ["pyPDP/sampler/__init__.py:Sampler.sample", "pyPDP/sampler/__init__.py:Sampler.incumbent", "pyPDP/sampler/bayesian_optimization.py:BayesianOptimizationSampler._sample"]}
{"id": "C92", "title": "The element type of the samples array decides the curves", "statement": "A float array gives the curves of the specification. Integer and boolean arrays are accepted without an exception, but the grid is converted when it is written: selected hyperparameters are 1 only at the upper end of the grid for integers and 0 only at the lower end for booleans, so the surrogate is asked about corners only and a curve over one hyperparameter takes two values. Every reported value is still the prediction at the reported x. A list of rows raises AttributeError on the first read.", "quantifier": "all spaces, samples, surrogates, resolutions and selections", "why_tests_cant": "the conversion is silent; a test with float samples never meets it", "anchors": ["pyPDP/algorithms/ice.py:ICE._calculate", "pyPDP/algorithms/__init__.py:Algorithm.__init__"]}
{"id": "C93", "title": "Assigning to the attributes of an ICE object and calling reset", "statement": "After samples, num_samples and reset an object behaves like a new one on the new samples; num_samples can be left out only if the number of samples stays the same, otherwise every later read raises ValueError (the docstring of reset says the number may differ). num_grid_points_per_axis has no effect once the grid has been read, even after reset; before that, every read raises ValueError unless the number of grid points is unchanged or one, and one grid point silently makes all points of a curve predictions at 0.", "quantifier": "all histories of reads, resets, flags and surrogates before and after the assignment", "why_tests_cant": "unbounded histories with caches at different levels", "anchors": ["pyPDP/algorithms/ice.py:ICE.reset", "pyPDP/algorithms/ice.py:ICE.grid_points", "pyPDP/algorithms/ice.py:ICE._calculate", "pyPDP/algorithms/__init__.py:Algorithm.__init__"]}
{"id": "C94", "title": "Which arrays an ICE object shares", "statement": "In memory, an ICE object behaves like one whose arrays are values: it writes only to arrays of its own. What the user writes into a returned array is read again until reset, what they write into the samples is used after reset, arrays handed out before a reset keep their contents, and a curve ice[i] is a view of its row. The samples are never written to. This needs surrogates that return new arrays: with a surrogate that returns an array it keeps, reading a centered object changes the values of other objects. A surrogate that overwrites its argument changes x_ice only if there is one sample, feature or grid point.", "quantifier": "all histories of operations, surrogates, samples and memories", "why_tests_cant": "aliasing over unbounded histories", "anchors": ["pyPDP/algorithms/ice.py:ICE._calculate", "pyPDP/algorithms/ice.py:ICE.__getitem__", "pyPDP/algorithms/ice.py:ICE.y_ice"]}
{"id": "C95", "title": "The cache confuses objectives with the same text", "statement": "The cache file of a sampler is chosen by str(obj_func). All CallableBlackboxFunctions on one space have the same text whatever their function and name, and so have all HPOBench wrappers of one benchmark class whatever the task and the seed. A sampler of the second such objective, constructed after one of the first is gone (same class, space, seed), returns the first objective's values and never calls its own. Functions of other classes or dimensions and other seeds have other keys, if the digest has no collisions; in general the seed is not separated from the text that follows it.", "quantifier": "all functions, names, benchmarks, spaces, seeds and histories of the first sampler", "why_tests_cant": "needs two objectives and a cache file between runs", "anchors": ["pyPDP/sampler/__init__.py:Sampler._hash", "pyPDP/sampler/__init__.py:Sampler._load_cache", "pyPDP/blackbox_functions/__init__.py:BlackboxFunction.__repr__", "pyPDP/blackbox_functions/__init__.py:CallableBlackboxFunction.__init__", "pyPDP/blackbox_functions/hpo_bench.py:HPOBenchBlackbox.__repr__"]}
{"id": "C96", "title": "An ICE object as a sequence of curves", "statement": "After any history, ice[i] for -len(ice) <= i < len(ice) is the curve with row i of the three arrays (from the end if negative), IndexError outside. A loop over the object visits every curve once in order, with distinct names, and leaves the object as one read does. An exception of the calculation goes through the loop, except IndexError, which ends it silently: centered curves without grid points give an empty loop although len(ice) is 2. ice[a:b] never raises of its own; it is a single curve whose arrays have one dimension too many, named after the slice.", "quantifier": "all histories, samples, surrogates, positions and slices", "why_tests_cant": "unbounded positions and histories; a loop that ends early looks like one that is empty", "anchors": ["pyPDP/algorithms/ice.py:ICE.__getitem__", "pyPDP/algorithms/ice.py:ICE.__len__"]}
{"id": "C97", "title": "All ICE curves compare equal", "statement": "ICECurve is a dataclass without annotated fields, so any two curves compare equal whatever their values: a curve is in every non-empty list, list.index finds the first element and list.remove removes it. Equal curves need not have equal values.", "quantifier": "all curves and lists", "why_tests_cant": "a comparison of equal curves passes; only unequal ones show it", "anchors": ["pyPDP/algorithms/ice.py:ICECurve"]}
{"id": "C98", "title": "What the curves show of a surrogate", "statement": "For a surrogate that predicts each row on its own: if the mean ignores the selected hyperparameters every curve is constant at its sample's prediction and so is the PDP; if it looks at nothing else all curves are the same; if it is a sum of an effect of the selected and a rest, the curves are the effect shifted by the rest at the sample, the PDP is the effect shifted by the mean rest, and all centered curves are equal; if it does not fall in the selected hyperparameters, neither do curves and PDP; curves and PDP of a linear combination are the combinations. Flatness and sameness hold for the variances with the standard deviation too. A flat PDP does not mean flat curves.", "quantifier": "all spaces, samples, selections, resolutions and rowwise surrogates (exact arithmetic for sums and means)", "why_tests_cant": "quantifies over surrogates", "anchors": ["pyPDP/algorithms/ice.py:ICE._calculate", "pyPDP/algorithms/pdp.py:PDP.y_pdp", "pyPDP/algorithms/pdp.py:PDP.y_variances"]}
{"id": "C99", "title": "Curves and PDP as functions of the samples", "statement": "With a surrogate that predicts each row on its own, the curve of a sample does not depend on the other samples; permuted samples give permuted curves and the same PDP, k copies of the samples the same PDP, and the PDP of a union is the mean of the PDPs weighted by the numbers of samples. Surrogates that look at the batch do not have this, and in binary64 the order of the samples changes the PDP.", "quantifier": "all spaces, sample sets, selections and rowwise surrogates (exact arithmetic for means)", "why_tests_cant": "relates runs on arbitrary sample sets", "anchors": ["pyPDP/algorithms/ice.py:ICE._calculate", "pyPDP/algorithms/pdp.py:PDP.y_pdp", "pyPDP/algorithms/pdp.py:PDP.x_pdp"]}
{"id": "C100", "title": "The order of the selection only reorders grid points", "statement": "With a surrogate that predicts each row on its own and distinct selected hyperparameters, selecting them in another order permutes the grid points of x_ice, y_ice and y_variances (centered or not) and of the PDP, by one permutation for all samples, and changes nothing else; for two, point k2*G+k1 becomes k1*G+k2. In exact arithmetic the partitioner grows the same tree: same conditions, curves and losses.", "quantifier": "all spaces, samples, resolutions, selections and their permutations", "why_tests_cant": "permutations of arbitrarily many selected hyperparameters", "anchors": ["pyPDP/algorithms/ice.py:ICE._calculate", "pyPDP/algorithms/ice.py:ICE.grid_points", "pyPDP/algorithms/partitioner/decision_tree_partitioner.py:DecisionTreePartitioner.__init__"]}
{"id": "C101", "title": "Names, kinds, ranges and scales of the hyperparameters do not enter curves and trees", "statement": "For two spaces with as many hyperparameters, the same samples (as normalized vectors), resolution and surrogate, and selections of hyperparameters at the same positions: the arrays of ICE are the same, decision trees after any calls of partition have the same nodes, links, leaves, curves and splits (position of the hyperparameter, normalized value, side), forests with the same random numbers have the same trees, and every call raises the same exception. With float hyperparameters the configurations of one vector lie in the same leaf; an integer hyperparameter in place of a float one can put it in another.", "quantifier": "all pairs of spaces, samples, surrogates, number types (exact arithmetic for the last sentence)", "why_tests_cant": "relates runs on arbitrary pairs of spaces", "anchors": ["pyPDP/algorithms/ice.py:ICE._calculate", "pyPDP/algorithms/partitioner/decision_tree_partitioner.py:DecisionTreePartitioner.partition", "pyPDP/algorithms/partitioner/random_forest_partitioner.py:RandomForestPartitioner.partition", "pyPDP/algorithms/partitioner/decision_tree_partitioner.py:DecisionTreePartitioner.get_incumbent_region"]}
{"id": "C102", "title": "The mean confidence of a region", "statement": "At every node of a tree, after any calls of partition, mean_confidence is the mean over the curves of the region and the grid points of the absolute predicted standard deviation (exact arithmetic). The confidence of the root is the mean of those of the leaves weighted by their numbers of curves, so some leaf is at most and some at least as high as the root. It is never negative, 0 exactly if all variances are 0, and its square is at most the mean variance, with equality exactly if all variances are equal. That a split makes the region of the incumbent more confident is false; so is the first sentence in binary64 for deviations whose square underflows.", "quantifier": "all setups, histories, depths and regions", "why_tests_cant": "needs every tree and surrogate; the mean over leaves is exact only over the reals", "anchors": ["pyPDP/algorithms/partitioner/__init__.py:Region.mean_confidence", "pyPDP/algorithms/partitioner/decision_tree_partitioner.py:DecisionTreePartitioner.partition"]}
{"id": "C103", "title": "The numbers of the experiment", "statement": "In figure_6_table_1_data_generation, on a space of at least two float hyperparameters with one selected, with a surrogate whose deviations are never 0 and an incumbent within its bounds: every number of splits gives one row, the same as that of a new partitioner on which only this partition was called; mc and nll are those of the leaf whose conditions the incumbent satisfies; its box lies in the space, keeps the whole range of the selected hyperparameter and holds the incumbent; nll is the mean Gaussian negative log likelihood under the partial dependence of the function on the box, base_nll that of the root under the one on the space; nothing raises. A table entry is the mean relative gain in percent, positive if every replication gains, but it can be positive although the regions are worse on average. visualize_bad_nll averages the gains of the running sums, which is the table entry for one replication and can differ from it otherwise. The true partial dependence it draws for the regions is shifted by what the other hyperparameters contribute over the whole space, which is counted twice: off by -25/3 for Styblinski-Tang in three dimensions.", "quantifier": "all setups, surrogates, incumbents, lists of numbers of splits and replications (exact arithmetic)", "why_tests_cant": "needs the whole pipeline for every surrogate; the averages look plausible", "anchors": ["examples/main_paper.py:figure_6_table_1_data_generation", "examples/main_paper.py:table_1_drawing", "examples/main_paper.py:visualize_bad_nll", "pyPDP/algorithms/partitioner/decision_tree_partitioner.py:DecisionTreePartitioner.get_incumbent_region", "pyPDP/algorithms/partitioner/decision_tree_partitioner.py:DTRegion.implied_config_space", "pyPDP/algorithms/partitioner/__init__.py:Region.negative_log_likelihood"]}
{"id": "C104", "title": "The order of the leaves", "statement": "partition hands out its leaves in decreasing order: of two leaves, the earlier one is on the upper side (>) of the split at which their paths part, so one value of one hyperparameter separates the curves of any two leaves, the earlier ones above it. With a single splittable hyperparameter the leaves are consecutive intervals in decreasing order. partition(1) with two leaves returns the upper side first and the lower side second, so left_region, right_region = partitioner.leaves in figure_4 swaps them, for every partitioner.", "quantifier": "all setups, histories, depths, pairs of leaves and number types", "why_tests_cant": "a test sees one tree; the order follows from the stack discipline of all of them", "anchors": ["pyPDP/algorithms/partitioner/decision_tree_partitioner.py:DecisionTreePartitioner.partition", "examples/main_paper.py:figure_4"]}
{"id": "C105", "title": "What decides a split when losses tie", "statement": "Every split in every tree is the first of the best ones in the order of the loops: hyperparameters in the order of the space, split values from low to high (all number types). If the predicted deviation looks at the selected hyperparameters only, no region has any loss, yet every region that may be split is split, at the first allowed candidate: partition does not ask for a gain. If the deviation is a step in one splittable hyperparameter at a split value with enough samples on both sides, no leaf of any depth has any loss; but the tree need not split on that hyperparameter.", "quantifier": "all setups, histories, depths, surrogates and samples (exact arithmetic for losses)", "why_tests_cant": "ties are rare in random tests and decided by loop order", "anchors": ["pyPDP/algorithms/partitioner/decision_tree_partitioner.py:DecisionTreePartitioner.calc_best_split", "pyPDP/algorithms/partitioner/__init__.py:Region.loss"]}
{"id": "C106", "title": "More choice for the partitioner", "statement": "If a partitioner may split on at least the same hyperparameters at at least the same values and with no larger minimum node size, every region that was split is still split and the total loss of its two sides is no larger. n split values are among n' ones if n + 1 divides n' + 1. So after partition(1) the losses of the leaves add up to no more. For deeper trees this is false: three split values instead of one, or a minimum size of one instead of two, can give a worse tree of depth two, since splits are chosen greedily.", "quantifier": "all regions, spaces, settings, surrogates and samples (exact arithmetic for sums and split values)", "why_tests_cant": "compares runs under different settings", "anchors": ["pyPDP/algorithms/partitioner/decision_tree_partitioner.py:DecisionTreePartitioner.calc_best_split", "pyPDP/algorithms/partitioner/decision_tree_partitioner.py:DecisionTreePartitioner.partition", "pyPDP/algorithms/partitioner/decision_tree_partitioner.py:DecisionTreePartitioner.__init__"]}
{"id": "C107", "title": "Curves on a finer grid", "statement": "With k * (g - 1) + 1 instead of g grid points per axis every point of the coarse grid is also a point of the fine one, and for a surrogate that predicts row by row the ICE curves (centered or not), variances and the PDP have the same values there; with one selected hyperparameter point i becomes point k * i, with two point (i, j) becomes (k * i, k * j). More points alone do not suffice: the middle of 3 points is not among 4. In binary64 the shared points may differ in the last place, so a surrogate with a jump may give other values.", "quantifier": "all spaces, selections, samples, row-wise surrogates, g and k (exact arithmetic; binary64 refuted)", "why_tests_cant": "compares two grids for all surrogates", "anchors": ["pyPDP/algorithms/ice.py:ICE._calculate", "pyPDP/algorithms/ice.py:ICE.grid_points", "pyPDP/algorithms/pdp.py:PDP.y_pdp"]}
{"id": "C108", "title": "From the sampler to the tree", "statement": "For a space of numerical hyperparameters every configuration of a sampler (random, grid or Bayesian optimization, after any calls, failures, resets and cache files) lies in exactly one leaf of every tree of a partitioner over that space, and get_incumbent_region returns that leaf. If the objective returned numbers the sampler's incumbent exists, has the best value and has a leaf. The numbers of sampled configurations in the leaves add up to the number of sampled configurations.", "quantifier": "all worlds, histories, spaces of numerical hyperparameters, settings and depths (exact arithmetic)", "why_tests_cant": "composition of three modules over all histories", "anchors": ["pyPDP/sampler/__init__.py:Sampler.sample", "pyPDP/sampler/__init__.py:Sampler.incumbent", "pyPDP/algorithms/partitioner/decision_tree_partitioner.py:DecisionTreePartitioner.get_incumbent_region", "pyPDP/algorithms/partitioner/decision_tree_partitioner.py:DecisionTreePartitioner.partition"]}
{"id": "C109", "title": "The order of the hyperparameters in the space", "statement": "Rearranging the hyperparameters of the space together with the columns of the samples and the inputs of the surrogate rearranges the columns of x_ice and x_pdp and changes nothing else of the curves (also not which exception is raised). If no split of a tree ties with a split by another hyperparameter, the trees for both orders have the same leaves in the same order, with the same splits, curves and losses, and a configuration has the same incumbent region. Ties or not, partition(1) gives as many leaves with the same total loss. With a tie the order decides the split, and at depth two the totals may differ.", "quantifier": "all spaces, orders, selections, samples, surrogates, settings, histories and depths", "why_tests_cant": "a relation between two runs for all permutations", "anchors": ["pyPDP/algorithms/ice.py:ICE._calculate", "pyPDP/algorithms/pdp.py:PDP.x_pdp", "pyPDP/algorithms/partitioner/decision_tree_partitioner.py:DecisionTreePartitioner.calc_best_split", "pyPDP/algorithms/partitioner/decision_tree_partitioner.py:DecisionTreePartitioner.partition", "pyPDP/algorithms/partitioner/decision_tree_partitioner.py:DecisionTreePartitioner.get_incumbent_region", "pyPDP/algorithms/partitioner/__init__.py:Partitioner.__init__"]}
{"id": "C110", "title": "The ready-made benchmarks", "statement": "Each of the seven get_* functions makes the benchmark of its class from the task and seed asked for (seed 0, task 2079 and the reduced Cartpole unless given), returns the function together with the function's own space, which is the benchmark's space for that seed, and every call of the function evaluates that benchmark with that seed; exceptions of the library are passed on. If the library's objects carry the name of the class, the text of the function tells the class and nothing else, so a sampler on another task or seed of the same class, over an equal space, replays the first one's values from its cache file.", "quantifier": "all libraries, tasks, seeds, keywords, samplers and histories", "why_tests_cant": "the library is not installable everywhere and the tests use one task and seed", "anchors": ["pyPDP/blackbox_functions/hpo_bench.py:get_Cifar100NasBench201Benchmark", "pyPDP/blackbox_functions/hpo_bench.py:get_BNNOnBostonHousing", "pyPDP/blackbox_functions/hpo_bench.py:get_Paramnet", "pyPDP/blackbox_functions/hpo_bench.py:get_Cartpole", "pyPDP/blackbox_functions/hpo_bench.py:get_SVMBenchmarkMF", "pyPDP/blackbox_functions/hpo_bench.py:get_RFBenchmarkMF", "pyPDP/blackbox_functions/hpo_bench.py:get_NNBenchmarkMF", "pyPDP/sampler/__init__.py:Sampler._hash"]}
{"id": "C111", "title": "How far rounding moves averages", "statement": "In binary64, with finite predictions of at most M, each value of a PDP and of a region's curve differs from the exact mean of the predictions by at most 9/8 (n+1) 2^-53 M + 2^-1075 for n curves, and the mean confidence of a region from the exact mean of the square roots by a relative 9/8 (k+2) 2^-53 for k values (plus 3 times 2^-1075). For a mean the bound holds for every order and bracketing of the additions with d in place of n, if no number goes through more than d additions, so also for numpy's blocks and pairwise sums.", "quantifier": "all finite inputs up to 2^900 (variances up to 2^1000), all lengths below 2^49, all orders of summation", "why_tests_cant": "tests compare with tolerances on a few inputs", "anchors": ["pyPDP/algorithms/pdp.py:PDP.y_pdp", "pyPDP/algorithms/partitioner/__init__.py:Region.pdp_as_ice_curve", "pyPDP/algorithms/partitioner/__init__.py:Region.mean_confidence"]}
{"id": "C112", "title": "Splits chosen in binary64 are nearly the best", "statement": "In binary64, if the deviations that the surrogate predicts are finite and at most S (between 2^-250 and 2^199), the computed loss of every split that a region of n curves and G grid points is offered is finite and within e = nG (n + nG + 5) 2^-50 (2 S^2)^2 of the exact loss of the stored variances. Hence the split that is made has an exact loss of at most that of every other split that the settings allow, plus 2e; a split that is better than all others by more than 2e is the one made; a split increases the computed loss by at most 2e although it never increases the exact one; and no region stays whole because a loss is infinite or NaN. The comparison of two splits holds for every order of the additions, with the number of additions in place of n and nG.", "quantifier": "all setups, histories of partition calls, regions and offered splits with nG below 2^49", "why_tests_cant": "tests check a few splits on well-separated data; near ties and long sums are not tried", "anchors": ["pyPDP/algorithms/partitioner/decision_tree_partitioner.py:DecisionTreePartitioner.calc_best_split", "pyPDP/algorithms/partitioner/__init__.py:Region.loss", "pyPDP/algorithms/partitioner/decision_tree_partitioner.py:DecisionTreePartitioner.partition"]}
{"id": "C113", "title": "Grids, split values and centered curves in binary64", "statement": "In binary64 the g points of an axis are finite and strictly increasing, start at +0 and end at 1, and point i is within a relative 3 * 2^-53 of i / (g - 1). If g - 1 is a power of two the points are exact, so a grid with 2^j steps per axis and the one with 2^(i+j) steps give the same floats, bit for bit, at the points of the coarser one (coordinates, means, variances, centered curves and PDP; surrogates that predict row by row), which is false for other numbers of steps (C107). A partitioner with n splits per feature has n different split values, finite, strictly increasing and strictly between 0 and 1, value k within a relative 3 * 2^-53 of k / (n + 1). A centered curve starts at +0 exactly if its first prediction is finite, and with NaN if it is infinite.", "quantifier": "all numbers of points and splits up to 2^50, all configuration spaces, samples and row-by-row surrogates", "why_tests_cant": "tests use a few grid sizes and compare with tolerances", "anchors": ["pyPDP/algorithms/ice.py:ICE._calculate", "pyPDP/algorithms/partitioner/decision_tree_partitioner.py:DecisionTreePartitioner.calc_best_split", "pyPDP/algorithms/ice.py:ICE.grid_points"]}
{"id": "C114", "title": "Scaling and the leaf of a sample in binary64", "statement": "Linear hyperparameters with finite bounds, in binary64. For a coordinate x in [0,1] unscale_float gives a finite value within the bounds, at most 2^-53 * (max(|lower|, |upper|) + 3 * (upper - lower)) + 2^-1074 away from lower + x * (upper - lower); it gives the lower bound for 0, never decreases, and gives different values for coordinates that are clearly apart; a configuration made from the coordinate has the same value. The array version unscale has the same accuracy and stays above the lower bound, but may exceed the upper one (false with bounds -3 and 0.1 and coordinate 1). scale_float of a value within the bounds is in [0,1], within 2^-51 of the exact coordinate, 0 and 1 for the bounds, and never decreases. There and back, a coordinate moves by at most 2^-53 * (max(|lower|, |upper|) / (upper - lower) + 8). C03, false in binary64 in general, is true for the samples whose coordinates are at most a split value or larger than it by 2^-52 * (max(|lower|, |upper|) / (upper - lower) + 4): such a sample's curve is in exactly the regions that contain its configuration. For any sample, a region given by '<=' conditions alone contains the configurations of its curves, and one given by '>' conditions alone has the curves of the samples whose configurations it contains.", "quantifier": "all configuration spaces of linear float hyperparameters with bounds up to 2^900 and ranges of at least 2^-1000, all samples in the unit cube, up to 2^50 - 2 split values, all surrogates and sequences of partition calls", "why_tests_cant": "tests compare a few scaled values with tolerances and use few samples", "anchors": ["pyPDP/utils/utils.py:unscale_float", "pyPDP/utils/utils.py:scale_float", "pyPDP/utils/utils.py:unscale", "pyPDP/algorithms/partitioner/decision_tree_partitioner.py:SplitCondition.is_satisfied"]}
{"id": "C115", "title": "The PDP approaches the exact partial dependence", "statement": "Exact arithmetic. If the coordinates that are not selected are spread evenly over the samples (the unit cube of these coordinates, cut into k_j equal slices along coordinate j, has the same number of samples in every cell; full grids are an example) and the surrogate's mean changes by at most L_j times the change of coordinate j, then at every grid point the PDP is within the sum of L_j / k_j of the true partial dependence: the average of the mean over the unit cube of the coordinates not selected, the others as in the grid point. The PDP's variance is in the same way close to the average of the squared std. With the Styblinski-Tang function itself as surrogate on linear float hyperparameters, the PDP is therefore within the sum of C * (upper_j - lower_j) / k_j of the function that pd_integral returns for the hyperparameters not selected, where C bounds the slope of the function's terms (345/2 on the default range): with k samples in two dimensions within 1725 / k.", "quantifier": "all configuration spaces, selections, grids, sample sets that are spread evenly and Lipschitz surrogates", "why_tests_cant": "a test can compare a PDP with pd_integral for some sample sizes and a guessed tolerance; that the error vanishes as samples grow is a limit", "anchors": ["pyPDP/algorithms/pdp.py:PDP.y_pdp", "pyPDP/algorithms/pdp.py:PDP.y_variances", "pyPDP/blackbox_functions/synthetic_functions.py:StyblinskiTang.pd_integral", "pyPDP/algorithms/ice.py:ICE._calculate"]}
{"id": "C116", "title": "Regions are as large as their boxes and their PDPs approach the box average", "statement": "Exact arithmetic. The conditions of a region describe a box in the unit cube of the coordinates that are not selected (from the largest lower to the smallest upper bound along each coordinate). If the samples are spread evenly over cells whose borders include the split values (k_j slices along coordinate j, k_j a multiple of the number of splits plus one; full grids are an example), then in every tree of every partition call: the number of curves of a region is the number of samples times the volume of its box; the region has curves exactly if its box has an inside; and at every grid point the PDP of the region is within the sum of L_j / k_j of the average of the surrogate's mean over the box, where L_j bounds how fast the mean changes along coordinate j; its variance in the same way.", "quantifier": "all configuration spaces, selections, settings, histories of partition calls, regions, evenly spread sample sets and Lipschitz surrogates", "why_tests_cant": "needs the integral over boxes found by the tree; a test can only sample it for particular trees", "anchors": ["pyPDP/algorithms/partitioner/__init__.py:Region.pdp_as_ice_curve", "pyPDP/algorithms/partitioner/decision_tree_partitioner.py:DecisionTreePartitioner.partition", "pyPDP/algorithms/partitioner/decision_tree_partitioner.py:SplitCondition.is_satisfied"]}
{"id": "C117", "title": "A PDP on the points of a grid sampler approaches the exact partial dependence", "statement": "Exact arithmetic. A new GridSampler on d float hyperparameters (linear or log scale), asked for k^d points with k values per axis, succeeds if the objective never raises, and its points are the full grid of k evenly spaced normalized values per axis in some order. So a PDP computed on them is at every grid point within (sum of L_j) / k of the exact partial dependence of the surrogate (L_j bounds how fast its mean changes along coordinate j, not selected), the variance likewise; with the Styblinski-Tang function in place of a surrogate it is as close to what pd_integral gives; and if k is a multiple of the number of splits plus one, the regions of every partition on these points are as large as their boxes and their PDPs as close to the averages over the boxes. Without rounding int(ceil((k**d)**(1/d))) is k. In binary64 it is k + 1 for d = 5 and 8 <= k <= 1552, and the points are then not this grid: refuted there.", "quantifier": "all configuration spaces of float hyperparameters, k, samplers, selections, Lipschitz surrogates, histories of partition calls", "why_tests_cant": "relates the sampler, the PDP and an integral for every k; the rounding case needs more than 30000 points in five dimensions", "anchors": ["pyPDP/sampler/grid_sampler.py:GridSampler._sample", "pyPDP/algorithms/pdp.py:PDP.x_pdp", "pyPDP/blackbox_functions/synthetic_functions.py:StyblinskiTang.pd_integral", "pyPDP/algorithms/partitioner/decision_tree_partitioner.py:DecisionTreePartitioner.partition"]}
{"id": "C118", "title": "The numbers of the forest experiment", "statement": "One replication of generate_data_trees succeeds on a numerical space with at least one sample and something to split on, for positive numbers of trees, depth and sample size. The row for n trees holds n, the mean standard deviation of all curves of the ICE object (the same number in every row) and that of the curves whose samples lie in at least half of the incumbent regions of n trees grown for this row; the row of the decision tree is about its leaf with the incumbent and is never nan. In any forest, k times the number of curves in the region for min_incumbent_overlap = k is at most the sum of the numbers of samples in the trees' incumbent regions, and the region is not empty if that sum is more than (k - 1) times the number of samples. In exact arithmetic on float hyperparameters every incumbent region of a tree holds a sample, so rows of one or two trees are never nan. That no row is nan is refuted: with three trees the region can be empty.", "quantifier": "all ICE objects with any history, random streams, incumbents, lists of tree numbers, forests, thresholds", "why_tests_cant": "follows a run through all draws of the generator and counts over trees and samples; an empty region appears only for particular draws", "anchors": ["examples/main_random_forest.py:generate_data_trees", "pyPDP/algorithms/partitioner/random_forest_partitioner.py:RandomForestPartitioner.get_incumbent_region", "pyPDP/algorithms/partitioner/random_forest_partitioner.py:RandomForestPartitioner.partition"]}
{"id": "C119", "title": "The figure of the sampler analysis", "statement": "For Styblinski-Tang in at least two dimensions plot_sampling_bias draws, for each of two or more samplers in order, an upper panel with a blue line of the mean over the repetitions of their partial dependence of x1, its confidence bands up to three deviations, and a black line of the exact partial dependence at 200 values, and a lower panel with the root of the mean variance over the values of the blue line. With equally many samples per repetition the blue line is the average over all curves of all repetitions. If every surrogate is within eps of the function on the unit cube and the samples are evenly spread, every point of the blue line is within eps plus the error of C115 of the black one. Without a repetition AttributeError is raised and nothing is drawn. That the figure can be made for any number of samplers is refuted: one sampler alone ends in TypeError after all repetitions.", "quantifier": "all spaces of linear floats, surrogates that predict row by row, samples, numbers of repetitions, samplers and grid points", "why_tests_cant": "the claim is about what all repetitions together show in relation to an integral, for every surrogate; the script draws only and checks nothing", "anchors": ["examples/main_sampler_analysis.py:plot_sampling_bias", "pyPDP/blackbox_functions/synthetic_functions.py:StyblinskiTang.pd_integral", "pyPDP/algorithms/ice.py:ICECurve.plot_values", "pyPDP/algorithms/pdp.py:PDP.y_pdp"]}
{"id": "C120", "title": "Numbers that the examples derive from trees", "statement": "The objective of the meta example is mc / base - 1, where mc is the mean confidence of the one leaf that contains the incumbent and base that of the root, for any positive number of repetitions; it lies between -1 and (samples / samples of that leaf) - 1, and is nan when base is 0. plot_tree_data raises KeyError without a line of a decision tree; otherwise it draws one star for these lines and one point for each number of trees in the file in ascending order, each the mean and the standard deviation of (base - mc) / |base| in percent over its lines, nan as soon as one of its lines is nan or has base 0, never above 100 for positive base and nonnegative mc, and independent of the order of the lines. That repetitions with equal seeds leave the objective unchanged is refuted in binary64.", "quantifier": "all spaces of numerical hyperparameters, surrogates, samples, incumbents, depths, numbers of repetitions and files", "why_tests_cant": "the claim covers every tree, every file and every order of its lines; a test fixes one", "anchors": ["examples/main_meta_pdp.py:blackbox_function", "examples/main_random_forest.py:plot_tree_data", "pyPDP/utils/utils.py:calculate_log_delta", "pyPDP/algorithms/partitioner/__init__.py:Region.mean_confidence"]}
{"id": "C121", "title": "Leaves and root in binary64", "statement": "For every tree in binary64 (samples without nan, bounded predictions, no region empty): the losses of the leaves add up to at most the loss of the root plus twice the slack of C112; at every grid point the PDP of the root, its means and its variances, is the mean of the PDPs of the leaves weighted by their sizes up to twice the error of a mean of n numbers; the mean confidence of the root is the weighted mean of those of the leaves with a relative error of about 2 (n G + 2) 2^-53, and some leaf is as confident as the root up to that error; all these numbers are finite. Without the tolerance the statements about averages are refuted: five curves with mean and deviation 0.1 have a root with 0.1 and two leaves with 0.1 and the next larger number.", "quantifier": "all settings, samples without nan, surrogates with bounded predictions, histories of calls and depths, in binary64", "why_tests_cant": "a test shows rounding errors of single trees; the bound is for all trees and all numbers", "anchors": ["pyPDP/algorithms/partitioner/__init__.py:Region.loss", "pyPDP/algorithms/partitioner/__init__.py:Region.mean_confidence", "pyPDP/algorithms/partitioner/__init__.py:Region.pdp_as_ice_curve", "pyPDP/algorithms/partitioner/decision_tree_partitioner.py:DecisionTreePartitioner.partition"]}
{"id": "C122", "title": "Acquisition functions in binary64", "statement": "In binary64, with a cdf and a pdf of absolute error at most d <= 1/8 and finite numbers that do not overflow: the computed LCB differs from the exact one by at most 2^-53 (|mean| + 3 |tau sigma|) + 2^-1074; the computed PI by at most d + 2^-52 (|eta| + |mean| + |eps|) / sigma + 2^-1075; the computed EI by at most (8 2^-53 + 2 d) (|eta| + |mean| + |eps| + sigma) + 2^-1073 (sigma + 1); all are finite, and with sigma = 0 PI and EI are 0. So no candidate is better, by exact values, than the one get_optimum returns by more than twice the largest of these errors. That the best candidate is returned is refuted: with mean 1 and deviations 0 and 2^-53 the first one is returned, as the LCBs round to the same number.", "quantifier": "all predictions, parameters, numbers of candidates, distribution functions with the stated accuracy, in binary64", "why_tests_cant": "a test shows rounding errors of single values; the bound is for all of them", "anchors": ["pyPDP/sampler/acquisition_function.py:ExpectedImprovement.__call__", "pyPDP/sampler/acquisition_function.py:ProbabilityOfImprovement.__call__", "pyPDP/sampler/acquisition_function.py:LowerConfidenceBound.__call__", "pyPDP/sampler/acquisition_function.py:AcquisitionFunction._get_optimum_uniform_distribution"]}
{"id": "C123", "title": "Regret of the lower confidence bound", "statement": "If every value of the objective is within tau predicted deviations of the predicted mean, the candidate that get_optimum of the lower confidence bound returns is at most 2 tau d worse than the best candidate, where d is the deviation predicted for it; in binary64 at most 2 tau d + 2 E worse, where E bounds the rounding errors of C122. So with a surrogate of this kind, sample(n) on a Bayesian optimization sampler that has its initial points and no cache adds n points; the i-th is chosen from the candidates of that step by the surrogate fitted on all points before it and is at most 2 tau d worse than the best of them; and so is the incumbent at the end. On a sampler with fewer points than its initial_points, sample(n) with n >= initial_points first draws initial_points points, and the same holds for the points after these. For expected improvement and probability of improvement this is refuted: with a surrogate that is right and has deviation 0 everywhere, both choose the first candidate, however bad it is.", "quantifier": "all objectives, surrogates with values in their band, candidates, tau, directions, samplers in any reachable state, n; the binary64 form for each choice", "why_tests_cant": "a test samples one objective with one surrogate; the bound is for all, and for every step", "anchors": ["pyPDP/sampler/acquisition_function.py:LowerConfidenceBound.__call__", "pyPDP/sampler/acquisition_function.py:AcquisitionFunction._get_optimum_uniform_distribution", "pyPDP/sampler/bayesian_optimization.py:BayesianOptimizationSampler._sample", "pyPDP/sampler/__init__.py:Sampler.sample"]}
{"id": "C124", "title": "Acquisition functions for small deviations", "statement": "Over the reals, with g = eta - mean - eps: for sigma > 0 expected improvement lies between max(g, 0) and max(g, 0) + sigma / 2, so it approaches max(g, 0) as sigma approaches 0, but is 0 at sigma = 0: it jumps there if and only if g > 0. Probability of improvement (with g = mean - eta - eps when maximizing) approaches 1, 1/2 or 0 for g > 0, g = 0 or g < 0 and is 0 at sigma = 0: it jumps if and only if g >= 0. The lower confidence bound does not jump. So with EI and PI get_optimum returns a candidate with a positive deviation if there is one, however good the means of those with deviation 0 are.", "quantifier": "all parameters, means, deviations and lists of candidates (exact arithmetic)", "why_tests_cant": "limits cannot be tested; a test sees single deviations", "anchors": ["pyPDP/sampler/acquisition_function.py:ExpectedImprovement.__call__", "pyPDP/sampler/acquisition_function.py:ProbabilityOfImprovement.__call__", "pyPDP/sampler/acquisition_function.py:LowerConfidenceBound.__call__", "pyPDP/sampler/acquisition_function.py:AcquisitionFunction._get_optimum_uniform_distribution"]}
{"id": "C125", "title": "Bayesian optimization over finitely many candidates finds the best", "statement": "Let every acquisition step have the same list l of candidates, the objective be f, and the surrogate have deviation 0 at the points it was fitted on. Then after sample(n) with n >= len(l), on a sampler that has its initial points and no cache, no candidate is better than the incumbent: with the lower confidence bound if the surrogate's band of tau deviations contains f, with expected or probability of improvement if its deviation is positive at all other points; the latter two have then tried every candidate. If the surrogate can be fitted and predicts, the run does not raise; then the same holds for a sampler with fewer points than its initial_points, also a new one, and n >= initial_points + len(l), where sample_configuration(1) returns a bare configuration. That len(l) - 1 steps suffice is refuted: f(x) = x minimized from x = 2 over 4 and 1, where the lower confidence bound tries 4.", "quantifier": "all objectives, surrogates of these kinds, lists of candidates, directions, parameters, reachable samplers and n (exact arithmetic)", "why_tests_cant": "a test runs one objective and one surrogate", "anchors": ["pyPDP/sampler/bayesian_optimization.py:BayesianOptimizationSampler._sample", "pyPDP/sampler/__init__.py:Sampler.sample", "pyPDP/sampler/__init__.py:Sampler.incumbent", "pyPDP/sampler/acquisition_function.py:AcquisitionFunction._get_optimum_uniform_distribution"]}
