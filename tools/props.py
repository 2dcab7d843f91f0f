#!/usr/bin/env python3
"""Single source of the property list: regenerates /verif/properties.jsonl."""
import json, os
DT = "pyPDP/algorithms/partitioner/decision_tree_partitioner.py"
PA = "pyPDP/algorithms/partitioner/__init__.py"
RF = "pyPDP/algorithms/partitioner/random_forest_partitioner.py"
ICE = "pyPDP/algorithms/ice.py"
ALG = "pyPDP/algorithms/__init__.py"
PDP = "pyPDP/algorithms/pdp.py"
UT = "pyPDP/utils/utils.py"
PL = "pyPDP/utils/plotting.py"
SA = "pyPDP/sampler/__init__.py"
BO = "pyPDP/sampler/bayesian_optimization.py"
GR = "pyPDP/sampler/grid_sampler.py"
RS = "pyPDP/sampler/random_sampler.py"
AC = "pyPDP/sampler/acquisition_function.py"
SU = "pyPDP/surrogate_models/__init__.py"
BB = "pyPDP/blackbox_functions/__init__.py"
SY = "pyPDP/blackbox_functions/synthetic_functions.py"
P = []
def p(title, statement, quantifier, why, *anchors):
    P.append(dict(id="C%02d" % (len(P) + 1), title=title, statement=statement,
                  quantifier=quantifier, why_tests_cant=why, anchors=list(anchors)))

# ---------------------------------------------------------------- decision tree
p("Leaves partition the ICE curves",
  "After DecisionTreePartitioner.partition(max_depth) returns, every ICE curve of the root region (its x values, y values and variances together) occurs in exactly one returned leaf, unchanged; no curve is lost, duplicated or mixed with another curve's values. (A curve whose split coordinate is NaN, as ConfigSpace encodes an inactive hyperparameter, is lost: the claim is for samples without NaN.)",
  "all configuration spaces, sample sets, grid sizes, selected hyperparameters, max_depth, num_splits_per_axis, min_points_per_node, and all earlier partition calls on the same object",
  "tests check only that the leaf sizes add up on a few seeds; loss or duplication of a curve depends on ties at split values and on the order of splits",
  f"{DT}:DecisionTreePartitioner.partition", f"{DT}:DTRegion.filter_by_condition", f"{DT}:DTRegion.split_at_value")
p("Every configuration lies in exactly one leaf, and get_incumbent_region returns it",
  "After partition, for every configuration that assigns a (non-NaN) number to every hyperparameter of a numerical configuration space, exactly one leaf contains it (`config in leaf`), and get_incumbent_region(config) returns that leaf, never None. Before the first partition get_incumbent_region raises AssertionError.",
  "all configurations, all reachable partitioner states",
  "the test draws 1000 random configurations, none of which hits a split boundary",
  f"{DT}:DTRegion.__contains__", f"{DT}:SplitCondition.is_satisfied", f"{DT}:DecisionTreePartitioner.get_incumbent_region")
p("A sample's configuration lies in the leaf that holds its curve",
  "In exact arithmetic on a space of float hyperparameters, the leaf that holds the ICE curve of sample s is the leaf that contains the configuration of s. With binary64 rounding, or with an integer hyperparameter, this fails: curves are routed by the normalized coordinate, configurations by the unscaled value.",
  "all samples, all leaves, all split histories, linear and log scales",
  "agreement between two different comparisons (normalized and unscaled) at every split value cannot be sampled",
  f"{DT}:DTRegion.filter_by_condition", f"{DT}:SplitCondition.is_satisfied", f"{UT}:unscale_float")
p("A leaf is exactly the set of curves satisfying its split conditions",
  "The curves of a leaf are exactly, and in the original order, those root curves whose normalized coordinates satisfy every split condition of the leaf; the number of conditions equals the leaf's depth.",
  "all reachable leaves",
  "needs every split history", f"{DT}:DTRegion.filter_by_condition", f"{DT}:DTRegion.split_at_value")
p("The chosen split is optimal",
  "calc_best_split(node) returns the pair of children produced by a (hyperparameter, split value) candidate that leaves at least min_points_per_node curves on both sides and whose total loss is minimal among all such candidates, the first one on ties; it returns None exactly when no admissible candidate has a finite loss.",
  "all regions, hyperparameter lists, numbers of candidate split values and minimum node sizes",
  "optimality quantifies over all candidates and all data", f"{DT}:DecisionTreePartitioner.calc_best_split")
p("partition terminates with bounded depth and number of leaves",
  "partition(max_depth) always terminates; every leaf has depth <= max_depth, there are at most 2**max_depth leaves and at least one.",
  "all inputs and max_depth", "termination and size bounds are claims about all executions",
  f"{DT}:DecisionTreePartitioner.partition")
p("A leaf is left unsplit only for a stated reason",
  "Every leaf either has depth max_depth, or holds at most one curve, or has no admissible split.",
  "all reachable leaves", "a universally quantified stopping condition", f"{DT}:DecisionTreePartitioner.partition", f"{DT}:DTRegion.is_splittable")
p("Minimum node size is respected",
  "Every leaf of a DecisionTreePartitioner other than an unsplit root holds at least min_points_per_node curves.",
  "all inputs", "tests never check it; depends on ties", f"{DT}:DecisionTreePartitioner.calc_best_split")
p("Selected and excluded hyperparameters are never split",
  "No split condition of any region created by partition mentions a selected hyperparameter or one listed in not_splittable_hp, and every split value is strictly between 0 and 1 in normalized units (exact arithmetic).",
  "all selections given as names, objects or lists; all reachable regions", "quantifies over all ways to select and all trees",
  f"{PA}:Partitioner.__init__", f"{DT}:DecisionTreePartitioner.calc_best_split", f"{UT}:get_hyperparameters")
p("Region loss is the within-region variance and splitting never increases it",
  "Region.loss equals the sum over grid points and curves of the squared deviation of the curve's variance from the region mean at that grid point; it is >= 0, is 0 exactly when all curves have the same variances, and the losses of the two sides of any split sum to at most the loss of the parent. Hence the total loss of the leaves is at most the loss of the root. In binary64 it fails: a surrogate with constant uncertainty has a root of loss 0 and leaves of positive loss.",
  "all regions of real-valued variances, all splits, all trees (exact arithmetic)",
  "an inequality over all real matrices", f"{PA}:Region.loss", f"{DT}:DecisionTreePartitioner.partition")
p("implied_config_space describes the leaf",
  "For a leaf of a numerical space, a configuration inside the full space is contained in the leaf iff for each hyperparameter its value is at most the implied upper bound and above the implied lower bound (or at it, if that bound was not raised by a split); the implied box is a sub-box of the full space with the same names, in the same order, and has lower < upper whenever the leaf holds a curve. A space with a hyperparameter that is not numerical raises NotImplementedError.",
  "all reachable leaves, all configurations (exact arithmetic)",
  "boundary behaviour for every leaf and configuration", f"{DT}:DTRegion.implied_config_space", f"{DT}:DTRegion.__contains__")
p("Repeated partition calls are independent",
  "The leaves returned by partition(d) do not depend on earlier partition calls on the same object: any history of calls ending in partition(d) returns the same regions (data, depth and split conditions, in the same order) as partition(d) on a fresh object.",
  "all histories of partition calls", "an unbounded set of histories", f"{DT}:DecisionTreePartitioner.partition")
p("Tree links are well formed",
  "After partition on samples without NaN, every region created by this call is the left or right child of its parent, has depth one larger, and its curves, together with its sibling's, are exactly its parent's curves; it has its parent's conditions and one more, its sibling the opposite one, 'less or equal' being on the left; the leaves returned are exactly the childless regions created by this call, or the root.",
  "all reachable partitioner states", "a heap invariant over histories", f"{DT}:DTRegion", f"{DT}:DecisionTreePartitioner.calc_best_split")
p("Constant hyperparameters are never split on",
  "If all samples have the same normalized coordinate for a hyperparameter (as for a Constant), and min_points_per_node >= 1, no region is ever split on it.",
  "all inputs", "quantifies over all trees", f"{DT}:DecisionTreePartitioner.calc_best_split")
p("Categorical hyperparameters: partition succeeds but membership raises",
  "partition accepts a space with a categorical hyperparameter, but testing whether a configuration is in a region that was split on it raises AttributeError as soon as the test gets to that condition (the unscaling needs .log). get_incumbent_region therefore either returns a leaf that contains the configuration or raises AttributeError, and it always raises when the root was split on a categorical hyperparameter.",
  "all regions split on a categorical hyperparameter", "no test partitions a categorical space and asks for the incumbent region",
  f"{DT}:SplitCondition.value", f"{UT}:unscale_float")
p("from_ICE partitions the given ICE",
  "DecisionTreePartitioner.from_ICE(ice) has as root region the curves of `ice` (x, y and variances). This holds when ice.centered is False and the surrogate was not refitted since the ICE was computed; the root always holds a freshly computed, uncentered ICE, so a centered ICE is not what gets partitioned. Its trees are those of the constructor on the ICE's space, surrogate, selection, samples and resolution with the given settings: no condition mentions a selected hyperparameter or one in not_splittable_hp, split values come from num_splits_per_axis, and min_points_per_node is respected.",
  "all ICE objects, all settings, all histories of partition calls", "the tests never partition a centered ICE", f"{DT}:DecisionTreePartitioner.from_ICE", f"{PA}:Partitioner.ice")
# ---------------------------------------------------------------- random forest
p("Random forest requires an explicit sample_size",
  "RandomForestPartitioner.partition called without sample_size (as in the README) raises TypeError before creating any tree, instead of using all samples.",
  "all forests and all other arguments", "tests always pass sample_size", f"{RF}:RandomForestPartitioner.partition")
p("Forest incumbent region is the overlap set",
  "get_incumbent_region(c, k) returns exactly the forest's ICE curves (in order, x/y/variances aligned) whose sample configuration lies in at least k of the trees' incumbent regions; k=0 gives all curves, the result shrinks as k grows, the default k is the intersection of all, and k > number of trees gives the empty region.",
  "all forests, incumbents and thresholds", "needs all forests and thresholds", f"{RF}:RandomForestPartitioner.get_incumbent_region")
p("Forest trees use bootstrapped samples and a nonempty feature subset",
  "Each tree created by partition is built on sample_size rows of the forest's samples and splits only on a nonempty subset of the forest's splittable hyperparameters; exactly num_trees trees are kept, regardless of earlier calls.",
  "all random streams and histories", "quantifies over all random masks, including the all-zero mask",
  f"{RF}:RandomForestPartitioner.partition")
p("Forest ignores its own node-size and split-count settings",
  "The min_points_per_node and num_splits_per_axis given to RandomForestPartitioner do not influence its trees: a forest with min_points_per_node = m can produce leaves with a single curve.",
  "all settings", "no test reads these settings", f"{RF}:RandomForestPartitioner.__init__", f"{RF}:RandomForestPartitioner.partition")
# ---------------------------------------------------------------- ICE / PDP
p("ICE x values",
  "ice.x_ice[i, g] equals samples[i] with the coordinates of the selected hyperparameters replaced by grid point g, in selection order; all other coordinates are unchanged; the shape is (num_samples, num_grid_points_per_axis ** n_selected, num_features).",
  "all samples, selections (any order), grid sizes, numbers of features", "tests look at shapes and one selection", f"{ICE}:ICE._calculate")
p("ICE values are surrogate predictions",
  "ice.y_ice[i, g] and ice.y_variances[i, g] are the mean and the squared standard deviation that the surrogate predicts for the row x_ice[i, g].",
  "all surrogates, samples, grids", "row/column mix-ups are invisible on shapes alone", f"{ICE}:ICE._calculate")
p("Centered ICE",
  "With centered=True each curve is shifted by its value at the first grid point, so it starts at 0 and all differences within a curve are preserved; variances and x values are unaffected.",
  "all surrogates, samples, grids", "tests check only the first column", f"{ICE}:ICE._calculate")
p("The grid is the full cartesian product",
  "ice.grid_points has num_grid_points_per_axis ** n_selected rows and contains every combination of the axis points exactly once; axis points run evenly from 0 to 1; the order is that of np.meshgrid: the second selected hyperparameter varies slowest, then the first, then the third and so on, the last one fastest (with two, the first).",
  "all grid sizes and numbers of selected hyperparameters", "tests check lengths only", f"{ICE}:ICE.grid_points")
p("ICE caching over any history",
  "Whatever the history of reads, resets, changes of `centered` and refits of the surrogate, reads of x_ice, y_ice and y_variances return results of one single calculation: the one triggered by the first read since the last reset, with the flag and surrogate of that moment.",
  "all histories of operations", "unbounded histories", f"{ICE}:ICE.reset", f"{ICE}:ICE.y_ice")
p("PDP is the pointwise mean of the ICE curves",
  "pdp.x_pdp, y_pdp and y_variances are at every grid point the mean over all curves; each lies between the minimum and the maximum over the curves; on the selected coordinates x_pdp is the grid itself. After any reads and resets of a PDP object, in any order, its arrays hold these means.",
  "all ICE sets (exact arithmetic)", "all real matrices", f"{PDP}:PDP.y_pdp", f"{PDP}:PDP.x_pdp")
p("The PDP is the size-weighted mean of the regional PDPs",
  "For the leaves of a partition, the size-weighted average of region.pdp_as_ice_curve over the leaves equals the PDP of the root, for values and variances.",
  "all partitions (exact arithmetic)", "all trees and data", f"{PA}:Region.pdp_as_ice_curve", f"{PDP}:PDP.y_pdp")
# ---------------------------------------------------------------- utils
p("scale_float and unscale_float are inverse, bounded and monotone",
  "For lower < upper (and 0 < lower on a log scale): scale_float maps into [0,1], unscale_float into [lower, upper], both are monotone (strictly on the proper range), scale(unscale(u)) = u for u in [0,1] and unscale(scale(v)) = v for v in [lower, upper]; values outside are clamped. Between 0 and 1 unscale_float gives the weighted arithmetic mean of the bounds, on a log scale the weighted geometric mean.",
  "all bounds, values, linear and log scale (exact arithmetic)", "tests use one range", f"{UT}:scale_float", f"{UT}:unscale_float")
p("Rounding: unscale_float stays in bounds and monotone in binary64, but does not round-trip",
  "In binary64 arithmetic unscale_float on a linear scale never leaves [lower, upper] and is monotone in the normalized value; it is not injective, so scale(unscale(u)) = u can fail.",
  "all finite binary64 inputs without overflow", "rounding errors at arbitrary inputs", f"{UT}:unscale_float")
p("unscale agrees with unscale_float",
  "unscale on 1-, 2- and 3-dimensional arrays applies unscale_float coordinatewise for coordinates in [0,1], also for any mixture of float and integer, linear and log axes; outside [0,1] it differs on linear axes (extrapolates without clamping). The branch for categorical hyperparameters raises TypeError on every non-empty float array.",
  "all arrays and spaces (exact arithmetic)", "all shapes and spaces", f"{UT}:unscale")
p("Hyperparameter selection is resolved uniformly",
  "convert_hyperparameters and get_hyperparameters return, for a name, a hyperparameter, or any list mixing both, the corresponding hyperparameters in the given order; unknown names raise KeyError, other items TypeError; get_selected_idx returns positions that point back at those hyperparameters.",
  "all selections and spaces", "all mixtures", f"{UT}:convert_hyperparameters", f"{UT}:get_hyperparameters", f"{UT}:get_selected_idx")
p("Seeds and config-space ownership",
  "A ConfigSpaceHolder built with an integer seed or None owns a private copy whose seed is in [0, 2**31) and whose sampling never advances the caller's configuration space; two integer seeds give the same stream for a class iff they are congruent mod 2**31; seed=True shares the caller's space, so sampling advances it.",
  "all seeds, classes, sampling histories", "histories and aliasing", f"{UT}:ConfigSpaceHolder.__init__", f"{UT}:copy_config_space")
# ---------------------------------------------------------------- samplers
p("Configurations and values stay paired (random and BO samplers)",
  "For RandomSampler and BayesianOptimizationSampler, after any history of sample/reset/clear_cache calls, with the objective or surrogate raising at any call, config_list and y_list have equal length and y_list[i] is a value that the objective returned for config_list[i] or that was stored with it in the cache.",
  "all histories, all failure points", "failure points and histories are unbounded", f"{RS}:RandomSampler._sample", f"{BO}:BayesianOptimizationSampler._sample", f"{SA}:Sampler.sample")
p("GridSampler loses the pairing when the objective raises",
  "If the objective raises during GridSampler.sample, config_list has one entry more than y_list, and values sampled afterwards are attributed to the wrong configurations; without failures the pairing holds.",
  "all histories, all failure points", "tests have no failing objectives", f"{GR}:GridSampler._sample")
p("sample(n) adds exactly n points",
  "A successful sample(n) adds exactly n points at the end and keeps earlier points, for all samplers and cache contents.",
  "all histories, n, cache contents", "histories", f"{SA}:Sampler.sample", f"{RS}:RandomSampler._sample", f"{BO}:BayesianOptimizationSampler._sample", f"{GR}:GridSampler._sample")
p("Sampling a single point",
  "Whether sample_configuration(1) yields a bare configuration or a one-element list, one of RandomSampler.sample(1) and BayesianOptimizationSampler's single initial point raises: the two samplers assume opposite contracts.",
  "both ConfigSpace contracts, all states without cache", "tests run against one installed version", f"{RS}:RandomSampler._sample", f"{BO}:BayesianOptimizationSampler._sample_initial_points")
p("The incumbent is the best sampled point",
  "sampler.incumbent is a sampled (config, value) pair with minimal (maximal when maximizing) value, the earliest such on ties; with no samples it is (None, inf) also when maximizing.",
  "all sample lists", "all lists and ties", f"{SA}:Sampler.incumbent")
p("A re-created sampler replays the cached run",
  "If a sampler with an empty cache file sampled n points and was deleted, a new sampler with the same identity whose first call is sample(m), m <= n, obtains exactly the first m points and values without calling the objective, whatever the objective does now.",
  "all samplers, n, m, objectives", "cross-run histories", f"{SA}:Sampler.sample", f"{SA}:Sampler.save_cache", f"{SA}:Sampler._load_cache")
p("Incremental use of the cache drops it too early",
  "Sampling in several calls may discard a cache that still holds enough points, because points already taken from the cache are counted twice; deleting the sampler then overwrites a larger cache file with a smaller one. A call uses the cache iff twice the points already replayed plus n do not exceed the cached total.",
  "all histories of sample calls on a loaded cache", "histories", f"{SA}:Sampler.sample", f"{SA}:Sampler.save_cache")
p("Loading the cache never fails",
  "Constructing a sampler never raises because of the cache file: for a missing, unparsable, truncated or invalid file the sampler is usable and its cache is the longest valid prefix (empty for unparsable files).",
  "all file contents, all crash points of a previous save", "crash points", f"{SA}:Sampler._load_cache", f"{SA}:Sampler.save_cache")
p("The cache key ignores the optimization direction",
  "The cache file name depends only on the sampler class, the hyperparameters, the listed arguments (seed, and for BO acquisition class, its kwargs, initial_points, surrogate class) and str(objective): a maximizing sampler replays points recorded by a minimizing one.",
  "all pairs of samplers", "tests never mix directions", f"{SA}:Sampler._hash", f"{BO}:BayesianOptimizationSampler.__init__")
p("GridSampler points are distinct",
  "After any history of successful calls, all configurations in config_list of a GridSampler are pairwise distinct (if the initial list and cache are), and each new one is a point of the generated grid.",
  "all histories, shuffles", "shuffles and histories", f"{GR}:GridSampler._sample")
p("GridSampler capacity",
  "The first sample(n) of a GridSampler on a space of float hyperparameters never exhausts its grid; a later call can: there is a history of calls on a one-dimensional space after which sample raises IndexError although finer grids exist, and a Constant or categorical hyperparameter makes even a first call fail.",
  "all n, dimensions, shuffles", "depends on shuffles and histories", f"{GR}:GridSampler._sample")
p("BO: the surrogate is fitted on all points",
  "After every successful BayesianOptimizationSampler.sample call the surrogate was last fitted on exactly the current config_list and y_list, and every acquisition step was made with a surrogate fitted on all points known before it and with the current incumbent value.",
  "all histories", "histories", f"{BO}:BayesianOptimizationSampler.sample", f"{BO}:BayesianOptimizationSampler._sample")
p("BO: number of random initial points",
  "If the first call asks for at least initial_points points, exactly initial_points random points precede the acquisition steps; if earlier calls asked for fewer, up to 2*initial_points - 1 random points are drawn.",
  "all histories of call sizes", "histories", f"{BO}:BayesianOptimizationSampler._sample_initial_points")
p("fit_surrogate always refits",
  "fit_surrogate(force=False) refits the surrogate even when it is already fitted on the current points, contrary to its docstring: the stored hash object never equals a new one.",
  "all states", "performance-only in tests", f"{BO}:BayesianOptimizationSampler.fit_surrogate")
p("get_optimum maximizes the acquisition function over the drawn candidates",
  "The acquisition values are those of the predictions for the given configurations or arrays, in their order. AcquisitionFunction.get_optimum returns the first drawn configuration with maximal acquisition value; SurrogateModel.get_incumbent the first with minimal (maximal) predicted mean. When one candidate is drawn and sample_configuration(1) returns it without a list, get_optimum returns the name of a hyperparameter instead of a configuration and get_incumbent raises TypeError.",
  "all candidate sets and values", "all values and ties", f"{AC}:AcquisitionFunction._get_optimum_uniform_distribution", f"{SU}:SurrogateModel.get_incumbent")
p("Lower confidence bound and probability of improvement",
  "After update, expected and probable improvement are over the value given last (LCB has none). LCB is increasing in tau and sigma and decreasing in the mean when minimizing (increasing when maximizing); PI is in [0,1], is 0 where sigma is 0, increases with eta when minimizing and decreases with it when maximizing, improves with a better mean, decreases with eps, and reaches 1/2 exactly when the mean improves on eta by eps.",
  "all means, sigmas, parameters (exact arithmetic)", "all reals", f"{AC}:LowerConfidenceBound.__call__", f"{AC}:ProbabilityOfImprovement.__call__")
p("Expected improvement",
  "For sigma > 0, EI is the expectation of max(eta - eps - Y, 0) for a normal Y with the predicted mean and sigma, is >= 0 and at least the plain improvement eta - mean - eps, increases with eta and sigma and decreases with the mean. Where sigma is 0 it is 0, even if the mean improves on eta. Constructing it for maximization raises NotImplementedError.",
  "all means, sigmas, parameters (exact arithmetic, normal cdf/pdf as in analysis)", "all reals; cancellation at far tails", f"{AC}:ExpectedImprovement.__call__")
p("Calling a surrogate on an array",
  "surrogate(X) for an ndarray X returns the vector of predicted means for no X: it raises unless X has exactly two rows, in which case it returns the single mean of the first row. For a configuration it returns the mean as a float, for any list of configurations, also an empty one, the means that predict gives for their vectors, and for a list of rows it raises TypeError; surrogate_score raises TypeError for every nonempty argument and gives two empty arrays for an empty one.",
  "all arrays, configurations and lists", "tests do not call it with arrays", f"{SU}:SurrogateModel.__call__", f"{BO}:BayesianOptimizationSampler.surrogate_score")
# ---------------------------------------------------------------- black box functions
p("pd_integral is the partial dependence",
  "For StyblinskiTang and distinct float hyperparameters, pd_integral returns a function on the remaining hyperparameters whose value equals the average (normalized integral) of the function over the integrated ones; repeating a hyperparameter adds its offset twice. Without arguments it raises ValueError, with a non-numerical hyperparameter among them AssertionError.",
  "all dimensions, bounds, subsets and inputs", "numerical tests use one box", f"{SY}:StyblinskiTang.pd_integral")
p("Global bounds of the synthetic functions",
  "Square >= 0 with equality only at 0; NegativeSquare <= 1; Levy >= 0 with equality exactly at (1,...,1); Ackley >= 0 with equality at 0; StyblinskiTang >= -39.1662*d; CrossInTray is symmetric and < 0.",
  "all dimensions and real inputs", "tests sample 10000 points", f"{SY}:Square", f"{SY}:Levy", f"{SY}:Ackley", f"{SY}:StyblinskiTang", f"{SY}:CrossInTray")
p("config_space_nd",
  "config_space_nd(d) with scalar bounds has d hyperparameters named prefix1..prefixd with the given bounds and scale, Constant where lower equals upper; with iterables it has as many as the shortest one, silently ignoring `dimensions`.",
  "all dimensions and bounds", "all inputs", f"{BB}:config_space_nd", f"{BB}:BlackboxFunctionND.for_n_dimensions")
# ---------------------------------------------------------------- misc numerics
p("Maximum mean discrepancy",
  "maximum_mean_discrepancy is a real number in [0, sqrt 2) for at least two samples and two uniform points that are not all equal: the square root of the unbiased estimate, cut off at 0, with a Gaussian kernel whose bandwidth is the median distance. It does not depend on the order of the points, is symmetric, 0 for two equal samples and the same after moving and scaling all points; with a single sample or all points equal it is nan, with no sample or fewer than two uniform points ValueError.",
  "all samples (exact arithmetic)", "all reals", f"{SA}:Sampler.maximum_mean_discrepancy", f"{UT}:median_distance_between_points")
p("Negative log likelihood and its delta",
  "negative_log_likelihood is the mean over grid points of (t-m)^2/(2v) + ln(2 pi v)/2 for true partial dependence t, regional mean m and mean variance v; it raises ValueError on a one-dimensional space. For given variances it is least exactly when the region's PDP is the true partial dependence; for a given PDP it is least exactly when every mean variance is the squared error there. delta_nll is positive exactly when the region has smaller NLL than the root (root NLL nonzero).",
  "all regions and functions (exact arithmetic)", "all reals", f"{PA}:Region.negative_log_likelihood", f"{PA}:Region.delta_nll", f"{UT}:calculate_log_delta")
p("Figure grid shape",
  "as_quadratic_shape_as_possible_for_n_figures(n) for n >= 1 returns (w, h) with w*h >= n, h <= w, w minimal with w*w >= n and h minimal for that w; for n = 0 it raises ValueError.",
  "all n", "all naturals", f"{PL}:as_quadratic_shape_as_possible_for_n_figures")
p("Axis labels never get mixed",
  "check_and_set_axis either raises ValueError and leaves the axis unchanged or sets labels, limits and scale of the hyperparameters; over any history of calls on one axis, the labels never change once set.",
  "all histories of calls on an axis", "histories", f"{PL}:check_and_set_axis")
p("Evaluation ranges",
  "get_uniform_distributed_ranges returns one increasing range per hyperparameter with samples_per_axis points, from lower to upper inclusive (0 to 1 when scaled), evenly spaced on the axis scale.",
  "all spaces and sizes (exact arithmetic)", "all inputs", f"{UT}:get_uniform_distributed_ranges")
p("ICE-curve implied space",
  "ICECurve.implied_config_space of an ICE curve gives the full range for every selected hyperparameter (with at least two grid points) and a Constant at the sample's unscaled value for every other one.",
  "all curves of float spaces (exact arithmetic)", "all curves", f"{ICE}:ICECurve.implied_config_space")

p("PDP arrays are cached one by one",
  "x_pdp, y_pdp and y_variances of a PDP are each the mean of what the ICE object shows at their own first read, and never change afterwards, whatever resets, refits or changes of `centered` follow. Hence the arrays of one PDP can stem from different calculations.",
  "all histories of operations on a PDP and its ICE", "unbounded histories", f"{PDP}:PDP.x_pdp", f"{PDP}:PDP.y_pdp", f"{PDP}:PDP.y_variances")
p("The partitioner can be constructed",
  "For a non-empty selection of known hyperparameters, resolvable not_splittable names, at least one grid point and a surrogate that returns one mean and standard deviation per row, constructing a DecisionTreePartitioner and its root region raises no exception, for any number of samples.",
  "all spaces, selections, samples", "all inputs", f"{PA}:Partitioner.__init__", f"{DT}:DecisionTreePartitioner.__init__")
p("A forest with nothing to split on raises",
  "RandomForestPartitioner.partition (with a positive sample_size) raises ValueError and leaves an empty list of trees when all hyperparameters are selected or there are no samples.",
  "all forests and histories", "all states and random streams", f"{RF}:RandomForestPartitioner.partition")
p("Random sampling and the split into calls",
  "Without a cache, the points of a RandomSampler are those of sample_configuration calls of the sizes asked for. For a generator whose batches continue one stream (ConfigSpace with one hyperparameter) the split into calls does not matter; for ConfigSpace's generator (all values of the first hyperparameter, then of the second, ...) with two or more hyperparameters it does. A cache of the same generator that is dropped after some replayed points makes it start again, so configurations occur twice.",
  "all splits into calls, all cache sizes", "unbounded histories", "pyPDP/sampler/random_sampler.py:RandomSampler._sample", "pyPDP/sampler/__init__.py:Sampler.sample")
p("Components never share a seed",
  "For one integer seed, any two different classes of the library that hold a configuration space start from different random states (the hash of the class name is MD5, taken mod 2**31 after adding the seed).",
  "all integer seeds, all pairs of concrete classes", "all integers", f"{UT}:ConfigSpaceHolder.__init__")

# ---------------------------------------------------------------- drawing
p("adjust_lightness scales the lightness",
  "adjust_lightness returns valid rgb colours, keeps a colour for amount 1, multiplies its HLS lightness by the amount (clamped to 0..1), is monotone in the amount in every component, gives black for amounts <= 0 and white when the product reaches 1.",
  "all rgb colours and amounts (exact arithmetic)", "all reals", f"{PL}:adjust_lightness")
p("adjust_lightness direction as documented",
  "The docstring (amount < 1: lighter, > 1: darker) is false: an amount below 1 makes every colour but black darker, an amount above 1 makes every colour but black and white lighter.",
  "all rgb colours and amounts (exact arithmetic)", "all reals", f"{PL}:adjust_lightness")
p("Confidence gradient",
  "plot_1D_confidence_color_gradients draws sigma_steps bands; band i lies between mean - f*std and mean + f*std with f = i/sigma_steps*max_sigma, so the bands are nested and stay strictly inside max_sigma; exactly one of stds and variances must be given (RuntimeError otherwise).",
  "all curves, step counts and sigmas (exact arithmetic)", "all inputs", f"{PL}:plot_1D_confidence_color_gradients")
p("Confidence lines",
  "plot_1D_confidence_lines draws the mean if 0 is one of the k_sigmas and, for every other k in increasing order, one line at mean - k*std and one at mean + k*std, for tuples of factors k >= 1/5. It does not for smaller factors (ValueError, alpha above 1) nor for iterators, which the membership test uses up.",
  "all curves and iterables of factors (exact arithmetic)", "all inputs", f"{PL}:plot_1D_confidence_lines")

p("plot_config_space draws a box",
  "plot_config_space draws, for one hyperparameter, a span from lower to upper bound, for two the rectangle of both pairs of bounds (a numerical Constant has its value as both bounds), and raises for any other number or kind of hyperparameters.",
  "all spaces, selections and axes", "all inputs", f"{PL}:plot_config_space")
p("plot_function draws the function",
  "plot_function draws the function at evenly spaced points (on the axis scale) of its one or two non-constant hyperparameters, with every Constant passed at its value; other numbers of hyperparameters raise ValueError, non-numerical ones AssertionError.",
  "all functions, spaces and numbers of points (exact arithmetic)", "all inputs", f"{PL}:plot_function")
p("Plots of a surrogate model",
  "plot_means draws the predicted means and plot_confidences the bands and lines of mean and standard deviation, over the original values, of predictions at evenly spaced unit values; for two hyperparameters a mesh of means or of standard deviations; AssertionError for more.",
  "all row-by-row surrogates, spaces and numbers of points (exact arithmetic)", "all inputs", f"{SU}:SurrogateModel.plot_means", f"{SU}:SurrogateModel.plot_confidences")
p("Plot of a sampler",
  "Sampler.plot draws, over one hyperparameter, exactly the sampled points with their values, from left to right; over two the sampled points; NotImplementedError for other numbers. Without samples, one hyperparameter can be plotted and two cannot (ValueError).",
  "all samplers and selections (exact arithmetic)", "all states", f"{SA}:Sampler.plot")
p("Plot of an acquisition function",
  "AcquisitionFunction.plot over one hyperparameter draws the sampled configurations with their acquisition values from left to right, and a star at the optimum of a second sample. The star's x is the first value of the optimum, so it is wrong when another hyperparameter is plotted.",
  "all acquisition functions, samples and selections (exact arithmetic)", "all inputs", f"{AC}:AcquisitionFunction.plot")
p("plot_full_bayesian needs a space of x1 alone",
  "plot_full_bayesian succeeds for a space with the single numerical hyperparameter x1, drawing surrogate, samples and acquisition, with its last marker at x = 0 and y = the value of x1. Two hyperparameters raise ValueError, three or more AssertionError, another name KeyError.",
  "all samplers, surrogates and acquisition functions (exact arithmetic)", "all inputs", "pyPDP/utils/advanced_plots.py:plot_full_bayesian")
p("Plots of a single curve",
  "ICECurve.plot_values draws the curve over the original values of its hyperparameter, plot_confidences bands and lines of its standard deviation, plot_incumbent a line at its first minimum; over two hyperparameters a triangulated surface and a marked point; any other number raises NotImplementedError. Points on one line cannot be triangulated, and a space with a Constant or categorical hyperparameter cannot be plotted (TypeError).",
  "all curves of numerical spaces (exact arithmetic)", "all curves", f"{ICE}:ICECurve.plot_values", f"{ICE}:ICECurve.plot_confidences", f"{ICE}:ICECurve.plot_incumbent")
p("Plots of ICE objects and trees",
  "ICE.plot draws one line per sample: the surrogate's mean with the selected hyperparameter set to evenly spaced values, over its original values (minus its first value when centered). DecisionTreePartitioner.plot draws every one of these lines exactly once, in the colour of the leaf that holds it; a wrong number of colours or an unpartitioned tree raises AssertionError, another number of selected hyperparameters NotImplementedError.",
  "all row-by-row surrogates, spaces, samples and trees (exact arithmetic)", "all states", f"{ICE}:ICE.plot", f"{DT}:DTRegion.plot", f"{DT}:DecisionTreePartitioner.plot")
p("Plots of averages",
  "PDP.plot_values and Region.plot_values draw the average, over all samples or those of the region's curves, of the surrogate's mean with the selected hyperparameter set; plot_confidences bands and lines of the square root of the averaged variances; plot_full_pdp all of these and the ICE curves.",
  "all row-by-row surrogates, spaces, samples and trees (exact arithmetic)", "all states", f"{PDP}:PDP.plot_values", f"{PDP}:PDP.plot_confidences", f"{PA}:Region.plot_values", f"{PA}:Region.plot_confidences", "pyPDP/utils/advanced_plots.py:plot_full_pdp")
p("Box of the incumbent's region",
  "DecisionTreePartitioner.plot_incumbent_cs draws the box of the leaf that contains the configuration: over one hyperparameter two lines and the span between them, over two a rectangle, with the bounds of the leaf's implied space; a legal configuration lies within the drawn box. Any other number of hyperparameters raises NotImplementedError. The hyperparameters drawn are those not recognised as selected: a selected integer one is drawn too.",
  "all trees, histories and configurations (exact arithmetic)", "all states", f"{DT}:DecisionTreePartitioner.plot_incumbent_cs")
p("Boxes of a forest",
  "RandomForestPartitioner.plot_incumbent_regions draws for every tree the box of the leaf that contains the configuration, in the tree's colour; every box contains the configuration. Before partition it raises TypeError. With fewer colours than trees the remaining trees are left out without an error.",
  "all forests, histories and legal configurations (exact arithmetic)", "all states", f"{RF}:RandomForestPartitioner.plot_incumbent_regions")
p("Figures of partial dependence",
  "plot_2D_ICE_Curve_with_confidence draws the means and the standard deviations, each with the first minimum of the means marked. plot_hyperparameter_array_1D gives every hyperparameter one axis with its partial dependence and leaves the other axes empty. plot_hyperparameter_array_2D draws in row r and column c the surface over hyperparameter c (x) and r (y), on the diagonal the dependence on one; with one grid point per axis it raises ValueError.",
  "all row-by-row surrogates, spaces and samples (exact arithmetic)", "all inputs", "pyPDP/utils/advanced_plots.py:plot_2D_ICE_Curve_with_confidence", "pyPDP/utils/advanced_plots.py:plot_hyperparameter_array_1D", "pyPDP/utils/advanced_plots.py:plot_hyperparameter_array_2D")

p("Values of the synthetic blackbox functions",
  "Levy, Ackley, CrossInTray, StyblinskiTang, Square and NegativeSquare return the value of their documented formula at every configuration of a space of floats, in every dimension. A call with keyword arguments reads each value by name whatever their order, and raises ValueError for a missing, unknown or illegal keyword.",
  "all dimensions and configurations (exact arithmetic)", "unbounded dimension", "pyPDP/blackbox_functions/synthetic_functions.py", f"{BB}:BlackboxFunction.__call__")
p("Split conditions compare by value",
  "SplitCondition can be made exactly when one of value and normalized_value is given, a value is a number for a hyperparameter with a range, and a float comes with the flag less_equal; giving both or neither raises AssertionError. A condition made with a value keeps it, clamped to the range, and is satisfied by exactly the configurations at most (or above) it; in binary64 this fails (\"<= 1\" is not satisfied by 1). The two flags give complementary conditions. A condition made with a normalized string or integer is equality with the configuration's entry, and one made with a normalized float for a categorical hyperparameter can never be evaluated (AttributeError).",
  "all hyperparameters, arguments and configurations (by value: exact arithmetic; a witness for binary64)", "all values", f"{DT}:SplitCondition")
p("Surrogates around a pipeline keep the books of the last fit",
  "num_fitted_points is the number of targets of the last fit whose inputs could be converted, even if that fit raised. Predictions depend on the last such fit only, for every pipeline whose fit forgets earlier data; predicting and fits with inputs that cannot be converted change nothing. The text of a surrogate tells the number of points.",
  "all pipelines and histories of fit, predict and call", "unbounded histories", "pyPDP/surrogate_models/sklearn_surrogates.py", f"{SU}:SurrogateModel.fit")
p("Blackbox functions around benchmarks and callables",
  "A call of an HPOBench wrapper with legal keywords evaluates the benchmark at that configuration with the constructor's seed and returns its function_value; a result without it raises KeyError, exceptions of the benchmark propagate, illegal keywords raise ValueError. CallableBlackboxFunction calls its function with the configuration; a given name is used, otherwise the name tells the number of hyperparameters.",
  "all benchmarks, functions, spaces and keywords", "arbitrary foreign code", "pyPDP/blackbox_functions/hpo_bench.py", f"{BB}:CallableBlackboxFunction")

p("Algorithms on random points",
  "from_random_points of every algorithm gives the object that the constructor makes from the first num_samples configurations of a fresh copy of the surrogate's space with the given seed; spaces that existed before are neither sampled nor changed. Equal seeds and equal spaces give equal objects. A seed outside 0..2^32-1 raises ValueError although the constructor takes it, and one sample raises AttributeError.",
  "all classes, random states, spaces, seeds, numbers of samples and earlier draws", "all histories of random states", "pyPDP/algorithms/__init__.py:Algorithm.from_random_points")

p("Splits depend on the uncertainty alone",
  "Two surrogates that predict the same standard deviations give the same tree, whatever their means: the same leaves in the same order, with the same depths, conditions, x values, variances and losses.",
  "all numbers including binary64, all surrogates, spaces, samples, depths and histories of both objects", "relates two runs on arbitrary surrogates", f"{DT}:DecisionTreePartitioner.partition", f"{PA}:Region.loss")
p("The order of the samples does not matter",
  "With a surrogate that predicts row by row, permuting the samples gives the same tree: leaves with the same conditions, depths and losses, holding the same curves up to their order. In binary64 this fails: the order can decide which hyperparameter is split.",
  "all permutations, surrogates, spaces and depths (exact arithmetic; a witness for binary64)", "relates two runs; factorially many orders", f"{DT}:DecisionTreePartitioner.partition", f"{DT}:DTRegion.calc_best_split")
p("The unit of the variances does not matter",
  "A surrogate whose variances are a times those of another one plus b (a > 0) gives the same tree, with a**2 times the losses. In binary64 this fails when the squares overflow.",
  "all a > 0, b, surrogates, spaces, samples and depths (exact arithmetic; a witness for binary64)", "relates two runs; unbounded parameters", f"{DT}:DecisionTreePartitioner.partition", f"{PA}:Region.loss")
p("A deeper tree refines a shallower one",
  "The leaves of partition(d') with d' >= d come in non-empty groups, one per leaf of partition(d) in order; the leaves of a group extend the conditions of that leaf and hold curves of it. Their losses sum to at most the loss of that leaf (exact arithmetic), so the total loss never grows with the depth.",
  "all depths, spaces, samples, surrogates and histories", "unbounded depth; relates two runs", f"{DT}:DecisionTreePartitioner.partition")

p("The unit of the objective does not matter to the acquisition functions",
  "If mean, eta and exploration of an objective are given in another unit (mean and eta through c * y + b, standard deviation and exploration times c, c > 0), ExpectedImprovement is multiplied by c, ProbabilityOfImprovement is the same and LowerConfidenceBound goes through c * v - b (+ b when maximizing); get_optimum returns the same candidate or error, get_incumbent the same element with its value in the new unit. A negated objective with minimize flipped gives the same values and choices for PI and LCB. With the exploration left as it is, the choice can change.",
  "all surrogates, units, candidates and both directions (exact arithmetic)", "relates two arbitrary surrogates; unbounded parameters", f"{AC}:ExpectedImprovement.__call__", f"{AC}:ProbabilityOfImprovement.__call__", f"{AC}:LowerConfidenceBound.__call__", f"{AC}:AcquisitionFunction.get_optimum", f"{SU}:SurrogateModel.get_incumbent")
p("Samplers follow the unit and the sign of the objective",
  "If the values of the objective go through a map that keeps the order, or that reverses it while minimize is flipped, and surrogate and acquisition function follow, then every history of operations samples the same configurations in the same order, raises the same exceptions, and ends with the mapped values and the same incumbent. The acquisition functions of the package over a surrogate that follows its data meet this for c * y + b, and for -y with PI and LCB. In binary64 negation is exact; a shift can change the incumbent.",
  "all three samplers, spaces, objectives (raising or not), histories; any number type for the general statement", "relates two unbounded histories", f"{SA}:Sampler.sample", f"{SA}:Sampler.incumbent", f"{BO}:BayesianOptimizationSampler._sample")

p("The element type of the samples array decides the curves",
  "A float array gives the curves of the specification. Integer and boolean arrays are accepted without an exception, but the grid is converted when it is written: selected hyperparameters are 1 only at the upper end of the grid for integers and 0 only at the lower end for booleans, so the surrogate is asked about corners only and a curve over one hyperparameter takes two values. Every reported value is still the prediction at the reported x. A list of rows raises AttributeError on the first read.",
  "all spaces, samples, surrogates, resolutions and selections", "the conversion is silent; a test with float samples never meets it", f"{ICE}:ICE._calculate", "pyPDP/algorithms/__init__.py:Algorithm.__init__")
p("Assigning to the attributes of an ICE object and calling reset",
  "After samples, num_samples and reset an object behaves like a new one on the new samples; num_samples can be left out only if the number of samples stays the same, otherwise every later read raises ValueError (the docstring of reset says the number may differ). num_grid_points_per_axis has no effect once the grid has been read, even after reset; before that, every read raises ValueError unless the number of grid points is unchanged or one, and one grid point silently makes all points of a curve predictions at 0.",
  "all histories of reads, resets, flags and surrogates before and after the assignment", "unbounded histories with caches at different levels", f"{ICE}:ICE.reset", f"{ICE}:ICE.grid_points", f"{ICE}:ICE._calculate", "pyPDP/algorithms/__init__.py:Algorithm.__init__")
p("Which arrays an ICE object shares",
  "In memory, an ICE object behaves like one whose arrays are values: it writes only to arrays of its own. What the user writes into a returned array is read again until reset, what they write into the samples is used after reset, arrays handed out before a reset keep their contents, and a curve ice[i] is a view of its row. The samples are never written to. This needs surrogates that return new arrays: with a surrogate that returns an array it keeps, reading a centered object changes the values of other objects. A surrogate that overwrites its argument changes x_ice only if there is one sample, feature or grid point.",
  "all histories of operations, surrogates, samples and memories", "aliasing over unbounded histories", f"{ICE}:ICE._calculate", f"{ICE}:ICE.__getitem__", f"{ICE}:ICE.y_ice")
p("The cache confuses objectives with the same text",
  "The cache file of a sampler is chosen by str(obj_func). All CallableBlackboxFunctions on one space have the same text whatever their function and name, and so have all HPOBench wrappers of one benchmark class whatever the task and the seed. A sampler of the second such objective, constructed after one of the first is gone (same class, space, seed), returns the first objective's values and never calls its own. Functions of other classes or dimensions and other seeds have other keys, if the digest has no collisions; in general the seed is not separated from the text that follows it.",
  "all functions, names, benchmarks, spaces, seeds and histories of the first sampler", "needs two objectives and a cache file between runs", f"{SA}:Sampler._hash", f"{SA}:Sampler._load_cache", f"{BB}:BlackboxFunction.__repr__", f"{BB}:CallableBlackboxFunction.__init__", "pyPDP/blackbox_functions/hpo_bench.py:HPOBenchBlackbox.__repr__")
p("An ICE object as a sequence of curves",
  "After any history, ice[i] for -len(ice) <= i < len(ice) is the curve with row i of the three arrays (from the end if negative), IndexError outside. A loop over the object visits every curve once in order, with distinct names, and leaves the object as one read does. An exception of the calculation goes through the loop, except IndexError, which ends it silently: centered curves without grid points give an empty loop although len(ice) is 2. ice[a:b] never raises of its own; it is a single curve whose arrays have one dimension too many, named after the slice.",
  "all histories, samples, surrogates, positions and slices", "unbounded positions and histories; a loop that ends early looks like one that is empty", f"{ICE}:ICE.__getitem__", f"{ICE}:ICE.__len__")
p("All ICE curves compare equal",
  "ICECurve is a dataclass without annotated fields, so any two curves compare equal whatever their values: a curve is in every non-empty list, list.index finds the first element and list.remove removes it. Equal curves need not have equal values.",
  "all curves and lists", "a comparison of equal curves passes; only unequal ones show it", f"{ICE}:ICECurve")
p("What the curves show of a surrogate",
  "For a surrogate that predicts each row on its own: if the mean ignores the selected hyperparameters every curve is constant at its sample's prediction and so is the PDP; if it looks at nothing else all curves are the same; if it is a sum of an effect of the selected and a rest, the curves are the effect shifted by the rest at the sample, the PDP is the effect shifted by the mean rest, and all centered curves are equal; if it does not fall in the selected hyperparameters, neither do curves and PDP; curves and PDP of a linear combination are the combinations. Flatness and sameness hold for the variances with the standard deviation too. A flat PDP does not mean flat curves.",
  "all spaces, samples, selections, resolutions and rowwise surrogates (exact arithmetic for sums and means)", "quantifies over surrogates", f"{ICE}:ICE._calculate", f"{PDP}:PDP.y_pdp", f"{PDP}:PDP.y_variances")
p("Curves and PDP as functions of the samples",
  "With a surrogate that predicts each row on its own, the curve of a sample does not depend on the other samples; permuted samples give permuted curves and the same PDP, k copies of the samples the same PDP, and the PDP of a union is the mean of the PDPs weighted by the numbers of samples. Surrogates that look at the batch do not have this, and in binary64 the order of the samples changes the PDP.",
  "all spaces, sample sets, selections and rowwise surrogates (exact arithmetic for means)", "relates runs on arbitrary sample sets", f"{ICE}:ICE._calculate", f"{PDP}:PDP.y_pdp", f"{PDP}:PDP.x_pdp")
p("The order of the selection only reorders grid points",
  "With a surrogate that predicts each row on its own and distinct selected hyperparameters, selecting them in another order permutes the grid points of x_ice, y_ice and y_variances (centered or not) and of the PDP, by one permutation for all samples, and changes nothing else; for two, point k2*G+k1 becomes k1*G+k2. In exact arithmetic the partitioner grows the same tree: same conditions, curves and losses.",
  "all spaces, samples, resolutions, selections and their permutations", "permutations of arbitrarily many selected hyperparameters", f"{ICE}:ICE._calculate", f"{ICE}:ICE.grid_points", f"{DT}:DecisionTreePartitioner.__init__")

p("Names, kinds, ranges and scales of the hyperparameters do not enter curves and trees",
  "For two spaces with as many hyperparameters, the same samples (as normalized vectors), resolution and surrogate, and selections of hyperparameters at the same positions: the arrays of ICE are the same, decision trees after any calls of partition have the same nodes, links, leaves, curves and splits (position of the hyperparameter, normalized value, side), forests with the same random numbers have the same trees, and every call raises the same exception. With float hyperparameters the configurations of one vector lie in the same leaf; an integer hyperparameter in place of a float one can put it in another.",
  "all pairs of spaces, samples, surrogates, number types (exact arithmetic for the last sentence)", "relates runs on arbitrary pairs of spaces", f"{ICE}:ICE._calculate", f"{DT}:DecisionTreePartitioner.partition", f"{RF}:RandomForestPartitioner.partition", f"{DT}:DecisionTreePartitioner.get_incumbent_region")

p("The mean confidence of a region",
  "At every node of a tree, after any calls of partition, mean_confidence is the mean over the curves of the region and the grid points of the absolute predicted standard deviation (exact arithmetic). The confidence of the root is the mean of those of the leaves weighted by their numbers of curves, so some leaf is at most and some at least as high as the root. It is never negative, 0 exactly if all variances are 0, and its square is at most the mean variance, with equality exactly if all variances are equal. That a split makes the region of the incumbent more confident is false; so is the first sentence in binary64 for deviations whose square underflows.",
  "all setups, histories, depths and regions", "needs every tree and surrogate; the mean over leaves is exact only over the reals", f"{PA}:Region.mean_confidence", f"{DT}:DecisionTreePartitioner.partition")

p("The numbers of the experiment",
  "In figure_6_table_1_data_generation, on a space of at least two float hyperparameters with one selected, with a surrogate whose deviations are never 0 and an incumbent within its bounds: every number of splits gives one row, the same as that of a new partitioner on which only this partition was called; mc and nll are those of the leaf whose conditions the incumbent satisfies; its box lies in the space, keeps the whole range of the selected hyperparameter and holds the incumbent; nll is the mean Gaussian negative log likelihood under the partial dependence of the function on the box, base_nll that of the root under the one on the space; nothing raises. A table entry is the mean relative gain in percent, positive if every replication gains, but it can be positive although the regions are worse on average. visualize_bad_nll averages the gains of the running sums, which is the table entry for one replication and can differ from it otherwise. The true partial dependence it draws for the regions is shifted by what the other hyperparameters contribute over the whole space, which is counted twice: off by -25/3 for Styblinski-Tang in three dimensions.",
  "all setups, surrogates, incumbents, lists of numbers of splits and replications (exact arithmetic)", "needs the whole pipeline for every surrogate; the averages look plausible", "examples/main_paper.py:figure_6_table_1_data_generation", "examples/main_paper.py:table_1_drawing", "examples/main_paper.py:visualize_bad_nll", f"{DT}:DecisionTreePartitioner.get_incumbent_region", f"{DT}:DTRegion.implied_config_space", f"{PA}:Region.negative_log_likelihood")

p("The order of the leaves",
  "partition hands out its leaves in decreasing order: of two leaves, the earlier one is on the upper side (>) of the split at which their paths part, so one value of one hyperparameter separates the curves of any two leaves, the earlier ones above it. With a single splittable hyperparameter the leaves are consecutive intervals in decreasing order. partition(1) with two leaves returns the upper side first and the lower side second, so left_region, right_region = partitioner.leaves in figure_4 swaps them, for every partitioner.",
  "all setups, histories, depths, pairs of leaves and number types", "a test sees one tree; the order follows from the stack discipline of all of them", f"{DT}:DecisionTreePartitioner.partition", "examples/main_paper.py:figure_4")

p("What decides a split when losses tie",
  "Every split in every tree is the first of the best ones in the order of the loops: hyperparameters in the order of the space, split values from low to high (all number types). If the predicted deviation looks at the selected hyperparameters only, no region has any loss, yet every region that may be split is split, at the first allowed candidate: partition does not ask for a gain. If the deviation is a step in one splittable hyperparameter at a split value with enough samples on both sides, no leaf of any depth has any loss; but the tree need not split on that hyperparameter.",
  "all setups, histories, depths, surrogates and samples (exact arithmetic for losses)", "ties are rare in random tests and decided by loop order", f"{DT}:DecisionTreePartitioner.calc_best_split", f"{PA}:Region.loss")

p("More choice for the partitioner",
  "If a partitioner may split on at least the same hyperparameters at at least the same values and with no larger minimum node size, every region that was split is still split and the total loss of its two sides is no larger. n split values are among n' ones if n + 1 divides n' + 1. So after partition(1) the losses of the leaves add up to no more. For deeper trees this is false: three split values instead of one, or a minimum size of one instead of two, can give a worse tree of depth two, since splits are chosen greedily.",
  "all regions, spaces, settings, surrogates and samples (exact arithmetic for sums and split values)", "compares runs under different settings", f"{DT}:DecisionTreePartitioner.calc_best_split", f"{DT}:DecisionTreePartitioner.partition", f"{DT}:DecisionTreePartitioner.__init__")

p("Curves on a finer grid",
  "With k * (g - 1) + 1 instead of g grid points per axis every point of the coarse grid is also a point of the fine one, and for a surrogate that predicts row by row the ICE curves (centered or not), variances and the PDP have the same values there; with one selected hyperparameter point i becomes point k * i, with two point (i, j) becomes (k * i, k * j). More points alone do not suffice: the middle of 3 points is not among 4. In binary64 the shared points may differ in the last place, so a surrogate with a jump may give other values.",
  "all spaces, selections, samples, row-wise surrogates, g and k (exact arithmetic; binary64 refuted)", "compares two grids for all surrogates", f"{ICE}:ICE._calculate", f"{ICE}:ICE.grid_points", f"{PDP}:PDP.y_pdp")

p("From the sampler to the tree",
  "For a space of numerical hyperparameters every configuration of a sampler (random, grid or Bayesian optimization, after any calls, failures, resets and cache files) lies in exactly one leaf of every tree of a partitioner over that space, and get_incumbent_region returns that leaf. If the objective returned numbers the sampler's incumbent exists, has the best value and has a leaf. The numbers of sampled configurations in the leaves add up to the number of sampled configurations.",
  "all worlds, histories, spaces of numerical hyperparameters, settings and depths (exact arithmetic)", "composition of three modules over all histories", f"{SA}:Sampler.sample", f"{SA}:Sampler.incumbent", f"{DT}:DecisionTreePartitioner.get_incumbent_region", f"{DT}:DecisionTreePartitioner.partition")

p("The order of the hyperparameters in the space",
  "Rearranging the hyperparameters of the space together with the columns of the samples and the inputs of the surrogate rearranges the columns of x_ice and x_pdp and changes nothing else of the curves (also not which exception is raised). If no split of a tree ties with a split by another hyperparameter, the trees for both orders have the same leaves in the same order, with the same splits, curves and losses, and a configuration has the same incumbent region. Ties or not, partition(1) gives as many leaves with the same total loss. With a tie the order decides the split, and at depth two the totals may differ.",
  "all spaces, orders, selections, samples, surrogates, settings, histories and depths", "a relation between two runs for all permutations", f"{ICE}:ICE._calculate", f"{PDP}:PDP.x_pdp", f"{DT}:DecisionTreePartitioner.calc_best_split", f"{DT}:DecisionTreePartitioner.partition", f"{DT}:DecisionTreePartitioner.get_incumbent_region", f"{PA}:Partitioner.__init__")

p("The ready-made benchmarks",
  "Each of the seven get_* functions makes the benchmark of its class from the task and seed asked for (seed 0, task 2079 and the reduced Cartpole unless given), returns the function together with the function's own space, which is the benchmark's space for that seed, and every call of the function evaluates that benchmark with that seed; exceptions of the library are passed on. If the library's objects carry the name of the class, the text of the function tells the class and nothing else, so a sampler on another task or seed of the same class, over an equal space, replays the first one's values from its cache file.",
  "all libraries, tasks, seeds, keywords, samplers and histories", "the library is not installable everywhere and the tests use one task and seed", "pyPDP/blackbox_functions/hpo_bench.py:get_Cifar100NasBench201Benchmark", "pyPDP/blackbox_functions/hpo_bench.py:get_BNNOnBostonHousing", "pyPDP/blackbox_functions/hpo_bench.py:get_Paramnet", "pyPDP/blackbox_functions/hpo_bench.py:get_Cartpole", "pyPDP/blackbox_functions/hpo_bench.py:get_SVMBenchmarkMF", "pyPDP/blackbox_functions/hpo_bench.py:get_RFBenchmarkMF", "pyPDP/blackbox_functions/hpo_bench.py:get_NNBenchmarkMF", f"{SA}:Sampler._hash")

p("How far rounding moves averages",
  "In binary64, with finite predictions of at most M, each value of a PDP and of a region's curve differs from the exact mean of the predictions by at most 9/8 (n+1) 2^-53 M + 2^-1075 for n curves, and the mean confidence of a region from the exact mean of the square roots by a relative 9/8 (k+2) 2^-53 for k values (plus 3 times 2^-1075). For a mean the bound holds for every order and bracketing of the additions with d in place of n, if no number goes through more than d additions, so also for numpy's blocks and pairwise sums.",
  "all finite inputs up to 2^900 (variances up to 2^1000), all lengths below 2^49, all orders of summation", "tests compare with tolerances on a few inputs", f"{PDP}:PDP.y_pdp", f"{PA}:Region.pdp_as_ice_curve", f"{PA}:Region.mean_confidence")

p("Splits chosen in binary64 are nearly the best",
  "In binary64, if the deviations that the surrogate predicts are finite and at most S (between 2^-250 and 2^199), the computed loss of every split that a region of n curves and G grid points is offered is finite and within e = nG (n + nG + 5) 2^-50 (2 S^2)^2 of the exact loss of the stored variances. Hence the split that is made has an exact loss of at most that of every other split that the settings allow, plus 2e; a split that is better than all others by more than 2e is the one made; a split increases the computed loss by at most 2e although it never increases the exact one; and no region stays whole because a loss is infinite or NaN. The comparison of two splits holds for every order of the additions, with the number of additions in place of n and nG.",
  "all setups, histories of partition calls, regions and offered splits with nG below 2^49", "tests check a few splits on well-separated data; near ties and long sums are not tried", f"{DT}:DecisionTreePartitioner.calc_best_split", f"{PA}:Region.loss", f"{DT}:DecisionTreePartitioner.partition")

p("Grids, split values and centered curves in binary64",
  "In binary64 the g points of an axis are finite and strictly increasing, start at +0 and end at 1, and point i is within a relative 3 * 2^-53 of i / (g - 1). If g - 1 is a power of two the points are exact, so a grid with 2^j steps per axis and the one with 2^(i+j) steps give the same floats, bit for bit, at the points of the coarser one (coordinates, means, variances, centered curves and PDP; surrogates that predict row by row), which is false for other numbers of steps (C107). A partitioner with n splits per feature has n different split values, finite, strictly increasing and strictly between 0 and 1, value k within a relative 3 * 2^-53 of k / (n + 1). A centered curve starts at +0 exactly if its first prediction is finite, and with NaN if it is infinite.",
  "all numbers of points and splits up to 2^50, all configuration spaces, samples and row-by-row surrogates", "tests use a few grid sizes and compare with tolerances", f"{ICE}:ICE._calculate", f"{DT}:DecisionTreePartitioner.calc_best_split", f"{ICE}:ICE.grid_points")

p("Scaling and the leaf of a sample in binary64",
  "Linear hyperparameters with finite bounds, in binary64. For a coordinate x in [0,1] unscale_float gives a finite value within the bounds, at most 2^-53 * (max(|lower|, |upper|) + 3 * (upper - lower)) + 2^-1074 away from lower + x * (upper - lower); it gives the lower bound for 0, never decreases, and gives different values for coordinates that are clearly apart; a configuration made from the coordinate has the same value. The array version unscale has the same accuracy and stays above the lower bound, but may exceed the upper one (false with bounds -3 and 0.1 and coordinate 1). scale_float of a value within the bounds is in [0,1], within 2^-51 of the exact coordinate, 0 and 1 for the bounds, and never decreases. There and back, a coordinate moves by at most 2^-53 * (max(|lower|, |upper|) / (upper - lower) + 8). C03, false in binary64 in general, is true for the samples whose coordinates are at most a split value or larger than it by 2^-52 * (max(|lower|, |upper|) / (upper - lower) + 4): such a sample's curve is in exactly the regions that contain its configuration. For any sample, a region given by '<=' conditions alone contains the configurations of its curves, and one given by '>' conditions alone has the curves of the samples whose configurations it contains.",
  "all configuration spaces of linear float hyperparameters with bounds up to 2^900 and ranges of at least 2^-1000, all samples in the unit cube, up to 2^50 - 2 split values, all surrogates and sequences of partition calls", "tests compare a few scaled values with tolerances and use few samples", f"{UT}:unscale_float", f"{UT}:scale_float", f"{UT}:unscale", f"{DT}:SplitCondition.is_satisfied")

p("The PDP approaches the exact partial dependence",
  "Exact arithmetic. If the coordinates that are not selected are spread evenly over the samples (the unit cube of these coordinates, cut into k_j equal slices along coordinate j, has the same number of samples in every cell; full grids are an example) and the surrogate's mean changes by at most L_j times the change of coordinate j, then at every grid point the PDP is within the sum of L_j / k_j of the true partial dependence: the average of the mean over the unit cube of the coordinates not selected, the others as in the grid point. The PDP's variance is in the same way close to the average of the squared std. With the Styblinski-Tang function itself as surrogate on linear float hyperparameters, the PDP is therefore within the sum of C * (upper_j - lower_j) / k_j of the function that pd_integral returns for the hyperparameters not selected, where C bounds the slope of the function's terms (345/2 on the default range): with k samples in two dimensions within 1725 / k.",
  "all configuration spaces, selections, grids, sample sets that are spread evenly and Lipschitz surrogates", "a test can compare a PDP with pd_integral for some sample sizes and a guessed tolerance; that the error vanishes as samples grow is a limit", f"{PDP}:PDP.y_pdp", f"{PDP}:PDP.y_variances", f"{SY}:StyblinskiTang.pd_integral", f"{ICE}:ICE._calculate")

p("Regions are as large as their boxes and their PDPs approach the box average",
  "Exact arithmetic. The conditions of a region describe a box in the unit cube of the coordinates that are not selected (from the largest lower to the smallest upper bound along each coordinate). If the samples are spread evenly over cells whose borders include the split values (k_j slices along coordinate j, k_j a multiple of the number of splits plus one; full grids are an example), then in every tree of every partition call: the number of curves of a region is the number of samples times the volume of its box; the region has curves exactly if its box has an inside; and at every grid point the PDP of the region is within the sum of L_j / k_j of the average of the surrogate's mean over the box, where L_j bounds how fast the mean changes along coordinate j; its variance in the same way.",
  "all configuration spaces, selections, settings, histories of partition calls, regions, evenly spread sample sets and Lipschitz surrogates", "needs the integral over boxes found by the tree; a test can only sample it for particular trees", f"{PA}:Region.pdp_as_ice_curve", f"{DT}:DecisionTreePartitioner.partition", f"{DT}:SplitCondition.is_satisfied")

p("A PDP on the points of a grid sampler approaches the exact partial dependence",
  "Exact arithmetic. A new GridSampler on d float hyperparameters (linear or log scale), asked for k^d points with k values per axis, succeeds if the objective never raises, and its points are the full grid of k evenly spaced normalized values per axis in some order. So a PDP computed on them is at every grid point within (sum of L_j) / k of the exact partial dependence of the surrogate (L_j bounds how fast its mean changes along coordinate j, not selected), the variance likewise; with the Styblinski-Tang function in place of a surrogate it is as close to what pd_integral gives; and if k is a multiple of the number of splits plus one, the regions of every partition on these points are as large as their boxes and their PDPs as close to the averages over the boxes. Without rounding int(ceil((k**d)**(1/d))) is k. In binary64 it is k + 1 for d = 5 and 8 <= k <= 1552, and the points are then not this grid: refuted there.",
  "all configuration spaces of float hyperparameters, k, samplers, selections, Lipschitz surrogates, histories of partition calls", "relates the sampler, the PDP and an integral for every k; the rounding case needs more than 30000 points in five dimensions", f"{GR}:GridSampler._sample", f"{PDP}:PDP.x_pdp", f"{SY}:StyblinskiTang.pd_integral", f"{DT}:DecisionTreePartitioner.partition")

p("The numbers of the forest experiment",
  "One replication of generate_data_trees succeeds on a numerical space with at least one sample and something to split on, for positive numbers of trees, depth and sample size. The row for n trees holds n, the mean standard deviation of all curves of the ICE object (the same number in every row) and that of the curves whose samples lie in at least half of the incumbent regions of n trees grown for this row; the row of the decision tree is about its leaf with the incumbent and is never nan. In any forest, k times the number of curves in the region for min_incumbent_overlap = k is at most the sum of the numbers of samples in the trees' incumbent regions, and the region is not empty if that sum is more than (k - 1) times the number of samples. In exact arithmetic on float hyperparameters every incumbent region of a tree holds a sample, so rows of one or two trees are never nan. That no row is nan is refuted: with three trees the region can be empty.",
  "all ICE objects with any history, random streams, incumbents, lists of tree numbers, forests, thresholds", "follows a run through all draws of the generator and counts over trees and samples; an empty region appears only for particular draws", "examples/main_random_forest.py:generate_data_trees", f"{RF}:RandomForestPartitioner.get_incumbent_region", f"{RF}:RandomForestPartitioner.partition")

p("The figure of the sampler analysis",
  "For Styblinski-Tang in at least two dimensions plot_sampling_bias draws, for each of two or more samplers in order, an upper panel with a blue line of the mean over the repetitions of their partial dependence of x1, its confidence bands up to three deviations, and a black line of the exact partial dependence at 200 values, and a lower panel with the root of the mean variance over the values of the blue line. With equally many samples per repetition the blue line is the average over all curves of all repetitions. If every surrogate is within eps of the function on the unit cube and the samples are evenly spread, every point of the blue line is within eps plus the error of C115 of the black one. Without a repetition AttributeError is raised and nothing is drawn. That the figure can be made for any number of samplers is refuted: one sampler alone ends in TypeError after all repetitions.",
  "all spaces of linear floats, surrogates that predict row by row, samples, numbers of repetitions, samplers and grid points", "the claim is about what all repetitions together show in relation to an integral, for every surrogate; the script draws only and checks nothing", "examples/main_sampler_analysis.py:plot_sampling_bias", f"{SY}:StyblinskiTang.pd_integral", f"{ICE}:ICECurve.plot_values", f"{PDP}:PDP.y_pdp")

p("Numbers that the examples derive from trees",
  "The objective of the meta example is mc / base - 1, where mc is the mean confidence of the one leaf that contains the incumbent and base that of the root, for any positive number of repetitions; it lies between -1 and (samples / samples of that leaf) - 1, and is nan when base is 0. plot_tree_data raises KeyError without a line of a decision tree; otherwise it draws one star for these lines and one point for each number of trees in the file in ascending order, each the mean and the standard deviation of (base - mc) / |base| in percent over its lines, nan as soon as one of its lines is nan or has base 0, never above 100 for positive base and nonnegative mc, and independent of the order of the lines. That repetitions with equal seeds leave the objective unchanged is refuted in binary64.",
  "all spaces of numerical hyperparameters, surrogates, samples, incumbents, depths, numbers of repetitions and files", "the claim covers every tree, every file and every order of its lines; a test fixes one", "examples/main_meta_pdp.py:blackbox_function", "examples/main_random_forest.py:plot_tree_data", f"{UT}:calculate_log_delta", f"{PA}:Region.mean_confidence")

p("Leaves and root in binary64",
  "For every tree in binary64 (samples without nan, bounded predictions, no region empty): the losses of the leaves add up to at most the loss of the root plus twice the slack of C112; at every grid point the PDP of the root, its means and its variances, is the mean of the PDPs of the leaves weighted by their sizes up to twice the error of a mean of n numbers; the mean confidence of the root is the weighted mean of those of the leaves with a relative error of about 2 (n G + 2) 2^-53, and some leaf is as confident as the root up to that error; all these numbers are finite. Without the tolerance the statements about averages are refuted: five curves with mean and deviation 0.1 have a root with 0.1 and two leaves with 0.1 and the next larger number.",
  "all settings, samples without nan, surrogates with bounded predictions, histories of calls and depths, in binary64", "a test shows rounding errors of single trees; the bound is for all trees and all numbers", f"{PA}:Region.loss", f"{PA}:Region.mean_confidence", f"{PA}:Region.pdp_as_ice_curve", f"{DT}:DecisionTreePartitioner.partition")

p("Acquisition functions in binary64",
  "In binary64, with a cdf and a pdf of absolute error at most d <= 1/8 and finite numbers that do not overflow: the computed LCB differs from the exact one by at most 2^-53 (|mean| + 3 |tau sigma|) + 2^-1074; the computed PI by at most d + 2^-52 (|eta| + |mean| + |eps|) / sigma + 2^-1075; the computed EI by at most (8 2^-53 + 2 d) (|eta| + |mean| + |eps| + sigma) + 2^-1073 (sigma + 1); all are finite, and with sigma = 0 PI and EI are 0. So no candidate is better, by exact values, than the one get_optimum returns by more than twice the largest of these errors. That the best candidate is returned is refuted: with mean 1 and deviations 0 and 2^-53 the first one is returned, as the LCBs round to the same number.",
  "all predictions, parameters, numbers of candidates, distribution functions with the stated accuracy, in binary64", "a test shows rounding errors of single values; the bound is for all of them", f"{AC}:ExpectedImprovement.__call__", f"{AC}:ProbabilityOfImprovement.__call__", f"{AC}:LowerConfidenceBound.__call__", f"{AC}:AcquisitionFunction._get_optimum_uniform_distribution")

p("Regret of the lower confidence bound",
  "If every value of the objective is within tau predicted deviations of the predicted mean, the candidate that get_optimum of the lower confidence bound returns is at most 2 tau d worse than the best candidate, where d is the deviation predicted for it; in binary64 at most 2 tau d + 2 E worse, where E bounds the rounding errors of C122. So with a surrogate of this kind, sample(n) on a Bayesian optimization sampler that has its initial points and no cache adds n points; the i-th is chosen from the candidates of that step by the surrogate fitted on all points before it and is at most 2 tau d worse than the best of them; and so is the incumbent at the end. On a sampler with fewer points than its initial_points, sample(n) with n >= initial_points first draws initial_points points, and the same holds for the points after these. For expected improvement and probability of improvement this is refuted: with a surrogate that is right and has deviation 0 everywhere, both choose the first candidate, however bad it is.",
  "all objectives, surrogates with values in their band, candidates, tau, directions, samplers in any reachable state, n; the binary64 form for each choice", "a test samples one objective with one surrogate; the bound is for all, and for every step", f"{AC}:LowerConfidenceBound.__call__", f"{AC}:AcquisitionFunction._get_optimum_uniform_distribution", f"{BO}:BayesianOptimizationSampler._sample", f"{SA}:Sampler.sample")

p("Acquisition functions for small deviations",
  "Over the reals, with g = eta - mean - eps: for sigma > 0 expected improvement lies between max(g, 0) and max(g, 0) + sigma / 2, so it approaches max(g, 0) as sigma approaches 0, but is 0 at sigma = 0: it jumps there if and only if g > 0. Probability of improvement (with g = mean - eta - eps when maximizing) approaches 1, 1/2 or 0 for g > 0, g = 0 or g < 0 and is 0 at sigma = 0: it jumps if and only if g >= 0. The lower confidence bound does not jump. So with EI and PI get_optimum returns a candidate with a positive deviation if there is one, however good the means of those with deviation 0 are.",
  "all parameters, means, deviations and lists of candidates (exact arithmetic)", "limits cannot be tested; a test sees single deviations", f"{AC}:ExpectedImprovement.__call__", f"{AC}:ProbabilityOfImprovement.__call__", f"{AC}:LowerConfidenceBound.__call__", f"{AC}:AcquisitionFunction._get_optimum_uniform_distribution")

p("Bayesian optimization over finitely many candidates finds the best",
  "Let every acquisition step have the same list l of candidates, the objective be f, and the surrogate have deviation 0 at the points it was fitted on. Then after sample(n) with n >= len(l), on a sampler that has its initial points and no cache, no candidate is better than the incumbent: with the lower confidence bound if the surrogate's band of tau deviations contains f, with expected or probability of improvement if its deviation is positive at all other points; the latter two have then tried every candidate. If the surrogate can be fitted and predicts, the run does not raise; then the same holds for a sampler with fewer points than its initial_points, also a new one, and n >= initial_points + len(l), where sample_configuration(1) returns a bare configuration. That len(l) - 1 steps suffice is refuted: f(x) = x minimized from x = 2 over 4 and 1, where the lower confidence bound tries 4.",
  "all objectives, surrogates of these kinds, lists of candidates, directions, parameters, reachable samplers and n (exact arithmetic)", "a test runs one objective and one surrogate", f"{BO}:BayesianOptimizationSampler._sample", f"{SA}:Sampler.sample", f"{SA}:Sampler.incumbent", f"{AC}:AcquisitionFunction._get_optimum_uniform_distribution")

with open("/verif/properties.jsonl", "w") as f:
    for d in P:
        f.write(json.dumps(d) + "\n")
print(len(P))
