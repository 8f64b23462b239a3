{"id": "C01", "title": "Reordering coordinates keeps every axis attached to its observable", "statement": "Calling with_obs(new_obs) on coordinates that have both observables and axes either raises (ObsIncompatibleError exactly when the two observable sets are disjoint, when new_obs has extra names and allow_superset is off, or when it lacks own names and allow_subset is off) or returns coordinates whose observables are the requested names that the object owns, in the requested order, each still paired with the axis it had before.", "quantifier": "every coordinate object with distinct observables (any number of dimensions), every requested observable tuple, every setting of the two allow flags", "why_tests_cant": "the number of permutations and subset/superset combinations grows factorially with the dimension; tests use 2 or 3 observables", "anchors": ["zfit/core/coordinates.py: Coordinates.with_obs", "zfit/core/coordinates.py: Coordinates.get_reorder_indices", "zfit/core/coordinates.py: Coordinates._reorder_obs", "zfit/core/coordinates.py: Coordinates._reorder_axes"]}
{"id": "C02", "title": "Reorderings compose and can be undone", "statement": "Reordering to a permutation and then to another gives the same coordinates as reordering directly, and reordering back to the original observables restores the original object.", "quantifier": "every coordinate object, every pair of permutations of its observables", "why_tests_cant": "needs all pairs of permutations of every length", "anchors": ["zfit/core/coordinates.py: Coordinates.with_obs"]}
{"id": "C03", "title": "Data columns are permuted by name, and the two directions of reorder_x are inverse", "statement": "reorder_x(x, x_obs=o) returns columns ordered as the coordinates' own observables where the column under each name is the column x had under that name in o; reorder_x(x, func_obs=o) goes the other way; applying one after the other gives back x.", "quantifier": "every observable order, every permutation o of it, every row length and every data value", "why_tests_cant": "quantifies over all permutations; a transposed (inverse) permutation agrees with the right one on every 2-D test", "anchors": ["zfit/core/coordinates.py: Coordinates.reorder_x", "zfit/core/coordinates.py: _reorder_indices"]}
{"id": "C04", "title": "A space keeps its limits attached to the observables under reordering", "statement": "For a rectangular space, reordering the space by with_obs and the data columns by the same permutation does not change which points are inside, nor the area of the space; selecting a subspace keeps exactly the limits of the kept observables.", "quantifier": "every rectangular space (any dimension), every permutation or subset of its observables, every data point", "why_tests_cant": "all dimensions, permutations, limits and points", "anchors": ["zfit/core/space.py: Space.with_obs", "zfit/core/space.py: Space.get_subspace", "zfit/core/space.py: Space._inside", "zfit/core/space.py: inside_rect_limits"]}
{"id": "C05", "title": "inside is exactly closed-box membership and filter keeps exactly the inside rows in order", "statement": "A point is inside a rectangular limit iff every coordinate is between its lower and upper limit (both ends included); filter returns the sub-sequence of the rows that are inside, in the original order, is idempotent, and filtering by one space after another keeps the rows inside both.", "quantifier": "every dimension, every limit, every sequence of rows", "why_tests_cant": "unbounded numbers of rows, dimensions, boundary values", "anchors": ["zfit/core/space.py: inside_rect_limits", "zfit/core/space.py: Limit._inside", "zfit/core/space.py: Limit._filter", "zfit/core/space.py: Space._filter"]}
{"id": "C06", "title": "Combining spaces is conjunction of their limits", "statement": "combine_spaces of rectangular spaces either raises LimitsIncompatibleError (exactly when two of them give different limits to a shared observable) or returns a space whose observables are the union in order of first appearance and that contains a point iff every input space contains the projection of that point.", "quantifier": "every list of rectangular spaces over any observables, every point", "why_tests_cant": "any number of spaces, overlaps and orders", "anchors": ["zfit/core/space.py: combine_spaces", "zfit/core/dimension.py: common_obs", "zfit/core/space.py: extract_limits_from_dict"]}
{"id": "C07", "title": "A space built of several limits contains a point iff one of them does, and its area is the sum", "statement": "For a space made of several rectangular limits with the same observables, inside is the disjunction over the limits, whatever order its limits are listed in; the area is the sum of the areas.", "quantifier": "every number of limits, every point", "why_tests_cant": "unbounded number of limits and points", "anchors": ["zfit/core/space.py: MultiSpace._inside", "zfit/core/space.py: MultiSpace.rect_area"]}
{"id": "C08", "title": "Equality of spaces is independent of the order of observables", "statement": "Two rectangular spaces compare equal iff they have the same set of observables and, observable by observable, limits that agree to the comparison tolerance; in particular equality is reflexive, symmetric and invariant under reordering either side.", "quantifier": "every pair of spaces, every permutation", "why_tests_cant": "all permutations and dimensions; the defect (hash disagrees with equality) shows only for reordered pairs", "anchors": ["zfit/core/space.py: compare_spaces_equal_static", "zfit/core/space.py: equal_limits", "zfit/core/space.py: BaseSpace.__hash__"]}
{"id": "C09", "title": "Ordering of spaces implies containment", "statement": "If space a <= space b then every point of a is a point of b.", "quantifier": "every pair of rectangular spaces and every point", "why_tests_cant": "needs all pairs of intervals; the usual nested test pairs are satisfied by much weaker comparisons", "anchors": ["zfit/core/space.py: less_equal_limits", "zfit/core/space.py: less_equal_space"]}
{"id": "C10", "title": "Overlapping limits are detected whatever the order they are given in", "statement": "TruncatedPDF rejects a list of limits exactly when two of them overlap with non-empty interior, independently of the order in which they are given; limits_overlap reports an overlap independently of the order of the spaces.", "quantifier": "every list of intervals in every order", "why_tests_cant": "unbounded number of limits and all their orders", "anchors": ["zfit/models/truncated.py: check_limits", "zfit/models/truncated.py: check_overlap", "zfit/core/dimension.py: limits_overlap"]}
{"id": "C11", "title": "Grouping by shared observables yields a partition", "statement": "obs_subsets groups dimension-carrying objects into groups with pairwise disjoint observables, every object is in exactly one group, and two objects that share an observable are in the same group.", "quantifier": "every list of objects with any observables, in any order", "why_tests_cant": "the failing case needs a late object bridging two earlier groups", "anchors": ["zfit/core/dimension.py: obs_subsets"]}
{"id": "C12", "title": "The value of a limited parameter is always within its limits", "statement": "After any sequence of set_value, assign, set limits, randomize and with-blocks, reading a parameter with lower <= upper returns a number between the current lower and upper limit; inside the limits it is exactly the last value written.", "quantifier": "every operation history, every value, every limits", "why_tests_cant": "quantifies over all histories", "anchors": ["zfit/core/parameter.py: Parameter.value", "zfit/core/parameter.py: Parameter.set_value", "zfit/core/parameter.py: Parameter.assign"]}
{"id": "C13", "title": "set_value rejects values outside of the limits and then changes nothing", "statement": "set_value(v) on a limited parameter raises ValueError iff v lies beyond a limit by at least the relative tolerance min(1e-5*width, 1e-7), in which case value and limits are unchanged; otherwise the next read returns v clipped to the limits, and no other parameter changes.", "quantifier": "every state of every parameter, every value", "why_tests_cant": "all values and limits including degenerate ones (lower == upper)", "anchors": ["zfit/core/parameter.py: Parameter.set_value", "zfit/core/parameter.py: Parameter._check_at_limit"]}
{"id": "C14", "title": "Temporary settings are restored in LIFO order, also when the block raises", "statement": "Using the object returned by set_value / set_values / Data.set_weights / a run-mode setter as a context manager restores the value that was readable before the call when the block is left, normally or by an exception, for any nesting of such blocks on any mix of settings.", "quantifier": "every nesting depth, every interleaving of nested blocks, every point at which the body raises", "why_tests_cant": "unbounded nesting and exception points", "anchors": ["zfit/util/temporary.py: TemporarilySet", "zfit/core/parameter.py: Parameter.set_value", "zfit/core/parameter.py: set_values", "zfit/util/execution.py: RunManager.set_graph_mode"]}
{"id": "C15", "title": "set_values assigns positionally or by name, in order, and stops at the first rejected value", "statement": "set_values(params, values) on success gives each parameter its own value and leaves every other parameter alone; given a mapping, each parameter takes the value stored under itself or its name, missing ones raise unless allow_partial; when a value is rejected, exactly the parameters before it in the list have been updated.", "quantifier": "every list of parameters and values, every mapping, every position of a rejected value", "why_tests_cant": "all lists, all failure positions", "anchors": ["zfit/core/parameter.py: set_values", "zfit/core/parameter.py: check_convert_param_values_assign", "zfit/core/parameter.py: assign_values"]}
{"id": "C16", "title": "get_params returns exactly the requested kind of parameters once each", "statement": "get_params(floating, is_yield, extract_independent) of a model or loss returns without repetition exactly those parameters reachable from it that satisfy the filters, and ComposedParameters are replaced by the independent parameters they depend on when extract_independent is set.", "quantifier": "every dependency graph of parameters and models of any depth, every filter combination", "why_tests_cant": "arbitrary depth and sharing of the parameter graph", "anchors": ["zfit/core/baseobject.py: BaseParametrized.get_params", "zfit/core/baseobject.py: extract_filter_params", "zfit/core/parameter.py: BaseComposedParameter._get_params", "zfit/models/basefunctor.py: FunctorMixin._get_params"]}
{"id": "C17", "title": "CPU bookkeeping is conserved", "statement": "Acquired CPUs are always distinct, never more than the registered ones, and after any nesting of acquire blocks that end normally every CPU is available again.", "quantifier": "every sequence of nested acquire blocks with any requested maximum", "why_tests_cant": "all nestings and exception points", "anchors": ["zfit/util/execution.py: RunManager.aquire_cpu", "zfit/util/execution.py: RunManager.set_n_cpu"]}
{"id": "C18", "title": "Invalidating a cached object invalidates everything that depends on it", "statement": "After a parameter, data set or other cachable changes, no cache of any object that (transitively) registered it as a dependency still serves a value computed before the change; caches of unrelated objects are untouched.", "quantifier": "every dependency graph, every history of registrations, reads and changes", "why_tests_cant": "arbitrary graphs and histories", "anchors": ["zfit/util/cache.py: GraphCachable.add_cache_deps", "zfit/util/cache.py: GraphCachable.reset_cache", "zfit/util/cache.py: GraphCachable._inform_cachers"]}
{"id": "C19", "title": "The compiled-function cache is bounded and first-in first-out", "statement": "However many functions are traced, a cached function keeps at most the configured number of entries; a lookup returns the entry made for an equal key if it has not been displaced, and the displaced entry is always the oldest.", "quantifier": "every sequence of calls and every cache size", "why_tests_cant": "all call histories", "anchors": ["zfit/z/zextension.py: FunctionWrapperRegistry.__call__", "zfit/z/zextension.py: FunctionWrapperRegistry.set_graph_cache_size"]}
{"id": "C20", "title": "A cached PDF or integral is never stale", "statement": "CachedPDF returns for every sequence of parameter changes and evaluations the value the wrapped PDF would return now (to the comparison tolerance of parameters and data).", "quantifier": "every history of parameter changes, floating-flag changes and evaluations on any data, norm and limits", "why_tests_cant": "quantifies over histories; staleness only shows for particular histories", "anchors": ["zfit/models/cache.py: CachedPDF._pdf", "zfit/models/cache.py: CachedPDF._integrate"]}
{"id": "C21", "title": "Data cut to a space keeps exactly the rows inside with their weights", "statement": "A data set created with observables that carry limits contains exactly the input rows inside the limits, in order, each with its own weight; the same rows are kept whether the input is an array or a mapping of columns; cutting is idempotent.", "quantifier": "every array, weights and space", "why_tests_cant": "all sizes; the column-mapping path is a different code path", "anchors": ["zfit/core/data.py: Data.__init__", "zfit/core/data.py: check_cut_data_weights", "zfit/core/data.py: check_cut_datamap_weights"]}
{"id": "C22", "title": "Reordering data selects columns by name", "statement": "data.with_obs(obs) and data.value(obs) give for every name the column that the original data had under that name, keep rows aligned and weights unchanged, and reorderings compose and undo each other; lazily converted columns and the array view never disagree.", "quantifier": "every data set, every sequence of reorderings / sub-selections and reads", "why_tests_cant": "all histories of lazily converted views", "anchors": ["zfit/core/data.py: Data.with_obs", "zfit/core/data.py: Data.value", "zfit/core/data.py: LightDataset"]}
{"id": "C23", "title": "Concatenating data loses and invents nothing", "statement": "concat along the index gives the rows of all inputs in order with weights (ones where a part has none and another has); concat along observables gives rows whose columns are those of the inputs side by side and whose weight is the product; sample sizes add up.", "quantifier": "every list of data sets", "why_tests_cant": "all lengths of lists and data", "anchors": ["zfit/core/data.py: concat_data_index", "zfit/core/data.py: concat_data_obs"]}
{"id": "C24", "title": "A resampled or updated sampler is consistent", "statement": "Updating the data of a sampler either succeeds, after which data, weights and sample size all belong to the new sample, or raises and leaves the previous sample intact.", "quantifier": "every sequence of updates with and without weights", "why_tests_cant": "all histories, including failing updates", "anchors": ["zfit/core/data.py: SamplerData.update_data", "zfit/_data/binneddatav1.py: BinnedSamplerData.update_data"]}
{"id": "C25", "title": "Reordering binned data moves bin contents with their axes", "statement": "with_obs on binned data gives counts such that the content found at given bin indices by observable name is unchanged; reordering back restores the data.", "quantifier": "every number of dimensions, every permutation, every bin content", "why_tests_cant": "a permutation and its inverse coincide for all 1-D and 2-D cases, so usual tests cannot tell them apart", "anchors": ["zfit/_data/binneddatav1.py: move_axis_obs", "zfit/_data/binneddatav1.py: BinnedHolder.with_obs"]}
{"id": "C26", "title": "Binning conserves events", "statement": "Each event inside the binning range is counted, with its weight, in exactly the bin whose edges enclose it (lower edge included) and in no other; the total of the bins is the weight of the events in range; binned data converted back to unbinned data has the same total.", "quantifier": "every set of events, weights and strictly increasing edges", "why_tests_cant": "all data and edges", "anchors": ["zfit/core/binning.py: unbinned_to_binned", "zfit/core/binning.py: unbinned_to_binindex", "zfit/_data/binneddatav1.py: BinnedData.to_unbinned"]}
{"id": "C27", "title": "Linear KDE binning conserves the total weight and the mean", "statement": "Distributing weighted events on an equally spaced grid by linear binning gives grid counts that sum to one and reproduce the weighted mean of the events, for events within the grid.", "quantifier": "every grid with at least two points, every data set and weights with positive total", "why_tests_cant": "all data sets", "anchors": ["zfit/util/binning.py: _bin_1d_weighted"]}
{"id": "C28", "title": "The negative log-likelihood of a simultaneous fit is the sum over its parts", "statement": "The value of a loss over lists of models, data and constraints is the sum of the values over the individual (model, data) pairs plus the sum of the constraints, and adding two losses gives the loss whose full value is the sum of theirs.", "quantifier": "every number of channels and constraints, every data", "why_tests_cant": "all list lengths", "anchors": ["zfit/core/loss.py: _unbinned_nll_tf", "zfit/core/loss.py: BaseLoss.__add__", "zfit/core/loss.py: UnbinnedNLL._loss_func_watched"]}
{"id": "C29", "title": "Models and data of a loss are paired one to one", "statement": "Creating a loss with n models and m data sets succeeds only if n = m, and pairs the i-th model with the i-th data.", "quantifier": "every pair of list lengths", "why_tests_cant": "all lengths", "anchors": ["zfit/core/loss.py: BaseLoss._check_convert_model_data", "zfit/core/loss.py: BaseLoss.__init__"]}
{"id": "C30", "title": "Differences of loss values do not depend on the numerical offset", "statement": "value(full=False) differs from value(full=True) by a number that does not depend on the parameter values, so differences, minima and gradients are the same; the offset is fixed at the first evaluation and kept for the life of the loss.", "quantifier": "every parameter point and every data set, weights and constraints", "why_tests_cant": "all parameter points", "anchors": ["zfit/core/loss.py: BaseLoss.value", "zfit/core/loss.py: _nll_calc_unbinned_tf", "zfit/core/loss.py: ExtendedUnbinnedNLL._loss_func", "zfit/_loss/binnedloss.py: ExtendedBinnedNLL._loss_func"]}
{"id": "C31", "title": "The extended likelihood adds exactly the Poisson term of each channel", "statement": "The extended unbinned NLL equals the unbinned NLL plus the sum over channels of yield - n log yield (plus a constant), so that for one channel with fixed shape it is minimal exactly where the yield equals the number of events.", "quantifier": "every yield > 0, every number of channels and events", "why_tests_cant": "continuum of yields", "anchors": ["zfit/core/loss.py: ExtendedUnbinnedNLL._loss_func", "zfit/_loss/binnedloss.py: poisson_loss_calc"]}
{"id": "C32", "title": "Parameters of a loss are those of its models and constraints", "statement": "get_params of a loss returns the parameters of the models in order followed by those of the constraints, without duplicates; for a non-extended likelihood yields are excluded.", "quantifier": "every list of models and constraints with any sharing", "why_tests_cant": "arbitrary sharing", "anchors": ["zfit/core/loss.py: BaseLoss._get_params", "zfit/core/loss.py: UnbinnedNLL._get_params"]}
{"id": "C33", "title": "A sum of normalised PDFs with its fractions is normalised and non-negative", "statement": "For SumPDF the fractions sum to one whenever n-1 fractions are given or all components are extended, the pdf is the fraction-weighted sum of the components, its integral over the normalisation range is one, and the extended pdf integrates to the sum of the yields.", "quantifier": "every number of components, all fractions and yields, every point", "why_tests_cant": "all component numbers and parameter values", "anchors": ["zfit/models/basefunctor.py: _preprocess_init_sum", "zfit/models/functor.py: SumPDF._pdf", "zfit/models/functor.py: SumPDF._ext_pdf", "zfit/models/functor.py: SumPDF._integrate"]}
{"id": "C34", "title": "A product of PDFs over disjoint observables factorises", "statement": "For ProductPDF with factors on disjoint observables, the pdf at a point is the product of the factors at their own coordinates, selected by name whatever the column order, and its integral over a box is the product of the factor integrals.", "quantifier": "every number of factors, any split of the observables, every column order", "why_tests_cant": "all splits and permutations", "anchors": ["zfit/models/functor.py: ProductPDF._pdf", "zfit/models/functor.py: ProductPDF._sample", "zfit/models/functor.py: ProductPDF.__init__"]}
{"id": "C35", "title": "A truncated PDF vanishes outside of its limits and equals the PDF inside", "statement": "TruncatedPDF returns for each row zero if it is in none of the limits and otherwise the wrapped value of that very row; the order of the rows is preserved and evaluating a permuted or concatenated data set permutes or concatenates the result.", "quantifier": "every data set and every number of limits", "why_tests_cant": "all lengths; scatter/gather index errors are data dependent", "anchors": ["zfit/models/truncated.py: TruncatedPDF._unnormalized_pdf"]}
{"id": "C36", "title": "Integral and normalisation dispatch always returns the integral", "statement": "Whatever combination of user hooks, registered analytic integrals and numeric fallbacks a model supports, integrate(limits, norm) returns the sum over limits of the unnormalised integral divided by the integral over norm, provided each hook it decides to use is itself correct for what it claims to support.", "quantifier": "every combination of supported and unsupported hooks, single and multiple limits, norm off/on", "why_tests_cant": "the number of hook combinations and limit splits is unbounded", "anchors": ["zfit/core/basemodel.py: BaseModel.integrate", "zfit/core/basemodel.py: BaseModel._auto_integrate", "zfit/core/basemodel.py: BaseModel._fallback_integrate", "zfit/core/space.py: supports"]}
{"id": "C37", "title": "A registered analytic integral is used only where it applies and the most important one wins", "statement": "The analytic integral chosen for given axes and limits is one registered for exactly these axes whose limits allow the requested ones, and among those it has maximal priority.", "quantifier": "every registration history and every request", "why_tests_cant": "all histories of registrations", "anchors": ["zfit/core/integration.py: AnalyticIntegral.register", "zfit/core/integration.py: AnalyticIntegral._get_max_axes_limits", "zfit/core/integration.py: AnalyticIntegral.integrate"]}
{"id": "C38", "title": "Simpson integration is exact for cubic polynomials for every number of points", "statement": "simpson_integrate always uses an odd number of points, and returns the exact integral of every polynomial of degree at most three over every interval.", "quantifier": "every interval, every requested number of points, every cubic", "why_tests_cant": "all numbers of points and coefficients", "anchors": ["zfit/core/integration.py: simpson", "zfit/core/integration.py: simpson_integrate"]}
{"id": "C39", "title": "Batched Monte Carlo integration averages all batches equally and terminates", "statement": "The adaptive Monte Carlo integral is the volume times the plain average over all drawn batches, draws never exceed the configured maximum, and the loop stops once the relative error is below the tolerance.", "quantifier": "every sequence of batch means and every tolerance / maximum", "why_tests_cant": "all sample sequences and batch numbers", "anchors": ["zfit/core/integration.py: mc_integrate"]}
{"id": "C40", "title": "Analytic integrals of the polynomial PDFs are the true integrals", "statement": "For Legendre, Chebyshev (first and second kind), Hermite, Laguerre and Bernstein PDFs of any degree and coefficients on a scaled range, integrate over any limits returns the Riemann integral of the unnormalised pdf.", "quantifier": "every degree, every coefficients, every range and limits", "why_tests_cant": "all degrees; tests check a few fixed degrees numerically", "anchors": ["zfit/models/polynomials.py: legendre_integral", "zfit/models/polynomials.py: func_integral_chebyshev1", "zfit/models/polynomials.py: func_integral_chebyshev2", "zfit/models/polynomials.py: func_integral_hermite", "zfit/models/polynomials.py: func_integral_laguerre", "zfit/models/polynomials.py: func_integral_bernstein"]}
{"id": "C41", "title": "Integrating a histogram over a range takes the overlapping fraction of each bin", "statement": "The integral of a binned PDF over an interval that meets the binning range equals the sum over bins of content times the fraction of the bin covered, hence is additive over adjacent intervals, monotone for non-negative contents, and the full range gives the total.", "quantifier": "every strictly increasing edges, contents and interval", "why_tests_cant": "all edges and intervals; partial first/last bins and limits on edges are boundary cases", "anchors": ["zfit/core/binnedpdf.py: binned_rect_integration", "zfit/core/binnedpdf.py: cut_edges_and_bins"]}
{"id": "C42", "title": "Minimisation evaluates the loss at most maxiter times per kind and reports NaNs faithfully", "statement": "For every sequence of loss outcomes, the evaluator raises MaximumIterationReached no later than the first request beyond maxiter, never returns NaN to the minimiser once a finite value has been seen, returns a pushback value larger than the last finite value during NaN streaks, and raises FailMinimizeNaN when the streak reaches the tolerance; a finite value resets the streak.", "quantifier": "every sequence of evaluations (finite, NaN, mixed kinds) of any length", "why_tests_cant": "all outcome sequences", "anchors": ["zfit/minimizers/evaluation.py: LossEval", "zfit/minimizers/strategy.py: PushbackStrategy.minimize_nan"]}
{"id": "C43", "title": "A step minimiser stops and never claims convergence without its criterion", "statement": "BaseStepMinimizer performs at most maxiter+1 steps for every behaviour of the step function, and the returned result is valid only if the convergence criterion accepted the final parameters.", "quantifier": "every sequence of step values and criterion answers", "why_tests_cant": "all sequences", "anchors": ["zfit/minimizers/baseminimizer.py: BaseStepMinimizer._minimize"]}
{"id": "C44", "title": "Minimising with automatic parameter updates disabled leaves the parameters untouched", "statement": "When auto_update_params is off, parameter values after minimize are the values before it.", "quantifier": "every loss, start values, init results and every way the minimisation ends", "why_tests_cant": "all outcomes including exceptions", "anchors": ["zfit/minimizers/baseminimizer.py: BaseMinimizer._make_stateful", "zfit/minimizers/baseminimizer.py: BaseMinimizer._check_convert_input"]}
{"id": "C45", "title": "Accept-reject sampling returns exactly the requested number of accepted points", "statement": "For a single limit, sampling n points returns exactly n rows, each of which was proposed within the limits and accepted by the acceptance rule, for every sequence of random numbers, proposal batch sizes and updates of the maximum.", "quantifier": "every n, every random sequence and every pdf", "why_tests_cant": "all random sequences", "anchors": ["zfit/core/sample.py: accept_reject_sample", "zfit/core/sample.py: UniformSampleAndWeights"]}
{"id": "C46", "title": "Samples of a sum split the events among components without loss", "statement": "The number of events drawn from the components of a sum adds up to the requested number, and extended sampling of components concatenates all of them.", "quantifier": "every number of components, every random multinomial outcome", "why_tests_cant": "all outcomes", "anchors": ["zfit/models/functor.py: SumPDF._sample", "zfit/core/sample.py: extended_sampling"]}
{"id": "C47", "title": "A model or loss never depends on two different parameters of the same name", "statement": "A PDF or loss that could be constructed does not depend, directly or through composed parameters and submodels, on two different independent parameters with the same name.", "quantifier": "every graph of models, composed parameters and constraints", "why_tests_cant": "arbitrary depth and sharing of the graph", "anchors": ["zfit/core/baseobject.py: BaseParametrized._assert_params_unique", "zfit/core/loss.py: BaseLoss.__init__", "zfit/core/basepdf.py: BasePDF.__init__"]}
{"id": "C48", "title": "Calls with different parameters never run the same compiled function", "statement": "If two calls of a graph-compiled function, at any times in any history, run the same compiled function, then the Parameter objects among their arguments are the same ones in the same order.", "quantifier": "every history of calls, invalidations and size changes, arguments nested to any depth", "why_tests_cant": "all argument structures and histories", "anchors": ["zfit/util/cache.py: FunctionCacheHolder.create_immutable", "zfit/util/cache.py: FunctionCacheHolder.__eq__", "zfit/z/zextension.py: FunctionWrapperRegistry.__call__"]}
{"id": "C49", "title": "Data survive the way to a data frame and back", "statement": "Converting a data set to a data frame and creating a data set from it in the same space gives the same rows in the same order with the same weights.", "quantifier": "every data set, weighted or not, and every name of the weights column", "why_tests_cant": "all sizes, names and orders of columns", "anchors": ["zfit/core/data.py: Data.to_pandas", "zfit/core/data.py: Data.from_pandas"]}
{"id": "C50", "title": "Resampling uses the parameter values of creation unless told otherwise", "statement": "sampler.resample(param_values) draws with the parameter values the sampler was created with, replaced by the given values where given; earlier calls of resample have no influence.", "quantifier": "every sampler, every history of resamplings and all parameter values", "why_tests_cant": "all histories", "anchors": ["zfit/core/data.py: SamplerData.resample", "zfit/core/data.py: SamplerData.from_sampler"]}
{"id": "C51", "title": "The likelihood depends on the events only through their weights, not their order", "statement": "The full value of an unbinned NLL, extended or not, does not change when the events of a channel are put in another order together with their weights, or when an event of weight a + b is replaced by two equal events of weights a and b.", "quantifier": "every data set, any number of channels and constraints, every fit range and parameter point", "why_tests_cant": "all permutations and weights", "anchors": ["zfit/core/loss.py: _unbinned_nll_tf", "zfit/core/loss.py: _nll_calc_unbinned_tf", "zfit/core/loss.py: ExtendedUnbinnedNLL._loss_func"]}
{"id": "C52", "title": "A loss made with create_new has the values of the original", "statement": "create_new without arguments gives a loss with the same values, full or not, as the original after its first evaluation; with other data or constraints the new loss still subtracts the same constant per event.", "quantifier": "every loss after any history, every parameter point", "why_tests_cant": "all histories and parameter points", "anchors": ["zfit/core/loss.py: UnbinnedNLL.create_new", "zfit/core/loss.py: BaseLoss.check_precompile", "zfit/_loss/binnedloss.py: BaseBinned.create_new"]}
{"id": "C53", "title": "Axes are attached to observables in order", "statement": "Automatic axes number the observables 0, 1, 2, ... in their order and refuse to replace existing axes unless overwrite is given; given axes (or observables) are attached in order if there are as many of them as observables (axes) and refused otherwise; dropping one of the two leaves the other unchanged.", "quantifier": "every number of observables, all names and axes", "why_tests_cant": "all sizes", "anchors": ["zfit/core/coordinates.py: Coordinates.with_autofill_axes", "zfit/core/coordinates.py: Coordinates.with_axes", "zfit/core/coordinates.py: Coordinates.with_obs"]}
{"id": "C54", "title": "Equality of coordinates is an equality", "statement": "Two coordinates compare equal exactly if they have the same set of observables or the same set of axes; equality is symmetric, transitive and equal coordinates have equal hashes.", "quantifier": "all coordinates", "why_tests_cant": "all combinations of present and missing observables and axes", "anchors": ["zfit/core/coordinates.py: Coordinates.__eq__", "zfit/core/coordinates.py: Coordinates.__hash__"]}
{"id": "C55", "title": "at_limit tells whether a parameter sits at one of its limits", "statement": "Parameter.at_limit is true exactly if the parameter has a limit and its value lies within the tolerance of it or beyond; the tolerance is 1e-5, or 0.5 % of the distance of the limits if that is less. A parameter without limits is never at a limit; one set to or beyond a limit is.", "quantifier": "every pair of limits (one, both or none) and every value", "why_tests_cant": "all limits and values", "anchors": ["zfit/core/parameter.py: Parameter.at_limit", "zfit/core/parameter.py: Parameter._check_at_limit"]}
{"id": "C56", "title": "The graph mode decides which functions are compiled", "statement": "After run.set_graph_mode(True) every kind of function known is compiled, after False none is and the backend runs eagerly, after \"auto\" all kinds but \"model\" are; a dictionary changes exactly the kinds it names. No other setting, parameter or weight changes.", "quantifier": "every earlier state of the run settings, every mode", "why_tests_cant": "all previous modes and registered kinds", "anchors": ["zfit/util/execution.py: RunManager.set_graph_mode", "zfit/z/zextension.py: FunctionWrapperRegistry"]}
{"id": "C57", "title": "The density, its logarithm and its extended version agree whatever a PDF implements", "statement": "For every combination of implemented _pdf, _log_pdf, _ext_pdf, _normalization and unnormalised pdf, each with or without support for a norm, pdf(x, norm) is the unnormalised value divided by the integral over the norm, log_pdf is its logarithm, ext_pdf and ext_log_pdf include the yield, and ext_integrate is the integral times the yield; without a yield the extended methods raise.", "quantifier": "every combination of implemented methods and supported norms, every point and norm", "why_tests_cant": "the combinations of methods and of exceptions steering the dispatch are too many to enumerate, and the values are real numbers", "anchors": ["zfit/core/basepdf.py: BasePDF.pdf", "zfit/core/basepdf.py: BasePDF.log_pdf", "zfit/core/basepdf.py: BasePDF.ext_pdf", "zfit/core/basepdf.py: BasePDF.log_normalization", "zfit/core/space.py: supports"]}
{"id": "C58", "title": "Integrals, normalisation and yield of a truncated PDF are those of the truncated function", "statement": "integrate over any limits (one or several, with any norm) and pdf with any norm of a TruncatedPDF are the Riemann integral and the normalised value of the wrapped function set to zero outside the limits, in eager and graph mode alike; by default the extended density of the truncated PDF of an extended PDF equals that PDF's extended density within the limits and vanishes outside; overlapping limits are refused.", "quantifier": "every wrapped PDF, every set of disjoint limits, every space, norm and yield", "why_tests_cant": "tests integrate a few PDFs over a few limits; the relation involves all functions and limits", "anchors": ["zfit/models/truncated.py: TruncatedPDF._integrate", "zfit/models/truncated.py: TruncatedPDF._analytic_integrate", "zfit/models/truncated.py: TruncatedPDF.__init__", "zfit/models/truncated.py: check_limits"]}
{"id": "C59", "title": "Columns of a sample carry the right names and values", "statement": "pdf.sample(n) of any combination of sums, products and truncated PDFs returns rows whose columns hold, under each observable's name, values drawn for that observable, within the limits given; the events of a truncated PDF lie within its limits.", "quantifier": "every tree of sums, products and truncated PDFs, every order of observables, every limits, every random outcome", "why_tests_cant": "columns are only labelled by position; a test sees it only for the orders it tries", "anchors": ["zfit/models/functor.py: SumPDF._sample", "zfit/models/functor.py: ProductPDF._sample", "zfit/models/truncated.py: TruncatedPDF._sample", "zfit/core/basemodel.py: BaseModel.sample"]}
{"id": "C60", "title": "Sampling an extended PDF without a number draws Poisson numbers that add up to its yield", "statement": "pdf.sample() of an extended PDF draws events from its extended parts, each with a Poisson number for its yield, concatenates them all, and the yields used add up to the yield of the PDF; a PDF that is not extended raises an error.", "quantifier": "every tree of extended PDFs, every Poisson outcome", "why_tests_cant": "tests compare sizes of a few samples with wide tolerances", "anchors": ["zfit/core/sample.py: extract_extended_pdfs", "zfit/core/sample.py: extended_sampling", "zfit/core/basepdf.py: BasePDF._hook_sample", "zfit/core/basemodel.py: BaseModel.sample"]}
{"id": "C61", "title": "Polynomial PDFs are series in the polynomials they are named after", "statement": "The unnormalised density of a Legendre, Chebyshev (first and second kind), Hermite or Laguerre PDF is the sum of its coefficients times the polynomials of that name at the coordinate rescaled to [-1, 1], the first coefficient being one unless coeff0 is given; a Bernstein PDF is the sum over the Bernstein basis at the coordinate rescaled to [0, 1], and not negative within its range if no coefficient is negative.", "quantifier": "every degree, all coefficients, ranges and points", "why_tests_cant": "all degrees and points: the values come from recurrences of any length", "anchors": ["zfit/models/polynomials.py: do_recurrence", "zfit/models/polynomials.py: create_poly", "zfit/models/polynomials.py: de_casteljau", "zfit/models/polynomials.py: RecursivePolynomial"]}
{"id": "C62", "title": "A block 'with result' puts the parameters to the result's values and back", "statement": "Inside a block 'with result:' the parameters of a fit result have the result's values; after the block, however it ends and however blocks are nested, their values are those from before.", "quantifier": "every result, parameter state, and all programs of nested blocks, exceptions and handlers", "why_tests_cant": "every nesting and every place at which an exception can occur", "anchors": ["zfit/minimizers/fitresult.py: FitResult.__enter__", "zfit/minimizers/fitresult.py: FitResult.__exit__", "zfit/minimizers/fitresult.py: FitResult.update_params"]}
{"id": "C63", "title": "A minimisation starts from the start values given, else from init, else from the current values", "statement": "minimize(loss, params, init) minimises the floating parameters among those given (or of the loss) starting at the start value given for each, else at its value in init, else at its current value.", "quantifier": "every kind of params argument, every init and every parameter state", "why_tests_cant": "combinations of arguments; a converged fit hides where it started", "anchors": ["zfit/minimizers/baseminimizer.py: BaseMinimizer._check_convert_input", "zfit/minimizers/baseminimizer.py: BaseMinimizer._call_minimize", "zfit/minimizers/minimizer_minuit.py: Minuit._minimize"]}
{"id": "C64", "title": "The covariance of a fit result is one symmetric matrix, whatever is asked for in whatever order", "statement": "result.covariance(params) is a square symmetric matrix whose entry (i, j) belongs to the i-th and j-th requested parameter; after it was computed once with a method, all requests with this method agree on every pair of parameters and change nothing; for weighted data the asymptotic correction gives the inverse Hessian times the sum of squared gradient terms times the inverse Hessian, with non-negative variances; a correlation is the covariance over both standard deviations.", "quantifier": "every set of parameters, request, order, history of requests, inverse Hessian and Jacobian", "why_tests_cant": "all orders and subsets of parameters and all matrices; a test with one request sees no inconsistency", "anchors": ["zfit/minimizers/fitresult.py: FitResult.covariance", "zfit/minimizers/errors.py: covariance_with_weights", "zfit/minimizers/errors.py: dict_to_matrix", "zfit/minimizers/errors.py: matrix_to_dict", "zfit/minimizers/fitresult.py: covariance_to_correlation", "zfit/minimizers/fitresult.py: _covariance_approx"]}
{"id": "C65", "title": "An uncertainty is stored under its name for the confidence level it was asked for", "statement": "result.hesse stores under the name given the square root of the variance scaled to the confidence level, result.errors the lower and upper errors found for it; both return what they store, change no other entry and leave the parameters at their values; a name is not silently reused for another confidence level or weight correction.", "quantifier": "every result, method, name, level and history of hesse, errors and covariance calls", "why_tests_cant": "depends on the whole history of calls on one result", "anchors": ["zfit/minimizers/fitresult.py: FitResult.hesse", "zfit/minimizers/fitresult.py: FitResult.errors", "zfit/minimizers/fitresult.py: FitResult._check_get_uncached_params"]}
{"id": "C66", "title": "A frozen result gives the same answers by name", "statement": "Before freezing, values and parameter entries of a result are found by parameter and by name (values by position too); result.freeze() keeps every parameter entry and covariance, now found by name; an approximate gradient is given in the order of the parameters asked for.", "quantifier": "every result, every key, every order of the request", "why_tests_cant": "all keys of all results, present or not", "anchors": ["zfit/minimizers/fitresult.py: FitResult.freeze", "zfit/minimizers/fitresult.py: NameToParamGetitem", "zfit/minimizers/fitresult.py: ListWithKeys", "zfit/minimizers/fitresult.py: Approximations.gradient"]}
{"id": "C67", "title": "Asymmetric errors lead to points where the loss is one level above the minimum", "statement": "The lower and upper error that the profile method returns for a parameter are the distances from the fit value to points below and above it where the loss exceeds its minimum by errordef times the squared number of standard deviations asked for, within the tolerance; lower errors are negative and upper errors positive; if a lower minimum is found on the way, a new result at a lower minimum is returned with its errors; afterwards the parameters are at the values of the result.", "quantifier": "every loss, parameter limits, covariance, behaviour of the root finder and of the minimiser, levels and tolerances", "why_tests_cant": "depends on all losses and on everything an adaptive root finder may ask for", "anchors": ["zfit/minimizers/errors.py: compute_errors", "zfit/core/parameter.py: Parameter.value"]}
{"id": "C68", "title": "The views of a binned PDF are one histogram", "statement": "For a binned PDF, rel_counts, pdf, counts, ext_pdf, integrate and ext_integrate describe one histogram: relative contents that add up to one over the norm range, densities that are contents over bin volume, counts that are yield times relative contents, integrals over any box that are the covered contents. This holds for every norm and for every binned PDF of the library (histogram, template, modifier, sum, morphing, binned from unbinned) and for user classes that implement some of the methods; for events the value is that of the bin the event is in and zero outside.", "quantifier": "every binning in any number of dimensions, all contents, yields, norms, boxes, and every subset of methods a class implements", "why_tests_cant": "which method is computed from which other depends on the class, the norm and on what is implemented; all combinations on all histograms can not be tested", "anchors": ["zfit/core/binnedpdf.py: BaseBinnedPDF.pdf", "zfit/core/binnedpdf.py: BaseBinnedPDF.counts", "zfit/core/binnedpdf.py: BaseBinnedPDF.rel_counts", "zfit/core/binnedpdf.py: BaseBinnedPDF.ext_pdf", "zfit/core/binnedpdf.py: BaseBinnedPDF.integrate", "zfit/core/binnedpdf.py: BaseBinnedPDF.ext_integrate", "zfit/core/binnedpdf.py: BaseBinnedPDF.sample", "zfit/models/histogram.py: HistogramPDF", "zfit/models/template.py: BinnedTemplatePDFV1", "zfit/models/histmodifier.py: BinwiseScaleModifier", "zfit/models/binned_functor.py: BinnedSumPDF", "zfit/models/morphing.py: SplineMorphingPDF", "zfit/models/tobinned.py: BinnedFromUnbinnedPDF"]}
{"id": "C69", "title": "A constraint adds the penalty of its density, each parameter compared with its own observation", "statement": "The value of a Gaussian constraint is the negative logarithm of the normal density of the parameters around their observations, at the current values, for uncertainties given as sigma, as variances, as covariance matrix or as the deprecated uncertainty; it is smallest exactly where all parameters have the observed values and does not depend on the order in which parameters, observations and uncertainties are listed; a Poisson constraint is the negative logarithm of the Poisson probability of the observation for the parameter, a log-normal one that of the log-normal density; numbers that do not fit to each other are refused at construction; sampling gives each parameter its own column.", "quantifier": "every number of parameters, every value, observation, positive uncertainty and positive definite covariance, every way to give them", "why_tests_cant": "all matrices and all orders of any number of parameters; a test sees a few literals in one order", "anchors": ["zfit/core/constraint.py: GaussianConstraint", "zfit/core/constraint.py: PoissonConstraint", "zfit/core/constraint.py: LogNormalConstraint", "zfit/core/constraint.py: ProbabilityConstraint", "zfit/core/constraint.py: _preprocess_gaussian_constr_sigma_var"]}
{"id": "C70", "title": "A composed parameter is its function of the current parameter values, and numbers become the right parameters", "statement": "The value of a composed parameter is at any time that of its function for the current values of the parameters given: in the order of a list, under the names of a dict whatever its order, or all at once if the function takes one argument; what can not be decided is refused. It depends on exactly what the parameters given depend on. A complex parameter gives back the real and imaginary part, or the modulus and angle, it was made of, and its conjugate follows it. Numbers and lists of numbers are converted to constants or variables one by one with the names and limits given, existing parameters are returned as they are, and automatic names never coincide.", "quantifier": "every function signature, every nesting of composed parameters, every list and dict, all values and every history of conversions", "why_tests_cant": "how a function is called depends on numbers and names of arguments and parameters in all combinations, and values change after creation", "anchors": ["zfit/core/parameter.py: ComposedParameter", "zfit/core/parameter.py: BaseComposedParameter", "zfit/core/parameter.py: ComplexParameter", "zfit/core/parameter.py: convert_to_parameter", "zfit/core/parameter.py: convert_to_parameters", "zfit/core/parameter.py: get_auto_number"]}
{"id": "C71", "title": "Crystal Ball and GaussExpTail PDFs have the documented shape and integrate to one", "statement": "CrystalBall, DoubleCB, GeneralizedCB, GaussExpTail and GeneralizedGaussExpTail have the documented piecewise shape (the mirror image for a negative alpha) without a jump, and the analytic integral used for their normalisation is the integral of this shape over every range, wherever the range lies with respect to mu and to the start of the tails; divided by it they are densities.", "quantifier": "all real mu, all positive sigma, all alpha but zero, all positive exponents, all ranges", "why_tests_cant": "the integral has a different formula for each position of the limits, each sign and each exponent; numerical integration in a test compares a few of them within a tolerance", "anchors": ["zfit/models/physics.py: CrystalBall", "zfit/models/physics.py: DoubleCB", "zfit/models/physics.py: GeneralizedCB", "zfit/models/physics.py: GaussExpTail", "zfit/models/physics.py: GeneralizedGaussExpTail", "zfit/models/physics.py: crystalball_integral_func", "zfit/models/physics.py: gaussexptail_integral_func"]}
{"id": "C72", "title": "The exponential PDF does not depend on its numerical shift", "statement": "pdf, log_pdf, ext_pdf and integrate of an Exponential with a norm range are exp(lambda x) divided by its integral over the range, after every history of calls, with errors or without; inside of the range they overflow only if lambda times half the width of the range does, wherever the range is; values that are not normalised are exp(lambda x) and its integrals.", "quantifier": "every history of calls with any values of lambda, norm ranges with any number of parts, data and errors", "why_tests_cant": "the shift is state that each call changes and restores; histories with errors in between are unbounded", "anchors": ["zfit/models/basic.py: Exponential", "zfit/models/basic.py: Exponential._set_numerics_data_shift", "zfit/models/basic.py: _exp_integral_func_shifting"]}
{"id": "C73", "title": "The Levenberg-Marquardt minimiser never returns values worse than those it started from", "statement": "LevenbergMarquardt.minimize returns values at which the loss is not above the loss at the start, fminopt is the loss at the values of the result and the loss never goes up between steps; of the points tried it takes the lowest one that improved as expected, else the lowest one; the result is valid exactly if the criterion is below the tolerance and no parameter is at a limit; it gives up only if every point tried is worse; it takes a step from every point at which the loss falls; a valid result is within the tolerance of the minimum and does not depend on a constant added to the loss.", "quantifier": "all losses, starts, numbers of parameters, settings, criteria and outcomes of the linear algebra", "why_tests_cant": "the path through dampings and points depends on the loss at every point tried; a test follows the path of one loss", "anchors": ["zfit/minimizers/minimizer_lm.py: LevenbergMarquardt", "zfit/minimizers/termination.py: ConvergenceCriterion", "zfit/minimizers/termination.py: EDM", "zfit/minimizers/evaluation.py: LossEval"]}
{"id": "C74", "title": "A numerical convolution is the convolution of func and kernel", "statement": "The density of FFTConvPDFV1 is on the points of its grid the discrete convolution of func with kernel, for kernels with any limits and everywhere in the limits of the func: masses multiply, means and variances add up; in between it is interpolated linearly; it is not negative and linear in the func. Limits, number of points and interpolation are as asked for, what is not supported is refused. A sample consists of n events of the func, each moved by an event of the kernel, inside of the limits, and every such event is possible.", "quantifier": "all limits, numbers of points, functions and kernels, all random numbers and numbers of events", "why_tests_cant": "the grids depend on all limits and on the number of points; a test compares one kernel, symmetric around zero, within a tolerance", "anchors": ["zfit/models/convolution.py: FFTConvPDFV1", "zfit/models/convolution.py: FFTConvPDFV1._unnormalized_pdf", "zfit/models/convolution.py: AddingSampleAndWeights", "zfit/core/data.py: sum_samples"]}
{"id": "C75", "title": "A binned PDF used as an unbinned one is the step function of its histogram", "statement": "The unbinned version of a binned PDF has in each bin the density content over bin volume, zero outside, found by the names of the observables; it is normalised over its norm range, its integral over any limits is that of this density, extended density and integral have its yield; a sample has the number of events asked for, inside of the limits, with the counts of the bins of a binned sample and each event in its bin. A spline of a binned PDF uses the order asked for.", "quantifier": "all histograms with any number of dimensions and bins, all binned PDFs with consistent methods, orders of observables, norms, yields, limits and random numbers", "why_tests_cant": "limits cut bins anywhere, norms, yields and orders of observables combine freely; a test uses one histogram with defaults", "anchors": ["zfit/models/unbinnedpdf.py: UnbinnedFromBinnedPDF", "zfit/models/interpolation.py: SplinePDF", "zfit/core/binning.py: unbinned_to_binindex"]}
{"id": "C76", "title": "A kernel density estimate is the weighted mean of the kernels around the events", "statement": "The density of GaussianKDE1DimV1 and KDE1DimExact is the mean of the kernels around the events, weighted with the weights, with the bandwidth given, one for all or one for each event; it does not depend on the order of the events or on a factor of the weights, a whole weight stands for copies, it is normalised and not negative. Padding adds the events close to the limits mirrored at them, with their weights and bandwidths, so that nothing leaks out of the limits. On a grid, the kernel is interpolated linearly from the points of the grid; the convolution gives the same values on the points of the grid, and interpolates. The rules of thumb give the documented bandwidth, which follows the units of the data.", "quantifier": "all data, weights, bandwidths, kernels, paddings, limits, numbers of grid points and supports", "why_tests_cant": "weights, paddings, bandwidths and grids combine freely, and a density is a function; a test compares one data set at a few points within a tolerance", "anchors": ["zfit/models/kde.py: GaussianKDE1DimV1", "zfit/models/kde.py: KDE1DimExact", "zfit/models/kde.py: KDE1DimGrid", "zfit/models/kde.py: KDE1DimFFT", "zfit/models/kde.py: padreflect_data_weights_1dim", "zfit/models/kde.py: bandwidth_rule_of_thumb", "zfit/util/binning.py: bin_1d", "zfit/util/convolution.py: convolve_1d_data_with_kernel", "zfit/z/math.py: weighted_quantile"]}
{"id": "C77", "title": "A fit with a wrapped minimiser reports what the minimiser found", "statement": "Minimising with a SciPy, NLopt, Ipopt or Minuit minimiser makes at most twenty runs, each but the first starts from what the last one found; a valid result means that the criterion is met at the values reported, no parameter is at a limit and the evaluator did not stop the fit; values, loss, status and message of the result belong together and to the parameters; an invalid result says why and its status says so; a minimiser that gets stuck stops early; the options of a user are handed to the wrapped minimiser unchanged and the same minimiser can be used for another fit with the same outcome; maxiter limits the evaluations of the fit; the tolerances get tighter with every run.", "quantifier": "all behaviours of the wrapped minimiser in each run, criteria, starts, options, limits, evaluation limits and histories of fits with the same minimiser", "why_tests_cant": "the outcome of each run decides about the next one, and third-party minimisers can fail in any of them; tests see the runs of a few losses", "anchors": ["zfit/minimizers/minimizers_scipy.py: ScipyBaseMinimizerV1", "zfit/minimizers/minimizer_nlopt.py: NLoptBaseMinimizerV1", "zfit/minimizers/ipopt.py: IpyoptV1", "zfit/minimizers/minimizer_minuit.py: Minuit", "zfit/minimizers/fitresult.py: FitResult.__init__", "zfit/minimizers/fitresult.py: FitResult.from_scipy", "zfit/minimizers/fitresult.py: FitResult.from_nlopt", "zfit/minimizers/fitresult.py: FitResult.from_ipopt", "zfit/minimizers/fitresult.py: FitResult.from_minuit", "zfit/minimizers/baseminimizer.py: BaseMinimizerV1._update_tol_inplace"]}
{"id": "C78", "title": "A conditional PDF is the PDF with parameters taken from the data", "statement": "The density of a conditional PDF for an event is the density of the wrapped PDF with the conditional parameters at the values that the event has in their observables, whatever the order of the columns; for fixed conditions it is normalised. Integrals and samples do the same, one for each event of the data given. The values the conditional parameters have do not matter, they are not parameters of the conditional PDF, and no evaluation changes them. Data without the observables needed is refused.", "quantifier": "all PDFs, sets of conditional parameters, limits of parameters, data, column orders, norm ranges and values of the parameters", "why_tests_cant": "the values change for every event inside of a compiled loop, and limits, orders and errors combine freely; a test compares one data set with a loop", "anchors": ["zfit/models/conditional.py: ConditionalPDFV1", "zfit/models/conditional.py: ConditionalPDFV1._pdf", "zfit/models/conditional.py: ConditionalPDFV1._single_hook_integrate", "zfit/models/conditional.py: ConditionalPDFV1._single_hook_sample", "zfit/core/parameter.py: Parameter.assign", "zfit/core/parameter.py: Parameter.set_value"]}
{"id": "C79", "title": "What is dumped is loaded again", "statement": "Loading what was dumped gives every PDF, data set, constraint and loss again, under its name, with the same content, in which equal parameters are one parameter, and each parameter has the value, limits, step size, label and composition it had. With parameters that exist already given, these are used instead of new ones of the same name, and all others are as they were dumped; no further parameters are made. Loading a document twice gives the same both times.", "quantifier": "all models and losses that can be dumped, all parameters in them, composed to any depth, all sets of existing parameters", "why_tests_cant": "names are replaced by trees and trees by names all over the document, at any depth; a test has a few PDFs with a few parameters", "anchors": ["zfit/serialization/serializer.py: Serializer.to_hs3", "zfit/serialization/serializer.py: Serializer.from_hs3", "zfit/serialization/serializer.py: Serializer.post_serialize", "zfit/serialization/serializer.py: Serializer.pre_deserialize", "zfit/serialization/paramrepr.py: param_constructor", "zfit/core/parameter.py: ParameterRepr", "zfit/core/parameter.py: ComposedParameterRepr", "zfit/hs3.py: dumps", "zfit/hs3.py: loads"]}
{"id": "C80", "title": "A PDF that wraps a distribution has its documented shape, integral and sample", "statement": "Gauss, Cauchy, LogNormal, ChiSquared, StudentT, QGauss, BifurGauss, Gamma, JohnsonSU, GeneralizedGauss and Uniform are, up to a factor that does not depend on x, the documented functions of x and of the parameters. The integral over any limits, one or several, finite or not, is the integral of the density. A sample has the number of events asked for, each inside of the limits, and follows the density inside of them: an event is below a point with the probability that the density has there.", "quantifier": "all values of the parameters in their domains, all points, all sets of limits, all distributions with a proper cumulative distribution and quantile, all random numbers", "why_tests_cant": "the parameters of the wrapped distributions differ from the documented ones, and limits cut a distribution anywhere; a test compares a few points and a histogram of one sample within a tolerance", "anchors": ["zfit/models/dist_tfp.py: WrapDistribution", "zfit/models/dist_tfp.py: tfd_analytic_sample", "zfit/models/dist_tfp.py: Gauss", "zfit/models/dist_tfp.py: Cauchy", "zfit/models/dist_tfp.py: LogNormal", "zfit/models/dist_tfp.py: ChiSquared", "zfit/models/dist_tfp.py: StudentT", "zfit/models/dist_tfp.py: QGauss", "zfit/models/dist_tfp.py: BifurGauss", "zfit/models/dist_tfp.py: Gamma", "zfit/models/dist_tfp.py: JohnsonSU", "zfit/models/dist_tfp.py: GeneralizedGauss", "zfit/models/dist_tfp.py: Uniform", "zfit/core/basemodel.py: BaseModel._limits_sample"]}
{"id": "C81", "title": "Sums and products of functions and parameters are what they say", "statement": "A function made with + and * from functions, parameters and numbers, nested in any way, has at every event the value of the expression with the values that the parameters have then. Its observables are those of its parts in the order of appearance, and columns are found by name. It depends on exactly the parameters in the expression, and they can be given by name for a call. As a PDF it has the same values, not normalised, and the same parameters. Combinations without a meaning are refused.", "quantifier": "all expressions of any depth, all functions, parameters and numbers in them, all events, column orders and values of the parameters", "why_tests_cant": "expressions nest freely, and the kinds of the operands decide about what is done; a test evaluates one sum and one product", "anchors": ["zfit/core/operations.py: multiply", "zfit/core/operations.py: add", "zfit/core/operations.py: multiply_param_func", "zfit/core/operations.py: convert_func_to_pdf", "zfit/core/operations.py: convert_pdf_to_func", "zfit/models/functions.py: SimpleFuncV1", "zfit/models/functions.py: SumFunc", "zfit/models/functions.py: ProdFunc", "zfit/core/basefunc.py: BaseFuncV1.func", "zfit/core/baseobject.py: BaseParametrized._check_convert_input_paramvalues"]}
{"id": "C82", "title": "Gradient and Hessian of a loss are its derivatives and leave the parameters alone", "statement": "gradient, value_gradient, hessian and value_gradient_hessian of a loss leave all parameters at their values, also if the loss raises an exception; with values given for the call they are the derivatives there. Numerical derivatives are those of the loss as a function of the parameters asked for, at their values; numgrad decides in every one of them between numerical and automatic derivatives. One call for value, gradient and Hessian gives the same as three calls. Functions given for the gradient and the Hessian are used. Fixed, unknown or not differentiable parameters are refused.", "quantifier": "all losses, functions, parameters with limits and composed parameters, values given, choices of the arguments, strategies of the numerical procedure and failures of the loss", "why_tests_cant": "numerical differentiation sets the parameters again and again, in an order that depends on the loss, and it can be interrupted anywhere; a test compares two numbers at one point", "anchors": ["zfit/core/loss.py: BaseLoss.gradient", "zfit/core/loss.py: BaseLoss.value_gradient", "zfit/core/loss.py: BaseLoss.hessian", "zfit/core/loss.py: BaseLoss.value_gradient_hessian", "zfit/core/loss.py: BaseLoss._input_check_params", "zfit/core/loss.py: SimpleLoss.__init__", "zfit/core/loss.py: SimpleLoss._gradient", "zfit/core/loss.py: SimpleLoss._hessian", "zfit/z/math.py: numerical_gradient", "zfit/z/math.py: numerical_value_gradient", "zfit/z/math.py: numerical_hessian", "zfit/z/math.py: numerical_value_gradients_hessian"]}
{"id": "C83", "title": "Simple losses and their sums", "statement": "A SimpleLoss has as value its function of the values of its parameters. Its errordef is given exactly once, by the function or as an argument. The sum of a SimpleLoss and any other loss, nested in any way, has as value in units of the errordef the sum of the values of the parts in units of theirs, for any names and kinds of parameters and in any order. create_new gives the same loss with the replaced arguments. from_any uses the registered converter with the highest priority that accepts the object, the first of several.", "quantifier": "all functions, sets of independent and composed parameters with any names, values, errordefs, trees of sums, and all histories of registrations of converters", "why_tests_cant": "sums nest and parameters are matched by name; the tests have one sum, and all names in it have two characters", "anchors": ["zfit/core/loss.py: SimpleLoss", "zfit/core/loss.py: SimpleLoss.__init__", "zfit/core/loss.py: SimpleLoss.__add__", "zfit/core/loss.py: SimpleLoss.create_new", "zfit/core/loss.py: SimpleLoss.from_any", "zfit/core/loss.py: SimpleLoss.register_convertable_loss", "zfit/core/loss.py: BaseLoss.__add__", "zfit/core/loss.py: BaseLoss.value"]}
{"id": "C84", "title": "A copy of a PDF is the same PDF, and an extended copy differs in the yield", "statement": "copy() of a PDF has the same class, parameters, daughters, name, label, space, normalisation range and yield, and the same density for all values of the parameters, then and later. copy(name=value) replaces that argument and no other. create_extended gives such a copy with the yield and the name asked for and leaves the PDF as it is; a PDF that has a yield is refused. Both work for every PDF of the library.", "quantifier": "all classes of PDFs, all arguments they were made with, nested sums and products of any depth, all values of the parameters before and after, all points, shapes and integrals", "why_tests_cant": "a copy calls the constructor with arguments put together from what the PDF still knows, which depends on the class and on how it was made; the tests copy a few PDFs made with the default arguments", "anchors": ["zfit/core/basepdf.py: BasePDF.copy", "zfit/core/basepdf.py: BasePDF.create_extended", "zfit/core/basepdf.py: BasePDF.set_yield", "zfit/models/special.py: SimplePDF.copy", "zfit/models/conditional.py: ConditionalPDFV1.copy", "zfit/models/basefunctor.py: _preprocess_init_sum", "zfit/models/polynomials.py: RecursivePolynomial.__init__", "zfit/models/functor.py: SumPDF.__init__"]}
{"id": "C85", "title": "Partial integrals and projections are integrals", "statement": "The partial integral of a PDF over limits in some observables, at data in the others, is the integral of the function over the limits at the data, divided by the integral over the normalisation range asked for, and not divided with norm=False. It does not depend on the order of the limits, is the sum over several limits, and integrates to one over the rest if a part of the normalisation range is integrated out. A projection, asked for by what is integrated or by what remains, has as density the integral over what is integrated divided by the integral over everything.", "quantifier": "all nested sums and products of any functions with any (also shared) observables, all splits of the observables into limits and data, all limits and normalisation ranges, all points, every linear integral", "why_tests_cant": "which of several formulas is used for a factor depends on how the split cuts its observables, and the factors nest; the tests have one product", "anchors": ["zfit/core/basemodel.py: BaseModel.partial_integrate", "zfit/core/basemodel.py: BaseModel._norm_partial_integrate", "zfit/core/basemodel.py: BaseModel._fallback_partial_integrate", "zfit/models/functor.py: SumPDF._partial_integrate", "zfit/models/functor.py: ProductPDF._partial_integrate", "zfit/core/integration.py: mc_integrate", "zfit/core/basepdf.py: BasePDF.create_projection_pdf"]}
{"id": "C86", "title": "Splines go through their points, and morphing keeps histograms and totals", "statement": "A spline of any order in any dimension goes through its points; with regularisation it misses each by the regularisation times its weight. It reproduces affine functions everywhere, and is linear in the values. A histogram morphed by splines is, at the value of alpha of each given histogram, this histogram; its total content is the morphed total content, so counts sum to the automatic yield and equal totals are kept. Three histograms are those at -1, 0 and 1, and can be morphed to every alpha. Contents between positive contents are positive. The order asked for is the one that is used.", "quantifier": "all orders, dimensions, numbers of points, points that determine the spline, values, regularisations and points of evaluation, all histograms and values of alpha, every solver of linear equations", "why_tests_cant": "the spline solves a linear system built from all points; the tests compare with the templates for one set of histograms", "anchors": ["zfit/z/interpolate_spline.py: interpolate_spline", "zfit/z/interpolate_spline.py: _solve_interpolation", "zfit/z/interpolate_spline.py: _apply_interpolation", "zfit/z/interpolate_spline.py: _phi", "zfit/models/morphing.py: spline_interpolator", "zfit/models/morphing.py: SplineMorphingPDF", "zfit/models/interpolation.py: SplinePDF"]}
{"id": "C87", "title": "The root search finds roots between its points", "statement": "The root search returns a point between the two given points, together with the value of the function there, after no more than the allowed number of turns, and calls it converged exactly if the absolute value is within the tolerance. With enough turns for the distance of the points, the function changes its sign nearer to the result than the tolerance of the root, unless it has converged; the zero of a growing function is found up to the tolerances. The function is never evaluated outside of the two points. Searches that are made at once do not influence each other. Without a change of sign nothing is called a root. The bandwidth of Improved Sheather Jones comes from a root, larger brackets being tried until there is one.", "quantifier": "all functions (continuous or not), pairs of points in both orders, tolerances, numbers of turns, given values at the points, numbers of searches at once", "why_tests_cant": "secant, inverse interpolation and bisection alternate depending on the values of the function; the tests know the function only through a KDE", "anchors": ["zfit/util/root_search.py: brentq", "zfit/util/root_search.py: _brent_loop_body", "zfit/util/root_search.py: _prepare_brent_args", "zfit/util/root_search.py: _brent", "zfit/util/improved_sheather_jones.py: _find_root", "zfit/util/convolution.py: find_practical_support_bandwidth"]}
{"id": "C88", "title": "Binned samples and binned samplers", "statement": "A sample of a binned PDF has the space that was asked for, one content for each bin, and its contents sum to the number of events; it is drawn at the given values of the parameters and at the present ones of the others. A sampler remembers the values of all parameters and the number of events at its creation: later changes of the parameters and earlier resamplings do not influence a resampling, values that are given win for this one resampling. After an update the sampler holds exactly the given contents, and its hash is that of them. An update that raises changes nothing, different contents have different hashes, contents always fit to the bins, a histogram in another order of the observables is put into the right one, parameters that are not fixed follow their values.", "quantifier": "all binned PDFs (shapes, numbers of parameters, extended or not), seeds, multinomial and Poisson distributions, digests, sampling functions, histories of updates and resamplings that succeed or fail", "why_tests_cant": "toy studies resample and update one sampler many times, with parameters changing in between; the tests resample once or twice and compare means", "anchors": ["zfit/_data/binneddatav1.py: BinnedSamplerData", "zfit/_data/binneddatav1.py: BinnedData.from_tensor", "zfit/core/binnedpdf.py: BaseBinnedPDFV1.sample", "zfit/core/binnedpdf.py: BaseBinnedPDFV1.create_sampler"]}
{"id": "C89", "title": "Dumping and loading with retries", "statement": "Loading tries again after an exception, at most as often as allowed, from the same position of the file, and returns what the first attempt that succeeds gives; it raises ZfitDillLoadError exactly if all fail. What dumping returns was written completely for this object and has been loaded once. Objects that are dumped into a file one after the other are loaded in the same order; what is before them in the file stays, whatever happens. The number of attempts is limited by max_retries, a verified dump is returned, after a dump without an exception the file holds the object, and the documented exceptions are raised.", "quantifier": "all behaviours of dill, of the garbage collection and of the graph cache (any functions of the state of the interpreter), objects, numbers of retries, files (contents, positions), sequences of dumps and loads", "why_tests_cant": "the failures depend on the state of the interpreter (graphs not yet collected); the tests never see a retry", "anchors": ["zfit/dill.py: dumps", "zfit/dill.py: dump", "zfit/dill.py: loads", "zfit/dill.py: load", "zfit/dill.py: __retry_with_gc", "zfit/dill.py: __retry_with_graphclear"]}
{"id": "C90", "title": "Seeds make samples reproducible", "statement": "After set_seed with a number everything that is drawn, with any mixture of draws from the three generators (numpy, the backend, zfit), is the same whatever the state before, if no generator was left out or only those that were set are used; the dictionary of seeds that is returned, given to set_seed again, does the same, also if no seed was given and one was found. A generator that is left out keeps its state; one that has its own seed is started from it. A sample with replacement has the wanted number of elements, all of them from the given ones. Leaving one generator out does not change the others, zfit.sample.poisson draws numbers, and the zfit seed alone is enough for samples of zfit.", "quantifier": "all generators (any functions from seeds to streams), seeds, states before, arguments (numbers, True, None, False for each generator), programs that draw in any order", "why_tests_cant": "reproducibility is about all programs that draw after the call; the tests draw a few numbers from one generator", "anchors": ["zfit/settings.py: set_seed", "zfit/settings.py: generate_urandom_seed", "zfit/z/random.py: get_prng", "zfit/z/random.py: sample_with_replacement", "zfit/z/random.py: counts_multinomial", "zfit/z/random.py: poisson", "zfit/sample.py: poisson"]}
{"id": "C91", "title": "Options of the numerical integration", "statement": "update_integration_options sets the options that are given and no others; 'auto' stands for numbers that belong to the tolerance and maximum then in force, at least one draw and at most the maximum and the numbers of the documented steps in the tolerance; tolerances outside of zero to one are refused. A model that is created has numbers for all of them and keeps having them. Integrals use the options of their model, those over many bins at once a thirtieth of the draws but at least ten. An update that raises changes nothing, every number of draws can be set, the 'auto' draws follow the tolerance, and the next integral uses the new options.", "quantifier": "all options and histories of updates and integrals, compiled or not, any tolerances and maxima", "why_tests_cant": "the options interact over a history of updates and compiled integrals; the tests set one of them once", "anchors": ["zfit/core/basemodel.py: BaseModel.update_integration_options", "zfit/core/basemodel.py: BaseModel.__init__", "zfit/core/basemodel.py: BaseModel._auto_numeric_integrate", "zfit/core/integration.py: Integration"]}
{"id": "C92", "title": "Plots show the density", "statement": "A plot of a PDF goes through its density times the scale (with the yield if asked for, or if there is one) at the wanted number of points, at equal distances from the lower to the upper limit of the range, with the label of the PDF; without limits, in several dimensions without obs, or with a yield that does not exist nothing is drawn. The curves of the components of a sum add up to the curve of the sum, if they are drawn without yields or have none; each component has its own label, if no dictionary of arguments is given. They add up for every sum, each component always has its own label, arguments take precedence over the defaults of a plotter, and its own plotting function is used.", "quantifier": "all PDFs, sums with given fractions or yields, any number of components, ranges, numbers of points, scales and arguments", "why_tests_cant": "what is drawn is looked at by eye; the tests only check that a plot can be made", "anchors": ["zfit/util/plotter.py: plot_model_pdfV1", "zfit/util/plotter.py: plot_sumpdf_components_pdfV1", "zfit/util/plotter.py: PDFPlotter", "zfit/util/plotter.py: SumCompPlotter", "zfit/models/functor.py: SumPDF"]}
{"id": "C93", "title": "Approximations of a minimiser and the criterion EDM", "statement": "Approximations made by a minimiser are accepted exactly if the gradient has one number, and the Hessian and its inverse one row and one column, for each parameter. Whatever has been asked for before and in whatever order, the Hessian is the one given, else the inverse of the inverse Hessian given, and the same the other way round; if at most one was given the two are inverse to each other. The estimated distance to the minimum (EDM) is never negative, is the same whether gradient, Hessian or inverse Hessian come from the loss or from the minimiser, is half of the product of the gradient with the inverse Hessian and the gradient, is positive for a positive definite Hessian unless the gradient vanishes, and is a large number if the Hessian is singular or the product negative. The criterion is fulfilled exactly if the distance is below the tolerance times the errordef of the loss.", "quantifier": "all numbers of parameters, all gradients and Hessians, all sequences of requests, all tolerances", "why_tests_cant": "A test asks once; what is returned depends on what has been cached by earlier requests, and on which of three matrices is missing or singular.", "anchors": ["zfit/minimizers/fitresult.py: Approximations", "zfit/minimizers/termination.py: EDM", "zfit/minimizers/termination.py: ConvergenceCriterion", "zfit/minimizers/termination.py: calculate_edm"]}
{"id": "C94", "title": "One thing or several", "statement": "Wherever an argument can be one thing or several (parameters, models, data, observables, limits, ...), one thing and a container with this one thing are the same argument. Text, tensors, arrays, data, losses, models, spaces, parameters, histograms, tables and axes count as one thing even if they can be iterated; everything else that can be iterated is the things in it, in their order, where an ordered set keeps the first of equal ones; what can not be iterated is one thing. None stays None unless asked otherwise, what is to be ignored is left as it is, and converting what was converted changes nothing. What the caller has given is left alone.", "quantifier": "all values, types and class hierarchies, all containers asked for, all lists of types that are not to be taken apart", "why_tests_cant": "The outcome depends on the type of the value, on the container asked for and on lists of types changed by earlier calls; tests use a few of the combinations.", "anchors": ["zfit/util/container.py: convert_to_container", "zfit/core/loss.py: _input_check_params", "zfit/core/constraint.py: convert_to_container"]}
{"id": "C95", "title": "Binned spaces", "statement": "A space made of axes has for each observable exactly the axis of this name, whatever the order the axes are given in; names that differ from the observables are refused. Without limits, the limits of each observable are the outer edges of its axis. Numbers of bins give bins of equal width between the limits. Taking some of the observables or another order, by observables or by axes, keeps the axis and the limits of each observable. A combination of binned spaces has for each observable the axis of the spaces that have it, binned and other spaces can not be combined, and spaces that disagree are refused. The bins of a space cover its limits, and two spaces are equal whatever the order of their observables.", "quantifier": "all numbers of observables and axes, all orders, regular and variable axes, all sequences of spaces that are combined", "why_tests_cant": "Tests use one or two observables with the axes in the order of the observables; the errors are in other orders, parts and combinations.", "anchors": ["zfit/core/space.py: Space.__init__", "zfit/core/space.py: Space.with_obs", "zfit/core/space.py: Space.with_axes", "zfit/core/space.py: Space.with_limits", "zfit/core/space.py: Space.get_subspace", "zfit/core/space.py: combine_spaces", "zfit/core/space.py: equal_space", "zfit/_variables/axis.py: new_from_axis", "zfit/_variables/axis.py: RegularBinning"]}
{"id": "C96", "title": "Histograms and binned data", "statement": "Binned data from a histogram have its values, its variances if it has some, its axes by name, and their outer edges as limits. A histogram with named axes is accepted exactly if there is one number for each bin and the variances are as many; axes without a name, transformed or of other kinds are refused. The way to hist and back keeps the data, the way from hist and back keeps the histogram. Arrays are taken with the same check, and with variances=True the variances are those of Poisson counts. What is binned data already is used as it is; other things are refused, or give None if asked for.", "quantifier": "all numbers of axes and bins, regular and variable axes, all values and variances, with and without variances", "why_tests_cant": "Tests convert a few histograms with variances whose axes span the limits; the losses happen without variances or with other limits.", "anchors": ["zfit/_data/binneddatav1.py: convert_hist2binneddata", "zfit/_data/binneddatav1.py: BinnedHolder.from_hist", "zfit/_data/binneddatav1.py: BinnedData.from_tensor", "zfit/_data/binneddatav1.py: BinnedData.to_hist"]}
{"id": "C97", "title": "Labels of observables", "statement": "A space shows for each observable the label given for it, in the order of the observables, and the observable itself if no labels are given; another number of labels is refused. Whatever other limits, bins, orders and parts are asked for, by observables or by axes and one after the other, each observable that is left keeps its label. The label of a space with one observable is that of this observable, for several it is refused. In a combination of spaces each observable has the label it has in the spaces, where a given label is kept, and the labels are kept if the observables are taken away and given again.", "quantifier": "all numbers of observables, all labels, all histories of reordering, parts and new limits, all combinations of spaces", "why_tests_cant": "Tests look at the labels of a space after one operation; the losses need combinations or spaces without observables.", "anchors": ["zfit/core/space.py: Space.__init__", "zfit/core/space.py: Space.labels", "zfit/core/space.py: Space.label", "zfit/core/space.py: Space.with_obs", "zfit/core/space.py: Space.with_axes", "zfit/core/space.py: Space.get_subspace", "zfit/core/space.py: combine_spaces"]}
{"id": "C98", "title": "Warnings given once", "statement": "In a session each warning of zfit is given at most once for its identifier. A warning about an advanced or changed feature is given at an occasion exactly if it was not given before, its switch in zfit.settings is on and the switch for all is on; what was not given because it was switched off is given at the first occasion after it is switched on. Warnings about experimental features are given at the first use. Occasions of other warnings, and switching or looking at switches, give none and change nothing else.", "quantifier": "all sequences of occasions and switches in a session, all identifiers", "why_tests_cant": "Which warning appears depends on the whole history of the process; tests look at single occasions.", "anchors": ["zfit/util/warnings.py: warn_advanced_feature", "zfit/util/warnings.py: warn_changed_feature", "zfit/util/warnings.py: warn_changing_feature", "zfit/util/warnings.py: warn_experimental_feature", "zfit/settings.py: advanced_warnings"]}
{"id": "C99", "title": "Loggers", "statement": "After any calls for a logger, a message appears on the screen exactly once if its level is at least the level asked for last, which is WARNING by default, and a file that was given gets each message of at least its level exactly once. Level 0 shows everything. The level of a file can not be set without a file. A logger can be asked for again, by the same name and with the same file, to change the levels of screen and file independently. All loggers are below that of zfit.", "quantifier": "all sequences of calls, with errors or not, all levels and names of files", "why_tests_cant": "How often a message appears depends on all earlier calls in the process.", "anchors": ["zfit/util/logging.py: get_logger"]}
