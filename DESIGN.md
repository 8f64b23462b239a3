# Formal model of zfit in Rocq (Coq 8.16.1)

`/verif/rocq/theories` holds a hand-written model of parts of `/repo/zfit`, small
specifications, proofs, and the property theorems. The code was read, not run.

## File layout

For each area `X` of the code there are up to four files:

* `X_Model.v`    – executable definitions mirroring the Python functions. Every
  definition cites file and lines and says where it simplifies.
* `X_Spec.v`     – the vocabulary of the property statements, written without
  the helpers of the model.
* `X_Proofs.v`   – lemmas.
* `X_Theorems.v` – only the property theorems (`exact lemma`), the non-vacuity
  examples, and `Print Assumptions`.

A theorem `..._refuted` shows by a concrete witness that the desirable statement
is false of the code as it is (a finding). A theorem `..._partial` proves a part.

## General modelling decisions

* Exceptions are values (`result A := Ok a | Err e`), with the exception class kept.
* Numbers. Floating point is not modelled: `Q` (exact rationals) is used
  where the model has to compute or compare, stdlib `R` where analysis is needed.
  Statements are about the exact-arithmetic meaning of the code. NaN is an explicit
  constructor where the code branches on it.
* TensorFlow graph mode, tracing, device placement, eager/graph differences, and
  the automatic differentiation engine are not modelled, except for the cache
  bookkeeping that zfit itself implements.
* Random numbers are arguments (oracles): theorems hold for all random sequences.
* External functions (user hooks, minimiser back ends, numpy/tfp
  primitives such as `Multinomial`) are arguments. Assumptions on them are explicit
  hypotheses of theorems.
* Python mutable objects become state passed through functions.

## Plan per property

| id | modelled | proof |
|----|----------|-------|
| C01-C03 | `core/coordinates.py` with_obs/with_axes/reorder_x as list functions | permutation/index lemmas, induction on lists |
| C04-C05 | `core/space.py` rectangular limits as dictionaries obs -> interval; inside, filter, area, with_obs, get_subspace | reordering lemmas; induction over rows |
| C06-C07 | combine_spaces, MultiSpace | induction over the list of spaces |
| C08-C09 | compare_spaces_equal_static, equal_limits, less_equal_limits, `__hash__` | invariance; witnesses for the findings |
| C10-C11 | check_overlap, limits_overlap, obs_subsets | sortedness, witnesses |
| C12-C13 | Parameter state machine | invariants over operation lists |
| C14 | TemporarilySet as program syntax with blocks and exceptions | structural induction over programs |
| C15 | set_values / conversion of mappings | induction over the list |
| C16,C32 | parameter graphs as finite trees | induction over trees |
| C17 | RunManager.aquire_cpu as program syntax | structural induction |
| C18 | cachables as graph with registration | reachability, well-founded order |
| C19 | FIFO cache of FunctionWrapperRegistry | invariant over call lists |
| C20 | CachedPDF state machine | invariant over histories, witness for staleness |
| C21-C24 | Data, LightDataset, concat, SamplerData | list lemmas; refinement to name-indexed columns |
| C25-C27 | BinnedData axis moves, binning, linear binning | index arithmetic, sums over Q |
| C28-C31 | NLL values as sums over channels (exact arithmetic, log as an uninterpreted function or `ln`) | induction, real analysis for C31 |
| C33-C35 | SumPDF / ProductPDF / TruncatedPDF | algebra over a linear integration functional |
| C36 | dispatch tree of BaseModel.integrate with hook outcomes | case analysis, induction on limits |
| C37 | AnalyticIntegral registry | invariant over registrations |
| C38 | Simpson rule | induction over point pairs |
| C39 | mc loop | induction over batches |
| C40 | polynomial recurrences and integrals over R, Riemann integral of stdlib as spec | derivative identities by strong induction on the degree |
| C41 | binned_rect_integration / cut_edges_and_bins (1-D, then lifted per axis) | induction on edges |
| C42-C44 | LossEval / strategies / step minimiser / minimize state | invariants over outcome sequences |
| C45-C46 | accept_reject loop, multinomial split | invariant over loop iterations |
| C47 | name checks of parameters (`_assert_params_unique`) on trees | induction over trees, witness for nested composed parameters |
| C48 | key of the compiled-function cache | invariant over call lists |
| C49-C50 | data frames; sampler state | list lemmas; induction over update histories |
| C51-C52 | likelihood under permutations of events; create_new | permutations and sums over R |
| C53-C54 | autofill/attach/drop of axes; equality and hash of coordinates | case analysis over the three kinds of coordinates |
| C55-C56 | at_limit; graph mode switches | arithmetic over Q; invariant over the switches |
| C57 | normalization, pdf, log_pdf, ext_* dispatch | case analysis over the hooks |
| C58 | integrals of truncated PDFs | Riemann integrals (Coquelicot), sums over intervals |
| C59-C60 | sampling of combined PDFs, extended sampling | induction over the tree of PDFs, random outcomes as arguments |
| C61 | values of polynomial PDFs | strong induction on the degree against independent definitions |
| C62 | `with result:` blocks as program syntax | structural induction over programs |
| C63 | _check_convert_input of minimize with an observing minimiser | case analysis over the kinds of arguments |
| C64-C66 | covariance, correlation, hesse, errors, freeze of a fit result as a state machine with its caches | invariants over histories; characterisation of the dictionaries; square root and quantile as arguments |
| C67 | compute_errors with the root finder as an arbitrary adaptive program | invariants of the evaluations, induction over the requests |
| C68 | binned PDFs: the method resolution of `core/binnedpdf.py` for any subset of implemented methods, and the classes of the library | box sums over tensors; case analysis over the methods |
| C69 | constraints over the reals | properties of triangular matrices and sums, analysis of the one dimensional functions |
| C70 | composed, complex and converted parameters | structural induction over composed parameters; injectivity of decimal numbers |
| C71 | shapes and analytic integrals of `models/physics.py` over the reals | fundamental theorem on each piece, Chasles at the junctions (Coquelicot) |
| C72 | Exponential with its shift as state | invariants over histories of calls |
| C73 | the Levenberg-Marquardt minimiser over the rationals, with the evaluator of C42 | invariants of the two loops; quadratic forms of any size |
| C74 | the grids, the discrete convolution, the interpolation and the sampling of `models/convolution.py` over the rationals | sums over shifted indices; loop invariant on top of the model of C45 |
| C75 | the unbinned version of a binned PDF on top of the models of C68 (binned methods) and of the dispatch (C36, C57) | through the agreement of the binned views; counting of the rows of a sample |
| C76 | data, weights, padding and bandwidths of the kernel density estimates, the mixture, the grid with its binning (C27) and the convolution; kernel, square root and powers are arguments | sums over events as weighted means; mirrored events by case distinction; the convolution as a window of an infinite sum; sorting commutes with changes of units |
| C77 | the loops of the wrapped minimisers (SciPy, NLopt, Ipopt, Minuit), the construction of the result and the tolerances; the wrapped minimiser is an argument that does anything | outcome of the loops by induction over the runs; options as a dictionary that persists between fits; tolerances over the reals |
| C78 | ConditionalPDFV1: the store of parameter values with limits, the order of the columns, the loop over the events that assigns and evaluates, with errors | the wrapped PDF is any function of the values; the loop by induction over the events with an invariant on the store |
| C79 | dumping to and loading from HS3: trees, the patterns and replacements, the variables, the table of existing parameters | induction over trees of objects and of composed parameters; the dumped document in closed form, an invariant on the table of parameters |
| C80 | the wrapped distributions: their densities with the arguments that the classes hand over, the integral from the cumulative distribution, the sample from the quantile, fractions of several limits | equality with the documented functions over the reals; integrals and the law of the sample for any distribution with a proper cumulative distribution, Uniform and Cauchy as instances |
| C81 | the operators between functions, parameters, numbers and PDFs, sums, products and scaled functions, their observables and parameters, conversions to and from PDFs | expressions as trees; by induction over the tree the function built has the value, observables and parameters of the expression |
| C82 | the four methods for derivatives, values given for the call, parameters with limits that are set and set back, numerical procedures as trees of evaluations, automatic derivatives as oracles | a frame invariant over every strategy; the numerical derivative is that of the loss as a function of the values, exact for central differences of polynomials of degree two |
| C83 | `SimpleLoss`: value, errordef, trees of sums with other losses, parameters by name, `create_new`, the registered converters | induction over the tree of sums; the converters by a stable sort with every registration |
| C84 | the constructors of the unbinned PDFs as functions of their keyword arguments, `copy`, `create_extended`, `set_yield`, the density as a recursive function of the PDF | case analysis over the classes; the density by induction over the PDF, for every shape and integral |
| C85 | `partial_integrate` of functions, sums and products (with shared observables), `create_projection_pdf`, with any linear integral whose order can be exchanged | induction over the PDF; the integral of a product of functions of disjoint observables |
| C86 | the linear system of the spline over the reals, its solution (any solver), the evaluation; the morphing of lists of contents; the splined density | the rows of the system; uniqueness of the solution from a trivial kernel; for three points a quadratic form that is positive |
| C87 | the state of the search, one turn, the loop, batches; its use for bandwidths and supports | an invariant: the root stays bracketed, the bracket shrinks by a quarter of the tolerance in each turn, each step goes towards the other end |
| C88 | binned samplers as states with updates and resamplings, samples of binned PDFs, the number of events | invariants over histories; the multinomial distribution is any that keeps the bins and the number; pigeonhole for hashes |
| C89 | the retry loops of dump, dumps, load and loads with any behaviour of dill; files with a position | induction over the attempts and the recursion; invariants of the file; lists of objects by induction |
| C90 | set_seed and the generators behind each function that draws | generators are any streams; programs of draws by induction |
| C91 | the options for integrals, their updates, and compiled integrals as a cache | case analysis of the update; induction over histories for the cache |
| C92 | the curves that are drawn for PDFs and for the components of sums, with the dictionary of arguments | points by induction over lists; sums of rational functions |
| C93 | the lazily inverted matrices that a minimiser gives, and the distance found from them | invariant over all sequences of requests; algebra of any vectors and matrices |
| C94 | the conversion of an argument to a container, with the list of types as changed by the call | cases over types; a relation for what is meant; induction for ordered sets |
| C95 | the binning of spaces: construction, reordering, parts, combination, equality | axes by name, by induction over lists; exact rational edges |
| C96 | histograms with axes, values and optional variances; the ways to binned data and back | cases of the checks of shapes, induction over axes, the spaces of C95 |
| C97 | labels stored by observable, and the operations on spaces that hand them on | invariant over histories: the stored labels are those of one function |
| C98 | sessions as sequences of occasions and switches, with the sets of identifiers | invariants over sessions: what is remembered is what was given |
| C99 | a logger as its list of handlers with levels, calls also with errors | invariant over calls: one stream first, files after it |

## What is modelled

| area | code | not modelled there |
|------|------|--------------------|
| Coord | `core/coordinates.py` (all of `Coordinates`) | conversion of single values to tuples and type checks (414-455) |
| Space | `core/space.py`: `Limit`, `Space`, `MultiSpace`, combine/add/compare/overlap functions; `core/dimension.py` | several events per limit, the ANY range, symbolic tensors, names and labels, `v0/v1` views |
| Param | `core/parameter.py`: `Parameter` (value, limits, floating, at_limit), `set_values`, `assign_values`; `util/temporary.py`; settings of `util/execution.py` changed through `TemporarilySet` | infinite or NaN limits given explicitly, graph mode except the setter's test, prior, randomisers other than uniform |
| PGraph | `get_params`, `extract_filter_params`, `_assert_params_unique` of `core/baseobject.py` and the `_get_params` of parameters, PDFs, functors, losses | the object graph is unfolded to trees |
| Cache | CPU pool of `util/execution.py`; `util/cache.py`; `FunctionWrapperRegistry` of `z/zextension.py` | the compilation itself |
| CPdf | `models/cache.py` | tf.function tracing |
| Data | `LightDataset`, `Data`, `concat`, `SamplerData` of `core/data.py` | dtype, names, labels, hashes, readers of files |
| Hist | `_data/binneddatav1.py` (axis moves, conversions), `core/binning.py`, `util/binning.py`, binned spaces of `core/space.py` | rounding, variances other than as carried along |
| Loss | `core/loss.py`, `_loss/binnedloss.py` | overflow, NaN, gradients (autodiff), constraints other than as terms |
| Disp | integrate/normalization/pdf dispatch of `core/basemodel.py`, `core/basepdf.py`, `supports` | a norm space without limits |
| Reg | registry of analytic integrals, `core/integration.py:591-760` | |
| NumInt | `core/integration.py:25-473` | partial integration with given points; the quality of the random points |
| Sum, Prod | `models/functor.py`, `models/basefunctor.py` | serialisation |
| Trunc | `models/truncated.py` | several observables (the code cannot order them) |
| FSamp | sampling of sums, products, truncated and extended PDFs | the sampling of a single PDF (an argument) |
| AccRej | `core/sample.py:23-66, 141-496` | EventSpace, functional limits |
| Poly | `models/polynomials.py` | element-wise shapes, several limits |
| BInt | `core/binnedpdf.py` integration, `models/histogram.py` | |
| LEval | `minimizers/evaluation.py`, `minimizers/strategy.py` | printing, conversion to numpy |
| Step | `BaseStepMinimizer`, `minimizers/termination.py`, flags of `minimizers/fitresult.py` | the optimisers |
| Mini | `minimize`, `_check_convert_input`, `_make_stateful`, `_call_minimize`; `FitResult.__enter__/__exit__/update_params` | losses made from callables and arrays |
| Comb | combine_spaces with several limits (`core/space.py:2304-2397`, `MultiSpace`) | |
| Unc | `FitResult.covariance/correlation/hesse/errors/freeze`, `minimizers/errors.py:326-475` | the second derivatives (the methods are arguments), printing |
| Prof | `compute_errors`, `minimizers/errors.py:50-279` | the root finder of scipy and the minimiser (arguments) |
| Bpdf | `core/binnedpdf.py`, `models/histogram.py`, `template.py`, `histmodifier.py`, `binned_functor.py`, `morphing.py`, `tobinned.py` | several limits, the interpolation of tfp and of the spline (arguments), the random numbers |
| Constr | `core/constraint.py` | gradients, serialisation, the random numbers (arguments) |
| Compo | `core/parameter.py:828-1460` | functions with *args or **kwargs, dtype |
| Phys | `models/physics.py` | floats, shapes of tensors |
| Expo | `models/basic.py:32-241` (Exponential) | floats (finiteness is an argument), cached graphs, sampling |
| LM | `minimizers/minimizer_lm.py` | rounding, the solution of linear equations (argument), infinite derivatives, printing |
| Conv | `models/convolution.py` | rounding, the spline itself, more than one observable (refused by the code), serialisation |
| Ufb | `models/unbinnedpdf.py`, the use of the order in `models/interpolation.py:44-98` | spaces without limits, norms with another order of observables, the spline itself |
| Kde | `models/kde.py`, `util/binning.py`, `util/convolution.py:1-102`, `z/math.py:373-407` | KDE1DimISJ and `util/improved_sheather_jones.py` (an argument), Parameters as bandwidth, arrays of bandwidths for the convolution, negative weights |
| Drv, DrvTol | `minimizers/minimizers_scipy.py:180-360`, `minimizer_nlopt.py:190-330`, `ipopt.py:240-400`, `minimizer_minuit.py:100-230`, `fitresult.py` (`__init__`, `from_*`), `baseminimizer.py:651-657` | the wrapped minimisers and the strategy (arguments), approximations of the Hessian, printing, uncertainties taken over from the wrapped minimiser |
| Cond | `models/conditional.py`, with `core/basemodel.py` (`_convert_sort_x`), `core/parameter.py` (`value`, `assign`, `set_values`) | the wrapped PDF (argument), `use_vectorized_map`, weights, removal of sampled events outside of the limits of the data |
| Hs3 | `serialization/serializer.py` (`to_hs3`, `from_hs3`, `post_serialize`, `pre_deserialize`, `elements_match`, `replace_matching`, `convert_to_orm`), `serialization/paramrepr.py`, the representations in `core/parameter.py` | pydantic's validation (ValueError), representations of other objects (any tree), their constructors, metadata, pickling of functions |
| Tfd | `models/dist_tfp.py`, with `core/basemodel.py` (`_limits_integrate`, `_limits_sample`, `_hook_sample`) | TensorFlow Probability (its documented densities are definitions here), factors with the Gamma and Beta functions, `ExponentialTFP`, truncated Gauss (`Trunc`), accept-reject and the multinomial draw (arguments) |
| Ops | `core/operations.py`, `models/functions.py`, `core/basefunc.py`, with the operators of `core/basemodel.py` and `core/parameter.py`, `core/baseobject.py` (`get_params`, values by name), `models/basefunctor.py` (observables) | limits and integrals of functions, functions that fail, what a product or sum of PDFs is (`Prod`, `Sum`), complex numbers |
| Der | `core/loss.py` (`gradient`, `value_gradient`, `hessian`, `value_gradient_hessian` and what they call, derivatives of `SimpleLoss`), `z/math.py` (numerical and automatic derivatives) | numdifftools (any strategy), automatic differentiation (any oracle), compilation, `numerical_value_gradients` (which calls itself) |
| Sloss | `core/loss.py` (`SimpleLoss`, `BaseLoss.__add__`, `value`) | limits of parameters, `full`, compilation, derivatives (`Der`), what other losses are (any function) |
| Copy | `core/basepdf.py` (`copy`, `create_extended`, `set_yield`), the constructors in `models/` | more than one observable, `extended=True`, old arguments, the check of unique names, what shapes and integrals are (any function) |
| Part | `core/basemodel.py` (`partial_integrate`), `models/functor.py` (the partial integrals), `core/integration.py:196-243`, `core/basepdf.py` (`create_projection_pdf`) | how an integral is computed (any linear functional with exchangeable order), registered integrals over a part of the limits, a projection without remaining observable |
| Spl | `z/interpolate_spline.py`, `models/morphing.py`, `models/interpolation.py` (`_pdf`, `_ext_pdf`) | how linear equations are solved (any solver that gives solutions), batches, splines of densities in several dimensions, floating point |
| Brent | `util/root_search.py`, `_find_root` of `util/improved_sheather_jones.py`, `find_practical_support_bandwidth` of `util/convolution.py` | floating point, values that are not finite, other stopping policies than all, the function whose root is searched |
| BSamp | `BinnedSamplerData` and `from_tensor(variances=True)` of `_data/binneddatav1.py`, `sample` and `create_sampler` of `core/binnedpdf.py` | the generator of random numbers, that relative counts are normalised (Hist), conversion from and to boost histograms |
| Dill | `dill.py` | dill itself, the garbage collection and the graph cache (any functions), messages of exceptions beyond the phrases that are looked for, files that are not seekable or opened for appending |
| Seed | `settings.py` seeds, the generators of `z/random.py`, `sample.py` | the generators themselves (any functions), the entropy of the system (any stream) |
| Opt | `core/basemodel.py` options of integrals, `core/integration.py` Integration | logarithms and powers (any functions), the integration itself (NumInt), arguments of compiled functions |
| Plot | `util/plotter.py`, densities of sums | matplotlib, labels of axes and legends, other plotting functions, arguments beyond the label |
| Apx | `Approximations` in `minimizers/fitresult.py`, `minimizers/termination.py` | the numbers in matrices (any algebra with a partial inverse), derivatives of the loss (given) |
| Cont | `util/container.py` | generators used twice, equality of elements other than identity, elements that can not be hashed, abstract base classes (any relation of types) |
| Bsp | binning in `core/space.py`, `_variables/axis.py` | limits other than rectangular ones, labels, spaces with axes only, hist itself beyond names, edges and equality of axes |
| Hh | `_data/binneddatav1.py`: histograms, `from_tensor`, `to_hist` | overflow bins, storages of hist (values and variances are given), hashes, names and labels, square roots (any function) |
| Lab | labels in `core/space.py` | limits, bins and names of spaces; the order of checks of combine_spaces before labels; multiple spaces |
| Wrn | `util/warnings.py`, switches in `settings.py` | filters of the module warnings, messages, threads |
| Lgr | `util/logging.py` | formats, parent loggers, handlers added by others, relative names of files |

## Trusted base

* Coq's kernel (8.16.1); `coqchk` accepts the compiled files.
* The reading of the Python source: each definition cites the lines it models.
* The axioms of the standard library listed below, for the theorems over `R`. No axiom is added by the
  development; Coquelicot (used in Trunc and Poly) and Flocq add none.

Axioms that `Print Assumptions` lists:

* F = `ClassicalDedekindReals.sig_forall_dec`
* N = `ClassicalDedekindReals.sig_not_dec`
* E = `FunctionalExtensionality.functional_extensionality_dep`
* C = `Classical_Prop.classic`

Per theorem of the manifest (each `X_Theorems.v` prints the same when it is built):

* AccRej_Theorems.v: all 15 theorems are closed under the global context.
* Apx_Theorems.v: all 13 theorems are closed under the global context.
* BInt_Theorems.v: all 12 theorems are closed under the global context.
* BSamp_Theorems.v: all 30 theorems are closed under the global context.
* Bpdf_Theorems.v: all 27 theorems are closed under the global context.
* Brent_Theorems.v: all 13 theorems are closed under the global context.
* Bsp_Theorems.v: all 16 theorems are closed under the global context.
* CPdf_Theorems.v: all 9 theorems are closed under the global context.
* Cache_Theorems.v: all 19 theorems are closed under the global context.
* Comb_Theorems.v: all 8 theorems are closed under the global context.
* Compo_Theorems.v, closed under the global context: C70_ambiguous_refused, C70_dependencies_partial, C70_dependencies_forgotten_refuted.
* Compo_Theorems.v, F: C70_value_in_order, C70_value_by_name, C70_dict_order_irrelevant, C70_value_all_at_once, C70_value_depends_on_params_partial, C70_existing_returned, C70_numbers_converted, C70_converted_exactly_if, C70_automatic_names, C70_single_entry_dict_refused_refuted, C70_given_name_ignored_refuted.
* Compo_Theorems.v, F, E: C70_conjugate, C70_conjugate_without_dependencies_refuted.
* Compo_Theorems.v, F, N, E: C70_cartesian, C70_polar_partial, C70_polar_not_returned_refuted.
* Cond_Theorems.v: all 23 theorems are closed under the global context.
* Cond_Theorems2.v: all 1 theorems are closed under the global context.
* Constr_Theorems.v, F: C69_wrong_number, C69_contradictory, C69_gaussian_array, C69_sample_columns, C69_array_refused_refuted.
* Constr_Theorems.v, F, N, C, E: C69_gaussian_independent, C69_order, C69_gaussian_correlated_partial, C69_minimum, C69_poisson_value, C69_lognormal_value, C69_lognormal_minimum, C69_size_not_checked_refuted, C69_no_uncertainty_refuted, C69_upper_triangle_ignored_refuted, C69_poisson_swapped_refuted, C69_lognormal_not_at_observation_refuted.
* Cont_Theorems.v: all 8 theorems are closed under the global context.
* Conv_Theorems.v: all 23 theorems are closed under the global context.
* Coord_Theorems.v: all 19 theorems are closed under the global context.
* Copy_Theorems.v: all 11 theorems are closed under the global context.
* Data_Theorems.v: all 36 theorems are closed under the global context.
* Der_Theorems.v: all 15 theorems are closed under the global context.
* Dill_Theorems.v: all 17 theorems are closed under the global context.
* Disp_Theorems.v, closed under the global context: C36_unsupported_norm.
* Disp_Theorems.v, F, E: C36_integrate, C36_numeric, C36_analytic, C36_norm_is_one, C36_additive, C36_own_method_first, C36_analytic_before_numeric, C36_registered_before_numeric, C36_supported_norm.
* Disp_Theorems.v, F, N, C, E: C57_not_extended, C57_log_pdf_partial, C57_ext_log_pdf_partial, C57_log_pdf_refuted.
* Disp_Theorems.v, F, N, E: C57_normalization, C57_pdf, C57_ext_integrate, C57_ext_pdf.
* DrvTol_Theorems.v, F, N, E: C77_tol_factor, C77_tolerances_shrink, C77_first_tolerances, C77_first_tolerances_nlopt, C77_nan_tolerances, C77_tolerances_stay_numbers_refuted.
* Drv_Theorems.v: all 9 theorems are closed under the global context.
* Drv_Theorems2.v: all 6 theorems are closed under the global context.
* Drv_Theorems3.v: all 18 theorems are closed under the global context.
* Drv_Theorems4.v: all 3 theorems are closed under the global context.
* Expo_Theorems.v, F, N, C, E: C72_pdf, C72_log_pdf, C72_ext_pdf, C72_integrate, C72_normalised, C72_no_overflow, C72_unnormalised, C72_unnormalised_partial, C72_unnormalised_after_error_refuted.
* Expo_Theorems.v, F, N, E: C72_lambda_zero_refuted.
* FSamp_Theorems.v: all 14 theorems are closed under the global context.
* Hh_Theorems.v: all 11 theorems are closed under the global context.
* Hist_Theorems.v: all 19 theorems are closed under the global context.
* Hs3_Theorems.v: all 11 theorems are closed under the global context.
* Kde_Theorems.v: all 21 theorems are closed under the global context.
* Kde_Theorems2.v: all 16 theorems are closed under the global context.
* LEval_Theorems.v: all 11 theorems are closed under the global context.
* LM_Theorems.v: all 17 theorems are closed under the global context.
* LM_Theorems2.v: all 2 theorems are closed under the global context.
* Lab_Theorems.v: all 8 theorems are closed under the global context.
* Lgr_Theorems.v: all 7 theorems are closed under the global context.
* Loss_Theorems.v, closed under the global context: C28_add_other_type_raises, C29_pairs_partial, C29_accepted_pairs.
* Loss_Theorems.v, F, E: C29_numbers_differ_refuted.
* Loss_Theorems.v, F, N, C, E: C28_sum, C28_nll_formula, C28_binned_formula, C28_chi2_formula, C28_add_partial, C28_add_chi2_refuted, C30_offset_once, C30_constant, C30_same_minima_and_gradients, C30_nll_shift, C30_graph_first_refuted, C30_floating_refuted, C31_extended, C31_minimum, C31_binned_minimum, C31_fit_range_refuted, C51_order_and_weights, C52_copy_same_values, C52_offset_kept.
* Mini_Theorems.v: all 17 theorems are closed under the global context.
* NumInt_Theorems.v, closed under the global context: C38_points_odd, C38_no_points, C39_method.
* NumInt_Theorems.v, F: C38_weights.
* NumInt_Theorems.v, F, E: C38_rule_accepts, C39_points_in_box.
* NumInt_Theorems.v, F, N, C, E: C38_simpson_exact, C39_average, C39_draws_partial, C39_draws_refuted, C39_zero_refuted, C39_error_scales, C39_vectorized, C39_chunks, C39_boxes_add, C39_constant_exact.
* Ops_Theorems.v: all 21 theorems are closed under the global context.
* Opt_Theorems.v: all 14 theorems are closed under the global context.
* PGraph_Theorems.v: all 12 theorems are closed under the global context.
* Param_Theorems.v: all 21 theorems are closed under the global context.
* Param_Theorems2.v: all 5 theorems are closed under the global context.
* Part_Theorems.v: all 9 theorems are closed under the global context.
* Phys_Theorems.v, F, N, C, E: C71_crystalball_shape, C71_crystalball_mirrored, C71_double_shape, C71_generalized_shape, C71_crystalball_integral, C71_double_integral, C71_generalized_integral, C71_gaussexptail_integral, C71_generalized_gaussexptail_integral, C71_crystalball_continuous, C71_double_continuous, C71_generalized_continuous, C71_gaussexptail_continuous, C71_generalized_gaussexptail_continuous, C71_crystalball_normalised, C71_double_normalised, C71_generalized_normalised, C71_gaussexptail_normalised, C71_generalized_gaussexptail_normalised, C71_crystalball_additive, C71_crystalball_shape_negative_alpha_refuted, C71_gaussexptail_zero_alpha_refuted, C71_negative_sigma_refuted, C71_exponent_near_one_refuted.
* Phys_Theorems.v, F, N, E: C71_gaussexptail_shape, C71_gaussexptail_mirrored, C71_generalized_gaussexptail_shape.
* Plot_Theorems.v: all 15 theorems are closed under the global context.
* Poly_Theorems.v, F, E: C40_bernstein_empty, C61_bernstein, C61_bernstein_nonnegative, C61_unscaled.
* Poly_Theorems.v, F, N, C, E: C40_legendre, C40_chebyshev, C40_chebyshev2, C40_hermite, C40_laguerre, C40_bernstein, C40_normalised, C40_unscaled_refuted, C40_bernstein_unscaled_refuted, C61_legendre, C61_hermite, C61_laguerre.
* Poly_Theorems.v, F, N, E: C61_chebyshev, C61_chebyshev2.
* Prod_Theorems.v, F, N, E: C34_product_behaves, C34_pdf, C34_integrate, C34_analytic, C34_no_analytic, C34_any_overlap, C34_integral_of_pdf_one, C34_nested_not_split, C34_single_factor_refuted, C34_extra_observable_refuted.
* Prof_Theorems.v: all 12 theorems are closed under the global context.
* Reg_Theorems.v: all 9 theorems are closed under the global context.
* Seed_Theorems.v: all 9 theorems are closed under the global context.
* Sloss_Theorems.v: all 12 theorems are closed under the global context.
* Space_Theorems.v: all 40 theorems are closed under the global context.
* Space_Theorems2.v: all 19 theorems are closed under the global context.
* Spl_Theorems.v, F, N, C, E: C86_through, C86_regularised, C86_affine, C86_linear, C86_morph_at_histogram, C86_total, C86_three, C86_determined_three, C86_splined, C86_single_refuted, C86_negative_refuted, C86_order_refuted.
* Step_Theorems.v: all 7 theorems are closed under the global context.
* Sum_Theorems.v, F, E: C33_fractions, C33_remaining_fraction, C33_yield_fractions, C33_accepts, C33_yield.
* Sum_Theorems.v, F, N, E: C33_sum_behaves, C33_pdf, C33_component_values, C33_pdf_any_norm, C33_normalised, C33_integral_of_pdf_one, C33_non_negative, C33_extended, C33_own_yield, C33_analytic, C33_no_analytic, C33_all_fractions_refuted.
* Tfd_Theorems.v, F: C80_infinite_refuted.
* Tfd_Theorems.v, F, E: C80_uniform, C80_q3_refuted, C80_q_refused, C80_sample_law, C80_sample_fallback, C80_sample_one, C80_sample_several, C80_several_law, C80_uniform_cdf, C80_no_mass_refuted.
* Tfd_Theorems.v, F, N, C, E: C80_lognormal, C80_chisquared, C80_studentt, C80_gamma, C80_johnsonsu, C80_generalizedgauss, C80_qgauss_partial, C80_qgauss_refuted, C80_cauchy_cdf, C80_several_infinite_refuted.
* Tfd_Theorems.v, F, N, E: C80_gauss, C80_cauchy, C80_bifurgauss, C80_integral, C80_share, C80_fractions.
* Trunc_Theorems.v, F, E: C35_limits, C35_rows, C35_select, C35_concat, C58_integrable.
* Trunc_Theorems.v, F, N, E: C58_behaves, C58_analytic, C58_analytic_exists, C58_extended, C58_init, C58_outside_space_refuted.
* Ufb_Theorems.v, closed under the global context: C75_sample_partial, C75_sample_limits_refuted, C75_sample_extended_refuted, C75_sample_order_refuted, C75_spline_order_refuted.
* Ufb_Theorems.v, F, E: C75_integral_partial, C75_normalised_partial, C75_ext_integral, C75_several_limits_refuted.
* Ufb_Theorems.v, F, N, E: C75_density_partial, C75_density_without_norm, C75_ext_density_partial, C75_histogram, C75_own_norm_refuted, C75_own_yield_refuted, C75_yield_of_plain_refuted, C75_order_refuted.
* Ufb_Theorems2.v, F, E: C75_yield_argument.
* Ufb_Theorems2.v, F, N, E: C75_norm_argument.
* Unc_Theorems.v: all 27 theorems are closed under the global context.
* Wrn_Theorems.v: all 6 theorems are closed under the global context.

## Findings

Behaviour that differs from what a user would expect, each proved of the model by the theorem named.

* `C04_functional_limit_refuted`: C04 is restricted to rectangular limits for a reason: a limit given by a function of two observables is lost, or kept for the wrong number of columns, by with_obs to one of them.
* `C04_binning_order_refuted`: A binning listed in another order than the observables swaps the limits.
* `C04_autofill_overwrite_refuted`: After with_autofill_axes(overwrite=True) the limits attached to the axes are those of other observables.
* `C06_mismatch_accepted_refuted`: With three spaces the check can be skipped: the y-limits of the third are ignored.
* `C06_compatible_key_error_refuted`: ... and compatible spaces can fail with a KeyError.
* `C06_several_limits_dropped_refuted`: Limits that occur in one of the spaces only are dropped without an error: a row within the limits of both spaces is outside the combination.
* `C06_several_limits_order_refuted`: The same two sets of limits, one listed in another order, are combined or rejected.
* `C06_different_binnings_combined_refuted`: Binned spaces with different bin edges of a common observable are combined without an error: the edges of the second are lost.
* `C08_equal_but_different_hash_refuted`: Equal spaces can have different hash keys (dictionary order), so a Python set or dict keeps them apart.
* `C08_not_transitive_refuted`: The tolerance makes equality not transitive, and a binning is not looked at.
* `C08_binning_ignored_refuted`: a binning is not looked at by the comparison of spaces.
* `C08_equal_functional_different_points_refuted`: C08, false: equal spaces contain the same points. With a function as limits, a space over (x, y) and one over (y, x) are equal although the function takes its arguments in the order of the observables; the point x = 1, y = 5 is inside the one and outside the other.
* `C08_limit_equality_not_symmetric_refuted`: C08, false: equality of limits is symmetric. The tolerance is relative to the second limit.
* `C09_less_equal_containment_refuted`: `<=` of spaces compares the ends and is not containment.
* `C09_containment_without_less_equal_refuted`: ... nor does containment imply `<=`.
* `C10_limits_overlap_order_refuted`: limits_overlap depends on the order: an interval around an earlier one is not seen.
* `C11_bridge_refuted`: An object that bridges two groups joins only the first: the groups overlap.
* `C11_object_lost_refuted`: Objects can be lost altogether.
* `C12_nan_refuted`: NaN is accepted by every parameter and then read back: not within any limits.
* `C13_fixed_limits_refuted`: With lower = upper the tolerance is zero and the only value in the limits is rejected.
* `C13_graph_mode_differs_refuted`: Inside a graph the limits themselves are rejected; in eager mode they are not.
* `C14_graph_dict_refuted`: A graph mode that is a dictionary does not restore the keys it does not mention.
* `C14_set_values_entry_refuted`: When set_values is refused midway, the earlier parameters keep their temporary value.
* `C14_bad_graph_mode_refuted`: set_graph_mode with an invalid mode raises but has switched the backend.
* `C14_limits_changed_refuted`: Limits changed in the body can make the restoration fail, or change what it restores.
* `C15_empty_unchecked_refuted`: With an empty list of parameters, values are not checked at all.
* `C16_loss_yields_refuted`: Asking a likelihood that is not extended for its yields returns the parameters that are no yields.
* `C16_nested_composed_refuted`: extract_independent=None does not reach a composed parameter inside another one.
* `C17_exception_loses_cpus_refuted`: The property fails when a block ends with an exception, even one that is handled outside: exactly the CPUs of that block are lost.
* `C17_register_inside_refuted`: Re-registering the CPUs inside a block puts the same CPU into the pool twice.
* `C18_eager_spares_unrelated_refuted`: Eagerly, objects that have nothing to do with the change lose their caches too.
* `C18_cycle_refuted`: If the declared dependencies form a cycle, a change of an object on it ends in a `RecursionError`, whatever the recursion limit.
* `C19_size_zero_refuted`: A function decorated with `cachesize=0` can never be called in graph mode.
* `C20_fixed_parameter_refuted`: A parameter that does not float is changed: the old density is returned.
* `C20_norm_refuted`: The norm is not part of the key: a normalised density is returned when the unnormalised one is asked for.
* `C20_after_exception_refuted`: The key is stored before the value is computed: after an evaluation that raised, the same evaluation returns the value of an older one.
* `C20_number_of_events_refuted`: Evaluating on another number of events fails.
* `C20_some_fixed_refuted`: With two of three parameters floating not even the first evaluation succeeds.
* `C21_functional_limits_refuted`: Limits that are a function of several variables: the array is cut, the mapping raises.
* `C22_guarantee_forgotten_refuted`: Data created with guarantee_limits=True: the first reordering cuts them nevertheless.
* `C23_concat_obs_columns_refuted`: Data sets that hold columns instead of an array cannot be joined along the observables; and reading a single column of an array turns it into columns: the same call works before and fails after a read.
* `C23_concat_index_outside_refuted`: Concatenation along the index does not cut: rows of later data sets outside the limits of the first one stay, and disappear when the result is reordered.
* `C24_failed_update_refuted`: Weights given to a sampler without weights: the update raises, but the rows are already the new ones while the size is still the old one.
* `C24_resample_outside_refuted`: The first sample is cut to the limits of the sampler, a resampled one is not.
* `C24_weighted_view_refuted`: `with_weights` of a sampler is a view: after an update its weights belong to other rows.
* `C25_three_cycle_refuted`: Three observables moved in a circle: with equal numbers of bins the contents are found under the wrong names, with different numbers the reordering raises.
* `C26_column_order_refuted`: A space whose observables are the ones of the data in another order: the columns are filled in the axes of other observables.
* `C27_simple_nearest_refuted`: But it does not put an event on the nearest point: at three quarters of the step an event is split.
* `C27_above_grid_refuted`: An event just above the last point is counted at the first one.
* `C28_add_chi2_refuted`: The option errors="expected" of a chi2 is not handed over to the sum.
* `C29_numbers_differ_refuted`: a loss with more models than data sets, or more data sets than models, is accepted; what is left over is ignored.
* `C30_graph_first_refuted`: A first evaluation inside a graph does not fix the offset.
* `C30_floating_refuted`: For binned losses the difference changes when parameters of a constraint are fixed or floated.
* `C31_fit_range_refuted`: With a fit range the Poisson term still counts the events outside: one event is in the range, but an expectation of two is preferred to an expectation of one.
* `C33_all_fractions_refuted`: As many fractions as PDFs They are used as they are. If they do not add up to one, then the pdf over the common norm is not normalised: its values have an antiderivative that grows by their sum, although `integrate` says one.
* `C34_single_factor_refuted`: The product of a single PDF raises an exception when it is evaluated over the norm of that PDF.
* `C34_extra_observable_refuted`: An observable given to the product that none of the factors has is ignored in the integral: the pdf is not normalised, its values integrate to two over the norm.
* `C37_contained_refuted`: What is required is not that the requested limits are contained in the registered ones: an integral for `0, 10` is not used for `2, 5`, but used for `-5, 5`.
* `C37_overwritten_refuted`: A later registration with lower priority replaces an earlier one if one of them is for all limits; the replaced one is then missing where only it applied.
* `C39_draws_refuted`: more than the maximum number of draws can be made, by less than one batch.
* `C39_zero_refuted`: Degenerate settings: with a maximum of zero, or a tolerance of 9999 or more, nothing is drawn and every integral is zero.
* `C40_unscaled_refuted`: With apply_scaling=False the values returned are the true integrals times half of the length of the range, so they are wrong unless the range has the length two.
* `C40_bernstein_unscaled_refuted`: A Bernstein PDF with apply_scaling=False: the integral is computed as if it were rescaled. The density x on the range from 0 to 2 integrates to 2, the code says 1.
* `C41_outside_refuted`: A range that lies outside of the edges: not zero, as the fractions would say, but the negative of the distance measured in the outermost bin.
* `C41_density_axis_refuted`: A density integrated over some axes only is multiplied by the bin widths of the other axes as well: what remains is not a density.
* `C41_binned_limits_refuted`: Limits that carry a binning: its edges are combined with the contents of the PDF, so that any range with as many bins as the PDF has gives one, however little of the PDF it covers.
* `C42_abandon_refuted`: An exception that leaves a block in which the limit is ignored (a FailMinimizeNaN, say): the limit stays ignored for ever.
* `C42_gradient_refuted`: A gradient that is NaN before any good gradient was seen is answered by none at all, though a finite value was seen.
* `C42_hessian_refuted`: A Hessian that is NaN is given to the minimiser as it is, whatever was seen before.
* `C42_print_refuted`: With printing switched on a failed numerical check is not pushed back but ends in ValueError: the attempt to print the value raises.
* `C43_edm_negative_refuted`: With a tolerance above 999999 a negative distance is accepted.
* `C44_exception_refuted`: An exception of the minimiser leaves the parameters where it had put them, and the state of the minimisation stays in the minimiser.
* `C44_start_values_refuted`: Start values stay in the parameters.
* `C44_init_refuted`: The values of init stay in the minimised parameters.
* `C44_point_limits_refuted`: A parameter whose limits are one point cannot be restored: the minimisation succeeds but `minimize` raises.
* `C44_other_parameters_refuted`: A parameter that is minimised but does not belong to the loss is not restored.
* `C44_no_result_refuted`: A minimisation that reaches the maximum number of iterations by an exception returns None.
* `C45_many_limits_refuted`: C45: with several limits, the thinning is not fair: two points of equal density, one in each limit, are accepted; of these, whatever the binomial number, the point of the second limit is never kept without that of the first.
* `C45_zero_density_refuted`: C45: a density that is zero everywhere: the sampling never ends, and no error is raised.
* `C47_nested_composed_refuted`: Composed parameters inside composed parameters are not checked.
* `C48_other_arguments_ignored_refuted`: Everything else about the arguments, also which keyword a parameter was passed by, is left to `tf.function`: two calls can share a compiled function although they differ in models, spaces, strings or keywords.
* `C49_weightsname_refuted`: A weights name that is an observable: its column is overwritten, and reading the frame back drops the observable.
* `C54_transitive_refuted`: equality of coordinates is not transitive.
* `C57_log_pdf_refuted`: For a PDF that implements `_pdf` without support for the norm (the Crystal Ball shapes and the polynomials do) `log_pdf` is wrong at every point and for every norm: instead of the logarithm of the normalisation it subtracts the normalisation itself.
* `C58_outside_space_refuted`: The claim that the integral over the space is the integral of the truncated function there is false for limits that stick out of the space: in eager mode the integral is taken over the whole of the limits; in a graph it is right.
* `C59_sum_order_refuted`: C59: with the components of a sum in different orders, events are lost, and values stand under the wrong name. Both PDFs have the observables x and y; the sample of two events has one; in the second sample, the value of y is called x.
* `C59_product_order_refuted`: C59: a product whose observables are given in another order, or whose overlapping factors come first, has the columns of its sample under the wrong names.
* `C60_truncated_refuted`: C60: a truncated PDF of an extended PDF is sampled as if it were not truncated: with the yield of the whole, also outside its limits.
* `C60_own_yield_refuted`: C60: a sum with a yield of its own over extended PDFs is sampled with the yields of these.
* `C60_product_refuted`: C60: an extended product of extended PDFs is not sampled as a product: events of different observables are put in one column.
* `C60_mixed_refuted`: C60: an extended PDF with some parts extended and others not cannot be sampled without a number.
* `C62_refused_entry_refuted`: A result whose second value is refused: the block is not entered, but the first parameter keeps the value of the result, and the values from before stay on the stack.
* `C62_stale_values_refuted`: So a failed inner use of the same result makes the outer block restore other values. Here the limits are changed for a while inside of the block: y = 2 before and 4 after.
* `C63_init_wins_refuted`: With an init its values win over the start values, though the start values were set.
* `C63_missing_refuted`: If a minimised parameter is not in init, no minimiser gives a result.
* `C64_weightcorr_in_cache_refuted`: C64: the weight correction is not part of the cache's key: asking for "effsize" after "asymptotic" gives the asymptotic covariance.
* `C64_effsize_refuted`: C64: the "effsize" correction never changes anything (the inverse Hessian is returned as it is), and it fails with an AttributeError as soon as one of several data sets has no weights.
* `C64_covariance_at_current_values_refuted`: C64: the covariance is computed where the parameters happen to stand, not at the minimum: a method that depends on the point gives another covariance after the user moved a parameter.
* `C64_approx_order_refuted`: C64: the approximate covariance is read with the order of the result's parameters although the approximation has its own order.
* `C65_level_drift_refuted`: C65: the tolerance on the confidence level is not transitive: calls, each close to the one before, replace an entry by one for a level that would have been refused.
* `C65_name_used_by_errors_refuted`: C65: the same name for `errors` and then for `hesse` with a weight correction is a KeyError instead of the explanation.
* `C65_sigma_refuted`: C65: `errors(sigma=s)` uses the level cdf(s) of the chi2 distribution, so the loss is scanned up to errordef * s instead of errordef * s**2: for any quantile function that inverts cdf, the square of the number of standard deviations of the stored level is s.
* `C66_values_after_freeze_refuted`: C66: after freezing, the values can not be looked up by name ("Parameters can be accessed by their string name"): the lookup raises TypeError and the test with `in` RuntimeError; before freezing this happens for an unknown name.
* `C66_covariance_by_name_refuted`: C66: asking for covariances by names before freezing gives nan, without any complaint.
* `C67_wrong_side_refuted`: A lower error is positive, without a warning: if the loss is below the minimum on the other side by the level, this counts as a crossing and not as a new minimum.
* `C67_not_profiled_refuted`: The other parameters are not at the minimum for the value reached: the loss is the only thing that is tested, so that the first point can be accepted. Here the loss is x^2/2 + y^2/2 + x^2*y/2 with minimum 0 at the origin and the unit matrix as covariance.
* `C67_beyond_limit_refuted`: An error can lead out of the limits of the parameter: the loss is evaluated at the limit, but the value asked for is reported.
* `C67_level_lost_refuted`: After a new minimum the errors are for one standard deviation although two were asked for.
* `C67_values_after_exception_refuted`: After an exception (here from the loss) the parameters are not at the values of the fit.
* `C68_unnormalized_only_refuted`: A class that implements the unnormalised density only: nothing can be computed, `pdf` and `rel_counts` call each other for ever; the density of the base class for PDFs is there, but is not reached.
* `C68_density_only_refuted`: A class that implements the density for every norm only, and has a yield: the relative contents and the extended density are right, the contents raise.
* `C68_histogram_ext_norm_refuted`: The extended density of a histogram whose yield is its total, with another norm than its space: the yield is there twice.
* `C68_template_norm_refuted`: A template with a norm of its own: `rel_counts` are relative to everything, `pdf` to the norm.
* `C68_modifier_not_extended_refuted`: Of a PDF that is not extended: the relative contents and the density raise, for they are taken from the contents of the daughter.
* `C68_modifier_norm_refuted`: The automatic contents with another norm: the contents of the daughter for that norm are modified, which is not yield times relative contents.
* `C68_sum_yield_refuted`: A yield that is given is not used for the contents: they are those of the daughters, added.
* `C68_sum_yield_not_extended_refuted`: ... and if the first daughter is not extended they raise.
* `C68_morphing_yields_refuted`: Two histograms with different yields: the contents are not the yield times the relative contents, for contents and relative contents are both interpolated.
* `C68_from_unbinned_yield_refuted`: A yield that is given while the unbinned PDF has one: the contents are those of the unbinned PDF, and the yield of the binned PDF is the other one.
* `C68_other_binning_refuted`: The bins of `x` are not looked at: any binning of the same observables gives the same.
* `C68_own_log_pdf_refuted`: An own method that only works without norm: asked with any norm, TypeError.
* `C68_own_sample_refuted`: An own method for samples is called and what it returns is dropped.
* `C68_sample_limits_refuted`: Other limits raise.
* `C69_size_not_checked_refuted`: Uncertainties of another size than the parameters: accepted at construction, and every value is an error, although ShapeIncompatibleError is documented for the construction, and a single number should be broadcast.
* `C69_no_uncertainty_refuted`: Without any uncertainty a constraint can be made, of which no value can be had.
* `C69_upper_triangle_ignored_refuted`: A covariance that is not symmetric is accepted, and the part above the diagonal ignored.
* `C69_poisson_swapped_refuted`: As documented it would be the Poisson probability of the observation with the parameter as its mean. It is not: observed 2, parameter 1.
* `C69_lognormal_not_at_observation_refuted`: The observed value of the parameter is not where the penalty is smallest: observed 2 with uncertainty 1, the penalty is smaller at `exp 1` than at 2.
* `C69_array_refused_refuted`: A numpy array with one observation per parameter is refused by Poisson and log-normal constraints, a tensor by all
* `C70_single_entry_dict_refused_refuted`: C70, false: a function with one argument that takes a dict works for a dict of any size. For two and more entries it gets the dict; for one entry the parameter is created, but the value raises, because the key is passed as the name of an argument.
* `C70_dependencies_forgotten_refuted`: C70, false in general: the list of parameters given together with a function without arguments is forgotten, so the composed parameter depends on nothing; of a dict it is kept.
* `C70_conjugate_without_dependencies_refuted`: C70, false: the conjugate of a complex parameter depends on what the parameter depends on. It changes with the parameters, but `get_params` returns nothing for it.
* `C70_polar_not_returned_refuted`: C70, false in general: modulus and angle given are those that come back. With a negative modulus both differ; with an angle outside (-pi, pi] the angle does. Neither is refused.
* `C70_given_name_ignored_refuted`: C70, false: a name given for a function is the name of the composed parameter that comes out. It is ignored, and so are the limits given for a complex number.
* `C71_crystalball_shape_negative_alpha_refuted`: The documentation says nothing about the sign of alpha. Read literally, its formula is not the shape for a negative one: the Gaussian at x = mu becomes the tail
* `C71_gaussexptail_zero_alpha_refuted`: alpha = 0: the sign of alpha, zero, multiplies x. The documented Gaussian on the right of mu is the constant one instead
* `C71_negative_sigma_refuted`: A negative sigma: nothing forbids it. The shape has its tail on the other side (the sign of sigma counts), the integral takes |sigma|
* `C71_exponent_near_one_refuted`: An exponent n close to one, but not one: the integral is the one for n = 1 with the normalising constant of n
* `C72_unnormalised_after_error_refuted`: ... but not after an error: the shift of the call that failed stays. Here the largest float is exp 700; one event far outside of the norm range makes a call fail, and from then on pdf(x, norm=False) is smaller by a factor
* `C72_lambda_zero_refuted`: lambda = 0, a uniform density in the documentation: every normalised value is NaN
* `C73_first_step_refuted`: From a point where the loss bends downwards the minimiser may find no step at all, although the loss falls there: the damped Hessian is negative, so that all steps go uphill, and minimize raises AssertionError (for -x^2 from 1).
* `C73_valid_within_tolerance_refuted`: A result can be valid although it is not within the tolerance of the minimum: the criterion uses the damped Hessian. For x^2/200 from 1 the result is 101/110 with "edm" below the tolerance 1/2000, while the edm at that point (and the distance of the loss to its minimum, 0) is eight times the tolerance.
* `C73_constant_irrelevant_refuted`: A constant added to the loss changes the result: the improvement is compared with 10% of the value of the loss. For x^2/200 from 1 the result is 101/110; for x^2/200 + 100 it is below 10^-12.
* `C73_result_is_loss_refuted`: With the default strategy, which replaces a NaN by the last value plus 100, a valid result can be at a point at which the loss is NaN: a step found too good is discarded, and the value made up for the NaN after it passes as a good one.
* `C74_convolution_refuted`: The values are not the convolution with the kernel itself: its points are squeezed. A kernel that moves everything by 1 moves a peak by 4/5, and the variances do not add up.
* `C74_smearing_refuted`: The variance of the density is not the sum of the variances.
* `C74_covered_refuted`: With a kernel that is not symmetric around zero, the grid lacks what is needed inside of the limits of the func: a flat func, smeared by a flat kernel, is not flat there.
* `C74_default_points_refuted`: The documentation promises 100 points by default.
* `C74_sample_range_refuted`: Otherwise it is not: for a kernel with limits above zero no event is ever in the lower part of the limits, although func and kernel can add up to a point there.
* `C74_sample_limits_kernel_refuted`: Limits of the kernel that are wider than its space are used for its sample, but not for the range of the func.
* `C75_own_norm_refuted`: An own norm, or an own range of the observable, that is not that of the binned PDF is not used: the density is that of the norm of the binned PDF, and the integral over the own norm range is not one.
* `C75_own_yield_refuted`: A given yield: the extended density has the yield of the binned PDF, while the extended integral has the given one.
* `C75_yield_of_plain_refuted`: A given yield for a binned PDF without yield: no extended density.
* `C75_several_limits_refuted`: Integrals over several boxes raise, although the method says it can do them.
* `C75_order_refuted`: With the observables in another order than those of the binned PDF, densities are found by name, and integrals are wrong: the edges are put in the new order, the contents are not.
* `C75_sample_limits_refuted`: Limits: the number asked for is drawn in the whole range, and what is outside of the limits is dropped.
* `C75_sample_extended_refuted`: Without a number, the sample of an extended PDF of an extended binned PDF raises.
* `C75_sample_order_refuted`: With the observables in another order the columns get the wrong names: the events of the last bin, `1,2` in x and `1,3` in y, have x = 2 and y = 3/2.
* `C75_spline_order_refuted`: `SplinePDF`: the order asked for has no effect on the density, while the extended density uses it.
* `C76_documented_rule_refuted`: The documented rule divides the distance of the quartiles by 1.34; the code does not.
* `C76_unit_weights_refuted`: Weights of one change the bandwidth: the weighted quartiles are other ones.
* `C76_bandwidth_copies_refuted`: "This will change the count of the events": the bandwidth uses the number of entries instead of the sum of the weights.
* `C76_heavy_event_refuted`: A largest event with more than half of the weight makes the default bandwidth fail.
* `C76_padding_outside_refuted`: Events outside of the limits are mirrored into them.
* `C76_grid_local_padding_refuted`: A grid estimate takes one bandwidth for each point of the grid; with padding this is refused.
* `C76_equal_events_refuted`: Equal events have an exact estimate, but none on a grid.
* `C76_simple_binning_refuted`: Simple binning does not count an event at the nearest point of the grid.
* `C76_convolution_outside_refuted`: Far away from all events the convolution still gives a density.
* `C76_default_support_refuted`: Without a support the kernel is cut off at 1.2 times the size of the space (with its unit) times the bandwidth: the same data in other units has another density.
* `C77_result_status_refuted`: Finding: fitresult.py:400-419 sets the status before it looks at the limits, so that an invalid result can have the status 0 and be called converged.
* `C77_scipy_values_refuted`: Finding: the shift for the next run is added in place (346: `values += ...`) to the array that the result reports. If the criterion is met in a run that hardly changed it, then the result is valid and reports values where neither the criterion nor the loss was evaluated and that the parameters do not have.
* `C77_scipy_start_in_limits_refuted`: Finding: the shift does not heed the limits of the parameters: a run can start outside of them although all runs end inside. Here the limits are 0 and 1 and the step size is 1.
* `C77_scipy_reuse_refuted`: Finding: the dictionary of options is shared by all fits with the same minimiser (217 copies only the outer dictionary), and Nelder-Mead and Powell write into it what the last run left. After a fit with more than one run, the next fit, of whatever loss and from whatever values, starts from the simplex where the first one ended, that SciPy uses instead of the starting values.
* `C77_nlopt_message_refuted`: Finding: minimizer_nlopt.py hands over an empty message unless it has one of its own, so that the one for NLopt's code (fitresult.py:1023-1024) is never used. A result that is invalid because NLopt stopped, e.g. at its number of evaluations (code 5), gives no reason.
* `C77_nlopt_fmin_refuted`: Finding: a run that fails leaves the values where they were, but the value of the loss is then what NLopt had reached: the result can report a value of the loss that is not that of its values.
* `C77_ipopt_status_refuted`: Finding: whether Ipopt reports a failure is not looked at: with the criterion met the result is valid although its status says that the solver failed (e.g. 2 for an infeasible problem, or a negative code).
* `C77_minuit_params_refuted`: Finding: if the criterion is not met after twenty migrads, the parameters are not set to the values of the result but stay where the last evaluation was.
* `C77_minuit_message_refuted`: Finding: the message of such a result is empty, although it is not valid.
* `C77_minuit_maxiter_refuted`: Finding: `maxiter` is a limit for every migrad (139), not for the fit: a Minuit that keeps to it in every migrad can evaluate the loss twenty times as often.
* `C77_tolerances_stay_numbers_refuted`: So the tolerances do not stay numbers.
* `C78_density_refuted`: Finding: a value of the data outside of the limits of the parameter is replaced by the limit without a word, as `assign` (121) does not check.
* `C78_missing_observable_refuted`: Finding: data that lacks an observable of the PDF is not refused: `x.with_obs` takes what is there, and `: pdf.n_obs` (119) takes the first columns, whatever they are; here the density of "x" is evaluated at the value of "y".
* `C78_parameter_at_limit_refuted`: Finding: if the value of a conditional parameter, which does not matter for the density, is at its limit, a compiled evaluation fails: `set_values` (124) sets every parameter to its own value, and the check in compiled functions (core/parameter.py:608-617) does not allow the limits.
* `C78_error_keeps_parameters_refuted`: Finding: if the PDF fails for an event while a compiled function runs, the conditional parameters keep the values of that event.
* `C78_integrals_keep_parameters_refuted`: Finding: integrals and samples change the values of the conditional parameters.
* `C78_sample_keeps_parameters_refuted`: Finding: sampling changes the values of the conditional parameters.
* `C78_sample_two_observables_refuted`: Finding: samples of a PDF with more than one observable fail: `[..., 0`] (205) keeps only the first one.
* `C78_sample_full_data_refuted`: Finding: samples fail if the data for the conditions has also the observable of the PDF, e.g. a data set of the whole space: the events have then one column too many.
* `C79_fixed_refuted`: Finding: a parameter that is fixed (`floating = False`) is loaded as a constant parameter; it can not be set or set free again and has no limits.
* `C79_label_refuted`: Finding: the label of a composed parameter is lost.
* `C79_constraint_refuted`: Finding: a parameter of a constraint that is in none of the PDFs is dumped as its name only, and is not loaded.
* `C79_clash_refuted`: Finding: a PDF with the name of one of its parameters can be dumped but not loaded.
* `C79_equal_names_refuted`: Finding: of PDFs with the same name all but the first are named after an address in memory. The document is different each time, and if the address is used again a PDF is lost.
* `C79_merged_refuted`: Finding: two parameters with the same name, in two PDFs, are loaded as one, with the value of the first.
* `C80_qgauss_refuted`: Finding: QGauss does not have the documented shape.
* `C80_q3_refuted`: Finding: the value q = 3, which is not allowed, is accepted.
* `C80_infinite_refuted`: Finding: there is no integral over infinite limits, and no fall back to another way of integration: InvalidArgumentError. So normalising over the whole line, as the documentation has it, fails.
* `C80_no_mass_refuted`: Finding: where the distribution has no probability the events are outside of the limits, at the edge of the support.
* `C80_several_infinite_refuted`: Finding: with one of several limits infinite nothing can be sampled, although a single infinite limit is fine.
* `C81_frozen_refuted`: Finding: the product of two parameters is a number, so a function multiplied by it does not follow the parameters.
* `C81_params_refuted`: Finding: a parameter times a sum of functions does not have the parameters of these functions, although its value depends on them; they can not be given by name.
* `C81_name_clash_refuted`: Finding: a parameter with the name of an argument of the function is forgotten.
* `C81_reserved_name_refuted`: Finding: a parameter called like an argument of the constructor can not be multiplied with a function.
* `C81_add_number_refuted`: Finding: a function and a parameter or a number can not be added.
* `C81_as_pdf_params_refuted`: Finding: the PDF of a sum of functions has no parameters.
* `C82_error_restores_refuted`: Without given values, an exception of the function leaves the parameters where the numerical procedure had just put them.
* `C82_numerical_at_limit_refuted`: At a limit this fails: the function is then asked for values beyond the limit and answers with the value at the limit. The loss `x` has the derivative 1, but at the upper limit of `x` the numerical gradient is 1/2 for all steps and weights.
* `C82_value_gradient_numgrad_refuted`: `value_gradient` does not look at its argument `numgrad`: with numgrad=True the gradient is still the automatic one, if the option of the loss says so.
* `C82_default_hessian_refuted`: By default, i.e. with the options that a loss has if none are given, `hessian` is the automatic one, but the Hessian of `value_gradient_hessian` is the numerical one.
* `C82_given_gradient_refuted`: If only the gradient is given as a function, then `value_gradient_hessian` does not use it.
* `C82_simple_zfit_refuted`: A `SimpleLoss` with `gradient="zfit"`, i.e. automatic differentiation, never has a gradient: the call raises a WorkInProgressError for every function and all parameters; the same holds for `hessian="zfit"` and `value_gradient_hessian`.
* `C83_sum_names_refuted`: The sum of losses can be built for any names, but its value is an error as soon as one name does not have exactly two characters: the names are taken apart as if they were pairs (loss.py:1528, `in params` instead of `in params.items()`).
* `C83_sum_composed_refuted`: With a composed parameter the value of a sum is an error, or wrong without an error: here x = 2 and the second loss is y = x + 10, so 2 + 12 is expected, but the second loss is evaluated with x = 12.
* `C83_sum_commutes_refuted`: The order matters: a loss of another kind plus a simple loss is refused, the other way round is accepted.
* `C83_create_new_refuted`: `create_new` fails for every loss whose errordef is an attribute of its function, and it drops the given gradient and Hessian of any other.
* `C84_fails_refuted`: Copies, and extended copies, fail for these classes, whatever the arguments they were made with: Bernstein polynomials, kernel density estimates, truncated, convolved, cached, unbinned and spline PDFs, and conditional PDFs.
* `C84_poly_refuted`: A polynomial without scaling, and one that is normalised over less than its space, has another density after a copy.
* `C84_coeff0_refuted`: A first coefficient given as a parameter is replaced by its current value when the polynomial is made: a change of that parameter has no effect on the polynomial.
* `C84_sum_refuted`: A sum whose fractions are all given and do not add up to one has another density after a copy: the last fraction is replaced by the remainder.
* `C84_arguments_refuted`: A simple functor loses its parameters, a wrapped distribution its further arguments, and one with a function of the parameters cannot be copied.
* `C84_lost_refuted`: A copy is not extended, whatever the PDF, its space is no longer the one of the PDF (where samples are drawn by default), and its label is lost.
* `C85_straddling_refuted`: A product with a factor both in the limits and in the data: with `norm=False` the factor is normalised all the same, with another range it is normalised over its own range.
* `C85_limits_refuted`: Several limits: an error for a function without a special integral; a product takes all combinations of the parts of the limits instead of the sum over the limits.
* `C85_data_refuted`: Data with the integrated observable: it is not integrated, the value at the data is multiplied with the width.
* `C85_left_out_refuted`: A projection with limits and observables that leave one out can be made, and fails when it is evaluated.
* `C86_single_refuted`: One histogram cannot be morphed: its system has no unique solution, whatever its value of alpha.
* `C86_negative_refuted`: Between histograms with positive contents the contents can be negative: 101, 1 and 1 at -1, 0 and 1 give less than zero at 1/2.
* `C86_order_refuted`: The order that is given to a splined density is used for the extended density, but not for the density: with order one, the densities 1, 0 and 1 at the centers -1, 0 and 1 and the yield one, the two differ at 2 by more than 1/2, whatever the solver.
* `C87_converged_refuted`: C87: "the result that is called converged is a root": false without a change of sign; the zero need not even be between the points.
* `C87_isj_refuted`: C87: "a larger bracket is tried until the root is found": false; the function here has the root 1/10, with up to 50 distinct events the first bracket ends at 1e-11, and the result is zero instead.
* `C88_failed_refuted`: C88: "an update that raises changes nothing": false; if variances are given but the sampler has none, the contents are replaced nevertheless, and the hash is still that of the old ones.
* `C88_collision_refuted`: C88: "other contents have another hash": false for every digest, there are fewer hashes than contents.
* `C88_bins_refuted`: C88: "the contents always fit to the bins of the sampler": false; an update with another number of bins is accepted, although no binned data could be made of it.
* `C88_order_refuted`: C88: "a histogram with the observables in another order is put into the order of the sampler": false; its array is taken as it is, so that contents are found in other bins.
* `C88_with_obs_refuted`: C88: "data that come from a sampler follow it": false for the data in another (or the same) order of the observables, these hold the contents of the moment.
* `C88_hashing_refuted`: C88: "hashing can be switched off": false for samplers, none can be made or updated any more.
* `C88_own_sample_refuted`: C88: "what a binned PDF implements as `_sample` is used": false, the result is dropped.
* `C88_same_number_refuted`: C88: every resampling without a number draws as many events as the first sample. For an extended PDF this number is drawn once, not again: "the number of events of an extended PDF fluctuates in each sample" is false.
* `C88_create_params_refuted`: C88: "values for the parameters can be given when a sampler is created": false, unless the old argument is set to None at the same time.
* `C88_fixed_list_refuted`: C88: "parameters that are not in the list of fixed parameters follow their present values": false, the list does not matter.
* `C88_yield_refuted`: C88: "an extended PDF that is sampled with another yield gives as many events": false, the number is drawn for the present yield.
* `C88_poisson_variances_refuted`: C88: "variances=True gives the variances of a Poisson distribution" (which are the values): false, they are the square roots.
* `C89_endless_refuted`: C89: "max_retries is the largest number of retries": false; if a dictionary changes its size during the dumping this is tried again until python allows no more recursion, even with no retries at all.
* `C89_dropped_refuted`: C89: "bytes that have been verified are returned": false for `dumps`; if the first verification has failed, the object is dumped again even after a verification that has succeeded, and an exception is raised if the last one fails. `dump` stops, and succeeds.
* `C89_partial_write_refuted`: C89: "after a dump without an exception the file holds the object": false without verification; what an attempt that has failed has written stays before it.
* `C89_overwritten_refuted`: C89: "after a dump that raises because the file can not be read, the next one is written after it": false, the file is back at the position where the first began, and the next one overwrites it.
* `C89_unbound_refuted`: C89: "loading raises what is documented": false, after an operation the file does not support that has nothing to do with reading, a variable without a value is returned.
* `C90_independent_refuted`: C90: "leaving one generator out does not change the seeds of the others": false; the seed of the backend is then the one that numpy would have had, and the one it would have had otherwise is derived from that.
* `C90_poisson_refuted`: C90: "zfit.sample.poisson draws a number": false, it raises whatever it is called with; all PDFs, extended or not, are refused.
* `C90_zfit_only_refuted`: C90: "with a seed for zfit the samples of zfit are reproducible": false if the generator of the backend is left out; the numbers of events of the parts of a sum come from that.
* `C91_number_refuted`: C91: "the number of draws can be set": false, for every number an UnboundLocalError is raised (if the tolerance is accepted); the option is set nevertheless, other options that come later are not.
* `C91_default_refuted`: C91: so a class with a number as the default has no models: each creation raises.
* `C91_failed_refuted`: C91: "an update that raises changes nothing": false, with a tolerance that is refused the other options have changed.
* `C91_zero_refuted`: C91: "a tolerance that is accepted can be used": false for zero, 'auto' raises a ValueError from then on.
* `C91_adapt_refuted`: C91: "'auto' draws follow the tolerance": false; 'auto' is replaced by a number at once, which stays when the tolerance changes.
* `C91_compiled_refuted`: C91: "an update has an effect on the next integral": false if the function of the integration has been compiled before; nothing that happens to the model changes what it uses.
* `C92_yield_refuted`: C92: "the components of an extended sum add up to it": false for the yield of a sum of PDFs without yields; the components are smaller by the yield.
* `C92_components_refuted`: C92: nor for a sum of two or more extended PDFs: each component has its yield and its fraction, so that wherever they are positive the sum of the curves is below the curve of the sum.
* `C92_labels_refuted`: C92: "each component has its own label": false with `plotkwargs`; the first label is written into the dictionary of the user and given to all.
* `C92_function_refuted`: C92: with the function for components, always.
* `C92_defaults_refuted`: C92: "arguments take precedence over defaults": false, the defaults replace whatever is given.
* `C92_custom_refuted`: C92: "a function for plotting that is given to the plotter is used": false, it is never called.
* `C93_invert_refuted`: C93: "without inverting the answer is what the minimiser has given": false, after a request with inverting it is the matrix found then.
* `C93_inconsistent_refuted`: C93: "the two are always inverse to each other": false if both are given, they are not compared.
* `C93_edm_singular_refuted`: C93: "a singular Hessian leads to the distance 999999": false if it is an approximation of the minimiser, the criterion raises LinAlgError then, each time.
* `C94_left_alone_refuted`: REFUTED: a list of types given as `non_containers` is not left alone. It is extended in the caller's hands, more with every call.
* `C94_non_containers_refuted`: REFUTED: the types given as `non_containers` are always kept as one thing. A value of the container's own type is taken apart anyway: asked for a list and told that lists are no containers, a list of two is two things, asked for a tuple it is one. (And anything but a list, such as the False that the code looks for later on, is refused.)
* `C94_independent_refuted`: REFUTED: what is converted is independent of the caller's container. A container of the right type is returned itself (the same object), so that a later change of it is seen on both sides; of another type it is a new one.
* `C95_limits_refuted`: REFUTED: "without limits, the limits of each observable are the outer edges of its axis". With the observables in another order than the axes the limits are attached to the wrong observables.
* `C95_subspace_refuted`: REFUTED: "a subspace of a binned space is binned". It has no bins, while the same part taken with `with_obs` has.
* `C95_with_axes_refuted`: REFUTED: "a part of a binned space can be taken by axes as by observables". The whole binning is given to the part, which is refused.
* `C95_combine_refuted`: REFUTED: "spaces with different bins for the same observable are refused". The bins of the first space are taken, so that the combination depends on the order.
* `C95_equal_refuted`: REFUTED: "a space is equal to itself sorted in another way". With bins it is not, the axes are compared in order.
* `C95_cover_refuted`: REFUTED: "the bins of a space cover its limits". New limits leave the bins as they are, and limits that are given beside axes are not compared with them.
* `C96_round_trip_refuted`: REFUTED: "data are the same after the way to hist and back". Without variances they have NaN as variances then; limits other than the outer edges are replaced by the outer edges.
* `C96_poisson_refuted`: REFUTED: "with variances=True the variances are those of Poisson counts". They are the square roots of the counts, for every count other than 0 and 1 not its variance.
* `C97_combine_refuted`: REFUTED: "a label that was given is kept in combinations". The last space wins, even if it was made without labels.
* `C97_dropped_refuted`: REFUTED: "the labels are kept if the observables are taken away and given again". They are kept inside but not used; and a space with axes only that has been given labels can not be combined with any space.
* `C98_changing_refuted`: REFUTED: "each warning is given once" for features that are going to change: given at each occasion, but never after a warning of the other kind with the same identifier.
* `C98_read_refuted`: REFUTED: "looking at a switch changes nothing". A switch that is not in the settings is off after it was read, so that the warning is never given.
* `C99_again_refuted`: REFUTED: "the file can be given again": a name raises AttributeError, a Path adds the file once more, so that each message is written twice.
* `C99_independent_refuted`: REFUTED: "the levels of screen and file are changed independently" and "a refused call changes nothing".
* `C99_zero_refuted`: REFUTED: "level 0 shows everything": a logger of level 0 takes the level of the one above it.

Seen while reading, not proved:

* Space: get_subspace drops the binning; get_subspace of a part of a functional limit raises
  AttributeError; `inside(guarantee_limits=True)` returns the shape of its input.
* Parameters: the check of `randomize` that should raise RuntimeError is never reached; NaN passes
  every limit.
* Data: `sum_samples` adds values element by element; a MultiSpace cut on data kept as columns is a
  product of unions, not a union of products.
* Losses: `value_gradient` ignores `numgrad`; adding SimpleLosses whose parameter names do not have
  two letters raises; without events the offset is infinite; chi2 with "expected" errors divides by
  the square root of the counts.
* Binned: `from_tensor(variances=True)` stores the square roots of the values; binned data with_obs
  on a subset raises; the extended integral of binned PDFs lacks the yield in one branch and the
  extended normalisation has it twice in another.
* Integration: a simple integer `draws_per_dim` in `update_integration_options` raises
  UnboundLocalError; subclasses of a PDF start with an empty registry of integrals.
* Truncated PDFs: `scaled_yield` returns a tuple.
* Histograms: limits are paired with the axes in increasing order, whatever the order of `axis`.
