{"id": "C01", "title": "Always-fixed parameters stay fixed", "statement": "For every parameter class, no sequence of public calls (item assignment, set_value, fix/release by names, fix_all, release_all, update_free_values, copy), whether individual calls succeed or raise, ever makes a parameter of the class's always-fixed list free.", "quantifier": "all parameter classes, all constructor values, all finite sequences of public calls with all arguments", "why_tests_cant": "The number of operation sequences is infinite; a test exercises a few fixed sequences.", "anchors": ["model_parameters/ModelParameters.py: ModelParameters.__setitem__, set_value, fix_parameters, release_parameters, fix_all_parameters, release_all_parameters, update_free_values", "model_parameters/KaonParameters.py: KaonParameters.__init__"]}
{"id": "C02", "title": "Parameter names and their order never change", "statement": "After any sequence of public calls the list of parameter names returned by iteration or to_list is the same list, in the same order, as right after construction, and it is free of duplicates.", "quantifier": "all parameter classes, all constructor values, all finite call sequences", "why_tests_cant": "The number of operation sequences is infinite; a test exercises a few fixed sequences.", "anchors": ["model_parameters/ModelParameters.py: ModelParameters", "model_parameters/KaonParameters.py: KaonParameters._setup_data", "model_parameters/NucleonParameters.py: NucleonParameters._setup_data"]}
{"id": "C03", "title": "update_free_values and get_free_values are inverse", "statement": "update_free_values(v) raises ValueError and changes nothing when len(v) differs from the number of free parameters; otherwise get_free_values() afterwards returns exactly v, all fixed values, all fixed flags and the values of fixed parameters are unchanged, and writing back get_free_values() is a no-op.", "quantifier": "all stores and all value lists", "why_tests_cant": "Ranges over every store state (which parameters are free) and every list.", "anchors": ["model_parameters/ModelParameters.py: ModelParameters.update_free_values, get_free_values, get_fixed_values"]}
{"id": "C04", "title": "copy and from_list reproduce a store", "statement": "copy() of any store reached by public calls yields a store with equal to_list(); from_list gives the same store for every permutation of a list with distinct names (with a repeated name the last occurrence wins, so order matters); a list with a missing or unknown name raises TypeError; mutating the copy never changes the original (and vice versa).", "quantifier": "all parameter classes, all reachable states, all permutations, all later call sequences on either store", "why_tests_cant": "Quantifies over reachable states, permutations of 30+ entries and interleavings of later mutations.", "anchors": ["model_parameters/KaonParameters.py: KaonParameters.from_list", "model_parameters/NucleonParameters.py: NucleonParameters.from_list", "model_parameters/ModelParameters.py: ModelParameters.copy, to_list"]}
{"id": "C05", "title": "Ordered-values round trip", "statement": "For the kaon and nucleon parameter classes, from_ordered_values(p.get_ordered_values(), constants of p) returns a store whose every named value equals p's, for all values; a list of the wrong length raises AssertionError. (For ETGMRModelParameters get_ordered_values omits m_d, so no reconstruction is possible.)", "quantifier": "all parameter values", "why_tests_cant": "A wrong slot in a 30-entry positional list shows only for particular distinct values; tests check a few lists.", "anchors": ["model_parameters/KaonParameters.py: get_ordered_values, from_ordered_values", "model_parameters/NucleonParameters.py: get_ordered_values, from_ordered_values", "model_parameters/ETGMRModelParameters.py: get_ordered_values"]}
{"id": "C06", "title": "Bounds are available and aligned for every free parameter", "statement": "In every reachable state get_bounds_for_free_parameters, for either kind of bounds, returns two lists whose length equals the number of free parameters and whose k-th entries are the bounds of the k-th free parameter, with lower < upper when the branch points are positive; it raises (ValueError) exactly when the maximal bounds are asked for and one of the thresholds entering them is negative.", "quantifier": "all classes, all reachable states, both bound kinds", "why_tests_cant": "Which parameters are free is an arbitrary subset (2^30 cases).", "anchors": ["model_parameters/KaonParameters.py: get_bounds_for_free_parameters, get_model_parameters_bounds_maximal", "model_parameters/NucleonParameters.py: get_model_parameters_bounds_maximal"]}
{"id": "C07", "title": "Effect and atomicity of fix/release by names", "statement": "release_parameters with an always-fixed name raises ValueError and changes nothing; with only known releasable names it frees exactly those; fix_parameters with known names fixes exactly those. With an unknown name both raise KeyError after having applied the prefix before it.", "quantifier": "all stores, all name lists (with repetitions)", "why_tests_cant": "All name lists in all states.", "anchors": ["model_parameters/ModelParameters.py: ModelParameters.fix_parameters, release_parameters"]}
{"id": "C08", "title": "Random freezing frees exactly the requested number", "statement": "Whatever the random generator returns, choosing k free parameters leaves exactly k free parameters, all of them releasable and (with fixed resonances) not masses or widths; asking for more than available raises ValueError, except in the nucleon cross-section pipeline where all available ones are freed.", "quantifier": "all samples the random generator may return, all stores, all k", "why_tests_cant": "The outcome depends on a random sample; tests see a few draws.", "anchors": ["pipeline/KaonCrossSectionIterativePipeline.py: _randomly_freeze_parameters", "pipeline/NucleonCrossSectionIterativePipeline.py: _randomly_freeze_parameters", "model_parameters/KaonParameters.py: fix_resonances"]}
{"id": "C09", "title": "Perturbation changes only free values and respects the bounds", "statement": "perturb_model_parameters never changes a fixed parameter, a flag or a name and draws one random number per free parameter; with perturbation size between 0 and 1 every value within its bounds stays within its bounds. It raises exactly when the bounds cannot be computed, leaving the store unchanged. Size 0 is not the identity: a value whose bound on the side of the draw is infinite can flip its sign.", "quantifier": "all random draws in [-1,1), all stores, all sizes in [0,1]", "why_tests_cant": "Random draws and real-valued bounds.", "anchors": ["common/utils.py: perturb_model_parameters"]}
{"id": "C10", "title": "Coordinate map round trip t -> W -> t", "statement": "For branch points 0 <= t_0 < t_in, MapFromWtoT(MapFromTtoW(t)) returns t for every complex t other than t_0 and t_in; MapFromTtoW(t_in) raises ZeroDivisionError and MapFromTtoW(t_0) is 0, which MapFromWtoT rejects with ZeroDivisionError.", "quantifier": "all t_0, t_in with 0 <= t_0 < t_in, all complex t", "why_tests_cant": "Uncountably many complex inputs and branch choices.", "anchors": ["ua_model/MapFromTtoW.py: MapFromTtoW.__call__", "ua_model/MapFromWtoT.py: MapFromWtoT.__call__", "ua_model/functions.py: square_root"]}
{"id": "C11", "title": "Coordinate map round trip W -> t -> W on the physical half disc", "statement": "For 0 <= t_0 < t_in, MapFromTtoW(MapFromWtoT(w)) returns w for every w with |w| < 1 and Re w < 0; the maps are a bijection between that half disc and the complex plane without the cut t >= t_0.", "quantifier": "all branch points, all w in the open left half disc, all t off the cut", "why_tests_cant": "Uncountably many inputs.", "anchors": ["ua_model/MapFromTtoW.py: MapFromTtoW.__call__", "ua_model/MapFromWtoT.py: MapFromWtoT.__call__"]}
{"id": "C12", "title": "Image of the map from t to W", "statement": "Every value of MapFromTtoW lies in the closed left unit half disc; strictly inside the unit disc with negative real part for t off the cut; on the imaginary axis between 0 and i for t_0 < t < t_in; on the unit circle in the upper left quarter for t > t_in; real in (-1,0) for t < t_0; and the sign of Im W equals the sign of Im t for non-real t.", "quantifier": "all branch points, all complex t", "why_tests_cant": "Uncountably many inputs, several regions.", "anchors": ["ua_model/MapFromTtoW.py: MapFromTtoW.__call__"]}
{"id": "C13", "title": "square_root is a square root with the cut on the positive axis", "statement": "square_root(z) squared is z, it lies in the closed upper half plane, it is non-negative for z >= 0, and it is the only complex number with these properties; z_minus_its_reciprocal is odd, invariant under z -> -1/z and raises ZeroDivisionError exactly at 0.", "quantifier": "all complex z", "why_tests_cant": "All complex inputs including the cut.", "anchors": ["ua_model/functions.py: square_root, z_minus_its_reciprocal"]}
{"id": "C14", "title": "Schwarz reflection and reality below threshold", "statement": "For the kaon models, the single-component model and the nucleon model, F(conj t) = conj F(t) for every t off the cut where F returns, and F(t) is real for real t below the lowest branch point; failures are symmetric under conjugation too.", "quantifier": "all parameters accepted by the constructors, all t off the cut", "why_tests_cant": "All parameters and all complex t.", "anchors": ["ua_model/KaonUAModel.py: KaonUAModel.__call__", "ua_model/NucleonUAModel.py: NucleonUAModel.__call__", "ua_model/SingleComponentModel.py: SingleComponentModel.__call__"]}
{"id": "C15", "title": "Kaon form factor normalisation at t=0", "statement": "Whenever the evaluation at t=0 returns, the charged kaon form factor is exactly 1 and the neutral one exactly 0, for all three kaon models; it returns whenever 0 is below every branch point t_0 and none of the pole parameters is degenerate. The single-component model returns its coupling constant.", "quantifier": "all parameter values accepted by the constructors", "why_tests_cant": "A 30-dimensional real parameter space.", "anchors": ["ua_model/KaonUAModel.py: KaonUAModel", "ua_model/KaonUAModelB.py: KaonUAModelB", "ua_model/KaonUAModelSimplified.py: KaonUAModelSimplified", "ua_model/SingleComponentModel.py: SingleComponentModel"]}
{"id": "C16", "title": "Nucleon form factor normalisation at t=0", "statement": "Whenever the evaluation at t=0 returns, G_E proton = 1, G_E neutron = 0, G_M proton = the proton's magnetic moment and G_M neutron = the neutron's magnetic moment, independently of all couplings, masses and widths, in both nucleon models.", "quantifier": "all parameter values accepted by the constructors", "why_tests_cant": "A 40-dimensional real parameter space; rests on polynomial identities.", "anchors": ["ua_model/NucleonUAModel.py: NucleonUAModel.__call__", "ua_model/NucleonUAModelOld.py: NucleonUAModelOld.__call__"]}
{"id": "C17", "title": "Zero widths give the vector-meson-dominance model", "statement": "With all decay rates zero, every resonance component is exactly m^2/(m^2 - t) in both variants, so the kaon models coincide with the corresponding VMDModel and the single component model with coupling*m^2/(m^2-t), for every t where the model returns.", "quantifier": "all parameters with zero widths, all complex t", "why_tests_cant": "A test compares five points; identity is over all t and all parameters.", "anchors": ["ua_model/ua_components/UAComponentVariantA.py", "ua_model/ua_components/UAComponentVariantB.py", "other_models/VMDModel.py: VMDModel", "tests/test_consistency_kaon_model_vmd_model.py"]}
{"id": "C18", "title": "Exact failure set of model evaluation", "statement": "An accepted non-degenerate (t_0 < t_in) single-component or kaon model evaluated at t raises ValueError exactly when Re t < 0; otherwise it raises ZeroDivisionError exactly when t is the inelastic threshold t_in of one of its sectors or t is one of the resonance poles (m - i Gamma/2)^2 or its complex conjugate, and it returns a value for every other t. In particular with non-zero masses and widths it returns for every real t >= 0 different from the two t_in, but the poles do lie on the physical sheet.", "quantifier": "all accepted parameters, all complex t", "why_tests_cant": "All parameters and all complex t, including measure-zero failure points.", "anchors": ["ua_model/ua_components/UAComponent.py: UAComponent.__call__", "ua_model/KaonUAModel.py: KaonUAModel"]}
{"id": "C19", "title": "Branch point validation is exact", "statement": "MapFromTtoW, MapFromWtoT and all model constructors reject with ValueError every pair with t_0 < 0 or t_in < t_0; the degenerate pair t_in = t_0, which the documentation excludes, is accepted and makes every evaluation of a component raise.", "quantifier": "all real pairs, all model parameters", "why_tests_cant": "All real pairs; degenerate pair behaviour needs a proof for all t.", "anchors": ["ua_model/utils.py: validate_branch_points", "ua_model/MapFromTtoW.py: MapFromTtoW.__init__"]}
{"id": "C20", "title": "Isospin decomposition", "statement": "At every t, charged plus neutral kaon form factor is twice the isoscalar part and charged minus neutral is twice the isovector part; only the charged_variant flag decides the sign. For nucleons, proton plus neutron and proton minus neutron depend only on isoscalar and isovector parameters respectively.", "quantifier": "all parameters, all t", "why_tests_cant": "All parameters and inputs.", "anchors": ["ua_model/KaonUAModel.py: KaonUAModel.__call__", "ua_model/NucleonUAModel.py: NucleonUAModel.__call__"]}
{"id": "C21", "title": "Reduced kaon models are special cases of the full one", "statement": "KaonUAModelSimplified agrees at every t with KaonUAModel with a_omega = a_rho = 0, and KaonUAModelB agrees with KaonUAModel with a_omega_prime = 0 and a_rho_double_prime = 1/2 - a_rho - a_rho_prime, for all remaining parameters, whenever the full model can be built and returns.", "quantifier": "all parameters, all t", "why_tests_cant": "All parameters and inputs.", "anchors": ["ua_model/KaonUAModelSimplified.py", "ua_model/KaonUAModelB.py", "ua_model/KaonUAModel.py"]}
{"id": "C22", "title": "New and old nucleon models agree at zero widths", "statement": "With all decay rates zero, NucleonUAModel and NucleonUAModelOld return the same value at every t where the new one returns, for all four form factors.", "quantifier": "all parameters with zero widths, all t", "why_tests_cant": "All parameters and inputs; relies on mass terms being proportional to squared masses.", "anchors": ["ua_model/NucleonUAModel.py: _get_mass_term, _calculate_mass_term", "ua_model/NucleonUAModelOld.py"]}
{"id": "C23", "title": "Mass-term cache is transparent", "statement": "For every sequence of evaluations and flag changes on one NucleonUAModel object, each result equals the result of a freshly constructed object with the same parameters and flags; the cache never mixes sectors.", "quantifier": "all finite sequences of calls and flag assignments, all t", "why_tests_cant": "Histories of a stateful object.", "anchors": ["ua_model/NucleonUAModel.py: _get_mass_term, _cache"]}
{"id": "C24", "title": "Asymptotic fall-off", "statement": "For every accepted model there are constants K, T such that for every t with Re t >= 0 and |t| >= T a kaon (or single-component) evaluation that returns has modulus <= K/|t|, and a nucleon evaluation (electric or magnetic) that returns has modulus <= K/|t|^2.", "quantifier": "all accepted parameters, all complex t of large modulus", "why_tests_cant": "A limit statement.", "anchors": ["ua_model/ua_components/UAComponent.py", "ua_model/KaonUAModel.py", "ua_model/NucleonUAModel.py"]}
{"id": "C25", "title": "Which parameters the model constructors accept", "statement": "A kaon model is built without error exactly when the branch points are valid and every resonance has mass^2 >= t_0 and (outside explicitly listed degenerate points) non-zero map value; every point strictly inside the maximal bounds is accepted for kaons, while for nucleons points strictly inside the maximal bounds can be rejected with ValueError.", "quantifier": "all real parameter vectors", "why_tests_cant": "A 30-dimensional region including its boundary.", "anchors": ["ua_model/KaonUAModel.py: _build_component", "ua_model/NucleonUAModel.py: _build_component", "model_parameters/KaonParameters.py: get_model_parameters_bounds_maximal"]}
{"id": "C26", "title": "function_form_factor is pointwise", "statement": "function_form_factor returns a list with one entry per datapoint, the k-th being the modulus of a fresh model's value at the k-th datapoint with that datapoint's flags; it distributes over concatenation, commutes with permutation, and gives the same results for plain numeric tuples (t, flag) as for datapoint objects. An error at one point makes the call raise, with the error of the first failing point.", "quantifier": "all parameter stores of supported classes, all finite lists of datapoints in all orders", "why_tests_cant": "State (flags and cache) is carried between points; all orders and lengths.", "anchors": ["common/utils.py: function_form_factor, _read_datapoint_kaon, _read_datapoint_nucleon, _get_ff_model"]}
{"id": "C27", "title": "function_cross_section is pointwise; unsupported for ETGMR and two-pole models", "statement": "For kaon and nucleon stores function_cross_section has the same pointwise behaviour with the cross-section of the class; for nucleons the electric flag of a datapoint is irrelevant. With ETGMRModelParameters or TwoPolesModelParameters it raises AttributeError on every non-empty list of nucleon datapoints and IndexError on every list starting with a two-element datapoint, although the comment says those models are supported.", "quantifier": "all stores, all lists", "why_tests_cant": "State carried between points; all lists.", "anchors": ["common/utils.py: function_cross_section", "cross_section/NucleonPairToElectronPositronTotalCrossSection.py", "cross_section/ScalarMesonProductionTotalCrossSection.py"]}
{"id": "C28", "title": "Partial functions are isolated and history independent", "statement": "The function returned by make_partial_form_factor_for_parameters / make_partial_cross_section_for_parameters depends only on its arguments and on the store at creation time: no sequence of earlier calls (successful or failing) and no later mutation of the original store changes its results, and calling it never changes the original store; a wrong number of arguments raises ValueError.", "quantifier": "all interleavings of calls and mutations", "why_tests_cant": "Aliasing and histories.", "anchors": ["common/utils.py: make_partial_form_factor_for_parameters, make_partial_cross_section_for_parameters", "model_parameters/ModelParameters.py: copy, update_free_values"]}
{"id": "C29", "title": "Scalar meson cross-section", "statement": "For real t above threshold the cross-section is the documented formula, non-negative, zero at threshold, monotone in |F|, and converting it back with the coefficient of convert_cs_data_to_ff_data gives |F(t)| exactly; t = 0 raises ZeroDivisionError; for every complex t the modulus factorises with modulus |1-4m^2/t|^(3/2); the error of a square root is the slope of the square root times the error, with ZeroDivisionError at 0 and ValueError below.", "quantifier": "all masses, couplings, form-factor models and t", "why_tests_cant": "Real-valued inputs and arbitrary form-factor callable.", "anchors": ["cross_section/ScalarMesonProductionTotalCrossSection.py", "kaon_production/convert_cs_data_to_ff_data.py"]}
{"id": "C30", "title": "Nucleon cross-section", "statement": "The nucleon cross-section is the documented formula in |G_E|, |G_M|, non-negative above threshold, for real t raises ValueError exactly when t is non-zero and |t| < 4m^2 and ZeroDivisionError at t = 0 (after evaluating the form factors), and neither its value nor the model's later results depend on the electric flag set before the call; after the call the model is left in the magnetic setting.", "quantifier": "all form-factor models, t and prior states", "why_tests_cant": "Mutable flag on the shared form-factor object.", "anchors": ["cross_section/NucleonPairToElectronPositronTotalCrossSection.py: __call__"]}
{"id": "C31", "title": "Effective form factor inverts the cross-section up to units", "statement": "transform_to_effective_form_factor applied to the nucleon cross-section with |G_E|=|G_M|=G returns sqrt(hc_squared)*G (it does not divide by hc_squared); the returned error is the derivative-propagated error, and scaling value and error by s scales both results accordingly.", "quantifier": "all t above threshold, all G > 0, masses, constants", "why_tests_cant": "Real-valued inputs.", "anchors": ["task/ResidualOscillationsTask.py: transform_to_effective_form_factor", "cross_section/NucleonPairToElectronPositronTotalCrossSection.py"]}
{"id": "C32", "title": "VMD model", "statement": "VMDModel(0) is the sum of coefficients for non-zero masses, the result does not depend on the insertion order, is additive over concatenation of meson lists, real t give real values, an empty model raises, evaluation raises ZeroDivisionError exactly when t equals some squared mass.", "quantifier": "all meson lists, all t", "why_tests_cant": "Arbitrary-length lists.", "anchors": ["other_models/VMDModel.py: VMDModel"]}
{"id": "C33", "title": "Auxiliary models", "statement": "ETGMRModel(0) = a for non-zero m_a, m_d; it and TwoPolesModel are symmetric/real and raise ZeroDivisionError exactly at their poles; DampedOscillations is bounded by |a|*exp(-b p), linear in a, 2*pi/c-periodic up to the damping factor and unaffected by shifting d by 2*pi.", "quantifier": "all parameters, all arguments", "why_tests_cant": "Real-valued inputs.", "anchors": ["other_models/ETGMRModel.py", "other_models/TwoPolesModel.py", "other_models/DampedOscillations.py"]}
{"id": "C34", "title": "Task.run: what a fit may change", "statement": "Whatever the optimiser returns or raises, Task.run changes no fixed value, no flag beyond the task's set-up and no name, and no other object; a RuntimeError leaves all values unchanged and reports 'failed'; success stores the optimum in the free parameters and the reported chi-squared is sum(((y-f)/err)^2)/(n-p) over all data; with n = p or an error bar of zero there is never a finite chi-squared (ZeroDivisionError, or the text inf, -inf or nan with numpy floats) although the optimum has been stored; other exceptions propagate.", "quantifier": "all optimiser outcomes, all stores, all data", "why_tests_cant": "The optimiser is an arbitrary oracle.", "anchors": ["task/Task.py: Task.run, _fit, _update_report"]}
{"id": "C35", "title": "Tasks free the advertised parameters", "statement": "TaskFullFit frees exactly the non-always-fixed parameters, TaskFixedCouplingConstants additionally fixes exactly the parameters named a_*, TaskFixAccordingToParametersFit changes nothing; the only-charged tasks fit to exactly the charged points in their original order and raise ValueError when there is none.", "quantifier": "all stores and datasets", "why_tests_cant": "All prior fixed/free states and data lists.", "anchors": ["task/kaon_cross_section_tasks.py", "task/kaon_form_factor_tasks.py", "task/nucleon_cross_section_tasks.py", "task/nucleon_form_factor_tasks.py"]}
{"id": "C36", "title": "Best fit selection", "statement": "The best fit returned by a pipeline is, among the finished tasks, the earliest one whose chi-squared text is lexicographically least, with the parameter snapshot taken when that task ended (later rounds never alter it); failed tasks are ignored. This is the numerically least one when all chi-squared texts are plain decimals with the same number of integer digits, but not in general ('10.5' is preferred to '9.2'). A run changes no store that existed before other than that of its own parameters.", "quantifier": "all sequences of task outcomes", "why_tests_cant": "Arbitrary-length sequences of outcomes.", "anchors": ["pipeline/Pipeline.py: Pipeline._update_best_fit, run"]}
{"id": "C37", "title": "Data preparation keeps triples together", "statement": "When each dataset's three lists have equal length, the prepared (t, y, error) triples are a stable sort by t of the input triples tagged with the right flags; no point is lost or duplicated. With no data ValueError is raised. With unequal lengths, points can be paired with another dataset's values.", "quantifier": "all datasets", "why_tests_cant": "Arbitrary lists with ties.", "anchors": ["pipeline/KaonCrossSectionPipeline.py: _prepare_data", "pipeline/NucleonFormFactorPipeline.py: _prepare_data", "kaon_production/run_single_fit.py: prepare_data"]}
{"id": "C38", "title": "Report file accounting", "statement": "At every crash point of a pipeline run the content of report.txt is a prefix of the content after a complete run of the same schedule; messages are written once and in order; after a normal end of the plain and of three of the iterative pipelines every logged message is in the file, while the messages of the residual stage of the nucleon cross-section pipeline never reach it. An existing report directory is never written to: the constructor raises ValueError. Every directory made and file written is in the own directory of the pipeline.", "quantifier": "all schedules and crash points", "why_tests_cant": "Crash points and histories.", "anchors": ["pipeline/Pipeline.py: _log, _flush_report, _save_report, _set_up_reports_directory", "pipeline/NucleonCrossSectionIterativePipeline.py: run"]}
{"id": "C39", "title": "Iterative pipelines follow the requested schedule", "statement": "An iterative pipeline runs exactly sum over the zipped (count, repetitions) pairs of random-subset rounds followed by a full fit; round i uses the requested number of free parameters and fixes the resonances exactly when i is below the given limit; the final fit frees all releasable parameters (in the nucleon cross-section pipeline the resonances stay fixed when the limit exceeds the number of rounds). Every fit starts from the values its predecessor left; a parameter keeps the value it was given until the first fit in which it is free, so that masses and widths have their first values in all rounds with fixed resonances.", "quantifier": "all schedules, all random draws and all optimiser outcomes", "why_tests_cant": "Unbounded schedules.", "anchors": ["pipeline/KaonCrossSectionIterativePipeline.py", "pipeline/KaonFormFactorIterativePipeline.py", "pipeline/NucleonCrossSectionIterativePipeline.py", "pipeline/NucleonFormFactorIterativePipeline.py"]}
{"id": "C40", "title": "Undressing a measured cross-section", "statement": "undress_cross_section_measurement multiplies the value by (alpha_0/alpha_s)^2 and, for non-zero inputs of positive sign, returns the error sqrt((cs*dfactor)^2 + (factor*dcs)^2) of first-order propagation; it is never smaller than the scaled statistical error, monotone in each error, and raises ZeroDivisionError for a zero measurement.", "quantifier": "all real inputs", "why_tests_cant": "Real-valued inputs.", "anchors": ["kaon_production/undress_measured_cross_section.py"]}
{"id": "C41", "title": "Residual stage keeps points aligned", "statement": "The residual task turns each datapoint into its laboratory momentum and keeps exactly the points with momentum below the cutoff, each with its own residual (data minus background) and error in the original order; it raises ValueError when a point is below threshold or none survives; laboratory momentum is strictly increasing in t above threshold and zero at threshold.", "quantifier": "all datasets", "why_tests_cant": "Arbitrary-length lists and real inputs.", "anchors": ["task/ResidualOscillationsTask.py: _set_up, map_ts_to_laboratory_system_momentum, drop_large_momenta"]}
{"id": "C42", "title": "Deviation table and plot partition", "statement": "calculate_deviations_from_fit returns one row per point in order, with deviation |cs-fit|/error, and leaves the given store with every parameter fixed and all values unchanged; the plotting split into charged/neutral (electric/magnetic) series is an order-preserving partition that keeps each point with its value, error and fit; with fewer values, errors or fitted values than points both pictures raise IndexError.", "quantifier": "all stores and datasets", "why_tests_cant": "Arbitrary lists.", "anchors": ["kaon_production/calculate_deviations.py: calculate_deviations_from_fit", "plotting/plot_fit.py: plot_cs_fit_neutral_plus_charged, plot_ff_fit_electric_plus_magnetic"]}
{"id": "C43", "title": "Electric and magnetic form factors", "statement": "At the pair threshold t = 4 m^2 the electric and the magnetic form factor of the same nucleon are equal (one returns exactly when the other does); the magnetic form factor does not depend on the mass of the nucleon, and the electric minus the magnetic one is (t/(4 m^2) - 1) times a function that does not depend on it. Holds for both nucleon models.", "quantifier": "all accepted parameters, all t", "why_tests_cant": "Real parameters and complex t; the relation couples two flags of the same object.", "anchors": ["ua_model/NucleonUAModel.py: __call__", "ua_model/NucleonUAModelOld.py: __call__"]}
{"id": "C44", "title": "Zero-width nucleon is a superconvergent meson sum", "statement": "With all widths zero each of the Dirac and Pauli, isoscalar and isovector form factors is a sum of w_r m_r^2/(m_r^2 - t) over the mesons, where w_r is the model's coupling for every meson that has one, the weights add up to the normalisation at t = 0, and the sums of w_r m_r^2 (and for the Pauli form factors of w_r m_r^4) vanish. These conditions determine all weights uniquely. Holds for both nucleon models and all four flag combinations.", "quantifier": "all parameters with zero widths and distinct masses of the mesons without coupling, all t", "why_tests_cant": "Real parameters and complex t; the identity is exact.", "anchors": ["ua_model/NucleonUAModel.py: _eval_dirac_isoscalar_contribution, _eval_dirac_isovector_contribution, _eval_pauli_isoscalar_contribution, _eval_pauli_isovector_contribution", "ua_model/NucleonUAModelOld.py"]}
{"id": "C45", "title": "Form factors are holomorphic off their cuts", "statement": "The map from t to W is complex differentiable at every t off the cut [t_0, infinity) and the map from W to t at every W other than 0, 1, -1, with the derivative 8 (t_in - t_0) W (W^2 + 1)/(W^2 - 1)^3; the derivative of the former is the reciprocal of the latter's at the image. Every kaon, single-component and nucleon form factor is complex differentiable at every t with positive real part where it returns a value and that lies on none of its cuts. At a real t below all thresholds (t = 0 included, there from the right half plane) the derivative is real.", "quantifier": "all accepted parameters, all complex t", "why_tests_cant": "A limit at every point of a plane; a wrong branch of a square root shows only on some curve.", "anchors": ["ua_model/MapFromTtoW.py: __call__", "ua_model/MapFromWtoT.py: __call__", "ua_model/functions.py: square_root", "ua_model/KaonUAModel.py: __call__", "ua_model/SingleComponentModel.py", "ua_model/NucleonUAModel.py: __call__", "ua_model/NucleonUAModelOld.py: __call__"]}
{"id": "C46", "title": "Boundary values on the cuts", "statement": "At every real t where a kaon, single-component or nucleon form factor returns a value, that value is the limit from the closed upper half plane, and the limit from the lower half plane is its conjugate; the form factor is continuous there exactly when its value is real. Away from the thresholds t_0 it is differentiable from above. The map from t to W has the same limits at every real t other than t_in.", "quantifier": "all accepted parameters, all real t", "why_tests_cant": "Limits at every point of a half-line; a sample cannot tell the two sides of a cut apart.", "anchors": ["ua_model/MapFromTtoW.py: __call__", "ua_model/functions.py: square_root", "ua_model/KaonUAModel.py: __call__", "ua_model/SingleComponentModel.py", "ua_model/NucleonUAModel.py: __call__", "ua_model/NucleonUAModelOld.py: __call__"]}
{"id": "C47", "title": "The alternative maps from t to W", "statement": "For 0 < t_0 < t_in the literature's formula with the model's square root equals the map in use on [t_0, t_in), equals minus its reciprocal at every t off the cut and on the cut above t_in (so that off the cut it leaves the unit disc), and is i at t_in where the map in use raises. With the principal root it equals the map in use in the upper half plane and on the real axis below t_in, and is its negative in the lower half plane, so that it jumps across the real axis exactly outside [t_0, t_in). Both are right inverses of the map from W to t at every t other than t_0. Both raise ZeroDivisionError for t_0 = 0.", "quantifier": "all 0 < t_0 < t_in, all complex t", "why_tests_cant": "The sheet depends on signs of square roots at every point of the plane; sampling cannot exclude further curves of disagreement.", "anchors": ["plotting/plot_various_coordinate_inverse_maps.py: t_to_w_version2, t_to_w_version3", "ua_model/MapFromTtoW.py: __call__", "ua_model/MapFromWtoT.py: __call__"]}
{"id": "C48", "title": "The scripts that keep the best of several runs", "statement": "When the nucleon script (ten runs, 1770 fits) or the kaon script (fifteen runs, 3465 fits) ends, the best fit is the one whose chi-squared is alphabetically least among all tasks of all runs (the residual fits excepted), the earliest of them, or nothing if no fit succeeded; the three results printed are the first of the stable ranking. Every run has its own new directory and no run touches the objects of another; a second execution is refused with ValueError before anything is fitted or written. In the nucleon script the masses and widths keep the values of the list in the script in every fit of every run, whatever the draws, the optimiser and the outcome. An exception comes from the data, the directory or a task, never from the choice of free parameters, the construction of the store or its bounds.", "quantifier": "all data, all draws of random numbers and samples, all optimisers, all states of the file system, all points of failure", "why_tests_cant": "A run takes thousands of fits with random choices; the claims are about every history.", "anchors": ["nucleon_production/fit_cs_iterative_pipeline.py: f, main loop", "kaon_production/fit_ff_iterative_pipeline.py: f, main loop", "common/utils.py: perturb_model_parameters", "pipeline/NucleonCrossSectionIterativePipeline.py: run", "pipeline/KaonFormFactorIterativePipeline.py: run"]}
{"id": "C49", "title": "No fit of an iterative pipeline starts outside its bounds", "statement": "If the values given to an iterative pipeline lie within the bounds of a fit in which everything is free that may be free, and the optimiser returns points within the bounds it is given whenever it starts within them, then every fit of the pipeline, including the fit of the residuals, starts within its bounds and has as many bounds as start values, so that scipy's complaint about an infeasible start cannot occur. With draws of random.random in [0, 1) this holds for every fit of every run of the nucleon script and of the kaon script. The start may lie on the boundary: in the kaon script a draw of 0 makes the two branch points coincide.", "quantifier": "all pipelines of any length, all optimisers that respect their bounds, all stores within the bounds, all draws and samples, all points of failure", "why_tests_cant": "The claim is an invariant over hundreds of successive fits with random free sets, where each start is the previous result.", "anchors": ["pipeline/NucleonCrossSectionIterativePipeline.py: run", "pipeline/KaonFormFactorIterativePipeline.py: run", "task/Task.py: _fit", "common/utils.py: perturb_model_parameters", "model_parameters/KaonParametersB.py: get_bounds_for_free_parameters", "task/ResidualOscillationsTask.py: _OscillationsParameters"]}
{"id": "C50", "title": "Data files are read as written", "statement": "float accepts exactly the decimal texts (sign, digits with at most one point, exponent, surrounding blanks) and returns their value. For a file without quotes read_data returns three columns exactly when the text is a table: rows of three such texts separated by single spaces, with Unix, Windows or old Macintosh line ends, the last one optional; the columns are then the columns of the table, in order. Any other file, quoted or not, gives a ValueError or three columns of one length, never a csv error or anything else; a blank line always gives a ValueError. What the conversion script writes reads back as what it computed, and a file of cross sections of form factor values above threshold is converted to a file that reads back as these values with their propagated errors. Whatever the texts of a row without line ends (with spaces and quotes, which are quoted and doubled), reading back the written file gives one record of exactly these texts for every row, so it is read exactly when all of them are numbers.", "quantifier": "all texts of any length, all rows, all ways to print a number, all masses and couplings", "why_tests_cant": "The texts are unbounded and the csv reader is a state machine whose error states must be shown unreachable.", "anchors": ["kaon_production/data.py: read_data", "nucleon_production/data.py: read_data", "kaon_production/convert_cs_data_to_ff_data.py"]}
{"id": "C51", "title": "Verified enclosures, and the model agrees with the repository's own unit tests", "statement": "For fixed-point balls with 72 fractional bits: whenever the ball evaluator answers on balls containing the inputs, the modelled Python code returns normally and its exact value lies in the answer. This holds for the square root, both coordinate maps, both component variants, every kaon and nucleon class (the latter after any earlier calls), the VMD model and both cross sections. With it, every numerical assertion of the repository's unit tests of functions, maps, components, VMD, kaon and nucleon models and cross sections holds of the model, with the tolerance of the test and, for nucleons, with the cache threaded through the calls as in the test.", "quantifier": "all parameters, all points, all balls, all earlier calls; the unit test tables are finite", "why_tests_cant": "A test compares two floating point numbers; here the exact real value of the expression is located, for every input on which the evaluator answers.", "anchors": ["tests/", "ua_model/", "cross_section/", "other_models/VMDModel.py"]}
{"id": "C52", "title": "Every stage of a run leaves its own files", "statement": "The files a pipeline run writes besides report.txt are, in order, for every finished stage at most one picture task#<i>:<name in lower case>.png followed by report_<i>.txt, and after the last finished stage at most the picture of the stage in which the run broke off. The finished stages are a beginning of the planned ones (the given task classes; for iterative pipelines the rounds, the final fit and, for nucleon cross-sections, the residual stage) and all of them if the run returns. No path is written twice and none is report.txt. The file of a finished stage holds exactly the text that was logged as the report of its task, although the pipeline releases parameters between logging and saving. A picture or report is put into the directory of the run with exactly one more slash where the directory does not end with one.", "quantifier": "all pipelines, tasks, schedules, data, optimisers, plotting failures and exceptions", "why_tests_cant": "Unbounded schedules and arbitrary failures; the equality of logged and saved text is a statement about aliasing in the heap.", "anchors": ["pipeline/Pipeline.py: run, _save_report", "pipeline/*IterativePipeline.py: run", "task/Task.py: run", "plotting/plot_fit.py: savefig"]}
{"id": "C53", "title": "One table of resonances", "statement": "For every parameter object of a class with resonances, the handpicked window the optimiser receives for a free mass or width is the one of a single literal table of mesons; hence all classes agree on every resonance they share, except the class with selected fixed parameters, whose windows contain the others'. Every published value (the resonance section of the configuration file) lies strictly inside each window it can meet. In every fit of the iterative kaon and nucleon scripts, whatever the data, draws and optimiser, the task carries its number in the plan, the number of free parameters is the one of a literal table of rounds, the final fit frees a literal list of parameters, and the resonance constants have their published values.", "quantifier": "all classes, reachable parameter objects, data, draws, optimisers and rounds of the scripts", "why_tests_cant": "Ranges over all reachable parameter states and all fits of arbitrarily interrupted script runs; the windows are spread over eight classes and twenty schedules no test compares.", "anchors": ["model_parameters/*.py: get_model_parameters_bounds_handpicked", "configuration.ini: [resonances]", "kaon_production/fit_ff_iterative_pipeline.py", "nucleon_production/fit_cs_iterative_pipeline.py"]}
{"id": "C54", "title": "The residual task fits what the background leaves over", "statement": "Given a task whose points, values and errors are those of a list of measurements, with the background the model predicts at each: the residual task fits, in the given order, exactly the measurements whose laboratory momentum is below 5, at their momenta, to the difference of the effective form factors of value and background, with the propagated errors; if none is that low it raises ValueError and leaves everything alone. It fits the damped oscillation a exp(-bp) cos(cp+e) from the literal starting values and bounds with all four parameters free, makes one fit, keeps the task's settings, and reports the optimum, covariance, sum of squares and reduced chi squared (four parameters) of that fit, or a failure that leaves the starting values; with four points left or an error of zero it raises ZeroDivisionError when division does.", "quantifier": "all tasks, stores, lists of measurements, backgrounds and optimisers", "why_tests_cant": "Ranges over all data sets, model states and optimiser outcomes; no unit test exercises the residual task at all.", "anchors": ["task/ResidualOscillationsTask.py: _set_up, transform_to_effective_form_factor, map_ts_to_laboratory_system_momentum, drop_large_momenta, _plot", "task/Task.py: run", "other_models/DampedOscillations.py"]}
{"id": "C55", "title": "Measurements reach the optimiser", "statement": "For the plain and iterative kaon and nucleon pipelines constructed from lists of measurements, in every run, finished or broken off, every call of the optimiser is made for the task the plan names and on exactly the measurements given to the constructor, each with its own value and error and the tag of its list, in order of time with ties in the given order; the only-charged tasks use the charged ones only, and the residual stage what the background predicted by the parameters handed over leaves. A finished run makes one call for every task of its plan.", "quantifier": "all lists of measurements, task lists, schedules, parameter objects, optimisers and run outcomes", "why_tests_cant": "Ranges over all measurement lists and runs; twelve positional lists are threaded through constructor, sorting, task and optimiser, and any exchanged pair goes unnoticed when the lists have equal length.", "anchors": ["pipeline/*Pipeline.py: __init__, _prepare_data, run", "task/Task.py: run", "task/kaon_form_factor_tasks.py: TaskFullFitOnlyCharged, TaskFixAccordingToParametersFitOnlyCharged", "task/ResidualOscillationsTask.py: _set_up"]}
{"id": "C56", "title": "The constants come from the configuration file", "statement": "A configuration file of comments, blank lines, section headers, entries and indented continuation lines is refused at the first repeated section, repeated key or entry outside a section, with the error of that line, whatever follows; a line without a delimiter in a section is refused as well. Every other file is read, and a constant is then the number written for its key in its section, or in DEFAULT if the section has none: comments, blank lines, order, spacing and capital letters (A to Z) in keys do not matter. A missing section or key, or a value that is no number (also through a comment glued to it or an indented line under it) is reported when asked for. A missing file counts as empty and fails at the first constant. From the repository's file the scripts get exactly the constants and published resonances the other claims use.", "quantifier": "all configuration texts of such lines, all sections, keys and lists of constants asked for", "why_tests_cant": "Ranges over all files; no test reads the configuration file.", "anchors": ["configuration.ini", "kaon_production/*.py and nucleon_production/*.py: ConfigParser(inline_comment_prefixes='#'), config.read, config.getfloat"]}
{"id": "C57", "title": "The script for the other models never finishes a fit", "statement": "A pipeline for form factors that is given tasks for cross-sections and data ends without an exception only if it has no residual task, and its result then comes from a task for form factors. A pipeline of kaon form factors with an auxiliary model (ETGMR or two poles), its task and the residual task makes exactly one call of the optimiser, on all measurements, and then raises: IndexError, ValueError for a call or an optimum of the wrong length, or the optimiser's own exception. Hence fit_ff_other_models.py, for every data file, draw, optimiser and state of the disk, ends in an exception after at most one call of the optimiser, which gets exactly the measurements in order of time; it writes only in its own new directory, shows only messages of the pipeline and never its result. An unknown model name raises TypeError before anything is constructed. Capital letters (A to Z) in the model name do not matter.", "quantifier": "all measurements, draws, model names, optimisers, worlds, and all form factor pipelines and task lists", "why_tests_cant": "No test runs the script, and a run that fails once does not show that no data, optimiser or start could make it succeed.", "anchors": ["kaon_production/fit_ff_other_models.py", "pipeline/Pipeline.py: run, _create_task", "pipeline/KaonFormFactorPipeline.py", "task/ETGMRModelTask.py", "task/TwoPolesModelTask.py", "task/ResidualOscillationsTask.py"]}
{"id": "C58", "title": "The scripts for a single fit make exactly the fit they are written for", "statement": "kaon_production/run_single_fit.py and nucleon_production/run_single_fit.py, given any measurements: with no measurement they raise ValueError and fit and print nothing; otherwise they call the optimiser exactly once, on all measurements in order of time, with the 30 values written in the script assigned to the parameters in the documented order, with exactly the listed parameters free (19 for kaons, 12 for nucleons), starting from the written values, which lie within the bounds; the optimiser is answered the cross-sections with the constants of configuration.ini. If the optimiser gives up they print the written values, if it returns an optimum they either raise or print the written values with exactly the fitted ones replaced by the optimum, in the same order; nothing is plotted or written. Every resonance parameter that has a published value and is kept fixed is kept at that value. A list is printed in brackets, its entries separated by a comma and a blank.", "quantifier": "all lists of measurements, optimisers and worlds", "why_tests_cant": "No test runs the scripts, and each script assigns 30 positional numbers to names whose order differs from the order in the store; a permutation or a missing release shows only in the fit.", "anchors": ["kaon_production/run_single_fit.py", "nucleon_production/run_single_fit.py", "model_parameters/KaonParameters.py: from_ordered_values, get_ordered_values, fix_resonances", "model_parameters/NucleonParameters.py: from_ordered_values, get_ordered_values, fix_resonances", "task/Task.py: run"]}
{"id": "C59", "title": "The summary of many runs ranks each of them once", "statement": "For a file of lines path:label:text, with paths and labels free of colons and texts that contain any further colons and may be surrounded by spaces, parser.report evaluates exactly the texts without the surrounding spaces; it lists every path:label once, with the chi squared of its last line, smallest first and equal values in the order of first appearance, and prints the number of names. For the 'Best fit' lines of runs in different directories these are exactly the runs, each once. A text that cannot be evaluated stops it with that exception; a run without a value (None) among at least two names makes it raise TypeError; in both cases nothing is printed.", "quantifier": "all well-formed files, all evaluators", "why_tests_cant": "No test covers the parser; repeated names, colons in the texts, ties and runs without a value occur only in the files of large batches.", "anchors": ["kaon_production/parser.py: report", "pipeline/Pipeline.py: run (l.49)"]}
{"id": "C60", "title": "The drawing of one resonance shows the kaon cross-section of the omega, whatever the charge", "statement": "For every resonance and thresholds accepted by SingleComponentModel (t_0 < t_in, mass and width not 0), the function of plot_single_component.make_function_cross_section returns for a list of points, kaon points of any charge or tuples, the cross-section of a scalar pair at each time in order: the textbook formula from the threshold on, its imaginary continuation below. The charge has no influence. The first point with t < 0 makes it raise ValueError, the first with t = 0 or t = t_in ZeroDivisionError, the first tuple of less than two numbers IndexError. The script raises ValueError without data or with any negative time, otherwise ZeroDivisionError with a time 0 or t_in, and otherwise draws every charged and every neutral measurement once, in order of time, over the same curve; under the title phi the mass and width are those of the omega, whose pole lies below the threshold.", "quantifier": "all constants, all data sets, all accepted resonances", "why_tests_cant": "No test covers the script; it needs a display, and its values are a continuum.", "anchors": ["kaon_production/plot_single_component.py: make_function_cross_section, prepare_data, __main__", "plotting/plot_fit.py: plot_cs_fit_neutral_plus_charged", "ua_model/SingleComponentModel.py"]}
{"id": "C61", "title": "The pictures of the coordinate maps show every curve with its image", "statement": "plot_mapped_curves pairs curves and images in order, one colour each: all are drawn exactly when there are at least as many colours as curves (with matplotlib's 148 colours plot_z_minus_its_reciprocal loses curves from 75 angles on), and it fails an assertion when their numbers differ. The curves of plot_square_root, plot_z_minus_its_reciprocal (any number of angles), plot_w_to_t and plot_t_to_w (0 <= t_0 < t_in) never hit an exception. The images are the upper square roots; solutions w of w z = z^2 - 1; for plot_w_to_t points of the cut plane whose way back is the point itself inside the unit disc and its reciprocal outside; for plot_t_to_w points that go back to their t, on the real axis, on the imaginary axis, on the unit circle and inside the half disc for the curves below t_0, between the branch points, above t_in and off the real axis. Equal branch points make plot_t_to_w raise ZeroDivisionError, unordered or negative ones ValueError. plot_various_coordinate_inverse_maps prints every compared point four times, since all three inverse maps are right inverses.", "quantifier": "all branch points, all numbers of angles, all lists of colours", "why_tests_cant": "The pictures need a display; thousands of complex points and arbitrary branch points.", "anchors": ["plotting/plot_complex.py", "plotting/plot_various_coordinate_inverse_maps.py: plot_t_to_w, __main__"]}
{"id": "C62", "title": "The drawing of one fit, and the search for oscillations around it", "statement": "kaon_production/plot_fit.py: its 26 stored numbers carry the names of the reduced kaon class and give |F(8)| = 0.12908355879812 and the cross-section 0.037216099252819 (within 1e-15), which are printed first. The picture shows exactly the rows of the file, in order of time, all as charged, each with the modulus of the form factor at its time; a negative time ends the script with ValueError, a time on one of the branch points t_in with ZeroDivisionError. Then, if every row is positive and above 4 m^2 and the form factor does not vanish there, exactly one fit is made: a damped oscillation in the laboratory momentum, of the rows with momentum below 5, of the differences sqrt(u v) - |F| sqrt((hc)^2 (t - 4 m^2)/(4 t + 8 m^2)), from 100, 2, 5, 0 and with the handpicked bounds; without such rows a ValueError and no fit. A row at or below 4 m^2 prevents the fit (ZeroDivisionError at 0 and at 4 m^2, ValueError in between). The form factors of the file are used as if they were cross-sections: a row that agrees with the fit leaves a difference that vanishes only where u = |F| (hc)^2 (t - 4 m^2)/(4 t + 8 m^2), and is larger than 20 at t = 8. The stored numbers are marked free exactly for the two t_in, the residues and the masses and widths of the phi mesons. For any points, charged and neutral, plot_ff_fit_neutral_plus_charged makes one panel, with its title, for each kind that occurs, with all points of the kind in their order; without points it raises ValueError.", "quantifier": "all data files, all reactions of the optimiser, all states of the heap", "why_tests_cant": "The script reads a data file outside the repository and opens windows; the mistaken unit raises no exception.", "anchors": ["kaon_production/plot_fit.py", "plotting/plot_fit.py: plot_ff_fit_neutral_plus_charged", "task/ResidualOscillationsTask.py"]}
{"id": "C63", "title": "Where the runs of the two fitting scripts start", "statement": "A run of the kaon script (kaon_production/fit_ff_iterative_pipeline.py) starts from exactly the values written in the script, of which the 14 free ones are moved each by its own number of the generator, in the order of the class (sizes 1 and 1/10 for masses and widths), the 12 others kept; a run of the nucleon script likewise with 12 free and 25 kept values (size 0.8, 1/10 for masses and widths). The perturbation is a fraction of the value: the residues a_omega and a_rho written as 0 are 0 at the start of every one of the runs, whatever the generator hands out, every other residue keeps its modulus or enlarges it, to at most 1 + size times as much. In kaon runs t_0 <= t_in < 2, with t_in = t_0 exactly when the generator hands out 0; in nucleon runs t_0 + 0.1 < t_in < 3.6.", "quantifier": "all sequences of numbers in [0, 1) of the generator, all data, all runs of the scripts", "why_tests_cant": "The start depends on random numbers; the two residues that never vary cannot be noticed in any single run.", "anchors": ["kaon_production/fit_ff_iterative_pipeline.py", "nucleon_production/fit_cs_iterative_pipeline.py", "common/utils.py: perturb_model_parameters"]}
{"id": "C64", "title": "Imports succeed in every order and names stand for the same things", "statement": "From any state of the interpreter made by imports, of anything and in any order, failed ones included: each of the 77 importable files of the repository is imported without exception, and three scripts (kaon_production/fit_cs_iterative_pipeline_withneutralkaons_fixed.py, fit_cs_iterative_pipeline_withneutralkaons_simplified.py, fit_cs_pipeline_withneutralkaons_simplified.py) always end with ImportError and are not left behind in sys.modules. What the names of an imported module stand for depends only on the texts, not on the order: what the statement that binds the name says, or, for a name the text of a package does not bind, its module of that name. A name taken from a module of the repository is never a module but the function, class or value of that name defined in one of the files, although packages have modules of the same names (model_parameters.KaonParameters is the class). The functions of an imported module find every global name they read, except in kaon_production/fit_ff_iterative_pipeline.py, kaon_production/fit_ff_other_models.py and nucleon_production/fit_cs_iterative_pipeline.py, whose functions read variables of the main block. Run as a script, each of these files and of the 22 test files gets through its imports and global names, those of its functions included; the three scripts end with ImportError. Every import names a file of the repository, a module of the standard library or a package of requirements.txt, and the packages are exactly the directories with files in them.", "quantifier": "all states made by imports, all files, all names", "why_tests_cant": "Import order matters through partially initialised modules and through attributes that submodules set on their packages; the possible orders cannot be enumerated.", "anchors": ["*/__init__.py", "all import statements", "kaon_production/fit_cs_pipeline_withneutralkaons_simplified.py", "tests/"]}
{"id": "C65", "title": "Which parameters of the kaon models give the same form factors", "statement": "Two accepted parameter sets (of any two of the three kaon models) with the same branch points whose charged form factors agree and whose neutral form factors agree at 45 distinct points t have, in each of the two sectors, the same total coupling for every mass and width, masses and widths being taken up to the sign. Conversely, equal total couplings give equal values of each form factor at every t at which both have one. Hence, if the couplings of a sector are not zero and no two of its resonances have the same mass and width up to the sign, the values determine the resonances of the sector up to their order and the signs of masses and widths. Changing signs of masses and widths changes neither the acceptance of the parameters nor any result, exceptions included.", "quantifier": "all accepted parameters of the three models, all sets of 45 points, all complex t", "why_tests_cant": "That no other parameters give the same values is a statement about all pairs of parameter sets; equality of sums of rational functions of a conformal variable cannot be sampled.", "anchors": ["ua_model/KaonUAModel.py", "ua_model/KaonUAModelB.py", "ua_model/KaonUAModelSimplified.py", "ua_model/ua_components/", "ua_model/MapFromTtoW.py"]}
{"id": "C66", "title": "Couplings and magnetic moments: affine form factors, convex fit functions", "statement": "Let three parameter sets lie on a line: couplings (a, a_...) and magnetic moments of the third are (1-x) times those of the first plus x times those of the second, all other parameters agree. Then either all three kaon (or nucleon) models can be built or none can, at every complex t all three raise the same exception or all return, and the third form factor is the same combination of the other two, for every real x. For 0 <= x <= 1 and any list of datapoints, function_form_factor and function_cross_section return for all three stores or for none, and every entry for the third store is at most the same combination of the other two entries.", "quantifier": "all parameter sets and stores, all x, all t, all lists of datapoints, all masses and constants", "why_tests_cant": "Convexity and independence of failures from the couplings are statements about all triples of stores and all points.", "anchors": ["ua_model/KaonUAModel.py", "ua_model/KaonUAModelB.py", "ua_model/KaonUAModelSimplified.py", "ua_model/NucleonUAModel.py", "ua_model/NucleonUAModelOld.py", "common/utils.py: function_form_factor, function_cross_section", "cross_section/"]}
{"id": "C67", "title": "Exact behaviour at high energy", "statement": "For every accepted kaon or single-component model that returns anywhere there is, for each resonance, a positive weight depending only on its branch points, mass and width (the squared mass when the width is zero) such that everywhere far out in the right half plane the model returns and t F(t) tends to minus the sum of couplings times weights (isoscalar plus or minus isovector), a real number, at least as fast as 1/sqrt|t|. For nucleons t^2 G_M(t) and t^2 G_E(t) tend to real numbers, the same Dirac number for both, G_E having in addition the limit of t^3 times the Pauli form factor over 4 m^2. Hence t^3 times the kaon cross-section tends to pi alpha^2 (hc)^2/3 L^2 and t^5 times the nucleon cross-section to 4 pi alpha^2 (hc)^2/3 G_M^2, whatever G_E.", "quantifier": "all accepted parameters of all kaon, single-component and nucleon classes, all t far enough out, all masses and constants of the cross-sections", "why_tests_cant": "A limit at infinity for all parameters; floating point tests see finitely many t and lose all digits near W = -1.", "anchors": ["ua_model/ua_components/UAComponent.py", "ua_model/KaonUAModel.py", "ua_model/NucleonUAModel.py", "ua_model/SingleComponentModel.py", "cross_section/ScalarMesonProductionTotalCrossSection.py", "cross_section/NucleonPairToElectronPositronTotalCrossSection.py"]}
{"id": "C68", "title": "Continuity of the kaon form factors in their parameters, and the jump at the inelastic threshold", "statement": "For every accepted kaon model and every t at which it returns, if no squared mass equals the inelastic branch point of its sector then the model with slightly changed couplings, masses and widths (all at once, branch points kept) returns at t too, with a value as close as wanted. If the squared mass of one resonance with non-zero coupling equals that branch point (its width is then not zero) and t is not 0, the form factor jumps: as the mass is changed the values tend to the value of the model from above and to a different number from below. So the form factor is not continuous in the parameters the constructors accept.", "quantifier": "all kaon classes and charges, all accepted parameters, all t at which the model returns, all small changes", "why_tests_cant": "Limits over all small changes of ten to thirty parameters, and a jump on a set of parameters that floating point tests hit with probability zero; the two formulas agree for zero width, which is what the comments in the code rely on.", "anchors": ["ua_model/KaonUAModel.py", "ua_model/KaonUAModelB.py", "ua_model/KaonUAModelSimplified.py", "ua_model/ua_components/UAComponentVariantA.py", "ua_model/ua_components/UAComponentVariantB.py"]}
{"id": "C69", "title": "Continuity of the form factors in all their parameters together, branch points included", "statement": "For every accepted kaon model and every t at which it returns, if no squared mass equals the inelastic branch point of its sector then every accepted model whose arguments (couplings, masses, widths and branch points, all at once) are close enough returns at t too, with a value as close as wanted. The same holds for the model with one component in its five arguments, and for the electric and magnetic form factors of both nucleons in both nucleon models, with their arguments including magnetic moments and nucleon mass, where the condition compares the real part of the pole (new model) or the squared mass (old model) with each of the four inelastic branch points. If one resonance of a kaon model with non-zero coupling is at its threshold and t is not 0, there is a single non-zero number by which all values jump: accepted models close enough, whatever arguments were changed, have a value near the original one if the square of that mass is at least the inelastic branch point and near the original one plus the jump otherwise.", "quantifier": "all kaon and nucleon classes and charges, the model with one component, all accepted parameters, all t at which the model returns, all small changes of all arguments at once", "why_tests_cant": "Limits over all small changes of twenty to forty parameters at once; the map to the W plane itself moves with the branch points, and the failing set (poles, thresholds, degenerate mass terms) moves too.", "anchors": ["ua_model/KaonUAModel.py", "ua_model/KaonUAModelB.py", "ua_model/KaonUAModelSimplified.py", "ua_model/NucleonUAModel.py", "ua_model/NucleonUAModelOld.py", "ua_model/MapFromTtoW.py", "ua_model/ua_components/UAComponentVariantA.py", "ua_model/ua_components/UAComponentVariantB.py", "ua_model/SingleComponentModel.py"]}
{"id": "C70", "title": "Continuity of the functions given to the optimiser, and of every weighted sum of squares", "statement": "For every parameter class and every reachable store whose resonances are off the thresholds of the model, the function for form factors and the function for cross-sections are continuous: if they return a list at the given data points, they also return one for every store of that class whose values are close enough and from which the model can be built, every entry is as close as wanted, and so is the sum of squared differences from any measured values with any weights. The same holds for the closures the optimiser calls, as functions of the list of free values.", "quantifier": "all parameter classes (kaon, nucleon and auxiliary models), all reachable stores off thresholds, all lists of data points, all measured values and weights, all small changes of all values", "why_tests_cant": "Continuity is a statement about all small changes of all parameters at once; finite differences at sample points cannot show it, and least squares methods silently assume it.", "anchors": ["common/utils.py: function_form_factor, function_cross_section, make_partial_form_factor_for_parameters, make_partial_cross_section_for_parameters", "cross_section/ScalarMesonProductionTotalCrossSection.py", "cross_section/NucleonPairToElectronPositronTotalCrossSection.py", "other_models/ETGMRModel.py", "other_models/TwoPolesModel.py"]}
{"id": "C71", "title": "A best fit within finite bounds exists", "statement": "For every reachable store, every closure over it (form factors or cross-sections) and every list of finite bounds for the free values: if for all values within the bounds the function returns and no resonance is at a threshold, then for any measured values and weights there are values within the bounds whose weighted sum of squares no other values within the bounds improve on. If only couplings and magnetic moments are free, the assumptions need only hold for one list of values.", "quantifier": "all parameter classes, all reachable stores, all data points, all measured values and weights, all finite bounds for any number of free values", "why_tests_cant": "Existence of a minimiser over a continuum in any dimension; an optimiser that stops somewhere says nothing about it, and for a discontinuous function (thresholds, C68) there need not be one.", "anchors": ["common/utils.py: make_partial_form_factor_for_parameters, make_partial_cross_section_for_parameters", "task/Task.py: run", "model_parameters/ModelParameters.py: update_free_values, get_bounds_for_free_parameters"]}
{"id": "C72", "title": "Form factors and cross-sections are bounded away from finitely many energies", "statement": "Every kaon model, the model with one component and every nucleon model that returns anywhere fails at finitely many real t >= 0 only: at most 2 for one component, 2 plus the number of resonances for kaons, 4 plus the number of mesons for nucleons. For every distance d > 0 there is a constant K such that at every real t >= 0 at least d away from all of these the model returns a value of modulus at most K/(1+t) (kaons, one component) or K/(1+t)^2 (electric and magnetic form factors of both nucleons). The same bounds, with the modulus of t for t, hold on the whole closed right half plane at least d away from all t in it, real or not, where the model fails. The cross-sections, with a particle mass that is not zero, are at and above their threshold real and at most K/(1+t)^3 for kaons and K/(1+t)^5 for nucleons, at the same distance from the failing points of the form factor (electric one for nucleons).", "quantifier": "all accepted parameters of all these models that return anywhere, all distances, all t with non-negative real part (form factors), all real t from the threshold on (cross-sections)", "why_tests_cant": "A bound over all of an unbounded set of energies, with the set of exceptions determined; tests sample finitely many t, and resonances can be arbitrarily narrow.", "anchors": ["ua_model/KaonUAModel.py", "ua_model/KaonUAModelB.py", "ua_model/KaonUAModelSimplified.py", "ua_model/SingleComponentModel.py", "ua_model/NucleonUAModel.py", "ua_model/NucleonUAModelOld.py", "cross_section/ScalarMesonProductionTotalCrossSection.py", "cross_section/NucleonPairToElectronPositronTotalCrossSection.py"]}
