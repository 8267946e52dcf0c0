# Formal model of lh7326/UA_model: design

The Python project fits electromagnetic form factors and cross-sections of kaons and nucleons with the
"unitary and analytic" (U&A) model.  This directory holds a Rocq/Coq 8.16.1 model of the code and proofs
of the properties in `properties.jsonl`.  `/repo` is only read as text.

## Layout

All files are in `rocq/theories` (logical name `Verif`), listed in dependency order in `rocq/_CoqProject`.

| file | content |
|---|---|
| `PyBase.v` | Python exceptions as values, result monad `Res`, environments, list helpers |
| `CNum.v` | complex numbers over the standard library reals, field structure, `polar`, `exp`, checked division |
| `UAMaps.v`, `UAComponents.v` | model of `ua_model/functions.py`, the two coordinate maps, the two component variants, `_build_component` |
| `PyExpr.v` | deep embedding of the long arithmetic expressions, with left-to-right evaluation; keyword-argument binding |
| `UAModels.v`, `Nucleon.v` | model of the four kaon classes and `SingleComponentModel`; of the two nucleon classes with their cache |
| `OtherModels.v`, `CrossSections.v` | model of `other_models/`, `cross_section/` |
| `Params.v`, `ParamClasses.v` | model of `model_parameters/`: operations, and nine class tables transcribed from the sources |
| `CommonUtils.v` | model of `common/utils.py` on values |
| `World.v` | heap of lists and stores, effects, closures of `common/utils.py` |
| `DataFiles.v` | model of `read_data`, `csv`, `float`, and of the file handling of the conversion script |
| `ConfigFiles.v` | model of `configparser` as the scripts use it, and the text of `configuration.ini` |
| `Scripts.v`, `DataSets.v` | model of the numerical scripts, data preparation, deviations, series for plotting |
| `Task.v`, `Pipeline.v` | model of `task/`, `pipeline/` in a state monad with an oracle for the outside |
| `FitScripts.v` | model of the two scripts that run iterative pipelines several times and keep the best result |
| `OtherScript.v` | model of `kaon_production/fit_ff_other_models.py` |
| `SingleFits.v` | model of the two `run_single_fit.py` |
| `Parser.v` | model of `kaon_production/parser.py` |
| `SinglePlot.v` | model of `kaon_production/plot_single_component.py` |
| `PlotComplex.v` | model of `plotting/plot_complex.py` and the script of `plotting/plot_various_coordinate_inverse_maps.py` |
| `PlotFit.v` | model of `kaon_production/plot_fit.py` |
| `Imports.v` | the import statements of all files and the part of CPython's import system they use |
| `*Spec.v` | specifications, written without the helpers of the model |
| `*Proofs.v`, `NucleonCache.v`, `NucleonView.v`, `PipelineFreeze.v`, `PipelineReports.v` | lemmas |
| `AltMaps.v` | the alternative maps of `plotting/plot_various_coordinate_inverse_maps.py` |
| `Analytic.v`, `AnalyticModels.v` | limits and complex derivatives relative to a region; of the square root, the maps, the models |
| `Balls.v`, `Enclose.v`, `EncloseCS.v` | ball arithmetic and evaluators of the models on balls, with soundness; an instrument, not a model of code |
| `UnitTests.v`, `UnitChecks.v` | the numbers of the repository's `tests/`, transcribed, and boolean checkers with soundness |
| `Props*.v` | the theorems `Cnn_...` of the claims, concrete instances `Cnn_instance`, `Print Assumptions` below each theorem |

## Modelling decisions (simplifications)

* **Numbers.** Python `float`/`complex` are modelled by exact real and complex numbers.  Rounding, overflow,
  NaN, infinities (except as interval ends of bounds and in covariance matrices) and signed zeros are not modelled.
  Decimal literals are exact rationals.  A Python `float` used where a `complex` is expected is the complex number with
  zero imaginary part, and a `complex` with zero imaginary part counts as a `float`.  A numpy `float64` division by zero
  warns instead of raising; this is not modelled in model evaluation, but it is for chi-squared (`o_division`).
* **Exceptions.** A raised exception is the value `Err e`; only its class is kept, not its message.
  Division by zero is `Err ZeroDivisionError`, `math.sqrt` of a negative number `Err ValueError`.
  `assert` statements are taken as executed (no `-O`).
* **Arithmetic expressions of the models.** The right-hand sides of the `__init__` assignments and of the sums in
  `__call__` are syntax trees (`expr`) transcribed term by term, so that the order of evaluation and the name read at
  each place are visible and wrong programs can be written down.
* **Parameter stores.** A store is the list of `Parameter(name, value, is_fixed)`.  Mutating methods are functions
  `data -> Res unit * data`, so the state left behind by a raising call is visible.  The nine classes are tables
  (`ClassTable`): formals, positional arguments of `super().__init__`, the entries of `_setup_data`, the two bounds
  tables as expressions, ordered names.  `reachable c d` is: made by a constructor, `from_list`, `from_ordered_values`,
  `copy` and any number of mutations, raising or not.
* **Identity.** Lists and stores live in a heap (`World`).  A store is a class and the address of its list; two names of
  one object are two equal references.  `C28_program_has_value_semantics` shows that programs of store operations
  agree with the same program on values, which is what the value-level theorems are about.
* **External code.** `scipy.optimize.curve_fit` is an arbitrary oracle: a finite tree of evaluations of the function
  followed by any result or exception.  `random.random` is any sequence in [0,1), `random.sample` any choice of distinct
  elements.  `str(float)`, `str(list)`, the existence of directories, errors of plotting are fields of the `Oracle`.
  Drawing by matplotlib is not modelled (the series handed to it are).
* **Tasks of the wrong kind.** Nothing keeps a form factor pipeline from being given a task for cross-sections.  Its eight
  arguments then land in the wrong places: the directory is taken for the mass and the two truth values for alpha and
  hc_squared (`tk_numbers = false`, `PartialMisplaced`), and evaluations for kaon and nucleon stores raise ValueError.
* **Effects.** Console lines, files written and directories made are a list in the world, in order.

## Which code is modelled

* `ua_model/`: all files.  `other_models/`, `cross_section/`: all.  `common/utils.py`: all.
* `model_parameters/`: all nine classes and `ModelParameters.py` (`__iter__`, `__len__`, `__getitem__`, printing of a
  store only where a file is written).
* `task/`: all task classes, `Task.py`, `ResidualOscillationsTask.py`.  `pipeline/`: `Pipeline.py`, the four plain and the
  four iterative pipelines.
* `plotting/plot_fit.py` up to the drawing calls; the two alternative maps in
  `plotting/plot_various_coordinate_inverse_maps.py` (`cmath.sqrt` without signed zeros: a zero imaginary part is +0).
* `kaon_production/`: `undress_measured_cross_section.py`, `convert_cs_data_to_ff_data.py`, `calculate_deviations.py`,
  `run_single_fit.py`, `fit_ff_iterative_pipeline.py`.  `nucleon_production/`: `run_single_fit.py`,
  `fit_cs_iterative_pipeline.py`.  The contents of the data files are arguments of the scripts.

* `kaon_production/data.py` and `nucleon_production/data.py` (`read_data`) with the part of `csv` and `float` they use: text
  files with universal newlines, the automaton of `csv.reader` and the quoting of `csv.writer` for a space as delimiter,
  decimal texts to their exact values (no `inf`, `nan`, underscores; no limit on the length of a field).

* `configuration.ini` and the part of CPython's `configparser` the scripts use (`ConfigFiles.v`): reading one file into a new
  parser with `inline_comment_prefixes='#'`, `getfloat`; no interpolation (a `%` in a value is a separate error).
* `kaon_production/fit_ff_other_models.py` (`OtherScript.v`); the contents of its data file are arguments.
* `kaon_production/parser.py` (`Parser.v`); `eval` is an uninterpreted function from texts to values or exceptions, a value of
  `chi_squared` is a number or `None`.
* `kaon_production/plot_single_component.py` (`SinglePlot.v`) up to the drawing calls; the contents of its data files and the
  constants are arguments.
* `plotting/plot_complex.py` and the script part of `plotting/plot_various_coordinate_inverse_maps.py` (`PlotComplex.v`) up to
  the drawing calls; the shuffled list of colours is an argument.
* `kaon_production/plot_fit.py` (`PlotFit.v`) up to the drawing calls; the contents of its data file are arguments.
* The import statements of all 102 files, `tests/` included, with the global names each file binds and evaluates at its top
  level and in its main block and the ones its functions read (`Imports.v`).  The table was transcribed with Python's `ast` and
  `symtable` from the text; branches and loops of a main block are written once and in order.  Modules outside the repository
  are taken as installed, with all names asked of them.

Not modelled: missing data files, drawing by matplotlib, and what the tests in `tests/` do after their imports.  Three
`kaon_production/fit_cs_*.py` scripts import names that do not exist (`CrossSectionPipeline`, `TaskFixedResonancesFit`,
`CrossSectionIterativePipeline`), so that they end with an ImportError (C64); nothing else of them is modelled.

## Properties: what is modelled and how it is proved

* **C01, C02** Store operations of `ModelParameters` as state transformers; invariant over op-list histories
  (`fold_left`) by induction, instantiated for the eight parameter classes plus the oscillation parameters.
  The flags after construction are in `PropsConstruct.v`.
* **C03** Direct induction over the parameter list.
* **C04** `from_list` through keyword binding; equality of stores for reachable states and permutations.  Isolation
  with the heap of `World.v`.
* **C05** Positional lists from the sources; symbolic evaluation for all values.
* **C06** Bounds tables from the sources; invariant "free implies in the bounds table" over histories.
* **C07** Induction over the name list.
* **C08** Sampling oracle; counting argument.
* **C09** Real arithmetic on the perturbation formula, induction over the iteration that mutates the store being iterated.
* **C10-C13** `square_root` literally via `polar`; characterised as the unique root in the upper half plane; the identity
  `W - 1/W = 2 i a / z` gives the round trips; image by estimates on Moebius maps.
* **C14** Conjugation lemma for `square_root` off the cut, lifted to maps, components, models.
* **C15, C16** Inversion of successful evaluations; `component(w_n) = 1`; Lagrange interpolation identities by `field`.
* **C17, C22** The identity `(Wm - 1/Wm)^2 - (W - 1/W)^2 = ...` turns a zero-width component into `m^2/(m^2-t)`.
* **C18, C25** Injectivity of the map and its image decide all zero denominators.
* **C19** Case analysis plus evaluation of the degenerate map.
* **C20, C21** Linear algebra on the sums.
* **C23** Cache invariant over histories of calls and flag assignments (explicit state).
* **C24** `(1-W^2)^2 = 4 (t_in-t_0) W^2/(t_0-t)` and lower bounds for the resonant denominators.
* **C26-C28** List induction with the mutable model object as state; heap separation for closures.
* **C29-C33** Real analysis on closed formulas.
* **C34-C36, C38, C39** State monad with heap, file system and oracles; induction over schedules; crash points as
  prefixes of the trace of effects.
* **C37** Stable insertion sort specification of `sorted`, permutation and alignment by induction.
* **C40-C42** Direct.
* **C43** (added) Electric and magnetic form factor of a nucleon coincide at t = 4 m^2; the nucleon mass enters nowhere else.
* **C44** (added) The zero-width nucleon form factors are sums over mesons with the unique weights fixed by charge,
  magnetic moment and the superconvergence relations.
* **C45** (added) The maps and all form factors are holomorphic off their cuts; the maps' derivatives in closed form; real
  slopes below the thresholds (`Analytic.v`, `AnalyticModels.v`, `PropsAnalytic.v`).
* **C46** (added) On a cut the value is the limit from above and its conjugate the limit from below.
* **C47** (added) The two alternative maps from t to W compared with the one in use, by following the signs of the
  factors' real parts (`AltMaps.v`, `PropsAltMaps.v`).
* **C48** (added) The scripts that run a pipeline several times: induction over the runs on top of C36, C38 and C39; the
  resonances of the nucleon script by the values a fit starts with (`FitScripts.v`, `PropsStarts.v`, `PropsFitScripts.v`,
  `PropsScriptRuns.v`).
* **C49** (added) Feasible starts: the bounds depend only on parameters that never change, and every value of the store is
  either untouched or the optimiser's; invariant over the stages (`PropsFeasible.v`).
* **C50** (added) Data files: the texts `float` accepts by inversion of the scanner, the csv automaton by induction over a
  line, the file by strong induction over its length (`DataFiles.v`, `PropsFiles.v`).  A printed number need not be exact:
  `printed` relates a number to the value its text has.
* **C51** (added) Enclosures: a ball is a pair of integers in units of 2^-72 and every operation is proved to contain the
  exact result; the evaluators follow the model function by function, so soundness is by structural induction over the
  expression tables (`Balls.v`, `Enclose.v`, `EncloseCS.v`, `PropsEnclose.v`, `PropsEncloseNucleon.v`).  The theorems
  `C51_tests_...` are computations on the balls: the model is checked against numbers its authors obtained by running
  the code.  They are finite statements, kept as evidence that the transcription of the long expressions is faithful; the
  claim proper is the soundness theorems.  Decimal literals of the tests are read as exact rationals.  Not in the tables:
  the tests of parameter classes and tasks, and those that compare two objects without a number (special cases of C01-C12).
* **C52** (added) Files of a run: an invariant over the stages relating the events to the finished stages; a heap invariant
  keeps the lists a report refers to apart from the parameters the pipeline changes (`PropsRunFiles.v`).  Labels of the
  stages are written out in the specification, in both spellings.
* **C53** (added) One table of resonances: the windows are read off `get_bounds` at the position of the free parameter and
  compared with a literal table in units of 0.1 MeV; the published values are the `[resonances]` section of
  `configuration.ini` in keV.  The rounds of the scripts are literal tables of (round number, free parameters), proved by
  the stage invariant of C39/C48 (`PropsResonances.v`).  The lower ends for the two models without resonances are in
  `PropsConstruct.v`.
* **C54** (added) The residual task: the run is evaluated symbolically once the measurements are named by a list of records
  (point, background, value, error); the fitted rows, the damped wave and the reported sums are written out in the
  specification.  The instance bounds the background away from zero with the balls of C51 (`PropsResidual.v`).
* **C55** (added) Measurements reach the optimiser: C37 (sorting), the stage invariant of C36/C39 and the fit input of C34/C54
  put together; the rows are written out in the specification and followed from the constructor to `curve_fit`, for all
  four kinds and any outcome of the run (`PropsMeasurements.v`).
* **C56** (added) The constants come from the configuration file: the specification is a grammar of lines, the settings they
  make and the lines that are refused; the parser's state is followed line by line.  The literal text of `configuration.ini` is
  parsed and compared with the constants used elsewhere (`PropsConfig.v`).
* **C57** (added) The script for the other models never finishes a fit: the function handed to the optimiser raises wherever it
  is called (C34), the residual task needs the background of the same function, so one fit is made and every branch raises;
  the frame of the events comes from C38 (`PropsOtherScript.v`).
* **C58** (added) The single fits: literal tables of names and values and of the fitted names in the specification; the store
  the script builds is evaluated symbolically, the run is C34's (`PropsSingleFits.v`).
* **C59** (added) The summary of many runs: lines are split at the first two colons by induction over the text; the dictionary is
  described by its keys in order of first appearance and the last value of each, the ranking by the stable sort of C37
  (`PropsParser.v`).
* **C60** (added) The drawing of one resonance: failure set of C18 and formula of C29 at every real time, induction over the
  points; the figure by parts of the stable sort of C37 (`PropsSinglePlot.v`).
* **C61** (added) The pictures of the maps: the curves in polar and Cartesian coordinates in the specification, the images by
  C10-C13 and C47 at every point (`PropsPlotComplex.v`).
* **C62** (added) The drawing of one fit: the stored numbers in the specification, the two printed values enclosed by balls, the
  picture by C37 and C42, the fit by C54; the file's form factors are taken for cross-sections (`PropsPlotFit.v`).
* **C63** (added) Where the runs start: the tables of the two scripts written again in the specification, each free value moved
  by C09 with its bound, the rest kept; the residues by cases of the number handed out (`PropsScriptStarts.v`).
* **C64** (added) Imports: what a name stands for as a relation on the texts; an invariant of `sys.modules` (a module is complete
  up to the statement it is at) kept by every import in an acyclic table, failing ones included, by induction on the depth; the
  conditions on the table decided by a checker proved sound (`PropsImports.v`).
* **C65** (added) Ambiguities of the kaon models: after clearing denominators a sector is a polynomial in W; one that vanishes at
  more points than its degree is zero, and at the pole of one resonance only that resonance is left. Resonances with the same pole
  are put together first; injectivity of W and the exact zero set of the denominators are those of C10 and C18
  (`PropsAmbiguity.v`).
* **C66** (added) Along a line in the couplings and magnetic moments a sector is mixed term by term; failures depend on the other
  parameters only.  Moduli of affine functions are convex, so are their squares, and |u + z v| grows with u, v >= 0 when
  Re z >= 0, which holds wherever a nucleon form factor returns (`PropsCouplings.v`).
* **C67** (added) `Asymptotics.v` has an algebra of limits at infinity with the rate 1/sqrt|t| (sums, products, inverses,
  uniqueness). W(t) tends to -1, so a component times t tends to minus its leading coefficient, real because both denominators are
  moduli on the real axis; the nucleon combinations are homogeneous polynomials of degree 2 or 3 in the components. `PropsAsymptotics.v`.
* **C68** (added) `Masses.v` puts mass and width of a resonance, up to signs, into one point of the first quadrant whose
  square is the pole or its conjugate, so that continuity in both is continuity of a function of one complex variable, also
  at width zero. A component whose squared mass is the inelastic branch point has two different one-sided limits: the two
  variants agree only for poles on the cut (`variants_differ`: the real part of what separates them is positive because all
  the points involved lie in the left half disc). `PropsMasses.v` lifts this to the models.
* **C69** (added) `Limits.v` has limits over an arbitrary base of neighbourhoods, here the accepted keyword arguments within d of
  given ones. The map to the W plane depends on the branch points only through a change of scale of t (`Wt_moved`), so continuity
  in the branch points follows from continuity of the fixed map; components, sums, mass terms and the four nucleon contributions
  follow. Thresholds are excluded, and `C69_jump` says what happens at one: the side of the squared mass alone decides
  (`PropsBranchPoints.v`). `PropsSingleContinuity.v` has the model with one component. The nucleon form factors at their thresholds
  are not treated.
* **C70** (added) Lifts C69 through `C26`/`C27` (pointwise evaluation) to the lists of values, to sums of squares, and through
  `update_free_values` to the closures that are fitted; ETGMR and two-poles models are treated directly (`PropsFitFunctions.v`).
* **C71** (added) Boxes in any number of dimensions are compact (`box_bound`, by induction on the dimension from the completeness of
  the reals), so the sum of squares of C70 attains its minimum. With only strengths free, C66 says that the function returns
  everywhere if it does anywhere (`PropsBestFit.v`). Nothing is claimed about what scipy finds, or about infinite bounds.
* **C72** (added) On a bounded interval by compactness (`interval_bound`) from the limits of C46, beyond it by C67; the failing points
  come from C18. The bound is at a fixed distance from the failing points, and says nothing about values nearer to an inelastic
  branch point, where the code fails although a limit may exist (`PropsBounded.v`). `C72_half_plane` does the same for complex t,
  by reflection for the lower half.
* `PropsNames.v` adds to C29, C42, C52, C56, C57, C58 and C60 what small letters, joined paths, printed lists, too short points
  and lists and the error of a square root are.

Nothing is planned as "not expressible"; statements that turn out to be false of the code are kept as `_refuted`
theorems with a witness and listed below.

## Refuted statements

Natural stronger readings that are false of the code, each with a witness:

| theorem | statement that fails |
|---|---|
| `C04_permutation_with_duplicates_refuted` | `from_list` ignores the order of its list even when names repeat |
| `C05_etgmr_reconstruction_refuted` | `ETGMRModelParameters.get_ordered_values` determines the store (it leaves out m_d) |
| `C09_size_zero_identity_refuted` | a perturbation of size zero changes nothing (couplings can change sign) |
| `C27_auxiliary_models_supported_refuted` | cross-sections of the ETGMR and two-poles models can be computed |
| `C30_negative_t_rejected_refuted` | the nucleon cross-section rejects every t below threshold |
| `C31_inverts_exactly_refuted` | `transform_to_effective_form_factor` inverts the cross-section (the factor hc^2 is missing) |
| `C36_least_number_refuted` | the best fit has the least chi-squared (texts are compared, not numbers) |
| `C37_points_keep_their_values_refuted` | points keep their values when the lists have unequal lengths |
| `C40_error_nonnegative_refuted` | undressing gives non-negative errors |
| `C47_interchangeable_refuted` | the three versions of the map from t to W are interchangeable |
| `C49_interior_start_refuted` | the perturbed start of the kaon script lies strictly inside the bounds (a draw of 0 puts t_in on t_0) |
| `C25_nucleon_inside_bounds_rejected` | every point strictly inside the maximal bounds is accepted by the nucleon model |
| `C68_continuous_refuted` | the kaon form factors are continuous in the accepted parameters (they jump where a squared mass is t_in) |

## Wrong programs

`seeded/LOG.jsonl` has one line for every wrong program tried, in a copy outside this repository. There are two kinds:

- Edits by hand (ids starting with `m` or `n` and similar). `theorems_failed` lists the theorems that did not compile.
- Edits chosen at random in the definitions of the model (ids `a1_`, `b3_`, `i4_`): a number, an operator, a name, a constructor
  or two neighbouring arguments changed. The build stops at the first proof that fails (`proofs_that_stopped`), so
  `theorems_failed` lists the theorems whose proofs use that one, found from the text of the files. It can name too
  many theorems, since another proof of a later one may exist. An empty list with `proofs_that_stopped` set
  means that a check of the model itself, or the instance beside a theorem, stopped the edit.

An edit that nothing stopped has an empty `proofs_that_stopped` and a note. Either the edited program does the same as the
original on every input it can be given, or the theorem in `tightened` was added or strengthened to stop it.

## Trusted base

- Coq 8.16.1's kernel (and `coqchk`, which re-checks the compiled files).
- The axioms printed by `Print Assumptions`, which stands beside every property theorem. All of them are in Coq's standard
  library, where they come with the real numbers; none is ours:
  - **F** `ClassicalDedekindReals.sig_forall_dec`
  - **N** `ClassicalDedekindReals.sig_not_dec`
  - **E** `FunctionalExtensionality.functional_extensionality_dep`
  - **C** `Classical_Prop.classic`
- The reading of the Python sources: every definition of the model cites the file and lines it models, and the sections
  "Modelling decisions" and "Which code is modelled" say what was left out or simplified. Nothing checks that reading
  mechanically, since the code was not run.

What `Print Assumptions` lists for each theorem of `Props*.v`:

- **none (closed under the global context)** (29 theorems): `C03_second_update_wins`, `C03_update_then_get`, `C03_write_back_is_noop`, `C03_wrong_length_rejected`, `C32_vmd_empty_raises`, `C32_vmd_incremental`, `C38_constructor`, `C38_existing_directory`, `C38_second_pipeline`, `C39_requested_numbers`, `C42_series_partition`, `C42_short_lists`, `C42_wrong_kind_raises`, `C50_quoted_fields`, `C52_paths`, `C56_accepted_or_refused`, `C56_keys`, `C56_layout`, `C56_no_delimiter`, `C56_refuses`, `C57_model_names`, `C58_list_text`, `C61_figure`, `C64_functions`, `C64_import`, `C64_installed`, `C64_names`, `C64_objects`, `C64_run`.
- **F** (3 theorems): `C42_charged_and_neutral_series`, `C42_electric_and_magnetic_series`, `C62_panels`.
- **F, E** (71 theorems): `C01_always_fixed_stay_fixed`, `C01_exactly_those`, `C02_constructor_flags`, `C02_constructor_rejects`, `C02_constructor_values`, `C02_names_never_change`, `C04_copy_equal`, `C04_from_list_accepts`, `C04_from_list_contents`, `C04_from_list_permutation`, `C04_permutation_with_duplicates_refuted`, `C05_etgmr_reconstruction_refuted`, `C05_from_ordered_then_get`, `C05_round_trip`, `C05_wrong_length`, `C07_all`, `C07_fix_fixes_exactly`, `C07_release_always_fixed_rejected`, `C07_release_frees_exactly`, `C07_unknown_name`, `C08_every_choice_possible`, `C08_possible_numbers`, `C08_random_freezing`, `C11_inverse_map_domain`, `C13_z_minus_its_reciprocal`, `C19_MapFromWtoT_validation`, `C32_vmd_additive`, `C32_vmd_at_zero`, `C32_vmd_exact`, `C32_vmd_order_irrelevant`, `C32_vmd_real`, `C33_etgmr_at_zero`, `C33_etgmr_exact`, `C33_etgmr_zero_mass_raises`, `C33_real`, `C33_reflection`, `C33_twopoles_exact`, `C33_twopoles_symmetric`, `C36_decimals`, `C37_kaon_data`, `C37_nucleon_data`, `C37_nucleon_script_data`, `C37_points_keep_their_values_refuted`, `C37_result_unique`, `C40_terms_are_derivatives`, `C42_zero_error_raises`, `C44_weights_unique`, `C50_blank_line`, `C50_float`, `C50_outcome`, `C50_quoted_numbers`, `C50_read_data`, `C50_round_trip`, `C51_VMD`, `C51_components`, `C56_constants`, `C56_getfloat`, `C56_glued_comment`, `C56_indented_line`, `C56_missing_file`, `C56_repository_constants`, `C56_repository_resonances`, `C56_scripts`, `C58_fixed_at_published_values`, `C59_bad_line`, `C59_best_fits`, `C59_ranking`, `C59_run_without_value`, `C60_resonance_is_omega`, `C62_stored_flags`, `C63_residues`.
- **F, N, E** (57 theorems): `C06_bounds_aligned`, `C06_raises_exactly`, `C09_perturb_effect`, `C09_raises`, `C09_size_zero_identity_refuted`, `C09_stays_strictly_within`, `C09_stays_within_bounds`, `C10_constructors_accept`, `C19_MapFromTtoW_validation`, `C29_determines_modulus`, `C29_error_of_square_root`, `C29_monotone_in_form_factor`, `C29_nonnegative`, `C30_flag_before_irrelevant`, `C30_formula`, `C30_left_magnetic`, `C30_monotone`, `C30_negative_t_rejected_refuted`, `C30_nonnegative`, `C30_raises`, `C30_zero_at_threshold`, `C31_error_is_derivative`, `C31_formula`, `C31_inverts_exactly_refuted`, `C31_inverts_up_to_units`, `C31_raises`, `C31_scaling`, `C33_damped_bounded`, `C33_damped_linear`, `C33_damped_periodic`, `C33_damped_phase_shift`, `C40_error_at_least_scaled_statistical`, `C40_error_monotone`, `C40_error_nonnegative_refuted`, `C40_raises`, `C40_value_and_error`, `C41_below_threshold_raises`, `C41_momentum_increasing`, `C41_momentum_kinematics`, `C41_momentum_zero_at_threshold`, `C41_negative_value_raises`, `C41_points_stay_aligned`, `C45_inverse_map_holomorphic`, `C47_cmath_sqrt_characterised`, `C49_interior_start_refuted`, `C51_tests_VMD`, `C51_tests_components`, `C53_classes_agree`, `C53_published_inside`, `C53_windows`, `C53_windows_without_resonances`, `C61_reciprocal`, `C61_reciprocal_none`, `C63_kaon_runs`, `C63_kaon_start`, `C63_nucleon_runs`, `C63_nucleon_start`.
- **F, N, E, C** (236 theorems): `C04_copy_isolated`, `C04_stores_change_only_when_addressed`, `C04_to_list_isolated`, `C10_round_trip_t_W_t`, `C11_round_trip_W_t_W`, `C12_image`, `C12_injective`, `C13_square_root_characterised`, `C13_square_root_nonneg`, `C14_kaon_real_below_threshold`, `C14_kaon_reflection`, `C14_nucleon_real_below_threshold`, `C14_nucleon_reflection`, `C14_single_real_below_threshold`, `C14_single_reflection`, `C15_kaon_normalised`, `C15_kaon_returns_at_zero`, `C15_single_value_at_zero`, `C16_nucleon_normalised`, `C16_nucleon_returns_at_zero`, `C17_kaon_is_VMD`, `C17_kaon_zero_width_domain`, `C17_single_is_VMD`, `C18_kaon_defined_on_real_axis`, `C18_kaon_failure_set`, `C18_kaon_pole_on_physical_sheet`, `C18_nucleon_failure_set`, `C18_single_failure_set`, `C19_degenerate_kaon_accepted`, `C19_degenerate_kaon_never_returns`, `C19_degenerate_nucleon_never_returns`, `C19_degenerate_single`, `C19_kaon_rejects`, `C19_nucleon_rejects`, `C19_single_rejects`, `C20_kaon_charged_plus_minus_neutral`, `C20_kaon_combines_single_components`, `C20_kaon_difference_isovector_only`, `C20_kaon_flag`, `C20_kaon_sum_isoscalar_only`, `C20_nucleon_difference_isovector_only`, `C20_nucleon_sum_isoscalar_only`, `C21_B_is_special_case`, `C21_simplified_is_special_case`, `C22_zero_width_agreement`, `C23_cache_contents`, `C23_history_independent`, `C24_kaon_falls_off`, `C24_nucleon_falls_off`, `C24_single_falls_off`, `C25_kaon_accepts_iff`, `C25_kaon_fit_points_accepted`, `C25_kaon_generic_accepted`, `C25_kaon_inside_bounds`, `C25_kaon_inside_bounds_accepted`, `C25_kaon_rejection_reasons`, `C25_nucleon_accepts_iff`, `C25_nucleon_inside_bounds`, `C25_nucleon_inside_bounds_rejected`, `C25_single_accepts_iff`, `C26_form_factor_concatenation`, `C26_form_factor_entries`, `C26_form_factor_first_error`, `C26_form_factor_length`, `C26_form_factor_permutation`, `C26_form_factor_plain_rows`, `C26_store_matches_model`, `C27_auxiliary_models_supported_refuted`, `C27_auxiliary_models_unsupported`, `C27_cross_section_concatenation`, `C27_cross_section_entries`, `C27_cross_section_first_error`, `C27_cross_section_length`, `C27_cross_section_permutation`, `C27_cross_section_plain_rows`, `C27_electric_flag_irrelevant`, `C28_call_changes_no_store`, `C28_call_value`, `C28_creation_changes_no_store`, `C28_cross_section_depends_on_creation_only`, `C28_form_factor_depends_on_creation_only`, `C28_program_has_value_semantics`, `C28_wrong_number_of_arguments`, `C29_below_threshold_imaginary`, `C29_convert_back`, `C29_convert_raises`, `C29_formula_above_threshold`, `C29_modulus_factorises`, `C29_raises`, `C29_zero_at_threshold`, `C30_nucleon_model`, `C34_auxiliary_tasks_cannot_finish`, `C34_degenerate`, `C34_frame`, `C34_model_raises_at_optimum`, `C34_one_fit`, `C34_other_exceptions_propagate`, `C34_parameter_errors`, `C34_plot`, `C34_residual_task`, `C34_runtime_error`, `C34_success`, `C34_wrong_number_of_values`, `C35_as_given`, `C35_fit_sees_prepared_store`, `C35_fixed_couplings`, `C35_full_fit`, `C35_only_charged_needs_charges`, `C35_only_charged_points`, `C36_iterative_pipelines`, `C36_least_number_refuted`, `C36_other_objects_untouched`, `C36_plain_exceptions`, `C36_plain_pipelines`, `C38_iterative_pipelines`, `C38_own_directory`, `C38_plain_pipelines`, `C39_as_constructed`, `C39_every_fit`, `C39_resonances_wait`, `C39_schedule`, `C39_values_kept`, `C42_deviation_rows`, `C42_store_afterwards`, `C43_equal_at_threshold`, `C43_mass_of_the_nucleon`, `C44_sum_over_mesons`, `C45_kaon_holomorphic`, `C45_kaon_real_slope`, `C45_map_derivative`, `C45_map_holomorphic`, `C45_nucleon_holomorphic`, `C45_nucleon_real_slope`, `C45_single_holomorphic`, `C46_kaon_boundary`, `C46_kaon_upper_derivative`, `C46_map_boundary`, `C46_nucleon_boundary`, `C46_nucleon_upper_derivative`, `C46_single_boundary`, `C47_interchangeable_refuted`, `C47_right_inverses`, `C47_version2`, `C47_version2_outside`, `C47_version3`, `C47_version3_boundary`, `C47_zero_threshold`, `C48_best_over_all_runs`, `C48_directories`, `C48_exceptions`, `C48_kaon_exceptions`, `C48_kaon_script`, `C48_nucleon_exceptions`, `C48_nucleon_resonances`, `C48_nucleon_script`, `C48_report`, `C48_second_execution`, `C49_feasible_starts`, `C49_kaon_script`, `C49_nucleon_script`, `C50_conversion`, `C51_kaon`, `C51_maps`, `C51_nucleon`, `C51_nucleon_cross_section`, `C51_pi`, `C51_scalar_cross_section`, `C51_square_root`, `C51_tests_functions`, `C51_tests_kaon`, `C51_tests_maps`, `C51_tests_nucleon`, `C51_tests_nucleon_old`, `C51_tests_pair_cross_section`, `C51_tests_pair_cross_section_identity`, `C51_tests_scalar_cross_section`, `C52_iterative_pipelines`, `C52_plain_pipelines`, `C53_kaon_script`, `C53_nucleon_script`, `C54_division_by_zero`, `C54_fit_input`, `C54_outcome`, `C55_kaon_iterative`, `C55_kaon_pipelines`, `C55_nucleon_iterative`, `C55_nucleon_pipelines`, `C57_auxiliary_pipelines`, `C57_every_run`, `C57_form_factor_pipelines`, `C57_script`, `C57_unknown_model`, `C58_kaon_script`, `C58_nucleon_script`, `C60_accepted`, `C60_function`, `C60_script`, `C60_short_points`, `C61_branch_points`, `C61_inverse_maps`, `C61_square_root`, `C61_t_to_w`, `C61_w_to_t`, `C62_agreement_leaves_a_difference`, `C62_fit`, `C62_no_fit`, `C62_numbers`, `C62_picture`, `C65_agree`, `C65_determined`, `C65_signs`, `C65_unique`, `C66_convex`, `C66_kaon`, `C66_nucleon`, `C67_kaon`, `C67_kaon_cross_section`, `C67_nucleon`, `C67_nucleon_cross_section`, `C68_continuous`, `C68_continuous_refuted`, `C68_jump`, `C69_jump`, `C69_kaon`, `C69_nucleon`, `C69_single`, `C70_closures`, `C70_continuous`, `C71_best_fit`, `C71_couplings`, `C72_half_plane`, `C72_kaon`, `C72_nucleon`, `C72_nucleon_cross_section`, `C72_scalar_cross_section`, `C72_single`.
