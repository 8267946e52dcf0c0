{
 "claims": [
  {
   "property": "C01",
   "status": "proved",
   "theorems": [
    "C01_always_fixed_stay_fixed",
    "C01_exactly_those"
   ],
   "note": "Files: PropsParams.v."
  },
  {
   "property": "C02",
   "status": "proved",
   "theorems": [
    "C02_constructor_flags",
    "C02_names_never_change",
    "C02_constructor_values",
    "C02_constructor_rejects"
   ],
   "note": "Files: PropsConstruct.v, PropsParams.v."
  },
  {
   "property": "C03",
   "status": "proved",
   "theorems": [
    "C03_wrong_length_rejected",
    "C03_update_then_get",
    "C03_write_back_is_noop",
    "C03_second_update_wins"
   ],
   "note": "Files: PropsParams.v."
  },
  {
   "property": "C04",
   "status": "proved",
   "theorems": [
    "C04_copy_equal",
    "C04_from_list_permutation",
    "C04_from_list_accepts",
    "C04_from_list_contents",
    "C04_permutation_with_duplicates_refuted",
    "C04_stores_change_only_when_addressed",
    "C04_copy_isolated",
    "C04_to_list_isolated"
   ],
   "note": "Files: PropsParams.v, PropsWorld.v."
  },
  {
   "property": "C05",
   "status": "proved",
   "theorems": [
    "C05_from_ordered_then_get",
    "C05_round_trip",
    "C05_wrong_length",
    "C05_etgmr_reconstruction_refuted"
   ],
   "note": "Files: PropsParams.v."
  },
  {
   "property": "C06",
   "status": "proved",
   "theorems": [
    "C06_bounds_aligned",
    "C06_raises_exactly"
   ],
   "note": "Files: PropsParams2.v."
  },
  {
   "property": "C07",
   "status": "proved",
   "theorems": [
    "C07_release_always_fixed_rejected",
    "C07_release_frees_exactly",
    "C07_fix_fixes_exactly",
    "C07_unknown_name",
    "C07_all"
   ],
   "note": "Files: PropsParams.v."
  },
  {
   "property": "C08",
   "status": "proved",
   "theorems": [
    "C08_random_freezing",
    "C08_possible_numbers",
    "C08_every_choice_possible"
   ],
   "note": "Files: PropsReports.v."
  },
  {
   "property": "C09",
   "status": "proved",
   "theorems": [
    "C09_perturb_effect",
    "C09_stays_within_bounds",
    "C09_stays_strictly_within",
    "C09_raises",
    "C09_size_zero_identity_refuted"
   ],
   "note": "Files: PropsPerturb.v."
  },
  {
   "property": "C10",
   "status": "proved",
   "theorems": [
    "C10_round_trip_t_W_t",
    "C10_constructors_accept"
   ],
   "note": "Files: PropsMaps.v."
  },
  {
   "property": "C11",
   "status": "proved",
   "theorems": [
    "C11_round_trip_W_t_W",
    "C11_inverse_map_domain"
   ],
   "note": "Files: PropsMaps.v."
  },
  {
   "property": "C12",
   "status": "proved",
   "theorems": [
    "C12_image",
    "C12_injective"
   ],
   "note": "Files: PropsMaps.v."
  },
  {
   "property": "C13",
   "status": "proved",
   "theorems": [
    "C13_square_root_characterised",
    "C13_square_root_nonneg",
    "C13_z_minus_its_reciprocal"
   ],
   "note": "Files: PropsMaps.v."
  },
  {
   "property": "C14",
   "status": "proved",
   "theorems": [
    "C14_kaon_reflection",
    "C14_kaon_real_below_threshold",
    "C14_single_reflection",
    "C14_single_real_below_threshold",
    "C14_nucleon_reflection",
    "C14_nucleon_real_below_threshold"
   ],
   "note": "Files: PropsKaon.v, PropsNucleon.v."
  },
  {
   "property": "C15",
   "status": "proved",
   "theorems": [
    "C15_kaon_normalised",
    "C15_kaon_returns_at_zero",
    "C15_single_value_at_zero"
   ],
   "note": "Files: PropsKaon.v."
  },
  {
   "property": "C16",
   "status": "proved",
   "theorems": [
    "C16_nucleon_normalised",
    "C16_nucleon_returns_at_zero"
   ],
   "note": "Files: PropsNucleon.v."
  },
  {
   "property": "C17",
   "status": "proved",
   "theorems": [
    "C17_kaon_is_VMD",
    "C17_kaon_zero_width_domain",
    "C17_single_is_VMD"
   ],
   "note": "Files: PropsKaon.v."
  },
  {
   "property": "C18",
   "status": "proved",
   "theorems": [
    "C18_kaon_failure_set",
    "C18_kaon_defined_on_real_axis",
    "C18_kaon_pole_on_physical_sheet",
    "C18_single_failure_set",
    "C18_nucleon_failure_set"
   ],
   "note": "Files: PropsKaon.v, PropsNucleon.v."
  },
  {
   "property": "C19",
   "status": "proved",
   "theorems": [
    "C19_MapFromTtoW_validation",
    "C19_MapFromWtoT_validation",
    "C19_single_rejects",
    "C19_kaon_rejects",
    "C19_degenerate_single",
    "C19_degenerate_kaon_accepted",
    "C19_degenerate_kaon_never_returns",
    "C19_nucleon_rejects",
    "C19_degenerate_nucleon_never_returns"
   ],
   "note": "Files: PropsKaon2.v, PropsNucleon2.v."
  },
  {
   "property": "C20",
   "status": "proved",
   "theorems": [
    "C20_kaon_combines_single_components",
    "C20_kaon_flag",
    "C20_kaon_charged_plus_minus_neutral",
    "C20_kaon_sum_isoscalar_only",
    "C20_kaon_difference_isovector_only",
    "C20_nucleon_sum_isoscalar_only",
    "C20_nucleon_difference_isovector_only"
   ],
   "note": "Files: PropsKaon2.v, PropsNucleon.v."
  },
  {
   "property": "C21",
   "status": "proved",
   "theorems": [
    "C21_simplified_is_special_case",
    "C21_B_is_special_case"
   ],
   "note": "Files: PropsKaon2.v."
  },
  {
   "property": "C22",
   "status": "proved",
   "theorems": [
    "C22_zero_width_agreement"
   ],
   "note": "Files: PropsNucleon2.v."
  },
  {
   "property": "C23",
   "status": "proved",
   "theorems": [
    "C23_history_independent",
    "C23_cache_contents"
   ],
   "note": "Files: PropsNucleon.v."
  },
  {
   "property": "C24",
   "status": "proved",
   "theorems": [
    "C24_kaon_falls_off",
    "C24_single_falls_off",
    "C24_nucleon_falls_off"
   ],
   "note": "Files: PropsKaon2.v, PropsNucleon2.v."
  },
  {
   "property": "C25",
   "status": "proved",
   "theorems": [
    "C25_kaon_inside_bounds",
    "C25_kaon_inside_bounds_accepted",
    "C25_nucleon_inside_bounds",
    "C25_kaon_fit_points_accepted",
    "C25_nucleon_inside_bounds_rejected",
    "C25_kaon_accepts_iff",
    "C25_kaon_generic_accepted",
    "C25_single_accepts_iff",
    "C25_kaon_rejection_reasons",
    "C25_nucleon_accepts_iff"
   ],
   "note": "Files: PropsBounds.v, PropsKaon2.v, PropsNucleon2.v."
  },
  {
   "property": "C26",
   "status": "proved",
   "theorems": [
    "C26_form_factor_entries",
    "C26_form_factor_length",
    "C26_form_factor_concatenation",
    "C26_form_factor_permutation",
    "C26_form_factor_first_error",
    "C26_form_factor_plain_rows",
    "C26_store_matches_model"
   ],
   "note": "Files: PropsUtils.v."
  },
  {
   "property": "C27",
   "status": "proved",
   "theorems": [
    "C27_cross_section_entries",
    "C27_cross_section_length",
    "C27_cross_section_concatenation",
    "C27_cross_section_permutation",
    "C27_cross_section_first_error",
    "C27_cross_section_plain_rows",
    "C27_electric_flag_irrelevant",
    "C27_auxiliary_models_unsupported",
    "C27_auxiliary_models_supported_refuted"
   ],
   "note": "Files: PropsUtils.v."
  },
  {
   "property": "C28",
   "status": "proved",
   "theorems": [
    "C28_program_has_value_semantics",
    "C28_form_factor_depends_on_creation_only",
    "C28_cross_section_depends_on_creation_only",
    "C28_call_changes_no_store",
    "C28_creation_changes_no_store",
    "C28_wrong_number_of_arguments",
    "C28_call_value"
   ],
   "note": "Files: PropsWorld.v."
  },
  {
   "property": "C29",
   "status": "proved",
   "theorems": [
    "C29_formula_above_threshold",
    "C29_zero_at_threshold",
    "C29_below_threshold_imaginary",
    "C29_modulus_factorises",
    "C29_raises",
    "C29_convert_back",
    "C29_nonnegative",
    "C29_monotone_in_form_factor",
    "C29_determines_modulus",
    "C29_convert_raises",
    "C29_error_of_square_root"
   ],
   "note": "Files: PropsCross.v, PropsNames.v."
  },
  {
   "property": "C30",
   "status": "proved",
   "theorems": [
    "C30_formula",
    "C30_flag_before_irrelevant",
    "C30_left_magnetic",
    "C30_raises",
    "C30_nonnegative",
    "C30_zero_at_threshold",
    "C30_monotone",
    "C30_negative_t_rejected_refuted",
    "C30_nucleon_model"
   ],
   "note": "Files: PropsCross.v."
  },
  {
   "property": "C31",
   "status": "proved",
   "theorems": [
    "C31_formula",
    "C31_inverts_up_to_units",
    "C31_inverts_exactly_refuted",
    "C31_error_is_derivative",
    "C31_scaling",
    "C31_raises"
   ],
   "note": "Files: PropsCross.v."
  },
  {
   "property": "C32",
   "status": "proved",
   "theorems": [
    "C32_vmd_exact",
    "C32_vmd_empty_raises",
    "C32_vmd_incremental",
    "C32_vmd_at_zero",
    "C32_vmd_order_irrelevant",
    "C32_vmd_additive",
    "C32_vmd_real"
   ],
   "note": "Files: PropsOther.v."
  },
  {
   "property": "C33",
   "status": "proved",
   "theorems": [
    "C33_etgmr_exact",
    "C33_etgmr_zero_mass_raises",
    "C33_etgmr_at_zero",
    "C33_twopoles_exact",
    "C33_twopoles_symmetric",
    "C33_reflection",
    "C33_real",
    "C33_damped_bounded",
    "C33_damped_linear",
    "C33_damped_periodic",
    "C33_damped_phase_shift"
   ],
   "note": "Files: PropsOther.v."
  },
  {
   "property": "C34",
   "status": "proved",
   "theorems": [
    "C34_frame",
    "C34_one_fit",
    "C34_runtime_error",
    "C34_other_exceptions_propagate",
    "C34_wrong_number_of_values",
    "C34_success",
    "C34_plot",
    "C34_degenerate",
    "C34_model_raises_at_optimum",
    "C34_parameter_errors",
    "C34_residual_task",
    "C34_auxiliary_tasks_cannot_finish"
   ],
   "note": "Files: PropsTask.v."
  },
  {
   "property": "C35",
   "status": "proved",
   "theorems": [
    "C35_full_fit",
    "C35_fixed_couplings",
    "C35_as_given",
    "C35_fit_sees_prepared_store",
    "C35_only_charged_points",
    "C35_only_charged_needs_charges"
   ],
   "note": "Files: PropsTask.v."
  },
  {
   "property": "C36",
   "status": "proved",
   "theorems": [
    "C36_plain_pipelines",
    "C36_plain_exceptions",
    "C36_iterative_pipelines",
    "C36_other_objects_untouched",
    "C36_decimals",
    "C36_least_number_refuted"
   ],
   "note": "Files: PropsPipeline.v, PropsRuns.v."
  },
  {
   "property": "C37",
   "status": "proved",
   "theorems": [
    "C37_kaon_data",
    "C37_nucleon_data",
    "C37_nucleon_script_data",
    "C37_result_unique",
    "C37_points_keep_their_values_refuted"
   ],
   "note": "Files: PropsData.v."
  },
  {
   "property": "C38",
   "status": "proved",
   "theorems": [
    "C38_plain_pipelines",
    "C38_iterative_pipelines",
    "C38_own_directory",
    "C38_existing_directory",
    "C38_constructor",
    "C38_second_pipeline"
   ],
   "note": "Files: PropsReports.v."
  },
  {
   "property": "C39",
   "status": "proved",
   "theorems": [
    "C39_schedule",
    "C39_every_fit",
    "C39_requested_numbers",
    "C39_as_constructed",
    "C39_values_kept",
    "C39_resonances_wait"
   ],
   "note": "Files: PropsPipeline.v, PropsRuns.v, PropsStarts.v."
  },
  {
   "property": "C40",
   "status": "proved",
   "theorems": [
    "C40_value_and_error",
    "C40_terms_are_derivatives",
    "C40_error_at_least_scaled_statistical",
    "C40_error_monotone",
    "C40_raises",
    "C40_error_nonnegative_refuted"
   ],
   "note": "Files: PropsScripts.v."
  },
  {
   "property": "C41",
   "status": "proved",
   "theorems": [
    "C41_momentum_increasing",
    "C41_momentum_zero_at_threshold",
    "C41_momentum_kinematics",
    "C41_points_stay_aligned",
    "C41_below_threshold_raises",
    "C41_negative_value_raises"
   ],
   "note": "Files: PropsScripts.v."
  },
  {
   "property": "C42",
   "status": "proved",
   "theorems": [
    "C42_charged_and_neutral_series",
    "C42_electric_and_magnetic_series",
    "C42_series_partition",
    "C42_wrong_kind_raises",
    "C42_deviation_rows",
    "C42_store_afterwards",
    "C42_zero_error_raises",
    "C42_short_lists"
   ],
   "note": "Files: PropsData.v, PropsNames.v."
  },
  {
   "property": "C43",
   "status": "proved",
   "theorems": [
    "C43_equal_at_threshold",
    "C43_mass_of_the_nucleon"
   ],
   "note": "Files: PropsNucleon3.v."
  },
  {
   "property": "C44",
   "status": "proved",
   "theorems": [
    "C44_weights_unique",
    "C44_sum_over_mesons"
   ],
   "note": "Files: PropsNucleon3.v."
  },
  {
   "property": "C45",
   "status": "proved",
   "theorems": [
    "C45_map_holomorphic",
    "C45_inverse_map_holomorphic",
    "C45_map_derivative",
    "C45_kaon_holomorphic",
    "C45_kaon_real_slope",
    "C45_single_holomorphic",
    "C45_nucleon_holomorphic",
    "C45_nucleon_real_slope"
   ],
   "note": "Files: PropsAnalytic.v."
  },
  {
   "property": "C46",
   "status": "proved",
   "theorems": [
    "C46_map_boundary",
    "C46_kaon_boundary",
    "C46_kaon_upper_derivative",
    "C46_single_boundary",
    "C46_nucleon_boundary",
    "C46_nucleon_upper_derivative"
   ],
   "note": "Files: PropsAnalytic.v."
  },
  {
   "property": "C47",
   "status": "proved",
   "theorems": [
    "C47_cmath_sqrt_characterised",
    "C47_version2",
    "C47_version2_outside",
    "C47_version3",
    "C47_right_inverses",
    "C47_zero_threshold",
    "C47_version3_boundary",
    "C47_interchangeable_refuted"
   ],
   "note": "Files: PropsAltMaps.v."
  },
  {
   "property": "C48",
   "status": "proved",
   "theorems": [
    "C48_best_over_all_runs",
    "C48_report",
    "C48_directories",
    "C48_second_execution",
    "C48_exceptions",
    "C48_nucleon_script",
    "C48_nucleon_resonances",
    "C48_kaon_script",
    "C48_nucleon_exceptions",
    "C48_kaon_exceptions"
   ],
   "note": "Files: PropsFitScripts.v, PropsScriptRuns.v."
  },
  {
   "property": "C49",
   "status": "proved",
   "theorems": [
    "C49_feasible_starts",
    "C49_nucleon_script",
    "C49_kaon_script",
    "C49_interior_start_refuted"
   ],
   "note": "Files: PropsFeasible.v."
  },
  {
   "property": "C50",
   "status": "proved",
   "theorems": [
    "C50_float",
    "C50_read_data",
    "C50_outcome",
    "C50_blank_line",
    "C50_round_trip",
    "C50_quoted_fields",
    "C50_quoted_numbers",
    "C50_conversion"
   ],
   "note": "Files: PropsFiles.v."
  },
  {
   "property": "C51",
   "status": "proved",
   "theorems": [
    "C51_maps",
    "C51_square_root",
    "C51_pi",
    "C51_components",
    "C51_kaon",
    "C51_nucleon",
    "C51_VMD",
    "C51_scalar_cross_section",
    "C51_nucleon_cross_section",
    "C51_tests_functions",
    "C51_tests_maps",
    "C51_tests_components",
    "C51_tests_VMD",
    "C51_tests_kaon",
    "C51_tests_scalar_cross_section",
    "C51_tests_pair_cross_section_identity",
    "C51_tests_nucleon",
    "C51_tests_nucleon_old",
    "C51_tests_pair_cross_section"
   ],
   "note": "Files: PropsEnclose.v, PropsEncloseNucleon.v."
  },
  {
   "property": "C52",
   "status": "proved",
   "theorems": [
    "C52_paths",
    "C52_plain_pipelines",
    "C52_iterative_pipelines"
   ],
   "note": "Files: PropsNames.v, PropsRunFiles.v."
  },
  {
   "property": "C53",
   "status": "proved",
   "theorems": [
    "C53_windows_without_resonances",
    "C53_windows",
    "C53_classes_agree",
    "C53_published_inside",
    "C53_kaon_script",
    "C53_nucleon_script"
   ],
   "note": "Files: PropsConstruct.v, PropsResonances.v."
  },
  {
   "property": "C54",
   "status": "proved",
   "theorems": [
    "C54_fit_input",
    "C54_outcome",
    "C54_division_by_zero"
   ],
   "note": "Files: PropsResidual.v."
  },
  {
   "property": "C55",
   "status": "proved",
   "theorems": [
    "C55_kaon_pipelines",
    "C55_nucleon_pipelines",
    "C55_kaon_iterative",
    "C55_nucleon_iterative"
   ],
   "note": "Files: PropsMeasurements.v."
  },
  {
   "property": "C56",
   "status": "proved",
   "theorems": [
    "C56_refuses",
    "C56_accepted_or_refused",
    "C56_getfloat",
    "C56_layout",
    "C56_constants",
    "C56_missing_file",
    "C56_glued_comment",
    "C56_indented_line",
    "C56_no_delimiter",
    "C56_repository_constants",
    "C56_repository_resonances",
    "C56_scripts",
    "C56_keys"
   ],
   "note": "Files: PropsConfig.v, PropsNames.v."
  },
  {
   "property": "C57",
   "status": "proved",
   "theorems": [
    "C57_model_names",
    "C57_form_factor_pipelines",
    "C57_auxiliary_pipelines",
    "C57_every_run",
    "C57_script",
    "C57_unknown_model"
   ],
   "note": "Files: PropsNames.v, PropsOtherScript.v."
  },
  {
   "property": "C58",
   "status": "proved",
   "theorems": [
    "C58_list_text",
    "C58_kaon_script",
    "C58_nucleon_script",
    "C58_fixed_at_published_values"
   ],
   "note": "Files: PropsNames.v, PropsSingleFits.v."
  },
  {
   "property": "C59",
   "status": "proved",
   "theorems": [
    "C59_ranking",
    "C59_run_without_value",
    "C59_bad_line",
    "C59_best_fits"
   ],
   "note": "Files: PropsParser.v."
  },
  {
   "property": "C60",
   "status": "proved",
   "theorems": [
    "C60_short_points",
    "C60_function",
    "C60_accepted",
    "C60_script",
    "C60_resonance_is_omega"
   ],
   "note": "Files: PropsNames.v, PropsSinglePlot.v."
  },
  {
   "property": "C61",
   "status": "proved",
   "theorems": [
    "C61_figure",
    "C61_square_root",
    "C61_reciprocal",
    "C61_reciprocal_none",
    "C61_w_to_t",
    "C61_t_to_w",
    "C61_branch_points",
    "C61_inverse_maps"
   ],
   "note": "Files: PropsPlotComplex.v."
  },
  {
   "property": "C62",
   "status": "proved",
   "theorems": [
    "C62_numbers",
    "C62_stored_flags",
    "C62_panels",
    "C62_picture",
    "C62_fit",
    "C62_no_fit",
    "C62_agreement_leaves_a_difference"
   ],
   "note": "Files: PropsPlotFit.v."
  },
  {
   "property": "C63",
   "status": "proved",
   "theorems": [
    "C63_kaon_start",
    "C63_nucleon_start",
    "C63_residues",
    "C63_kaon_runs",
    "C63_nucleon_runs"
   ],
   "note": "Files: PropsScriptStarts.v."
  },
  {
   "property": "C64",
   "status": "proved",
   "theorems": [
    "C64_import",
    "C64_names",
    "C64_objects",
    "C64_functions",
    "C64_run",
    "C64_installed"
   ],
   "note": "Files: PropsImports.v."
  },
  {
   "property": "C65",
   "status": "proved",
   "theorems": [
    "C65_determined",
    "C65_agree",
    "C65_unique",
    "C65_signs"
   ],
   "note": "Files: PropsAmbiguity.v."
  },
  {
   "property": "C66",
   "status": "proved",
   "theorems": [
    "C66_kaon",
    "C66_nucleon",
    "C66_convex"
   ],
   "note": "Files: PropsCouplings.v."
  },
  {
   "property": "C67",
   "status": "proved",
   "theorems": [
    "C67_kaon",
    "C67_nucleon",
    "C67_kaon_cross_section",
    "C67_nucleon_cross_section"
   ],
   "note": "Files: PropsAsymptotics.v."
  },
  {
   "property": "C68",
   "status": "proved",
   "theorems": [
    "C68_continuous",
    "C68_jump",
    "C68_continuous_refuted"
   ],
   "note": "Files: PropsMasses.v."
  },
  {
   "property": "C69",
   "status": "proved",
   "theorems": [
    "C69_kaon",
    "C69_jump",
    "C69_nucleon",
    "C69_single"
   ],
   "note": "Files: PropsBranchPoints.v, PropsSingleContinuity.v."
  },
  {
   "property": "C70",
   "status": "proved",
   "theorems": [
    "C70_continuous",
    "C70_closures"
   ],
   "note": "Files: PropsFitFunctions.v."
  },
  {
   "property": "C71",
   "status": "proved",
   "theorems": [
    "C71_best_fit",
    "C71_couplings"
   ],
   "note": "Files: PropsBestFit.v."
  },
  {
   "property": "C72",
   "status": "proved",
   "theorems": [
    "C72_single",
    "C72_kaon",
    "C72_nucleon",
    "C72_scalar_cross_section",
    "C72_nucleon_cross_section",
    "C72_half_plane"
   ],
   "note": "Files: PropsBounded.v."
  }
 ]
}