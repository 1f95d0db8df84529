{
 "claims": [
  {
   "property": "C01",
   "status": "proved",
   "theorems": [
    "C01_clock_exact_and_run_terminates"
   ],
   "note": "2D loop model; the 3D loop differs only in bookkeeping and uses the same clock."
  },
  {
   "property": "C02",
   "status": "proved",
   "theorems": [
    "C02_exports_regular",
    "C02_exports_regular_3d",
    "C02_exports_exact_when_dt_divides",
    "C02_exports_coarse_step",
    "C02_at_most_one_export_per_step"
   ],
   "note": "Includes the 3D variant and the case of a step larger than the export interval."
  },
  {
   "property": "C03",
   "status": "proved",
   "theorems": [
    "C03_time_step_fits_export_interval"
   ],
   "note": "Split and non-split modes."
  },
  {
   "property": "C04",
   "status": "proved",
   "theorems": [
    "C04_restart_reproduces_the_run",
    "C04_restart_reproduces_the_run_3d",
    "C04_missing_time_attribute_refuted",
    "C04_time_of_disagreeing_files",
    "C04_legacy_time_inferred",
    "C04_restart_2d_schedule_shift_refuted",
    "C04_restart_2d_tracer_lost_refuted",
    "C04_restart_3d_time_override_delays_exports"
   ],
   "note": "The restart theorem is proved under the English property's hypotheses (deterministic step, stored state complete, time attribute available); the code's deviations (legacy files, lost tracers, schedule shift) are separate refuted/characterised theorems."
  },
  {
   "property": "C05",
   "status": "proved",
   "theorems": [
    "C05_end_date_right_iff_started_at_zero",
    "C05_end_date_on_resume_refuted",
    "C05_end_time_used_unchanged"
   ],
   "note": "Right exactly when the run starts at time 0; the resume case is refuted with a witness."
  },
  {
   "property": "C06",
   "status": "proved",
   "theorems": [
    "C06_file_names_distinct",
    "C06_history_is_an_indexed_store",
    "C06_consecutive_exports_all_kept",
    "C06_failed_export_keeps_old_file_refuted"
   ],
   "note": "Refinement to an indexed store for every history; failing export destroys the old file (refuted clause)."
  },
  {
   "property": "C07",
   "status": "proved",
   "theorems": [
    "C07_manager_history",
    "C07_registration_order",
    "C07_managers_isolated",
    "C07_default_managers_isolated_refuted",
    "C07_late_field_lockstep_refuted",
    "C07_once_per_export_refuted",
    "C07_export_3d_restores_velocity",
    "C07_export_3d_restores_velocity_on_failure_refuted",
    "C07_vtk_file_numbers",
    "C07_vtk_initial_index_refuted",
    "C07_preprocessor_registered",
    "C07_no_preprocessor"
   ],
   "note": "Isolation of managers that use the default argument, lockstep after late registration, once-per-export under TypeError and velocity restoration on failure are refuted."
  },
  {
   "property": "C08",
   "status": "proved",
   "theorems": [
    "C08_suffix_characterised",
    "C08_suffix_rule_refuted",
    "C08_plain_names_get_suffix"
   ],
   "note": "The property as users expect it is false of the code; exact behaviour characterised."
  },
  {
   "property": "C09",
   "status": "proved",
   "theorems": [
    "C09_evaluate_last_added_in_order"
   ],
   "note": "Invariant over every sequence of add/evaluate calls."
  },
  {
   "property": "C10",
   "status": "proved",
   "theorems": [
    "C10_always_rectangular",
    "C10_contents",
    "C10_single_export",
    "C10_failed_append_unchanged_refuted",
    "C10_station_variable_names_refuted",
    "C10_creation_succeeds_iff_names_distinct"
   ],
   "note": "Refinement of the file to the abstract series, including restart truncation and failed appends (refuted clause)."
  },
  {
   "property": "C11",
   "status": "proved",
   "theorems": [
    "C11_window",
    "C11_zero_bound_refuted",
    "C11_record_of_appending_callback",
    "C11_resumed_callback_keeps_record",
    "C11_write_mode",
    "C11_indexed_record",
    "C11_late_start_indexed_refuted",
    "C11_append_without_file_refuted",
    "C11_restart_2d_loses_record_refuted"
   ],
   "note": "start_time = 0 / end_time = 0 are ignored by the code: refuted clause."
  },
  {
   "property": "C12",
   "status": "proved",
   "theorems": [
    "C12_relative_change",
    "C12_zero_initial_value_refuted",
    "C12_overshoots",
    "C12_global_extrema"
   ],
   "note": "Zero initial value is refuted (division by zero branch)."
  },
  {
   "property": "C13",
   "status": "proved",
   "theorems": [
    "C13_trapezium",
    "C13_exact_for_linear",
    "C13_export_mode_refuted",
    "C13_accumulator_reporting_refuted"
   ],
   "note": "Use under 'export' mode is characterised separately (wrong weights)."
  },
  {
   "property": "C14",
   "status": "proved",
   "theorems": [
    "C14_rows_split_back",
    "C14_names_distinct",
    "C14_transect_values"
   ],
   "note": "Proved for all inputs of the model; see the plan row in DESIGN.md."
  },
  {
   "property": "C15",
   "status": "proved",
   "theorems": [
    "C15_profile",
    "C15_profile_shallow_refuted",
    "C15_transect",
    "C15_transect_forced_range_refuted",
    "C15_station_height",
    "C15_station_height_refuted"
   ],
   "note": "Clauses the code does not satisfy are stated and refuted: C15_profile_shallow_refuted, C15_transect_forced_range_refuted, C15_station_height_refuted."
  },
  {
   "property": "C16",
   "status": "proved",
   "theorems": [
    "C16_find_time_stamp"
   ],
   "note": "Nearest-stamp and interval search against the abstract definition."
  },
  {
   "property": "C17",
   "status": "proved",
   "theorems": [
    "C17_search_over_files",
    "C17_file_order_irrelevant",
    "C17_overlap_refuted"
   ],
   "note": "Correct for non-overlapping files; overlapping files refuted."
  },
  {
   "property": "C18",
   "status": "proved",
   "theorems": [
    "C18_cache_transparent",
    "C18_linear_between_stamps",
    "C18_just_before_stamp",
    "C18_last_stamp_refuted",
    "C18_dense_stamps_refuted",
    "C18_no_extrapolation",
    "C18_scalars"
   ],
   "note": "Clauses the code does not satisfy are stated and refuted: C18_last_stamp_refuted, C18_dense_stamps_refuted."
  },
  {
   "property": "C19",
   "status": "proved",
   "theorems": [
    "C19_parse_round_trip",
    "C19_start_times_ordered",
    "C19_daily_search",
    "C19_requested_day",
    "C19_missing_day_refuted"
   ],
   "note": "Clauses the code does not satisfy are stated and refuted: C19_missing_day_refuted."
  },
  {
   "property": "C20",
   "status": "proved",
   "theorems": [
    "C20_lookup",
    "C20_unique_standard_name",
    "C20_precedence_refuted",
    "C20_upper_case_refuted",
    "C20_no_criterion",
    "C20_not_found"
   ],
   "note": "Clauses the code does not satisfy are stated and refuted: C20_precedence_refuted, C20_upper_case_refuted."
  },
  {
   "property": "C21",
   "status": "proved",
   "theorems": [
    "C21_outside_iff_not_in_simplex",
    "C21_inside",
    "C21_outside",
    "C21_subset_keeps_pairs",
    "C21_subset_has_nodes",
    "C21_degenerate_simplex",
    "C21_subset_only_box"
   ],
   "note": "Proved for all inputs of the model; see the plan row in DESIGN.md."
  },
  {
   "property": "C22",
   "status": "proved",
   "theorems": [
    "C22_explicit_conversion_preserves_step",
    "C22_implicit_conversion_preserves_step",
    "C22_zero_subdiagonal_raises"
   ],
   "note": "Any number of stages; entries below 1e-13 are dropped by the code, the exact form is stated for the arrays before that and, if nothing is dropped, for the returned ones."
  },
  {
   "property": "C23",
   "status": "proved",
   "theorems": [
    "C23_butcher_form_step",
    "C23_shuosher_form_step",
    "C23_step_unique",
    "C23_forcing_times",
    "C23_no_terms"
   ],
   "note": "Mass matrix solve taken as exact."
  },
  {
   "property": "C24",
   "status": "proved",
   "theorems": [
    "C24_tendency_form_step",
    "C24_tendency_form_implicit",
    "C24_tendency_form_nonlinear_refuted",
    "C24_solution_form_step",
    "C24_solution_form_tableaux",
    "C24_step_unique"
   ],
   "note": "Solver contract: finds a root if there is one; stage equations assumed solvable. Tendency form with quasi-linear terms refuted with a witness."
  },
  {
   "property": "C25",
   "status": "proved",
   "theorems": [
    "C25_consistent",
    "C25_first_order",
    "C25_second_order",
    "C25_third_order",
    "C25_dirk33_third_order_1e11",
    "C25_dirk33_not_exact",
    "C25_imex_coupling"
   ],
   "note": "DIRK33: second and third order conditions to 1e-11 (and provably not exactly)."
  },
  {
   "property": "C26",
   "status": "proved",
   "theorems": [
    "C26_imex_step",
    "C26_imex_initialized",
    "C26_forcing_times"
   ],
   "note": "Proved for all inputs of the model; see the plan row in DESIGN.md."
  },
  {
   "property": "C27",
   "status": "proved",
   "theorems": [
    "C27_explicit_invariant",
    "C27_implicit_invariant",
    "C27_solution_form_invariant",
    "C27_imex_invariant",
    "C27_theta_invariant",
    "C27_forward_euler_invariant",
    "C27_theta_steady",
    "C27_ale_invariant",
    "C27_ale_steady",
    "C27_explicit_steady",
    "C27_implicit_steady",
    "C27_history_invariant",
    "C27_tendency_form_displaced_mass_refuted",
    "C27_picard_displaced_mass_refuted"
   ],
   "note": "Refuted with displaced mass for the tendency form and pressure projection."
  },
  {
   "property": "C28",
   "status": "proved",
   "theorems": [
    "C28_convex_constraints",
    "C28_ssprk33",
    "C28_ssprk33_history",
    "C28_butcher_form_schemes",
    "C28_midpoint_refuted"
   ],
   "note": "Also the advertised CFL coefficients of ERKLSPUM2 and ERKLPUM2; refuted for ERKMidpoint."
  },
  {
   "property": "C29",
   "status": "proved",
   "theorems": [
    "C29_shuosher_chain",
    "C29_implicit_chain",
    "C29_solution_form_chain",
    "C29_theta_chain",
    "C29_butcher_chain_without_changes",
    "C29_butcher_chain_reinitialized",
    "C29_butcher_chain_refuted",
    "C29_imex_chain_without_changes",
    "C29_imex_uninitialized_refuted"
   ],
   "note": "External changes between steps: proved for Shu-Osher, DIRK, solution-form and theta; refuted for Butcher-form explicit and for uninitialised IMEX."
  },
  {
   "property": "C30",
   "status": "proved",
   "theorems": [
    "C30_crank_nicolson_lagged_values",
    "C30_forward_euler_lagged_values",
    "C30_expression_coefficient_dropped_refuted"
   ],
   "note": "Proved for Crank-Nicolson and forward Euler over all histories; refuted for expression-valued coefficients."
  },
  {
   "property": "C31",
   "status": "proved",
   "theorems": [
    "C31_accepts_exactly_the_domain",
    "C31_values_always_valid",
    "C31_nested_values_always_valid",
    "C31_rejected_assignment_changes_nothing",
    "C31_assignment_stores",
    "C31_assignment_is_local",
    "C31_unknown_names_rejected",
    "C31_update_is_a_prefix",
    "C31_update_atomic_refuted",
    "C31_shipped_classes"
   ],
   "note": "The declarations of all option classes are generated from options.py by tools/mkoptions.py; the invariants hold for every class with well formed pairings and the shipped classes are checked to be so."
  },
  {
   "property": "C32",
   "status": "proved",
   "theorems": [
    "C32_options_object_follows_choice",
    "C32_same_choice_keeps_settings",
    "C32_new_choice_resets",
    "C32_by_hand_refuted",
    "C32_update_order_refuted",
    "C32_set_timestepper_type",
    "C32_set_timestepper_type_atomic_refuted"
   ],
   "note": "Holds for histories that do not assign the slaved object by hand; the refuted clauses have witnesses."
  },
  {
   "property": "C33",
   "status": "proved",
   "theorems": [
    "C33_each_tracer_solved_once",
    "C33_registry_consistent",
    "C33_metadata_stored",
    "C33_bad_label_rejected",
    "C33_bad_coefficient_refuted",
    "C33_system_atomic_refuted",
    "C33_empty_system_refuted"
   ],
   "note": "Registration order and uniqueness for every history; three clauses refuted with witnesses."
  },
  {
   "property": "C34",
   "status": "proved",
   "theorems": [
    "C34_frozen_keeps_attributes",
    "C34_unknown_attribute_raises",
    "C34_frozen_again",
    "C34_constructor_freezes",
    "C34_exception_refuted"
   ],
   "note": "Programs are arbitrary nestings of attribute assignments, decorated methods, exceptions and handlers; the exception clause is refuted."
  },
  {
   "property": "C35",
   "status": "proved",
   "theorems": [
    "C35_datetime_round_trip",
    "C35_epoch_round_trip",
    "C35_epoch_rounding",
    "C35_epoch_defined",
    "C35_zone_independent",
    "C35_differences",
    "C35_order",
    "C35_calendar"
   ],
   "note": "Datetimes are calendar fields with a fixed offset in microseconds; pytz's zone tables are outside the model."
  },
  {
   "property": "C36",
   "status": "proved",
   "theorems": [
    "C36_bounds_contain",
    "C36_bounds_attained",
    "C36_limited_between_means",
    "C36_mean_preserved",
    "C36_admissible_unchanged",
    "C36_no_new_extrema",
    "C36_idempotent",
    "C36_idempotent_refuted",
    "C36_huge_values_refuted",
    "C36_vector_componentwise"
   ],
   "note": "The kernels act on given cell/vertex incidence lists; Firedrake's par_loop order is arbitrary where it can matter. Clauses the code does not satisfy are stated and refuted: C36_idempotent_refuted, C36_huge_values_refuted."
  },
  {
   "property": "C37",
   "status": "proved",
   "theorems": [
    "C37_depth_positive",
    "C37_depth_near_real_depth",
    "C37_depth_increasing",
    "C37_depth_increasing_in_bathymetry",
    "C37_depth_monotone_in_alpha",
    "C37_other_options",
    "C37_mass_is_depth_minus_bathymetry",
    "C37_linear_mass_refuted",
    "C37_alpha_within_bounds",
    "C37_alpha_one_bound",
    "C37_interpolated_alpha_within_bounds",
    "C37_alpha_crossed_bounds_refuted",
    "C37_zero_alpha_refuted",
    "C37_accepted_alpha",
    "C37_bad_node_refused"
   ],
   "note": "Real arithmetic; rounding is not modelled. Clauses the code does not satisfy are stated and refuted: C37_linear_mass_refuted, C37_alpha_crossed_bounds_refuted, C37_zero_alpha_refuted."
  },
  {
   "property": "C38",
   "status": "proved",
   "theorems": [
    "C38_residual_is_sum",
    "C38_all_terms_once",
    "C38_labels_partition",
    "C38_selection_additive",
    "C38_replacing_a_term",
    "C38_bad_label_rejected",
    "C38_failed_add_refuted",
    "C38_code_equations_complete",
    "C38_tracer_system_complete"
   ],
   "note": "Terms are opaque functions; only their selection, labels, sign and summation are modelled. Clauses the code does not satisfy are stated and refuted: C38_failed_add_refuted."
  },
  {
   "property": "C39",
   "status": "proved",
   "theorems": [
    "C39_steady_state",
    "C39_cmu0_alpha_is_neutral_steady_state",
    "C39_cmu0",
    "C39_cmu0_kantha_clayson_refuted",
    "C39_kappa_sigma_inverse",
    "C39_c3_minus",
    "C39_c3_minus_check_is_vacuous",
    "C39_galperin_limit",
    "C39_buoy_min_balance",
    "C39_smooth_limit",
    "C39_smooth_limit_increasing",
    "C39_smooth_limit_bad_crit_refuted",
    "C39_clip_limit",
    "C39_shear_max",
    "C39_shear_limit",
    "C39_evaluation_paths_agree",
    "C39_gotm_is_canuto",
    "C39_cheng_vs_canuto",
    "C39_cheng_agrees_when_symmetric",
    "C39_cheng_is_canuto_refuted",
    "C39_cmu0_canuto_A",
    "C39_cmu0_cheng",
    "C39_default_crit_admissible",
    "C39_positive_canuto_A",
    "C39_positive_canuto_B",
    "C39_positive_cheng",
    "C39_gotm_parameters"
   ],
   "note": "Real arithmetic. Clauses the code does not satisfy are stated and refuted: C39_cmu0_kantha_clayson_refuted, C39_smooth_limit_bad_crit_refuted, C39_cheng_is_canuto_refuted."
  },
  {
   "property": "C40",
   "status": "proved",
   "theorems": [
    "C40_frequency_relaxation",
    "C40_frequency_history",
    "C40_buoyancy_minimum_refuted",
    "C40_eddy_coefficients",
    "C40_clamps",
    "C40_shear_frequency",
    "C40_buoyancy_split",
    "C40_lower_limits",
    "C40_length_limits",
    "C40_len_min_refuted",
    "C40_psi_eps_round_trip",
    "C40_eps_psi_round_trip",
    "C40_psi_definition",
    "C40_k_epsilon",
    "C40_galperin_from_psi",
    "C40_galperin_from_eps",
    "C40_galperin_positive_n_refuted",
    "C40_postprocess_idempotent",
    "C40_limits_hold_throughout",
    "C40_initial_state",
    "C40_resumed_state",
    "C40_initial_conditions_ignored_refuted",
    "C40_initial_conditions_have_no_effect",
    "C40_tke_positive",
    "C40_tke_step_unique",
    "C40_psi_positive",
    "C40_psi_positive_n_refuted",
    "C40_pacanowski",
    "C40_pacanowski_monotone"
   ],
   "note": "Real arithmetic, column by column; the implicit solves of the turbulence equations are not part of this property. Clauses the code does not satisfy are stated and refuted: C40_buoyancy_minimum_refuted, C40_len_min_refuted, C40_galperin_positive_n_refuted, C40_initial_conditions_ignored_refuted, C40_psi_positive_n_refuted."
  },
  {
   "property": "C41",
   "status": "proved",
   "theorems": [
    "C41_rotor_samples",
    "C41_table_defined",
    "C41_table_segment",
    "C41_table_above",
    "C41_thrust_curve",
    "C41_thrust_between",
    "C41_thrust_bounded",
    "C41_last_node_refuted",
    "C41_betz",
    "C41_zero_power_coefficient_refuted",
    "C41_velocity_correction",
    "C41_friction_bounds",
    "C41_power_below_dissipation",
    "C41_rotor_weights",
    "C41_rotor_average",
    "C41_density",
    "C41_average_power"
   ],
   "note": "Tables are lists of real points; interpolation outside the table is characterised as the code does it."
  },
  {
   "property": "C42",
   "status": "proved",
   "theorems": [
    "C42_one_constraint_per_pair",
    "C42_feasible_iff_distances",
    "C42_jacobian"
   ],
   "note": "Exact real arithmetic."
  },
  {
   "property": "C43",
   "status": "proved",
   "theorems": [
    "C43_exchange_conserves_sediment",
    "C43_forms_agree",
    "C43_equilibrium",
    "C43_relaxation",
    "C43_concentration_nonnegative",
    "C43_friction_positive",
    "C43_mu_nonnegative",
    "C43_thetacr_range",
    "C43_settling_velocity_positive",
    "C43_rouse_range",
    "C43_erosion_threshold",
    "C43_velocity_factor_range",
    "C43_reference_ratio_range",
    "C43_first_integral",
    "C43_first_integral_continuous_refuted",
    "C43_bedload_threshold",
    "C43_bedload_uncorrected",
    "C43_flat_bed_no_correction",
    "C43_secondary_current",
    "C43_slide_only_steep",
    "C43_slide_diffusive",
    "C43_slide_antidiffusive_refuted",
    "C43_closed_boundaries",
    "C43_expression_boundary_refuted",
    "C43_rouse_profile",
    "C43_transport_stage",
    "C43_slope_correction",
    "C43_secondary_current_across"
   ],
   "note": "Formulas over the reals; the discretised budget is C75. Clauses the code does not satisfy are stated and refuted: C43_first_integral_continuous_refuted, C43_slide_antidiffusive_refuted, C43_expression_boundary_refuted."
  },
  {
   "property": "C44",
   "status": "proved",
   "theorems": [
    "C44_called_in_order",
    "C44_whole_history",
    "C44_return_value",
    "C44_deferred_exports",
    "C44_deferred_space_checked",
    "C44_same_name_refuted",
    "C44_stale_value_refuted",
    "C44_derivative_names",
    "C44_derivative_stage_checked",
    "C44_functional_record",
    "C44_functional_pre_stage_refuted",
    "C44_control_record",
    "C44_file_names",
    "C44_controls_exported",
    "C44_derivative_record"
   ],
   "note": "pyadjoint is an arbitrary producer of callback invocations. Clauses the code does not satisfy are stated and refuted: C44_same_name_refuted, C44_stale_value_refuted, C44_functional_pre_stage_refuted."
  },
  {
   "property": "C45",
   "status": "proved",
   "theorems": [
    "C45_isometry",
    "C45_inner_product",
    "C45_round_trip",
    "C45_matrix",
    "C45_north",
    "C45_per_node",
    "C45_nonfinite",
    "C45_positive_longitude"
   ],
   "note": "Real arithmetic; the projection is a given map, the rotation is proved an isometry from its definition."
  },
  {
   "property": "C46",
   "status": "proved",
   "theorems": [
    "C46_log_files",
    "C46_single_directory",
    "C46_second_directory",
    "C46_same_directory_idempotent",
    "C46_append_keeps_refuted",
    "C46_mode_has_no_effect",
    "C46_reinitialise_refuted",
    "C46_failed_switch_silences_refuted"
   ],
   "note": "The file system is a map from names to text; refuted clauses carry concrete directories. Clauses the code does not satisfy are stated and refuted: C46_append_keeps_refuted, C46_reinitialise_refuted, C46_failed_switch_silences_refuted."
  },
  {
   "property": "C47",
   "status": "proved",
   "theorems": [
    "C47_constants_kept",
    "C47_surface_and_bottom",
    "C47_layer_scaling",
    "C47_order",
    "C47_range",
    "C47_no_drift",
    "C47_heights_total_depth",
    "C47_mesh_velocity",
    "C47_velocity_bounds",
    "C47_stage_velocities",
    "C47_heights_of_layers"
   ],
   "note": "Mass matrices and solves are exact; the forms are those of C59."
  },
  {
   "property": "C48",
   "status": "proved",
   "theorems": [
    "C48_expand",
    "C48_extract",
    "C48_round_trip",
    "C48_extract_frame",
    "C48_single_vertical_node_refuted",
    "C48_extractor_arguments",
    "C48_integral_up",
    "C48_integral_down",
    "C48_integral_directions",
    "C48_average_of_constant",
    "C48_integral_unique",
    "C48_boundary_value_refuted",
    "C48_boundary_value_sign",
    "C48_boundary_value_sign_down"
   ],
   "note": "Kernels on tables of nodal values of any number of layers. Clauses the code does not satisfy are stated and refuted: C48_single_vertical_node_refuted, C48_boundary_value_refuted."
  },
  {
   "property": "C49",
   "status": "proved",
   "theorems": [
    "C49_volume_budget",
    "C49_volume_conserved",
    "C49_volume_conserved_continuous",
    "C49_prescribed_un_flux",
    "C49_continuous_un_is_a_wall",
    "C49_lake_at_rest_momentum",
    "C49_lake_at_rest_split_momentum",
    "C49_lake_at_rest_continuity",
    "C49_coriolis_no_work",
    "C49_quadratic_drag_dissipates",
    "C49_linear_drag_dissipates",
    "C49_boundary_drag_dissipates",
    "C49_turbine_drag_dissipates",
    "C49_advection_energy",
    "C49_lax_friedrichs_dissipates",
    "C49_wave_energy",
    "C49_viscosity_conserves_momentum",
    "C49_viscosity_symmetric",
    "C49_viscosity_dissipates",
    "C49_un_zero_is_no_wall_refuted",
    "C49_viscosity_symmetric_refuted",
    "C49_static_force",
    "C49_inverse_barometer",
    "C49_wind_setup",
    "C49_manning_formula"
   ],
   "note": "Quadrature with any rule on any mesh; the divergence theorem on the mesh is the only geometric hypothesis, met by the example meshes. Clauses the code does not satisfy are stated and refuted: C49_un_zero_is_no_wall_refuted, C49_viscosity_symmetric_refuted."
  },
  {
   "property": "C50",
   "status": "proved",
   "theorems": [
    "C50_conservative_source",
    "C50_source_budget",
    "C50_conservative_budget",
    "C50_mass_conserved",
    "C50_upwind_boundary",
    "C50_constants",
    "C50_constants_at_prescribed_velocity",
    "C50_diffusion_budget",
    "C50_diffusion_conserves",
    "C50_diffusion_constants",
    "C50_diffusion_symmetric",
    "C50_diffusion_dissipates",
    "C50_maximum_principle",
    "C50_conservative_positive",
    "C50_diffusion_maximum_principle",
    "C50_closed_mass_refuted",
    "C50_constants_refuted",
    "C50_maximum_principle_refuted",
    "C50_conservative_constant_refuted"
   ],
   "note": "As C49. Bounds need the stated CFL-type condition. Clauses the code does not satisfy are stated and refuted: C50_closed_mass_refuted, C50_constants_refuted, C50_maximum_principle_refuted, C50_conservative_constant_refuted."
  },
  {
   "property": "C51",
   "status": "proved",
   "theorems": [
    "C51_precedence",
    "C51_open_has_values",
    "C51_accepted",
    "C51_key_order",
    "C51_invalid_key_refuted",
    "C51_boundaries",
    "C51_boundary_order",
    "C51_own_conditions",
    "C51_tracer_velocity",
    "C51_same_velocity_refuted",
    "C51_flux",
    "C51_normal_velocity",
    "C51_viscosity_velocity_refuted"
   ],
   "note": "All key combinations of the boundary dictionaries, both equations. Clauses the code does not satisfy are stated and refuted: C51_invalid_key_refuted, C51_same_velocity_refuted, C51_viscosity_velocity_refuted."
  },
  {
   "property": "C52",
   "status": "proved",
   "theorems": [
    "C52_reduction_order",
    "C52_moved_to_nearest",
    "C52_selected",
    "C52_locations_and_names",
    "C52_names_do_not_matter",
    "C52_default_distance",
    "C52_idempotent",
    "C52_monotone",
    "C52_distribution",
    "C52_distribution_names",
    "C52_distribution_refuted",
    "C52_empty_process_refuted",
    "C52_short_names_refuted"
   ],
   "note": "The reduction over processes is any bracketing of an associative reduction. Clauses the code does not satisfy are stated and refuted: C52_distribution_refuted, C52_empty_process_refuted, C52_short_names_refuted."
  },
  {
   "property": "C53",
   "status": "proved",
   "theorems": [
    "C53_methods",
    "C53_drag_positive",
    "C53_parallel",
    "C53_zero",
    "C53_odd",
    "C53_rotation",
    "C53_stress_monotone",
    "C53_drag_range"
   ],
   "note": "Real arithmetic."
  },
  {
   "property": "C54",
   "status": "proved",
   "theorems": [
    "C54_misfit",
    "C54_observed_value",
    "C54_misfit_nonnegative",
    "C54_misfit_zero",
    "C54_only_active_stations",
    "C54_distribution",
    "C54_multi",
    "C54_cost_function",
    "C54_no_data_error",
    "C54_no_data_refuted",
    "C54_same_place_refuted",
    "C54_variance_weighting",
    "C54_variance_constant_refuted",
    "C54_regularisation_nonnegative",
    "C54_regularisation_flat",
    "C54_regularisation_real",
    "C54_regularisation_prior",
    "C54_penalties",
    "C54_records",
    "C54_records_consistent",
    "C54_series",
    "C54_progress_file",
    "C54_initial_row_refuted",
    "C54_series_refuted",
    "C54_series_of_variable",
    "C54_series_of_variable_refuted",
    "C54_attribution",
    "C54_add_control",
    "C54_attribution_refuted"
   ],
   "note": "The adjoint machinery is a parameter; bookkeeping over all histories. Clauses the code does not satisfy are stated and refuted: C54_no_data_refuted, C54_same_place_refuted, C54_variance_constant_refuted, C54_initial_row_refuted, C54_series_refuted, C54_series_of_variable_refuted, C54_attribution_refuted."
  },
  {
   "property": "C55",
   "status": "proved",
   "theorems": [
    "C55_created",
    "C55_step_order",
    "C55_tracer_solves",
    "C55_picard_flags",
    "C55_once",
    "C55_initialize",
    "C55_same_time",
    "C55_tracers_with_sediment_refuted",
    "C55_nonhydrostatic_alone_refuted",
    "C55_nonhydrostatic_fixed_surface_refuted",
    "C55_tracer_only_refuted",
    "C55_label_swe2d_refuted",
    "C55_label_sw_refuted",
    "C55_limiter_degree0_refuted",
    "C55_limiter_mixed_refuted",
    "C55_picard_unsupported_refuted",
    "C55_nonhydrostatic_serial",
    "C55_nonhydrostatic_stages",
    "C55_picard_crank_nicolson",
    "C55_picard_one",
    "C55_picard_starting_value"
   ],
   "note": "Operation traces for every option combination. Clauses the code does not satisfy are stated and refuted: C55_tracers_with_sediment_refuted, C55_nonhydrostatic_alone_refuted, C55_nonhydrostatic_fixed_surface_refuted, C55_tracer_only_refuted, C55_label_swe2d_refuted, C55_label_sw_refuted, C55_limiter_degree0_refuted, C55_limiter_mixed_refuted, C55_picard_unsupported_refuted."
  },
  {
   "property": "C56",
   "status": "proved",
   "theorems": [
    "C56_min_depth_index",
    "C56_column",
    "C56_surface",
    "C56_bottom",
    "C56_bottom_column",
    "C56_ordered",
    "C56_strictly_ordered",
    "C56_range",
    "C56_uniform",
    "C56_surface_zero_stretch_refuted",
    "C56_ordered_refuted",
    "C56_own_min_depth_refuted"
   ],
   "note": "Real arithmetic. Clauses the code does not satisfy are stated and refuted: C56_surface_zero_stretch_refuted, C56_ordered_refuted, C56_own_min_depth_refuted."
  },
  {
   "property": "C57",
   "status": "proved",
   "theorems": [
    "C57_linear_reference",
    "C57_linear_slopes",
    "C57_linear_unique",
    "C57_linear_monotone",
    "C57_negative_salinity",
    "C57_anomaly",
    "C57_denominator",
    "C57_density_solver",
    "C57_density_solver_spaces",
    "C57_weak_solver_temperature",
    "C57_weak_solver_salinity",
    "C57_solvers_agree",
    "C57_weak_solver_keeps_salinity_refuted",
    "C57_check_values",
    "C57_salinity_increases_density",
    "C57_pressure_increases_density",
    "C57_weak_solver_density"
   ],
   "note": "Real arithmetic; coefficients as written in the source. Clauses the code does not satisfy are stated and refuted: C57_weak_solver_keeps_salinity_refuted."
  },
  {
   "property": "C58",
   "status": "proved",
   "theorems": [
    "C58_metadata_stable",
    "C58_add_field",
    "C58_add_field_accepted",
    "C58_label_once",
    "C58_fields_have_metadata",
    "C58_builtin_fields",
    "C58_builtin_files_distinct",
    "C58_function_names",
    "C58_independent_refuted",
    "C58_tracer_2d_refuted",
    "C58_files_distinct_refuted",
    "C58_sum_function",
    "C58_refused_names",
    "C58_exported_names"
   ],
   "note": "Process-wide state included; histories of several solvers. Clauses the code does not satisfy are stated and refuted: C58_independent_refuted, C58_tracer_2d_refuted, C58_files_distinct_refuted."
  },
  {
   "property": "C59",
   "status": "proved",
   "theorems": [
    "C59_total_velocity",
    "C59_source_budget",
    "C59_advection_budget",
    "C59_diffusion_budget",
    "C59_conserved",
    "C59_constants_formula",
    "C59_constants_kept",
    "C59_constants_need_same_boundaries",
    "C59_variance_budget",
    "C59_variance_not_growing",
    "C59_local_extremum",
    "C59_diffusion_symmetric",
    "C59_vertical_diffusion_dissipates",
    "C59_vertical_diffusion_penalty",
    "C59_flux_condition_unusable",
    "C59_boundary_values",
    "C59_slope_conservation_refuted"
   ],
   "note": "As C49, in 3D. One quadrature rule for all forms (the code uses 2p+1 for tracers, 2p for the vertical velocity). Clauses the code does not satisfy are stated and refuted: C59_slope_conservation_refuted."
  },
  {
   "property": "C60",
   "status": "proved",
   "theorems": [
    "C60_advected_like_tracers",
    "C60_viscosity_like_diffusion",
    "C60_momentum_budget",
    "C60_advection_energy",
    "C60_coriolis_no_work",
    "C60_friction_dissipates",
    "C60_linear_drag_dissipates",
    "C60_energy_decay",
    "C60_rest_kept",
    "C60_uniform_flow_kept",
    "C60_wind_stress",
    "C60_boundary_keys",
    "C60_drag_positive",
    "C60_drag_always_defined_refuted",
    "C60_pressure_gradient_consistent",
    "C60_level_head_no_force",
    "C60_pressure_total",
    "C60_pressure_force",
    "C60_open_boundary_upwind",
    "C60_friction_total_velocity",
    "C60_friction_defined",
    "C60_drag_dimensionless"
   ],
   "note": "As C59. Clauses the code does not satisfy are stated and refuted: C60_drag_always_defined_refuted."
  },
  {
   "property": "C61",
   "status": "proved",
   "theorems": [
    "C61_rk_step_consistent",
    "C61_leapfrog_step_consistent",
    "C61_initial_conditions_consistent",
    "C61_initial_depth_average_refuted",
    "C61_rk_stages_ready",
    "C61_rk_assembly",
    "C61_rk_solve",
    "C61_rk_assembly_with_forcings_refuted",
    "C61_leapfrog_assembly",
    "C61_leapfrog_correct",
    "C61_rk_schedule",
    "C61_leapfrog_schedule",
    "C61_milestones",
    "C61_forcings3d_calls",
    "C61_initialised_once",
    "C61_unsolved_tracers_kept",
    "C61_run_consistent",
    "C61_set_dt",
    "C61_set_dt_fraction_refuted",
    "C61_coupling_values",
    "C61_rk_forcing_of_2d_mode",
    "C61_initial_velocity_counted_twice_refuted",
    "C61_leapfrog_forcing_of_2d_mode",
    "C61_leapfrog_full_forcing_refuted",
    "C61_equations_read",
    "C61_all_initialised",
    "C61_eddy_current",
    "C61_implicit_total_velocity",
    "C61_half_step",
    "C61_set_dt_reaches"
   ],
   "note": "All option combinations; the data-flow analysis is proved sound before it is evaluated. Clauses the code does not satisfy are stated and refuted: C61_initial_depth_average_refuted, C61_rk_assembly_with_forcings_refuted, C61_set_dt_fraction_refuted, C61_initial_velocity_counted_twice_refuted, C61_leapfrog_full_forcing_refuted."
  },
  {
   "property": "C62",
   "status": "proved",
   "theorems": [
    "C62_wind_stress",
    "C62_wind_stress_components",
    "C62_pressure",
    "C62_pressure_units_refuted",
    "C62_atm_history",
    "C62_variables",
    "C62_atm_time_name_refuted",
    "C62_duration",
    "C62_no_duration",
    "C62_duration_uneven_refuted",
    "C62_short_duration_refuted",
    "C62_roms_column",
    "C62_roms_zero_elevation_refuted",
    "C62_ncom_points",
    "C62_roms_points",
    "C62_ncom_fields",
    "C62_generic_fields",
    "C62_generic_scalars",
    "C62_tidal_elevation",
    "C62_tidal_history",
    "C62_tidal_current",
    "C62_tidal_no_current",
    "C62_tidal_no_velocity_field",
    "C62_tidal_outside_refuted",
    "C62_tidal_half_current_refuted",
    "C62_tidal_sphere_refuted",
    "C62_generic_sphere"
   ],
   "note": "Interpolation weights are parameters; index bookkeeping, masks, rotation and units are modelled. Clauses the code does not satisfy are stated and refuted: C62_pressure_units_refuted, C62_atm_time_name_refuted, C62_duration_uneven_refuted, C62_short_duration_refuted, C62_roms_zero_elevation_refuted, C62_tidal_outside_refuted, C62_tidal_half_current_refuted, C62_tidal_sphere_refuted."
  },
  {
   "property": "C63",
   "status": "proved",
   "theorems": [
    "C63_vorticity_equation",
    "C63_vorticity_exact",
    "C63_circulation",
    "C63_gradient_exact",
    "C63_hessian_exact",
    "C63_kinetic_energy",
    "C63_space_checks",
    "C63_dwr_checks",
    "C63_dwr_mesh_refuted",
    "C63_indicator_share",
    "C63_indicator_total",
    "C63_indicator_sum",
    "C63_indicator_sum_refuted"
   ],
   "note": "Diagnostic solves are characterised by the weak equation they solve. Clauses the code does not satisfy are stated and refuted: C63_dwr_mesh_refuted, C63_indicator_sum_refuted."
  },
  {
   "property": "C64",
   "status": "proved",
   "theorems": [
    "C64_equation",
    "C64_continuity",
    "C64_continuity_closed",
    "C64_unique_pressure",
    "C64_consistent_flow",
    "C64_energy",
    "C64_stage_keeps_w",
    "C64_open_boundary_pressure_refuted",
    "C64_sloping_bed_refuted",
    "C64_flow_along_bed"
   ],
   "note": "Linear solves are characterised by their equation. Clauses the code does not satisfy are stated and refuted: C64_open_boundary_pressure_refuted, C64_sloping_bed_refuted."
  },
  {
   "property": "C65",
   "status": "proved",
   "theorems": [
    "C65_diffusion_limit",
    "C65_factors",
    "C65_horizontal_degree",
    "C65_vertical_degree_refuted",
    "C65_step_3d",
    "C65_step_3d_total",
    "C65_partition_independent",
    "C65_user_step_3d",
    "C65_empty_process",
    "C65_max_diffusivity",
    "C65_speed_positive",
    "C65_step_2d_mean",
    "C65_uniform",
    "C65_step_2d_cells",
    "C65_negative_step_refuted",
    "C65_user_step_2d",
    "C65_unused_component_refuted"
   ],
   "note": "Exact arithmetic, any partition. Clauses the code does not satisfy are stated and refuted: C65_vertical_degree_refuted, C65_negative_step_refuted, C65_unused_component_refuted."
  },
  {
   "property": "C66",
   "status": "proved",
   "theorems": [
    "C66_parameters_reach_solvers",
    "C66_uform_parameters",
    "C66_snes_type",
    "C66_lu_monolithic",
    "C66_lu_monolithic_dirk_refuted",
    "C66_construct_effect",
    "C66_history",
    "C66_history_frame",
    "C66_relinearised_refuted",
    "C66_projection_parameters",
    "C66_pressure_parameters_used_refuted",
    "C66_default_projection_refuted",
    "C66_guard",
    "C66_pressure_parameters_accepted_refuted",
    "C66_leapfrog_parameters_refuted",
    "C66_prefixes_distinct",
    "C66_identifier_unique_refuted",
    "C66_tags",
    "C66_default_tags",
    "C66_guard_only",
    "C66_no_blocks",
    "C66_tendency_parameters"
   ],
   "note": "PETSc options are dictionaries; what PETSc does with them is outside. Clauses the code does not satisfy are stated and refuted: C66_lu_monolithic_dirk_refuted, C66_relinearised_refuted, C66_pressure_parameters_used_refuted, C66_default_projection_refuted, C66_pressure_parameters_accepted_refuted, C66_leapfrog_parameters_refuted, C66_identifier_unique_refuted."
  },
  {
   "property": "C67",
   "status": "proved",
   "theorems": [
    "C67_operator",
    "C67_fieldsplit_exact",
    "C67_unique",
    "C67_divergence",
    "C67_transpose_refuted",
    "C67_elementwise_inverse",
    "C67_elementwise_inverse_cg_refuted",
    "C67_other_block_refuted",
    "C67_velocity_block",
    "C67_velocity_block_mass",
    "C67_velocity_block_open_refuted"
   ],
   "note": "Any field; the PETSc application of the preconditioner is modelled as matrix operations. Clauses the code does not satisfy are stated and refuted: C67_transpose_refuted, C67_elementwise_inverse_cg_refuted, C67_other_block_refuted, C67_velocity_block_open_refuted."
  },
  {
   "property": "C68",
   "status": "proved",
   "theorems": [
    "C68_minimum_angle",
    "C68_minimum_angle_range",
    "C68_cell_width",
    "C68_width_bounds",
    "C68_alpha_covers_bathymetry",
    "C68_alpha_limits",
    "C68_alpha_interpolation",
    "C68_alpha_nodes",
    "C68_alpha_every_cell_refuted",
    "C68_smallest_singular_value",
    "C68_cell_size_nan",
    "C68_cell_size_defined_refuted",
    "C68_beta_plane_value",
    "C68_beta_plane_slope",
    "C68_beta_plane_error",
    "C68_supg_conservation",
    "C68_supg_linear",
    "C68_supg_bounds",
    "C68_supg_units_refuted",
    "C68_subdomain_integral",
    "C68_subdomain_norm",
    "C68_subdomain_outside",
    "C68_subdomain_unique",
    "C68_subdomain_positive_refuted",
    "C68_alpha_accepted",
    "C68_supg_streamline"
   ],
   "note": "Real arithmetic with NaN as a separate value. Clauses the code does not satisfy are stated and refuted: C68_alpha_every_cell_refuted, C68_cell_size_defined_refuted, C68_supg_units_refuted, C68_subdomain_positive_refuted."
  },
  {
   "property": "C69",
   "status": "proved",
   "theorems": [
    "C69_idempotent",
    "C69_user_values_kept",
    "C69_log_layer_relation",
    "C69_log_layer_relation_refuted",
    "C69_law_of_the_wall",
    "C69_wall_flux",
    "C69_wall_viscosity",
    "C69_kappa_shared",
    "C69_one_kappa_refuted",
    "C69_program_kappa",
    "C69_earlier_model_kappa_refuted",
    "C69_minimum_values",
    "C69_every_stability_function_refuted",
    "C69_rejected",
    "C69_defaults_applied",
    "C69_closure_names",
    "C69_closure_meaning",
    "C69_closure_name_refuted",
    "C69_stability_selected",
    "C69_stability_names",
    "C69_default_switches"
   ],
   "note": "scipy's minimiser is a parameter. Clauses the code does not satisfy are stated and refuted: C69_log_layer_relation_refuted, C69_one_kappa_refuted, C69_earlier_model_kappa_refuted, C69_every_stability_function_refuted, C69_closure_name_refuted."
  },
  {
   "property": "C70",
   "status": "proved",
   "theorems": [
    "C70_energy",
    "C70_dirk33_growth",
    "C70_nonlinear_energy",
    "C70_dirk33_energy_refuted",
    "C70_theta_energy",
    "C70_theta_below_half_refuted",
    "C70_ssprk22_bounds",
    "C70_leapfrog_bounded",
    "C70_declared_implicit",
    "C70_declared_explicit",
    "C70_explicit_nonlinear",
    "C70_implicit_nonlinear",
    "C70_backward_euler",
    "C70_midpoint_nonlinear_refuted",
    "C70_dirklspum2_nonlinear_refuted",
    "C70_dirklpum2_nonlinear_refuted",
    "C70_imex_bounds",
    "C70_imex_declared_refuted",
    "C70_unconditional_bounds_refuted"
   ],
   "note": "Certificates are checked by computation in the kernel. Clauses the code does not satisfy are stated and refuted: C70_dirk33_energy_refuted, C70_theta_below_half_refuted, C70_midpoint_nonlinear_refuted, C70_dirklspum2_nonlinear_refuted, C70_dirklpum2_nonlinear_refuted, C70_imex_declared_refuted, C70_unconditional_bounds_refuted."
  },
  {
   "property": "C71",
   "status": "proved",
   "theorems": [
    "C71_setup",
    "C71_3d_spaces_built_twice",
    "C71_late_configuration",
    "C71_retry_family",
    "C71_retry_time_step",
    "C71_3d_time_step_retry_refuted",
    "C71_failed_exports_refuted",
    "C71_failed_farms",
    "C71_recreated_fields_refuted"
   ],
   "note": "Every check of the set-up methods is a failure point in its place. Clauses the code does not satisfy are stated and refuted: C71_3d_time_step_retry_refuted, C71_failed_exports_refuted, C71_recreated_fields_refuted."
  },
  {
   "property": "C72",
   "status": "proved",
   "theorems": [
    "C72_label",
    "C72_tracer_bcs",
    "C72_mixed_bcs_refuted",
    "C72_sediment_model_current",
    "C72_correction_without_suspension_refuted",
    "C72_assign",
    "C72_set_up",
    "C72_unknown_tracer",
    "C72_exner_alone_refuted",
    "C72_again",
    "C72_load_state",
    "C72_conservative_sediment_refuted",
    "C72_restart_sediment_refuted"
   ],
   "note": "Projections are unspecified functions. Clauses the code does not satisfy are stated and refuted: C72_mixed_bcs_refuted, C72_correction_without_suspension_refuted, C72_exner_alone_refuted, C72_conservative_sediment_refuted, C72_restart_sediment_refuted."
  },
  {
   "property": "C73",
   "status": "proved",
   "theorems": [
    "C73_keep_log",
    "C73_keep_log_repeats_refuted",
    "C73_overwrite",
    "C73_output_only",
    "C73_warning_lost_refuted",
    "C73_second_solver_refuted",
    "C73_output_of_ranks",
    "C73_late_rank_refuted"
   ],
   "note": "POSIX append and offset writes; interleavings of ranks are arbitrary. Clauses the code does not satisfy are stated and refuted: C73_keep_log_repeats_refuted, C73_warning_lost_refuted, C73_second_solver_refuted, C73_late_rank_refuted."
  },
  {
   "property": "C74",
   "status": "proved",
   "theorems": [
    "C74_spaces_2d",
    "C74_mass_exact_2d",
    "C74_q_space",
    "C74_q_space_refuted",
    "C74_spaces_3d",
    "C74_continuity_3d",
    "C74_continuity_2d",
    "C74_continuity_refuted",
    "C74_fields_3d",
    "C74_limiter_accepts",
    "C74_create",
    "C74_degree_two_refuted",
    "C74_limiter_targets",
    "C74_first_step",
    "C74_late_limiter_refuted",
    "C74_limiter_2d",
    "C74_copies",
    "C74_coordinate_variant_refuted",
    "C74_copy_checked",
    "C74_mass_exact_3d",
    "C74_extended",
    "C74_extended_refuted",
    "C74_view_continuity_refuted"
   ],
   "note": "UFL's element table is modelled for the families the solvers accept. Clauses the code does not satisfy are stated and refuted: C74_q_space_refuted, C74_continuity_refuted, C74_degree_two_refuted, C74_late_limiter_refuted, C74_coordinate_variant_refuted, C74_extended_refuted, C74_view_continuity_refuted."
  },
  {
   "property": "C75",
   "status": "proved",
   "theorems": [
    "C75_bedload_builds",
    "C75_bedload_weak_form",
    "C75_bedload_budget",
    "C75_bedload_threshold",
    "C75_slide_continuous",
    "C75_slide_budget",
    "C75_slide_flattens",
    "C75_slide_stable_bed",
    "C75_bed_budget",
    "C75_closed_bed",
    "C75_total_sediment",
    "C75_closed_basin",
    "C75_theta_step",
    "C75_sediment_boundary",
    "C75_equilibrium_inflow",
    "C75_slide_discontinuous_refuted",
    "C75_later_flux_refuted",
    "C75_zero_drag_refuted",
    "C75_moving_bed_refuted"
   ],
   "note": "As C49; witnesses on a two-cell mesh. Clauses the code does not satisfy are stated and refuted: C75_slide_discontinuous_refuted, C75_later_flux_refuted, C75_zero_drag_refuted, C75_moving_bed_refuted."
  },
  {
   "property": "C76",
   "status": "proved",
   "theorems": [
    "C76_ncom_nodes",
    "C76_ncom_nearest",
    "C76_ncom_margin",
    "C76_ncom_outcome",
    "C76_ncom_failures",
    "C76_ncom_variable",
    "C76_unravel",
    "C76_subset",
    "C76_subset_sorted",
    "C76_rectangle",
    "C76_generic_select",
    "C76_roms_select",
    "C76_generic_mask",
    "C76_chosen_once",
    "C76_values",
    "C76_standard_name",
    "C76_standard_name_missing",
    "C76_other_variable_masked_refuted",
    "C76_unmasked_file_refuted",
    "C76_outside_target_refuted",
    "C76_all_corners_land_refuted",
    "C76_later_mask_refuted",
    "C76_mixed_grid_refuted"
   ],
   "note": "The nearest-neighbour search is any correct one, the triangulation is arbitrary. Clauses the code does not satisfy are stated and refuted: C76_other_variable_masked_refuted, C76_unmasked_file_refuted, C76_outside_target_refuted, C76_all_corners_land_refuted, C76_later_mask_refuted, C76_mixed_grid_refuted."
  },
  {
   "property": "C77",
   "status": "proved",
   "theorems": [
    "C77_horizontal_gradient",
    "C77_level_layers",
    "C77_gradient_exact",
    "C77_vertical_gradient",
    "C77_vertical_total",
    "C77_stable_stratification",
    "C77_linear_stratification",
    "C77_relaxation",
    "C77_orientation",
    "C77_rigid_motion",
    "C77_scaling",
    "C77_mesh_reynolds",
    "C77_clip",
    "C77_minimum_refuted",
    "C77_magnitude",
    "C77_uniform_flow_refuted",
    "C77_hcc_value",
    "C77_hcc_flat",
    "C77_hcc_nonneg",
    "C77_hcc_criterion",
    "C77_hcc_converse_refuted"
   ],
   "note": "Linear solves are given by the equation they solve. Clauses the code does not satisfy are stated and refuted: C77_minimum_refuted, C77_uniform_flow_refuted, C77_hcc_converse_refuted."
  },
  {
   "property": "C78",
   "status": "proved",
   "theorems": [
    "C78_files_distinct",
    "C78_round_trip",
    "C78_space_refuted",
    "C78_nothing_recorded",
    "C78_names_collide_refuted",
    "C78_several_fields_refuted",
    "C78_no_stations"
   ],
   "note": "HDF5 files are maps from names to arrays. Clauses the code does not satisfy are stated and refuted: C78_space_refuted, C78_names_collide_refuted, C78_several_fields_refuted."
  },
  {
   "property": "C79",
   "status": "proved",
   "theorems": [
    "C79_consistency_test_refuted",
    "C79_inconsistent_passes_refuted",
    "C79_tests_fail",
    "C79_tests_leave_no_trace",
    "C79_minimize_returns",
    "C79_limit_last_iterate",
    "C79_second_run_continues",
    "C79_terms_add_up",
    "C79_terms_twice_refuted",
    "C79_masked_bounds",
    "C79_masked_region",
    "C79_masked_surplus_refuted",
    "C79_progress_files",
    "C79_real_controls_refuted"
   ],
   "note": "pyadjoint's Taylor test is any list of evaluations and any rate. Clauses the code does not satisfy are stated and refuted: C79_consistency_test_refuted, C79_inconsistent_passes_refuted, C79_terms_twice_refuted, C79_masked_surplus_refuted, C79_real_controls_refuted."
  },
  {
   "property": "C80",
   "status": "proved",
   "theorems": [
    "C80_rows_budget",
    "C80_theta_budget",
    "C80_theta_volume",
    "C80_explicit_budget",
    "C80_explicit_volume",
    "C80_ssp_volume",
    "C80_tendency_form_volume",
    "C80_solution_form_volume",
    "C80_lake_stays",
    "C80_lake_stays_explicit",
    "C80_tracer_rows_budget",
    "C80_tracer_budget",
    "C80_tracer_mass",
    "C80_tracer_constant",
    "C80_tracer_explicit",
    "C80_wd_depth"
   ],
   "note": "Composition of C49, C50 with the time integrators; the nonlinear solver solves its equation exactly."
  },
  {
   "property": "C81",
   "status": "proved",
   "theorems": [
    "C81_restart_clock",
    "C81_undated_file",
    "C81_override_2d",
    "C81_override_3d_refuted",
    "C81_same_date_everywhere",
    "C81_export_clock",
    "C81_chain_loses_date_refuted",
    "C81_files_follow_options_refuted",
    "C81_callback_axis",
    "C81_early_callback_refuted"
   ],
   "note": "Includes refuted clauses with concrete chains of runs. Clauses the code does not satisfy are stated and refuted: C81_override_3d_refuted, C81_chain_loses_date_refuted, C81_files_follow_options_refuted, C81_early_callback_refuted."
  },
  {
   "property": "C82",
   "status": "proved",
   "theorems": [
    "C82_rows_budget",
    "C82_constant_amount",
    "C82_implicit_part",
    "C82_rk_budget",
    "C82_lf_budget",
    "C82_rk_conserved",
    "C82_lf_conserved",
    "C82_lf_constants",
    "C82_lf_run_constants",
    "C82_rk_run_constants",
    "C82_mesh_volume",
    "C82_volume_2d",
    "C82_mesh_inverted_refuted",
    "C82_lf_prediction"
   ],
   "note": "The velocities, mesh velocity and diffusivities seen by each phase are given (C61 says which they are); linear solves are exact and the limiter keeps cell amounts (C36)."
  },
  {
   "property": "C83",
   "status": "proved",
   "theorems": [
    "C83_swe_isolated",
    "C83_swe_one_term",
    "C83_swe_value",
    "C83_swe_drag",
    "C83_swe_advection",
    "C83_bottom_drag_3d_unused",
    "C83_swe_plain",
    "C83_tracer_entries",
    "C83_tracer_isolated",
    "C83_tracer_value",
    "C83_tracer_factor_expression_refuted",
    "C83_sediment_factor",
    "C83_sediment_factor_refuted",
    "C83_tracer_bcs",
    "C83_tracer_bcs_system_refuted",
    "C83_3d_isolated",
    "C83_3d_implicit",
    "C83_3d_explicit",
    "C83_3d_bottom_friction",
    "C83_3d_momentum",
    "C83_3d_mode2d",
    "C83_3d_tracers",
    "C83_sum",
    "C83_3d_manning_ignored_refuted",
    "C83_3d_drag_ignored_refuted",
    "C83_3d_wind_ignored_refuted",
    "C83_3d_gls",
    "C83_3d_gls_explicit_refuted",
    "C83_3d_exact"
   ],
   "note": "The bodies of the terms are arbitrary functions of the coefficients they read (their contents are C30, C49, C59); the model says which entries of the dictionaries each of them reads and where the entries come from."
  },
  {
   "property": "C84",
   "status": "proved",
   "theorems": [
    "C84_losses",
    "C84_step_exists",
    "C84_theta_budget",
    "C84_never_gains",
    "C84_lossless",
    "C84_step_unique",
    "C84_dirk_never_gains",
    "C84_theta_bound_sharp"
   ],
   "note": "Assembled linear shallow water equations (Galerkin model of C80) with the theta scheme and the DIRK schemes. Abstracts from floating point and inexact solvers (the linear systems are solved exactly), the quadrature is assumed to satisfy the divergence theorem for the functions of the space (gauss_space) and to separate them (independent); with a discontinuous elevation these are exact-quadrature statements. Coefficients are constant in time. Drag that depends on the velocity is covered with the semi-implicit linearisation (the default of thetis); DIRK33 is excluded (C70 shows that it can amplify)."
  },
  {
   "property": "C85",
   "status": "proved",
   "theorems": [
    "C85_losses",
    "C85_step_exists",
    "C85_theta_budget",
    "C85_never_apart",
    "C85_variance_budget",
    "C85_never_grows",
    "C85_lossless",
    "C85_step_unique",
    "C85_dirk_never_apart",
    "C85_unfed_inflow_refuted",
    "C85_converging_refuted"
   ],
   "note": "L2 stability of the assembled 2D tracer equation over whole runs. The exact budget of one step (C85_theta_budget, C85_variance_budget), solvability and uniqueness of each step and the runs are proved for the theta scheme and for the implicit Runge-Kutta schemes except DIRK33 (not algebraically stable, C70). Refuted without the conditions: at an inflow boundary without a tracer value (C85_unfed_inflow_refuted) and in converging or diverging water (C85_converging_refuted) the variance grows in one step for every offset and time step. The divergence theorem for half the squared tracer times the velocity is a hypothesis on mesh and quadrature (it holds for polynomials integrated exactly; shown for the meshes of the examples)."
  },
  {
   "property": "C86",
   "status": "proved",
   "theorems": [
    "C86_loads_exactly_good_files",
    "C86_settings_are_those_of_the_file",
    "C86_other_settings_are_defaults",
    "C86_settings_are_allowed",
    "C86_turbine_of_the_farm",
    "C86_tabulated_turbine",
    "C86_constant_turbine",
    "C86_nothing_else_is_read",
    "C86_support_can_be_left_out",
    "C86_format_follows_the_name",
    "C86_power_may_be_left_out_refuted",
    "C86_tables_are_checked_refuted",
    "C86_upwind_is_kept_refuted"
   ],
   "note": "load_turbine on parsed content, the option classes through Options_Table, and the construction of the turbine of a farm. The parsers are parameters. Refuted: power_coefficient may not be left out of a constant-thrust file although the option is optional (C86_power_may_be_left_out_refuted); the tables are not looked into (C86_tables_are_checked_refuted); a farm that is not discrete drops the upwind correction the file asks for (C86_upwind_is_kept_refuted)."
  },
  {
   "property": "C87",
   "status": "proved",
   "theorems": [
    "C87_tracer_solvable",
    "C87_tracer_budget",
    "C87_tracer_variance",
    "C87_tracer_contraction",
    "C87_column_mixes",
    "C87_column_tracer",
    "C87_column_momentum",
    "C87_no_penalty_needed_refuted",
    "C87_momentum_solvable",
    "C87_momentum_budget",
    "C87_momentum_decay",
    "C87_momentum_total"
   ],
   "note": "Proved for every mesh and space under the condition that mixing takes variance from every function of the space; that condition is proved for columns of layers with linear functions and layer-wise constant viscosity (C87_column_mixes), and C87_no_penalty_needed_refuted shows it can fail without a penalty. The existence of solvers is shown in C87_momentum_example."
  },
  {
   "property": "C88",
   "status": "proved",
   "theorems": [
    "C88_step_exists",
    "C88_step_unique",
    "C88_never_leaves_range",
    "C88_never_below",
    "C88_fully_implicit_range",
    "C88_conservative_never_negative",
    "C88_ssprk33_range",
    "C88_explicit_range",
    "C88_conservative_ssprk33",
    "C88_backward_euler_range",
    "C88_backward_euler_positive",
    "C88_default_offset_refuted",
    "C88_unfed_inflow_refuted"
   ],
   "note": "Piecewise constants (element degree 0) on any mesh of any number of cells, both forms of the equation with diffusion, assembled row by row; the velocity needs a continuous normal component, not to be free of divergence. Not for higher degrees: there only the limiter bounds the tracer. Two _refuted theorems: the default offset 1/2 of CrankNicolson undershoots with long steps, and in the conservative form an inflow boundary without a value makes implicit steps negative."
  },
  {
   "property": "C89",
   "status": "proved",
   "theorems": [
    "C89_momentum",
    "C89_split_momentum",
    "C89_continuity",
    "C89_tracer",
    "C89_tracer_speed",
    "C89_diagnostics",
    "C89_swe_assembled",
    "C89_tracer_assembled",
    "C89_swe_run",
    "C89_tracer_run",
    "C89_any_integrator",
    "C89_order",
    "C89_partition",
    "C89_still_facet_refuted",
    "C89_tracer_3d",
    "C89_momentum_3d",
    "C89_vertical_velocity",
    "C89_internal_pressure",
    "C89_tracer_3d_assembled",
    "C89_tracer_3d_run"
   ],
   "note": "All terms of the 2D shallow water and tracer equations, assembled vectors and whole theta-scheme runs; any other integrator as a function of the assembled residual and mass. The penalty factors and quadrature weights are data that move with the mesh. Tracers need: the mean velocity crosses each swapped facet, or no water crosses it, or sign(0) = 0 (C89_still_facet_refuted shows why). In 3D: tracer, momentum, vertical velocity and internal pressure gradient for rotations and reflections of the horizontal axes, with no exception, because the code upwinds with the mean velocity on both sides; runs with SSPRK22ALE and LeapFrogAM3."
  },
  {
   "property": "C90",
   "status": "proved",
   "theorems": [
    "C90_explicit_run",
    "C90_ssprk_run",
    "C90_implicit_run",
    "C90_assembled",
    "C90_tendencies",
    "C90_theta_run",
    "C90_calm_run",
    "C90_waves_assembled",
    "C90_waves_run",
    "C90_waves_tendencies",
    "C90_tracer3d_assembled",
    "C90_rk3d_run",
    "C90_lf3d_run",
    "C90_nonlinear_refuted",
    "C90_limiter_refuted"
   ],
   "note": "Tracer equations in 2D (both forms) and the linear shallow water equations with open boundaries, wind, pressure and sources; theta scheme, explicit, strong stability preserving and diagonally implicit schemes. One solution per step is assumed for the theta scheme in general and proved where the water neither converges nor diverges (C90_calm_run). Wetting and drying and the nonlinear equations are excluded; C90_nonlinear_refuted and C90_limiter_refuted show why. In 3D (C90_rk3d_run, C90_lf3d_run) the mass matrix is assumed regular and the implicit diffusion problem to have at most one solution."
  },
  {
   "property": "C91",
   "status": "proved",
   "theorems": [
    "C91_watching_2d",
    "C91_watching_3d",
    "C91_longer_run_2d",
    "C91_longer_run_3d",
    "C91_iterate_again_2d",
    "C91_iterate_again_3d",
    "C91_parts_write_the_same_3d",
    "C91_clock_start_2d",
    "C91_clock_start_3d",
    "C91_exports_leave_the_fields_3d",
    "C91_export_rounding_3d_refuted",
    "C91_failed_export_3d_refuted",
    "C91_export_interval_3d_refuted",
    "C91_written_twice_refuted"
   ],
   "note": "Relational statements about pairs of runs of TimeLoop_Model, and about the 3D loop with the export's effect on uv_3d (Watch_Model). Callbacks and exporters only read the fields. C91_export_rounding_3d_refuted (IEEE double precision), C91_failed_export_3d_refuted, C91_export_interval_3d_refuted and C91_written_twice_refuted give the exceptions."
  },
  {
   "property": "C92",
   "status": "proved",
   "theorems": [
    "C92_renamed_swe",
    "C92_renamed_tracer",
    "C92_moved_swe",
    "C92_swe_run",
    "C92_explicit_run",
    "C92_tracer_run"
   ],
   "note": "Moving a function with a symmetry commutes with every term of the 2D shallow water and tracer equations; with a step's system having one solution, that solution is symmetric. Renaming points and markers (between any two index types) leaves every term unchanged. The basis functions are permuted, those of the velocity up to sign. Tracers need the condition on still facets of C89. Solvers are exact; rounding is not modelled."
  },
  {
   "property": "C93",
   "status": "proved",
   "theorems": [
    "C93_swe",
    "C93_tracer",
    "C93_tracer_run",
    "C93_depth",
    "C93_linear_refuted",
    "C93_assembled",
    "C93_swe_run",
    "C93_explicit_run"
   ],
   "note": "Term by term, changing the reference level keeps the value of every 2D shallow water and tracer form; runs follow with any number of steps. For the linear equations the depth ignores the elevation and the statement is refuted. Time-dependent boundary elevations are covered because the environment of each step is arbitrary; 3D is not covered."
  },
  {
   "property": "C94",
   "status": "proved",
   "theorems": [
    "C94_refused",
    "C94_uniform",
    "C94_some_small_refuted",
    "C94_parallel_refuted"
   ],
   "note": "The check of the constructor is characterised for every node list and partition. The stronger claim, that a built model has no too small grains anywhere, is refuted, as is independence of the partition for grain sizes that vary in space."
  },
  {
   "property": "C95",
   "status": "proved",
   "theorems": [
    "C95_swe",
    "C95_tracer",
    "C95_assembled",
    "C95_swe_run",
    "C95_explicit_run"
   ],
   "note": "2D shallow water and tracer terms, assembled systems, and runs of the shallow water equations with the theta scheme and explicit Runge-Kutta schemes. Global data are the same in both runs. The whole domain is assumed to have a solution in each step and the basin at most one. Basins are separated if no basis function and no facet belongs to both; iterative solvers with a global tolerance, and tracer runs, are not covered."
  }
 ]
}