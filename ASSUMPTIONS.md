# Output of Print Assumptions for every property theorem

Generated by tools/mkassumptions.py. All axioms are those of the Coq standard
library (Coq.Logic and Coq.Reals).

## Closed under the global context (no axioms)

401 theorems:

* C01_clock_exact_and_run_terminates (P_TimeLoop)
* C02_at_most_one_export_per_step (P_TimeLoop)
* C02_exports_coarse_step (P_TimeLoop)
* C02_exports_exact_when_dt_divides (P_TimeLoop)
* C02_exports_regular (P_TimeLoop)
* C02_exports_regular_3d (P_TimeLoop)
* C03_time_step_fits_export_interval (P_TimeLoop)
* C04_legacy_time_inferred (P_TimeLoop)
* C04_missing_time_attribute_refuted (P_TimeLoop)
* C04_restart_2d_schedule_shift_refuted (P_TimeLoop)
* C04_restart_2d_tracer_lost_refuted (P_TimeLoop)
* C04_restart_3d_time_override_delays_exports (P_TimeLoop)
* C04_restart_reproduces_the_run (P_TimeLoop)
* C04_restart_reproduces_the_run_3d (P_TimeLoop)
* C04_time_of_disagreeing_files (P_TimeLoop)
* C05_end_date_on_resume_refuted (P_TimeLoop)
* C05_end_date_right_iff_started_at_zero (P_TimeLoop)
* C05_end_time_used_unchanged (P_TimeLoop)
* C06_consecutive_exports_all_kept (P_Exporter)
* C06_failed_export_keeps_old_file_refuted (P_Exporter)
* C06_file_names_distinct (P_Exporter)
* C06_history_is_an_indexed_store (P_Exporter)
* C07_default_managers_isolated_refuted (P_Exporter)
* C07_export_3d_restores_velocity (P_Exporter)
* C07_export_3d_restores_velocity_on_failure_refuted (P_Exporter)
* C07_late_field_lockstep_refuted (P_Exporter)
* C07_manager_history (P_Exporter)
* C07_managers_isolated (P_Exporter)
* C07_no_preprocessor (P_Tightened)
* C07_once_per_export_refuted (P_Exporter)
* C07_preprocessor_registered (P_Tightened)
* C07_registration_order (P_Exporter)
* C07_vtk_file_numbers (P_Exporter)
* C07_vtk_initial_index_refuted (P_Exporter)
* C08_plain_names_get_suffix (P_Exporter)
* C08_suffix_characterised (P_Exporter)
* C08_suffix_rule_refuted (P_Exporter)
* C09_evaluate_last_added_in_order (P_Callback)
* C10_always_rectangular (P_Callback)
* C10_contents (P_Callback)
* C10_creation_succeeds_iff_names_distinct (P_Callback)
* C10_failed_append_unchanged_refuted (P_Callback)
* C10_single_export (P_Callback)
* C10_station_variable_names_refuted (P_Callback)
* C11_append_without_file_refuted (P_Callback)
* C11_indexed_record (P_Callback)
* C11_late_start_indexed_refuted (P_Callback)
* C11_record_of_appending_callback (P_Callback)
* C11_restart_2d_loses_record_refuted (P_Callback)
* C11_resumed_callback_keeps_record (P_Callback)
* C11_window (P_Callback)
* C11_write_mode (P_Callback)
* C11_zero_bound_refuted (P_Callback)
* C12_global_extrema (P_Callback)
* C12_overshoots (P_Callback)
* C12_relative_change (P_Callback)
* C12_zero_initial_value_refuted (P_Callback)
* C13_accumulator_reporting_refuted (P_Callback)
* C13_exact_for_linear (P_Callback)
* C13_export_mode_refuted (P_Callback)
* C13_trapezium (P_Callback)
* C14_names_distinct (P_Callback)
* C14_rows_split_back (P_Callback)
* C14_transect_values (P_Callback)
* C15_profile (P_Callback)
* C15_profile_shallow_refuted (P_Callback)
* C15_station_height (P_Callback)
* C15_station_height_refuted (P_Callback)
* C15_transect (P_Callback)
* C15_transect_forced_range_refuted (P_Callback)
* C16_find_time_stamp (P_Interp)
* C17_file_order_irrelevant (P_Interp)
* C17_overlap_refuted (P_Interp)
* C17_search_over_files (P_Interp)
* C18_cache_transparent (P_Interp)
* C18_dense_stamps_refuted (P_Interp)
* C18_just_before_stamp (P_Interp)
* C18_last_stamp_refuted (P_Interp)
* C18_linear_between_stamps (P_Interp)
* C18_no_extrapolation (P_Tightened)
* C18_scalars (P_Tightened)
* C19_daily_search (P_Interp)
* C19_missing_day_refuted (P_Interp)
* C19_parse_round_trip (P_Interp)
* C19_requested_day (P_Interp)
* C19_start_times_ordered (P_Interp)
* C20_lookup (P_Interp)
* C20_no_criterion (P_Tightened)
* C20_not_found (P_Tightened)
* C20_precedence_refuted (P_Interp)
* C20_unique_standard_name (P_Interp)
* C20_upper_case_refuted (P_Interp)
* C21_degenerate_simplex (P_Tightened)
* C21_inside (P_Interp)
* C21_outside (P_Interp)
* C21_outside_iff_not_in_simplex (P_Interp)
* C21_subset_has_nodes (P_Interp)
* C21_subset_keeps_pairs (P_Interp)
* C21_subset_only_box (P_Tightened)
* C26_imex_initialized (P_RungeKutta)
* C27_history_invariant (P_TimeInt)
* C31_accepts_exactly_the_domain (P_Options)
* C31_assignment_is_local (P_Options)
* C31_assignment_stores (P_Options)
* C31_nested_values_always_valid (P_Options)
* C31_rejected_assignment_changes_nothing (P_Options)
* C31_shipped_classes (P_Options)
* C31_unknown_names_rejected (P_Options)
* C31_update_atomic_refuted (P_Options)
* C31_update_is_a_prefix (P_Options)
* C31_values_always_valid (P_Options)
* C32_by_hand_refuted (P_Options)
* C32_new_choice_resets (P_Options)
* C32_options_object_follows_choice (P_Options)
* C32_same_choice_keeps_settings (P_Options)
* C32_set_timestepper_type (P_Options)
* C32_set_timestepper_type_atomic_refuted (P_Options)
* C32_update_order_refuted (P_Options)
* C33_bad_coefficient_refuted (P_Options)
* C33_bad_label_rejected (P_Options)
* C33_each_tracer_solved_once (P_Options)
* C33_empty_system_refuted (P_Options)
* C33_metadata_stored (P_Options)
* C33_registry_consistent (P_Options)
* C33_system_atomic_refuted (P_Options)
* C34_constructor_freezes (P_Options)
* C34_exception_refuted (P_Options)
* C34_frozen_again (P_Options)
* C34_frozen_keeps_attributes (P_Options)
* C34_unknown_attribute_raises (P_Options)
* C35_calendar (P_Timezone)
* C35_datetime_round_trip (P_Timezone)
* C35_differences (P_Timezone)
* C35_epoch_defined (P_Timezone)
* C35_epoch_round_trip (P_Timezone)
* C35_epoch_rounding (P_Timezone)
* C35_order (P_Timezone)
* C35_zone_independent (P_Timezone)
* C36_admissible_unchanged (P_Limiter)
* C36_bounds_attained (P_Limiter)
* C36_bounds_contain (P_Limiter)
* C36_huge_values_refuted (P_Limiter)
* C36_idempotent (P_Limiter)
* C36_idempotent_refuted (P_Limiter)
* C36_limited_between_means (P_Limiter)
* C36_mean_preserved (P_Limiter)
* C36_no_new_extrema (P_Limiter)
* C36_vector_componentwise (P_Limiter)
* C38_bad_label_rejected (P_Equation)
* C43_expression_boundary_refuted (P_Sediment)
* C44_called_in_order (P_Optim)
* C44_control_record (P_Optim)
* C44_controls_exported (P_Tightened4)
* C44_deferred_exports (P_Optim)
* C44_deferred_space_checked (P_Optim)
* C44_derivative_names (P_Optim)
* C44_derivative_record (P_Tightened4)
* C44_derivative_stage_checked (P_Optim)
* C44_file_names (P_Tightened4)
* C44_functional_pre_stage_refuted (P_Optim)
* C44_functional_record (P_Optim)
* C44_return_value (P_Optim)
* C44_same_name_refuted (P_Optim)
* C44_stale_value_refuted (P_Optim)
* C44_whole_history (P_Optim)
* C45_nonfinite (P_Coords)
* C46_append_keeps_refuted (P_Log)
* C46_failed_switch_silences_refuted (P_Log)
* C46_log_files (P_Log)
* C46_mode_has_no_effect (P_Log)
* C46_reinitialise_refuted (P_Log)
* C46_same_directory_idempotent (P_Log)
* C46_second_directory (P_Log)
* C46_single_directory (P_Log)
* C48_expand (P_Column)
* C48_extractor_arguments (P_Column)
* C51_accepted (P_Bnd)
* C51_boundaries (P_Bnd)
* C51_boundary_order (P_Bnd)
* C51_key_order (P_Bnd)
* C51_open_has_values (P_Bnd)
* C51_own_conditions (P_Bnd)
* C51_precedence (P_Bnd)
* C54_add_control (P_Inversion_Records)
* C54_attribution (P_Inversion_Records)
* C54_attribution_refuted (P_Inversion_Records)
* C54_records_consistent (P_Inversion_Records)
* C54_series_of_variable (P_Inversion_Records)
* C54_series_of_variable_refuted (P_Inversion_Records)
* C55_created (P_Coupled2d)
* C55_initialize (P_Coupled2d)
* C55_label_sw_refuted (P_Coupled2d_Examples)
* C55_label_swe2d_refuted (P_Coupled2d_Examples)
* C55_limiter_degree0_refuted (P_Coupled2d_Examples)
* C55_limiter_mixed_refuted (P_Coupled2d_Examples)
* C55_nonhydrostatic_alone_refuted (P_Coupled2d)
* C55_nonhydrostatic_fixed_surface_refuted (P_Coupled2d)
* C55_nonhydrostatic_serial (P_Coupled2d_Examples)
* C55_nonhydrostatic_stages (P_Coupled2d_Examples)
* C55_once (P_Coupled2d)
* C55_picard_flags (P_Coupled2d)
* C55_picard_unsupported_refuted (P_Coupled2d_Examples)
* C55_same_time (P_Coupled2d)
* C55_step_order (P_Coupled2d)
* C55_tracer_only_refuted (P_Coupled2d_Examples)
* C55_tracer_solves (P_Coupled2d)
* C55_tracers_with_sediment_refuted (P_Coupled2d)
* C56_min_depth_index (P_Extrude)
* C56_own_min_depth_refuted (P_Extrude)
* C57_weak_solver_temperature (P_Eos)
* C58_add_field (P_Registry)
* C58_add_field_accepted (P_Registry)
* C58_builtin_fields (P_Registry)
* C58_builtin_files_distinct (P_Registry)
* C58_exported_names (P_Tightened7)
* C58_fields_have_metadata (P_Registry)
* C58_files_distinct_refuted (P_Registry)
* C58_function_names (P_Registry)
* C58_independent_refuted (P_Registry)
* C58_label_once (P_Registry)
* C58_metadata_stable (P_Registry)
* C58_refused_names (P_Tightened7)
* C58_sum_function (P_Registry)
* C58_tracer_2d_refuted (P_Registry)
* C59_flux_condition_unusable (P_Tracer3d_Bounds)
* C60_boundary_keys (P_Mom3d)
* C61_all_initialised (P_Tightened8)
* C61_eddy_current (P_Tightened8)
* C61_equations_read (P_Tightened8)
* C61_forcings3d_calls (P_Coupled3d)
* C61_initialised_once (P_Coupled3d)
* C61_leapfrog_schedule (P_Coupled3d)
* C61_milestones (P_Coupled3d)
* C61_rk_schedule (P_Coupled3d)
* C61_set_dt (P_Coupled3d)
* C61_set_dt_fraction_refuted (P_Coupled3d)
* C61_set_dt_reaches (P_Tightened8)
* C62_atm_time_name_refuted (P_Forcing)
* C62_ncom_points (P_Forcing2)
* C62_roms_points (P_Forcing2)
* C62_variables (P_Forcing)
* C63_dwr_checks (P_Diag)
* C63_dwr_mesh_refuted (P_Diag)
* C63_space_checks (P_Diag)
* C66_construct_effect (P_SolverParams)
* C66_default_projection_refuted (P_SolverParams)
* C66_default_tags (P_Tightened10)
* C66_guard (P_SolverParams)
* C66_guard_only (P_Tightened10)
* C66_history (P_SolverParams)
* C66_history_frame (P_SolverParams)
* C66_identifier_unique_refuted (P_SolverParams)
* C66_leapfrog_parameters_refuted (P_SolverParams)
* C66_lu_monolithic (P_SolverParams)
* C66_lu_monolithic_dirk_refuted (P_SolverParams)
* C66_no_blocks (P_Tightened10)
* C66_parameters_reach_solvers (P_SolverParams)
* C66_prefixes_distinct (P_SolverParams)
* C66_pressure_parameters_accepted_refuted (P_SolverParams)
* C66_pressure_parameters_used_refuted (P_SolverParams)
* C66_projection_parameters (P_SolverParams)
* C66_relinearised_refuted (P_SolverParams)
* C66_snes_type (P_SolverParams)
* C66_tags (P_SolverParams)
* C66_tendency_parameters (P_Tightened10)
* C66_uform_parameters (P_SolverParams)
* C67_divergence (P_Schur)
* C67_elementwise_inverse (P_Schur)
* C67_elementwise_inverse_cg_refuted (P_Schur)
* C67_fieldsplit_exact (P_Schur)
* C67_operator (P_Schur)
* C67_other_block_refuted (P_Schur)
* C67_transpose_refuted (P_Schur)
* C67_unique (P_Schur)
* C71_3d_spaces_built_twice (P_Setup)
* C71_3d_time_step_retry_refuted (P_Setup2)
* C71_failed_exports_refuted (P_Setup2)
* C71_failed_farms (P_Setup2)
* C71_late_configuration (P_Setup)
* C71_recreated_fields_refuted (P_Setup2)
* C71_retry_family (P_Setup2)
* C71_retry_time_step (P_Setup2)
* C71_setup (P_Setup)
* C72_again (P_InitCond)
* C72_assign (P_InitCond)
* C72_conservative_sediment_refuted (P_InitCond)
* C72_correction_without_suspension_refuted (P_InitCond)
* C72_exner_alone_refuted (P_InitCond)
* C72_label (P_InitCond)
* C72_load_state (P_InitCond)
* C72_mixed_bcs_refuted (P_InitCond)
* C72_restart_sediment_refuted (P_InitCond)
* C72_sediment_model_current (P_InitCond)
* C72_set_up (P_InitCond)
* C72_tracer_bcs (P_InitCond)
* C72_unknown_tracer (P_InitCond)
* C73_keep_log (P_LogFile)
* C73_keep_log_repeats_refuted (P_LogFile)
* C73_late_rank_refuted (P_LogFile)
* C73_output_of_ranks (P_LogFile)
* C73_output_only (P_LogFile)
* C73_overwrite (P_LogFile)
* C73_second_solver_refuted (P_LogFile)
* C73_warning_lost_refuted (P_LogFile)
* C74_continuity_2d (P_Spaces)
* C74_continuity_3d (P_Spaces)
* C74_continuity_refuted (P_Spaces)
* C74_coordinate_variant_refuted (P_Spaces2)
* C74_copies (P_Spaces2)
* C74_copy_checked (P_Spaces2)
* C74_create (P_Spaces2)
* C74_degree_two_refuted (P_Spaces2)
* C74_extended (P_Spaces2)
* C74_extended_refuted (P_Spaces2)
* C74_fields_3d (P_Spaces)
* C74_first_step (P_Spaces2)
* C74_late_limiter_refuted (P_Spaces2)
* C74_limiter_2d (P_Spaces2)
* C74_limiter_accepts (P_Spaces2)
* C74_limiter_targets (P_Spaces2)
* C74_mass_exact_2d (P_Spaces)
* C74_mass_exact_3d (P_Spaces2)
* C74_q_space (P_Spaces)
* C74_q_space_refuted (P_Spaces)
* C74_spaces_2d (P_Spaces)
* C74_spaces_3d (P_Spaces)
* C74_view_continuity_refuted (P_Spaces2)
* C76_all_corners_land_refuted (P_SourcePoints)
* C76_chosen_once (P_SourcePoints)
* C76_generic_mask (P_SourcePoints)
* C76_generic_select (P_SourcePoints)
* C76_later_mask_refuted (P_SourcePoints)
* C76_mixed_grid_refuted (P_SourcePoints)
* C76_ncom_failures (P_SourcePoints)
* C76_ncom_margin (P_SourcePoints)
* C76_ncom_nearest (P_SourcePoints)
* C76_ncom_nodes (P_SourcePoints)
* C76_ncom_outcome (P_SourcePoints)
* C76_ncom_variable (P_SourcePoints)
* C76_other_variable_masked_refuted (P_SourcePoints)
* C76_outside_target_refuted (P_SourcePoints)
* C76_rectangle (P_SourcePoints)
* C76_roms_select (P_SourcePoints)
* C76_standard_name (P_SourcePoints)
* C76_standard_name_missing (P_SourcePoints)
* C76_subset (P_SourcePoints)
* C76_subset_sorted (P_SourcePoints)
* C76_unmasked_file_refuted (P_SourcePoints)
* C76_unravel (P_SourcePoints)
* C76_values (P_SourcePoints)
* C78_files_distinct (P_StationFile)
* C78_names_collide_refuted (P_StationFile)
* C78_no_stations (P_StationFile)
* C78_nothing_recorded (P_StationFile)
* C78_round_trip (P_StationFile)
* C78_several_fields_refuted (P_StationFile)
* C78_space_refuted (P_StationFile)
* C79_limit_last_iterate (P_InvTests)
* C79_progress_files (P_InvTests)
* C79_real_controls_refuted (P_InvTests)
* C81_callback_axis (P_Dates)
* C81_chain_loses_date_refuted (P_Dates)
* C81_early_callback_refuted (P_Dates)
* C81_export_clock (P_Dates)
* C81_files_follow_options_refuted (P_Dates)
* C81_override_2d (P_Dates)
* C81_override_3d_refuted (P_Dates)
* C81_restart_clock (P_Dates)
* C81_same_date_everywhere (P_Dates)
* C81_undated_file (P_Dates)
* C83_sum (P_Wiring)
* C83_tracer_bcs (P_Wiring)
* C83_tracer_bcs_system_refuted (P_Wiring)
* C83_tracer_entries (P_Wiring)
* C86_constant_turbine (P_TurbineFile)
* C86_format_follows_the_name (P_TurbineFile)
* C86_loads_exactly_good_files (P_TurbineFile)
* C86_nothing_else_is_read (P_TurbineFile)
* C86_other_settings_are_defaults (P_TurbineFile)
* C86_power_may_be_left_out_refuted (P_TurbineFile)
* C86_settings_are_allowed (P_TurbineFile)
* C86_settings_are_those_of_the_file (P_TurbineFile)
* C86_support_can_be_left_out (P_TurbineFile)
* C86_tables_are_checked_refuted (P_TurbineFile)
* C86_tabulated_turbine (P_TurbineFile)
* C86_turbine_of_the_farm (P_TurbineFile)
* C86_upwind_is_kept_refuted (P_TurbineFile)
* C90_limiter_refuted (P_Super_Examples)
* C91_clock_start_2d (P_Watch)
* C91_clock_start_3d (P_Watch)
* C91_export_interval_3d_refuted (P_Watch)
* C91_export_rounding_3d_refuted (P_Watch)
* C91_failed_export_3d_refuted (P_Watch)
* C91_iterate_again_2d (P_Watch)
* C91_iterate_again_3d (P_Watch)
* C91_longer_run_2d (P_Watch)
* C91_longer_run_3d (P_Watch)
* C91_parts_write_the_same_3d (P_Watch)
* C91_watching_2d (P_Watch)
* C91_watching_3d (P_Watch)
* C91_written_twice_refuted (P_Watch)

## `ClassicalDedekindReals.sig_forall_dec`

46 theorems:

* C23_no_terms (P_RungeKutta)
* C38_failed_add_refuted (P_Equation)
* C42_one_constraint_per_pair (P_Turbines)
* C51_invalid_key_refuted (P_Bnd)
* C51_same_velocity_refuted (P_Bnd)
* C51_tracer_velocity (P_Bnd)
* C54_initial_row_refuted (P_Inversion_Records)
* C54_penalties (P_Inversion)
* C54_progress_file (P_Inversion_Records)
* C54_records (P_Inversion_Records)
* C54_series (P_Inversion_Records)
* C54_series_refuted (P_Inversion_Records)
* C55_picard_crank_nicolson (P_Coupled2d_Picard)
* C55_picard_one (P_Coupled2d_Picard)
* C55_picard_starting_value (P_Coupled2d_Picard)
* C59_boundary_values (P_Tracer3d_Bounds)
* C62_generic_scalars (P_Forcing2)
* C62_generic_sphere (P_Tightened5)
* C62_tidal_elevation (P_Forcing2)
* C62_tidal_history (P_Forcing2)
* C62_tidal_no_velocity_field (P_Forcing2)
* C62_tidal_sphere_refuted (P_Forcing2)
* C79_minimize_returns (P_InvTests)
* C79_second_run_continues (P_InvTests)
* C83_3d_bottom_friction (P_Wiring)
* C83_3d_drag_ignored_refuted (P_Wiring)
* C83_3d_explicit (P_Wiring)
* C83_3d_gls (P_Wiring)
* C83_3d_gls_explicit_refuted (P_Wiring)
* C83_3d_implicit (P_Wiring)
* C83_3d_isolated (P_Wiring)
* C83_3d_manning_ignored_refuted (P_Wiring)
* C83_3d_mode2d (P_Wiring)
* C83_3d_momentum (P_Wiring)
* C83_3d_tracers (P_Wiring)
* C83_3d_wind_ignored_refuted (P_Wiring)
* C83_bottom_drag_3d_unused (P_Wiring)
* C83_sediment_factor (P_Wiring)
* C83_sediment_factor_refuted (P_Wiring)
* C83_swe_advection (P_Wiring)
* C83_swe_drag (P_Wiring)
* C83_swe_isolated (P_Wiring)
* C83_swe_value (P_Wiring)
* C83_tracer_factor_expression_refuted (P_Wiring)
* C83_tracer_isolated (P_Wiring)
* C83_tracer_value (P_Wiring)

## `FunctionalExtensionality.functional_extensionality_dep`

1 theorems:

* C91_exports_leave_the_fields_3d (P_Watch)

## `ClassicalDedekindReals.sig_forall_dec`, `FunctionalExtensionality.functional_extensionality_dep`

384 theorems:

* C22_explicit_conversion_preserves_step (P_RungeKutta)
* C22_implicit_conversion_preserves_step (P_RungeKutta)
* C22_zero_subdiagonal_raises (P_RungeKutta)
* C23_butcher_form_step (P_RungeKutta)
* C23_forcing_times (P_RungeKutta)
* C23_shuosher_form_step (P_RungeKutta)
* C23_step_unique (P_RungeKutta)
* C24_solution_form_step (P_RungeKutta)
* C24_step_unique (P_RungeKutta)
* C24_tendency_form_implicit (P_RungeKutta)
* C24_tendency_form_nonlinear_refuted (P_RungeKutta)
* C24_tendency_form_step (P_RungeKutta)
* C25_dirk33_not_exact (P_RungeKutta)
* C25_dirk33_third_order_1e11 (P_RungeKutta)
* C25_imex_coupling (P_RungeKutta)
* C26_forcing_times (P_RungeKutta)
* C26_imex_step (P_RungeKutta)
* C27_ale_invariant (P_TimeInt)
* C27_ale_steady (P_TimeInt)
* C27_explicit_invariant (P_TimeInt)
* C27_explicit_steady (P_TimeInt)
* C27_forward_euler_invariant (P_TimeInt)
* C27_imex_invariant (P_TimeInt)
* C27_implicit_invariant (P_TimeInt)
* C27_implicit_steady (P_TimeInt)
* C27_solution_form_invariant (P_TimeInt)
* C27_theta_invariant (P_TimeInt)
* C27_theta_steady (P_TimeInt)
* C28_butcher_form_schemes (P_RungeKutta)
* C28_convex_constraints (P_RungeKutta)
* C28_midpoint_refuted (P_RungeKutta)
* C28_ssprk33 (P_RungeKutta)
* C28_ssprk33_history (P_RungeKutta)
* C29_butcher_chain_refuted (P_TimeInt)
* C29_butcher_chain_reinitialized (P_TimeInt)
* C29_butcher_chain_without_changes (P_TimeInt)
* C29_imex_chain_without_changes (P_TimeInt)
* C29_imex_uninitialized_refuted (P_TimeInt)
* C29_implicit_chain (P_TimeInt)
* C29_shuosher_chain (P_TimeInt)
* C29_solution_form_chain (P_TimeInt)
* C29_theta_chain (P_TimeInt)
* C30_crank_nicolson_lagged_values (P_TimeInt)
* C30_expression_coefficient_dropped_refuted (P_TimeInt)
* C30_forward_euler_lagged_values (P_TimeInt)
* C37_alpha_crossed_bounds_refuted (P_Depth)
* C37_alpha_one_bound (P_Depth)
* C37_alpha_within_bounds (P_Depth)
* C37_bad_node_refused (P_Tightened2)
* C37_interpolated_alpha_within_bounds (P_Depth)
* C38_all_terms_once (P_Equation)
* C38_code_equations_complete (P_Equation)
* C38_labels_partition (P_Equation)
* C38_replacing_a_term (P_Equation)
* C38_residual_is_sum (P_Equation)
* C38_selection_additive (P_Equation)
* C38_tracer_system_complete (P_Equation)
* C39_c3_minus (P_Stability)
* C39_c3_minus_check_is_vacuous (P_Stability)
* C39_cheng_agrees_when_symmetric (P_Stability)
* C39_cheng_is_canuto_refuted (P_Stability)
* C39_cheng_vs_canuto (P_Stability)
* C39_cmu0_kantha_clayson_refuted (P_Stability)
* C39_evaluation_paths_agree (P_Stability)
* C39_gotm_is_canuto (P_Stability)
* C39_gotm_parameters (P_Tightened5)
* C39_shear_limit (P_Stability)
* C39_shear_max (P_Stability)
* C40_buoyancy_minimum_refuted (P_Tightened6)
* C40_buoyancy_split (P_Turbulence)
* C40_clamps (P_Turbulence)
* C40_frequency_history (P_Tightened6)
* C40_frequency_relaxation (P_Tightened6)
* C40_shear_frequency (P_Turbulence)
* C40_tke_positive (P_Turbulence)
* C40_tke_step_unique (P_Turbulence)
* C41_average_power (P_Turbines)
* C41_last_node_refuted (P_Turbines)
* C41_rotor_samples (P_Tightened2)
* C41_rotor_weights (P_Turbines)
* C41_table_above (P_Turbines)
* C41_table_defined (P_Turbines)
* C41_table_segment (P_Turbines)
* C41_thrust_between (P_Turbines)
* C41_thrust_bounded (P_Turbines)
* C41_thrust_curve (P_Turbines)
* C42_jacobian (P_Turbines)
* C43_closed_boundaries (P_Sediment)
* C43_concentration_nonnegative (P_Sediment)
* C43_equilibrium (P_Sediment)
* C43_exchange_conserves_sediment (P_Sediment)
* C43_forms_agree (P_Sediment)
* C43_reference_ratio_range (P_Sediment)
* C43_relaxation (P_Sediment)
* C43_transport_stage (P_Tightened2)
* C45_positive_longitude (P_Coords)
* C47_constants_kept (P_AleConst)
* C47_heights_of_layers (P_Tightened4)
* C47_heights_total_depth (P_Extrude)
* C47_layer_scaling (P_Extrude)
* C47_mesh_velocity (P_Extrude)
* C47_no_drift (P_Extrude)
* C47_order (P_Extrude)
* C47_range (P_Extrude)
* C47_stage_velocities (P_Extrude)
* C47_surface_and_bottom (P_Extrude)
* C47_velocity_bounds (P_Extrude)
* C48_average_of_constant (P_Column)
* C48_boundary_value_refuted (P_Column)
* C48_boundary_value_sign (P_Column)
* C48_boundary_value_sign_down (P_Tightened4)
* C48_extract (P_Column)
* C48_extract_frame (P_Column)
* C48_integral_directions (P_Column)
* C48_integral_down (P_Column)
* C48_integral_unique (P_Column)
* C48_integral_up (P_Column)
* C48_round_trip (P_Column)
* C48_single_vertical_node_refuted (P_Column)
* C49_coriolis_no_work (P_SWE)
* C49_lax_friedrichs_dissipates (P_SWE)
* C49_linear_drag_dissipates (P_SWE)
* C49_viscosity_conserves_momentum (P_SWE)
* C49_viscosity_dissipates (P_SWE)
* C49_viscosity_symmetric (P_SWE)
* C49_viscosity_symmetric_refuted (P_SWE_Examples)
* C50_conservative_budget (P_Tracer2d)
* C50_conservative_positive (P_Tracer2d)
* C50_conservative_source (P_Tightened5)
* C50_constants (P_Tracer2d)
* C50_constants_at_prescribed_velocity (P_Tracer2d)
* C50_constants_refuted (P_Tracer2d_Examples)
* C50_diffusion_budget (P_Tracer2d)
* C50_diffusion_conserves (P_Tracer2d)
* C50_diffusion_constants (P_Tracer2d)
* C50_diffusion_dissipates (P_Tracer2d)
* C50_diffusion_maximum_principle (P_Tracer2d)
* C50_diffusion_symmetric (P_Tracer2d)
* C50_mass_conserved (P_Tracer2d)
* C50_maximum_principle (P_Tracer2d)
* C50_maximum_principle_refuted (P_Tracer2d_Examples)
* C50_source_budget (P_Tightened5)
* C50_upwind_boundary (P_Tracer2d)
* C51_flux (P_Bnd)
* C51_normal_velocity (P_Bnd)
* C51_viscosity_velocity_refuted (P_Bnd)
* C52_reduction_order (P_Detector)
* C53_drag_positive (P_Eos)
* C53_drag_range (P_Tightened3)
* C53_stress_monotone (P_Eos)
* C54_no_data_refuted (P_Inversion)
* C54_observed_value (P_Inversion)
* C54_regularisation_flat (P_Inversion)
* C54_regularisation_nonnegative (P_Inversion)
* C54_regularisation_prior (P_Inversion)
* C54_regularisation_real (P_Inversion)
* C57_linear_monotone (P_Eos)
* C57_linear_reference (P_Eos)
* C57_linear_slopes (P_Eos)
* C57_linear_unique (P_Eos)
* C59_advection_budget (P_Tracer3d)
* C59_conserved (P_Tracer3d)
* C59_constants_formula (P_Tracer3d)
* C59_constants_kept (P_Tracer3d)
* C59_constants_need_same_boundaries (P_Tracer3d)
* C59_diffusion_budget (P_Tracer3d)
* C59_diffusion_symmetric (P_Tracer3d_Bounds)
* C59_local_extremum (P_Tracer3d_Bounds)
* C59_slope_conservation_refuted (P_Tracer3d_Bounds)
* C59_source_budget (P_Tightened8)
* C59_total_velocity (P_Tightened7)
* C59_variance_budget (P_Tracer3d_Bounds)
* C59_variance_not_growing (P_Tracer3d_Bounds)
* C59_vertical_diffusion_dissipates (P_Tracer3d_Bounds)
* C59_vertical_diffusion_penalty (P_Tracer3d_Bounds)
* C60_advected_like_tracers (P_Mom3d)
* C60_advection_energy (P_Mom3d)
* C60_coriolis_no_work (P_Mom3d)
* C60_level_head_no_force (P_Mom3d_Pressure)
* C60_linear_drag_dissipates (P_Mom3d)
* C60_momentum_budget (P_Mom3d)
* C60_open_boundary_upwind (P_Tightened8)
* C60_pressure_gradient_consistent (P_Mom3d_Pressure)
* C60_pressure_total (P_Mom3d_Pressure)
* C60_uniform_flow_kept (P_Mom3d)
* C60_viscosity_like_diffusion (P_Mom3d)
* C60_wind_stress (P_Mom3d)
* C61_coupling_values (P_Coupled3d_Mean)
* C61_half_step (P_Tightened8)
* C61_implicit_total_velocity (P_Tightened8)
* C61_initial_conditions_consistent (P_Coupled3d)
* C61_initial_depth_average_refuted (P_Coupled3d)
* C61_initial_velocity_counted_twice_refuted (P_Coupled3d_Mean)
* C61_leapfrog_assembly (P_Coupled3d)
* C61_leapfrog_correct (P_Coupled3d)
* C61_leapfrog_forcing_of_2d_mode (P_Coupled3d_Mean)
* C61_leapfrog_full_forcing_refuted (P_Coupled3d_Mean)
* C61_leapfrog_step_consistent (P_Coupled3d)
* C61_rk_assembly (P_Coupled3d)
* C61_rk_assembly_with_forcings_refuted (P_Coupled3d)
* C61_rk_forcing_of_2d_mode (P_Coupled3d_Mean)
* C61_rk_solve (P_Coupled3d)
* C61_rk_stages_ready (P_Coupled3d)
* C61_rk_step_consistent (P_Coupled3d)
* C61_run_consistent (P_Coupled3d)
* C61_unsolved_tracers_kept (P_Coupled3d)
* C62_duration (P_Forcing)
* C62_duration_uneven_refuted (P_Forcing)
* C62_no_duration (P_Forcing)
* C62_roms_column (P_Forcing2)
* C62_roms_zero_elevation_refuted (P_Forcing2)
* C62_short_duration_refuted (P_Forcing)
* C63_circulation (P_Diag)
* C63_gradient_exact (P_Diag)
* C63_hessian_exact (P_Diag)
* C63_indicator_share (P_Diag)
* C63_indicator_sum (P_Diag)
* C63_indicator_sum_refuted (P_Diag)
* C63_indicator_total (P_Diag)
* C63_kinetic_energy (P_Diag)
* C63_vorticity_equation (P_Diag)
* C63_vorticity_exact (P_Diag)
* C64_consistent_flow (P_Nonhydro)
* C64_continuity (P_Nonhydro)
* C64_continuity_closed (P_Nonhydro)
* C64_energy (P_Nonhydro)
* C64_equation (P_Nonhydro)
* C64_flow_along_bed (P_Tightened7)
* C64_open_boundary_pressure_refuted (P_Nonhydro)
* C64_sloping_bed_refuted (P_Nonhydro)
* C64_stage_keeps_w (P_Nonhydro)
* C64_unique_pressure (P_Nonhydro)
* C65_diffusion_limit (P_Tightened9)
* C65_empty_process (P_TimeStep)
* C65_factors (P_TimeStep)
* C65_horizontal_degree (P_TimeStep)
* C65_max_diffusivity (P_TimeStep)
* C65_partition_independent (P_TimeStep)
* C65_step_3d (P_TimeStep)
* C65_step_3d_total (P_TimeStep)
* C65_unused_component_refuted (P_TimeStep)
* C65_user_step_2d (P_TimeStep)
* C65_user_step_3d (P_TimeStep)
* C65_vertical_degree_refuted (P_TimeStep)
* C68_alpha_accepted (P_Tightened10)
* C68_alpha_covers_bathymetry (P_Geometry2)
* C68_alpha_every_cell_refuted (P_Geometry2)
* C68_alpha_interpolation (P_Geometry2)
* C68_alpha_limits (P_Geometry2)
* C68_alpha_nodes (P_Geometry2)
* C68_cell_width (P_Geometry2)
* C68_subdomain_integral (P_Geometry3)
* C68_subdomain_norm (P_Geometry3)
* C68_subdomain_outside (P_Geometry3)
* C68_subdomain_positive_refuted (P_Geometry3)
* C68_subdomain_unique (P_Geometry3)
* C68_supg_bounds (P_Geometry3)
* C68_supg_conservation (P_Geometry3)
* C68_supg_linear (P_Geometry3)
* C68_supg_streamline (P_Tightened10)
* C68_supg_units_refuted (P_Geometry3)
* C68_width_bounds (P_Geometry2)
* C69_closure_names (P_GLSInit3)
* C69_defaults_applied (P_GLSInit3)
* C70_backward_euler (P_Stable)
* C70_declared_explicit (P_Stable)
* C70_dirk33_energy_refuted (P_Energy2)
* C70_dirk33_growth (P_Energy)
* C70_dirklpum2_nonlinear_refuted (P_Stable2)
* C70_dirklspum2_nonlinear_refuted (P_Stable2)
* C70_explicit_nonlinear (P_Stable)
* C70_imex_bounds (P_Stable3)
* C70_imex_declared_refuted (P_Stable3)
* C70_leapfrog_bounded (P_Energy2)
* C70_midpoint_nonlinear_refuted (P_Stable2)
* C70_ssprk22_bounds (P_Energy2)
* C70_theta_below_half_refuted (P_Energy2)
* C70_theta_energy (P_Energy2)
* C75_bed_budget (P_Exner)
* C75_bedload_budget (P_Exner)
* C75_bedload_builds (P_Exner)
* C75_bedload_weak_form (P_Exner)
* C75_closed_basin (P_Exner)
* C75_closed_bed (P_Exner)
* C75_equilibrium_inflow (P_Exner)
* C75_later_flux_refuted (P_Exner)
* C75_moving_bed_refuted (P_Exner)
* C75_sediment_boundary (P_Exner)
* C75_slide_budget (P_Exner)
* C75_slide_continuous (P_Exner)
* C75_slide_discontinuous_refuted (P_Exner)
* C75_slide_flattens (P_Exner)
* C75_theta_step (P_Exner)
* C75_total_sediment (P_Exner)
* C75_zero_drag_refuted (P_Exner)
* C77_clip (P_Strain)
* C77_gradient_exact (P_Strain)
* C77_hcc_converse_refuted (P_Strain)
* C77_hcc_criterion (P_Strain)
* C77_hcc_flat (P_Strain)
* C77_hcc_nonneg (P_Strain)
* C77_hcc_value (P_Strain)
* C77_horizontal_gradient (P_Strain)
* C77_level_layers (P_Strain)
* C77_linear_stratification (P_Strain)
* C77_minimum_refuted (P_Strain)
* C77_relaxation (P_Strain)
* C77_stable_stratification (P_Strain)
* C77_vertical_gradient (P_Strain)
* C77_vertical_total (P_Strain)
* C79_consistency_test_refuted (P_InvTests)
* C79_inconsistent_passes_refuted (P_InvTests)
* C79_masked_bounds (P_InvTests)
* C79_masked_region (P_InvTests)
* C79_masked_surplus_refuted (P_InvTests)
* C79_terms_add_up (P_InvTests)
* C79_terms_twice_refuted (P_InvTests)
* C79_tests_fail (P_InvTests)
* C79_tests_leave_no_trace (P_InvTests)
* C80_tracer_budget (P_Galerkin)
* C80_tracer_constant (P_Galerkin)
* C80_tracer_explicit (P_Galerkin)
* C80_tracer_mass (P_Galerkin)
* C80_tracer_rows_budget (P_Galerkin)
* C82_constant_amount (P_Galerkin3d)
* C82_implicit_part (P_Galerkin3d)
* C82_lf_budget (P_Galerkin3d)
* C82_lf_conserved (P_Galerkin3d)
* C82_lf_constants (P_Galerkin3d)
* C82_lf_prediction (P_Tightened12)
* C82_lf_run_constants (P_Galerkin3d)
* C82_mesh_inverted_refuted (P_Galerkin3d)
* C82_mesh_volume (P_Galerkin3d)
* C82_rk_budget (P_Galerkin3d)
* C82_rk_conserved (P_Galerkin3d)
* C82_rk_run_constants (P_Galerkin3d)
* C82_rows_budget (P_Galerkin3d)
* C82_volume_2d (P_Galerkin3d)
* C83_3d_exact (P_Wiring)
* C83_swe_one_term (P_Wiring)
* C83_swe_plain (P_Wiring)
* C85_converging_refuted (P_Variance_Examples)
* C85_losses (P_Variance)
* C85_step_unique (P_Variance)
* C85_theta_budget (P_Variance)
* C85_unfed_inflow_refuted (P_Variance_Examples)
* C85_variance_budget (P_Variance)
* C87_column_mixes (P_VMix_Column)
* C87_column_momentum (P_VMix_Column)
* C87_column_tracer (P_VMix_Column)
* C87_no_penalty_needed_refuted (P_VMix_Column)
* C88_conservative_ssprk33 (P_Bounds)
* C88_default_offset_refuted (P_Bounds_Examples)
* C88_explicit_range (P_Bounds)
* C88_ssprk33_range (P_Bounds)
* C88_step_unique (P_Bounds)
* C88_unfed_inflow_refuted (P_Bounds_Examples)
* C89_diagnostics (P_Frame)
* C89_internal_pressure (P_Frame3d)
* C89_order (P_Frame)
* C89_partition (P_Frame)
* C89_still_facet_refuted (P_Frame)
* C89_tracer (P_Frame)
* C89_tracer_3d (P_Frame3d)
* C89_tracer_3d_assembled (P_Frame3d)
* C89_tracer_3d_run (P_Frame3d)
* C89_tracer_assembled (P_Frame)
* C89_tracer_run (P_Frame)
* C89_tracer_speed (P_Frame)
* C89_vertical_velocity (P_Frame3d)
* C90_assembled (P_Super)
* C90_explicit_run (P_Super)
* C90_implicit_run (P_Super)
* C90_lf3d_run (P_Super3d)
* C90_rk3d_run (P_Super3d)
* C90_ssprk_run (P_Super)
* C90_tendencies (P_Super)
* C90_theta_run (P_Super)
* C90_tracer3d_assembled (P_Super3d)
* C92_renamed_tracer (P_Sym)
* C92_tracer_run (P_Sym)
* C93_tracer (P_Datum)
* C93_tracer_run (P_Datum)
* C95_tracer (P_Basin)

## `ClassicalDedekindReals.sig_forall_dec`, `ClassicalDedekindReals.sig_not_dec`, `FunctionalExtensionality.functional_extensionality_dep`

146 theorems:

* C24_solution_form_tableaux (P_RungeKutta)
* C25_consistent (P_RungeKutta)
* C25_first_order (P_RungeKutta)
* C25_second_order (P_RungeKutta)
* C25_third_order (P_RungeKutta)
* C27_picard_displaced_mass_refuted (P_TimeInt)
* C27_tendency_form_displaced_mass_refuted (P_TimeInt)
* C37_accepted_alpha (P_Tightened2)
* C37_depth_increasing (P_Depth)
* C37_depth_increasing_in_bathymetry (P_Depth)
* C37_depth_monotone_in_alpha (P_Depth)
* C37_depth_near_real_depth (P_Depth)
* C37_depth_positive (P_Depth)
* C37_linear_mass_refuted (P_Depth)
* C37_mass_is_depth_minus_bathymetry (P_Depth)
* C37_other_options (P_Depth)
* C37_zero_alpha_refuted (P_Depth)
* C39_buoy_min_balance (P_Stability)
* C39_clip_limit (P_Stability)
* C39_cmu0 (P_Stability)
* C39_cmu0_alpha_is_neutral_steady_state (P_Stability)
* C39_cmu0_canuto_A (P_StabilitySets)
* C39_cmu0_cheng (P_StabilitySets)
* C39_default_crit_admissible (P_StabilitySets)
* C39_galperin_limit (P_Stability)
* C39_kappa_sigma_inverse (P_Stability)
* C39_positive_canuto_A (P_StabilitySets)
* C39_positive_canuto_B (P_StabilitySets)
* C39_positive_cheng (P_StabilitySets)
* C39_smooth_limit (P_Stability)
* C39_smooth_limit_bad_crit_refuted (P_Stability)
* C39_smooth_limit_increasing (P_Stability)
* C39_steady_state (P_Stability)
* C41_betz (P_Turbines)
* C41_friction_bounds (P_Turbines)
* C41_power_below_dissipation (P_Turbines)
* C41_velocity_correction (P_Turbines)
* C41_zero_power_coefficient_refuted (P_Turbines)
* C42_feasible_iff_distances (P_Turbines)
* C43_bedload_threshold (P_Sediment)
* C43_bedload_uncorrected (P_Sediment)
* C43_flat_bed_no_correction (P_Sediment)
* C43_secondary_current (P_Sediment)
* C43_secondary_current_across (P_Tightened2)
* C43_settling_velocity_positive (P_Sediment)
* C43_slope_correction (P_Tightened2)
* C45_inner_product (P_Coords)
* C45_isometry (P_Coords)
* C45_matrix (P_Coords)
* C45_per_node (P_Coords)
* C45_round_trip (P_Coords)
* C49_advection_energy (P_SWE)
* C49_boundary_drag_dissipates (P_SWE)
* C49_continuous_un_is_a_wall (P_SWE)
* C49_lake_at_rest_continuity (P_SWE)
* C49_lake_at_rest_split_momentum (P_SWE)
* C49_prescribed_un_flux (P_SWE)
* C49_turbine_drag_dissipates (P_SWE)
* C49_un_zero_is_no_wall_refuted (P_SWE_Examples)
* C49_volume_budget (P_SWE)
* C49_volume_conserved (P_SWE)
* C49_volume_conserved_continuous (P_SWE)
* C49_wave_energy (P_SWE)
* C50_closed_mass_refuted (P_Tracer2d_Examples)
* C50_conservative_constant_refuted (P_Tracer2d_Examples)
* C52_default_distance (P_Detector)
* C52_distribution (P_Detector)
* C52_distribution_names (P_Detector)
* C52_distribution_refuted (P_Detector)
* C52_empty_process_refuted (P_Detector)
* C52_idempotent (P_Detector)
* C52_locations_and_names (P_Detector)
* C52_monotone (P_Detector)
* C52_moved_to_nearest (P_Detector)
* C52_names_do_not_matter (P_Detector)
* C52_selected (P_Detector)
* C52_short_names_refuted (P_Detector)
* C53_methods (P_Eos)
* C53_odd (P_Eos)
* C53_parallel (P_Eos)
* C53_rotation (P_Eos)
* C53_zero (P_Eos)
* C54_cost_function (P_Inversion)
* C54_distribution (P_Inversion)
* C54_misfit (P_Inversion)
* C54_misfit_nonnegative (P_Inversion)
* C54_misfit_zero (P_Inversion)
* C54_multi (P_Inversion)
* C54_no_data_error (P_Inversion)
* C54_only_active_stations (P_Inversion)
* C54_same_place_refuted (P_Inversion)
* C54_variance_constant_refuted (P_Inversion)
* C54_variance_weighting (P_Inversion)
* C57_anomaly (P_Eos)
* C57_check_values (P_Tightened3)
* C57_denominator (P_Eos)
* C57_density_solver (P_Eos)
* C57_density_solver_spaces (P_Eos)
* C57_negative_salinity (P_Eos)
* C57_pressure_increases_density (P_Tightened3)
* C57_salinity_increases_density (P_Tightened3)
* C57_solvers_agree (P_Eos)
* C57_weak_solver_density (P_Tightened3)
* C57_weak_solver_keeps_salinity_refuted (P_Eos)
* C57_weak_solver_salinity (P_Eos)
* C62_atm_history (P_Forcing)
* C62_generic_fields (P_Forcing2)
* C62_ncom_fields (P_Forcing2)
* C62_pressure (P_Forcing)
* C62_pressure_units_refuted (P_Forcing)
* C62_tidal_current (P_Forcing2)
* C62_tidal_half_current_refuted (P_Forcing2)
* C62_tidal_no_current (P_Forcing2)
* C62_tidal_outside_refuted (P_Forcing2)
* C62_wind_stress (P_Forcing)
* C62_wind_stress_components (P_Forcing)
* C65_negative_step_refuted (P_TimeStep)
* C65_speed_positive (P_TimeStep)
* C65_step_2d_cells (P_TimeStep)
* C65_step_2d_mean (P_TimeStep)
* C65_uniform (P_TimeStep)
* C67_velocity_block (P_VelocityBlock)
* C67_velocity_block_mass (P_VelocityBlock)
* C67_velocity_block_open_refuted (P_VelocityBlock)
* C68_beta_plane_slope (P_Geometry2)
* C68_beta_plane_value (P_Geometry2)
* C68_cell_size_defined_refuted (P_Geometry2)
* C68_cell_size_nan (P_Geometry2)
* C68_smallest_singular_value (P_Geometry2)
* C70_declared_implicit (P_Stable)
* C70_energy (P_Energy)
* C70_implicit_nonlinear (P_Stable)
* C70_nonlinear_energy (P_Energy2)
* C70_unconditional_bounds_refuted (P_Stable3)
* C75_bedload_threshold (P_Exner)
* C77_magnitude (P_Strain)
* C77_mesh_reynolds (P_Strain)
* C77_orientation (P_Strain)
* C77_rigid_motion (P_Strain)
* C77_scaling (P_Strain)
* C77_uniform_flow_refuted (P_Strain)
* C80_wd_depth (P_Tightened12)
* C89_continuity (P_Frame)
* C89_split_momentum (P_Frame)
* C93_depth (P_Datum)
* C93_linear_refuted (P_Datum)

## `ClassicalDedekindReals.sig_forall_dec`, `Classical_Prop.classic`, `FunctionalExtensionality.functional_extensionality_dep`

16 theorems:

* C85_lossless (P_Variance)
* C85_never_apart (P_Variance)
* C85_never_grows (P_Variance)
* C85_step_exists (P_Variance)
* C87_tracer_budget (P_VMix)
* C87_tracer_contraction (P_VMix)
* C87_tracer_solvable (P_VMix)
* C87_tracer_variance (P_VMix)
* C88_backward_euler_positive (P_Bounds)
* C88_backward_euler_range (P_Bounds)
* C88_conservative_never_negative (P_Bounds)
* C88_fully_implicit_range (P_Bounds)
* C88_never_below (P_Bounds)
* C88_never_leaves_range (P_Bounds)
* C88_step_exists (P_Bounds)
* C90_calm_run (P_Super)

## `ClassicalDedekindReals.sig_forall_dec`, `ClassicalDedekindReals.sig_not_dec`, `Classical_Prop.classic`, `FunctionalExtensionality.functional_extensionality_dep`

132 theorems:

* C40_eddy_coefficients (P_Tightened6)
* C40_eps_psi_round_trip (P_Turbulence)
* C40_galperin_from_eps (P_Turbulence)
* C40_galperin_from_psi (P_Turbulence)
* C40_galperin_positive_n_refuted (P_Turbulence)
* C40_initial_conditions_have_no_effect (P_Turbulence)
* C40_initial_conditions_ignored_refuted (P_Turbulence)
* C40_initial_state (P_Turbulence)
* C40_k_epsilon (P_Turbulence)
* C40_len_min_refuted (P_Turbulence)
* C40_length_limits (P_Turbulence)
* C40_limits_hold_throughout (P_Turbulence)
* C40_lower_limits (P_Turbulence)
* C40_pacanowski (P_Turbulence)
* C40_pacanowski_monotone (P_Turbulence)
* C40_postprocess_idempotent (P_Turbulence)
* C40_psi_definition (P_Turbulence)
* C40_psi_eps_round_trip (P_Turbulence)
* C40_psi_positive (P_Turbulence)
* C40_psi_positive_n_refuted (P_Turbulence)
* C40_resumed_state (P_Turbulence)
* C41_density (P_Turbines)
* C41_rotor_average (P_Turbines)
* C43_erosion_threshold (P_Sediment)
* C43_first_integral (P_Sediment)
* C43_first_integral_continuous_refuted (P_Sediment)
* C43_friction_positive (P_Sediment)
* C43_mu_nonnegative (P_Sediment)
* C43_rouse_profile (P_Tightened2)
* C43_rouse_range (P_Sediment)
* C43_slide_antidiffusive_refuted (P_Sediment)
* C43_slide_diffusive (P_Sediment)
* C43_slide_only_steep (P_Sediment)
* C43_thetacr_range (P_Sediment)
* C43_velocity_factor_range (P_Sediment)
* C45_north (P_Coords)
* C49_inverse_barometer (P_Tightened5)
* C49_lake_at_rest_momentum (P_SWE)
* C49_manning_formula (P_Tightened5)
* C49_quadratic_drag_dissipates (P_SWE)
* C49_static_force (P_Tightened5)
* C49_wind_setup (P_Tightened5)
* C56_bottom (P_Extrude)
* C56_bottom_column (P_Extrude)
* C56_column (P_Extrude)
* C56_ordered (P_Extrude)
* C56_ordered_refuted (P_Extrude)
* C56_range (P_Extrude)
* C56_strictly_ordered (P_Extrude)
* C56_surface (P_Extrude)
* C56_surface_zero_stretch_refuted (P_Extrude)
* C56_uniform (P_Extrude)
* C60_drag_always_defined_refuted (P_Mom3d_Pressure)
* C60_drag_dimensionless (P_Tightened8)
* C60_drag_positive (P_Mom3d_Pressure)
* C60_energy_decay (P_Mom3d)
* C60_friction_defined (P_Tightened8)
* C60_friction_dissipates (P_Mom3d)
* C60_friction_total_velocity (P_Tightened8)
* C60_pressure_force (P_Tightened8)
* C60_rest_kept (P_Mom3d)
* C68_beta_plane_error (P_Geometry2)
* C68_minimum_angle (P_Geometry)
* C68_minimum_angle_range (P_Geometry)
* C69_closure_meaning (P_GLSInit3)
* C69_closure_name_refuted (P_GLSInit3)
* C69_default_switches (P_Tightened11)
* C69_earlier_model_kappa_refuted (P_GLSInit3)
* C69_every_stability_function_refuted (P_GLSInit3)
* C69_idempotent (P_GLSInit)
* C69_kappa_shared (P_GLSInit3)
* C69_law_of_the_wall (P_GLSInit2)
* C69_log_layer_relation (P_GLSInit2)
* C69_log_layer_relation_refuted (P_GLSInit2)
* C69_minimum_values (P_GLSInit3)
* C69_one_kappa_refuted (P_GLSInit3)
* C69_program_kappa (P_GLSInit3)
* C69_rejected (P_GLSInit3)
* C69_stability_names (P_Tightened11)
* C69_stability_selected (P_Tightened11)
* C69_user_values_kept (P_GLSInit2)
* C69_wall_flux (P_GLSInit3)
* C69_wall_viscosity (P_GLSInit3)
* C75_slide_stable_bed (P_Exner)
* C80_explicit_budget (P_Galerkin)
* C80_explicit_volume (P_Galerkin)
* C80_lake_stays (P_Galerkin)
* C80_lake_stays_explicit (P_Galerkin)
* C80_rows_budget (P_Galerkin)
* C80_solution_form_volume (P_Galerkin)
* C80_ssp_volume (P_Galerkin)
* C80_tendency_form_volume (P_Galerkin)
* C80_theta_budget (P_Galerkin)
* C80_theta_volume (P_Galerkin)
* C84_dirk_never_gains (P_WaveEnergy)
* C84_losses (P_WaveEnergy)
* C84_lossless (P_WaveEnergy)
* C84_never_gains (P_WaveEnergy)
* C84_step_exists (P_WaveEnergy)
* C84_step_unique (P_WaveEnergy)
* C84_theta_bound_sharp (P_WaveEnergy_Examples)
* C84_theta_budget (P_WaveEnergy)
* C85_dirk_never_apart (P_Variance)
* C87_momentum_budget (P_VMix_Momentum)
* C87_momentum_decay (P_VMix_Momentum)
* C87_momentum_solvable (P_VMix_Momentum)
* C87_momentum_total (P_VMix_Momentum)
* C89_any_integrator (P_Frame)
* C89_momentum (P_Frame)
* C89_momentum_3d (P_Frame3d)
* C89_swe_assembled (P_Frame)
* C89_swe_run (P_Frame)
* C90_nonlinear_refuted (P_Super_Examples)
* C90_waves_assembled (P_Super)
* C90_waves_run (P_Super)
* C90_waves_tendencies (P_Super)
* C92_explicit_run (P_Sym)
* C92_moved_swe (P_Sym)
* C92_renamed_swe (P_Sym)
* C92_swe_run (P_Sym)
* C93_assembled (P_Datum)
* C93_explicit_run (P_Datum)
* C93_swe (P_Datum)
* C93_swe_run (P_Datum)
* C94_parallel_refuted (P_SedCheck)
* C94_refused (P_SedCheck)
* C94_some_small_refuted (P_SedCheck)
* C94_uniform (P_SedCheck)
* C95_assembled (P_Basin)
* C95_explicit_run (P_Basin)
* C95_swe (P_Basin)
* C95_swe_run (P_Basin)
