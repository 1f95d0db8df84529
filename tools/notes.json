{
 "C01": {
  "note": "2D loop model; the 3D loop differs only in bookkeeping and uses the same clock."
 },
 "C02": {
  "note": "Includes the 3D variant and the case of a step larger than the export interval."
 },
 "C03": {
  "note": "Split and non-split modes."
 },
 "C04": {
  "note": "The restart theorem is proved under the English property's hypotheses (deterministic step, stored state complete, time attribute available); the code's deviations (legacy files, lost tracers, schedule shift) are separate refuted/characterised theorems."
 },
 "C05": {
  "note": "Right exactly when the run starts at time 0; the resume case is refuted with a witness."
 },
 "C06": {
  "note": "Refinement to an indexed store for every history; failing export destroys the old file (refuted clause)."
 },
 "C07": {
  "note": "Isolation of managers that use the default argument, lockstep after late registration, once-per-export under TypeError and velocity restoration on failure are refuted."
 },
 "C08": {
  "note": "The property as users expect it is false of the code; exact behaviour characterised."
 },
 "C09": {
  "note": "Invariant over every sequence of add/evaluate calls."
 },
 "C10": {
  "note": "Refinement of the file to the abstract series, including restart truncation and failed appends (refuted clause)."
 },
 "C11": {
  "note": "start_time = 0 / end_time = 0 are ignored by the code: refuted clause."
 },
 "C12": {
  "note": "Zero initial value is refuted (division by zero branch)."
 },
 "C13": {
  "note": "Use under 'export' mode is characterised separately (wrong weights)."
 },
 "C14": {
  "note": "Proved for all inputs of the model; see the plan row in DESIGN.md."
 },
 "C15": {
  "note": "Clauses the code does not satisfy are stated and refuted: C15_profile_shallow_refuted, C15_transect_forced_range_refuted, C15_station_height_refuted."
 },
 "C16": {
  "note": "Nearest-stamp and interval search against the abstract definition."
 },
 "C17": {
  "note": "Correct for non-overlapping files; overlapping files refuted."
 },
 "C18": {
  "note": "Clauses the code does not satisfy are stated and refuted: C18_last_stamp_refuted, C18_dense_stamps_refuted."
 },
 "C19": {
  "note": "Clauses the code does not satisfy are stated and refuted: C19_missing_day_refuted."
 },
 "C20": {
  "note": "Clauses the code does not satisfy are stated and refuted: C20_precedence_refuted, C20_upper_case_refuted."
 },
 "C21": {
  "note": "Proved for all inputs of the model; see the plan row in DESIGN.md."
 },
 "C22": {
  "note": "Any number of stages; entries below 1e-13 are dropped by the code, the exact form is stated for the arrays before that and, if nothing is dropped, for the returned ones."
 },
 "C23": {
  "note": "Mass matrix solve taken as exact."
 },
 "C24": {
  "note": "Solver contract: finds a root if there is one; stage equations assumed solvable. Tendency form with quasi-linear terms refuted with a witness."
 },
 "C25": {
  "note": "DIRK33: second and third order conditions to 1e-11 (and provably not exactly)."
 },
 "C26": {
  "note": "Proved for all inputs of the model; see the plan row in DESIGN.md."
 },
 "C27": {
  "note": "Refuted with displaced mass for the tendency form and pressure projection."
 },
 "C28": {
  "note": "Also the advertised CFL coefficients of ERKLSPUM2 and ERKLPUM2; refuted for ERKMidpoint."
 },
 "C29": {
  "note": "External changes between steps: proved for Shu-Osher, DIRK, solution-form and theta; refuted for Butcher-form explicit and for uninitialised IMEX."
 },
 "C30": {
  "note": "Proved for Crank-Nicolson and forward Euler over all histories; refuted for expression-valued coefficients."
 },
 "C31": {
  "note": "The declarations of all option classes are generated from options.py by tools/mkoptions.py; the invariants hold for every class with well formed pairings and the shipped classes are checked to be so."
 },
 "C32": {
  "note": "Holds for histories that do not assign the slaved object by hand; the refuted clauses have witnesses."
 },
 "C33": {
  "note": "Registration order and uniqueness for every history; three clauses refuted with witnesses."
 },
 "C34": {
  "note": "Programs are arbitrary nestings of attribute assignments, decorated methods, exceptions and handlers; the exception clause is refuted."
 },
 "C35": {
  "note": "Datetimes are calendar fields with a fixed offset in microseconds; pytz's zone tables are outside the model."
 },
 "C36": {
  "note": "The kernels act on given cell/vertex incidence lists; Firedrake's par_loop order is arbitrary where it can matter. Clauses the code does not satisfy are stated and refuted: C36_idempotent_refuted, C36_huge_values_refuted."
 },
 "C37": {
  "note": "Real arithmetic; rounding is not modelled. Clauses the code does not satisfy are stated and refuted: C37_linear_mass_refuted, C37_alpha_crossed_bounds_refuted, C37_zero_alpha_refuted."
 },
 "C38": {
  "note": "Terms are opaque functions; only their selection, labels, sign and summation are modelled. Clauses the code does not satisfy are stated and refuted: C38_failed_add_refuted."
 },
 "C39": {
  "note": "Real arithmetic. Clauses the code does not satisfy are stated and refuted: C39_cmu0_kantha_clayson_refuted, C39_smooth_limit_bad_crit_refuted, C39_cheng_is_canuto_refuted."
 },
 "C40": {
  "note": "Real arithmetic, column by column; the implicit solves of the turbulence equations are not part of this property. Clauses the code does not satisfy are stated and refuted: C40_buoyancy_minimum_refuted, C40_len_min_refuted, C40_galperin_positive_n_refuted, C40_initial_conditions_ignored_refuted, C40_psi_positive_n_refuted."
 },
 "C41": {
  "note": "Tables are lists of real points; interpolation outside the table is characterised as the code does it."
 },
 "C42": {
  "note": "Exact real arithmetic."
 },
 "C43": {
  "note": "Formulas over the reals; the discretised budget is C75. Clauses the code does not satisfy are stated and refuted: C43_first_integral_continuous_refuted, C43_slide_antidiffusive_refuted, C43_expression_boundary_refuted."
 },
 "C44": {
  "note": "pyadjoint is an arbitrary producer of callback invocations. Clauses the code does not satisfy are stated and refuted: C44_same_name_refuted, C44_stale_value_refuted, C44_functional_pre_stage_refuted."
 },
 "C45": {
  "note": "Real arithmetic; the projection is a given map, the rotation is proved an isometry from its definition."
 },
 "C46": {
  "note": "The file system is a map from names to text; refuted clauses carry concrete directories. Clauses the code does not satisfy are stated and refuted: C46_append_keeps_refuted, C46_reinitialise_refuted, C46_failed_switch_silences_refuted."
 },
 "C47": {
  "note": "Mass matrices and solves are exact; the forms are those of C59."
 },
 "C48": {
  "note": "Kernels on tables of nodal values of any number of layers. Clauses the code does not satisfy are stated and refuted: C48_single_vertical_node_refuted, C48_boundary_value_refuted."
 },
 "C49": {
  "note": "Quadrature with any rule on any mesh; the divergence theorem on the mesh is the only geometric hypothesis, met by the example meshes. Clauses the code does not satisfy are stated and refuted: C49_un_zero_is_no_wall_refuted, C49_viscosity_symmetric_refuted."
 },
 "C50": {
  "note": "As C49. Bounds need the stated CFL-type condition. Clauses the code does not satisfy are stated and refuted: C50_closed_mass_refuted, C50_constants_refuted, C50_maximum_principle_refuted, C50_conservative_constant_refuted."
 },
 "C51": {
  "note": "All key combinations of the boundary dictionaries, both equations. Clauses the code does not satisfy are stated and refuted: C51_invalid_key_refuted, C51_same_velocity_refuted, C51_viscosity_velocity_refuted."
 },
 "C52": {
  "note": "The reduction over processes is any bracketing of an associative reduction. Clauses the code does not satisfy are stated and refuted: C52_distribution_refuted, C52_empty_process_refuted, C52_short_names_refuted."
 },
 "C53": {
  "note": "Real arithmetic."
 },
 "C54": {
  "note": "The adjoint machinery is a parameter; bookkeeping over all histories. Clauses the code does not satisfy are stated and refuted: C54_no_data_refuted, C54_same_place_refuted, C54_variance_constant_refuted, C54_initial_row_refuted, C54_series_refuted, C54_series_of_variable_refuted, C54_attribution_refuted."
 },
 "C55": {
  "note": "Operation traces for every option combination. Clauses the code does not satisfy are stated and refuted: C55_tracers_with_sediment_refuted, C55_nonhydrostatic_alone_refuted, C55_nonhydrostatic_fixed_surface_refuted, C55_tracer_only_refuted, C55_label_swe2d_refuted, C55_label_sw_refuted, C55_limiter_degree0_refuted, C55_limiter_mixed_refuted, C55_picard_unsupported_refuted."
 },
 "C56": {
  "note": "Real arithmetic. Clauses the code does not satisfy are stated and refuted: C56_surface_zero_stretch_refuted, C56_ordered_refuted, C56_own_min_depth_refuted."
 },
 "C57": {
  "note": "Real arithmetic; coefficients as written in the source. Clauses the code does not satisfy are stated and refuted: C57_weak_solver_keeps_salinity_refuted."
 },
 "C58": {
  "note": "Process-wide state included; histories of several solvers. Clauses the code does not satisfy are stated and refuted: C58_independent_refuted, C58_tracer_2d_refuted, C58_files_distinct_refuted."
 },
 "C59": {
  "note": "As C49, in 3D. One quadrature rule for all forms (the code uses 2p+1 for tracers, 2p for the vertical velocity). Clauses the code does not satisfy are stated and refuted: C59_slope_conservation_refuted."
 },
 "C60": {
  "note": "As C59. Clauses the code does not satisfy are stated and refuted: C60_drag_always_defined_refuted."
 },
 "C61": {
  "note": "All option combinations; the data-flow analysis is proved sound before it is evaluated. Clauses the code does not satisfy are stated and refuted: C61_initial_depth_average_refuted, C61_rk_assembly_with_forcings_refuted, C61_set_dt_fraction_refuted, C61_initial_velocity_counted_twice_refuted, C61_leapfrog_full_forcing_refuted."
 },
 "C62": {
  "note": "Interpolation weights are parameters; index bookkeeping, masks, rotation and units are modelled. Clauses the code does not satisfy are stated and refuted: C62_pressure_units_refuted, C62_atm_time_name_refuted, C62_duration_uneven_refuted, C62_short_duration_refuted, C62_roms_zero_elevation_refuted, C62_tidal_outside_refuted, C62_tidal_half_current_refuted, C62_tidal_sphere_refuted."
 },
 "C63": {
  "note": "Diagnostic solves are characterised by the weak equation they solve. Clauses the code does not satisfy are stated and refuted: C63_dwr_mesh_refuted, C63_indicator_sum_refuted."
 },
 "C64": {
  "note": "Linear solves are characterised by their equation. Clauses the code does not satisfy are stated and refuted: C64_open_boundary_pressure_refuted, C64_sloping_bed_refuted."
 },
 "C65": {
  "note": "Exact arithmetic, any partition. Clauses the code does not satisfy are stated and refuted: C65_vertical_degree_refuted, C65_negative_step_refuted, C65_unused_component_refuted."
 },
 "C66": {
  "note": "PETSc options are dictionaries; what PETSc does with them is outside. Clauses the code does not satisfy are stated and refuted: C66_lu_monolithic_dirk_refuted, C66_relinearised_refuted, C66_pressure_parameters_used_refuted, C66_default_projection_refuted, C66_pressure_parameters_accepted_refuted, C66_leapfrog_parameters_refuted, C66_identifier_unique_refuted."
 },
 "C67": {
  "note": "Any field; the PETSc application of the preconditioner is modelled as matrix operations. Clauses the code does not satisfy are stated and refuted: C67_transpose_refuted, C67_elementwise_inverse_cg_refuted, C67_other_block_refuted, C67_velocity_block_open_refuted."
 },
 "C68": {
  "note": "Real arithmetic with NaN as a separate value. Clauses the code does not satisfy are stated and refuted: C68_alpha_every_cell_refuted, C68_cell_size_defined_refuted, C68_supg_units_refuted, C68_subdomain_positive_refuted."
 },
 "C69": {
  "note": "scipy's minimiser is a parameter. Clauses the code does not satisfy are stated and refuted: C69_log_layer_relation_refuted, C69_one_kappa_refuted, C69_earlier_model_kappa_refuted, C69_every_stability_function_refuted, C69_closure_name_refuted."
 },
 "C70": {
  "note": "Certificates are checked by computation in the kernel. Clauses the code does not satisfy are stated and refuted: C70_dirk33_energy_refuted, C70_theta_below_half_refuted, C70_midpoint_nonlinear_refuted, C70_dirklspum2_nonlinear_refuted, C70_dirklpum2_nonlinear_refuted, C70_imex_declared_refuted, C70_unconditional_bounds_refuted."
 },
 "C71": {
  "note": "Every check of the set-up methods is a failure point in its place. Clauses the code does not satisfy are stated and refuted: C71_3d_time_step_retry_refuted, C71_failed_exports_refuted, C71_recreated_fields_refuted."
 },
 "C72": {
  "note": "Projections are unspecified functions. Clauses the code does not satisfy are stated and refuted: C72_mixed_bcs_refuted, C72_correction_without_suspension_refuted, C72_exner_alone_refuted, C72_conservative_sediment_refuted, C72_restart_sediment_refuted."
 },
 "C73": {
  "note": "POSIX append and offset writes; interleavings of ranks are arbitrary. Clauses the code does not satisfy are stated and refuted: C73_keep_log_repeats_refuted, C73_warning_lost_refuted, C73_second_solver_refuted, C73_late_rank_refuted."
 },
 "C74": {
  "note": "UFL's element table is modelled for the families the solvers accept. Clauses the code does not satisfy are stated and refuted: C74_q_space_refuted, C74_continuity_refuted, C74_degree_two_refuted, C74_late_limiter_refuted, C74_coordinate_variant_refuted, C74_extended_refuted, C74_view_continuity_refuted."
 },
 "C75": {
  "note": "As C49; witnesses on a two-cell mesh. Clauses the code does not satisfy are stated and refuted: C75_slide_discontinuous_refuted, C75_later_flux_refuted, C75_zero_drag_refuted, C75_moving_bed_refuted."
 },
 "C76": {
  "note": "The nearest-neighbour search is any correct one, the triangulation is arbitrary. Clauses the code does not satisfy are stated and refuted: C76_other_variable_masked_refuted, C76_unmasked_file_refuted, C76_outside_target_refuted, C76_all_corners_land_refuted, C76_later_mask_refuted, C76_mixed_grid_refuted."
 },
 "C77": {
  "note": "Linear solves are given by the equation they solve. Clauses the code does not satisfy are stated and refuted: C77_minimum_refuted, C77_uniform_flow_refuted, C77_hcc_converse_refuted."
 },
 "C78": {
  "note": "HDF5 files are maps from names to arrays. Clauses the code does not satisfy are stated and refuted: C78_space_refuted, C78_names_collide_refuted, C78_several_fields_refuted."
 },
 "C79": {
  "note": "pyadjoint's Taylor test is any list of evaluations and any rate. Clauses the code does not satisfy are stated and refuted: C79_consistency_test_refuted, C79_inconsistent_passes_refuted, C79_terms_twice_refuted, C79_masked_surplus_refuted, C79_real_controls_refuted."
 },
 "C80": {
  "note": "Composition of C49, C50 with the time integrators; the nonlinear solver solves its equation exactly."
 },
 "C81": {
  "note": "Includes refuted clauses with concrete chains of runs. Clauses the code does not satisfy are stated and refuted: C81_override_3d_refuted, C81_chain_loses_date_refuted, C81_files_follow_options_refuted, C81_early_callback_refuted."
 },
 "C82": {
  "note": "The velocities, mesh velocity and diffusivities seen by each phase are given (C61 says which they are); linear solves are exact and the limiter keeps cell amounts (C36)."
 },
 "C83": {
  "note": "The bodies of the terms are arbitrary functions of the coefficients they read (their contents are C30, C49, C59); the model says which entries of the dictionaries each of them reads and where the entries come from."
 },
 "C84": {
  "note": "Assembled linear shallow water equations (Galerkin model of C80) with the theta scheme and the DIRK schemes. Abstracts from floating point and inexact solvers (the linear systems are solved exactly), the quadrature is assumed to satisfy the divergence theorem for the functions of the space (gauss_space) and to separate them (independent); with a discontinuous elevation these are exact-quadrature statements. Coefficients are constant in time. Drag that depends on the velocity is covered with the semi-implicit linearisation (the default of thetis); DIRK33 is excluded (C70 shows that it can amplify)."
 },
 "C85": {
  "note": "L2 stability of the assembled 2D tracer equation over whole runs. The exact budget of one step (C85_theta_budget, C85_variance_budget), solvability and uniqueness of each step and the runs are proved for the theta scheme and for the implicit Runge-Kutta schemes except DIRK33 (not algebraically stable, C70). Refuted without the conditions: at an inflow boundary without a tracer value (C85_unfed_inflow_refuted) and in converging or diverging water (C85_converging_refuted) the variance grows in one step for every offset and time step. The divergence theorem for half the squared tracer times the velocity is a hypothesis on mesh and quadrature (it holds for polynomials integrated exactly; shown for the meshes of the examples)."
 },
 "C86": {
  "note": "load_turbine on parsed content, the option classes through Options_Table, and the construction of the turbine of a farm. The parsers are parameters. Refuted: power_coefficient may not be left out of a constant-thrust file although the option is optional (C86_power_may_be_left_out_refuted); the tables are not looked into (C86_tables_are_checked_refuted); a farm that is not discrete drops the upwind correction the file asks for (C86_upwind_is_kept_refuted)."
 },
 "C87": {
  "note": "Proved for every mesh and space under the condition that mixing takes variance from every function of the space; that condition is proved for columns of layers with linear functions and layer-wise constant viscosity (C87_column_mixes), and C87_no_penalty_needed_refuted shows it can fail without a penalty. The existence of solvers is shown in C87_momentum_example."
 },
 "C88": {
  "note": "Piecewise constants (element degree 0) on any mesh of any number of cells, both forms of the equation with diffusion, assembled row by row; the velocity needs a continuous normal component, not to be free of divergence. Not for higher degrees: there only the limiter bounds the tracer. Two _refuted theorems: the default offset 1/2 of CrankNicolson undershoots with long steps, and in the conservative form an inflow boundary without a value makes implicit steps negative."
 },
 "C89": {
  "note": "All terms of the 2D shallow water and tracer equations, assembled vectors and whole theta-scheme runs; any other integrator as a function of the assembled residual and mass. The penalty factors and quadrature weights are data that move with the mesh. Tracers need: the mean velocity crosses each swapped facet, or no water crosses it, or sign(0) = 0 (C89_still_facet_refuted shows why). In 3D: tracer, momentum, vertical velocity and internal pressure gradient for rotations and reflections of the horizontal axes, with no exception, because the code upwinds with the mean velocity on both sides; runs with SSPRK22ALE and LeapFrogAM3."
 },
 "C90": {
  "note": "Tracer equations in 2D (both forms) and the linear shallow water equations with open boundaries, wind, pressure and sources; theta scheme, explicit, strong stability preserving and diagonally implicit schemes. One solution per step is assumed for the theta scheme in general and proved where the water neither converges nor diverges (C90_calm_run). Wetting and drying and the nonlinear equations are excluded; C90_nonlinear_refuted and C90_limiter_refuted show why. In 3D (C90_rk3d_run, C90_lf3d_run) the mass matrix is assumed regular and the implicit diffusion problem to have at most one solution."
 },
 "C91": {
  "note": "Relational statements about pairs of runs of TimeLoop_Model, and about the 3D loop with the export's effect on uv_3d (Watch_Model). Callbacks and exporters only read the fields. C91_export_rounding_3d_refuted (IEEE double precision), C91_failed_export_3d_refuted, C91_export_interval_3d_refuted and C91_written_twice_refuted give the exceptions."
 },
 "C92": {
  "note": "Moving a function with a symmetry commutes with every term of the 2D shallow water and tracer equations; with a step's system having one solution, that solution is symmetric. Renaming points and markers (between any two index types) leaves every term unchanged. The basis functions are permuted, those of the velocity up to sign. Tracers need the condition on still facets of C89. Solvers are exact; rounding is not modelled."
 },
 "C93": {
  "note": "Term by term, changing the reference level keeps the value of every 2D shallow water and tracer form; runs follow with any number of steps. For the linear equations the depth ignores the elevation and the statement is refuted. Time-dependent boundary elevations are covered because the environment of each step is arbitrary; 3D is not covered."
 },
 "C94": {
  "note": "The check of the constructor is characterised for every node list and partition. The stronger claim, that a built model has no too small grains anywhere, is refuted, as is independence of the partition for grain sizes that vary in space."
 },
 "C95": {
  "note": "2D shallow water and tracer terms, assembled systems, and runs of the shallow water equations with the theta scheme and explicit Runge-Kutta schemes. Global data are the same in both runs. The whole domain is assumed to have a solution in each step and the basin at most one. Basins are separated if no basis function and no facet belongs to both; iterative solvers with a global tolerance, and tracer runs, are not covered."
 }
}