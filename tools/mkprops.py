#!/usr/bin/env python3
"""Regenerates /verif/properties.jsonl from the table below (kept as a script so that the text can be edited comfortably)."""
import json, os
P = []
def p(title, statement, quantifier, why, anchors):
    P.append(dict(id="C%02d" % (len(P)+1), title=title, statement=statement, quantifier=quantifier,
                  why_tests_cant=why, anchors=anchors))

# ---------------------------------------------------------------- time loop
p("Simulation clock is exact and the run stops at the end time",
  "While a 2D or 3D run is iterated, the simulation time seen after n steps equals (initial time) + n*timestep, never an accumulated sum; for every positive timestep the run terminates, performs exactly as many steps as needed, and its final time is the first clock value that exceeds end_time minus the 1e-5 s tolerance.",
  "every initial time, end time, positive timestep and number of steps",
  "a test fixes one (dt, end_time); the off-by-one at the end of the loop and termination range over all real values",
  ["thetis/solver2d.py: FlowSolver2d.create_iterator", "thetis/solver.py: FlowSolver.iterate"])
p("Exports are regular and never early",
  "During a run at most one export is made per time step; the k-th export is made at the first clock value not earlier than t0 + k*export_interval minus the tolerance whenever the timestep does not exceed the export interval; all exporters and the solver's export counter advance together by one per export. If the time step divides the export interval the k-th export occurs exactly at t0 + k*interval.",
  "every timestep, export interval, end time and run length",
  "needs an invariant over every number of steps; tests check one ratio dt/export_interval",
  ["thetis/solver2d.py: FlowSolver2d.create_iterator, FlowSolver2d.export", "thetis/solver.py: FlowSolver.iterate"])
p("3D time step adjustment",
  "The 3D solver replaces the requested time step by one that is not larger, that divides the export interval into a whole number of steps, and (split mode) sets a 2D step that is not larger than the requested/CFL one and divides the 3D step exactly; no coarser admissible step exists between it and the requested one.",
  "every positive requested dt, dt_2d and export interval",
  "ceil/division rounding properties over all real values",
  ["thetis/solver.py: FlowSolver.set_time_step"])
p("Restart continues the uninterrupted run",
  "Loading the state that a run stored at export k and iterating to the same end time produces the same sequence of (clock, state, export index, export time) as the uninterrupted run shows after export k, when stepping is deterministic, dt divides the export interval and the time loop is the one in the code.",
  "every export index, dt, export interval, end time, every step function of the model state",
  "histories of unbounded length split at every possible point",
  ["thetis/solver2d.py: FlowSolver2d.load_state, create_iterator", "thetis/solver.py: FlowSolver.load_state, iterate"])
p("Restart with an end date stops at the end date",
  "If the run is controlled by simulation_end_date, the end time used by the loop is the number of seconds between the initial date and the end date, also when the run is resumed at a non-zero simulation time. (The code is right for runs that start at time 0 and wrong on resume: refuted with a witness.)",
  "every initial date, end date and resume time",
  "the defect only shows for resumed runs; needs all (t0, dates)",
  ["thetis/solver2d.py: FlowSolver2d.create_iterator", "thetis/solver.py: FlowSolver.iterate"])
# ---------------------------------------------------------------- exporter
p("Checkpoint files never collide and reload what was stored",
  "For one HDF5 exporter: different export indices give different file names, exports never overwrite an earlier export of the same run, the next index is one more than the last one used, and loading index i returns the field and time most recently exported with index i.",
  "every history of export / export_as_index / set_next_export_ix / load calls",
  "arbitrary long histories; zero-padded decimal names of any size",
  ["thetis/exporter.py: HDF5Exporter"])
p("Export manager keeps all exporters in lockstep",
  "After any history of export and set_next_export_ix on an export manager each registered field has been exported once per export call, in registration order, after its own preprocessing function, and all the exporters hold the same next index; state of one manager does not influence another one. (The last clause is refuted for managers that rely on the default preproc_funcs argument.)",
  "every list of fields, every history of operations, every pair of managers",
  "histories; aliasing of a default argument across instances is invisible to a single-instance test",
  ["thetis/exporter.py: ExportManager, VTKExporter, HDF5Exporter"])
p("VTK file name suffix",
  "The VTK exporter appends '.pvd' to the field's file name exactly when the name does not already end with '.pvd'. (Refuted: the test looks at the beginning of the name.)",
  "every file name",
  "all strings",
  ["thetis/exporter.py: VTKExporter.__init__"])
# ---------------------------------------------------------------- callbacks
p("Callback manager semantics",
  "After any sequence of add calls the manager evaluates, for a given mode, exactly the last callback added under each name of that mode, once, in alphabetical order, and never those of another mode.",
  "every sequence of add operations and modes",
  "arbitrary histories of registrations",
  ["thetis/callback.py: CallbackManager"])
p("Diagnostic HDF5 records stay rectangular",
  "After any sequence of successful exports (append or overwrite at an index) all arrays of a diagnostic HDF5 file have the same length; entry i holds the last values written for i; appending grows by one; an index beyond the end is rejected and leaves the file unchanged.",
  "every history of export calls",
  "histories of unbounded length with arbitrary index arguments",
  ["thetis/callback.py: DiagnosticHDF5"])
p("Callback time window",
  "A diagnostic callback is evaluated exactly when start_time <= simulation time <= end_time, a missing bound meaning no bound. (Refuted for end_time = 0, which is treated as missing.)",
  "every start time, end time and simulation time",
  "all real triples",
  ["thetis/callback.py: DiagnosticCallback.__init__, evaluate"])
p("Conservation and extrema callbacks report relative change from the first evaluation",
  "The scalar conservation callback reports (value, (value - v0)/v0) with v0 the first value seen, and 0 at the first call; the min/max callback reports over/undershoots that are non-negative/non-positive exactly when the range is exceeded.",
  "every sequence of observed values",
  "histories",
  ["thetis/callback.py: ScalarConservationCallback, MinMaxConservationCallback, TracerOvershootCallBack"])
p("Time-integrating callback is the trapezium rule",
  "The accumulator callback's value after n evaluations is dt times the trapezium-rule sum of the n observed values.",
  "every sequence of observations",
  "induction over the whole history",
  ["thetis/callback.py: AccumulatorCallback"])
p("Detector output rows are complete and correctly attributed",
  "For each detector the row written contains the components of each requested field in order, and the row splits back into the per-field values; generated detector names are pairwise distinct.",
  "every number of detectors, every list of fields with any mixture of scalar and vector fields",
  "arbitrary sizes and zero-padded names",
  ["thetis/callback.py: DetectorsCallback"])
p("Vertical profile and time series sample inside the water column",
  "The depth levels of a vertical profile start at the surface, end at the bottom, decrease strictly and have the requested number; transect levels likewise; the 3D time series station height is inside the water column.",
  "every column and number of levels",
  "all n and all bottoms/surfaces",
  ["thetis/callback.py: VerticalProfileCallback, TransectCallback, TimeSeriesCallback3D"])
# ---------------------------------------------------------------- time search
p("Time stamp search brackets the requested time",
  "In a file with increasing time stamps, find_time_stamp(t, previous=True) returns the largest stamp strictly before t + 1e-6 and previous=False the smallest stamp at or after t + 1e-6; it raises exactly if there is no such stamp.",
  "every increasing list of stamps and every t",
  "all lists and all reals",
  ["thetis/interpolation.py: NetCDFTimeParser.find_time_stamp"])
p("Time search over many files behaves as over one concatenated file",
  "For any set of files whose time ranges do not overlap, searching the file set returns the stamp that a search in the concatenated time axis would return, with the file that contains it; file list order does not matter. (Refuted when the ranges overlap.)",
  "every list of files of any lengths, every t",
  "unbounded number of files, gaps and single-entry files",
  ["thetis/interpolation.py: NetCDFTimeSearch"])
p("Linear time interpolation is exact, bounded and cache-transparent",
  "Interpolated forcing values equal the stored ones at the stamps, lie between the bracketing values elsewhere, and the cache of at most two time slices never changes a result, whatever times were requested before.",
  "every request history, every time series",
  "cache correctness depends on unbounded request histories",
  ["thetis/interpolation.py: LinearTimeInterpolator"])
p("Daily file search",
  "The daily file search orders files by the date parsed from their names, converts dates to file start times that increase with the date, and picks the file of the requested day, raising when the day is missing.",
  "every set of dates and every t",
  "calendar arithmetic over all dates",
  ["thetis/interpolation.py: DailyFileTimeSearch"])
p("netCDF variable lookup precedence",
  "get_ncvar_name returns a variable matching one of the given criteria if there is one and raises otherwise; standard_name matches take precedence over long_name matches, and those over var_name matches. (Precedence holds within a variable only; across variables it is refuted.)",
  "every file content and every query",
  "all variable tables",
  ["thetis/interpolation.py: get_ncvar_name"])
p("Grid interpolation reproduces linear data and fills outside points as configured",
  "Interpolation weights are non-negative and sum to one at interpolated targets, so results lie between the source values and affine data is reproduced exactly; outside targets get the nearest value, the fill value or NaN exactly as configured, and inside targets are never touched by filling.",
  "every triangulation cell, target point and data vector",
  "all real inputs",
  ["thetis/interpolation.py: GridInterpolator"])
# ---------------------------------------------------------------- RK
p("Butcher to Shu-Osher conversion preserves the scheme",
  "For every explicit scheme with non-zero sub-diagonal, and every DIRK scheme with non-zero diagonal, the alpha/beta arrays returned by the conversion have unit row sums and define the same time step as the Butcher tableau for every right-hand side.",
  "every number of stages, every admissible tableau, every (nonlinear) right-hand side",
  "the code only checks matrices it is given, in floating point; equivalence is for all n and all F",
  ["thetis/rungekutta.py: butcher_to_shuosher_form, ERKGenericShuOsher"])
p("Explicit Runge-Kutta integrators compute the Butcher step",
  "One advance of the explicit integrators (Butcher and Shu-Osher variants) gives u + dt*sum b_i k_i with k_i = F(t + c_i dt, u + dt*sum a_ij k_j), for every tableau; forcings are updated to t + c_i*dt before stage i, in stage order, once each.",
  "every tableau, state space, right-hand side, dt, t",
  "all right-hand sides and stage numbers",
  ["thetis/rungekutta.py: ERKGeneric, ERKGenericShuOsher, RungeKuttaTimeIntegrator.advance"])
p("Implicit Runge-Kutta integrators compute the Butcher step",
  "If every stage solve is exact, the DIRK integrators produce stages satisfying the implicit Butcher equations and the Butcher update; the solution-form variant gives the same step for stiffly accurate tableaux. (Terms of the form A(u)u in the tendency form are linearised around the previous stage, or the start value with the semi-implicit option: the fully implicit reading is refuted for them.)",
  "every lower triangular tableau, right-hand side, dt, t and exact solver",
  "all right-hand sides; the two code paths differ structurally",
  ["thetis/rungekutta.py: DIRKGeneric, DIRKGenericUForm"])
p("Order of accuracy of the shipped schemes",
  "Every shipped tableau satisfies the classical order conditions up to its advertised order (order 1: sum b = 1; order 2: sum b c = 1/2; order 3: the two third-order conditions), its c are the row sums of a, and it is lower triangular. (DIRK33's gamma is a 10-digit decimal: third order holds to 1e-10 only.)",
  "all shipped tableaux, exact arithmetic with sqrt(2), sqrt(3)",
  "irrational coefficients: exact identities cannot be tested in floats",
  ["thetis/rungekutta.py: *Abstract classes"])
p("Implicit-explicit integrator step",
  "One advance of an IMEX integrator gives u + dt*sum b_i k_i + sum be_i te_i, where the stages combine the implicit and explicit tableaux, and forcings are updated at the abscissae of both.",
  "every pair of tableaux with equal stage counts, both right-hand sides",
  "all right-hand sides",
  ["thetis/implicitexplicit.py: IMEXGeneric"])
p("Time integrators preserve linear invariants and steady states",
  "If a linear functional (total mass, volume) of the tendency is zero for all states then its value is unchanged by a step of any shipped integrator (RK, theta, SSPRK22-ALE, leapfrog-AM3); a steady state of the right-hand side stays unchanged. (With the wetting-drying displacement in the mass term this is refuted for the tendency form and for the pressure projection scheme.)",
  "every linear functional, right-hand side, state, number of steps",
  "all functionals and step counts",
  ["thetis/rungekutta.py", "thetis/timeintegrator.py: ForwardEuler, CrankNicolson, SSPRK22ALE, LeapFrogAM3"])
p("Strong stability preservation of SSPRK33",
  "A step of SSPRK33 is a convex combination of forward Euler steps, so it keeps any convex constraint (bounds, positivity) that forward Euler keeps under the same time step.",
  "every convex set, right-hand side",
  "all convex sets",
  ["thetis/rungekutta.py: SSPRK33Abstract, ERKGenericShuOsher"])
p("Consecutive steps chain, external changes included",
  "n advances give the n-fold composition of the one-step map, starting from whatever is in the solution field, including changes made between steps (limiters, coupling). (True for DIRK, theta and Shu-Osher integrators; refuted for the Butcher-form explicit one, which restarts from its own saved copy.)",
  "every sequence of advances and external modifications",
  "histories mixing operations",
  ["thetis/rungekutta.py: ERKGeneric, DIRKGeneric", "thetis/timeintegrator.py"])
p("Old field values are the previous step's values",
  "At the time of a step of the one-step integrators, the lagged copies of function-valued coefficients hold their values at the end of the previous step; constants are shared and hence always current. (Refuted for coefficients given as general expressions: they have no lagged copy and drop out of the old time level.)",
  "every sequence of external coefficient updates and steps",
  "histories",
  ["thetis/timeintegrator.py: TimeIntegrator.create_fields_old, update_fields_old, ForwardEuler, CrankNicolson"])
# ---------------------------------------------------------------- options
p("Options can only hold valid values",
  "After any sequence of assignments and updates to an option object, each option holds a value of its declared domain (positive, non-negative, bounded, enumerated); a rejected assignment leaves the value unchanged; unknown names are rejected once the object is frozen.",
  "every history of assignments",
  "unbounded histories and value domains",
  ["thetis/configuration.py", "thetis/options.py"])
p("Paired options follow the enum",
  "After any history of assignments the options object attached to an enum choice is of the class paired with the current choice; re-assigning the same choice keeps the user's settings, a new choice starts from the defaults, and set_timestepper_type gives every component the type and the settings. (Refuted: objects assigned by hand and updates listing the object before the choice; set_timestepper_type is not atomic.)",
  "every history of assignments",
  "histories",
  ["thetis/configuration.py: attach_paired_options, PairedEnum"])
p("Tracer registration is consistent",
  "After any history of add_tracer_2d / add_tracer_system_2d calls, each label is registered at most once and each registered label has its field metadata; successful calls make the solver solve each label exactly once, in order of registration; a rejected label leaves the registry unchanged. (Refuted: add_tracer_system_2d and invalid coefficients leave partial entries.)",
  "every history of registrations",
  "histories with failures",
  ["thetis/options.py: ModelOptions2d.add_tracer_2d, add_tracer_system_2d"])
p("Frozen solver objects",
  "Setting an attribute that does not exist on a frozen object raises; objects whose methods temporarily unfreeze are frozen again afterwards. (Refuted when the wrapped method raises.)",
  "every sequence of operations, including failing ones",
  "histories with exceptions",
  ["thetis/utility.py: FrozenClass, unfrozen"])
p("Date conversion round trip",
  "epoch_to_datetime and datetime_to_epoch are mutually inverse and the epoch value of an instant does not depend on the time zone in which it is expressed; differences of epochs are elapsed seconds.",
  "every instant and every fixed offset time zone",
  "all dates and offsets",
  ["thetis/timezone.py", "thetis/interpolation.py"])
# ---------------------------------------------------------------- limiter etc
p("Slope limiter bounds",
  "The limiter's admissible interval at every vertex contains the means of all adjacent cells and of adjacent boundary facets; limited values lie within it, cell means are preserved, and admissible fields are not changed.",
  "every mesh connectivity and every field",
  "all meshes, all data",
  ["thetis/limiter.py: VertexBasedP1DGLimiter"])
p("Wetting-drying depth is positive",
  "With wetting and drying the total depth is positive for every elevation and bathymetry, not less than max(H,0), within alpha/2 of it, and strictly increasing in elevation; automatic alpha lies within the configured bounds.",
  "all reals",
  "real inequalities",
  ["thetis/utility.py: DepthExpression", "thetis/solver2d.py: set_wetting_and_drying_alpha"])
p("Equation residual is the sum of the selected terms",
  "The residual assembled with label 'all' equals the sum over every registered term, each once; the residuals with the individual labels partition it; adding a term under an existing name replaces it; the equations of the code base contain each of their terms once. (Refuted: a failing add_term leaves an unlabelled term.)",
  "every history of add_term calls",
  "all sets of terms and labels",
  ["thetis/equation.py: Equation"])
p("Stability functions are self-consistent",
  "For each stability function parameter set: the steady state shear parameter solves production = dissipation; cmu0 is consistent with the steady state; kappa(sigma_psi) and sigma_psi(kappa) are mutually inverse; smoothed/limited alpha values stay within their admissible range; both evaluation paths agree.",
  "all admissible parameters and flow states",
  "identities over the reals",
  ["thetis/stability_functions.py"])
p("Turbulence closure post-processing respects its limits",
  "After each turbulence update k >= k_min, psi >= psi_min, eps >= eps_min (as configured), the length scale lies below its upper limit and satisfies the Galperin limit in stable stratification, viscosity/diffusivity are at least their background values; implicit/explicit source splitting keeps k and psi positive.",
  "all pointwise states",
  "all reals, sign-dependent exponents",
  ["thetis/turbulence.py"])
p("Turbine thrust tables interpolate",
  "Tabulated thrust equals the table at its nodes, lies between neighbouring values inside, and takes the documented values outside. (Refuted at the last node.)",
  "every increasing table and speed",
  "all tables and reals",
  ["thetis/turbines.py: linearly_interpolate_table, TabulatedThrustTurbine"])
p("Turbine distance constraints",
  "The constraint function has one entry per unordered pair of turbines, is non-negative exactly when all pairs keep the minimum distance, and the returned Jacobian is its derivative.",
  "every number of turbines and positions",
  "all n",
  ["thetis/turbines.py: MinimumDistanceConstraints"])
p("Sediment exchange conserves mass",
  "What erosion and deposition remove from the bed they add to the water column and vice versa (up to the morphological factor and porosity), for both tracer forms; transport coefficients stay in their physical range.",
  "all pointwise states",
  "real identities over all states",
  ["thetis/exner_eq.py", "thetis/sediment_eq_2d.py", "thetis/sediment_model.py"])
p("Optimisation callbacks",
  "Callbacks in an optimisation callback list are all called, in registration order, at every evaluation, and the derivative callback returns what the optimiser passes on unchanged; files of deferred exporters are created once.",
  "every history of evaluations",
  "histories",
  ["thetis/optimisation.py"])
p("Vector rotation between coordinate systems is an isometry",
  "Rotating a vector field to the mesh coordinate system and back gives the original vector, preserves its length and maps north to the local north direction; non-finite coordinates stay non-finite.",
  "all vectors and rotation angles",
  "real identities",
  ["thetis/coordsys.py: VectorCoordSysRotation, get_vector_rotation_matrix"])
p("Log directory handling keeps earlier messages",
  "Opening the same log directory in append mode keeps its earlier content; buffered messages are written to the first log once. (Refuted: 'a' truncates; re-initialising the loggers duplicates handlers.)",
  "every history of logging calls",
  "histories over handlers",
  ["thetis/log.py"])
p("ALE moving mesh",
  "The moving mesh maps the reference surface to the free surface and the reference bottom to the bottom, keeps layers ordered exactly when the total depth is positive, and its mesh velocity is consistent with the mesh displacement over a step (so constants are preserved by the two-stage integrator).",
  "all depths, elevations and layer counts",
  "real identities",
  ["thetis/utility3d.py: ALEMeshUpdater", "thetis/coupled_timeintegrator.py: CoupledTwoStageRK", "thetis/timeintegrator.py: SSPRK22ALE"])
p("Column operations are inverse",
  "Expanding a 2D field to 3D gives a vertically constant field; extracting its surface, bottom or average returns the 2D field; extraction picks the documented layer.",
  "every column height and data",
  "all layer counts",
  ["thetis/utility3d.py: ExpandFunctionTo3d, SubFunctionExtractor", "thetis/utility.py: get_facet_mask"])
p("Shallow water discretisation conserves volume and keeps a lake at rest",
  "On every mesh, the weak form of the shallow water terms, for every polynomial degree, conserves total volume with closed boundaries, keeps a lake at rest (flat surface, zero velocity) exactly at rest over any bathymetry, Coriolis does no work and bottom drag never adds energy.",
  "every mesh and every state",
  "all meshes",
  ["thetis/shallowwater_eq.py"])
p("Tracer discretisation conserves mass and respects bounds",
  "On every mesh, the conservative tracer form conserves total mass when nothing flows through the boundary; the non-conservative form keeps constants and, for cellwise constant tracers with explicit Euler under the CFL condition, keeps the tracer between its extrema; diffusion conserves mass and is dissipative. (Refuted at boundaries without conditions that the velocity crosses, at prescribed velocities and for velocities whose normal component jumps.)",
  "every mesh, velocity, tracer",
  "all meshes",
  ["thetis/tracer_eq_2d.py"])
p("Boundary condition precedence",
  "The exterior values used at a boundary follow the documented precedence of the given keys; a boundary with an invalid combination is rejected irrespective of the order of boundaries. (Refuted: order dependent / NameError.)",
  "every dictionary of boundary conditions in every order",
  "all dictionaries and orders",
  ["thetis/shallowwater_eq.py: ShallowWaterTerm.get_bnd_functions, impose_dynamic_bnd", "thetis/tracer_eq_2d.py: get_bnd_functions"])
p("Detector selection",
  "Of the given detector locations exactly those within the mesh (or movable into it within the maximum distance) are returned, in their original order, with their own names; the choice of detectors does not depend on how the mesh is distributed over processes, nor do the new positions where the nearest cell centre is unique. (Refuted for positions equally near to two cell centres.)",
  "every list of locations and names, every process count",
  "all lists and partitions",
  ["thetis/utility.py: select_and_move_detectors"])
p("Wind stress",
  "The wind stress is parallel to the wind (same direction), zero for no wind and odd in the wind vector, with a positive drag coefficient for every method.",
  "all wind vectors",
  "all reals",
  ["thetis/forcing.py: compute_wind_stress"])
p("Inversion bookkeeping",
  "The cost function is the sum of station misfits plus regularisation, non-negative and zero for a perfect match; only stations inside their observation window contribute; per-iteration records have one entry per iteration, the latest one; gradients are attributed to the right control. (Refuted for mask lists of a different length.)",
  "every history of evaluations and every set of controls and stations",
  "histories",
  ["thetis/inversion_tools.py"])
p("Coupled 2D stepping order",
  "One coupled step advances shallow water first, then tracers in registration order, then sediment, then bed (each exactly when enabled and not frozen by options), with lagged values updated only at the first Picard iteration and stored fields only at the last.",
  "every option combination, tracer list and number of Picard iterations",
  "all combinations",
  ["thetis/coupled_timeintegrator_2d.py"])
p("Extruded mesh vertical grid",
  "The vertical coordinates of the extruded mesh run from the surface (0) to the bathymetry and do not increase downwards, whatever the stretching factor and minimum layer depths.",
  "every bathymetry, number of layers, stretch factor",
  "all reals and layer counts",
  ["thetis/utility.py: extrude_mesh_sigma"])
p("Equation of state",
  "The linear equation of state is affine with the configured reference values; the nonlinear equations treat negative salinity as zero; density solvers leave the temperature untouched.",
  "all T, S, p",
  "all reals",
  ["thetis/utility3d.py: LinearEquationOfState, JackettEquationOfState, DensitySolver"])

p("Field registry",
  "Every non-mixed field that a solver holds has metadata, so that it can be exported; the metadata of a label never change afterwards, whatever solvers and fields are added later; add_new_field stores exactly what it was given and a refused call changes nothing; built-in fields have pairwise different file names; a Function carries the name of the key it was stored under last. (Refuted: solvers of one process are independent; user fields have different file names; 'tracer_2d' keeps its metadata.)",
  "every sequence of solver creations and field registrations in a process",
  "all histories of a module-level dictionary shared by all solvers",
  ["thetis/field_defs.py: field_metadata", "thetis/utility.py: FieldDict, SumFunction", "thetis/solver2d.py: add_new_field, __init__", "thetis/solver.py: add_new_field"])

p("3D tracer transport",
  "The residual of the 3D tracer equation changes the total amount of tracer only through the moving free surface, open lateral boundaries and sources (interior facets, upwinding and stabilisation move tracer between cells; vertical diffusion conserves; horizontal diffusion conserves on flat bottoms); a uniform tracer stays uniform when the vertical velocity satisfies the discrete continuity equation and boundaries are open to tracer and momentum alike; advection does not increase the variance; a piecewise constant tracer does not grow where it is largest nor shrink where it is smallest; diffusion is symmetric and dissipative under the penalty condition. (Refuted: conservation of horizontal diffusion on a sloping bottom; the 'flux' boundary condition raises TypeError.)",
  "every mesh, quadrature, velocity, tracer, test function, boundary dictionary and diffusivity",
  "all meshes and fields; unit tests run a few configurations to a tolerance",
  ["thetis/tracer_eq.py: HorizontalAdvectionTerm, VerticalAdvectionTerm, HorizontalDiffusionTerm, VerticalDiffusionTerm, TracerTerm.get_bnd_functions", "thetis/utility3d.py: VerticalVelocitySolver"])

p("3D momentum and internal pressure gradient",
  "Each component of the 3D horizontal velocity is advected and diffused by exactly the forms of the tracer equation (lateral boundaries apart), so advection changes total momentum only at the surface and lateral boundaries; in a closed basin advection, walls, bottom friction, drag and rotation never increase kinetic energy; still water stays still and a uniform flow is kept; wind acts only together with vertical viscosity and then adds stress over density; the internal pressure gradient equals g times the gradient of the baroclinic head (by parts or not), is zero for a head depending on depth only, and its total is the pressure on the boundaries; boundary dictionaries are resolved in a fixed order and an unsupported one raises. (Refuted: the roughness-length drag coefficient is always defined.)",
  "every mesh, quadrature, velocity, test function, boundary dictionary, viscosity and drag",
  "all meshes and fields; unit tests run a few configurations to a tolerance",
  ["thetis/momentum_eq.py: MomentumEquation and its terms, InternalPressureGradientCalculator"])

p("A coupled 2D-3D step leaves no stale diagnostics and splits the momentum exactly",
  "After every time step of the 3D solver, and after assign_initial_conditions, the 3D mesh, vertical velocity, internal pressure gradient, depth-averaged velocity and Smagorinsky viscosity are those of the prognostic fields of that same step; each right-hand side is assembled with a vertical velocity and pressure gradient that match the fields it sees, on the old mesh, and solved on the new one. Every active equation is advanced exactly once per stage in a fixed order. The coupling leaves a 3D velocity without depth average, with uv_3d + uv_dav_3d averaging to uv_2d, and hands exactly the removed momentum to the 2D mode.",
  "all option combinations, all sub-solver behaviours, all states and numbers of steps, both coupled integrators",
  "option combinations are too many to run and a stale diagnostic changes results only slightly; the statement is about every state reached",
  ["thetis/coupled_timeintegrator.py: CoupledTwoStageRK.advance, CoupledLeapFrogAM3.advance, CoupledTimeIntegrator.initialize, set_dt, _update_2d_coupling", "thetis/solver.py: FlowSolver.assign_initial_conditions"])

p("External forcing reaches the right node in the right frame and unit",
  "After set_fields(t) every node holds the stress that the wind of time t, seen in mesh coordinates, exerts, and the pressure in Pascal (\"pa\" or \"hpa\"); after set_tidal_field(t) every selected node holds the tidal elevation at its own longitude and latitude (0 where the data base has none), other nodes are untouched, and the tidal current is rotated to the mesh; NCOM, ROMS and generic data reach the field of their own variable, velocity pairs are rotated together, source values stay attached to their source points, and the ROMS data points of a wet column run in increasing order from bottom to surface. All of this depends on the last time only, whatever was evaluated before. Forecast files are cut at max_duration. (Refuted: an unknown pressure unit is refused; tidal currents outside the selected boundaries are untouched; a missing north current gives no current; uneven stamps respect max_duration; the ATM interpolator asks for the file's 'time'.)",
  "all data, times, histories of evaluations, nodes, rotation angles and grids",
  "the data bases are large, external and not part of the tests; a misplaced index or an unrotated vector still gives plausible fields",
  ["thetis/forcing.py: AtmosphericForcingInterpolator.set_fields, ERA5Interpolator, TCHazardsInterpolator, ATMInterpolator, ATMNetCDFTime, SpatialInterpolatorNCOM3d, NCOMInterpolator.set_fields, SpatialInterpolatorROMS3d, GenericInterpolator2D.set_fields, TidalBoundaryForcing.set_tidal_field"])

p("Diagnostic fields are what their documentation defines",
  "VorticityCalculator2D solves for the L2 projection of -v_x + u_y (plus the vortex sheet of a tangential jump), reproduces it exactly when it lies in the space, and its total is the boundary circulation; GradientRecoverer2D and HessianRecoverer2D return gradient and Hessian exactly when these lie in the spaces; KineticEnergyCalculator returns half density times squared speed, with or without the vertical component; unsuitable spaces raise ValueError; form2indicator gives every cell the integrals over the cell, its boundary edges and its facets, independent of the cell's size. (Refuted: the indicators of a discontinuous method add up to the functional - facet integrals are counted twice; a dual on another mesh raises ValueError - it raises NameError.)",
  "every mesh, quadrature, function space, velocity and form",
  "all meshes and fields; tests use one mesh and one analytic field to a tolerance",
  ["thetis/diagnostics.py: VorticityCalculator2D, GradientRecoverer2D, HessianRecoverer2D, KineticEnergyCalculator, DualWeightedResidual2D", "thetis/utility.py: form2indicator"])

p("The non-hydrostatic pressure correction enforces the depth-integrated continuity equation",
  "After a non-hydrostatic pressure solve, the corrected depth-averaged horizontal and vertical velocities satisfy the depth-integrated continuity equation (with the bed velocity of the uncorrected flow) for every pressure test function: exactly in closed basins, and up to the uncorrected open-boundary flux and a pressure slope term elsewhere. The pressure is unique while the slope of (elevation - bathymetry) is below 4; a flow that already satisfies the equation is returned unchanged with zero pressure; over a level bed and surface the correction is an orthogonal projection and never adds kinetic energy. The prepared condition q = 0 on open boundaries is not imposed, and on a sloping bed the corrected flow misses the continuity equation with its own bed velocity (both shown by counterexample).",
  "every mesh and quadrature with positive weights, wet depth field, bathymetry, elevation, density, time step, open boundary set, velocity and pressure spaces with compatible gradients, and every state",
  "tests run one or two wave cases and compare norms; the constraint, uniqueness and energy statements concern all fields and meshes",
  ["thetis/utility.py:DepthIntegratedPoissonSolver","thetis/coupled_timeintegrator_2d.py:NonHydrostaticTimeIntegrator2D"])

p("The automatic time step respects every element and does not depend on the partition",
  "With an automatic time step the 3D solver takes the longest step that divides the export interval and that no element forbids (horizontal advection, vertical advection and diffusion over one step stay below the element's share, at every node); the result is the same on every distribution of the mesh over processes that gives each process a node. The 2D solver's step is the smallest nodal value of the projected CFL field times its factors; it never exceeds the domain mean, and for cellwise constant bathymetry it respects the wave speed of every cell, also on dry land. With a user step that step is used. max_h_diff is the diffusivity for which dt is the explicit limit. (Refuted: higher vertical degree shortens the step - the vertical factor grows with the degree; the 2D automatic step is positive - for linear bathymetry the projection undershoots and the step can be negative; only components that take part can make the step automatic.)",
  "all meshes, distributions, element sizes, bathymetries, velocity and viscosity scales, degrees, element families and export intervals",
  "the step depends on the extreme element of the mesh and on the partition; tests run a few fixed meshes, mostly with user time steps",
  ["thetis/solver.py: FlowSolver.set_time_step, compute_dx_factor, compute_dz_factor, compute_dt_2d, compute_dt_h_advection, compute_dt_v_advection, compute_dt_diffusion, create_timestepper", "thetis/solver2d.py: FlowSolver2d.compute_time_step, set_time_step"])

# Clauses of the properties that the code does not meet; each has a theorem
# C<nn>_..._refuted with a witness.
REFUTED = {
 "C04": "a file without time attribute resumes at the stored time; a 2D restart whose export interval is not a multiple of dt keeps the export schedule; a 2D restart restores tracers",
 "C06": "an export that fails while writing leaves the earlier file with that index intact",
 "C07": "a field registered late keeps step with the others; a TypeError inside an export still means one export; the 3D velocity is restored when an export raises; a VTK exporter started at a non-zero index writes that index first",
 "C10": "an append that fails half way leaves the file unchanged; the variables of a station callback with several fields have distinct names",
 "C11": "start_time = 0 is respected; a late start_time works with export-mode callbacks of the 3D solver; a restart keeps the earlier rows",
 "C12": "the report is defined when the first value is zero",
 "C13": "the same holds for callbacks evaluated at exports; the accumulated value can be logged and written to HDF5",
 "C15": "in water shallower than the configured range the levels and the station height stay inside the column",
 "C18": "the last time stamp can be interpolated; stamps closer than the tolerance are interpolated",
 "C19": "a missing day is detected between files",
 "C20": "an upper-case query finds its variable",
 "C28": "the advertised CFL coefficient of ERKMidpoint is an SSP coefficient",
 "C29": "an IMEX integrator that was not initialised starts from the solution",
 "C31": "a rejected update leaves every option unchanged",
 "C33": "an empty tracer system registers nothing",
 "C36": "limiting twice is limiting once; fields beyond 1e10 are limited to their neighbours' range",
 "C37": "alpha = 0 gives positive depth; crossed bounds for alpha are respected; linear equations ignore the displacement in the mass term",
 "C39": "the Kantha-Clayson cmu0 is defined; the smooth buoyancy limiter stays in range for every critical value; the Cheng functions are the Canuto form with Cheng's constants",
 "C40": "the length scale is at least len_min; the Galperin limit and the positivity of psi hold for closures with n > 0; initial conditions for k and psi given by the user are used",
 "C41": "a power coefficient of zero is respected",
 "C43": "the first integral of the velocity factor is continuous; the slope effect is diffusive for every time step; boundary values may be expressions",
 "C44": "functions of the same name each get their own file; an export with fewer functions writes no old values; functional callbacks at the pre stage raise",
 "C46": "a failing switch of the log directory keeps the old log",
 "C48": "the top of a column with one vertical node per cell is its top value; a boundary value of the vertical integral is added with its own sign",
 "C49": "a prescribed normal velocity of zero is a wall; the viscosity form is symmetric for discontinuous viscosity",
 "C50": "the conservative form keeps constant concentrations",
 "C51": "the tracer and the momentum equation use the same boundary velocity; the viscosity term uses the velocity that takes precedence",
 "C52": "a process without cells takes part; fewer names than locations are rejected",
 "C54": "missing data are skipped when a window is given; two stations at one place use their own data; constant observations can be weighted by variance; the progress file has one row per iteration and one series row per cost; two managers of one variable keep their series apart",
 "C55": "tracers run together with sediment or Exner; the non-hydrostatic solver runs with tracers and with a fixed free surface; tracer_only without tracers advances nothing; labels 'swe2d' and 'sw' are harmless; limiters work for degree 0 and mixed systems or are refused before the step; Picard iterations with unsupported integrators are refused before the step",
 "C56": "a stretch factor of zero keeps the surface at 0; decreasing minimum depths keep the order; entry i of min_depth acts on interface i",
 "C57": "the weak density solver leaves the salinity untouched",
 "C61": "assign_initial_conditions with both velocities sets the depth average and counts it once; w at open boundaries belongs to the values of update_forcings3d; timestep_2d = timestep/k is accepted; the leapfrog integrator forces the 2D mode with the full depth-averaged tendency",
 "C62": "max_duration shorter than a step is accepted; a constant elevation of zero is used; the third component of tidal currents on the sphere is set",
}
for x in P:
    r = REFUTED.get(x["id"])
    if r:
        x["statement"] += " (" + ("Also refuted: " if "efuted" in x["statement"] else "Refuted: ") + r + ".)"

p("Solver parameters reach the solvers",
  "For every time integrator and every option object, each solver the integrator creates receives all the solver parameters the user put in the option object; only 'snes_type' (if absent: a single linear solve for the linearised form, Newton otherwise) and, for a direct solver, 'mat_type' are added. Creating any number of integrators in any order never loses or changes another entry of any option object, and never touches a dictionary that is not the integrator's own. Solvers of one integrator have different options prefixes. (Refuted: solver_parameters_pressure of the pressure projection scheme reaches no solver, with default options the wave system is solved with none of the Schur complement settings, and a dictionary without 'ksp_type' raises a KeyError; the leapfrog scheme ignores its parameters; the Runge-Kutta schemes in tendency form do not ask for an assembled matrix for LU; an option object used once with the linearised form keeps 'ksponly' when it is used again with the full form; the prefix called a unique identifier is shared by all tracers; the '_impl' and '_expl' tags reach no solver.)",
  "every integrator class, option object, dictionary contents and sequence of constructions sharing dictionaries",
  "A test sees one integrator built once from fresh options; the aliasing of the dictionaries only shows over histories of constructions, and an ignored option leaves the result looking plausible.",
  ["thetis/timeintegrator.py:TimeIntegrator.__init__", "thetis/timeintegrator.py:CrankNicolson", "thetis/timeintegrator.py:PressureProjectionPicard.__init__", "thetis/timeintegrator.py:LeapFrogAM3.initialize", "thetis/rungekutta.py:DIRKGeneric.update_solver", "thetis/rungekutta.py:DIRKGenericUForm.update_solver", "thetis/implicitexplicit.py:IMEXGeneric.__init__"])
p("Assembled Schur complement solves the wave system",
  "After any sequence of updates the inner solver of AssembledSchurPC holds D - C M^-1 B of the current blocks. If the velocity block is the mass matrix M, the elementwise inverse of which is its inverse for every discontinuous space, the default block solve returns the solution of the whole saddle point system, and the only one when the complement is regular; a solve that does not converge raises. With continuous elevation, closed boundaries and boundaries at which only the elevation is given, the pressure gradient does not depend on the velocity, so that the velocity block is M. (Refuted: at boundaries with a prescribed velocity or flux the pressure gradient depends on the velocity, so the block is not M, and then the block solve with exact inner solves does not solve the system; the elementwise inverse is not the inverse for continuous spaces; the transposed solve is not implemented.)",
  "every field, dimension, sequence of Jacobian blocks, right-hand side, exact inner solver; every mesh, field, boundary condition and depth",
  "The claim is an exact algebraic identity over all matrices; a test on one mesh with closed boundaries cannot see the boundary conditions for which it fails, because the outer iteration stops silently after one application.",
  ["thetis/assembledschur.py:AssembledSchurPC", "thetis/options.py:PressureProjectionSWETimeStepperOptions2d", "thetis/timeintegrator.py:PressureProjectionPicard", "thetis/shallowwater_eq.py:ExternalPressureGradientTerm.residual"])

p("Mesh geometry and the quantities derived from it",
  "For every non-degenerate triangle, in whatever order its edges are numbered, the minimum angle is the smallest interior angle, positive and at most 60 degrees. Cell widths are those of the bounding box and bound the distance of any two points of the cell; the automatic wetting and drying parameter of a cell is at least the variation of the bathymetry in it, obeys its limits and is never negative, and nodal values are values of an adjacent cell. The anisotropic cell size is, without its regularisation, the smallest stretching of the reference cell. The beta plane is tangent to the exact Coriolis parameter and within 2 Omega (y/R)^2 of it. Streamline upwinding leaves constants unchanged and is linear. Projecting a restriction preserves its integral, does not increase its norm, is unique, and vanishes outside the subdomain for discontinuous spaces. (Refuted: with the regularisation the cell size is NaN for cells with determinant below 7.5e-9; a node takes the parameter of the last of its cells, which can be smaller than the variation in another; the stabilisation parameter compares a time with a dimensionless number, so the result depends on the unit of time; a projected density in a continuous space can be negative and exceed its maximum.)",
  "every triangle, edge numbering, mesh, bathymetry gradient and limits; every Jacobian; every latitude and distance; every function space, quadrature and subdomain",
  "The claims range over real-valued geometry; tests check a few meshes, where the degenerate, badly ordered and small cells do not occur.",
  ["thetis/utility.py:get_minimum_angles_2d", "thetis/utility.py:get_cell_widths_2d", "thetis/utility.py:anisotropic_cell_size", "thetis/utility.py:beta_plane_coriolis_function", "thetis/utility.py:SubdomainProjector", "thetis/solver2d.py:FlowSolver2d.set_wetting_and_drying_alpha", "thetis/tracer_eq_2d.py:TracerEquation2D.apply_supg"])

p("Building a turbulence closure completes its parameters consistently",
"When a generic length scale closure is built from its options, every value the user set and did not ask to be computed is kept, and building again from the completed options changes nothing. Whichever of the von Karman constant and the psi Schmidt number is computed from the other, the completed constants satisfy the log layer relation, so that the law of the wall is an exact steady state of the psi equation, the dissipation computed from k and psi is the one of the law of the wall, the prescribed wall flux of psi is its diffusive flux and the stability function returns its eddy viscosity. Computed minimum values of psi and of the length scale correspond to those of k and epsilon. If the von Karman constant is computed, the mean flow uses the same one; in a program building several closures the mean flow ends with the constant of the last one that computed it. Applying the defaults of a named closure sets the documented parameters to values that depend on the name only, keeps the rest and refuses other names; psi is epsilon for k-epsilon and epsilon/(cmu0^4 k) for k-omega. (Refuted: every offered stability function can be used with the default options; choosing a closure by setting its name; the tabulated constants satisfy the log layer relation without the switches; closure and mean flow use one von Karman constant, both for a constant set by the user and for the earlier of two models.)",
"all option values, all sequences of closures built in one program, all friction velocities and distances from the wall, every result of the numerical solution used for c3_minus",
"A unit test builds one closure with default options; consistency of the constants for every choice of options, idempotence and the effect on a shared constant over program histories are universally quantified, and the steady state is an analytic identity.",
["thetis/turbulence.py:GenericLengthScaleModel.__init__","thetis/turbulence.py:PsiSourceTerm","thetis/options.py:GLSModelOptions","thetis/stability_functions.py:StabilityFunctionBase","thetis/physical_constants.py"])

p("The CFL coefficient of a time integrator is a step it can take",
"Each integrator declares a CFL coefficient: the number of forward Euler stability limits one step may span, or 'unconditionally stable'. For every problem of which forward Euler with step tau does not increase a convex measure (a norm, the total variation, the overshoot), a step of at most coefficient x tau does not increase it either: for linear autonomous problems with every declared finite coefficient, for nonlinear time dependent problems with the explicit integrators except the midpoint rule and the implicit ones within the limits of their scheme, for the two-stage moving mesh integrator on a mesh at rest; backward Euler does so for any step. Integrators declared unconditionally stable, and the other implicit ones, never move two solutions of a linear problem apart in a norm in which the problem does not produce energy, whatever the step, up to a relative 1e-20 per step for DIRK33; backward Euler, implicit midpoint and DIRK23 do the same for nonlinear problems, and the theta scheme for theta of at least one half. Leap-frog keeps oscillations whose frequency times the step is within its coefficient bounded by a fixed factor for any number of steps. (Refuted: the declared coefficient of the explicit midpoint rule and of the two implicit LSPUM2/LPUM2 schemes hold for nonlinear or time dependent problems; the nonlinear limits 3.82 and 3.09 quoted in their source; the coefficient of an implicit-explicit pair suffices when it has an implicit part; unconditionally stable schemes other than backward Euler keep bounds for long steps; DIRK33 never adds energy; the theta scheme is unconditionally stable for theta below one half.)",
"all states, operators, forcings and convex measures or inner products, all steps up to the coefficient (or all steps), all numbers of leap-frog steps",
"A convergence or stability test runs one problem with one step; that a coefficient is a safe step for every problem, norm and state is a universally quantified inequality.",
["thetis/rungekutta.py:cfl_coeff","thetis/timeintegrator.py:CFL_UNCONDITIONALLY_STABLE","thetis/timeintegrator.py:CrankNicolson","thetis/timeintegrator.py:LeapFrogAM3","thetis/timeintegrator.py:SSPRK22ALE","thetis/implicitexplicit.py:IMEXGeneric"])

p("Setting up a solver builds every component once and consistently",
"For every valid configuration and every order of calls that does not repeat a creation method (creating spaces, fields, equations, time stepper or exporters explicitly, initialising, or simply calling a method that needs an initialised solver, any number of times), no call raises and the solver ends up with all its components, each complete for the configuration, built from the current ones, and built once (the function spaces of the 3D solver up to twice: those a user obtained earlier are not those of the fields). After initialisation no later change of options or boundary conditions changes what was built. A set-up that failed on the element family or, in 2D, on the time step can be repeated after correcting the option. (Refuted: that a failed set-up can always be repeated. After a failed 3D time step the second call keeps a stepper without a time step; after a failed export manager the second call succeeds and the run exports nothing; after a rejected tidal farm no sequence of calls short of create_equations initialises the 2D solver. Also refuted: creating the fields again leaves stepper and exporters on the old ones.)",
"all configurations, all histories of set-up calls, uses and reconfigurations of any length, all failure points",
"A test performs one set-up in one order with one configuration; laziness, aliasing between old and new components and the states left by a failed call only show over histories.",
["thetis/solver2d.py:FlowSolver2d.create_function_spaces","thetis/solver2d.py:FlowSolver2d.create_fields","thetis/solver2d.py:FlowSolver2d.create_equations","thetis/solver2d.py:FlowSolver2d.create_timestepper","thetis/solver2d.py:FlowSolver2d.create_exporters","thetis/solver2d.py:FlowSolver2d.initialize","thetis/solver.py:FlowSolver.create_fields","thetis/solver.py:FlowSolver.create_timestepper","thetis/solver.py:FlowSolver.initialize"])

p("Initial conditions of the 2D solver",
"assign_initial_conditions projects each given field (the velocity may refer to the new elevation) and leaves every other field alone; a tracer takes the value of the last keyword naming it, by its label with or without the suffix _2d and by no other name. The sediment model is made the one freshly built from the new velocity, elevation and bathymetry, suspended sediment without a given value becomes the equilibrium concentration of the new flow (times the depth in conservative form), and last, once, the time stepper is initialised with all these values. Repeating the call changes nothing. An unknown keyword raises after the fields named before it were assigned and before the time stepper is initialised. A tracer is given the boundary conditions of its own entry, else of its name without the suffix, else none. (Refuted: with the Exner equation alone and default options every call raises AttributeError; in conservative form a given concentration is not multiplied by the depth as the default is; load_state replaces suspended sediment by the equilibrium and does not restore tracers; in a mixed system the entries of the members are ignored.)",
"all values, expressions, option combinations, lists of keyword arguments, labels and reachable states of the solver",
"Tests assign one or two fields of a fresh solver; keyword order and aliases, repeated calls, partial failures and restarts with sediment range over all argument lists and states.",
["thetis/solver2d.py:FlowSolver2d.assign_initial_conditions","thetis/solver2d.py:FlowSolver2d.load_state","thetis/solver2d.py:FlowSolver2d.get_tracer_timestepper","thetis/sediment_model.py:SedimentModel.update"])

p("The log file of the 3D solver",
"With keep_log the log file holds what was there when the log directory was set, then every record in the order of the calls, for every schedule of every number of ranks: a warning of rank 0 once, an output line of a rank once for each handler of that rank. Without keep_log, once every rank has created its equations, the file begins with the complete output of rank 0 for every interleaving of the ranks' output of the same lines and of warnings; on one rank it is exactly the output lines followed by what of all records reaches beyond them. (Refuted: creating the equations opens the file a second time. With keep_log every line appears once more than there are ranks. Without, everything logged before is lost, a warning is overwritten by the output that follows it, a rank that is late empties the file, and a second solver in the same process leaves NUL bytes in it.)",
"all records, histories, numbers of ranks and interleavings of their calls, one or several solvers",
"Tests look at no log file; which bytes survive depends on the interleaving of writers with different offsets over the whole history.",
["thetis/solver.py:FlowSolver.create_equations","thetis/log.py:set_log_directory"])

p("The solvers build the function spaces their element family stands for, and fields, copies and limiters fit them",
"For every element family, cell type and polynomial degree the 2D solver creates velocity, elevation and tracer spaces of the documented continuity and degrees (on the sphere only for the H(div) families), and the 3D solver creates all its spaces exactly for the families with a discontinuous elevation. Every field of the 3D solver gets a space unless a quadratic density is asked for without a quadratic pressure. The continuity that is reported for an element is the real one for every element that is not an HDiv element, and whenever values can jump over a facet the facet terms are included. Every copy between a 2D and a 3D field is set up between spaces with the same horizontal family, cell and degree, scaled by the element height exactly for H(div) families. Limiters are built for P1DG spaces only, on the spaces of the fields they are applied to, and iterate never uses a limiter that does not exist. The 3D view of a 2D scalar or two-component field has the horizontal element of the field. (Refuted: that the default options work for every polynomial degree: the limiters stop a 3D set-up of degree two or more, a 2D set-up with continuous tracers, and the non-hydrostatic pressure has no space at degree zero; that the reported continuity of the 3D H(div) velocities is right; that limiter options can be switched on after the set-up, or a step taken without iterate at degree zero; that the 3D coordinate fields of a mesh with discontinuous coordinates have the variant of the other spaces; that the 3D view keeps an explicit variant, three components or a tensor.)",
"all element families, cells, polynomial degrees and 3D option flags; all elements for the limiter and copy checks",
"The combinations of family, cell, degree and flags are unbounded (the degree) and tests run a handful of them.",
["thetis/utility.py: get_functionspace, get_extruded_base_element, element_continuity, extend_function_to_3d","thetis/solver2d.py: FlowSolver2d.create_function_spaces, create_equations","thetis/solver.py: FlowSolver.create_function_spaces, create_fields, iterate","thetis/limiter.py: assert_function_space, VertexBasedP1DGLimiter","thetis/utility3d.py: ExpandFunctionTo3d, SubFunctionExtractor, ALEMeshUpdater"])

p("The bed and the suspended sediment exchange exactly what they report",
  "Bedload transport and slope sliding only move bed material around: the total bed volume changes by what crosses the open boundaries and by erosion minus deposition, times morfac/(1-porosity); a boundary lets bedload through exactly when shallow water conditions are given for it and none of them (except an elevation) is zero. With the conservative sediment form and equal time schemes the sediment in suspension plus that in the bed is constant in a closed basin, for every theta, time step and state. An 'equilibrium' sediment boundary brings the equilibrium load in with the inflow and takes the interior one out. On continuous bathymetry the sliding term only flattens and does nothing below the maximal angle. (Refuted: that a boundary flux switched on after set-up opens the boundary for bedload; that a zero drag coefficient leaves an open boundary open; that the total is kept when the bed moves within the step; that the sliding term is a diffusion on discontinuous bathymetry.)",
  "all meshes, quadratures, elements, boundary dictionaries, bed and sediment fields, transport fields, thetas, time steps, porosities and morphological factors",
  "conservation ranges over all fields, meshes and boundary dictionaries; tests run a few channels",
  ["thetis/exner_eq.py:ExnerSourceTerm.residual", "thetis/exner_eq.py:ExnerBedloadTerm.residual", "thetis/exner_eq.py:ExnerSedimentSlideTerm.residual", "thetis/sediment_eq_2d.py:SedimentTerm.get_bnd_functions", "thetis/sediment_eq_2d.py:SedimentEquation2D"])

p("The ocean model readers keep the source points the targets need",
  "Reading NCOM output keeps, in grid order and each once, the grid points with data that lie in the bounding box of the targets widened by 0.2 degrees, plus the nearest point with data of every target; so nearest neighbour filling over the subset gives the nearest valid point of the whole file, and nothing within 0.2 degrees of a target is lost. It succeeds exactly when there is a target, a masked array and a valid point. Reading ROMS or generic netCDF files keeps exactly the wet corners of the triangles around the targets, and the rectangle read from a regular grid is the smallest that holds all corners. Points are chosen at the first call and every later call reads the same points, values in the order of the points, from the requested variable and time. (Refuted: that every variable of the file has data at the points kept: the mask is that of the first variable; that a file without masked values can be read; that the nearest point is kept for a target outside the grid; that something is kept when the corners are land; that later files use their own mask; that mixed one and two dimensional coordinates are detected.)",
  "all grids, masks, target sets, triangulations, nearest neighbour searches that answer correctly, files and call sequences",
  "tests use one small file with a regular mask; the subset has to contain the nearest valid point for every geometry of targets and land",
  ["thetis/forcing.py:SpatialInterpolatorNCOMBase._create_2d_mapping", "thetis/forcing.py:SpatialInterpolatorROMS3d", "thetis/forcing.py:GenericSpatialInterpolator2D", "thetis/interpolation.py:_get_subset_nodes", "thetis/interpolation.py:NetCDFLatLonInterpolator2d"])

p("Weak gradients, Smagorinsky viscosity and buoyancy frequency are consistent",
  "The weak vertical gradient used by the turbulence closure equals the gradient inside the cells minus the jumps between layers, for any shape of the layers; over the domain it adds up to the surface minus the bottom values; a stable stratification gives a nonnegative buoyancy frequency in every cell and a uniform density gradient gives -g/rho0 drho/dz exactly; relaxation keeps values between old and new. On level layers the weak horizontal gradient of a continuous velocity is its gradient. The Smagorinsky viscosity does not depend on the orientation of the axes, vanishes exactly for rigid rotation and uniform dilatation, scales with the square of the element size and linearly with the shear, gives the documented mesh Reynolds number, and after clipping never exceeds the maximum. The hydrostatic consistency metric is zero exactly for straight prisms, never negative, and if all its bottom (or all its surface) values are below one then every bottom node lies below every surface node. (Refuted: that a uniform flow has no Smagorinsky viscosity: on sloping layers the facets between layers are missing from the weak gradient, so a uniform flow over a sloping bottom gets a spurious strain; that the viscosity is at least the minimum, when the maximum is smaller; that the metric is below one whenever the prism does not degenerate.)",
  "all meshes, element families, quadrature rules, velocity and density fields, test functions, coefficients and prisms",
  "tests run a few flows on flat meshes; the identities concern every mesh, and the spurious strain only shows on sloping layers",
  ["thetis/utility3d.py:SmagorinskyViscosity", "thetis/utility3d.py:VelocityMagnitudeSolver", "thetis/utility3d.py:Mesh3DConsistencyCalculator", "thetis/turbulence.py:VerticalGradSolver", "thetis/turbulence.py:BuoyFrequencySolver"])

p("Observations loaded from station files are those the forward run recorded",
  "When a forward run records one field at stations whose names contain no spaces, and the inversion then loads the observations of some of those stations, it gets for each station, in the order asked for, exactly the times and values of the evaluations inside that station's time window, in order, with the station's coordinates. This holds however the evaluations of the stations are interleaved and whatever stale files were on disk. Different stations or fields never share a file. A station that recorded nothing has no file and loading it fails. (Refuted: a station with a space in its name can be loaded; names that differ only in a space stay apart; a station that records several fields can be loaded.)",
  "every list of stations, field, window, schedule of evaluations, initial disk content and list of requested names",
  "Tests write and read one or two stations with fixed names; file name clashes, interleavings and windows have unboundedly many combinations.",
  ["thetis/callback.py: TimeSeriesCallback2D, DiagnosticCallback._create_hdf5_file, DiagnosticCallback.evaluate, DiagnosticHDF5", "thetis/inversion_tools.py: StationObservationManager.load_scalar_observation_data"])
p("Tests, result and reports of an inversion",
  "The checks before an optimisation fail exactly when the gradient test is on and its rate is below 1.9, and whatever they evaluate, the optimisation that follows records and returns the same. A converged optimisation returns its result, one stopped at the iteration limit the controls of its latest derivative, and any other failure is raised again. A second optimisation continues the records. The reported regularisation and misfit terms add up to the cost function. A field exported for masked controls lies between the smallest and the largest control when the masks form a partition of unity, and is the one active control where only its mask is one. (Refuted: the consistency test detects a functional that does not reproduce the forward value: it compares the recomputed value with itself. The terms add up when a cost function is made twice on one tape. Controls of a real-mode inversion are saved. Surplus controls are reported.)",
  "every functional, control, history of the optimisation routine, test outcome, list of penalties and misfits, and set of masks",
  "A test cannot see that a check can never fail unless it injects an inconsistent tape; histories of optimisation routines are unbounded.",
  ["thetis/inversion_tools.py: InversionManager.consistency_test, taylor_test, stop_annotating, minimize, rf_kwargs, get_cost_function, update_progress, ControlManager.project_control"])

p("Whole runs keep the water volume, a lake at rest, the tracer mass and constant tracers",
"For the assembled 2D equations on any mesh and any finite element spaces that contain the constants: each time step changes the integral of the elevation (with the wetting and drying displacement) by exactly the time step times the weighted inflow through the open boundaries and sources; a run of any number of steps in a closed basin keeps the volume of water (Crank-Nicolson/theta with any linearisation, explicit Runge-Kutta, strong stability preserving form, and both diagonally implicit forms); a lake at rest stays at rest in every degree of freedom; the conservative tracer form keeps the tracer mass in a sealed domain and otherwise changes it by the boundary, diffusive and source flux; the non-conservative form keeps a constant tracer.",
"all meshes, spaces, states, fields and forcing updates, time steps, tableaux, theta, linearisations, numbers of steps and start states",
"Tests integrate a few set-ups for a few steps and compare with a tolerance; the statement is about every mesh, element, scheme and length of run.",
["thetis/shallowwater_eq.py: ShallowWaterEquations.residual, mass_term, BathymetryDisplacementMassTerm","thetis/tracer_eq_2d.py: TracerEquation2D","thetis/timeintegrator.py: CrankNicolson","thetis/rungekutta.py: ERKGeneric, DIRKGeneric, DIRKGenericUForm","thetis/utility.py: DepthExpression"])

p("Calendar dates across restarts",
  "If every program run sets the same start date before anything else, then after any chain of runs and restarts, in any directories, in 2D or 3D, with the time overridden or not, every stored file and the time axis of every diagnostic file carry that date, and the clock shown is that date plus the simulation time. A restart that takes its time from a file shows the clock of that file when the file has a date, and keeps the user's date when it has none. In 2D a caller who gives the time keeps their own date. A diagnostic created after the last change of date counts from the solver's date. (Refuted: the second run of a chain that only takes its date from the files writes files without date, so a third run has none; a run given another date follows the date of the file on its clock but stamps its files with its own; in 3D the documented restart with reset counters and t=0 loses the user's date; a diagnostic created before load_state keeps counting from the old date.)",
  "all dates, times and export indices, all lists of runs made of setting the date, initialising, adding callbacks, advancing, exporting, evaluating and restarting, both solvers",
  "restart chains of any length in any order; tests restart once, with one date",
  ["thetis/solver2d.py: FlowSolver2d.load_state, create_exporters, print_state", "thetis/solver.py: FlowSolver.load_state, create_exporters", "thetis/exporter.py: HDF5Exporter.export_as_index, load", "thetis/callback.py: DiagnosticCallback.__init__"])

p("Whole 3D runs keep the amount of tracer and the uniform tracer on a moving mesh",
"With the coupled two-stage Runge-Kutta integrator and with the leap-frog Adams-Moulton one, with and without limiter, with and without implicit vertical diffusion, one time step changes the amount of a 3D tracer (integral over the water at the new elevation minus that at the old one) by exactly the time-weighted fluxes through the free surface, the lateral boundaries and the sources; implicit vertical diffusion contributes nothing. A run of any number of steps without open boundary, source or flux through the moving surface therefore keeps the amount, however the surface moves. A tracer that is uniform at the start (with equal open-boundary values) stays uniform in runs of any length of both integrators. The mesh's volume equals the integral of the total depth over the 2D mesh for any number and spacing of layers. Since the elevation reaches the mesh through two projections, that volume is exactly the one the 2D equations conserve. (Refuted: the mesh need not be valid where the 2D depth is positive, the projected elevation can undershoot the bottom.)",
"every mesh, tracer space, number of steps, time step, sequence of velocities, diffusivities and elevations, limiter that keeps cell amounts, and any linear solver that solves its system",
"conservation is a statement about sums over all cells and steps for all flows; a test runs one flow on one mesh and compares to a tolerance",
["thetis/coupled_timeintegrator.py:CoupledTwoStageRK.advance","thetis/coupled_timeintegrator.py:CoupledLeapFrogAM3.advance","thetis/timeintegrator.py:SSPRK22ALE","thetis/timeintegrator.py:LeapFrogAM3","thetis/tracer_eq.py:TracerEquation","thetis/utility3d.py:ALEMeshUpdater"])

p("Every physical option acts in exactly the terms it is documented for",
"Changing one physical option (a drag coefficient, a viscosity or diffusivity, the Coriolis frequency, the wind stress, the atmospheric pressure, a source, a Lax-Friedrichs factor) changes only the terms of the equations it is documented for, in 2D and in 3D runs, and every line of that table is effective in some run. In 2D each term is built from its own option, with the value of the new step and of the old step; the three quadratic drag options exclude each other. Each tracer uses its own diffusivity and source and none of another tracer's. In 3D drag, bottom friction, wind and vertical viscosity enter exactly one momentum equation, the implicit one when implicit vertical diffusion is on and the explicit one otherwise, and the vertical diffusion of salinity and temperature enters exactly once; the momentum source of the 2D mode is added to the split residual; a total viscosity is the sum of the coefficients that are set. (Refuted: every option acts. The Manning coefficient and the Nikuradse roughness do nothing in a 3D run; the quadratic drag does nothing there without use_bottom_friction; the wind stress does nothing there without a vertical viscosity. Refuted: any expression is accepted. An expression as the tracer velocity factor, or sediment without the velocity correction, fails as soon as the old fields are needed. Refuted: the boundary conditions of the tracers of a mixed system can be given tracer by tracer. Refuted: turbulence and implicit vertical diffusion can be chosen independently.)",
"all settings of the options and fields (each unset, a Function, a Constant, an expression or a number), all flags, all terms with any bodies, any number of tracers",
"the table of options, equations and terms is a finite but large product, the settings are unbounded, and a wrongly wired coefficient gives plausible results; no test varies each option and looks at each term",
["thetis/solver2d.py:FlowSolver2d.get_swe_timestepper","thetis/solver2d.py:FlowSolver2d.get_tracer_timestepper","thetis/solver2d.py:FlowSolver2d.get_sediment_timestepper","thetis/coupled_timeintegrator.py:CoupledTimeIntegrator._create_mom_integrator","thetis/coupled_timeintegrator.py:CoupledTimeIntegrator._create_swe_integrator","thetis/coupled_timeintegrator.py:CoupledTimeIntegrator._create_salt_integrator","thetis/coupled_timeintegrator.py:CoupledTimeIntegrator._create_turb_integrator","thetis/solver.py:FlowSolver.create_equations","thetis/momentum_eq.py","thetis/shallowwater_eq.py","thetis/tracer_eq.py","thetis/utility.py:SumFunction"])

p("Linear waves never gain energy over a whole run",
  "For the linear 2D equations over a flat bottom in a closed basin with nothing that drives the flow, a run of the Crank-Nicolson scheme with an implicitness of at least one half never gains mechanical energy: in each step the energy falls by the time step times the losses at cell faces, by viscosity, bottom drag, linear drag, wall drag and turbines in the intermediate state, and by (2*theta - 1) times the energy of the change; rotation does no work. Every such step has exactly one solution. With a continuous elevation and nothing that dissipates the energy is kept exactly at theta = 0.5. The lower bound 0.5 of the option implicitness_theta is sharp: with any smaller value energy grows at any time step. The diagonally implicit Runge-Kutta schemes other than DIRK33 never gain energy either.",
  "all meshes, finite element spaces for which the divergence theorem holds, depths, gravities, rotation, drag and viscosity fields, time steps, offsets, numbers of steps and initial states",
  "a test observes the energy of a few runs of some length on one mesh; a slow growth of energy at some mesh, time step or wave shows up only after many more steps",
  ["thetis/shallowwater_eq.py:ExternalPressureGradientTerm,HUDivTerm,CoriolisTerm,QuadraticDragTerm,LinearDragTerm,BoundaryDragTerm,TurbineDragTerm,HorizontalViscosityTerm", "thetis/timeintegrator.py:CrankNicolson", "thetis/rungekutta.py:DIRKGeneric", "thetis/options.py:CrankNicolsonSWETimeStepperOptions2d.implicitness_theta"])

p("Tracers never move apart in an incompressible flow",
  "Two runs of the 2D tracer equation (conservative or not) with the same flow, the same values at the boundaries and the same sources but different starts never move apart in the L2 norm, whatever the time step and the number of steps, if the velocity neither converges nor diverges and the tracer has a given value wherever water comes in: with the theta scheme (CrankNicolson) for every implicitness of at least one half in a steady flow, for the fully implicit scheme in any flow, and with every diagonally implicit scheme except DIRK33. Every step has exactly one solution. The change of the difference is exactly what upwinding (half of |u.n| times the squared jump, plus the Lax-Friedrichs part), outflow and diffusion take. Without sources and with zero at the inflow the variance itself never grows. Without anything that takes variance the scheme with offset one half keeps it exactly.",
  "every mesh and quadrature on which the divergence theorem holds for the tracers of the space, every space, flow, diffusivity, boundary data, source, start, time step and number of steps",
  "a statement about all starting fields, all time steps and runs of any length; a test sees one field for a few steps and cannot tell slow growth from none",
  ["thetis/tracer_eq_2d.py:HorizontalAdvectionTerm.residual", "thetis/tracer_eq_2d.py:ConservativeHorizontalAdvectionTerm.residual", "thetis/tracer_eq_2d.py:HorizontalDiffusionTerm.residual", "thetis/timeintegrator.py:CrankNicolson", "thetis/rungekutta.py:DIRKGeneric"])

p("A turbine definition file sets exactly what it says",
  "Loading a turbine definition file succeeds exactly if the file is a dictionary that names the turbine, its diameter and the entries of its kind (three tables, or a thrust and a power coefficient), all of them allowed for the options they go to, and if a support structure that is to be used is complete. The options then hold exactly the values of the file, everything else is at its default, and nothing but the listed entries is read; a wrong or missing entry is an error and never a silent default. Without include_support the result is that of the same file without the support structure. YAML or JSON is chosen by the name of the file and does not matter. A farm made from the options has a turbine with the diameter, support, curve and upwind correction of the file.",
  "every content of the file (any nesting of dictionaries, lists and scalars), every file name and both flags",
  "files come from the user: missing keys, extra keys, values of any type; a test loads one or two files",
  ["thetis/turbines.py:load_turbine", "thetis/turbines.py:TidalTurbineFarm", "thetis/turbines.py:TabulatedThrustTurbine", "thetis/turbines.py:ConstantThrustTurbine", "thetis/options.py:TidalTurbineOptions", "thetis/options.py:DiscreteTidalTurbineFarmOptions"])

p("Implicit vertical mixing and friction never add tracer variance or kinetic energy, whatever the time step",
"With use_implicit_vertical_diffusion every step ends with an implicit solve for each tracer and for the velocity. For any time step, viscosity and drag these equations have a solution. The variance of a tracer after the solve, plus the variance of the change, plus twice the time step times what mixing takes, equals the variance before, so it never grows, and two tracers mixed the same way never move apart. For the total velocity (uv_3d plus its depth average) the same balance holds with viscosity, bottom friction and linear drag as losses and the work of the wind as the only gain; the total momentum changes only by wind, bottom stress and drag. The interior penalty must be large enough: for functions linear in each layer and viscosity constant in each layer a sipg_factor_vertical of at least 1/4 is enough in every column, however the thickness and the viscosity vary.",
"every mesh, space, viscosity, diffusivity, drag, wind, time step, start and solver that solves; columns with any number of layers of any thickness for the penalty",
"Tests run a few steps with small steps and smooth viscosity; that no step, however long, and no jump of the viscosity between layers can add energy is a statement about all of them.",
["thetis/coupled_timeintegrator.py: CoupledTwoStageRK.advance, CoupledLeapFrogAM3.advance, _create_mom_integrator, _create_salt_integrator", "thetis/momentum_eq.py: VerticalViscosityTerm, BottomFrictionTerm, LinearDragTerm, SourceTerm", "thetis/tracer_eq.py: VerticalDiffusionTerm", "thetis/rungekutta.py: DIRKGeneric"])

p("Piecewise constant tracers never leave their range",
"With elements of degree 0, a tracer carried and diffused by any flow with a continuous normal velocity stays, over a whole run, within the range of its initial values and of the values given at the inflow: for fully implicit steps (BackwardEuler, CrankNicolson with offset 1) of any length, for CrankNicolson with a smaller offset and for SSPRK33 and ForwardEuler if no more comes into a cell during (the explicit part of) a step than it holds. In the conservative form amounts never become negative under the same conditions on what leaves a cell, if a value is given wherever water comes in. Each step has exactly one solution.",
"all meshes and numbers of cells, all velocities, diffusivities, boundary values and their changes in time, all initial values, all numbers and lengths of steps",
"the range has to be kept by every cell on every mesh after any number of steps with changing forcing; a test sees a few meshes and steps",
["thetis/tracer_eq_2d.py:HorizontalAdvectionTerm.residual", "thetis/tracer_eq_2d.py:HorizontalDiffusionTerm.residual", "thetis/tracer_eq_2d.py:ConservativeHorizontalAdvectionTerm.residual", "thetis/timeintegrator.py:CrankNicolson.advance", "thetis/rungekutta.py:ERKGenericShuOsher.advance", "thetis/rungekutta.py:DIRKGenericUForm.advance"])

p("Results do not depend on axes, facet orientation, numbering or partition",
  "Describe the same shallow water, 3D momentum or 2D or 3D tracer problem with other coordinate axes (rotated or reflected, with forces, prescribed velocities and the Coriolis parameter expressed in them), with the two sides of any facets named the other way round, and with cells, facets and boundary facets visited in another order, as happens with another mesh numbering or another distribution over processes: every residual, the assembled residual and mass, and the coefficients of the solution after any number of time steps are the same, and so are volume, kinetic energy, tracer content and boundary fluxes. The only exception is, in 2D, a discontinuous velocity whose mean normal component vanishes at a facet, where the upwind tracer depends on sign(0).",
  "all meshes, finite element spaces, options, boundary conditions, forcings, orthogonal changes of axes, sets of swapped facets, orders of visits, partitions and lists of time steps",
  "Tests run one mesh with one numbering; which side of a facet is '+' is chosen by the mesh library and changes with the number of processes",
  ["thetis/shallowwater_eq.py: HUDivTerm, ExternalPressureGradientTerm, HorizontalAdvectionTerm, HorizontalViscosityTerm, CoriolisTerm, QuadraticDragTerm, BoundaryDragTerm", "thetis/tracer_eq_2d.py: HorizontalAdvectionTerm, HorizontalDiffusionTerm, ConservativeHorizontalAdvectionTerm", "thetis/tracer_eq.py: HorizontalAdvectionTerm, VerticalAdvectionTerm, HorizontalDiffusionTerm", "thetis/momentum_eq.py: HorizontalAdvectionTerm, HorizontalViscosityTerm, CoriolisTerm, InternalPressureGradientCalculator", "thetis/utility3d.py: VerticalVelocitySolver", "thetis/timeintegrator.py: CrankNicolson, SSPRK22ALE, LeapFrogAM3"])

p("Tracers and linear waves superpose",
  "Run a 2D tracer problem whose initial values, sources, boundary values and diffusive fluxes are a times those of one problem plus b times those of another in the same water: after any number of time steps the tracer is a times the one plus b times the other. The same holds for elevation and velocity of the shallow water equations with use_nonlinear_equations off and no speed-dependent drag, driven by elevations, velocities or fluxes at open boundaries, wind, atmospheric pressure and sources; so tidal constituents can be run separately and added, and the answer to a source does not depend on the tracer already there or on its unit. It holds for the theta scheme and the explicit, strong stability preserving and diagonally implicit Runge-Kutta schemes, and fails with the slope limiter and with the nonlinear equations. The tracers of a 3D run, on the moving mesh and with implicit vertical diffusion, superpose in the same way under both coupled integrators.",
  "all meshes, finite element spaces, flows, combinations of data, forcing callbacks, time steps, schemes and lists of steps",
  "A test adds two particular solutions on one mesh; that every term and every scheme is linear in the data cannot be settled by examples",
  ["thetis/tracer_eq_2d.py: HorizontalAdvectionTerm, HorizontalDiffusionTerm, SourceTerm, ConservativeHorizontalAdvectionTerm, ConservativeSourceTerm", "thetis/shallowwater_eq.py: ExternalPressureGradientTerm, HUDivTerm, HorizontalViscosityTerm, WindStressTerm, ContinuitySourceTerm", "thetis/timeintegrator.py: CrankNicolson", "thetis/rungekutta.py: ERKGeneric, ERKGenericShuOsher, DIRKGeneric", "thetis/limiter.py: VertexBasedP1DGLimiter", "thetis/tracer_eq.py: TracerEquation", "thetis/coupled_timeintegrator.py: CoupledTwoStageRK.advance, CoupledLeapFrogAM3.advance"])

p("Writing results, prolonging, splitting or dating a run does not change it",
  "How often results are written, by how many exporters, whether the initial state is written and what the export counters are does not change a run: iterate makes the same steps, shows the user the same times and states after each step and ends in the same state or error. A later simulation_end_time only adds to a run: everything computed and written before stays. Calling iterate again with a later end time makes the steps the uninterrupted run makes and ends in its state. A run whose clock, end time and forcings all start later does the same, later. In 3D the export adds the depth average to uv_3d, and takes it off again, so that the files hold the total velocity and the run goes on with what it had; in double precision, with a failing exporter, for the time step of the 3D solver and for the files written by a second call of iterate this is not so.",
  "all states, step functions, forcings, export intervals and counters, end times, time shifts, time steps and numbers of steps",
  "A test compares two runs on one set of export intervals and end times; that no choice of them reaches the solution is a statement about all pairs of runs",
  ["thetis/solver2d.py: FlowSolver2d.create_iterator, FlowSolver2d.iterate, FlowSolver2d.export", "thetis/solver.py: FlowSolver.iterate, FlowSolver.export, FlowSolver.set_time_step"])

p("Symmetric problems have symmetric solutions",
  "If a rotation or reflection maps the mesh, the bathymetry, the forcing, the boundary conditions, the spaces and the initial state onto themselves, then the velocity, elevation and tracers stay symmetric after any number of time steps, provided the system of each step has one solution. This holds for the theta scheme and for every explicit Runge-Kutta method, for closed and open boundaries and with boundary markers that change places. The names given to points and boundary markers never matter.",
  "every mesh, function space, symmetry (rotation or reflection with a permutation of points, facets, boundary points, markers and degrees of freedom), setting of the 2D shallow water and tracer equations, forcing, number of steps, time step and tableau",
  "a test can compare two halves of one basin for a few steps; it cannot show that no term, boundary condition or integrator ever prefers a side",
  ["thetis/shallowwater_eq.py:ShallowWaterEquations", "thetis/tracer_eq_2d.py:TracerEquation2D", "thetis/timeintegrator.py:CrankNicolson", "thetis/rungekutta.py:ERKGeneric"])

p("The reference level of elevations and depths does not matter",
  "If the same body of water is described from a level c metres lower, by adding c to the initial elevation and to the elevations given at open boundaries and subtracting c from the bathymetry, then a nonlinear 2D run, with or without wetting and drying, gives the same velocities and tracers, and elevations that are larger by exactly c everywhere, after any number of steps. With the linear equations this does not hold.",
  "All meshes, element pairs whose elevation space contains the constants, bathymetries, shifts c, forcings, friction and viscosity options, open and closed boundaries, time steps, implicitness parameters and Runge-Kutta tableaus, and all numbers of steps.",
  "A test compares two runs for one basin, one shift and one set of options, up to a tolerance that hides small inconsistencies between the depth in different terms.",
  ["thetis/shallowwater_eq.py: ShallowWaterTerm.get_bnd_functions, ExternalPressureGradientTerm.residual, HUDivTerm.residual", "thetis/utility.py: DepthExpression.get_total_depth, wd_bathymetry_displacement", "thetis/tracer_eq_2d.py: HorizontalAdvectionTerm.residual"])

p("Too small grains are refused",
  "Building a sediment model raises an error on a process exactly if every node the process owns has a dimensionless grain size below 1. With one grain size and one viscosity all processes agree, whatever the partition of the mesh, and the error is raised exactly for dimensionless sizes below 1. For sizes that vary in space, too small grains in part of the domain are accepted, and processes may disagree.",
  "All grain size and viscosity fields, densities, node sets and partitions of the nodes among processes.",
  "Tests use one uniform grain size on one process; the claim is about all fields and all partitions.",
  ["thetis/sediment_model.py: SedimentModel.__init__"])

p("Separate basins do not influence each other",
  "If a mesh has basins that no facet connects, each basin evolves in a run of the whole mesh as in a run of that basin alone: after any number of time steps, its velocity and elevation are the same, whatever the state, the forcing and the boundary conditions of the other basins. The terms of the tracer equations have the same property.",
  "All meshes, basins, function spaces whose functions live in one basin each, parameters, forcings, boundary conditions, states, time steps and numbers of steps; the theta scheme and every explicit Runge-Kutta scheme.",
  "Tests use connected meshes; a term that averages over or reads from the whole domain would show only in comparisons of runs on different meshes, for all data.",
  ["thetis/shallowwater_eq.py: ShallowWaterEquations", "thetis/tracer_eq_2d.py: TracerEquation2D", "thetis/tracer_eq_2d.py: ConservativeHorizontalAdvectionTerm, ConservativeSourceTerm", "thetis/timeintegrator.py: CrankNicolson", "thetis/rungekutta.py: ERKGeneric"])
with open(os.path.join(os.path.dirname(__file__), "..", "properties.jsonl"), "w") as f:
    for x in P:
        f.write(json.dumps(x) + "\n")
print(len(P), "properties")
