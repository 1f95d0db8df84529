(** C83: which coefficient reaches which term.

    The solvers collect the user's options and some of their own fields in
    dictionaries, the time integrators pass these dictionaries (or lagged copies
    of them) to the equations, and every term looks up the entries it needs.
    This file models the dictionaries entry by entry and, for every term, the
    entries it looks up and when it returns 0 or raises.  What a term computes
    from the coefficients it has found is left open: [body] is an arbitrary
    function of them (the forms themselves are in Forms_Model, Mom3d_Model,
    Forms3d_Model and Turb_Model). *)
From Coq Require Import String Ascii List Bool Arith Reals.
From Verif Require Import Exporter_Model Equation_Model.
Import ListNotations.
Open Scope string_scope.

Section Wiring.
Context {V : Type}.
(** the sum of two UFL expressions *)
Variable vadd : V -> V -> V.

(** ** Coefficients *)

(** What an entry that is not None can be: a Function (present value and the value
    of its lagged copy), a Constant, another UFL expression, or a Python number. *)
Inductive coef := CFun (now old : V) | CConst (v : V) | CExpr (v : V) | CNum (v : V).
Definition now (c : coef) : V := match c with CFun v _ => v | CConst v => v | CExpr v => v | CNum v => v end.

(** The options object and the fields of the solver: attributes by name. *)
Definition attrs := string -> option coef.

(** A fields dictionary; entries may be None. *)
Definition fdict := list (string * option coef).
(** [fields.get(k)] *)
Definition get (d : fdict) (k : string) : option coef :=
  match dict_get d k with Some v => v | None => None end.

(** create_fields_old, timeintegrator.py:88-104 (ForwardEuler, CrankNicolson,
    PressureProjectionPicard): a Function gets a copy that holds the lagged
    values, a Constant is used as it is, anything else gets no entry. *)
Definition lag (c : coef) : option coef :=
  match c with CFun _ o => Some (CFun o o) | CConst v => Some (CConst v) | _ => None end.
Definition fields_old (d : fdict) : fdict :=
  fold_right (fun kv r => match snd kv with
                          | Some c => match lag c with Some c' => (fst kv, Some c') :: r | None => r end
                          | None => r
                          end) [] d.

(** SumFunction, utility.py:60-86: [add] ignores None, [get_sum] is None for an
    empty list and otherwise Python's sum(), which starts from 0 (UFL drops that
    zero, so a single coefficient is returned unchanged). *)
Definition sum_add (l : list coef) (c : option coef) : list coef :=
  match c with None => l | Some c => (l ++ [c])%list end.
Definition get_sum (l : list coef) : option coef :=
  match l with
  | [] => None
  | c :: r => Some (fold_left (fun a b => CExpr (vadd (now a) (now b))) r c)
  end.

(** ** Residuals *)

(** Value of a residual for one test function, or the exception raised. *)
Inductive res := Ok (r : R) | Fail (why : string).
Definition rbind (a : res) (f : R -> res) : res := match a with Ok r => f r | Fail e => Fail e end.

(** [body class values]: the form a term builds from the coefficients it read. *)
Variable body : string -> list (option V) -> R.

(** a term that returns 0 when its only coefficient is None *)
Definition if_set (cls : string) (c : option coef) : res :=
  match c with None => Ok 0%R | Some c => Ok (body cls [Some (now c)]) end.

(** Equation.residual, equation.py:157-177 *)
Definition total {T} (term : T -> res) (ts : list T) : res :=
  fold_left (fun a t => rbind a (fun r => rbind (term t) (fun x => Ok (r + x)%R))) ts (Ok 0%R).

(** ** Shallow water equations *)

Inductive swet := ExternalPressureGradient | HorizontalAdvection | HorizontalViscosity | Coriolis | WindStress
  | AtmosphericPressure | QuadraticDrag | LinearDrag | BoundaryDrag | BottomDrag3D | MomentumSource | TurbineDrag
  | HUDiv | ContinuitySource.
Definition swe_name (t : swet) : string :=
  match t with
  | ExternalPressureGradient => "ExternalPressureGradientTerm" | HorizontalAdvection => "HorizontalAdvectionTerm"
  | HorizontalViscosity => "HorizontalViscosityTerm" | Coriolis => "CoriolisTerm" | WindStress => "WindStressTerm"
  | AtmosphericPressure => "AtmosphericPressureTerm" | QuadraticDrag => "QuadraticDragTerm" | LinearDrag => "LinearDragTerm"
  | BoundaryDrag => "BoundaryDragTerm" | BottomDrag3D => "BottomDrag3DTerm" | MomentumSource => "MomentumSourceTerm"
  | TurbineDrag => "TurbineDragTerm" | HUDiv => "HUDivTerm" | ContinuitySource => "ContinuitySourceTerm"
  end.
(** BaseShallowWaterEquation.add_momentum_terms and add_continuity_terms, shallowwater_eq.py:867-884 *)
Definition swe_list (turbines : bool) : list swet :=
  ([ExternalPressureGradient; HorizontalAdvection; HorizontalViscosity; Coriolis; WindStress; AtmosphericPressure;
    QuadraticDrag; LinearDrag; BoundaryDrag; BottomDrag3D; MomentumSource] ++ (if turbines then [TurbineDrag] else []) ++
   [HUDiv; ContinuitySource])%list.
(** ModeSplit2DEquations, shallowwater_eq.py:933-958 *)
Definition modesplit_list : list swet :=
  [ExternalPressureGradient; Coriolis; MomentumSource; AtmosphericPressure; HUDiv; ContinuitySource].

(** switches of the options object the terms of the 2D equations consult *)
Record flags2d := { use_nonlinear_equations : bool; use_lax_friedrichs_velocity : bool;
                    u_discontinuous : bool   (* the velocity space is 'dg' or 'hdiv' *) }.

(** The residual methods, shallowwater_eq.py:376-829, reduced to what they look up
    in [fields_old]:
    - HorizontalAdvectionTerm 470-505: 0 unless nonlinear; the factor is read with
      get and multiplied, so None would be a TypeError (486-487);
    - HorizontalViscosityTerm 557-560, CoriolisTerm 624-626, WindStressTerm 644-647,
      AtmosphericPressureTerm 659-661, LinearDragTerm 735-737, MomentumSourceTerm
      807-809, ContinuitySourceTerm 827-829: 0 when the entry is None;
    - QuadraticDragTerm 679-701: three entries, two exceptions more;
    - BottomDrag3DTerm 754-757: needs both entries;
    - the others look up nothing (boundary conditions and farms are not entries). *)
Definition swe_term (fl : flags2d) (d : fdict) (t : swet) : res :=
  match t with
  | ExternalPressureGradient | BoundaryDrag | TurbineDrag | HUDiv => Ok (body (swe_name t) [])
  | HorizontalAdvection =>
      if negb (use_nonlinear_equations fl) then Ok 0%R
      else if u_discontinuous fl && use_lax_friedrichs_velocity fl then
        match get d "lax_friedrichs_velocity_scaling_factor" with
        | Some c => Ok (body (swe_name t) [Some (now c)])
        | None => Fail "TypeError"
        end
      else Ok (body (swe_name t) [None])
  | HorizontalViscosity => if_set (swe_name t) (get d "viscosity_h")
  | Coriolis => if_set (swe_name t) (get d "coriolis")
  | WindStress => if_set (swe_name t) (get d "wind_stress")
  | AtmosphericPressure => if_set (swe_name t) (get d "atmospheric_pressure")
  | QuadraticDrag =>
      let m := get d "manning_drag_coefficient" in
      let n := get d "nikuradse_bed_roughness" in
      let c := get d "quadratic_drag_coefficient" in
      match m, c with
      | Some _, Some _ => Fail "Cannot set both dimensionless and Manning drag parameter"
      | _, _ =>
        match n, m, c with
        | Some _, Some _, _ => Fail "Cannot set both Nikuradse drag and Manning drag parameter"
        | Some _, _, Some _ => Fail "Cannot set both dimensionless and Nikuradse drag parameter"
        | None, None, None => Ok 0%R
        | _, _, _ => Ok (body (swe_name t) [option_map now m; option_map now n; option_map now c])
        end
      end
  | LinearDrag => if_set (swe_name t) (get d "linear_drag_coefficient")
  | BottomDrag3D =>
      match get d "bottom_drag", get d "uv_bottom" with
      | Some a, Some b => Ok (body (swe_name t) [Some (now a); Some (now b)])
      | _, _ => Ok 0%R
      end
  | MomentumSource => if_set (swe_name t) (get d "momentum_source")
  | ContinuitySource => if_set (swe_name t) (get d "volume_source")
  end.

(** FlowSolver2d.get_swe_timestepper, solver2d.py:546-558 *)
Definition swe_fields (o : attrs) : fdict :=
  [("linear_drag_coefficient", o "linear_drag_coefficient");
   ("quadratic_drag_coefficient", o "quadratic_drag_coefficient");
   ("manning_drag_coefficient", o "manning_drag_coefficient");
   ("nikuradse_bed_roughness", o "nikuradse_bed_roughness");
   ("viscosity_h", o "horizontal_viscosity");
   ("lax_friedrichs_velocity_scaling_factor", o "lax_friedrichs_velocity_scaling_factor");
   ("coriolis", o "coriolis_frequency");
   ("wind_stress", o "wind_stress");
   ("atmospheric_pressure", o "atmospheric_pressure");
   ("momentum_source", o "momentum_source_2d");
   ("volume_source", o "volume_source_2d")].

(** The residual at the present time level (Runge-Kutta, timeintegrator.py:210,
    rungekutta.py:502-516, 638, 794) and at the beginning of the step
    (timeintegrator.py:140, 211). *)
Definition swe_residual (fl : flags2d) (turbines : bool) (o : attrs) : res :=
  total (swe_term fl (swe_fields o)) (swe_list turbines).
Definition swe_residual_old (fl : flags2d) (turbines : bool) (o : attrs) : res :=
  total (swe_term fl (fields_old (swe_fields o))) (swe_list turbines).

(** ** 2D tracers and sediment *)

Inductive tr2t := TrAdvection | TrDiffusion | TrSource.
Definition tr2_name (conservative : bool) (t : tr2t) : string :=
  match conservative, t with
  | false, TrAdvection => "HorizontalAdvectionTerm" | false, TrDiffusion => "HorizontalDiffusionTerm" | false, TrSource => "SourceTerm"
  | true, TrAdvection => "ConservativeHorizontalAdvectionTerm" | true, TrDiffusion => "ConservativeHorizontalDiffusionTerm"
  | true, TrSource => "ConservativeSourceTerm"
  end.
Definition tr2_list : list tr2t := [TrAdvection; TrDiffusion; TrSource].

(** [label] the tracer the term belongs to; [bnds] whether the mesh has boundary
    markers.  Advection tracer_eq_2d.py:146-176, 341-372: 0 without velocity, the
    velocity is multiplied by the factor; the Lax-Friedrichs factor is read with get
    and used under [lf].  Diffusion 226-282: 0 when the entry of this label is None,
    and on a mesh with boundary markers the factor and velocity are multiplied as
    well.  Source 293-298, 439-445. *)
Definition tr2_term (conservative lf bnds : bool) (label : string) (d : fdict) (t : tr2t) : res :=
  match t with
  | TrAdvection =>
      match get d "uv_2d" with
      | None => Ok 0%R
      | Some u =>
        match dict_get d "elev_2d", get d "tracer_advective_velocity_factor" with
        | None, _ => Fail "KeyError"
        | _, None => Fail "TypeError"
        | Some e, Some f =>
          match lf, get d "lax_friedrichs_tracer_scaling_factor" with
          | true, None => Fail "TypeError"
          | true, Some g => Ok (body (tr2_name conservative t) [Some (now u); option_map now e; Some (now f); Some (now g)])
          | false, _ => Ok (body (tr2_name conservative t) [Some (now u); option_map now e; Some (now f); None])
          end
        end
      end
  | TrDiffusion =>
      match get d ("diffusivity_h-" ++ label) with
      | None => Ok 0%R
      | Some k =>
        if bnds then
          match dict_get d "elev_2d", get d "tracer_advective_velocity_factor", get d "uv_2d" with
          | None, _, _ => Fail "KeyError"
          | Some e, Some f, Some u => Ok (body (tr2_name conservative t) [Some (now k); option_map now e; Some (now f); Some (now u)])
          | _, _, _ => Fail "TypeError"
          end
        else Ok (body (tr2_name conservative t) [Some (now k)])
      end
  | TrSource =>
      match get d ("source-" ++ label) with
      | None => Ok 0%R
      | Some s =>
        if conservative then
          match dict_get d "elev_2d" with
          | Some e => Ok (body (tr2_name conservative t) [Some (now s); option_map now e])
          | None => Fail "KeyError"
          end
        else Ok (body (tr2_name conservative t) [Some (now s)])
      end
  end.

(** get_tracer_timestepper, solver2d.py:581-590; [diffusivity] and [source] are
    the attributes of options.tracer[label], [labels] is system.split(',') *)
Definition tracer_fields (o f : attrs) (diffusivity source : string -> option coef) (labels : list string) : fdict :=
  fold_left (fun d l => dict_set (dict_set d ("diffusivity_h-" ++ l) (diffusivity l)) ("source-" ++ l) (source l)) labels
    [("elev_2d", f "elev_2d"); ("uv_2d", f "uv_2d");
     ("lax_friedrichs_tracer_scaling_factor", o "lax_friedrichs_tracer_scaling_factor");
     ("tracer_advective_velocity_factor", o "tracer_advective_velocity_factor")].

(** SedimentModel.get_advective_velocity_correction_factor, sediment_model.py:374-385:
    the Function of the correction or the Python number 1 *)
Definition velocity_factor (one : V) (use_correction : bool) (factor : coef) : coef :=
  if use_correction then factor else CNum one.
(** get_sediment_timestepper, solver2d.py:606-612; SedimentTerm's label is
    'sediment_2d' (sediment_eq_2d.py:42) *)
Definition sediment_fields (o f : attrs) (one : V) (use_correction : bool) (factor : coef) (diffusivity : option coef) : fdict :=
  [("elev_2d", f "elev_2d"); ("uv_2d", f "uv_2d"); ("diffusivity_h-sediment_2d", diffusivity);
   ("lax_friedrichs_tracer_scaling_factor", o "lax_friedrichs_tracer_scaling_factor");
   ("tracer_advective_velocity_factor", Some (velocity_factor one use_correction factor))].

(** The boundary conditions of a tracer system, solver2d.py:590-595: the entry of
    [bnd_functions] under the name of the system, or under the name without its
    last three characters (s[:-3] of a short string is empty). *)
Definition drop_last3 (s : string) : string := substring 0 (String.length s - 3) s.
Definition tracer_bcs {B} (none : B) (bnd_functions : list (string * B)) (system : string) : B :=
  match dict_get bnd_functions system with
  | Some b => b
  | None => match dict_get bnd_functions (drop_last3 system) with Some b => b | None => none end
  end.

(** ** The 3D equations *)

Inductive momt := PressureGradient | MHorizontalAdvection | MVerticalAdvection | MHorizontalViscosity | MVerticalViscosity
  | BottomFriction | MLinearDrag | MCoriolis | MSource.
Definition mom_name (t : momt) : string :=
  match t with
  | PressureGradient => "PressureGradientTerm" | MHorizontalAdvection => "HorizontalAdvectionTerm"
  | MVerticalAdvection => "VerticalAdvectionTerm" | MHorizontalViscosity => "HorizontalViscosityTerm"
  | MVerticalViscosity => "VerticalViscosityTerm" | BottomFriction => "BottomFrictionTerm" | MLinearDrag => "LinearDragTerm"
  | MCoriolis => "CoriolisTerm" | MSource => "SourceTerm"
  end.
(** MomentumEquation.__init__, momentum_eq.py:601-609 *)
Definition mom_list : list momt :=
  [PressureGradient; MHorizontalAdvection; MVerticalAdvection; MHorizontalViscosity; MVerticalViscosity; BottomFriction;
   MLinearDrag; MCoriolis; MSource].
(** "mom." distinguishes the 3D forms from the 2D ones of the same class name *)
Definition mbody (t : momt) (l : list (option V)) : res := Ok (body ("mom." ++ mom_name t) l).
Definition gv (d : fdict) (k : string) : option V := option_map now (get d k).

(** The residual methods of momentum_eq.py, reduced to their look-ups:
    PressureGradientTerm 153-160, HorizontalAdvectionTerm 181-262 (nonlinear only;
    Lax-Friedrichs factor used under [lf]; 'eta' only for some boundary conditions),
    VerticalAdvectionTerm 280-322, HorizontalViscosityTerm 337-395,
    VerticalViscosityTerm 412-440, BottomFrictionTerm 471-497, LinearDragTerm
    506-519, CoriolisTerm 525-532, SourceTerm 555-570.  [nl] and [fric] are the
    arguments use_nonlinear_equations and use_bottom_friction of the equation. *)
Definition mom_term (nl lf fric : bool) (d : fdict) (t : momt) : res :=
  match t with
  | PressureGradient => match gv d "int_pg" with None => Ok 0%R | p => mbody t [p] end
  | MHorizontalAdvection =>
      if negb nl then Ok 0%R
      else match lf, gv d "lax_friedrichs_velocity_scaling_factor" with
           | true, None => Fail "TypeError"
           | true, g => mbody t [gv d "uv_depth_av"; gv d "eta"; g]
           | false, _ => mbody t [gv d "uv_depth_av"; gv d "eta"; None]
           end
  | MVerticalAdvection =>
      match gv d "w" with
      | None => Ok 0%R
      | w => if negb nl then Ok 0%R
             else match lf, gv d "lax_friedrichs_velocity_scaling_factor" with
                  | true, None => Fail "TypeError"
                  | true, g => mbody t [w; gv d "w_mesh"; gv d "uv_depth_av"; g]
                  | false, _ => mbody t [w; gv d "w_mesh"; gv d "uv_depth_av"; None]
                  end
      end
  | MHorizontalViscosity => match gv d "viscosity_h" with None => Ok 0%R | n => mbody t [n; gv d "uv_depth_av"] end
  | MVerticalViscosity => match gv d "viscosity_v" with None => Ok 0%R | n => mbody t [n] end
  | BottomFriction =>
      if negb fric then Ok 0%R
      else match gv d "quadratic_drag_coefficient", gv d "bottom_roughness" with
           | None, None => Fail "if use_bottom_friction=True, either bottom_roughness or quadratic_drag_coefficient must be defined"
           | None, z0 => mbody t [None; z0; gv d "uv_depth_av"]
           | c, _ => mbody t [c; None; gv d "uv_depth_av"]
           end
  | MLinearDrag => match gv d "linear_drag_coefficient" with None => Ok 0%R | c => mbody t [c; gv d "uv_depth_av"] end
  | MCoriolis => match gv d "coriolis" with None => Ok 0%R | c => mbody t [c] end
  | MSource =>
      let wind := match gv d "viscosity_v", gv d "wind_stress" with Some _, Some w => body "mom.WindStress" [Some w] | _, _ => 0%R end in
      let source := match gv d "source" with Some s => body "mom.SourceTerm" [Some s] | None => 0%R end in
      Ok (wind + source)%R
  end.

Inductive tr3t := T3HorizontalAdvection | T3VerticalAdvection | T3HorizontalDiffusion | T3VerticalDiffusion | T3Source.
Definition tr3_name (t : tr3t) : string :=
  match t with
  | T3HorizontalAdvection => "HorizontalAdvectionTerm" | T3VerticalAdvection => "VerticalAdvectionTerm"
  | T3HorizontalDiffusion => "HorizontalDiffusionTerm" | T3VerticalDiffusion => "VerticalDiffusionTerm" | T3Source => "SourceTerm"
  end.
(** TracerEquation.__init__, tracer_eq.py:407-411 *)
Definition tr3_list : list tr3t := [T3HorizontalAdvection; T3VerticalAdvection; T3HorizontalDiffusion; T3VerticalDiffusion; T3Source].
Definition tbody (t : tr3t) (l : list (option V)) : res := Ok (body ("tracer3d." ++ tr3_name t) l).
(** tracer_eq.py:139-195, 213-250, 264-313, 326-362, 373-377 *)
Definition tr3_term (lf : bool) (d : fdict) (t : tr3t) : res :=
  match t with
  | T3HorizontalAdvection =>
      match gv d "uv_3d" with
      | None => Ok 0%R
      | u =>
        match dict_get d "elev_3d", dict_get d "uv_depth_av" with
        | Some _, Some _ =>
          match lf, gv d "lax_friedrichs_tracer_scaling_factor" with
          | true, None => Fail "TypeError"
          | true, g => tbody t [u; gv d "elev_3d"; gv d "uv_depth_av"; g]
          | false, _ => tbody t [u; gv d "elev_3d"; gv d "uv_depth_av"; None]
          end
        | _, _ => Fail "KeyError"
        end
      end
  | T3VerticalAdvection =>
      match gv d "w" with
      | None => Ok 0%R
      | w => match lf, gv d "lax_friedrichs_tracer_scaling_factor" with
             | true, None => Fail "TypeError"
             | true, g => tbody t [w; gv d "w_mesh"; g]
             | false, _ => tbody t [w; gv d "w_mesh"; None]
             end
      end
  | T3HorizontalDiffusion => match gv d "diffusivity_h" with None => Ok 0%R | k => tbody t [k] end
  | T3VerticalDiffusion => match gv d "diffusivity_v" with None => Ok 0%R | k => tbody t [k] end
  | T3Source => match gv d "source" with None => Ok 0%R | s => tbody t [s] end
  end.

(** tke_diff and psi_diff, turbulence.py:638-652, 704-760, 786-790: the diffusion
    term divides the viscosity by a Schmidt number, the source terms multiply
    viscosity and diffusivity *)
Inductive glst := GlsDiffusion | GlsSource.
Definition gls_list : list glst := [GlsSource; GlsDiffusion].
Definition gls_term (psi : bool) (d : fdict) (t : glst) : res :=
  match t with
  | GlsDiffusion =>
      match dict_get d "viscosity_v" with
      | None => Fail "KeyError" | Some None => Fail "TypeError"
      | Some (Some nu) => Ok (body (if psi then "psi.diffusion" else "tke.diffusion") [Some (now nu)])
      end
  | GlsSource =>
      match gv d "viscosity_v", gv d "diffusivity_v" with
      | Some nu, Some mu => Ok (body (if psi then "psi.source" else "tke.source")
          [Some nu; Some mu; if psi then gv d "k" else None; gv d "epsilon"; gv d "shear_freq2"; gv d "buoy_freq2_neg"; gv d "buoy_freq2_pos";
           if psi then gv d "bottom_roughness" else None])
      | _, _ => Fail "TypeError"
      end
  end.

(** switches of the 3D options *)
Record flags3d := { nonlinear3 : bool; lf_velocity3 : bool; lf_tracer3 : bool; use_bottom_friction : bool;
                    use_implicit_vertical_diffusion : bool }.

(** solver.py:525-539: the 3D views of the Coriolis parameter and the wind stress.
    extend_function_to_3d asks for a function space, which only a Function has
    (utility.py:504); other wind stress types raise. *)
Definition coriolis_3d (o : attrs) : option (option coef) :=
  match o "coriolis_frequency" with
  | None => Some None
  | Some (CConst v) => Some (Some (CConst v))
  | Some (CFun a b) => Some (Some (CFun a b))
  | Some _ => None
  end.
Definition wind_stress_3d (o : attrs) : option (option coef) :=
  match o "wind_stress" with
  | None => Some None
  | Some (CConst v) => Some (Some (CConst v))
  | Some (CFun a b) => Some (Some (CFun a b))
  | Some _ => None
  end.
(** create_fields raises when one of the two cannot be extended *)
Definition fields_ok (o : attrs) : bool :=
  match coriolis_3d o, wind_stress_3d o with Some _, Some _ => true | _, _ => false end.
Definition view3 (x : option (option coef)) : option coef := match x with Some c => c | None => None end.

(** solver.py:603-613 *)
Definition tot_h_visc (o f : attrs) := sum_add (sum_add [] (o "horizontal_viscosity")) (f "smag_visc_3d").
Definition tot_v_visc (o f : attrs) := sum_add (sum_add [] (o "vertical_viscosity")) (f "eddy_visc_3d").
Definition tot_h_diff (o f : attrs) := sum_add [] (o "horizontal_diffusivity").
Definition tot_v_diff (o f : attrs) := sum_add (sum_add [] (o "vertical_diffusivity")) (f "eddy_diff_3d").

(** _get_vert_diffusivity_functions, coupled_timeintegrator.py:164-179 *)
Definition impl_v (fl : flags3d) (l : list coef) : option coef := if use_implicit_vertical_diffusion fl then get_sum l else None.
Definition expl_v (fl : flags3d) (l : list coef) : option coef := if use_implicit_vertical_diffusion fl then None else get_sum l.

(** _create_swe_integrator, coupled_timeintegrator.py:185-194; split_residual_2d is a field *)
Definition swe3d_fields (o f : attrs) : fdict :=
  [("coriolis", o "coriolis_frequency");
   ("momentum_source", match o "momentum_source_2d" with
                       | None => f "split_residual_2d"
                       | Some s => match f "split_residual_2d" with
                                   | Some r => Some (CExpr (vadd (now r) (now s)))
                                   | None => None
                                   end
                       end);
   ("volume_source", o "volume_source_2d");
   ("atmospheric_pressure", o "atmospheric_pressure")].

(** _create_mom_integrator, coupled_timeintegrator.py:202-235 *)
Definition friction_fields (o : attrs) : fdict :=
  [("linear_drag_coefficient", o "linear_drag_coefficient");
   ("quadratic_drag_coefficient", o "quadratic_drag_coefficient");
   ("wind_stress", view3 (wind_stress_3d o));
   ("bottom_roughness", o "bottom_roughness")].
Definition update (d e : fdict) : fdict := fold_left (fun a kv => dict_set a (fst kv) (snd kv)) e d.
Definition mom_fields (fl : flags3d) (o f : attrs) : fdict :=
  let fields := [("eta", f "elev_domain_2d"); ("int_pg", f "int_pg_3d"); ("uv_depth_av", f "uv_dav_3d"); ("w", f "w_3d");
                 ("w_mesh", f "w_mesh_3d"); ("viscosity_v", expl_v fl (tot_v_visc o f)); ("viscosity_h", get_sum (tot_h_visc o f));
                 ("source", o "momentum_source_3d");
                 ("lax_friedrichs_velocity_scaling_factor", o "lax_friedrichs_velocity_scaling_factor");
                 ("coriolis", view3 (coriolis_3d o))] in
  if use_implicit_vertical_diffusion fl then fields else update fields (friction_fields o).
Definition vertmom_fields (fl : flags3d) (o f : attrs) : fdict :=
  update [("viscosity_v", impl_v fl (tot_v_visc o f))] (friction_fields o).

(** _create_salt_integrator and _create_temp_integrator, coupled_timeintegrator.py:237-295;
    [src] is the name of the option with the source *)
Definition tracer3d_fields (fl : flags3d) (src : string) (o f : attrs) : fdict :=
  [("elev_3d", f "elev_domain_2d"); ("uv_3d", f "uv_3d"); ("uv_depth_av", f "uv_dav_3d"); ("w", f "w_3d"); ("w_mesh", f "w_mesh_3d");
   ("diffusivity_h", get_sum (tot_h_diff o f)); ("diffusivity_v", expl_v fl (tot_v_diff o f)); ("source", o src);
   ("lax_friedrichs_tracer_scaling_factor", o "lax_friedrichs_tracer_scaling_factor")].
Definition tracer3d_vdff_fields (fl : flags3d) (o f : attrs) : fdict :=
  [("elev_3d", f "elev_domain_2d"); ("diffusivity_v", impl_v fl (tot_v_diff o f))].

(** _create_turb_integrator, coupled_timeintegrator.py:297-335 *)
Definition turb_fields (fl : flags3d) (o f : attrs) : fdict :=
  [("diffusivity_v", impl_v fl (tot_v_diff o f)); ("viscosity_v", impl_v fl (tot_v_visc o f)); ("k", f "tke_3d"); ("epsilon", f "eps_3d");
   ("shear_freq2", f "shear_freq_3d"); ("buoy_freq2_neg", f "buoy_freq_neg"); ("buoy_freq2_pos", f "buoy_freq_pos");
   ("bottom_roughness", o "bottom_roughness")].
Definition turb_adv_fields (o f : attrs) : fdict :=
  [("elev_3d", f "elev_domain_2d"); ("uv_3d", f "uv_3d"); ("uv_depth_av", f "uv_dav_3d"); ("w", f "w_3d"); ("w_mesh", f "w_mesh_3d");
   ("lax_friedrichs_tracer_scaling_factor", o "lax_friedrichs_tracer_scaling_factor")].

(** ** The equations of a 3D run: one value per term of each equation *)
Inductive eq3 := ESwe2d | EMomentum | EVertMomentum | ESalt | ESaltVdff | ETemp | ETempVdff | ETke | EPsi | ETkeAdv | EPsiAdv.
Inductive term3 := TS (t : swet) | TM (t : momt) | TT (t : tr3t) | TG (t : glst).

(** The terms of each equation (solver.py:669-771) and what they evaluate to with
    the dictionary their integrator was given (coupled_timeintegrator.py:181-335);
    the integrators of the 3D solver use the dictionary itself for both arguments.
    The 2D equation has no flags that matter for its terms.  [None]: the equation
    has no such term, or is not created. *)
Definition contribution (fl : flags3d) (o f : attrs) (e : eq3) (t : term3) : option res :=
  let impl := use_implicit_vertical_diffusion fl in
  match e, t with
  | ESwe2d, TS t =>
      if existsb (fun t' => String.eqb (swe_name t) (swe_name t')) modesplit_list
      then Some (swe_term {| use_nonlinear_equations := false; use_lax_friedrichs_velocity := false; u_discontinuous := true |} (swe3d_fields o f) t)
      else None
  | EMomentum, TM t =>
      Some (mom_term (nonlinear3 fl) (lf_velocity3 fl) (use_bottom_friction fl && negb impl) (mom_fields fl o f) t)
  | EVertMomentum, TM t =>
      if impl then Some (mom_term false (lf_velocity3 fl) (use_bottom_friction fl) (vertmom_fields fl o f) t) else None
  | ESalt, TT t => Some (tr3_term (lf_tracer3 fl) (tracer3d_fields fl "salinity_source_3d" o f) t)
  | ETemp, TT t => Some (tr3_term (lf_tracer3 fl) (tracer3d_fields fl "temperature_source_3d" o f) t)
  | ESaltVdff, TT t | ETempVdff, TT t => if impl then Some (tr3_term (lf_tracer3 fl) (tracer3d_vdff_fields fl o f) t) else None
  | ETke, TG t => Some (gls_term false (turb_fields fl o f) t)
  | EPsi, TG t => Some (gls_term true (turb_fields fl o f) t)
  | ETkeAdv, TT t | EPsiAdv, TT t => Some (tr3_term (lf_tracer3 fl) (turb_adv_fields o f) t)
  | _, _ => None
  end.
End Wiring.
