(** C83: what the manual says each physical option does.

    One line per option and term, from the help strings of the options
    (options.py:610-730 and 1083-1181) and the docstrings of the terms
    (shallowwater_eq.py, momentum_eq.py, tracer_eq.py, turbulence.py). *)
From Coq Require Import String List.
From Verif Require Import Wiring_Model.
Import ListNotations.
Open Scope string_scope.

(** two settings of the options that differ at most in the option called [n] *)
Definition agree_but {A} (n : string) (o o' : string -> A) : Prop := forall m, m <> n -> o m = o' m.

(** 2D runs: option and the term it acts in *)
Definition doc2d : list (string * swet) :=
  [("linear_drag_coefficient", LinearDrag);
   ("quadratic_drag_coefficient", QuadraticDrag);
   ("manning_drag_coefficient", QuadraticDrag);
   ("nikuradse_bed_roughness", QuadraticDrag);
   ("horizontal_viscosity", HorizontalViscosity);
   ("lax_friedrichs_velocity_scaling_factor", HorizontalAdvection);
   ("coriolis_frequency", Coriolis);
   ("wind_stress", WindStress);
   ("atmospheric_pressure", AtmosphericPressure);
   ("momentum_source_2d", MomentumSource);
   ("volume_source_2d", ContinuitySource)].

(** 3D runs: option, equation and term *)
Definition doc3d : list (string * eq3 * term3) :=
  [("coriolis_frequency", ESwe2d, TS Coriolis);
   ("coriolis_frequency", EMomentum, TM MCoriolis);
   ("atmospheric_pressure", ESwe2d, TS AtmosphericPressure);
   ("momentum_source_2d", ESwe2d, TS MomentumSource);
   ("volume_source_2d", ESwe2d, TS ContinuitySource);
   ("horizontal_viscosity", EMomentum, TM MHorizontalViscosity);
   ("vertical_viscosity", EMomentum, TM MVerticalViscosity);
   ("vertical_viscosity", EVertMomentum, TM MVerticalViscosity);
   ("vertical_viscosity", EMomentum, TM MSource);
   ("vertical_viscosity", EVertMomentum, TM MSource);
   ("vertical_viscosity", ETke, TG GlsDiffusion);
   ("vertical_viscosity", ETke, TG GlsSource);
   ("vertical_viscosity", EPsi, TG GlsDiffusion);
   ("vertical_viscosity", EPsi, TG GlsSource);
   ("linear_drag_coefficient", EMomentum, TM MLinearDrag);
   ("linear_drag_coefficient", EVertMomentum, TM MLinearDrag);
   ("quadratic_drag_coefficient", EMomentum, TM BottomFriction);
   ("quadratic_drag_coefficient", EVertMomentum, TM BottomFriction);
   ("bottom_roughness", EMomentum, TM BottomFriction);
   ("bottom_roughness", EVertMomentum, TM BottomFriction);
   ("bottom_roughness", EPsi, TG GlsSource);
   ("wind_stress", EMomentum, TM MSource);
   ("wind_stress", EVertMomentum, TM MSource);
   ("momentum_source_3d", EMomentum, TM MSource);
   ("lax_friedrichs_velocity_scaling_factor", EMomentum, TM MHorizontalAdvection);
   ("lax_friedrichs_velocity_scaling_factor", EMomentum, TM MVerticalAdvection);
   ("horizontal_diffusivity", ESalt, TT T3HorizontalDiffusion);
   ("horizontal_diffusivity", ETemp, TT T3HorizontalDiffusion);
   ("vertical_diffusivity", ESalt, TT T3VerticalDiffusion);
   ("vertical_diffusivity", ESaltVdff, TT T3VerticalDiffusion);
   ("vertical_diffusivity", ETemp, TT T3VerticalDiffusion);
   ("vertical_diffusivity", ETempVdff, TT T3VerticalDiffusion);
   ("vertical_diffusivity", ETke, TG GlsSource);
   ("vertical_diffusivity", EPsi, TG GlsSource);
   ("salinity_source_3d", ESalt, TT T3Source);
   ("temperature_source_3d", ETemp, TT T3Source);
   ("lax_friedrichs_tracer_scaling_factor", ESalt, TT T3HorizontalAdvection);
   ("lax_friedrichs_tracer_scaling_factor", ESalt, TT T3VerticalAdvection);
   ("lax_friedrichs_tracer_scaling_factor", ETemp, TT T3HorizontalAdvection);
   ("lax_friedrichs_tracer_scaling_factor", ETemp, TT T3VerticalAdvection);
   ("lax_friedrichs_tracer_scaling_factor", ETkeAdv, TT T3HorizontalAdvection);
   ("lax_friedrichs_tracer_scaling_factor", ETkeAdv, TT T3VerticalAdvection);
   ("lax_friedrichs_tracer_scaling_factor", EPsiAdv, TT T3HorizontalAdvection);
   ("lax_friedrichs_tracer_scaling_factor", EPsiAdv, TT T3VerticalAdvection)].
