(** Initial conditions of the 2D solver, the cached fields of the sediment model, and the
    boundary conditions a tracer is given.

    Modelled code: thetis/solver2d.py (assign_initial_conditions, the state part of
    load_state, get_tracer_timestepper), thetis/sediment_model.py (SedimentModel.__init__
    and update, as far as cached functions are concerned).

    Simplifications: the values of fields are elements of a type [V]; projection into the
    velocity, elevation and tracer spaces and into the spaces of the sediment model, and
    the pointwise formulae of the sediment model (modelled in Sediment_Model.v) are
    unspecified functions.  An initial condition is an expression that may refer to the
    fields: a function of the current state.  The sub-steppers' initialize copies the
    current fields into their old values (modelled in Coupled2d_Model.v, RK_Model.v): here
    one record of what the fields were. *)
From Coq Require Import List String Bool Arith Ascii.
Import ListNotations.
Open Scope string_scope.
Open Scope list_scope.

(** [s[-3:]] and [s[:-3]] of Python *)
Definition last3 (s : string) : string := substring (String.length s - 3) 3 s.
Definition but_last3 (s : string) : string := substring 0 (String.length s - 3) s.

(** solver2d.py:768: [l if len(l) > 3 and l[-3:] == '_2d' else l + '_2d'] *)
Definition label_of (l : string) : string :=
  if Nat.ltb 3 (String.length l) && String.eqb (last3 l) "_2d" then l else (l ++ "_2d")%string.

(** the options that matter here: options.tracer (the keys), and of
    options.sediment_model_options: solve_suspended_sediment, solve_exner, use_bedload,
    use_angle_correction, use_advective_velocity_correction,
    use_sediment_conservative_form *)
Record opts := mkOpts {
  o_tracers : list string; o_susp : bool; o_exner : bool; o_bedload : bool; o_angle : bool;
  o_correction : bool; o_conservative : bool }.

Section InitCond.
Variable V : Type.
(** projection into the velocity, elevation and tracer space *)
Variables proj_u proj_h proj_q : V -> V.
(** project to the P1 (vector) space, interpolate to P1 *)
Variables cg cgv interp : V -> V.
(** depth.get_total_depth(elev), with the bathymetry *)
Variable total_depth : V -> V -> V.
Variable times : V -> V -> V.
(** the formulae, of the velocity and depth on P1: rho/2 qfc |u|^2, the erosion
    concentration, erosion over the Rouse integral, the flow angle, the stress of the angle
    correction, the velocity correction factor *)
Variables f_stress f_erosion : V -> V -> V.
Variable f_equilibrium : V -> V -> V -> V.
Variables f_calfa f_salfa : V -> V.
Variables f_angle f_correction : V -> V -> V.

(** the functions a SedimentModel keeps; [None] for attributes the constructor did not
    create *)
Record smodel := mkSm {
  m_uv : V; m_bathy : V; m_depth : V; m_stress : V;
  m_erosion : option V; m_equilibrium : option V;
  m_calfa : option V; m_salfa : option V; m_angle : option V;
  m_correction : option V }.

(** SedimentModel.__init__, sediment_model.py:158-220 (the cached functions only) *)
Definition new_sediment_model (o : opts) (uv elev bathy : V) : smodel :=
  let u := cgv uv in
  let b := interp bathy in
  let d := cg (total_depth bathy elev) in
  let ero := f_erosion u d in
  mkSm u b d (f_stress u d)
       (if o_susp o then Some ero else None)
       (if o_susp o then Some (f_equilibrium ero u d) else None)
       (if o_bedload o then Some (f_calfa u) else None)
       (if o_bedload o then Some (f_salfa u) else None)
       (if o_bedload o && o_angle o then Some (f_angle u d) else None)
       (if o_susp o && o_correction o then Some (f_correction u d) else None).

(** SedimentModel.update, sediment_model.py:388-417: the steps in order, each reading the
    functions as the steps before have left them; the last one is not guarded by
    solve_suspended_sediment and raises AttributeError if the constructor did not create
    the correction factor.  The other attributes exist when their guard holds. *)
Definition set_uv m v := mkSm v (m_bathy m) (m_depth m) (m_stress m) (m_erosion m) (m_equilibrium m) (m_calfa m) (m_salfa m) (m_angle m) (m_correction m).
Definition set_bathy m v := mkSm (m_uv m) v (m_depth m) (m_stress m) (m_erosion m) (m_equilibrium m) (m_calfa m) (m_salfa m) (m_angle m) (m_correction m).
Definition set_depth m v := mkSm (m_uv m) (m_bathy m) v (m_stress m) (m_erosion m) (m_equilibrium m) (m_calfa m) (m_salfa m) (m_angle m) (m_correction m).
Definition set_stress m v := mkSm (m_uv m) (m_bathy m) (m_depth m) v (m_erosion m) (m_equilibrium m) (m_calfa m) (m_salfa m) (m_angle m) (m_correction m).
Definition set_erosion m v := mkSm (m_uv m) (m_bathy m) (m_depth m) (m_stress m) (Some v) (m_equilibrium m) (m_calfa m) (m_salfa m) (m_angle m) (m_correction m).
Definition set_equilibrium m v := mkSm (m_uv m) (m_bathy m) (m_depth m) (m_stress m) (m_erosion m) (Some v) (m_calfa m) (m_salfa m) (m_angle m) (m_correction m).
Definition set_angles m c s := mkSm (m_uv m) (m_bathy m) (m_depth m) (m_stress m) (m_erosion m) (m_equilibrium m) (Some c) (Some s) (m_angle m) (m_correction m).
Definition set_angle m v := mkSm (m_uv m) (m_bathy m) (m_depth m) (m_stress m) (m_erosion m) (m_equilibrium m) (m_calfa m) (m_salfa m) (Some v) (m_correction m).
Definition set_correction m v := mkSm (m_uv m) (m_bathy m) (m_depth m) (m_stress m) (m_erosion m) (m_equilibrium m) (m_calfa m) (m_salfa m) (m_angle m) (Some v).

Inductive exn := UnknownTracer (l : string) | NoField (l : string) | NoAttribute.

(** the model after the call and whether it raised *)
Definition update (o : opts) (uv elev bathy : V) (m : smodel) : smodel * option exn :=
  let m := set_uv m (cgv uv) in
  let m := set_bathy m (interp bathy) in
  let m := set_depth m (cg (total_depth bathy elev)) in
  let m := set_stress m (f_stress (m_uv m) (m_depth m)) in
  let m := if o_susp o
           then let m := set_erosion m (f_erosion (m_uv m) (m_depth m)) in
                match m_erosion m with
                | Some e => set_equilibrium m (f_equilibrium e (m_uv m) (m_depth m))
                | None => m
                end
           else m in
  let m := if o_bedload o
           then let m := set_angles m (f_calfa (m_uv m)) (f_salfa (m_uv m)) in
                if o_angle o then set_angle m (f_angle (m_uv m) (m_depth m)) else m
           else m in
  if o_correction o
  then match m_correction m with
       | Some _ => (set_correction m (f_correction (m_uv m) (m_depth m)), None)
       | None => (m, Some NoAttribute)
       end
  else (m, None).

(** what timestepper.initialize sees *)
Record snapshot := mkSnap { n_elev : V; n_uv : V; n_tracers : list (string * V); n_sediment : option V }.

(** the solver: fields.elev_2d, uv_2d, bathymetry_2d, the tracer fields by label,
    fields.sediment_2d, sediment_model, and the values the time stepper was initialised
    with, latest first *)
Record state := mkState {
  elev : V; uv : V; bathy : V; tracers : list (string * V); sediment : option V;
  model : option smodel; started : list snapshot }.
Definition set_elev s v := mkState v (uv s) (bathy s) (tracers s) (sediment s) (model s) (started s).
Definition put_uv s v := mkState (elev s) v (bathy s) (tracers s) (sediment s) (model s) (started s).
Definition set_tracers s v := mkState (elev s) (uv s) (bathy s) v (sediment s) (model s) (started s).
Definition set_sediment s v := mkState (elev s) (uv s) (bathy s) (tracers s) (Some v) (model s) (started s).
Definition set_model s v := mkState (elev s) (uv s) (bathy s) (tracers s) (sediment s) (Some v) (started s).
Definition set_started s v := mkState (elev s) (uv s) (bathy s) (tracers s) (sediment s) (model s) v.

Inductive res := Ok (s : state) | Raise (e : exn) (s : state).
Definition final (r : res) : state := match r with Ok s | Raise _ s => s end.
Definition bind (r : res) (f : state -> res) : res := match r with Ok s => f s | Raise e s => Raise e s end.

Definition expr := state -> V.

Fixpoint get (l : string) (d : list (string * V)) : option V :=
  match d with
  | [] => None
  | (k, v) :: r => if String.eqb k l then Some v else get l r
  end.
Fixpoint put (l : string) (v : V) (d : list (string * V)) : list (string * V) :=
  match d with
  | [] => []
  | (k, w) :: r => if String.eqb k l then (k, v) :: r else (k, w) :: put l v r
  end.
Definition mem (l : string) (ls : list string) : bool := existsb (String.eqb l) ls.

(** the loop over the keyword arguments, solver2d.py:767-770 *)
Fixpoint assign_tracers (o : opts) (kw : list (string * expr)) (s : state) : res :=
  match kw with
  | [] => Ok s
  | (k, f) :: r =>
      let l := label_of k in
      if mem l (o_tracers o)
      then match get l (tracers s) with
           | Some _ => assign_tracers o r (set_tracers s (put l (proj_q (f s)) (tracers s)))
           | None => Raise (NoField l) s
           end
      else Raise (UnknownTracer l) s
  end.

(** sediment_model.update(), solver2d.py:773-775 *)
Definition update_model (o : opts) (s : state) : res :=
  match model s with
  | None => Ok s
  | Some m =>
      let '(m, e) := update o (uv s) (elev s) (bathy s) m in
      match e with None => Ok (set_model s m) | Some e => Raise e (set_model s m) end
  end.

(** solver2d.py:776-783 *)
Definition assign_sediment (o : opts) (given : option expr) (s : state) : res :=
  if o_susp o
  then match given with
       | Some f => Ok (set_sediment s (proj_q (f s)))
       | None =>
           match model s with
           | Some m =>
               match m_equilibrium m with
               | Some c =>
                   let c := if o_conservative o then times c (total_depth (bathy s) (elev s)) else c in
                   Ok (set_sediment s (proj_q c))
               | None => Raise NoAttribute s
               end
           | None => Raise NoAttribute s
           end
       end
  else Ok s.

Definition assign_elev (g : option expr) (s : state) : state :=
  match g with Some f => set_elev s (proj_h (f s)) | None => s end.
Definition assign_uv (g : option expr) (s : state) : state :=
  match g with Some f => put_uv s (proj_u (f s)) | None => s end.
Definition start (s : state) : state :=
  set_started s (mkSnap (elev s) (uv s) (tracers s) (sediment s) :: started s).

(** assign_initial_conditions, solver2d.py:747-785, on an initialised solver *)
Definition assign (o : opts) (g_elev g_uv g_sed : option expr) (kw : list (string * expr)) (s : state) : res :=
  let s := assign_elev g_elev s in
  let s := assign_uv g_uv s in
  bind (assign_tracers o kw s) (fun s =>
  bind (update_model o s) (fun s =>
  bind (assign_sediment o g_sed s) (fun s => Ok (start s)))).

(** the fields part of load_state, solver2d.py:870-885: the two stored functions, then
    assign_initial_conditions without arguments *)
Definition load (o : opts) (stored_uv stored_elev : V) (s : state) : res :=
  assign o None None None [] (set_elev (put_uv s stored_uv) stored_elev).

(** a set-up solver: the fields of the tracers exist, the sediment field exists with
    suspended sediment (solver2d.py:439-440), the sediment model with either sediment
    option (508-511) *)
Definition set_up (o : opts) (e u b : V) (trs : list V) (sed : V) : state :=
  mkState e u b (combine (o_tracers o) trs) (if o_susp o then Some sed else None)
          (if o_susp o || o_exner o then Some (new_sediment_model o u e b) else None) [].

End InitCond.

(** boundary conditions of a tracer system, solver2d.py:590-595; [bnd] is
    bnd_functions, a dictionary of dictionaries *)
Section Bnd.
Variable B : Type.
Fixpoint bnd_get (k : string) (d : list (string * B)) : option B :=
  match d with
  | [] => None
  | (k', b) :: r => if String.eqb k' k then Some b else bnd_get k r
  end.
Definition tracer_bcs (empty : B) (bnd : list (string * B)) (system : string) : B :=
  match bnd_get system bnd with
  | Some b => b
  | None => match bnd_get (but_last3 system) bnd with Some b => b | None => empty end
  end.
End Bnd.
