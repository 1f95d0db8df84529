(** Model of the set-up of the solvers: create_function_spaces, create_fields,
    create_equations, create_timestepper, create_exporters and initialize of
    thetis/solver2d.py (307-744) and thetis/solver.py (409-913).

    A component is represented by a fresh number (its identity), the numbers of the
    components it was built from, the configuration read when it was built and the parts
    that exist.  Building a component appends its kind to a journal.  What a raised
    exception leaves behind is the state at the point of the exception. *)
From Coq Require Import List String Bool Arith.
Import ListNotations.
Open Scope string_scope.
Open Scope list_scope.

(** What set-up reads.  [c_tag] stands for all values that set-up stores without testing
    them (coefficients, boundary conditions, time step options).  The flags tell whether
    a check of the code passes:
    - [c_spaces_ok]: the element family assertion, solver2d.py:314-318, 344; solver.py:438
    - [c_early_ok]: what is evaluated before the velocity field is created
      (2D: set_wetting_and_drying_alpha, solver2d.py:403; the log directory of both)
    - [c_late_ok]: what is evaluated after it (3D: P2DGxP2 without quadratic pressure and
      the wind stress type, solver.py:520, 531-539)
    - [c_farms_ok]: turbine farm options are lists, solver2d.py:467-480
    - [c_bathy_cg]: the bathymetry is continuous, solver2d.py:519
    - [c_dt_ok]: set_time_step does not raise
    - [c_exports_ok]: the second export manager (and the first when [c_vtk_ok]) is created.
    [c_tracers]: labels in options.tracer_fields (every system has one label; systems
    share nothing else with the set-up). *)
Record cfg := mkCfg {
  c_tag : nat;
  c_spaces_ok : bool; c_early_ok : bool; c_late_ok : bool;
  c_tracers : list string; c_tracer_only : bool;
  c_susp : bool; c_exner : bool; c_bathy_cg : bool; c_farms_ok : bool; c_nonhydro : bool;
  c_dt_ok : bool;
  c_no_exports : bool; c_vtk_ok : bool; c_exports_ok : bool
}.

Inductive kind := KSpaces | KFields | KEquations | KStepper | KExporters.
(** equations: shallow water (2D) or all equations of the 3D solver, a tracer, sediment,
    Exner, free surface *)
Inductive part := Sw | Tr (label : string) | Sed | Exn | Fs.

Record fields_t := mkFields { f_id : nat; f_spaces : nat; f_cfg : cfg;
                              f_labels : list string; f_done : bool }.
Record eqs_t := mkEqs { e_id : nat; e_fields : nat; e_cfg : cfg; e_parts : list part; e_done : bool }.
(** [s_dt]: the stepper has been given its time step *)
Record stepper_t := mkStepper { s_id : nat; s_eqs : nat; s_fields : nat; s_cfg : cfg; s_dt : bool }.
(** [x_managers]: keys of the dictionary of export managers *)
Record exporters_t := mkExporters { x_id : nat; x_fields : nat; x_cfg : cfg; x_managers : list string }.

(** a solver; [registry]: labels of the process-wide field_metadata dictionary *)
Record st := mkSt {
  conf : cfg;
  spaces : option (nat * cfg);
  fields : option fields_t;
  eqs : option eqs_t;
  stepper : option stepper_t;
  exporters : option exporters_t;
  initialized : bool;
  next : nat;
  journal : list kind;
  registry : list string
}.

(** __init__: solver2d.py:81-147, solver.py:82-162 *)
Definition new (c : cfg) (reg : list string) : st :=
  mkSt c None None None None None false 0 [] reg.

Inductive err := EFamily | EEarly | ELate | ELabel (l : string) | EFarms | EExner
               | EStep | EKind | EMissing | EExport.
Inductive res := Ok (s : st) | Raise (e : err) (s : st).
Definition bind (r : res) (f : st -> res) : res :=
  match r with Ok s => f s | Raise e s => Raise e s end.
Definition final (r : res) : st := match r with Ok s => s | Raise _ s => s end.

(** setting attributes *)
Definition put_spaces (s : st) : st :=
  mkSt (conf s) (Some (next s, conf s)) (fields s) (eqs s) (stepper s) (exporters s)
       (initialized s) (S (next s)) (journal s ++ [KSpaces]) (registry s).
Definition put_fields (s : st) (f : fields_t) : st :=
  mkSt (conf s) (spaces s) (Some f) (eqs s) (stepper s) (exporters s)
       (initialized s) (next s) (journal s) (registry s).
Definition put_eqs (s : st) (e : eqs_t) : st :=
  mkSt (conf s) (spaces s) (fields s) (Some e) (stepper s) (exporters s)
       (initialized s) (next s) (journal s) (registry s).
Definition put_stepper (s : st) (t : stepper_t) : st :=
  mkSt (conf s) (spaces s) (fields s) (eqs s) (Some t) (exporters s)
       (initialized s) (next s) (journal s) (registry s).
Definition put_exporters (s : st) (x : exporters_t) : st :=
  mkSt (conf s) (spaces s) (fields s) (eqs s) (stepper s) (Some x)
       (initialized s) (next s) (journal s) (registry s).
Definition note (s : st) (k : kind) : st :=
  mkSt (conf s) (spaces s) (fields s) (eqs s) (stepper s) (exporters s)
       (initialized s) (S (next s)) (journal s ++ [k]) (registry s).
Definition register (s : st) (l : string) : st :=
  mkSt (conf s) (spaces s) (fields s) (eqs s) (stepper s) (exporters s)
       (initialized s) (next s) (journal s) (registry s ++ [l]).
Definition set_initialized (s : st) : st :=
  mkSt (conf s) (spaces s) (fields s) (eqs s) (stepper s) (exporters s)
       true (next s) (journal s) (registry s).
Definition configure (c : cfg) (s : st) : st :=
  mkSt c (spaces s) (fields s) (eqs s) (stepper s) (exporters s)
       (initialized s) (next s) (journal s) (registry s).

Definition memb (l : string) (ls : list string) : bool := existsb (String.eqb l) ls.
Definition part_eqb (a b : part) : bool :=
  match a, b with
  | Sw, Sw | Sed, Sed | Exn, Exn | Fs, Fs => true
  | Tr l, Tr m => String.eqb l m
  | _, _ => false
  end.
Definition has_part (p : part) (ps : list part) : bool := existsb (part_eqb p) ps.

(** number of the current spaces, fields and equations (0 when there are none: the callers
    create them first) *)
Definition cur_spaces (s : st) : nat := match spaces s with Some (i, _) => i | None => 0 end.
Definition cur_fields (s : st) : nat := match fields s with Some f => f_id f | None => 0 end.
Definition cur_eqs (s : st) : nat := match eqs s with Some e => e_id e | None => 0 end.

(** create_function_spaces: no test whether the spaces exist.
    solver2d.py:307-352, solver.py:409-469 *)
Definition create_function_spaces (s : st) : res :=
  if c_spaces_ok (conf s) then Ok (put_spaces s) else Raise EFamily s.

(** the loop over tracers of create_fields, solver2d.py:417-437: add_new_field (355-385)
    asserts that the label is not registered in field_metadata *)
Fixpoint add_tracers (ls : list string) (s : st) : res :=
  match ls with
  | [] => Ok s
  | l :: r =>
      if memb l (registry s) then Raise (ELabel l) s
      else let s := register s l in
           match fields s with
           | Some f => add_tracers r (put_fields s (mkFields (f_id f) (f_spaces f) (f_cfg f)
                                                             (f_labels f ++ [l]) (f_done f)))
           | None => Raise EMissing s
           end
  end.
Definition fields_complete (s : st) : st :=
  match fields s with
  | Some f => put_fields s (mkFields (f_id f) (f_spaces f) (f_cfg f) (f_labels f) true)
  | None => s
  end.

(** create_fields.  2D: solver2d.py:389-449, spaces are created when function_spaces.U_2d
    does not exist.  3D: solver.py:472-613, the test is on an attribute of the solver that
    is never set (476), so the spaces are always created. *)
Definition create_fields (three_d : bool) (s : st) : res :=
  bind (if three_d then create_function_spaces s
        else match spaces s with None => create_function_spaces s | Some _ => Ok s end)
  (fun s =>
     if negb (c_early_ok (conf s)) then Raise EEarly s
     else
       let s := note (put_fields s (mkFields (next s) (cur_spaces s) (conf s) [] false)) KFields in
       if three_d
       then if c_late_ok (conf s) then Ok (fields_complete s) else Raise ELate s
       else bind (add_tracers (c_tracers (conf s)) s) (fun s => Ok (fields_complete s))).

Definition add_part (p : part) (s : st) : st :=
  match eqs s with
  | Some e => put_eqs s (mkEqs (e_id e) (e_fields e) (e_cfg e) (e_parts e ++ [p]) (e_done e))
  | None => s
  end.
Definition eqs_complete (s : st) : st :=
  match eqs s with
  | Some e => put_eqs s (mkEqs (e_id e) (e_fields e) (e_cfg e) (e_parts e) true)
  | None => s
  end.
(** equations[system], solver2d.py:497-504: the tracer field must have been created *)
Fixpoint add_tracer_eqs (ls : list string) (s : st) : res :=
  match ls with
  | [] => Ok s
  | l :: r => match fields s with
              | Some f => if memb l (f_labels f) then add_tracer_eqs r (add_part (Tr l) s)
                          else Raise EMissing s
              | None => Raise EMissing s
              end
  end.
(** create_equations.  2D: solver2d.py:453-540.  [self.equations] is assigned before
    anything can fail (459).  3D: solver.py:650-835; all 3D equations need the element
    size fields, which are created last (540-544). *)
Definition create_equations (three_d : bool) (s : st) : res :=
  bind (match fields s with None => create_fields three_d s | Some _ => Ok s end)
  (fun s =>
     let s := note (put_eqs s (mkEqs (next s) (cur_fields s) (conf s) [] false)) KEquations in
     if three_d
     then match fields s with
          | Some f => if f_done f then Ok (eqs_complete (add_part Sw s)) else Raise EMissing s
          | None => Raise EMissing s
          end
     else if negb (c_farms_ok (conf s)) then Raise EFarms s
     else
       bind (add_tracer_eqs (c_tracers (conf s)) (add_part Sw s)) (fun s =>
       let s := if c_susp (conf s) then add_part Sed s else s in
       if c_exner (conf s) && negb (c_bathy_cg (conf s)) then Raise EExner s
       else
         let s := if c_exner (conf s) then add_part Exn s else s in
         let s := if c_nonhydro (conf s) then add_part Fs s else s in
         Ok (eqs_complete s))).

(** the equations the 2D stepper of create_timestepper asks for, solver2d.py:673-699 and
    coupled_timeintegrator_2d.py:48-60, 150-157, 172-184; None when the combination has no
    integrators (KeyError, TypeError or AttributeError; property C55) *)
Definition needed (c : cfg) : option (list part) :=
  if c_nonhydro c then
    match c_tracers c with
    | [] => if c_susp c || c_exner c then None else Some [Sw; Fs]
    | _ => None
    end
  else match c_tracers c with
       | _ :: _ => if c_susp c || c_exner c then None
                   else Some ((if c_tracer_only c then [] else [Sw]) ++ map Tr (c_tracers c))
       | [] => if c_susp c || c_exner c
               then Some ((if c_tracer_only c then [] else [Sw])
                          ++ (if c_susp c then [Sed] else []) ++ (if c_exner c then [Exn] else []))
               else Some [Sw]
       end.
(** fields[system] of get_tracer_timestepper, solver2d.py:597 *)
Definition has_fields (c : cfg) (s : st) : bool :=
  match fields s with
  | Some f => forallb (fun l => memb l (f_labels f)) (c_tracers c)
  | None => false
  end.
Definition has_parts (ps : list part) (s : st) : bool :=
  match eqs s with Some e => forallb (fun p => has_part p (e_parts e)) ps | None => false end.

(** create_timestepper.  2D: solver2d.py:651-700, the attribute is assigned last.
    3D: solver.py:839-865, the attribute is assigned before set_time_step. *)
Definition create_timestepper (three_d : bool) (s : st) : res :=
  bind (match eqs s with None => create_equations three_d s | Some _ => Ok s end)
  (fun s =>
     if three_d
     then if has_parts [Sw] s
          then let s := note (put_stepper s (mkStepper (next s) (cur_eqs s) (cur_fields s) (conf s) false)) KStepper in
               if c_dt_ok (conf s)
               then match stepper s with
                    | Some t => Ok (put_stepper s (mkStepper (s_id t) (s_eqs t) (s_fields t) (s_cfg t) true))
                    | None => Ok s
                    end
               else Raise EStep s
          else Raise EMissing s
     else if negb (c_dt_ok (conf s)) then Raise EStep s
     else match needed (conf s) with
          | None => Raise EKind s
          | Some ps =>
              if has_parts ps s && has_fields (conf s) s
              then Ok (note (put_stepper s (mkStepper (next s) (cur_eqs s) (cur_fields s) (conf s) true)) KStepper)
              else Raise EMissing s
          end).

Definition add_manager (k : string) (s : st) : st :=
  match exporters s with
  | Some x => put_exporters s (mkExporters (x_id x) (x_fields x) (x_cfg x) (x_managers x ++ [k]))
  | None => s
  end.
(** create_exporters, solver2d.py:704-730, solver.py:870-899: the dictionary is assigned
    first; each manager copies the dictionary of fields (exporter.py:282-283) *)
Definition create_exporters (three_d : bool) (s : st) : res :=
  bind (match stepper s with None => create_timestepper three_d s | Some _ => Ok s end)
  (fun s =>
     let s := note (put_exporters s (mkExporters (next s) (cur_fields s) (conf s) [])) KExporters in
     if c_no_exports (conf s) then Ok s
     else if negb (c_vtk_ok (conf s)) then Raise EExport s
     else let s := add_manager "vtk" s in
          if negb (c_exports_ok (conf s)) then Raise EExport s
          else Ok (add_manager "hdf5" s)).

(** initialize, solver2d.py:732-744, solver.py:901-913 *)
Definition initialize (three_d : bool) (s : st) : res :=
  bind (match spaces s with None => create_function_spaces s | Some _ => Ok s end) (fun s =>
  bind (match eqs s with None => create_equations three_d s | Some _ => Ok s end) (fun s =>
  bind (match stepper s with None => create_timestepper three_d s | Some _ => Ok s end) (fun s =>
  bind (match exporters s with None => create_exporters three_d s | Some _ => Ok s end) (fun s =>
  Ok (set_initialized s))))).

(** calls of a user: the explicit creation methods, setting options or boundary
    conditions, initialize, and the methods that start with
    [if not self._initialized: self.initialize()] (assign_initial_conditions, load_state,
    iterate: solver2d.py:760, 865, 1031; solver.py:936, 1052, 1233) *)
Inductive op := Create (k : kind) | Initialize | Use | Configure (c : cfg).
Definition step (three_d : bool) (s : st) (o : op) : res :=
  match o with
  | Create KSpaces => create_function_spaces s
  | Create KFields => create_fields three_d s
  | Create KEquations => create_equations three_d s
  | Create KStepper => create_timestepper three_d s
  | Create KExporters => create_exporters three_d s
  | Initialize => initialize three_d s
  | Use => if initialized s then Ok s else initialize three_d s
  | Configure c => Ok (configure c s)
  end.
(** a history of calls; an exception ends one call, the next one starts from what it left *)
Definition run (three_d : bool) (s : st) (ops : list op) : st :=
  fold_left (fun s o => final (step three_d s o)) ops s.
