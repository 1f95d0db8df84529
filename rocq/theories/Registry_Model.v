(** Model of the field registry: the process-wide dictionary field_metadata
    (thetis/field_defs.py), FieldDict (thetis/utility.py:103-136), and the places
    where solvers change them: FlowSolver2d.__init__ (solver2d.py:137-144),
    add_new_field (solver2d.py:355-385, solver.py:616-646), create_fields for
    tracers (solver2d.py:415-436), and the look-up by ExportManager.add_export
    (exporter.py:323-329).

    A Function is known by a number (its identity); its name is the only attribute
    the code changes. *)
From Coq Require Import String Ascii List Bool Arith.
From Verif Require Import Exporter_Model.
Import ListNotations.
Open Scope string_scope.

Record meta := mk_meta { md_name : string; md_short : string; md_unit : string; md_file : string }.

(** field_defs.py:18-258, in order *)
Definition builtin : list (string * meta) :=
  [("bathymetry_2d", mk_meta "Bathymetry" "Bathymetry" "m" "bathymetry2d");
   ("z_coord_3d", mk_meta "Mesh z coordinates" "Z coordinates" "m" "ZCoord3d");
   ("z_coord_ref_3d", mk_meta "Static mesh z coordinates" "Z coordinates" "m" "ZCoordRef3d");
   ("uv_2d", mk_meta "Depth averaged velocity" "Depth averaged velocity" "m s-1" "Velocity2d");
   ("sediment_2d", mk_meta "Sediment" "Sediment" "" "Sediment2d");
   ("uv_dav_2d", mk_meta "Depth averaged velocity" "Depth averaged velocity" "m s-1" "DAVelocity2d");
   ("split_residual_2d", mk_meta "Momentum eq. residual for mode splitting" "Momentum residual" "m s-2" "SplitResidual2d");
   ("uv_dav_3d", mk_meta "Depth averaged velocity" "Depth averaged velocity" "m s-1" "DAVelocity3d");
   ("elev_2d", mk_meta "Water elevation" "Elevation" "m" "Elevation2d");
   ("elev_domain_2d", mk_meta "Surface elevation of domain" "Elevation" "m" "ElevationDomain2d");
   ("elev_cg_2d", mk_meta "Water elevation CG" "Elevation" "m" "ElevationCG2d");
   ("uv_3d", mk_meta "Horizontal velocity" "Horizontal velocity" "m s-1" "Velocity3d");
   ("w_3d", mk_meta "Vertical velocity" "Vertical velocity" "m s-1" "VertVelo3d");
   ("w_mesh_3d", mk_meta "Mesh velocity" "Mesh velocity" "m s-1" "MeshVelo3d");
   ("salt_3d", mk_meta "Water salinity" "Salinity" "psu" "Salinity3d");
   ("temp_3d", mk_meta "Water temperature" "Temperature" "C" "Temperature3d");
   ("density_3d", mk_meta "Water density" "Density" "kg m-3" "Density3d");
   ("eddy_visc_3d", mk_meta "Eddy Viscosity" "Eddy Viscosity" "m2 s-1" "EddyVisc3d");
   ("eddy_diff_3d", mk_meta "Eddy diffusivity" "Eddy diffusivity" "m2 s-1" "EddyDiff3d");
   ("shear_freq_3d", mk_meta "Vertical shear frequency squared" "Vertical shear frequency squared" "s-2" "ShearFreq3d");
   ("buoy_freq_3d", mk_meta "Buoyancy frequency squared" "Buoyancy frequency squared" "s-2" "BuoyFreq3d");
   ("tke_3d", mk_meta "Turbulent Kinetic Energy" "Turbulent Kinetic Energy" "m2 s-2" "TurbKEnergy3d");
   ("psi_3d", mk_meta "Turbulence psi variable" "Turbulence psi variable" "" "TurbPsi3d");
   ("eps_3d", mk_meta "TKE dissipation rate" "TKE dissipation rate" "m2 s-3" "TurbEps3d");
   ("len_3d", mk_meta "Turbulent length scale" "Turbulent length scale" "m" "TurbLen3d");
   ("baroc_head_3d", mk_meta "Baroclinic head" "Baroclinic head" "m" "BaroHead3d");
   ("int_pg_3d", mk_meta "Internal pressure gradient" "Int. Pressure gradient" "m s-2" "IntPG3d");
   ("smag_visc_3d", mk_meta "Smagorinsky viscosity" "Smagorinsky viscosity" "m2 s-1" "SmagViscosity3d");
   ("max_h_diff", mk_meta "Maximum stable horizontal diffusivity" "Maximum horizontal diffusivity" "m2 s-1" "MaxHDiffusivity3d");
   ("v_elem_size_3d", mk_meta "Element size in vertical direction" "Vertical element size" "m" "VElemSize3d");
   ("v_elem_size_2d", mk_meta "Element size in vertical direction" "Vertical element size" "m" "VElemSize2d");
   ("h_elem_size_3d", mk_meta "Element size in horizontal direction" "Horizontal element size" "m" "h_elem_size_3d");
   ("h_elem_size_2d", mk_meta "Element size in horizontal direction" "Horizontal element size" "m" "h_elem_size_2d");
   ("coriolis_2d", mk_meta "Coriolis parameter" "Coriolis parameter" "s-1" "coriolis_2d");
   ("coriolis_3d", mk_meta "Coriolis parameter" "Coriolis parameter" "s-1" "coriolis_3d");
   ("wind_stress_3d", mk_meta "Wind stress" "Wind stress" "Pa" "wind_stress_3d");
   ("hcc_metric_3d", mk_meta "HCC mesh quality" "HCC metric" "-" "HCCMetric3d");
   ("q_2d", mk_meta "Non-hydrostatic pressure at bottom" "NH pressure" "Pa" "NHPressure2d");
   ("w_2d", mk_meta "Depth averaged vertical velocity" "Depth averaged vertical velocity" "m s-1" "VertVelo2d");
   ("turbine_density_2d", mk_meta "Turbine density" "Turbine density" "m-2" "turbine_density_2d")].

(** what can be put into [fields] *)
Inductive value := VFun (id : nat) (mixed : bool) | VConst | VJunk.
Inductive rerr := RTypeError | RNoMetadata | RAssertion | RKeyError.

(** a solver object: [fields], and the preprocessor functions by label *)
Record solver := mk_solver { s_fields : list (string * value); s_preproc : list (string * nat) }.

(** the process: field_metadata, its solvers in order of creation, and the names
    of the Functions *)
Record proc := mk_proc { p_reg : list (string * meta); p_solvers : list solver; p_name : nat -> string }.

Definition has {A} (d : list (string * A)) (k : string) : bool :=
  match dict_get d k with Some _ => true | None => false end.

(** _check_inputs, utility.py:109-122 *)
Definition check_inputs (reg : list (string * meta)) (k : string) (v : value) : option rerr :=
  match v with
  | VJunk => Some RTypeError
  | VFun _ true => None
  | _ => if has reg k then None else Some RNoMetadata
  end.

(** _set_functionname, utility.py:124-127 *)
Definition rename (names : nat -> string) (k : string) (v : value) : nat -> string :=
  match v with
  | VFun id _ => fun n => if Nat.eqb n id then k else names n
  | _ => names
  end.

Fixpoint set_nth {A} (l : list A) (i : nat) (a : A) : list A :=
  match l, i with
  | [], _ => []
  | _ :: r, O => a :: r
  | x :: r, S j => x :: set_nth r j a
  end.

(** __setitem__ and __setattr__, utility.py:129-137, on the fields of solver [i]
    (key and attribute are the same store, AttrDict, utility.py:89-100) *)
Definition set_field (p : proc) (i : nat) (k : string) (v : value) : proc * option rerr :=
  match nth_error (p_solvers p) i with
  | None => (p, Some RKeyError)
  | Some s =>
      match check_inputs (p_reg p) k v with
      | Some e => (p, Some e)
      | None =>
          (mk_proc (p_reg p)
             (set_nth (p_solvers p) i (mk_solver (dict_set (s_fields s) k v) (s_preproc s)))
             (rename (p_name p) k v), None)
      end
  end.

Definition dict_del {A} (d : list (string * A)) (k : string) : list (string * A) :=
  filter (fun x => negb (String.eqb (fst x) k)) d.

(** FlowSolver2d.__init__, solver2d.py:120-148: bathymetry_2d is set first, then
    the entry of 'tracer_2d' is dropped *)
Definition new_solver2d (p : proc) (bath : value) : proc * option rerr :=
  let i := List.length (p_solvers p) in
  let p1 := mk_proc (p_reg p) (p_solvers p ++ [mk_solver [] []]) (p_name p) in
  match set_field p1 i "bathymetry_2d" bath with
  | (_, Some e) => (p, Some e)
  | (p2, None) => (mk_proc (dict_del (p_reg p2) "tracer_2d") (p_solvers p2) (p_name p2), None)
  end.

(** FlowSolver.__init__, solver.py:100-162: no field yet *)
Definition new_solver3d (p : proc) : proc :=
  mk_proc (p_reg p) (p_solvers p ++ [mk_solver [] []]) (p_name p).

Fixpoint has_space (s : string) : bool :=
  match s with EmptyString => false | String c r => (Ascii.eqb c " " || has_space r)%bool end.

(** add_new_field, solver2d.py:355-385 and solver.py:616-646; label, name,
    filename, shortname and unit are strings *)
Definition add_new_field (p : proc) (i : nat) (v : value) (label name filename : string) (short : option string)
  (unit_ : string) (preproc : option nat) : proc * option rerr :=
  match v with
  | VFun _ _ =>
      if (has (p_reg p) label || has_space label || has_space filename)%bool then (p, Some RAssertion)
      else
        let short := match short with Some s => if String.eqb s "" then name else s | None => name end in
        let p1 := mk_proc (dict_set (p_reg p) label (mk_meta name short unit_ filename)) (p_solvers p) (p_name p) in
        match set_field p1 i label v with
        | (p2, Some e) => (p2, Some e)
        | (p2, None) =>
            match preproc, nth_error (p_solvers p2) i with
            | Some f, Some s =>
                (mk_proc (p_reg p2) (set_nth (p_solvers p2) i (mk_solver (s_fields s) (dict_set (s_preproc s) label f)))
                   (p_name p2), None)
            | _, _ => (p2, None)
            end
        end
  | _ => (p, Some RAssertion)
  end.

(** the look-up in ExportManager.add_export, exporter.py:323-329: (shortname,
    filename) under which a field is written *)
Definition export_meta (p : proc) (k : string) : option (string * string) :=
  match dict_get (p_reg p) k with Some m => Some (md_short m, md_file m) | None => None end.

(** what programs do, in any order, with any number of solvers *)
Inductive op :=
| New2d (bath : value)
| New3d
| SetField (i : nat) (k : string) (v : value)
| AddField (i : nat) (v : value) (label name filename : string) (short : option string) (unit_ : string)
    (preproc : option nat).
Definition step (p : proc) (o : op) : proc * option rerr :=
  match o with
  | New2d b => new_solver2d p b
  | New3d => (new_solver3d p, None)
  | SetField i k v => set_field p i k v
  | AddField i v l n f s u pp => add_new_field p i v l n f s u pp
  end.
(** exceptions are caught by the program, which goes on *)
Definition run (p : proc) (ops : list op) : proc := fold_left (fun p o => fst (step p o)) ops p.
Definition start (names : nat -> string) : proc := mk_proc builtin [] names.

(** the fields solvers create themselves: solver2d.py:137, 402-413, 437-450 and
    solver.py:481-571 (solution_2d is mixed) *)
Definition created_2d : list string :=
  ["bathymetry_2d"; "h_elem_size_2d"; "uv_2d"; "elev_2d"; "sediment_2d"; "q_2d"; "w_2d"].
Definition created_3d : list string :=
  ["uv_2d"; "elev_2d"; "elev_domain_2d"; "elev_cg_2d"; "uv_3d"; "bathymetry_2d"; "z_coord_3d"; "z_coord_ref_3d";
   "uv_dav_3d"; "uv_dav_2d"; "split_residual_2d"; "w_3d"; "hcc_metric_3d"; "w_mesh_3d"; "salt_3d"; "temp_3d";
   "density_3d"; "baroc_head_3d"; "int_pg_3d"; "coriolis_3d"; "wind_stress_3d"; "v_elem_size_3d"; "v_elem_size_2d";
   "h_elem_size_3d"; "h_elem_size_2d"; "max_h_diff"; "smag_visc_3d"; "tke_3d"; "psi_3d"; "eps_3d"; "len_3d";
   "eddy_visc_3d"; "eddy_diff_3d"; "shear_freq_3d"; "buoy_freq_3d"].

(** SumFunction, utility.py:60-86: None coefficients are skipped; an empty sum is
    None *)
Section Sum.
Context {C : Type} (plus : C -> C -> C) (zero : C).
Definition sum_add (l : list C) (c : option C) : list C := match c with None => l | Some x => (l ++ [x])%list end.
Definition get_sum (l : list C) : option C :=
  match l with [] => None | _ => Some (fold_left plus l zero) end.
End Sum.
