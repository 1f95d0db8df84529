(** Model of the forcing interpolators of /repo/thetis/forcing.py (82-1160).

    Numbers are real numbers.  A nodal array is a function of the node number, a
    vector-valued array a function of node and component.  The readers of netCDF files and
    of the tidal data base, the time interpolator and the geometric search are parameters.
    A vector rotator is the list of its component functions: component, node, east and
    north component; it acts node by node (coordsys.py:177-191). *)
From Coq Require Import Reals List String Bool Arith.
From Verif Require Import Eos_Model.
Import ListNotations.
Open Scope string_scope.
Open Scope R_scope.
Open Scope list_scope.

Definition scalar := nat -> R.
Definition vector := nat -> nat -> R.
Definition rotator := list (nat -> R -> R -> R).

Inductive result (A : Type) := Done (a : A) | ValueError | AssertionError | IndexError.
Arguments Done {A}. Arguments ValueError {A}. Arguments AssertionError {A}. Arguments IndexError {A}.

(** [field.dat.data_with_halos[:, c] = values] *)
Definition set_component (f : vector) (c : nat) (v : scalar) : vector :=
  fun node k => if Nat.eqb k c then v node else f node k.

(* ------------------------------------------------------------------ *)
(** * Atmospheric forcing *)

(** The keyword arguments the classes pass on: forcing.py:92-94 (defaults), 176-188 (ERA5),
    200-215 (TCHazaRds), 258-273 (ATM). *)
Record atm_names := mk_names
  { an_east : string; an_north : string; an_pressure : string; an_time : string; an_units : string }.
Inductive atm_class := Generic | ERA5 | TCHazards | ATM.
Definition defaults : atm_names := mk_names "u10" "v10" "msl" "valid_time" "pa".
Definition names_of (c : atm_class) : atm_names :=
  match c with
  | Generic | ERA5 => defaults
  | TCHazards => mk_names "Uw" "Vw" "Pr" "time" "hpa"
  | ATM => mk_names "uwind" "vwind" "prmsl" (an_time defaults) (an_units defaults)
  end.

(** The default drag formula is always known, forcing.py:19, 60-79. *)
Definition stress_at (e n : R) : R * R :=
  match wind_stress 1.22 "LargeYeager2009" e n with Some p => p | None => (0, 0) end.

Record atm_fields := mk_atm { af_stress : vector; af_pressure : scalar }.

(** AtmosphericForcingInterpolator.set_fields, forcing.py:148-169.  [dim] is the number of
    components of the wind stress field; [vals] are the time-interpolated east wind, north
    wind and pressure.  ValueError: the tuple of the rotator cannot be unpacked. *)
Definition set_atm (units : string) (dim : nat) (rot : rotator) (vals : scalar * scalar * scalar)
  (f : atm_fields) : result atm_fields :=
  let '(e, n, p) := vals in
  let es := fun i => fst (stress_at (e i) (n i)) in
  let ns := fun i => snd (stress_at (e i) (n i)) in
  let stress :=
    if Nat.eqb dim 3 then
      match rot with
      | [fu; fv; fz] =>
        let s := set_component (af_stress f) 0 (fun i => fu i (es i) (ns i)) in
        let s := set_component s 1 (fun i => fv i (es i) (ns i)) in
        Done (set_component s 2 (fun i => fz i (es i) (ns i)))
      | _ => ValueError
      end
    else
      match rot with
      | [fu; fv] =>
        let s := set_component (af_stress f) 0 (fun i => fu i (es i) (ns i)) in
        Done (set_component s 1 (fun i => fv i (es i) (ns i)))
      | _ => ValueError
      end in
  match stress with
  | Done s =>
    Done (mk_atm s
      (if String.eqb units "pa" then p
       else if String.eqb units "hpa" then (fun i => p i * 100)
       else af_pressure f))
  | ValueError => ValueError | AssertionError => AssertionError | IndexError => IndexError
  end.

(** ATMNetCDFTime.__init__, forcing.py:223-243: the stamps kept from a file.  IndexError: no
    stamp is left (or there is none).  Without max_duration all are kept. *)
Definition mean_step (times : list R) : R :=
  (last times 0 - hd 0 times) / INR (List.length times - 1).
(** int() of a non-negative number *)
Definition int_of (x : R) : nat := Z.to_nat (Int_part x).
Definition kept_stamps (max_duration : option R) (times : list R) : result (list R) :=
  match times with
  | [] => IndexError
  | _ =>
    let steps := match max_duration with
                 | Some d => int_of (d / mean_step times)
                 | None => List.length times
                 end in
    match firstn steps times with [] => IndexError | l => Done l end
  end.

(* ------------------------------------------------------------------ *)
(** * Ocean model data *)

(** SpatialInterpolatorROMS3d._compute_roms_z_coord, forcing.py:673-692, for one column: the
    stretching at level k, the interface depth and the data points *)
Definition roms_s (hc bath s cs : R) : R := (hc * s + bath * cs) / (hc + bath).
Definition roms_w (hc zeta bath s cs : R) : R :=
  let ss := roms_s hc bath s cs in zeta * (1 + ss) + bath * ss.
(** [constant_zeta]: None or 0 means the value of the file *)
Definition roms_zeta (constant_zeta : option R) (file_zeta : R) : R :=
  match constant_zeta with
  | Some z => if Req_EM_T z 0 then file_zeta else z
  | None => file_zeta
  end.
(** 0.5*(w[1:] + w[:-1]) *)
Fixpoint midpoints (w : list R) : list R :=
  match w with
  | a :: ((b :: _) as r) => 0.5 * (b + a) :: midpoints r
  | _ => []
  end.
(** grid_z[0] = w[0]; grid_z[-1] = w[-1] *)
Definition set_last (l : list R) (x : R) : list R := match l with [] => [] | _ => removelast l ++ [x] end.
Definition set_first (l : list R) (x : R) : list R := match l with [] => [] | _ :: r => x :: r end.
Definition roms_grid (hc zeta bath : R) (levels : list (R * R)) : list R :=
  let w := map (fun p => roms_w hc zeta bath (fst p) (snd p)) levels in
  set_last (set_first (midpoints w) (hd 0 w)) (last w 0).

(** Extraction of the source points and of their data as one list.  NCOM: the tiled
    coordinates, the depths and the data are [:, ind] followed by the three-dimensional mask,
    forcing.py:407-423 and 451; [j] is a selected node. *)
Definition ncom_flatten {A} (levels : nat) (idx : list nat) (mask : nat -> nat -> bool) (a : nat -> nat -> A) : list A :=
  flat_map (fun k => flat_map (fun j => if mask k j then [a k j] else []) idx) (seq 0 levels).
(** ROMS: the nodes are masked first and the result is tiled (715-723) or taken level by level
    (687, 750). *)
Definition roms_flatten {A} (levels : nat) (idx : list nat) (mask : nat -> bool) (a : nat -> nat -> A) : list A :=
  flat_map (fun k => map (a k) (filter mask idx)) (seq 0 levels).

(** NCOMInterpolator, forcing.py:549-622.  A value of the reader belongs to a variable name.
    [fields] is the dictionary name -> field. *)
Definition mem (x : string) (l : list string) : bool := existsb (String.eqb x) l.
Fixpoint remove_first (x : string) (l : list string) : list string :=
  match l with [] => [] | y :: r => if String.eqb x y then r else y :: remove_first x r end.
Definition rotates (names : list string) : bool := mem "U_Velocity" names && mem "V_Velocity" names.
Definition scalar_names (names : list string) : list string :=
  if rotates names then remove_first "V_Velocity" (remove_first "U_Velocity" names) else names.
Definition put (d : string -> scalar) (k : string) (v : scalar) : string -> scalar :=
  fun x => if String.eqb x k then v else d x.
Definition set_ncom (names : list string) (rot : rotator) (val : string -> scalar)
  (d : string -> scalar) : result (string -> scalar) :=
  let start :=
    if rotates names then
      match rot with
      | [fu; fv] =>
        let u := fun i => fu i (val "U_Velocity" i) (val "V_Velocity" i) in
        let v := fun i => fv i (val "U_Velocity" i) (val "V_Velocity" i) in
        Done (put (put d "U_Velocity" u) "V_Velocity" v)
      | _ => ValueError
      end
    else Done d in
  match start with
  | Done d => Done (fold_left (fun d n => put d n (val n)) (scalar_names names) d)
  | e => e
  end.

(** GenericInterpolator2D, forcing.py:897-948.  The reader is given the list object that
    [self.field_names += ...] extends, so it reads the components as well. *)
Definition read_names (field_names : list string) (components : option (list string)) : list string :=
  field_names ++ match components with Some l => l | None => [] end.
Fixpoint index_of (x : string) (l : list string) : option nat :=
  match l with
  | [] => None
  | y :: r => if String.eqb x y then Some O else option_map S (index_of x r)
  end.
Record generic_fields := mk_gen { gf_scalars : nat -> scalar; gf_vector : vector }.
Definition set_generic (field_names : list string) (components : option (list string)) (dim : nat)
  (rot : rotator) (val : string -> scalar) (f : generic_fields) : result generic_fields :=
  let names := read_names field_names components in
  let vals := map val names in
  let vec :=
    match components with
    | None => Done (gf_vector f)
    | Some comps =>
      match map (fun c => index_of c names) comps with
      | [Some i; Some j] =>
        let e := nth i vals (fun _ => 0) in
        let n := nth j vals (fun _ => 0) in
        if Nat.eqb dim 3 then
          match rot with
          | [fu; fv; fw] =>
            let v := set_component (gf_vector f) 0 (fun k => fu k (e k) (n k)) in
            let v := set_component v 1 (fun k => fv k (e k) (n k)) in
            Done (set_component v 2 (fun k => fw k (e k) (n k)))
          | _ => ValueError
          end
        else
          match rot with
          | [fu; fv] =>
            let v := set_component (gf_vector f) 0 (fun k => fu k (e k) (n k)) in
            Done (set_component v 1 (fun k => fv k (e k) (n k)))
          | _ => ValueError
          end
      | _ => ValueError
      end
    end in
  match vec with
  | Done v => Done (mk_gen (fun i => if Nat.ltb i (List.length field_names) then nth i vals (fun _ => 0) else gf_scalars f i) v)
  | ValueError => ValueError | AssertionError => AssertionError | IndexError => IndexError
  end.

(* ------------------------------------------------------------------ *)
(** * Tidal forcing *)

(** TidalBoundaryForcing, forcing.py:951-1083.  The readers return None for a
    CoordinateError. *)
Record tidal := mk_tidal
  { td_nodes : list nat;               (* 1001-1007 *)
    td_latlon : nat -> R * R;          (* 1028-1029 *)
    td_lonlat_layout : bool;           (* coord_layout *)
    td_velocity : bool;                (* compute_velocity after the constructor *)
    td_rot : rotator }.
(** the constructor: [supported] is the attribute of the class (TPXO sets it to whether a
    velocity field is given, forcing.py:1121), 991-993 *)
Definition computes_velocity (supported has_uv_field : bool) : bool := supported && has_uv_field.

Record tide_data := mk_tide
  { get_elev : R -> R * R -> option R; get_u : R -> R * R -> option R; get_v : R -> R * R -> option R }.
Record tide_fields := mk_tf { tf_elev : scalar; tf_uv : vector }.

Definition set_node (a : scalar) (node : nat) (x : R) : scalar := fun k => if Nat.eqb k node then x else a k.
Definition point_of (td : tidal) (node : nat) : R * R :=
  let '(lat, lon) := td_latlon td node in
  if td_lonlat_layout td then (lon, lat) else (lat, lon).

(** the arrays the loop of 1065-1079 changes: elev_data, uv_data, lon_vel, lat_vel *)
Record tide_loop := mk_loop { tl_elev : scalar; tl_uv : vector; tl_lon : scalar; tl_lat : scalar }.
Definition tide_node (td : tidal) (data : tide_data) (t : R) (s : tide_loop) (node : nat) : tide_loop :=
  let p := point_of td node in
  let elev := set_node (tl_elev s) node (match get_elev data t p with Some x => x | None => 0 end) in
  if td_velocity td then
    match get_u data t p with
    | Some u =>
      let lon := set_node (tl_lon s) node u in
      match get_v data t p with
      | Some v => mk_loop elev (tl_uv s) lon (set_node (tl_lat s) node v)
      | None => mk_loop elev (fun k c => if (Nat.eqb k node && Nat.ltb c 2)%bool then 0 else tl_uv s k c) lon (tl_lat s)
      end
    | None => mk_loop elev (fun k c => if (Nat.eqb k node && Nat.ltb c 2)%bool then 0 else tl_uv s k c) (tl_lon s) (tl_lat s)
    end
  else mk_loop elev (tl_uv s) (tl_lon s) (tl_lat s).
(** set_tidal_field, 1052-1083.  IndexError: the rotator has fewer than two components. *)
Definition set_tidal (td : tidal) (data : tide_data) (t : R) (f : tide_fields) : result tide_fields :=
  match td_nodes td with
  | [] => Done f
  | nodes =>
    let s := fold_left (tide_node td data t) nodes (mk_loop (tf_elev f) (tf_uv f) (fun _ => 0) (fun _ => 0)) in
    if td_velocity td then
      match td_rot td with
      | fu :: fv :: _ =>
        let uv := set_component (tl_uv s) 0 (fun i => fu i (tl_lon s i) (tl_lat s i)) in
        Done (mk_tf (tl_elev s) (set_component uv 1 (fun i => fv i (tl_lon s i) (tl_lat s i))))
      | _ => IndexError
      end
    else Done (mk_tf (tl_elev s) (tf_uv f))
  end.
(** a sequence of calls *)
Definition tidal_run (td : tidal) (data : tide_data) (ts : list R) (f : tide_fields) : result tide_fields :=
  fold_left (fun r t => match r with Done f => set_tidal td data t f | e => e end) ts (Done f).
