(** Which source grid points the ocean model interpolators of
    /repo/thetis/forcing.py keep, and which values they then feed to the grid
    interpolator: NCOM (294-352, 482-517), ROMS (657-673, 697-751) and generic
    netCDF files (788-882).

    A grid of shape (ny, nx) is flattened row by row: point [j] is row j / nx,
    column j mod nx. Coordinates are exact numbers. cKDTree and the Delaunay
    triangulation are external: parameters [kd], [simplices], [find]. *)
From Coq Require Import String.
From Verif Require Import Num.
Import ListNotations.

Definition pt := (Qc * Qc)%type.          (* latitude, longitude *)
Definition lat (p : pt) : Qc := fst p.
Definition lon (p : pt) : Qc := snd p.

Inductive perr := AssertionErr | ValueErr | IndexErr.
Definition presult (A : Type) := (A + perr)%type.

(** A netCDF variable after [:]: its name, its values (None: masked) as layers
    of flattened fields, whether it has a vertical axis, and whether its mask
    attribute is the scalar False (no entry masked) instead of an array. *)
Record ncvar := mk_ncvar
  { nv_name : string; nv_layers : list (nat -> option Qc); nv_3d : bool; nv_scalar_mask : bool }.

Definition masked (o : option Qc) : bool := match o with None => true | Some _ => false end.

(* ------------------------------------------------------------------ *)
(** * NCOM *)

(** varkey, forcing.py:309-314 *)
Definition skip_names : list string := ["X_Index"; "Y_Index"; "level"]%string.
Fixpoint ncom_varkey (vars : list ncvar) : option ncvar :=
  match vars with
  | [] => None
  | v :: r => if existsb (String.eqb (nv_name v)) skip_names then ncom_varkey r else Some v
  end.
(** land_mask, 316-317: masked in all layers *)
Definition land (v : ncvar) (j : nat) : bool := forallb (fun f => masked (f j)) (nv_layers v).

(** .min() and .max() of a nonempty column *)
Definition minimum (x : Qc) (l : list Qc) : Qc := fold_left qmin l x.
Definition maximum (x : Qc) (l : list Qc) : Qc := fold_left qmax l x.
Definition buffer : Qc := qq 1 5.

(** The bounding box of the targets with its buffer, 323-331 *)
Definition in_box (targets : list pt) (t0 : pt) (p : pt) : bool :=
  let lat_min := (minimum (lat t0) (map lat targets) - buffer)%Qc in
  let lat_max := (maximum (lat t0) (map lat targets) + buffer)%Qc in
  let lon_min := (minimum (lon t0) (map lon targets) - buffer)%Qc in
  let lon_max := (maximum (lon t0) (map lon targets) + buffer)%Qc in
  (Qcleb lat_min (lat p) && Qcleb (lat p) lat_max && Qcleb lon_min (lon p) && Qcleb (lon p) lon_max)%bool.

(** _create_2d_mapping, 294-352: the flat indices of the points kept. [n] points
    with coordinates [grid]. An empty tree answers every query with index 0,
    which is out of range of the (empty) array of valid points. *)
Definition ncom_mapping (kd : list pt -> pt -> nat) (n : nat) (grid : nat -> pt)
  (vars : list ncvar) (targets : list pt) : presult (list nat) :=
  match ncom_varkey vars with
  | None => inr AssertionErr
  | Some v =>
      match targets with
      | [] => inr ValueErr                      (* minimum of an empty array *)
      | t0 :: _ =>
          if nv_scalar_mask v then inr IndexErr (* 332: boolean index of a 0-d array *)
          else
            let good := filter (fun j => negb (land v j)) (seq 0 n) in
            let cover j := (in_box targets t0 (grid j) && negb (land v j))%bool in
            let ll := map grid good in
            let ix := map (kd ll) targets in
            if existsb (fun i => Nat.leb (length good) i) ix then inr IndexErr
            else
              let nn := map (fun i => nth i good 0%nat) ix in
              let nodes := filter (fun j => (cover j || existsb (Nat.eqb j) nn)%bool) (seq 0 n) in
              match nodes with [] => inr AssertionErr | _ => inl nodes end
      end
  end.

(** numpy.unravel_index, 346 *)
Definition unravel (nx : nat) (j : nat) : nat * nat := (Nat.div j nx, Nat.modulo j nx).

(** What NCOM2d feeds to the grid interpolator for variable [f], 511-515 *)
Definition ncom2d_values (nodes : list nat) (f : nat -> option Qc) : list (option Qc) := map f nodes.

(* ------------------------------------------------------------------ *)
(** * ROMS and generic files *)

(** _get_subset_nodes, 657-671 and 806-820: the vertices of the simplices that
    hold the targets, sorted, each once. find_simplex answers -1 for a target
    outside the grid (None here), and numpy.take counts -1 from the end. *)
Section Subset.
Variable simplices : list (list nat).
Variable find : pt -> option nat.
Definition simplex_of (t : pt) : list nat :=
  match find t with
  | Some i => nth i simplices []
  | None => last simplices []
  end.
Definition subset_nodes (n : nat) (targets : list pt) : list nat :=
  let vertices := flat_map simplex_of targets in
  filter (fun j => existsb (Nat.eqb j) vertices) (seq 0 n).
End Subset.

(** _get_nc_var_name, 788-804: a file is a list of variables with their standard
    names (None: attribute missing) *)
Fixpoint nc_var_name (vars : list (string * option string)) (std : string) : presult string :=
  match vars with
  | [] => inr AssertionErr
  | (name, s) :: r =>
      match s with
      | Some s => if String.eqb s std then inl name else nc_var_name r std
      | None => nc_var_name r std
      end
  end.

(** valid_mask, 834-842: the mask of the first time level of the first variable
    with three dimensions; a scalar mask fails the shape assertion. Layers of
    [ncvar] are the time levels here and [nv_3d] says that it has three
    dimensions. *)
Fixpoint generic_mask (vars : list ncvar) : presult (nat -> bool) :=
  match vars with
  | [] => inr AssertionErr
  | v :: r =>
      if nv_3d v then
        if nv_scalar_mask v then inr AssertionErr
        else match nv_layers v with
             | f :: _ => inl (fun j => negb (masked (f j)))
             | [] => inr IndexErr
             end
      else generic_mask r
  end.

(** GenericSpatialInterpolator2D: the state kept between calls is the selected
    points, 844-868; interpolate, 870-882, feeds the values of the requested
    variable at time [itime] at those points. *)
Definition gstate := option (list nat).
Definition generic_select (simplices : list (list nat)) (find : pt -> option nat) (n : nat)
  (vars : list ncvar) (targets : list pt) : presult (list nat) :=
  match generic_mask vars with
  | inr e => inr e
  | inl valid => inl (filter valid (subset_nodes simplices find n targets))
  end.
Fixpoint find_var (vars : list ncvar) (name : string) : option ncvar :=
  match vars with
  | [] => None
  | v :: r => if String.eqb (nv_name v) name then Some v else find_var r name
  end.
(** One call for one variable; the triangulation belongs to the grid of the file
    of the first call. *)
Definition generic_interpolate (simplices : list (list nat)) (find : pt -> option nat) (n : nat)
  (targets : list pt) (s : gstate) (vars : list ncvar) (name : string) (itime : nat)
  : gstate * presult (list (option Qc)) :=
  let sel := match s with
             | Some l => inl l
             | None => generic_select simplices find n vars targets
             end in
  match sel with
  | inr e => (s, inr e)
  | inl l =>
      match find_var vars name with
      | None => (Some l, inr AssertionErr)
      | Some v =>
          match nth_error (nv_layers v) itime with
          | None => (Some l, inr IndexErr)
          | Some f => (Some l, inl (map f l))
          end
      end
  end.

(** SpatialInterpolatorROMS3d._create_interpolator, 697-713: the points kept are
    the wet ones (mask_rho) of the subset. *)
Definition roms_select (simplices : list (list nat)) (find : pt -> option nat) (n : nat)
  (mask_rho : nat -> bool) (targets : list pt) : list nat :=
  filter mask_rho (subset_nodes simplices find n targets).

(** interpolation.py:308-325: the rows and columns read by NetCDFLatLonInterpolator2d:
    the bounding rectangle of the nodes, as half-open ranges (rows, columns);
    ValueErr: minimum of an empty array *)
Definition min_nat (x : nat) (l : list nat) : nat := fold_left Nat.min l x.
Definition max_nat (x : nat) (l : list nat) : nat := fold_left Nat.max l x.
Definition rectangle (nx : nat) (nodes : list nat) : presult ((nat * nat) * (nat * nat)) :=
  match map (unravel nx) nodes with
  | [] => inr ValueErr
  | (r, c) :: rest =>
      inl ((min_nat r (map fst rest), S (max_nat r (map fst rest))),
           (min_nat c (map snd rest), S (max_nat c (map snd rest))))
  end.

(** NetCDFLatLonInterpolator2d.interpolate, interpolation.py:460-465: the shapes of the
    coordinate arrays; the inner answer says whether they are meshed. Both tests look at
    the latitude. *)
Definition latlon_meshed (lat_ndim lon_ndim : nat) : presult bool :=
  let lat_is_1d := Nat.eqb lat_ndim 1 in
  let lon_is_1d := Nat.eqb lat_ndim 1 in
  if Bool.eqb lat_is_1d lon_is_1d then inl (lat_is_1d && lon_is_1d)%bool else inr AssertionErr.
